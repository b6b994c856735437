(** Construction of the subsampled Psi indexes. *)
From Coq Require Import List Arith Bool Lia ZifyBool ZifyNat Permutation.
From Verif Require Import Spec MBase Lists FM MRle Runs RleProof MConstruct MPhi MRIndex MSrIndex Util Phi
  ConstructProof Nav PhiProof BaseProof SamplingProof SubsProof SrValid MPsi EncProof PsiSym PsiOps PsiProof PsiCore PsiSpec PsiText
  MCsa CsaNav CsaPhi PsiOrder CsaProof MSrCsa FwdRange FwdSubs FwdValid FwdRuns FwdQuery.
Import ListNotations.

Lemma ssorted_map_nth l ks : ssorted l -> ssorted ks -> (forall k, In k ks -> k < length l) ->
  ssorted (map (fun k => nth k l 0) ks).
Proof.
  intros Hl. induction 1 as [|a t Hs IH Hf]; intros H; cbn [map]; constructor.
  - apply IH. intros; apply H; right; auto.
  - rewrite Forall_map, Forall_forall in *. intros x Hx. specialize (Hf x Hx).
    apply (ssorted_nth l Hl a x); [exact Hf|]. apply H. right; auto.
Qed.
Lemma running_sums_nth l : forall acc j, j < length l -> nth_error (running_sums acc l) j = Some (acc + list_sum (firstn (S j) l)).
Proof.
  induction l as [|x l IH]; intros acc j Hj; [cbn in Hj; lia|]. cbn [running_sums]. destruct j as [|j].
  - cbn. f_equal. lia.
  - cbn [nth_error]. rewrite IH by (cbn in Hj; lia). cbn [firstn]. f_equal. cbn [list_sum fold_right]. unfold list_sum. lia.
Qed.
Lemma cum_counts b sigma c : 0 < c < sigma ->
  nth_error (running_sums 0 (map (fun c => length (occs b c)) (seq 0 sigma))) (c - 1) = Some (count (fun x => x <? c) b).
Proof.
  intros Hc. rewrite running_sums_nth by (rewrite map_length, seq_length; lia). f_equal. replace (S (c - 1)) with c by lia.
  rewrite firstn_map. replace sigma with (c + (sigma - c)) by lia. rewrite seq_app, firstn_app, seq_length, Nat.sub_diag, firstn_O, app_nil_r.
  rewrite firstn_all2 by (rewrite seq_length; auto). rewrite <- psis_prefix.
  generalize (seq 0 c). induction l as [|a l IH]; auto. cbn [map flat_map]. rewrite app_length. unfold list_sum in *. cbn [fold_right]. lia.
Qed.

Lemma firstn_Sn (l : list nat) : forall i, i < length l -> firstn (S i) l = firstn i l ++ [nth i l 0].
Proof.
  induction l as [|x l IH]; intros i H; [cbn in H; lia|].
  destruct i as [|i]; auto. cbn [firstn nth app]. f_equal. apply IH. cbn in H. lia.
Qed.
Lemma ntherr_firstn {A} (l : list A) : forall m i, i < m -> nth_error (firstn m l) i = nth_error l i.
Proof.
  induction l as [|x l IH]; intros m i H; destruct m as [|m]; try lia; [destruct i; auto|].
  destruct i as [|i]; auto. cbn [firstn nth_error]. apply IH. lia.
Qed.
Lemma ntherr_skipn {A} (l : list A) : forall m i, nth_error (skipn m l) i = nth_error l (m + i).
Proof.
  induction l as [|x l IH]; intros m i; destruct m as [|m]; auto; [destruct i; auto|]. cbn [skipn]. rewrite IH. auto.
Qed.

(** * Order by alphabet *)
Section Sorted.
  Variables (po ks : list nat) (f : nat -> nat).
  Notation r := (length po).
  Hypothesis Hpo : NoDup po.
  Hypothesis Hpl : forall k, In k po <-> k < r.
  Hypothesis Hks : ssorted ks.
  Hypothesis Hkl : forall k, In k ks -> k < r.
  Notation ink q := (memb ks (nth q po 0)).
  Notation idxs m := (filter (fun q => memb ks (nth q po 0)) (seq 0 m)).
  Notation rk k := (count (fun x => x <? k) ks).

  Lemma rk_nth i : i < length ks -> rk (nth i ks 0) = i.
  Proof.
    intros Hi. destruct (Nat.lt_trichotomy (rk (nth i ks 0)) i) as [G|[G|G]]; auto; exfalso.
    - pose proof (ssorted_nth ks Hks _ i G Hi) as Q. pose proof (count_lt_sorted ks Hks (nth i ks 0) (rk (nth i ks 0)) ltac:(lia)). lia.
    - apply (count_lt_sorted ks Hks) in G; auto. lia.
  Qed.
  Lemma rk_in k : In k ks -> rk k < length ks /\ nth (rk k) ks 0 = k.
  Proof. intros H. destruct (In_nth _ _ 0 H) as (i & Hi & <-). rewrite rk_nth by auto. auto. Qed.

  (** State after the first [m] entries of the order. *)
  Definition sorted_inv (m : nat) (st : sorted_state) : Prop :=
    exists ts, st = (m, length (idxs m), map (fun q => f (nth q po 0)) (idxs m), idxs m, ts) /\ length ts = length ks /\
      forall q, q < m -> ink q = true -> nth_error ts (rk (nth q po 0)) = Some (length (idxs q)).
  Lemma idxs_S m : idxs (S m) = idxs m ++ (if ink m then [m] else []).
  Proof. rewrite seq_S, filter_app. cbn [filter Nat.add]. auto. Qed.
  Lemma sorted_fold m : m <= r -> exists st,
    mfold (sorted_step (bits_of ks r) (map f ks)) (firstn m po) (0, 0, [], [], repeat 0 (length ks)) = Some st /\ sorted_inv m st.
  Proof.
    induction m as [|m IH]; intros Hm.
    - eexists. split; [reflexivity|]. exists (repeat 0 (length ks)). split; auto. split; [apply repeat_length|]. intros; lia.
    - destruct (IH ltac:(lia)) as (st & E & ts & -> & Lts & Hts).
      rewrite (firstn_Sn po m) by lia. rewrite mfold_app, E. cbn [bind mfold].
      set (k := nth m po 0). assert (Hk : k < r) by (apply Hpl, nth_In; lia).
      unfold sorted_step. unfold bits_of at 1. rewrite nth_error_map_seq by auto. cbn [bind].
      pose proof (idxs_S m) as ES. fold k in ES. destruct (memb ks k) eqn:Ek.
      + apply memb_In in Ek as Hin. destruct (rk_in k Hin) as [R1 R2].
        rewrite (bits_rank ks r Hks Hkl) by lia. cbn [bind].
        rewrite nth_error_map, (nth_error_nth_lt _ _ 0) by auto. rewrite R2. cbn [option_map bind].
        unfold list_set. rewrite Lts. destruct (Nat.ltb_spec (rk k) (length ks)); [|lia]. cbn [bind].
        eexists. split; [reflexivity|]. unfold sorted_inv. rewrite ES. eexists. split; [|split].
        * rewrite app_length, map_app. cbn [length map]. rewrite Nat.add_1_r. reflexivity.
        * rewrite app_length, firstn_length. cbn [length]. rewrite skipn_length. lia.
        * intros q Hq Hqk. destruct (Nat.eq_dec q m) as [->|Hne].
          -- fold k. rewrite nth_error_app2 by (rewrite firstn_length; lia). rewrite firstn_length. replace (rk k - Nat.min (rk k) (length ts)) with 0 by lia. auto.
          -- apply memb_In in Hqk as Hq2. destruct (rk_in _ Hq2) as [Q1 Q2].
             assert (Hd : rk (nth q po 0) <> rk k).
             { intros Ed. rewrite Ed, R2 in Q2. apply Hne. apply (proj1 (NoDup_nth po 0) Hpo); auto; lia. }
             specialize (Hts q ltac:(lia) Hqk). rewrite <- Hts.
             destruct (Nat.lt_ge_cases (rk (nth q po 0)) (rk k)) as [G|G].
             ++ rewrite nth_error_app1 by (rewrite firstn_length; lia). apply ntherr_firstn; auto.
             ++ rewrite nth_error_app2 by (rewrite firstn_length; lia). rewrite firstn_length.
                replace (rk (nth q po 0) - Nat.min (rk k) (length ts)) with (S (rk (nth q po 0) - S (rk k))) by lia.
                cbn [nth_error]. rewrite ntherr_skipn. f_equal. lia.
      + eexists. split; [reflexivity|]. unfold sorted_inv. rewrite ES, app_nil_r. exists ts. split; auto. split; auto.
        intros q Hq Hqk. destruct (Nat.eq_dec q m) as [->|Hne]; [fold k in Hqk; congruence|]. apply Hts; auto; lia.
  Qed.
  Lemma idxs_nth q : q < r -> ink q = true -> nth_error (idxs r) (length (idxs q)) = Some q.
  Proof.
    intros Hq Hk. replace r with (q + S (r - S q)) by lia. rewrite seq_app, filter_app. cbn [seq filter Nat.add].
    rewrite Hk. rewrite nth_error_app2 by lia. rewrite Nat.sub_diag. auto.
  Qed.
  Theorem subsamples_sorted_ok smarks (sub_links : list nat) : (forall i, In i sub_links -> i < length ks) -> exists links,
    subsamples_sorted_by_alphabet po (mk_sri_files ks (map f ks) smarks sub_links) =
      Some (map (fun q => f (nth q po 0)) (idxs r), idxs r, links) /\ length links = length sub_links /\
    forall j i, nth_error sub_links j = Some i -> exists l, nth_error links j = Some l /\
      nth_error (map (fun q => f (nth q po 0)) (idxs r)) l = Some (f (nth i ks 0)).
  Proof.
    intros Hsl. unfold subsamples_sorted_by_alphabet. cbn [sf_idx sf_samples sf_links].
    rewrite construct_bits by auto. cbn [bind].
    destruct (sorted_fold r (Nat.le_refl _)) as (st & E & ts & -> & Lts & Hts). rewrite firstn_all in E. rewrite E. cbn [bind].
    assert (Hall : forall i, i < length ks -> exists q, q < r /\ nth q po 0 = nth i ks 0 /\ nth_error ts i = Some (length (idxs q))).
    { intros i Hi. assert (Hin : In (nth i ks 0) ks) by (apply nth_In; auto).
      assert (Hp : In (nth i ks 0) po) by (apply Hpl, Hkl; auto). destruct (In_nth _ _ 0 Hp) as (q & Hq & Eq). exists q. split; auto. split; auto.
      specialize (Hts q Hq). rewrite Eq, rk_nth in Hts by auto. apply Hts. apply memb_In; auto. }
    rewrite (mmap_map _ (fun i => nth i ts 0)).
    2:{ intros i Hi. apply nth_error_nth_lt. rewrite Lts. auto. }
    cbn [bind]. eexists. split; [reflexivity|]. split; [apply map_length|]. intros j i Eji.
    assert (Hi : i < length ks) by (apply Hsl; eapply nth_error_In; eauto).
    destruct (Hall i Hi) as (q & Hq & Eq & Et). exists (length (idxs q)). split.
    - rewrite nth_error_map, Eji. cbn [option_map]. f_equal. apply nth_error_nth. auto.
    - rewrite nth_error_map, idxs_nth; auto.
      + cbn [option_map]. rewrite Eq. auto.
      + apply memb_In. rewrite Eq. apply nth_In; auto.
  Qed.
End Sorted.

Section Build.
  Variables (w sa : list nat).
  Hypothesis Hw : zero_free w.
  Hypothesis HSA : is_suffix_array (terminated w) sa.
  Notation T := (ctext w sa).
  Notation n := (len T).
  Notation B := (BW T sa).
  Notation tp := (tpos T sa).
  Let HT : text_ok T := ctext_ok w sa Hw HSA.
  Let HS : is_suffix_array T sa := ctext_sa w sa Hw HSA.
  Variables (al : alphabet) (h : nat).
  Hypothesis Hal : al = construct_alphabet (BW (terminated w) sa).
  Hypothesis Hh : 0 < h.
  Hypothesis Hn : n < 2 ^ 64.
  Notation sigma := (al_sigma al).
  Notation pc := (core B sigma h).
  Notation r := (length (rle B)).
  Notation rs k := (rstart (rle B) k).
  Notation hs := (map fst (rle B)).
  Let Hlt := B_lt w sa Hw HSA al Hal.
  Let Hocc := ta_O w sa Hw HSA al Hal.
  Let HBn : length B < 2 ^ 64 := c_hn w sa Hw HSA Hn.
  Let HB0 : 0 < length B := c_n0 w sa Hw HSA.
  Let HBl : length B = n := c_n w sa Hw HSA.
  Let HN := ta_N w sa Hw HSA al Hal.
  Notation phr := (phrows T sa sigma).
  Notation ptr := (ptrows T sa sigma).
  Notation fm := (sorted_values (tmarks T sa)).
  Notation smarks K := (map (fun i => tp (blink T sa i)) K).
  Notation common s K ix := (ix_common w sa al h s K ix).
  Variable s : nat.

  (** Links from the marks of [K] in text order. *)
  Lemma sub_links K k t : (forall i, In i K -> i < n) -> k < length K -> t < n -> tp t = nth k (sorted_values (smarks K)) 0 ->
    exists i, nth_error (sort_indices (smarks K)) k = Some i /\ i < length K /\ flink T sa t = nth i K 0.
  Proof.
    intros HK Hk Ht E. set (idx := nth k (sort_indices (smarks K)) 0).
    assert (Hidx : idx < length K).
    { rewrite <- (map_length (fun i => tp (blink T sa i))). apply sort_indices_lt. apply nth_In. rewrite sort_indices_length, map_length. auto. }
    exists idx. split; [apply nth_error_nth_lt; rewrite sort_indices_length, map_length; auto|]. split; auto.
    rewrite sorted_values_nth in E by (rewrite map_length; auto). fold idx in E. rewrite (nth_map_lt _ _ _ 0) in E by auto.
    apply (tpos_inj T sa HT HS) in E; [|auto|apply blink_lt; auto]. rewrite E. apply (flink_blink T sa HT HS). apply HK, nth_In; auto.
  Qed.
  Lemma smarks_bits K : construct_bit_vector (smarks K) n false = Some (bits_of (smarks K) n).
  Proof.
    apply construct_bits. intros v Hv. apply in_map_iff in Hv. destruct Hv as (i & <- & _). apply tpos_lt; auto.
  Qed.

  (** * BWT runs *)
  Notation hrow k := (nth k (hrows T sa) 0).
  Let Lhr : length (hrows T sa) = r := hrows_r T sa.
  Lemma hrow_lt k : k < r -> hrow k < n.
  Proof. intros H. rewrite hrows_nth by auto. apply (o_rs_lt_n T sa HS); auto. Qed.
  Lemma commons_ok data : data = w \/ data = terminated w -> exists b ks,
    let K := map (fun k => hrow k) ks in
    construct_srcsa_commons s (2 * h) data sa =
      Some (b, pc, mk_sri_files ks (map (fun k => tp (hrow k)) ks) (smarks K) (sort_indices (smarks K)),
            sort_indices (tmarks T sa), bits_of (smarks K) n) /\
    cbase w sa al h b /\ ssorted ks /\ (forall k, In k ks -> k < r) /\ fwd_kept T sa s K.
  Proof.
    intros Hd. destruct (cbase_ok w sa Hw HSA al h Hal Hh Hn data Hd) as (b & Eb & F).
    destruct (construct_subsamples_backward_ok T sa HT HS (hrows T sa) (trows T sa) (flink_bwt w sa)) with (s := s)
      as (ks & E & Sks & Hks & HF).
    - apply (hrows_in T sa HS).
    - apply (trows_in T sa HS).
    - apply ssorted_NoDup, (rows_ssorted T sa HS).
    - apply ssorted_NoDup, (trows_ssorted T sa HS).
    - apply (flink_bwt_ok w sa Hw HSA).
    - rewrite Lhr in Hks. exists b, ks. intros K. split; [|auto].
      unfold construct_srcsa_commons. rewrite Eb. cbn [bind]. rewrite (cb_core _ _ _ _ b F). cbn [bind].
      rewrite (links_bwt_ok w sa Hw HSA al h Hal Hh Hn b F). cbn [bind]. rewrite (cb_runs _ _ _ _ b F), (cb_len _ _ _ _ b F).
      cbn [br_last_text br_first_text br_first br_last].
      change (construct_bit_vector (tmarks T sa)) with (construct_bit_vector (map tp (trows T sa))).
      rewrite (marks_bits w sa Hw HSA) by tauto. cbn [bind].
      change (map tp (hrows T sa)) with (hmarks T sa) in E. change (map tp (trows T sa)) with (tmarks T sa) in E.
      rewrite E. cbn [bind].
      unfold sample_to_mark_bwt. unfold al_size. rewrite (cb_alpha _ _ _ _ b F), HN. cbn [bind]. rewrite (cb_runs _ _ _ _ b F).
      cbn [br_first br_last].
      rewrite (mmap_map _ (fun i => lower_bound (trows T sa) (blink T sa (hrow i)))).
      2:{ intros i Hi. rewrite (nth_error_nth_lt _ _ 0) by (rewrite Lhr; auto). cbn [bind].
          apply (link_to_mark_ok w sa Hw HSA al h Hal Hh Hn b); auto. apply hrow_lt; auto. }
      cbn [bind]. unfold construct_submarks_of. rewrite (mmap_map _ (fun j => nth j (tmarks T sa) 0)).
      2:{ intros j Hj. apply in_map_iff in Hj. destruct Hj as (i & <- & Hi). apply nth_error_nth_lt. unfold tmarks. rewrite map_length.
          apply lower_bound_in; [apply (trows_ssorted T sa HS)|]. apply (trows_in T sa HS).
          pose proof (hrow_lt i (Hks i Hi)). split; [apply blink_lt; auto|]. apply (blink_tail T sa HT HS); auto.
          rewrite hrows_nth by auto. apply (head_row T sa HS); auto. }
      cbn [bind]. rewrite !map_map.
      assert (Em : map (fun x => nth (lower_bound (trows T sa) (blink T sa (hrow x))) (tmarks T sa) 0) ks = smarks K).
      { unfold K. rewrite map_map. apply map_ext_in. intros i Hi. pose proof (hrow_lt i (Hks i Hi)).
        destruct (lower_bound_in (trows T sa) (blink T sa (hrow i))) as [L1 L2].
        - apply (trows_ssorted T sa HS).
        - apply (trows_in T sa HS). split; [apply blink_lt; auto|]. apply (blink_tail T sa HT HS); auto.
          rewrite hrows_nth by auto. apply (head_row T sa HS); auto.
        - unfold tmarks. rewrite (nth_map_lt _ _ _ 0) by auto. rewrite L2. auto. }
      rewrite Em. rewrite smarks_bits. cbn [bind]. auto.
  Qed.

  (** The index of rows. *)
  Lemma srcsa_of_ok b ks idx : let K := map (fun k => hrow k) ks in
    cbase w sa al h b -> ssorted ks -> (forall k, In k ks -> k < r) -> fwd_kept T sa s K -> exists ix,
    construct_srcsa_of s (b, pc, mk_sri_files ks (map (fun k => tp (hrow k)) ks) (smarks K) (sort_indices (smarks K)),
            idx, bits_of (smarks K) n) = Some ix /\ common s K ix /\ ix_rows w sa K ix K.
  Proof.
    intros K F Sks Hks HF. unfold construct_srcsa_of. cbn [sf_idx sf_samples sf_links].
    rewrite (cb_runs _ _ _ _ b F), (cb_len _ _ _ _ b F). cbn [br_first].
    rewrite (mmap_map _ (fun k => hrow k)) by (intros i Hi; apply nth_error_nth_lt; rewrite Lhr; auto). cbn [bind]. fold K.
    assert (HK : forall i, In i K -> i < n) by (intros i Hi; apply (fk_head _ _ _ _ HF); auto).
    rewrite construct_bits by auto. cbn [bind]. rewrite (cb_alpha _ _ _ _ b F). eexists. split; [reflexivity|]. split.
    - constructor; auto. cbn [sc_links sc_samples]. intros k t Hk Ht E.
      destruct (sub_links K k t HK Hk Ht E) as (i & E1 & E2 & E3). exists i. split; auto.
      rewrite E3. rewrite nth_error_map. unfold K in E2. rewrite map_length in E2. rewrite (nth_error_nth_lt _ _ 0) by auto. cbn [option_map].
      unfold K. rewrite (nth_map_lt _ _ _ 0) by auto. auto.
    - constructor; auto.
      + apply ssorted_map_nth; auto; [apply (rows_ssorted T sa HS)|rewrite Lhr; auto].
      + tauto.
      + cbn [sc_samples]. unfold K. rewrite map_map. auto.
  Qed.

  (** The slim index. *)
  Notation po := (po T sa sigma).
  Lemma samples_sorted_ok : samples_sorted_by_alphabet pc (hrows T sa) =
    Some (po, running_sums 0 (map (fun c => length (occs hs c)) (seq 0 sigma))).
  Proof.
    unfold samples_sorted_by_alphabet. rewrite (core_partial_length B sigma h).
    rewrite (mmap_map _ (fun c => map (fun k => (rs k, rs (S k))) (occs hs c))).
    2:{ intros c Hc. apply in_seq in Hc. apply (core_traverse B sigma h Hlt Hocc Hh HBn). lia. }
    cbn [bind]. rewrite !map_map. f_equal. f_equal.
    - unfold PsiOrder.po, psis. rewrite flat_map_concat_map. f_equal. apply map_ext. intros c. rewrite map_map. cbn [fst].
      rewrite <- (map_id (occs hs c)) at 2. apply map_ext_in. intros k Hk. apply occs_in in Hk. rewrite map_length in Hk.
      rewrite <- hrows_nth by apply Hk. apply lower_bound_nth; [apply (rows_ssorted T sa HS)|rewrite Lhr; apply Hk].
    - f_equal. apply map_ext. intros c. apply map_length.
  Qed.
  Lemma slim_of_ok b ks idx : let K := map (fun k => hrow k) ks in
    cbase w sa al h b -> ssorted ks -> (forall k, In k ks -> k < r) -> fwd_kept T sa s K -> exists ix qs,
    construct_srcsa_slim_of s (b, pc, mk_sri_files ks (map (fun k => tp (hrow k)) ks) (smarks K) (sort_indices (smarks K)),
            idx, bits_of (smarks K) n) = Some ix /\ common s K ix /\ ix_runs w sa al K ix qs.
  Proof.
    intros K F Sks Hks HF. unfold construct_srcsa_slim_of. cbn [sf_idx sf_samples sf_links].
    rewrite (cb_runs _ _ _ _ b F). cbn [br_first]. rewrite samples_sorted_ok. cbn [bind].
    assert (Lp : length po = r) by apply (po_length T sa HS sigma Hlt).
    assert (HK : forall i, In i K -> i < n) by (intros i Hi; apply (fk_head _ _ _ _ HF); auto).
    destruct (subsamples_sorted_ok po ks (fun k => tp (hrow k))) with (smarks := smarks K) (sub_links := sort_indices (smarks K))
      as (links & E & Ll & Hl).
    - apply po_NoDup.
    - intros k. rewrite Lp. apply (po_in T sa HS sigma Hlt).
    - auto.
    - rewrite Lp. auto.
    - intros i Hi. apply sort_indices_lt in Hi. unfold K in Hi. rewrite !map_length in Hi. auto.
    - rewrite E. cbn [bind]. rewrite Lhr. rewrite Lp in *.
      set (qs := filter (fun q => memb ks (nth q po 0)) (seq 0 r)) in *.
      assert (Hq : forall q, In q qs -> q < r) by (intros q H; apply filter_In in H; destruct H as [H _]; apply in_seq in H; lia).
      assert (Hph : forall q, q < r -> nth q phr 0 = hrow (nth q po 0)).
      { intros q Hq'. rewrite (phrows_nth T sa HS sigma Hlt) by auto. rewrite hrows_nth; auto. apply (po_nth_lt T sa HS sigma Hlt); auto. }
      rewrite construct_bits by auto. cbn [bind]. rewrite (cb_alpha _ _ _ _ b F). eexists. exists qs. split; [reflexivity|]. split.
      + constructor; auto. cbn [sc_links sc_samples]. intros k t Hk Ht Et.
        destruct (sub_links K k t HK Hk Ht Et) as (i & E1 & E2 & E3). destruct (Hl k i E1) as (l & F1 & F2). exists l. split; auto.
        rewrite F2. f_equal. rewrite E3. unfold K. unfold K in E2. rewrite map_length in E2. rewrite (nth_map_lt _ _ _ 0) by auto. auto.
      + constructor; auto.
        * apply ssorted_filter_seq.
        * intros q Hqr. unfold qs. rewrite filter_In, in_seq, memb_In. rewrite Hph by auto. unfold K. rewrite in_map_iff. split.
          -- intros [_ H]. exists (nth q po 0). auto.
          -- intros (k & Ek & Hk). split; [lia|].
             assert (k = nth q po 0); [|subst; auto].
             apply (proj1 (NoDup_nth (hrows T sa) 0) (ssorted_NoDup _ (rows_ssorted T sa HS))); auto; rewrite Lhr; auto.
             apply (po_nth_lt T sa HS sigma Hlt); auto.
        * cbn [sc_samples]. apply map_ext_in. intros q H. rewrite Hph by auto. auto.
        * cbn [sc_cum]. intros c Hc. apply cum_counts; auto.
  Qed.

  (** Validity. *)
  Lemma set_valid_common K ix v a : common s K ix -> common s K (set_validity ix v a).
  Proof. intros []. constructor; auto. Qed.
  Lemma set_valid_rows K ix ms v a : ix_rows w sa K ix ms -> ix_rows w sa K (set_validity ix v a) ms.
  Proof. intros []. constructor; auto. Qed.
  Lemma set_valid_runs K ix qs v a : ix_runs w sa al K ix qs -> ix_runs w sa al K (set_validity ix v a) qs.
  Proof. intros []. constructor; auto. Qed.
  Let Hfs : ssorted fm := sorted_values_sorted _ (tmarks_NoDup T sa HT HS).
  Lemma valid_of_ok make data b ks ix : let K := map (fun k => hrow k) ks in
    construct_srcsa_commons s (2 * h) data sa =
      Some (b, pc, mk_sri_files ks (map (fun k => tp (hrow k)) ks) (smarks K) (sort_indices (smarks K)),
            sort_indices (tmarks T sa), bits_of (smarks K) n) ->
    cbase w sa al h b -> fwd_kept T sa s K ->
    make s (b, pc, mk_sri_files ks (map (fun k => tp (hrow k)) ks) (smarks K) (sort_indices (smarks K)),
            sort_indices (tmarks T sa), bits_of (smarks K) n) = Some ix ->
    exists ix', construct_srcsa_valid_of make s (2 * h) data sa = Some ix' /\ (exists v a, ix' = set_validity ix v a) /\
      ix_valid w sa K ix'.
  Proof.
    intros K Ec F HF Em. unfold construct_srcsa_valid_of. rewrite Ec. cbn [bind]. rewrite Em. cbn [bind]. rewrite (cb_runs _ _ _ _ b F).
    cbn [br_last_text sf_marks sf_samples].
    rewrite (mmap_map _ (fun i => nth i (tmarks T sa) 0)) by (intros i Hi; apply sort_indices_lt in Hi; apply nth_error_nth_lt; auto).
    cbn [bind]. fold (sorted_values (tmarks T sa)).
    rewrite (construct_validity_backward_ok T sa HT HS s K HF fm Hfs (fm_in w sa Hw HSA)). cbn [bind].
    rewrite map_length. pose proof (construct_fbits T sa K fm (fm_in w sa Hw HSA)) as Eb.
    replace (length ks) with (length K) by apply map_length. rewrite Eb. cbn [bind].
    eexists. split; [reflexivity|]. split; [eauto|]. constructor; auto.
  Qed.

  (** * Psi runs *)
  Lemma psi_of_ok data : data = w \/ data = terminated w -> exists ix ks,
    let K := map (fun k => nth k phr 0) ks in
    construct_srcsa_psi_of s (2 * h) data sa =
      Some (ix, (map tp ptr, mk_sri_files ks (map (fun k => tp (nth k phr 0)) ks) (smarks K) (sort_indices (smarks K)))) /\
    fwd_kept T sa s K /\ common s K ix /\ ix_runs w sa al K ix ks.
  Proof.
    intros Hd. destruct (cbase_ok w sa Hw HSA al h Hal Hh Hn data Hd) as (b & Eb & F).
    pose proof (phrows_length T sa HS sigma Hlt) as Lph. pose proof (ptrows_length T sa HS sigma Hlt) as Lpt.
    pose proof (r_gt0 T sa HT HS) as Hr0.
    destruct (construct_subsamples_backward_ok T sa HT HS phr ptr (fun q => (q + 1) mod r)) with (s := s)
      as (ks & E & Sks & Hks & HF).
    - intros i. rewrite (phrows_in T sa HS sigma Hlt). apply (hrows_in T sa HS).
    - intros i. rewrite (ptrows_in T sa HS sigma Hlt). apply (trows_in T sa HS).
    - apply (phrows_NoDup T sa HS sigma Hlt).
    - apply (ptrows_NoDup T sa HS sigma Hlt).
    - intros i Hi. rewrite Lpt in Hi. rewrite Lph. split; [apply Nat.mod_upper_bound; lia|]. symmetry. apply (flink_next T sa HT HS sigma Hlt); auto.
    - rewrite Lph in Hks. set (K := map (fun k => nth k phr 0) ks) in *.
      assert (Hq : forall i, i < r -> blink T sa (nth i phr 0) = nth ((i + r - 1) mod r) ptr 0).
      { intros i Hi. set (q := (i + r - 1) mod r). assert (Hqr : q < r) by (apply Nat.mod_upper_bound; lia).
        pose proof (flink_next T sa HT HS sigma Hlt q Hqr) as Ef.
        assert (Eq : (q + 1) mod r = i).
        { unfold q. destruct (Nat.eq_dec i 0) as [->|].
          - rewrite Nat.add_0_l. rewrite (Nat.mod_small (r - 1)) by lia. replace (r - 1 + 1) with r by lia. apply Nat.mod_same. lia.
          - replace (i + r - 1) with (i - 1 + 1 * r) by lia. rewrite Nat.mod_add by lia. rewrite (Nat.mod_small (i - 1)) by lia.
            replace (i - 1 + 1) with i by lia. apply Nat.mod_small. auto. }
        rewrite Eq in Ef. rewrite <- Ef. apply (blink_flink T sa HT HS).
        assert (Hin : In (nth q ptr 0) ptr) by (apply nth_In; lia).
        apply (ptrows_in T sa HS sigma Hlt), (trows_in T sa HS) in Hin. apply Hin. }
      assert (HK : forall i, In i K -> i < n) by (intros i Hi; apply (fk_head _ _ _ _ HF); auto).
      unfold construct_srcsa_psi_of. rewrite Eb. cbn [bind]. rewrite (cb_core _ _ _ _ b F). cbn [bind].
      rewrite (psi_files_ok w sa Hw HSA al h Hal Hh Hn b F). cbn [bind]. rewrite (cb_len _ _ _ _ b F).
      rewrite (marks_bits w sa Hw HSA) by apply (ptrows_in T sa HS sigma Hlt). cbn [bind].
      rewrite (links_psi_ok w sa Hw HSA al Hal). cbn [bind]. rewrite E. cbn [bind]. rewrite map_length, Lph.
      unfold sample_to_mark_psi. rewrite (mmap_map _ (fun i => (i + r - 1) mod r)) by (intros; apply umod_ok; auto). cbn [bind].
      unfold construct_submarks_of. rewrite (mmap_map _ (fun j => tp (nth j ptr 0))).
      2:{ intros j Hj. apply in_map_iff in Hj. destruct Hj as (i & <- & Hi). rewrite nth_error_map.
          rewrite (nth_error_nth_lt _ _ 0) by (rewrite Lpt; apply Nat.mod_upper_bound; lia). auto. }
      cbn [bind]. rewrite map_map.
      assert (Em : map (fun i => tp (nth ((i + r - 1) mod r) ptr 0)) ks = smarks K).
      { unfold K. rewrite map_map. apply map_ext_in. intros i Hi. rewrite Hq; auto. }
      rewrite Em. rewrite smarks_bits. cbn [bind]. rewrite construct_bits by auto. cbn [bind].
      rewrite (core_partial_length B sigma h).
      rewrite (mmap_map _ (fun c => length (occs hs c))).
      2:{ intros c Hc. apply in_seq in Hc. apply (core_count_runs B sigma h Hlt Hocc Hh HBn). lia. }
      cbn [bind]. rewrite (cb_alpha _ _ _ _ b F). eexists. exists ks. cbn zeta. fold K. split; [reflexivity|]. split; auto. split.
      + constructor; auto. cbn [sc_links sc_samples]. intros k t Hk Ht Et.
        destruct (sub_links K k t HK Hk Ht Et) as (i & E1 & E2 & E3). exists i. split; auto.
        rewrite E3. rewrite nth_error_map. unfold K in E2. rewrite map_length in E2. rewrite (nth_error_nth_lt _ _ 0) by auto. cbn [option_map].
        unfold K. rewrite (nth_map_lt _ _ _ 0) by auto. auto.
      + constructor; auto.
        * intros q Hqr. unfold K. rewrite in_map_iff. split; [intros H; exists q; auto|]. intros (k & Ek & Hk).
          assert (k = q); [|subst; auto].
          apply (proj1 (NoDup_nth phr 0) (phrows_NoDup T sa HS sigma Hlt)); auto; rewrite Lph; auto.
        * cbn [sc_cum]. intros c Hc. apply cum_counts; auto.
  Qed.
  Lemma psi_tails_sorted : std_sort Nat.ltb (map tp ptr) = fm.
  Proof.
    assert (HN' : NoDup (map tp ptr)).
    { apply (marks_NoDup T sa HT HS).
      - intros i Hi. apply (ptrows_in T sa HS sigma Hlt), (trows_in T sa HS) in Hi. apply Hi.
      - apply (ptrows_NoDup T sa HS sigma Hlt). }
    destruct (std_sort_nat (map tp ptr) HN') as [H1 H2]. apply ssorted_unique; auto. intros x. rewrite sorted_values_in.
    transitivity (In x (map tp ptr)).
    - split; apply Permutation_in; auto. symmetry; auto.
    - unfold tmarks. rewrite !in_map_iff. split; intros (i & Ei & Hi); exists i; split; auto; apply (ptrows_in T sa HS sigma Hlt); auto.
  Qed.

  (** * The constructions *)
  Definition is_rows (ix : srcsa) : Prop := exists K ms, fwd_kept T sa s K /\ common s K ix /\ ix_rows w sa K ix ms.
  Definition is_rows_valid (ix : srcsa) : Prop :=
    exists K ms, fwd_kept T sa s K /\ common s K ix /\ ix_rows w sa K ix ms /\ ix_valid w sa K ix.
  Definition is_runs (ix : srcsa) : Prop := exists K qs, fwd_kept T sa s K /\ common s K ix /\ ix_runs w sa al K ix qs.
  Definition is_runs_valid (ix : srcsa) : Prop :=
    exists K qs, fwd_kept T sa s K /\ common s K ix /\ ix_runs w sa al K ix qs /\ ix_valid w sa K ix.

  Variable data : list nat.
  Hypothesis Hd : data = w \/ data = terminated w.
  Theorem construct_srcsa_ok : exists ix, construct_srcsa s (2 * h) data sa = Some ix /\ is_rows ix.
  Proof.
    destruct (commons_ok data Hd) as (b & ks & Ec & F & Sks & Hks & HF).
    destruct (srcsa_of_ok b ks (sort_indices (tmarks T sa)) F Sks Hks HF) as (ix & Ei & H1 & H2).
    exists ix. split; [|do 2 eexists; eauto]. unfold construct_srcsa. rewrite Ec. cbn [bind]. auto.
  Qed.
  Theorem construct_slim_ok : exists ix, construct_srcsa_slim s (2 * h) data sa = Some ix /\ is_runs ix.
  Proof.
    destruct (commons_ok data Hd) as (b & ks & Ec & F & Sks & Hks & HF).
    destruct (slim_of_ok b ks (sort_indices (tmarks T sa)) F Sks Hks HF) as (ix & qs & Ei & H1 & H2).
    exists ix. split; [|do 2 eexists; eauto]. unfold construct_srcsa_slim. rewrite Ec. cbn [bind]. auto.
  Qed.
  Theorem construct_valid_ok : exists ix, construct_srcsa_valid s (2 * h) data sa = Some ix /\ is_rows_valid ix.
  Proof.
    destruct (commons_ok data Hd) as (b & ks & Ec & F & Sks & Hks & HF).
    destruct (srcsa_of_ok b ks (sort_indices (tmarks T sa)) F Sks Hks HF) as (ix & Ei & H1 & H2).
    destruct (valid_of_ok construct_srcsa_of data b ks ix Ec F HF Ei) as (ix' & E' & (v & a & ->) & HV).
    eexists. split; [exact E'|]. do 2 eexists. split; [exact HF|]. split; [apply set_valid_common, H1|]. split; [apply set_valid_rows, H2|auto].
  Qed.
  Theorem construct_slim_valid_ok : exists ix, construct_srcsa_slim_valid s (2 * h) data sa = Some ix /\ is_runs_valid ix.
  Proof.
    destruct (commons_ok data Hd) as (b & ks & Ec & F & Sks & Hks & HF).
    destruct (slim_of_ok b ks (sort_indices (tmarks T sa)) F Sks Hks HF) as (ix & qs & Ei & H1 & H2).
    destruct (valid_of_ok construct_srcsa_slim_of data b ks ix Ec F HF Ei) as (ix' & E' & (v & a & ->) & HV).
    eexists. split; [exact E'|]. do 2 eexists. split; [exact HF|]. split; [apply set_valid_common, H1|]. split; [apply set_valid_runs, H2|auto].
  Qed.
  Theorem construct_psi_ok : exists ix, construct_srcsa_psi s (2 * h) data sa = Some ix /\ is_runs ix.
  Proof.
    destruct (psi_of_ok data Hd) as (ix & ks & Ei & HF & H1 & H2). exists ix. split; [|do 2 eexists; eauto].
    unfold construct_srcsa_psi. rewrite Ei. auto.
  Qed.
  Theorem construct_psi_valid_ok : exists ix, construct_srcsa_psi_valid s (2 * h) data sa = Some ix /\ is_runs_valid ix.
  Proof.
    destruct (psi_of_ok data Hd) as (ix & ks & Ei & HF & H1 & H2).
    set (K := map (fun k => nth k phr 0) ks) in *.
    unfold construct_srcsa_psi_valid. rewrite Ei. cbn [bind sf_marks]. rewrite psi_tails_sorted.
    rewrite (construct_validity_backward_ok T sa HT HS s K HF fm Hfs (fm_in w sa Hw HSA)). cbn [bind].
    rewrite map_length. rewrite (construct_fbits T sa K fm (fm_in w sa Hw HSA)). cbn [bind].
    eexists. split; [reflexivity|]. exists K, ks. split; [exact HF|]. split; [apply set_valid_common, H1|]. split; [apply set_valid_runs, H2|].
    constructor; auto.
  Qed.
End Build.
