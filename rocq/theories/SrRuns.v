(** The runs, samples and toehold of SrIndex over an RLE-string BWT. *)
From Coq Require Import List Arith Bool Lia ZifyBool ZifyNat Permutation.
From Verif Require Import Spec MBase Lists FM MRle Runs RleProof MConstruct MPhi MRIndex MSrIndex Util Phi
  ConstructProof Nav PhiProof SamplingProof BackRange SubsProof.
Import ListNotations.

Lemma count_lt_pos ms k : ssorted ms -> k < length ms -> count (fun m => m <? nth k ms 0) ms = k.
Proof.
  intros Hs Hk. pose proof (count_lt_sorted ms Hs (nth k ms 0)) as G.
  set (q := count (fun m => m <? nth k ms 0) ms) in *.
  assert (q <= length ms) by apply count_le_length.
  destruct (Nat.lt_trichotomy q k) as [H1|[H1|H1]]; auto.
  - pose proof (ssorted_nth ms Hs q k H1 Hk) as H2. apply G in H2; lia.
  - apply G in H1; auto. lia.
Qed.

Section SrRuns.
  Variables (T sa : list nat).
  Hypothesis HT : text_ok T.
  Hypothesis HSA : is_suffix_array T sa.
  Let n := len T.
  Variables (al : alphabet) (bs : rlestr) (M : nat) (R : list (nat * nat)).
  Hypothesis HS : rle_repr 2 M R bs.
  Hypothesis HR : expand R = BW T sa.
  Let sigma := al_sigma al.
  Hypothesis HC : forall c, c < sigma -> nth_error (al_C al) c = Some (Cc T sa c).
  Hypothesis HO : forall c, c < sigma -> In c (BW T sa).
  Hypothesis HB : forall c, In c (BW T sa) -> c < sigma.
  Let r := length (hrows T sa).
  Notation trow k := (nth k (trows T sa) 0).
  Notation tp := (tpos T sa).

  Lemma R_r : length R = r.
  Proof.
    unfold r. rewrite <- (PhiProof.rows_length T sa HT HSA). unfold trows. rewrite <- HR.
    rewrite (tails_of_expand R (rp_wf _ _ _ _ HS)), map_length, seq_length. auto.
  Qed.
  Lemma trow_R j : j < length R -> trow j = rstart R (S j) - 1.
  Proof.
    intros H. unfold trows. rewrite <- HR.
    rewrite (tails_of_expand R (rp_wf _ _ _ _ HS)), nth_map_seq by auto. auto.
  Qed.
  Lemma run_sigma j c k : nth_error R j = Some (c, k) -> c < sigma.
  Proof.
    intros E. apply HB. rewrite <- HR. apply nth_error_Some_lt in E as L.
    pose proof (rstart_lt R (rp_wf _ _ _ _ HS) j L) as G.
    pose proof (rstart_le R (S j)) as G2.
    pose proof (expand_nth_d R j c k (rstart R j) E ltac:(lia)) as G3. rewrite <- G3. apply nth_In. lia.
  Qed.
  Lemma run_M c : c < sigma -> c <= M.
  Proof. exact (nav_M T sa al bs M R HS HR HO c). Qed.
  Lemma R_n j : rstart R j <= n.
  Proof. exact (rstart_n T sa HSA R HR j). Qed.
  (** A row of a run that ends a run is its last row. *)
  Lemma tailr_run j c k i : nth_error R j = Some (c, k) -> rstart R j <= i < rstart R (S j) ->
    tailr T sa i = (i =? rstart R (S j) - 1).
  Proof.
    intros E Hi. unfold tailr. rewrite <- HR.
    rewrite (tailb_expand R j); auto; [destruct (Nat.eqb_spec i (rstart R (S j) - 1)), (Nat.eqb_spec (S i) (rstart R (S j))); auto; lia|apply (rp_wf _ _ _ _ HS)|].
    apply nth_error_Some_lt in E; auto.
  Qed.

  (** ** Runs of a range *)
  Definition Rr (f : bool) (x : srun) (a b : nat) : Prop :=
    su_start x = a /\ su_end x = b /\
    exists k, nth_error R (su_rnk x) = Some (su_c x, k) /\ rstart R (su_rnk x) <= a /\
      b <= rstart R (S (su_rnk x)) /\
      (f = true -> su_is_end x = (b =? rstart R (S (su_rnk x)))) /\
      (f = false -> su_is_end x = false /\ b < rstart R (S (su_rnk x))).
  Definition Nv (x : srun) (a b : nat) : Prop := su_start x = a /\ su_end x = b.

  Let f last q := mk_srun (rstart R q) (rstart R (S q)) (fst (nth q R (0, 0))) q (rstart R (S q) <=? last).
  Lemma split_back last m : forall q a j', q + m = j' -> j' < length R ->
    rstart R q <= a < rstart R (S q) -> a < last -> rstart R j' < last -> last <= rstart R (S j') ->
    exists rs, set_back last (mk_srun a (su_end (f last q)) (su_c (f last q)) (su_rnk (f last q)) (su_is_end (f last q))
                 :: map (f last) (seq (S q) m)) = Some rs /\ chain Rr rs a last.
  Proof.
    induction m as [|m IH]; intros q a j' Hq Hj' Ha Hal H1 H2; subst j'.
    - rewrite Nat.add_0_r in *. cbn [seq map set_back]. eexists. split; [reflexivity|].
      cbn [chain]. exists last. split; auto. split; auto. split; auto.
      unfold Rr. cbn [su_start su_end su_rnk su_c su_is_end f]. split; auto. split; auto.
      destruct (run_some R q Hj') as (c & k & E). exists k.
      split; [rewrite E; f_equal; rewrite (nth_error_nth _ _ _ E); auto|].
      split; [lia|]. split; auto. split; [|discriminate]. intros _.
      destruct (Nat.leb_spec (rstart R (S q)) last), (Nat.eqb_spec last (rstart R (S q))); auto; lia.
    - pose proof (rstart_mono R (S q) (q + S m) ltac:(lia)) as G1.
      pose proof (rstart_lt R (rp_wf _ _ _ _ HS) (S q) ltac:(lia)) as G2.
      destruct (IH (S q) (rstart R (S q)) (q + S m)) as (rs & E & Hc); auto; try lia.
      assert (Ef : mk_srun (rstart R (S q)) (su_end (f last (S q))) (su_c (f last (S q)))
                     (su_rnk (f last (S q))) (su_is_end (f last (S q))) = f last (S q)) by reflexivity.
      rewrite Ef in E. cbn [seq map].
      match goal with |- exists rs, set_back _ (?h :: ?y :: ?tl) = _ /\ _ =>
        assert (Eb : set_back last (h :: y :: tl) = (rs <- set_back last (y :: tl) ;; Some (h :: rs))) by reflexivity;
        rewrite Eb; clear Eb end.
      rewrite E. cbn [bind]. eexists. split; [reflexivity|]. cbn [chain].
      exists (rstart R (S q)). split; [lia|]. split; [lia|]. split; auto.
      unfold Rr. cbn [su_start su_end su_rnk su_c su_is_end f]. split; auto. split; auto.
      destruct (run_some R q ltac:(lia)) as (c & k & E2). exists k.
      split; [rewrite E2; f_equal; rewrite (nth_error_nth _ _ _ E2); auto|].
      split; [lia|]. split; auto. split; [|discriminate]. intros _. rewrite Nat.eqb_refl.
      apply Nat.leb_le. lia.
  Qed.

  Lemma sr_split_ok a b : a < b -> b <= n -> exists rs, sr_split bs a b = Some rs /\ chain Rr rs a b.
  Proof.
    intros Hab Hb. destruct (run_at R a) as (j & c & k & E & Hj).
    { rewrite HR, (BW_length T sa HSA). fold n. lia. }
    apply nth_error_Some_lt in E as L.
    destruct (repr_split_in_runs _ _ _ _ HS a b j) as (j' & Hj' & Hb' & Es); auto.
    { rewrite HR, (BW_length T sa HSA). auto. }
    unfold sr_split. rewrite Es. cbn [bind]. rewrite map_map. cbn [rdat rd_start rd_end rd_c rd_rnk].
    change (map (fun x => mk_srun (rstart R x) (rstart R (S x)) (fst (nth x R (0, 0))) x (rstart R (S x) <=? b)))
      with (map (f b)).
    replace (S j' - j) with (S (j' - j)) by lia. cbn [seq map set_front bind].
    apply (split_back b (j' - j) j a j'); auto; lia.
  Qed.

  (** ** Facts of Rr *)
  Lemma Rr_n g x a b : Rr g x a b -> b <= n.
  Proof. intros (_ & _ & k & _ & _ & H & _). pose proof (R_n (S (su_rnk x))). lia. Qed.
  Lemma Rr_update g x a b : Rr g x a b -> a < b -> Rr false (srun_update x) a (b - 1).
  Proof.
    intros (H1 & H2 & k & H3 & H4 & H5 & H6) Hab. unfold Rr, srun_update.
    cbn [su_start su_end su_rnk su_c su_is_end]. split; auto. split; [lia|].
    exists k. split; auto. split; auto. split; [lia|]. split; [discriminate|]. intros _. split; auto. lia.
  Qed.
  Lemma Nv_update x a b : Nv x a b -> a < b -> Nv (srun_update x) a (b - 1).
  Proof. intros [H1 H2] _. split; auto. cbn. lia. Qed.
  Lemma Rr_empty g x a b : Rr g x a b -> srun_empty x = negb (a <? b).
  Proof. intros (<- & <- & _). reflexivity. Qed.
  Lemma Nv_empty x a b : Nv x a b -> srun_empty x = negb (a <? b).
  Proof. intros (<- & <-). reflexivity. Qed.
  Lemma rows_bw x a b k : nth_error R (su_rnk x) = Some (su_c x, k) -> rstart R (su_rnk x) <= a ->
    b <= rstart R (S (su_rnk x)) -> forall i, a <= i < b -> bw T sa i = su_c x.
  Proof. intros H1 H2 H3 i Hi. apply (nav_bw T sa R HR (su_rnk x) (su_c x) k); auto. lia. Qed.

  Lemma Rr_nav g x a b : Rr g x a b -> a < b ->
    exists x', sr_lf_for_phi al bs x = Some x' /\ Nv x' (LFr T sa a) (LFr T sa a + (b - a)) /\
      forall i, i < b - a -> LFr T sa (a + i) = LFr T sa a + i.
  Proof.
    intros Hx Hab. pose proof (Rr_n _ _ _ _ Hx) as Hbn. destruct Hx as (H1 & H2 & k & H3 & H4 & H5 & _).
    pose proof (run_sigma _ _ _ H3) as Hc.
    assert (Hb : forall i, i < b - a -> bw T sa (a + i) = su_c x).
    { intros i Hi. eapply rows_bw; eauto; lia. }
    unfold sr_lf_for_phi. rewrite H1, H2.
    assert (L : length (expand R) = n) by (rewrite HR; apply (BW_length T sa HSA)).
    rewrite (repr_rank _ _ _ _ HS a (su_c x)) by (try (apply run_M; auto); rewrite L; lia). cbn [bind].
    rewrite (repr_rank _ _ _ _ HS b (su_c x)) by (try (apply run_M; auto); rewrite L; lia). cbn [bind].
    rewrite HC by auto. cbn [bind]. eexists. split; [reflexivity|].
    assert (Ea : LFr T sa a = Cc T sa (su_c x) + rk T sa (su_c x) a).
    { rewrite (LFr_formula T sa HT HSA) by (fold n; lia).
      specialize (Hb 0 ltac:(lia)). rewrite Nat.add_0_r in Hb. rewrite Hb. auto. }
    split; [|apply (same_rows T sa HT HSA) with (c := su_c x); auto; lia].
    pose proof (rank_run T sa HSA a (b - a) (su_c x) Hb ltac:(lia)) as G. replace (a + (b - a)) with b in G by lia.
    unfold rk in *. rewrite HR. split; cbn [su_start su_end]; lia.
  Qed.

  (** ** Samples *)
  Section Samples.
    Variables (s : nat) (ks : list nat).
    Hypothesis HF : subs_facts T sa s ks.
    Variable ix : sri.
    Hypothesis Hal : sr_alpha ix = al.
    Hypothesis Hbs : sr_bwt ix = bs.
    Hypothesis Hrate : sr_rate ix = s.
    Hypothesis Hsamples : sr_samples ix = map (fun k => tp (trow k)) ks.
    Hypothesis Hidx : sr_samples_idx ix = bits_of ks r.
    Let kept := keptb T sa ks.

    Lemma get_sample_ok run : run < r ->
      sr_get_sample ix run = Some (if kept (trow run) then Some (tp (trow run)) else None).
    Proof.
      clear dependent al. clear dependent bs. clear dependent R. intros Hr. unfold sr_get_sample. rewrite Hidx. unfold bits_of at 1.
      rewrite nth_error_map_seq by auto. cbn [bind].
      unfold kept. rewrite (keptb_k T sa HT HSA s ks HF run Hr).
      destruct (memb ks run) eqn:E; auto.
      rewrite (bits_rank ks r (sf_sorted _ _ _ _ HF) (sf_lt _ _ _ _ HF)) by lia. cbn [bind].
      apply memb_In in E. destruct (In_nth _ _ 0 E) as (i & Hi & Ei). subst run.
      rewrite count_lt_pos by (auto using (sf_sorted _ _ _ _ HF)).
      rewrite Hsamples, nth_error_map, (nth_error_nth_lt _ _ 0) by auto. cbn [option_map bind]. auto.
    Qed.

    Lemma kept_tail i : kept i = true -> i < n /\ tailr T sa i = true.
    Proof. apply (keptb_tail T sa HT HSA s ks HF). Qed.
    (** Kept rows are last rows of their run. *)
    Lemma kept_run j c k i : nth_error R j = Some (c, k) -> rstart R j <= i < rstart R (S j) ->
      kept i = true -> S i = rstart R (S j).
    Proof.
      intros E Hi Hk. apply kept_tail in Hk. destruct Hk as [_ Hk]. rewrite (tailr_run j c k) in Hk by auto.
      apply Nat.eqb_eq in Hk. lia.
    Qed.

    Lemma Rr_sample g x a b : Rr g x a b -> a < b ->
      sr_get_sample_run ix x = Some (if kept (b - 1) then Some (tp (b - 1)) else None).
    Proof.
      intros (H1 & H2 & k & H3 & H4 & H5 & H6 & H7) Hab. unfold sr_get_sample_run.
      apply nth_error_Some_lt in H3 as L. rewrite R_r in L.
      assert (Hnk : b < rstart R (S (su_rnk x)) -> kept (b - 1) = false).
      { intros H. destruct (kept (b - 1)) eqn:E; auto. apply (kept_run _ _ _ _ H3) in E; lia. }
      destruct g.
      - rewrite (H6 eq_refl). destruct (Nat.eqb_spec b (rstart R (S (su_rnk x)))) as [Eb|Eb].
        + rewrite get_sample_ok by auto. rewrite trow_R by (rewrite R_r; auto). rewrite <- Eb. auto.
        + rewrite Hnk by lia. auto.
      - destruct (H7 eq_refl) as [-> H8]. rewrite Hnk by auto. auto.
    Qed.
    Lemma Rr_inner g x a b i : Rr g x a b -> a <= i -> S i < b -> kept i = false.
    Proof.
      intros (H1 & H2 & k & H3 & H4 & H5 & _) Ha Hb. destruct (kept i) eqn:E; auto.
      apply (kept_run _ _ _ _ H3) in E; lia.
    Qed.
    Lemma Rr_cut x a b : Rr false x a b -> a < b -> kept (b - 1) = false.
    Proof.
      intros (H1 & H2 & k & H3 & H4 & H5 & _ & H7) Hab. destruct (H7 eq_refl) as [_ H8].
      destruct (kept (b - 1)) eqn:E; auto. apply (kept_run _ _ _ _ H3) in E; lia.
    Qed.

    (** ** Phi for a range *)
    Theorem sr_phi_range phi a b : a <= b -> b < n ->
      (forall y, S y < n -> (forall l, l < s -> kept (lfi T sa l y) = false) ->
         exists bb, phi (SA sa (S y)) = Some (SA sa y, bb)) ->
      sr_phi_for_range ix n phi (a, b) (SA sa b) = Some (down sa a (b - a)).
    Proof.
      intros Hab Hb Hphi. unfold sr_phi_for_range. rewrite Hal, Hbs, Hrate.
      assert (Hrs : exists rs, a < b -> sr_split bs a b = Some rs /\ chain Rr rs a b).
      { destruct (Nat.eq_dec a b) as [->|N]; [exists []; lia|].
        destruct (sr_split_ok a b ltac:(lia) ltac:(lia)) as (rs & Hrs). eauto. }
      destruct Hrs as (rs & Hrs).
      apply (pb_range_ok T sa HT HSA (sr_get_sample_run ix) (fun r0 : range => sr_split bs (fst r0) (snd r0))
               (fun r0 => sr_split bs (su_start r0) (su_end r0)) (sr_lf_for_phi al bs) s range_empty
               srun_update srun_empty (n + 2) Rr Nv kept) with (rs := rs); auto.
      - exact Rr_n.
      - exact Rr_sample.
      - exact Rr_inner.
      - exact Rr_cut.
      - exact Rr_update.
      - exact Nv_update.
      - exact Rr_empty.
      - exact Nv_empty.
      - intros g x a0 b0 H1 H2 _. exact (Rr_nav g x a0 b0 H1 H2).
      - intros x a0 b0 [<- <-] H1 H2. apply sr_split_ok; auto.
      - intros y Hy Hl. destruct (Hphi y Hy Hl) as (bb & ->). auto.
    Qed.
    Theorem sr_phi_range_valid phi a b : a <= b -> b < n ->
      (forall z, z < n -> exists vv, phi (SA sa z) = Some vv) ->
      (forall y w, S y < n -> phi (SA sa (S y)) = Some (w, true) -> w = SA sa y) ->
      (forall y, S y < n -> (forall l, l < s -> kept (lfi T sa l y) = false) ->
         exists bb, phi (SA sa (S y)) = Some (SA sa y, bb)) ->
      sr_phi_for_range_valid ix n phi (a, b) (SA sa b) = Some (down sa a (b - a)).
    Proof.
      intros Hab Hb Htot Htrue Hphi. unfold sr_phi_for_range_valid. rewrite Hal, Hbs, Hrate.
      assert (Hrs : exists rs, a < b -> sr_split bs a b = Some rs /\ chain Rr rs a b).
      { destruct (Nat.eq_dec a b) as [->|N]; [exists []; lia|].
        destruct (sr_split_ok a b ltac:(lia) ltac:(lia)) as (rs & Hrs). eauto. }
      destruct Hrs as (rs & Hrs).
      apply (pbv_range_ok T sa HT HSA (sr_get_sample_run ix) (fun r0 : range => sr_split bs (fst r0) (snd r0))
               (fun r0 => sr_split bs (su_start r0) (su_end r0)) (sr_lf_for_phi al bs) s range_empty
               srun_update srun_empty (n + 2) Rr Nv kept) with (rs := rs); auto.
      - exact Rr_n.
      - exact Rr_sample.
      - exact Rr_inner.
      - exact Rr_cut.
      - exact Rr_update.
      - exact Nv_update.
      - exact Rr_empty.
      - exact Nv_empty.
      - intros g x a0 b0 H1 H2 _. exact (Rr_nav g x a0 b0 H1 H2).
      - intros x a0 b0 [<- <-] H1 H2. apply sr_split_ok; auto.
    Qed.

    (** ** Toehold *)
    Definition proj (d : run_data_ext) : run_data := mk_run_data (re_c d) (re_last d).
    Definition pd (d : step_data run_data_ext) : step_data run_data := mk_step_data (sd_step d) (proj (sd_run d)).
    Definition sr_inv (k st e : nat) (d : step_data run_data_ext) : Prop :=
      k <= sd_step d /\ exists t, t < n /\ toe_row bs R (proj (sd_run d)) t /\
        tp t = (SA sa (e - 1) + (sd_step d - k)) mod n /\ re_end (sd_run d) = true /\ re_next (sd_run d) = LFr T sa t.

    Lemma toe_row_fun d t t' : toe_row bs R d t -> toe_row bs R d t' -> t = t'.
    Proof. intros (j & k & E1 & _ & E2) (j' & k' & E1' & _ & E2'). rewrite E1 in E1'. injection E1' as <-. congruence. Qed.

    Lemma created k c st e nx st' e' : c < sigma -> st < e -> e <= n ->
      ri_lf al bs (st, e) c = Some nx -> range_of_lf nx = (st', e') -> st' < e' ->
      toe_inv T sa bs R k st' e' (ri_create_data (st, e) c nx k) ->
      sr_inv k st' e' (sr_create_data (st, e) c nx k).
    Proof.
      intros Hc Hse He El Er Hlt (Hk & t & Ht & Htr & Etp).
      unfold ri_create_data in *. cbn [sd_step sd_run] in *.
      split; [cbn; lia|]. exists t. split; auto. split; auto. split; auto. split; auto.
      unfold sr_create_data. cbn [sd_run re_next].
      unfold range_of_lf in Er. injection Er as E1 E2. rewrite E2.
      rewrite sub64_ok by lia. rewrite Nat.sub_diag, Nat.add_0_r in Etp.
      rewrite (tpos_LFr T sa HT HSA) in Etp.
      destruct (ri_lf_range T sa HSA al bs M R HS HR HC HO c st e Hc Hse He) as (nx' & E3 & E4).
      rewrite El in E3. injection E3 as <-. unfold range_of_lf in E4. rewrite E1, E2 in E4. injection E4 as -> ->.
      pose proof (Cc_rk_le T sa HSA c e He).
      rewrite Nat.mod_small in Etp by (apply (SA_lt T sa HSA); fold n; lia).
      apply (SA_inj T sa HSA) in Etp; auto; [apply (LFr_lt T sa HT HSA)|]. fold n. lia.
    Qed.

    Lemma sr_first k c nx st' e' : c < sigma -> ri_lf al bs (0, n) c = Some nx -> range_of_lf nx = (st', e') ->
      st' < e' -> sr_inv k st' e' (compute_step_data ri_lf_trivial sr_create_data (0, n) nx c k
                                    (mk_step_data 0 (mk_run_data_ext 0 0 false 0))).
    Proof.
      intros Hc El Er Hlt. pose proof (n_pos T HT) as Hn. fold n in Hn.
      pose proof (toe_first T sa HT HSA al bs M R HS HR HC HO k c nx st' e' Hc El Er Hlt) as G.
      unfold compute_step_data in *. cbn [sd_step] in *. rewrite Nat.eqb_refl in *. cbn [orb] in *.
      apply created; auto.
    Qed.
    Lemma sr_step k q c nx st e st' e' d : c < sigma -> st < e -> is_range T sa q st e -> q <> [] ->
      ri_lf al bs (st, e) c = Some nx -> range_of_lf nx = (st', e') -> st' < e' -> sr_inv (S k) st e d ->
      sr_inv k st' e' (compute_step_data ri_lf_trivial sr_create_data (st, e) nx c k d).
    Proof.
      intros Hc Hse HI Hq El Er Hlt (Hk & t & Ht & Htr & Etp & Hen & Hnx).
      assert (HTI : toe_inv T sa bs R (S k) st e (pd d)).
      { split; auto. exists t. auto. }
      pose proof (toe_step T sa HT HSA al bs M R HS HR HC HO k q c nx st e st' e' (pd d) Hc Hse HI Hq El Er Hlt HTI) as G.
      unfold compute_step_data in *. cbn [pd sd_step] in G.
      destruct ((sd_step d =? 0) || negb (ri_lf_trivial (st, e) c nx)).
      - apply created; auto. apply HI.
      - destruct G as (Hk' & t' & Ht' & Htr' & Etp'). cbn [pd sd_step sd_run] in *.
        rewrite (toe_row_fun _ _ _ Htr' Htr) in *. split; auto. exists t. auto.
    Qed.

    (** Data of row [i] during the search of a sample. *)
    Definition row_data (i : nat) (d : run_data_ext) : Prop :=
      exists k, nth_error R (re_last d) = Some (re_c d, k) /\ rstart R (re_last d) <= i < rstart R (S (re_last d)) /\
        re_end d = tailr T sa i /\ re_next d = LFr T sa i.
    Lemma row_data_sample i d : row_data i d -> sr_get_sample_data ix d = Some (if kept i then Some (tp i) else None).
    Proof.
      intros (k & E & Hi & He & _). unfold sr_get_sample_data. rewrite He. destruct (tailr T sa i) eqn:Et.
      - rewrite (tailr_run _ _ _ _ E Hi) in Et. apply Nat.eqb_eq in Et.
        apply nth_error_Some_lt in E as L.
        rewrite get_sample_ok by (rewrite <- R_r; auto). rewrite trow_R, <- Et by auto. auto.
      - destruct (kept i) eqn:Ek; auto. apply kept_tail in Ek. destruct Ek; congruence.
    Qed.
    Lemma row_data_next i d : i < n -> row_data i d -> exists d', sr_lf_run_data ix d = Some d' /\ row_data (LFr T sa i) d'.
    Proof.
      intros Hi (k & E & Hr & He & Hn). unfold sr_lf_run_data. rewrite Hn, Hal, Hbs.
      assert (HL : LFr T sa i < n) by apply (LFr_lt T sa HT HSA).
      destruct (nav_run T sa HSA R HR _ HL) as (j & c & k' & Ej & Hj & Hb).
      rewrite (repr_rank_report _ _ _ _ HS _ _ _ _ Ej Hj). cbn [bind rr_c rr_run_rnk rr_run_end rr_rnk].
      rewrite HC by (eapply run_sigma; eauto). cbn [bind]. eexists. split; [reflexivity|].
      exists k'. cbn [re_last re_c re_end re_next]. split; auto. split; auto. split.
      - symmetry. apply (tailr_run _ _ _ _ Ej Hj).
      - rewrite (LFr_formula T sa HT HSA (LFr T sa i)) by auto. rewrite Hb. unfold rk. rewrite HR. auto.
    Qed.
    Lemma sa_value_ok t : t < n -> tailr T sa t = true -> forall l0 d fuel i, i = lfi T sa l0 t -> row_data i d ->
      (exists l, l0 <= l /\ l <= l0 + fuel /\ kept (lfi T sa l t) = true) ->
      compute_sa_value fuel (sr_get_sample_data ix) (sr_lf_run_data ix) n true l0 d = Some (SA sa t).
    Proof.
      intros Ht Htl l0 d fuel. revert l0 d. induction fuel as [|fuel IH]; intros l0 d i Ei Hd (l & H1 & H2 & Hk);
        pose proof (n_pos T HT) as Hn; fold n in Hn; cbn [compute_sa_value]; rewrite (row_data_sample i d Hd); cbn [bind].
      - assert (l = l0) by lia. subst l. subst i. rewrite Hk. cbn [Nat.add].
        rewrite umod_ok by auto. f_equal. rewrite <- (lfi_sample T sa HT HSA l0 t) by auto. fold n.
        replace (tp (lfi T sa l0 t) + 1 + n + l0) with (tp (lfi T sa l0 t) + 1 + l0 + 1 * n) by lia.
        apply Nat.mod_add. lia.
      - destruct (kept i) eqn:Ek.
        + subst i. rewrite umod_ok by auto. f_equal. rewrite <- (lfi_sample T sa HT HSA l0 t) by auto. fold n.
          replace (tp (lfi T sa l0 t) + 1 + n + l0) with (tp (lfi T sa l0 t) + 1 + l0 + 1 * n) by lia.
          apply Nat.mod_add. lia.
        + destruct (row_data_next i d) as (d' & -> & Hd'); auto.
          { subst i. apply (lfi_lt T sa HT HSA); auto. }
          cbn [bind]. apply (IH (S l0) d' (LFr T sa i)); auto.
          * subst i. auto.
          * exists l. split; [|split; auto; lia]. destruct (Nat.eq_dec l l0); [|lia]. subst. congruence.
    Qed.

    Lemma sr_toehold_ok st e d : e <= n -> 0 < e -> sd_step d < n -> sr_inv 0 st e d -> sr_toehold ix n d = Some (SA sa (e - 1)).
    Proof.
      intros He H0 Hd (_ & t & Ht & (j & k & Hsel & Hj & Et) & Etp & Hen & Hnx).
      unfold proj in Hsel, Hj. cbn [rn_c rn_last] in *. rewrite Nat.sub_0_r in Etp.
      unfold sr_toehold, compute_toehold. rewrite Hbs, Hsel, Hrate. cbn [bind].
      apply nth_error_Some_lt in Hj as Lj.
      pose proof (rstart_lt R (rp_wf _ _ _ _ HS) j Lj) as Hlt.
      assert (Htl : tailr T sa t = true) by (subst t; apply (tail_row T sa al bs M R HS HR HC HO); auto).
      rewrite (sa_value_ok t Ht Htl 0 _ s t); auto.
      - cbn [bind]. rewrite (nav_rle_size T sa HSA bs M R HS HR). fold n.
        pose proof (csucc_tpos T sa HT HSA t Ht) as G. pose proof (tpos_lt T sa HT t) as G2. fold n in G2.
        unfold csucc in G. fold n in G.
        pose proof (SA_lt T sa HSA t Ht) as G3. fold n in G3.
        rewrite (sub64_ok (SA sa t + n)) by lia. rewrite sub64_ok by lia. rewrite umod_ok by lia. f_equal.
        pose proof (SA_lt T sa HSA (e - 1) ltac:(fold n; lia)) as G4. fold n in G4.
        rewrite <- G, Etp, Nat.add_mod_idemp_l by lia.
        replace (SA sa (e - 1) + sd_step d + 1) with (SA sa (e - 1) + (S (sd_step d) - 0)) by lia.
        set (x := (SA sa (e - 1) + (S (sd_step d) - 0)) mod n). replace (x + n - sd_step d - 1) with (x + 1 + n - S (sd_step d) - 1) by lia.
        apply circular_back; lia.
      - exists k. cbn [re_last re_c re_end re_next]. split; auto. split; [lia|]. split; [congruence|auto].
      - destruct (kept_reach T sa HT HSA s ks HF t Ht Htl) as (l & H1 & H2). exists l. split; [lia|]. split; auto.
    Qed.
  End Samples.
End SrRuns.
