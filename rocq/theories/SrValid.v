(** The validity marks and areas of SrIndexValidMark and SrIndexValidArea. *)
From Coq Require Import List Arith Bool Lia ZifyBool ZifyNat Permutation.
From Verif Require Import Spec MBase Lists FM MRle Runs RleProof MConstruct MPhi MRIndex MSrIndex Util Phi
  ConstructProof Nav PhiProof SamplingProof BackRange SubsProof ValidProof.
Import ListNotations.

(** First element above [x] of a list. *)
Definition above (l : list nat) (x : nat) : nat := hd 0 (filter (fun y => x <? y) l).
Lemma ssorted_app l1 l2 : ssorted (l1 ++ l2) -> ssorted l2 /\ forall x y, In x l1 -> In y l2 -> x < y.
Proof.
  induction l1 as [|a l1 IH]; cbn [app]; intros H; [split; auto; intros ? ? []|].
  inversion H as [|? ? H1 H2]; subst. destruct (IH H1) as [H3 H4]. split; auto.
  intros x y [->|Hx] Hy; [|auto]. rewrite Forall_forall in H2. apply H2, in_app_iff; auto.
Qed.
Lemma above_split l l1 x y l2 : ssorted l -> l = l1 ++ x :: y :: l2 -> above l x = y.
Proof.
  intros Hs ->. destruct (ssorted_app _ _ Hs) as [H1 H2]. unfold above. rewrite filter_app.
  assert (E : filter (fun y => x <? y) l1 = []).
  { destruct (filter (fun y => x <? y) l1) as [|a t] eqn:E; auto.
    assert (G : In a (filter (fun y => x <? y) l1)) by (rewrite E; left; auto). apply filter_In in G.
    destruct G as [G1 G2]. specialize (H2 a x G1 (or_introl eq_refl)). apply Nat.ltb_lt in G2. lia. }
  rewrite E. cbn [app filter]. rewrite Nat.ltb_irrefl.
  inversion H1 as [|? ? _ H3]; subst. inversion H3 as [|? ? H4 _]; subst.
  destruct (Nat.ltb_spec x y); [auto|unfold Nat.lt in H4; lia].
Qed.
Lemma above_le l x y : ssorted l -> In y l -> x < y -> x < above l x /\ above l x <= y.
Proof.
  intros Hs Hy Hlt. unfold above. induction Hs as [|a l Hs IH Hf]; [destruct Hy|].
  cbn [filter]. destruct (Nat.ltb_spec x a) as [Ha|Ha].
  - cbn [hd]. split; auto. destruct Hy as [->|Hy]; auto. rewrite Forall_forall in Hf. specialize (Hf _ Hy).
    unfold Nat.lt in Hf. lia.
  - destruct Hy as [->|Hy]; [lia|]. auto.
Qed.
Lemma ssorted_filter f l : ssorted l -> ssorted (filter f l).
Proof.
  induction 1 as [|a l H1 IH H2]; cbn [filter]; [constructor|].
  destruct (f a); auto. constructor; auto. rewrite Forall_forall in *. intros x Hx.
  apply filter_In in Hx. apply H2; tauto.
Qed.
Lemma nth_NoDup_sorted l x i : ssorted l -> i < length l -> nth i l 0 = x -> forall d, d < length l -> nth d l 0 = x -> d = i.
Proof.
  intros Hs Hi Ei d Hd Ed. destruct (Nat.lt_trichotomy d i) as [G|[G|G]]; auto; exfalso.
  - pose proof (ssorted_nth _ Hs d i G Hi). lia.
  - pose proof (ssorted_nth _ Hs i d G Hd). lia.
Qed.

Section SrValid.
  Variables (T sa : list nat).
  Hypothesis HT : text_ok T.
  Hypothesis HSA : is_suffix_array T sa.
  Let n := len T.
  Notation trow k := (nth k (trows T sa) 0).
  Notation tp := (tpos T sa).
  Variables (s : nat) (ks : list nat).
  Hypothesis HF : subs_facts T sa s ks.
  Let smarks : list nat := map (fun k => tp (csucc T (trow k))) ks.
  Let ssamples : list nat := map (fun k => tp (trow k)) ks.
  Let sm : list nat := sorted_values smarks.
  Let fm : list nat := sorted_values (hmarks T sa).
  Definition vinv (j : nat) : bool := negb (above fm (nth j sm 0) =? nth (S j) sm 0).
  Definition varea (j : nat) : nat := above fm (nth j sm 0) - nth j sm 0.
  Definition vinvs : list nat := filter vinv (seq 0 (length ks - 1)).
  Definition vbit (j : nat) : bool := negb (memb vinvs j).
  Definition vbits : list bool := map vbit (seq 0 (length ks)).

  Lemma fm_sorted : ssorted fm.
  Proof. exact (sorted_values_sorted _ (hmarks_NoDup T sa HT HSA)). Qed.
  Lemma sm_sorted : ssorted sm.
  Proof. exact (sorted_values_sorted _ (smarks_NoDup T sa HT HSA s ks HF)). Qed.
  Hint Resolve fm_sorted sm_sorted : core.
  Lemma hd_nth (l : list nat) : hd 0 l = nth 0 l 0.
  Proof. destruct l; auto. Qed.
  Lemma fm_in m : In m fm <-> is_hmark T sa m.
  Proof. unfold fm. rewrite sorted_values_in. apply (hmarks_in T sa HT HSA). Qed.
  Lemma sm_in m : In m sm <-> In m smarks.
  Proof. apply sorted_values_in. Qed.
  Lemma sm_length : length sm = length ks.
  Proof. unfold sm. rewrite sorted_values_length. apply map_length. Qed.
  Lemma ks_pos : 0 < length ks.
  Proof. destruct (sf_last _ _ _ _ HF) as (k & Hk & _). destruct ks; [destruct Hk|cbn; lia]. Qed.
  Lemma sm_last : nth (length ks - 1) sm 0 = n - 1.
  Proof.
    pose proof (smarks_last T sa HT HSA s ks HF) as G. apply sm_in in G. destruct (In_nth _ _ 0 G) as (x & Hx & Ex).
    rewrite sm_length in Hx. pose proof ks_pos as Hk.
    pose proof (ssorted_nth_le sm x (length ks - 1) sm_sorted ltac:(lia) ltac:(rewrite sm_length; lia)) as G2.
    assert (G3 : nth (length ks - 1) sm 0 < n).
    { apply (smarks_lt T sa HT HSA s ks HF). apply sm_in. apply nth_In. rewrite sm_length. lia. }
    fold n in G, Ex |- *. lia.
  Qed.
  Lemma sm_filter : sm = filter (memb smarks) fm.
  Proof.
    apply ssorted_unique; auto.
    - apply ssorted_filter; auto.
    - intros x. rewrite sm_in, filter_In, memb_In, fm_in. split; [|tauto]. intros H. split; auto.
      apply (smarks_hmark T sa HT HSA s ks HF); auto.
  Qed.
  (** The smallest mark is a submark. *)
  Lemma first_mark m : is_hmark T sa m -> exists x, In x smarks /\ x <= m.
  Proof.
    intros Hm. apply fm_in in Hm. destruct (In_nth _ _ 0 Hm) as (i & Hi & Ei).
    assert (H0 : In (nth 0 fm 0) fm) by (apply nth_In; lia).
    exists (nth 0 fm 0). split; [|rewrite <- Ei; apply (ssorted_nth_le _ _ _ fm_sorted); lia].
    apply fm_in in H0. destruct H0 as (h & Hh & Hd & Eh). rewrite <- Eh.
    apply (smarks_in T sa HT HSA s ks HF). exists h. split; auto. split; auto.
    apply (keptb_spec T sa HT HSA s ks HF). apply (sf_first _ _ _ _ HF); auto.
    intros h' Hh' Hd'. rewrite Eh.
    assert (G : In (tp h') fm) by (apply fm_in; exists h'; auto).
    destruct (In_nth _ _ 0 G) as (j & Hj & Ej). rewrite <- Ej. apply (ssorted_nth_le _ _ _ fm_sorted); lia.
  Qed.
  Lemma sm_hd : hd 0 sm = hd 0 fm.
  Proof.
    assert (L : 0 < length sm) by (rewrite sm_length; apply ks_pos).
    assert (E1 : hd 0 sm = nth 0 sm 0) by apply hd_nth.
    assert (E2 : hd 0 fm = nth 0 fm 0) by apply hd_nth.
    assert (H1 : In (nth 0 sm 0) fm).
    { apply fm_in, (smarks_hmark T sa HT HSA s ks HF), sm_in, nth_In; auto. }
    assert (L2 : 0 < length fm) by (apply (In_nth _ _ 0) in H1; destruct H1 as (? & ? & _); lia).
    assert (H2 : In (nth 0 fm 0) fm) by (apply nth_In; auto).
    destruct (In_nth _ _ 0 H1) as (i & Hi & Ei).
    pose proof (ssorted_nth_le fm 0 i fm_sorted ltac:(lia) Hi).
    apply fm_in in H2. destruct (first_mark _ H2) as (x & Hx & Hle). apply sm_in in Hx.
    destruct (In_nth _ _ 0 Hx) as (j & Hj & Ej).
    pose proof (ssorted_nth_le sm 0 j sm_sorted ltac:(lia) Hj). lia.
  Qed.

  Theorem construct_validity_ok :
    construct_validity (hmarks T sa) (sort_indices (hmarks T sa)) smarks = Some (vinvs, map varea vinvs).
  Proof.
    unfold construct_validity. rewrite (mmap_map _ (fun i => nth i (hmarks T sa) 0)).
    2:{ intros i Hi. apply nth_error_nth_lt. apply sort_indices_lt; auto. }
    cbn [bind]. change (map (fun i => nth i (hmarks T sa) 0) (sort_indices (hmarks T sa))) with fm.
    assert (Es : std_sort Nat.ltb smarks = sm).
    { destruct (std_sort_nat smarks (smarks_NoDup T sa HT HSA s ks HF)) as [H1 H2].
      apply ssorted_unique; auto. intros x. rewrite sm_in. split; apply Permutation_in; auto; symmetry; auto. }
    rewrite Es. rewrite (compute_submarks_validity_ok fm (memb smarks) (above fm)).
    - cbn [bind]. rewrite !map_map, sm_length. fold vinv. change (filter vinv (seq 0 (length ks - 1))) with vinvs.
      rewrite map_id. f_equal. f_equal. apply map_ext_in. intros j Hj.
      apply sub64_ok. apply filter_In in Hj. destruct Hj as [Hj _]. apply in_seq in Hj.
      apply Nat.lt_le_incl.
      assert (G : In (nth (S j) sm 0) fm) by (apply fm_in, (smarks_hmark T sa HT HSA s ks HF), sm_in, nth_In; rewrite sm_length; lia).
      apply (above_le _ _ _ fm_sorted G). apply ssorted_nth; auto. rewrite sm_length; lia.
    - apply ssorted_NoDup; auto.
    - intros. eapply above_split; eauto.
    - apply sm_filter.
    - intros E. pose proof ks_pos. rewrite <- sm_length, E in H. cbn in H; lia.
    - apply sm_hd.
  Qed.
  Lemma vinvs_lt j : In j vinvs -> j < length ks.
  Proof. intros H. apply filter_In in H. destruct H as [H _]. apply in_seq in H. lia. Qed.
  Lemma construct_vbits : construct_bit_vector vinvs (length ks) true = Some vbits.
  Proof.
    rewrite construct_bit_vector_ok by apply vinvs_lt. f_equal.
  Qed.
  Lemma links_validity_ok k i : nth_error (sort_indices smarks) k = Some i ->
    links_validity (sort_indices smarks) vbits k = Some (i, vbit k).
  Proof.
    intros H. assert (Hk : k < length ks).
    { rewrite <- (smarks_length T sa ks). fold smarks. rewrite <- sort_indices_length.
      apply nth_error_Some. congruence. }
    unfold links_validity. rewrite H. cbn [bind]. unfold vbits. rewrite nth_error_map_seq by auto. auto.
  Qed.
  Lemma vrank0 j : j < length ks -> bv_rank0 vbits j = Some (length (filter vinv (seq 0 j))).
  Proof.
    intros Hj. unfold bv_rank0, vbits. rewrite map_length, seq_length.
    destruct (Nat.leb_spec j (length ks)); [|lia]. f_equal. unfold rankP.
    replace (length ks) with (j + (length ks - j)) by lia.
    rewrite seq_app, map_app, firstn_app, map_length, seq_length, Nat.sub_diag, firstn_O, app_nil_r.
    rewrite firstn_all2 by (rewrite map_length, seq_length; auto).
    change (length (filter negb (map vbit (seq 0 j)))) with (count negb (map vbit (seq 0 j))).
    rewrite count_map. unfold count. f_equal. apply filter_ext_in. intros x Hx. apply in_seq in Hx.
    unfold vbit. rewrite negb_involutive. destruct (vinv x) eqn:E.
    - apply memb_In, filter_In. split; auto. apply in_seq. lia.
    - destruct (memb vinvs x) eqn:E2; auto. apply memb_In, filter_In in E2. destruct E2; congruence.
  Qed.

  (** What the index reads at a mark: trusted, or an area. *)
  Lemma gap_of_mark v k0 h : v < n -> k0 < length ks -> nth k0 sm 0 = tp h ->
    ((tp h < v /\ forall m, In m smarks -> m < v -> m <= tp h) \/
       (tp h = n - 1 /\ k0 = length ks - 1 /\ forall m, In m smarks -> v <= m)) ->
    (vbit k0 = true \/ (tp h < v -> v - tp h <= varea k0)) -> gap_free T sa h v.
  Proof.
    intros Hv Hk Em Hc Hval x Hx Hor Hm. destruct Hc as [[H1 H2]|[H1 [H2 H3]]].
    - assert (Hxh : tp h < x) by lia. clear Hor.
      assert (Hk' : k0 < length ks - 1).
      { destruct (Nat.lt_ge_cases k0 (length ks - 1)); auto. exfalso.
        replace k0 with (length ks - 1) in Em by lia. rewrite sm_last in Em. lia. }
      apply fm_in in Hm. destruct (above_le _ _ _ fm_sorted Hm Hxh) as [A1 A2].
      destruct Hval as [Hvb|Hvb].
      + assert (E : vinv k0 = false).
        { destruct (vinv k0) eqn:E; auto. unfold vbit in Hvb. apply negb_true_iff in Hvb.
          rewrite <- Hvb. symmetry. apply memb_In, filter_In. split; auto. apply in_seq. lia. }
        unfold vinv in E. apply negb_false_iff, Nat.eqb_eq in E. rewrite Em in E.
        assert (G : In (nth (S k0) sm 0) smarks) by (apply sm_in, nth_In; rewrite sm_length; lia).
        rewrite <- E in G. specialize (H2 _ G). lia.
      + specialize (Hvb H1). unfold varea in Hvb. rewrite Em in Hvb. lia.
    - apply first_mark in Hm. destruct Hm as (y & Hy & Hle). specialize (H3 _ Hy). lia.
  Qed.

  Section PhiV.
    Variable validator : nat -> nat -> bool -> option bool.
    Hypothesis Hval : forall k0 h v, v < n -> k0 < length ks -> nth k0 sm 0 = tp h ->
      (tp h < v \/ (tp h = n - 1 /\ k0 = length ks - 1)) ->
      exists b, validator k0 (if tp h <? v then v - tp h else v + 1) (vbit k0) = Some b /\
        (b = true -> vbit k0 = true \/ (tp h < v -> v - tp h <= varea k0)).
    Let phiv := ri_phi n (bits_of smarks n) ssamples (links_validity (sort_indices smarks) vbits) validator.

    Lemma phiv_ok v : v < n -> exists w b, phiv v = Some (w, b) /\ (b = true -> w = PHI T sa v) /\
      (forall y, S y < n -> v = SA sa (S y) -> (forall l, l < s -> keptb T sa ks (lfi T sa l y) = false) ->
         w = SA sa y).
    Proof.
      intros Hv. destruct (sub_pred T sa HT HSA s ks HF v Hv) as (k0 & h & i & Hp & Hk0 & Em & Hh & Hkept & Hl & Hs & Hc).
      fold smarks in Hp, Hl, Hc. fold ssamples in Hs. fold sm in Em. fold n in Hp, Hh, Hkept, Hs, Hc.
      assert (Hc' : tp h < v \/ (tp h = n - 1 /\ k0 = length ks - 1)) by tauto.
      destruct (Hval k0 h v Hv Hk0 Em Hc') as (b & Eb & Hb).
      destruct (phi_sub_value T sa HT HSA ks validator (links_validity (sort_indices smarks) vbits) vbit
                  links_validity_ok v k0 h i b) as (w & Ew & Hw); auto; [tauto|].
      exists w, b. split; [exact Ew|]. split.
      - intros G. apply Hw. eapply gap_of_mark; eauto.
      - intros y Hy Ev Hkl. rewrite Hw; [rewrite Ev; apply (PHI_SA T sa HSA); auto|].
        subst v. eapply (sub_gap T sa HT HSA s ks HF y k0 h i); eauto.
    Qed.
    Lemma phiv_total z : z < n -> exists vv, phiv (SA sa z) = Some vv.
    Proof. intros H. destruct (phiv_ok (SA sa z)) as (w & b & E & _); [apply (SA_lt T sa HSA); auto|]. eauto. Qed.
    Lemma phiv_true y w : S y < n -> phiv (SA sa (S y)) = Some (w, true) -> w = SA sa y.
    Proof.
      intros H E. destruct (phiv_ok (SA sa (S y))) as (w' & b & E' & H1 & _); [apply (SA_lt T sa HSA); auto|].
      rewrite E' in E. injection E as -> ->. rewrite H1 by auto. apply (PHI_SA T sa HSA); auto.
    Qed.
    Lemma phiv_reach y : S y < n -> (forall l, l < s -> keptb T sa ks (lfi T sa l y) = false) ->
      exists b, phiv (SA sa (S y)) = Some (SA sa y, b).
    Proof.
      intros H Hl. destruct (phiv_ok (SA sa (S y))) as (w & b & E & _ & H2); [apply (SA_lt T sa HSA); auto|].
      rewrite <- (H2 y H eq_refl Hl). eauto.
    Qed.
  End PhiV.

  Lemma default_val k0 h v : v < n -> k0 < length ks -> nth k0 sm 0 = tp h ->
      (tp h < v \/ (tp h = n - 1 /\ k0 = length ks - 1)) ->
      exists b, sample_validator_default k0 (if tp h <? v then v - tp h else v + 1) (vbit k0) = Some b /\
        (b = true -> vbit k0 = true \/ (tp h < v -> v - tp h <= varea k0)).
  Proof. intros. exists (vbit k0). split; auto. Qed.
  (** An area may reach up to the next mark, inclusive. *)
  Lemma area_val_plus e k0 h v : e <= 1 -> v < n -> k0 < length ks -> nth k0 sm 0 = tp h ->
      (tp h < v \/ (tp h = n - 1 /\ k0 = length ks - 1)) ->
      exists b, sample_validator (bv_rank0 vbits) (nth_error (map (fun j => varea j + e) vinvs)) k0
                  (if tp h <? v then v - tp h else v + 1) (vbit k0) = Some b /\
        (b = true -> vbit k0 = true \/ (tp h < v -> v - tp h <= varea k0)).
  Proof.
    intros He Hv Hk0 Em Hc. unfold sample_validator. destruct (vbit k0) eqn:E; cbn [negb]; [exists true; auto|].
    rewrite vrank0 by auto. cbn [bind]. unfold vbit in E. apply negb_false_iff, memb_In, filter_In in E.
    destruct E as [E1 E2]. apply in_seq in E1.
    unfold vinvs. rewrite nth_filter_seq by (auto; lia). cbn [bind].
    destruct (Nat.leb_spec (varea k0 + e) (if tp h <? v then v - tp h else v + 1)) as [G|G].
    - exists false. split; [auto|discriminate].
    - exists true. split; auto. intros _. right. intros H. rewrite (proj2 (Nat.ltb_lt _ _) H) in G. lia.
  Qed.
  Lemma area_val k0 h v : v < n -> k0 < length ks -> nth k0 sm 0 = tp h ->
      (tp h < v \/ (tp h = n - 1 /\ k0 = length ks - 1)) ->
      exists b, sample_validator (bv_rank0 vbits) (nth_error (map varea vinvs)) k0
                  (if tp h <? v then v - tp h else v + 1) (vbit k0) = Some b /\
        (b = true -> vbit k0 = true \/ (tp h < v -> v - tp h <= varea k0)).
  Proof.
    intros Hv Hk0 Em Hc. replace (map varea vinvs) with (map (fun j => varea j + 0) vinvs) by (apply map_ext; intros; lia).
    apply area_val_plus; auto.
  Qed.
End SrValid.
