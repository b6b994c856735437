(** The validity marks and areas of the Psi indexes. *)
From Coq Require Import List Arith Bool Lia ZifyBool ZifyNat Permutation.
From Verif Require Import Spec MBase Lists FM MRle Runs RleProof MConstruct MPhi MRIndex MSrIndex Util Phi
  ConstructProof Nav PhiProof SamplingProof SubsProof ValidProof SrValid MPsi MCsa CsaPhi MSrCsa FwdRange FwdSubs.
Import ListNotations.

(** Last element below [x] of a sorted list. *)
Definition below (l : list nat) (x : nat) : nat := hd 0 (filter (fun y => y <? x) (rev l)).
Lemma ssorted_rev_split l l1 x y l2 : ssorted l -> rev l = l1 ++ x :: y :: l2 ->
  l = rev l2 ++ y :: x :: rev l1.
Proof.
  intros _ E. apply (f_equal (@rev nat)) in E. rewrite rev_involutive, rev_app_distr in E. cbn [rev] in E.
  rewrite <- !app_assoc in E. exact E.
Qed.
Lemma below_split l l1 x y l2 : ssorted l -> rev l = l1 ++ x :: y :: l2 -> below l x = y.
Proof.
  intros Hs E. unfold below. rewrite E. pose proof (ssorted_rev_split l l1 x y l2 Hs E) as E2.
  rewrite E2 in Hs. destruct (ssorted_app _ _ Hs) as [H1 _].
  inversion H1 as [|? ? H2 H3]; subst. rewrite Forall_forall in H3. inversion H2 as [|? ? H4 H5]; subst. rewrite Forall_forall in H5.
  rewrite filter_app.
  assert (G : filter (fun y => y <? x) l1 = []).
  { destruct (filter (fun y => y <? x) l1) as [|a t] eqn:Ef; auto. exfalso.
    assert (G : In a (filter (fun y => y <? x) l1)) by (rewrite Ef; left; auto). apply filter_In in G.
    destruct G as [G1 G2]. apply Nat.ltb_lt in G2. specialize (H5 a). rewrite <- in_rev in H5. specialize (H5 G1).
    unfold Nat.lt in H5. lia. }
  rewrite G. cbn [app filter]. rewrite Nat.ltb_irrefl.
  specialize (H3 x (or_introl eq_refl)). unfold Nat.lt in H3. destruct (Nat.ltb_spec y x); [auto|lia].
Qed.
Lemma below_ge l x y : ssorted l -> In y l -> y < x -> y <= below l x /\ below l x < x /\ In (below l x) l.
Proof.
  intros Hs Hy Hlt. unfold below.
  assert (Hin : In y (filter (fun y => y <? x) (rev l))).
  { apply filter_In. split; [rewrite <- in_rev; auto|apply Nat.ltb_lt; auto]. }
  destruct (filter (fun y => y <? x) (rev l)) as [|a t] eqn:E; [destruct Hin|]. cbn [hd].
  assert (Ha : In a (filter (fun y => y <? x) (rev l))) by (rewrite E; left; auto).
  apply filter_In in Ha. destruct Ha as [Ha1 Ha2]. apply Nat.ltb_lt in Ha2. rewrite <- in_rev in Ha1.
  split; auto. destruct Hin as [->|Hin]; auto.
  (* the filtered list decreases *)
  assert (G : forall m, ssorted m -> forall a t y, filter (fun y => y <? x) (rev m) = a :: t -> In y t -> y <= a).
  { clear. intros m Hm. induction Hm as [|c m Hm IH Hf] using Sorted.StronglySorted_ind; intros a t y E Hy; [discriminate|].
    cbn [rev] in E. rewrite filter_app in E. destruct (filter (fun y => y <? x) (rev m)) as [|b u] eqn:Eb.
    - cbn [app filter] in E. destruct (c <? x); [injection E as <- <-; destruct Hy|discriminate].
    - cbn [app] in E. injection E as <- <-. apply in_app_iff in Hy. destruct Hy as [Hy|Hy]; [eauto|].
      cbn [filter] in Hy. destruct (c <? x); [|destruct Hy]. destruct Hy as [<-|[]].
      assert (Hb : In b (filter (fun y => y <? x) (rev m))) by (rewrite Eb; left; auto).
      apply filter_In in Hb. destruct Hb as [Hb _]. rewrite <- in_rev in Hb. rewrite Forall_forall in Hf. apply Nat.lt_le_incl, Hf; auto. }
  apply (G l Hs a t y E Hin).
Qed.

(** Lists read backward and stored in reverse. *)
Lemma rev_seq_map m : map (fun j => m - j) (seq 0 m) = rev (seq 1 m).
Proof.
  induction m as [|m IH]; auto. rewrite (seq_S m 1), rev_app_distr. cbn [rev app]. cbn [seq map].
  rewrite Nat.sub_0_r. f_equal. rewrite <- IH, <- seq_shift, map_map. apply map_ext. intros. lia.
Qed.
Lemma filter_rev' {A} (f : A -> bool) l : filter f (rev l) = rev (filter f l).
Proof.
  induction l as [|a l IH]; auto. cbn [rev filter]. rewrite filter_app, IH. cbn [filter]. destruct (f a); cbn [rev]; auto.
  apply app_nil_r.
Qed.
Lemma filter_map' {A B} (f : B -> bool) (g : A -> B) l : filter f (map g l) = map g (filter (fun x => f (g x)) l).
Proof. induction l as [|a l IH]; auto. cbn [map filter]. rewrite IH. destruct (f (g a)); auto. Qed.
Lemma rev_filter_seq {A} (P : nat -> bool) (f : nat -> A) m :
  rev (map (fun j => f (m - j)) (filter (fun j => P (m - j)) (seq 0 m))) = map f (filter P (seq 1 m)).
Proof.
  rewrite <- (map_map (fun j => m - j) f). rewrite <- (filter_map' P (fun j => m - j)). rewrite rev_seq_map.
  rewrite filter_rev', map_rev, rev_involutive. auto.
Qed.

Section FwdValid.
  Variables (T sa : list nat).
  Hypothesis HT : text_ok T.
  Hypothesis HSA : is_suffix_array T sa.
  Notation n := (len T).
  Notation tp := (tpos T sa).
  Variables (s : nat) (K : list nat).
  Hypothesis HF : fwd_kept T sa s K.
  Notation kept := (memb K).
  Notation smarks := (map (fun i => tp (blink T sa i)) K).
  Notation sm := (sorted_values smarks).
  Variable fm : list nat.
  Hypothesis Hfs : ssorted fm.
  Hypothesis Hfin : forall m, In m fm <-> is_tmark T sa m.
  Let m' := length K.
  Definition finv (i : nat) : bool := (0 <? i) && negb (below fm (nth i sm 0) =? nth (i - 1) sm 0).
  Definition farea (i : nat) : nat := nth i sm 0 - below fm (nth i sm 0).
  Definition finvs : list nat := filter finv (seq 0 m').
  Definition fbit (i : nat) : bool := negb (memb finvs i).
  Definition fbits : list bool := map fbit (seq 0 m').

  Lemma sms : ssorted sm.
  Proof. apply (sm_sorted T sa HT HSA s K HF). Qed.
  Lemma sml : length sm = m'.
  Proof. apply sm_length. Qed.
  Lemma smi m : In m sm <-> In m smarks.
  Proof. apply sorted_values_in. Qed.
  Lemma K_pos : 0 < m'.
  Proof. pose proof (fk_zero _ _ _ _ HF). unfold m'. destruct K; [destruct H|cbn; lia]. Qed.
  Lemma sm_nth_fm i : i < m' -> In (nth i sm 0) fm.
  Proof. intros H. apply Hfin, (smarks_tmark T sa HT HSA s K HF), smi, nth_In. rewrite sml. auto. Qed.
  Lemma sm_filter : sm = filter (memb smarks) fm.
  Proof.
    apply ssorted_unique; [apply sms|apply ssorted_filter; auto|].
    intros x. rewrite smi, filter_In, memb_In, Hfin. split; [|tauto]. intros H. split; auto.
    apply (smarks_tmark T sa HT HSA s K HF); auto.
  Qed.
  Lemma hd_rev l : ssorted l -> In (n - 1) l -> (forall m, In m l -> m < n) -> hd 0 (rev l) = n - 1.
  Proof.
    intros Hs Hin Hlt. destruct (In_nth _ _ 0 Hin) as (i & Hi & Ei).
    assert (E : hd 0 (rev l) = nth 0 (rev l) 0) by (destruct (rev l); auto).
    rewrite E, rev_nth by lia.
    pose proof (ssorted_nth_le l i (length l - 1) Hs ltac:(lia) ltac:(lia)).
    assert (nth (length l - 1) l 0 < n) by (apply Hlt, nth_In; lia). lia.
  Qed.
  (** The smallest mark is a submark. *)
  Lemma first_mark m : is_tmark T sa m -> nth 0 sm 0 <= m.
  Proof.
    intros Hm. apply Hfin in Hm. destruct (In_nth _ _ 0 Hm) as (i & Hi & Ei).
    assert (H0 : In (nth 0 fm 0) fm) by (apply nth_In; lia).
    assert (G : In (nth 0 fm 0) smarks).
    { apply Hfin in H0. destruct H0 as (t & Ht & Hd & Et). rewrite <- Et.
      apply (smarks_in T sa HT HSA s K HF). exists t. split; auto. split; auto.
      apply (fk_first _ _ _ _ HF); auto. intros t' Ht' Hd'. rewrite Et.
      assert (G : In (tp t') fm) by (apply Hfin; exists t'; auto).
      destruct (In_nth _ _ 0 G) as (j & Hj & Ej). rewrite <- Ej. apply (ssorted_nth_le _ _ _ Hfs); lia. }
    apply smi in G. destruct (In_nth _ _ 0 G) as (j & Hj & Ej).
    pose proof (ssorted_nth_le sm 0 j sms ltac:(lia) Hj).
    pose proof (ssorted_nth_le fm 0 i Hfs ltac:(lia) Hi). lia.
  Qed.
  Lemma below_sm i : 0 < i -> i < m' -> nth (i - 1) sm 0 <= below fm (nth i sm 0) /\ below fm (nth i sm 0) < nth i sm 0.
  Proof.
    intros Hi Him. pose proof (ssorted_nth sm sms (i - 1) i ltac:(lia) ltac:(rewrite sml; auto)) as G.
    destruct (below_ge fm (nth i sm 0) (nth (i - 1) sm 0) Hfs) as (G1 & G2 & _); auto. apply sm_nth_fm. lia.
  Qed.

  Theorem construct_validity_backward_ok :
    construct_validity_backward fm smarks = Some (finvs, map farea finvs).
  Proof.
    pose proof K_pos as HK. unfold construct_validity_backward.
    assert (Es : std_sort Nat.ltb smarks = sm).
    { destruct (std_sort_nat smarks (smarks_NoDup T sa HT HSA s K HF)) as [H1 H2].
      apply ssorted_unique; [auto|apply sms|]. intros x. rewrite smi. split; apply Permutation_in; auto; symmetry; auto. }
    rewrite Es. rewrite (compute_submarks_validity_ok (rev fm) (memb smarks) (below fm)).
    - cbn [bind]. rewrite map_length. fold m'. rewrite !map_map, rev_length, sml.
      assert (Ef : filter (fun j => negb (below fm (nth j (rev sm) 0) =? nth (S j) (rev sm) 0)) (seq 0 (m' - 1)) =
                   filter (fun j => finv (m' - 1 - j)) (seq 0 (m' - 1))).
      { apply filter_ext_in. intros j Hj. apply in_seq in Hj. rewrite !rev_nth by (rewrite sml; lia). rewrite sml.
        unfold finv. destruct (Nat.ltb_spec 0 (m' - 1 - j)); [|lia]. cbn [andb].
        replace (m' - S j) with (m' - 1 - j) by lia. replace (m' - S (S j)) with (m' - 1 - j - 1) by lia. auto. }
      rewrite Ef.
      assert (E0 : finvs = filter finv (seq 1 (m' - 1))).
      { unfold finvs. replace m' with (S (m' - 1)) at 1 by lia. reflexivity. }
      f_equal. f_equal.
      + rewrite (map_ext_in _ (fun j => (fun i => i) (m' - 1 - j))).
        * rewrite (rev_filter_seq finv (fun i => i)). rewrite map_id. auto.
        * intros j _. lia.
      + rewrite (map_ext_in _ (fun j => farea (m' - 1 - j))).
        * rewrite (rev_filter_seq finv farea). rewrite E0. auto.
        * intros j Hj. apply filter_In in Hj. destruct Hj as [Hj _]. apply in_seq in Hj.
          rewrite rev_nth by (rewrite sml; lia). rewrite sml. replace (m' - S j) with (m' - 1 - j) by lia.
          destruct (below_sm (m' - 1 - j)) as [_ G]; [lia|lia|]. rewrite sub64_ok by lia. auto.
    - apply NoDup_rev, ssorted_NoDup; auto.
    - intros. eapply below_split; eauto.
    - rewrite sm_filter. symmetry. apply filter_rev'.
    - intros E. apply (f_equal (@length nat)) in E. rewrite rev_length, sml in E. cbn in E. lia.
    - rewrite !hd_rev; auto.
      + apply Hfin, (last_tmark T sa HT HSA).
      + intros m Hm. apply Hfin in Hm. eapply is_tmark_lt; eauto.
      + apply sms.
      + apply smi, (smarks_last T sa HT HSA s K HF).
      + intros m Hm. apply smi in Hm. apply (smarks_lt T sa HT HSA s K HF); auto.
  Qed.
  Lemma construct_fbits : construct_bit_vector finvs m' true = Some fbits.
  Proof.
    rewrite construct_bit_vector_ok; [reflexivity|]. intros j H. apply filter_In in H. destruct H as [H _]. apply in_seq in H. lia.
  Qed.
  Lemma finvs_in i : i < m' -> memb finvs i = finv i.
  Proof.
    intros Hi. destruct (finv i) eqn:E.
    - apply memb_In, filter_In. split; auto. apply in_seq. lia.
    - destruct (memb finvs i) eqn:E2; auto. apply memb_In, filter_In in E2. destruct E2; congruence.
  Qed.
  Lemma frank0 j : j < m' -> bv_rank0 fbits j = Some (length (filter finv (seq 0 j))).
  Proof.
    intros Hj. unfold bv_rank0, fbits. rewrite map_length, seq_length.
    destruct (Nat.leb_spec j m'); [|lia]. f_equal. unfold rankP.
    replace m' with (j + (m' - j)) by lia.
    rewrite seq_app, map_app, firstn_app, map_length, seq_length, Nat.sub_diag, firstn_O, app_nil_r.
    rewrite firstn_all2 by (rewrite map_length, seq_length; auto).
    change (length (filter negb (map fbit (seq 0 j)))) with (count negb (map fbit (seq 0 j))).
    rewrite count_map. unfold count. f_equal. apply filter_ext_in. intros x Hx. apply in_seq in Hx.
    unfold fbit. rewrite negb_involutive. apply finvs_in. lia.
  Qed.

  (** What the index reads at a mark: trusted, or an area. *)
  Lemma gap_of_mark v k0 t : v < n -> k0 < m' -> nth k0 sm 0 = tp t -> nearest T sa K t v ->
    (fbit k0 = true \/ (tp t - v < farea k0)) -> gap_free T sa t v.
  Proof.
    intros Hv Hk Em [Hle Hnear] Hval x Hx1 Hx2 Hm.
    destruct (Nat.eq_dec k0 0) as [->|Hk0].
    { apply first_mark in Hm. lia. }
    apply Hfin in Hm. destruct (below_ge fm (tp t) x Hfs Hm Hx2) as (B1 & B2 & _).
    destruct Hval as [Hvb|Hvb].
    - unfold fbit in Hvb. rewrite finvs_in in Hvb by auto. apply negb_true_iff in Hvb. unfold finv in Hvb.
      destruct (Nat.ltb_spec 0 k0); [|lia]. cbn [andb] in Hvb. apply negb_false_iff, Nat.eqb_eq in Hvb. rewrite Em in Hvb.
      assert (G : In (nth (k0 - 1) sm 0) smarks) by (apply smi, nth_In; rewrite sml; lia).
      rewrite <- Hvb in G. specialize (Hnear _ G). lia.
    - unfold farea in Hvb. rewrite Em in Hvb. lia.
  Qed.

  Section PhiV.
    Variables (samples : list nat) (getl : nat -> option (nat * bool)).
    Variable validator : nat -> nat -> bool -> option bool.
    Variable vb : nat -> bool.
    Hypothesis Hgetl : forall k t, k < length K -> t < n -> tp t = nth k sm 0 ->
      exists i, getl k = Some (i, vb k) /\ nth_error samples i = Some (tp (flink T sa t)).
    Hypothesis Hval : forall k0 t v, v < n -> k0 < m' -> nth k0 sm 0 = tp t -> v <= tp t ->
      exists b, validator k0 (tp t - v) (vb k0) = Some b /\
        (b = true -> fbit k0 = true \/ tp t - v < farea k0).
    Notation phiv := (csa_phi n (bits_of smarks n) samples getl validator).

    Lemma fphi_ok v : v < n -> exists w b, phiv v = Some (w, b) /\ (b = true -> w = PHIF T sa v) /\
      (forall y, S y < n -> v = SA sa y -> (forall l, l < s -> kept (psi_it T sa l (S y)) = false) ->
         w = SA sa (S y)).
    Proof.
      intros Hv. destruct (sub_succ T sa HT HSA s K HF v Hv) as (k0 & t & Hp & Hk0 & Em & Ht & Hkept & Hnear).
      destruct (Hval k0 t v Hv Hk0 Em (proj1 Hnear)) as (b & Eb & Hb).
      destruct (phi_value T sa HT HSA K samples getl vb validator Hgetl v k0 t b) as (w & Ew & Hw); auto; [apply Hnear|].
      exists w, b. split; [exact Ew|]. split.
      - intros G. apply Hw. eapply gap_of_mark; eauto.
      - intros y Hy Ev Hkl. rewrite Hw; [rewrite Ev; apply (PHIF_SA T sa HSA); auto|].
        subst v. eapply (sub_gap T sa HT HSA s K HF y t); eauto.
    Qed.
    Lemma fphi_total z : z < n -> exists vv, phiv (SA sa z) = Some vv.
    Proof. intros H. destruct (fphi_ok (SA sa z)) as (w & b & E & _); [apply (SA_lt T sa HSA); auto|]. eauto. Qed.
    Lemma fphi_true y w : S y < n -> phiv (SA sa y) = Some (w, true) -> w = SA sa (S y).
    Proof.
      intros H E. destruct (fphi_ok (SA sa y)) as (w' & b & E' & H1 & _); [apply (SA_lt T sa HSA); lia|].
      rewrite E' in E. injection E as -> ->. rewrite H1 by auto. apply (PHIF_SA T sa HSA); auto.
    Qed.
    Lemma fphi_reach y : S y < n -> (forall l, l < s -> kept (psi_it T sa l (S y)) = false) ->
      exists b, phiv (SA sa y) = Some (SA sa (S y), b).
    Proof.
      intros H Hl. destruct (fphi_ok (SA sa y)) as (w & b & E & _ & H2); [apply (SA_lt T sa HSA); lia|].
      rewrite <- (H2 y H eq_refl Hl). eauto.
    Qed.
  End PhiV.

  Lemma fdefault_val k0 t v : v < n -> k0 < m' -> nth k0 sm 0 = tp t -> v <= tp t ->
      exists b, sample_validator_default k0 (tp t - v) (fbit k0) = Some b /\
        (b = true -> fbit k0 = true \/ tp t - v < farea k0).
  Proof. intros. exists (fbit k0). split; auto. Qed.
  (** Untrusted links. *)
  Lemma fplain_val k0 t v : v < n -> k0 < m' -> nth k0 sm 0 = tp t -> v <= tp t ->
      exists b, sample_validator_default k0 (tp t - v) false = Some b /\
        (b = true -> fbit k0 = true \/ tp t - v < farea k0).
  Proof. intros. exists false. split; [auto|discriminate]. Qed.
  Lemma farea_val k0 t v : v < n -> k0 < m' -> nth k0 sm 0 = tp t -> v <= tp t ->
      exists b, sample_validator (bv_rank0 fbits) (nth_error (map farea finvs)) k0 (tp t - v) (fbit k0) = Some b /\
        (b = true -> fbit k0 = true \/ tp t - v < farea k0).
  Proof.
    intros Hv Hk0 Em Hle. unfold sample_validator. destruct (fbit k0) eqn:E; cbn [negb]; [exists true; auto|].
    rewrite frank0 by auto. cbn [bind]. unfold fbit in E. apply negb_false_iff in E. rewrite finvs_in in E by auto.
    unfold finvs. rewrite nth_filter_seq by auto. cbn [bind].
    destruct (Nat.leb_spec (farea k0) (tp t - v)) as [G|G].
    - exists false. split; [auto|discriminate].
    - exists true. split; auto.
  Qed.
End FwdValid.
