(** Forward phi on (sub)marks and forward links, in BWT order and in Psi order. *)
From Coq Require Import List Arith Bool Lia ZifyBool ZifyNat Permutation.
From Verif Require Import Spec MBase Lists FM MRle Runs RleProof MConstruct MPhi MRIndex Util Phi ConstructProof Nav PhiProof
  MPsi PsiSym PsiProof MCsa.
Import ListNotations.

Section PhiFwd.
  Variables (T sa : list nat).
  Hypothesis HT : text_ok T.
  Hypothesis HSA : is_suffix_array T sa.
  Notation n := (len T).

  (** One application of phi from a mark at or after [v] with no other mark in between. *)
  Lemma phi_forward_gen succ gs v k t b : v < n -> t < n ->
    succ v = Some (k, tpos T sa t) -> v <= tpos T sa t ->
    (forall x, v <= x -> x < tpos T sa t -> ~ is_tmark T sa x) ->
    gs k (tpos T sa t - v) = Some (tpos T sa (flink T sa t), b) ->
    phi_forward succ gs n v = Some (PHIF T sa v, b).
  Proof.
    intros Hv Ht Hp Hm Hgap Hgs. unfold phi_forward, phi_fn. rewrite Hp. cbn [bind].
    rewrite sub64_ok by auto. rewrite Hgs. cbn [bind]. pose proof (tpos_lt T sa HT t) as Hl.
    set (m := tpos T sa t) in *. rewrite sub64_ok by lia. rewrite umod_ok by lia. cbn [bind]. do 2 f_equal.
    rewrite (tpos_flink T sa HT HSA) by auto. fold m.
    rewrite (PHIF_from_mark T sa HT HSA m (m - v) v); auto.
    - pose proof (PHIF_lt T sa HT HSA v) as Hph. set (f := PHIF T sa v) in *. clearbody f m.
      destruct (Nat.lt_ge_cases (f + (m - v)) n).
      + rewrite (Nat.mod_small (f + (m - v))) by auto.
        replace (f + (m - v) + n - (m - v)) with (f + n) by lia. rewrite mod_sub_once by lia. lia.
      + rewrite (mod_sub_once (f + (m - v))) by lia.
        replace (f + (m - v) - n + n - (m - v)) with f by lia. apply Nat.mod_small; auto.
    - replace (v + (m - v)) with m by lia. apply Nat.mod_small. lia.
    - intros j Hj. rewrite Nat.mod_small by lia. apply Hgap; lia.
  Qed.

  (** Any mark set that holds the last text position has a successor for every value. *)
  Lemma succ_found ms v : ssorted ms -> (forall m, In m ms -> m < n) -> In (n - 1) ms -> v < n ->
    exists k, k < length ms /\ circular_soft_successor (bits_of ms n) n v = Some (k, nth k ms 0) /\
      v <= nth k ms 0 /\ forall m, In m ms -> v <= m -> nth k ms 0 <= m.
  Proof.
    intros Hs Hlt Hlast Hv. assert (Hne : ms <> []) by (intros E; rewrite E in Hlast; destruct Hlast).
    destruct (circ_succ_ok ms n Hs Hlt Hne v ltac:(lia)) as (k & Hk & Hp & Hc). exists k. split; auto. split; auto.
    destruct Hc as [Hc|[Hc _]]; auto. specialize (Hc _ Hlast). lia.
  Qed.

  (** Totality: phi answers as soon as the samples of the marks can be read. *)
  Lemma phi_forward_some ms gs v : ssorted ms -> (forall m, In m ms -> m < n) -> In (n - 1) ms ->
    (forall k delta, k < length ms -> exists a b, gs k delta = Some (a, b)) -> v < n ->
    exists a b, phi_forward (circular_soft_successor (bits_of ms n) n) gs n v = Some (a, b) /\ a < n.
  Proof.
    intros Hs Hlt Hlast Hgs Hv. destruct (succ_found ms v Hs Hlt Hlast Hv) as (k & Hk & Hp & _ & _).
    unfold phi_forward, phi_fn. rewrite Hp. cbn [bind].
    destruct (Hgs k (sub64 (nth k ms 0) v) Hk) as (a & b & E). rewrite E. cbn [bind]. rewrite umod_ok by lia. cbn [bind].
    do 2 eexists. split; [reflexivity|]. apply Nat.mod_upper_bound. lia.
  Qed.

  (** All marks present. *)
  Lemma phi_forward_full ms gs v :
    ssorted ms -> (forall m, In m ms <-> is_tmark T sa m) ->
    (forall k t, k < length ms -> t < n -> tpos T sa t = nth k ms 0 ->
       forall delta, exists b, gs k delta = Some (tpos T sa (flink T sa t), b)) ->
    v < n -> exists b, phi_forward (circular_soft_successor (bits_of ms n) n) gs n v = Some (PHIF T sa v, b).
  Proof.
    intros Hs Hms Hgs Hv.
    assert (Hlt : forall m, In m ms -> m < n) by (intros m Hm; apply Hms in Hm; eapply is_tmark_lt; eauto).
    assert (Hlast : In (n - 1) ms) by (apply Hms, last_tmark; auto).
    destruct (succ_found ms v Hs Hlt Hlast Hv) as (k & Hk & Hp & H1 & H2).
    assert (Hin : In (nth k ms 0) ms) by (apply nth_In; auto).
    destruct (proj1 (Hms _) Hin) as (t & Ht & Htail & Et).
    destruct (Hgs k t Hk Ht Et (tpos T sa t - v)) as [b Hb]. exists b.
    apply (phi_forward_gen _ _ _ k t); auto; try (rewrite Et; auto; fail).
    intros x Hx1 Hx2 Hmark. apply Hms in Hmark. specialize (H2 _ Hmark Hx1). lia.
  Qed.

  (** Iterating phi walks up the rows. *)
  Lemma phi_fiter_ok phi : (forall v, v < n -> exists b, phi v = Some (PHIF T sa v, b)) ->
    forall m i, i + m < n -> phi_iter phi m (SA sa i) = Some (map (SA sa) (seq (S i) m)).
  Proof.
    intros Hphi. induction m as [|m IH]; intros i Hi; auto. cbn [phi_iter seq map].
    destruct (Hphi (SA sa i)) as [b Hb]; [apply (SA_lt T sa HSA); lia|]. rewrite Hb. cbn [bind].
    rewrite (PHIF_SA T sa HSA) by lia. rewrite IH by lia. reflexivity.
  Qed.
End PhiFwd.

(** [lower_bound] of a present value is its index. *)
Lemma lower_bound_nth l i : ssorted l -> i < length l -> lower_bound l (nth i l 0) = i.
Proof.
  intros H; revert i; induction H as [|a l Hs IH Hf]; intros i Hi; [cbn in Hi; lia|].
  cbn [lower_bound]. destruct i as [|i]; cbn [nth]; cbn [length] in Hi.
  - destruct (Nat.ltb_spec a a); [lia|auto].
  - assert (G : a < nth i l 0) by (rewrite Forall_forall in Hf; apply Hf, nth_In; lia).
    destruct (Nat.ltb_spec a (nth i l 0)); [|lia]. rewrite IH by lia. auto.
Qed.
Lemma lower_bound_in l x : ssorted l -> In x l -> lower_bound l x < length l /\ nth (lower_bound l x) l 0 = x.
Proof.
  intros Hs Hx. destruct (In_nth _ _ 0 Hx) as (i & Hi & <-). rewrite lower_bound_nth by auto. auto.
Qed.

(** Links from marks in text order to samples: [rowsh] the rows of the samples and [rowst] those of the marks,
    both by index. *)
Section Links.
  Variables (T sa : list nat).
  Hypothesis HT : text_ok T.
  Hypothesis HSA : is_suffix_array T sa.
  Notation n := (len T).
  Variables (rowsh rowst : list nat) (link : nat -> nat).
  Hypothesis Hh : forall i, In i rowsh -> i < n.
  Hypothesis Ht : forall i, In i rowst -> i < n.
  Hypothesis HtN : NoDup rowst.
  Hypothesis Hlink : forall i, i < length rowst -> link i < length rowsh /\ nth (link i) rowsh 0 = flink T sa (nth i rowst 0).
  Notation samples := (map (tpos T sa) rowsh).
  Notation marks := (map (tpos T sa) rowst).
  Notation links := (map link (sort_indices (map (tpos T sa) rowst))).

  Lemma marks_NoDup : NoDup marks.
  Proof. apply NoDup_map_inj; auto. intros x y Hx Hy. apply (tpos_inj T sa HT HSA); auto. Qed.
  Lemma links_length : length links = length rowst.
  Proof. rewrite map_length, sort_indices_length, map_length. auto. Qed.
  Lemma links_ok k t : k < length rowst -> t < n -> tpos T sa t = nth k (sorted_values marks) 0 ->
    exists l, nth_error links k = Some l /\ l < length rowsh /\ nth l rowsh 0 = flink T sa t /\
      nth_error samples l = Some (tpos T sa (flink T sa t)).
  Proof.
    intros Hk Hn E. set (idx := nth k (sort_indices marks) 0).
    assert (Hidx : idx < length rowst).
    { rewrite <- (map_length (tpos T sa)). apply sort_indices_lt. apply nth_In. rewrite sort_indices_length, map_length. auto. }
    assert (Et : t = nth idx rowst 0).
    { rewrite sorted_values_nth in E by (rewrite map_length; auto). fold idx in E. rewrite (nth_map_lt _ _ _ 0) in E by auto.
      apply (tpos_inj T sa HT HSA) in E; auto. apply Ht, nth_In; auto. }
    destruct (Hlink idx Hidx) as [L1 L2]. rewrite <- Et in L2. exists (link idx). split; [|split; [auto|split; [auto|]]].
    - rewrite nth_error_map, (nth_error_nth_lt _ _ 0) by (rewrite sort_indices_length, map_length; auto). reflexivity.
    - rewrite nth_error_map, (nth_error_nth_lt _ _ 0) by auto. rewrite L2. reflexivity.
  Qed.

  (** Phi with every mark and trusted links. *)
  Lemma links_phi v : (forall m, In m marks <-> is_tmark T sa m) -> v < n ->
    exists b, csa_phi n (bits_of marks n) samples (links_default links true) sample_validator_default v = Some (PHIF T sa v, b).
  Proof.
    intros Hm Hv. unfold csa_phi.
    rewrite (bits_of_ext marks (sorted_values marks)) by (intros x; symmetry; apply sorted_values_in).
    apply (phi_forward_full T sa HT HSA (sorted_values marks)); auto.
    - apply sorted_values_sorted, marks_NoDup.
    - intros m. rewrite sorted_values_in. apply Hm.
    - intros k t Hk Htn E delta. rewrite sorted_values_length, map_length in Hk.
      destruct (links_ok k t Hk Htn E) as (l & E1 & E2 & E3 & E4).
      unfold get_sample_for_phi, links_default. rewrite E1. cbn [bind]. rewrite E4. cbn [bind]. unfold sample_validator_default. cbn [bind]. eauto.
  Qed.
End Links.
