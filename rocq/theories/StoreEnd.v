(** From construction to answers through the cache, a stream, or a shared storage. *)
From Coq Require Import List Arith Bool Lia ZifyBool String Ascii.
From Verif Require Import Spec MBase MRle MConstruct MPhi MRIndex MSrIndex MPsi MCsa MSrCsa Glue
  PropertiesRIndex PropertiesSrIndex PropertiesCsa PropertiesSrCsa PropertiesAll
  MStore SpecStore StoreProof StoreClass StoreTrip StoreRound StoreBuilt.
Import ListNotations.

(** Constructions have the shape of their class. *)
Lemma psi_core_dens dens b pc : construct_psi_core dens b = Some pc -> pc_dens pc = dens.
Proof.
  unfold construct_psi_core, pc_construct. intros H. apply bind_Some in H as (psi & _ & H). apply bind_Some in H as (n & _ & H).
  apply bind_Some in H as ([f l] & _ & H). injection H as <-. reflexivity.
Qed.
Lemma rcsa_bwt_dens dens data sa ix : construct_rcsa_bwt dens data sa = Some ix -> pc_dens (ca_psi ix) = dens.
Proof.
  unfold construct_rcsa_bwt. intros H. apply bind_Some in H as (b & _ & H). apply bind_Some in H as (pc & HP & H).
  apply bind_Some in H as ([x l] & _ & H). apply bind_Some in H as (m & _ & H). injection H as <-. exact (psi_core_dens _ _ _ HP).
Qed.
Lemma csa_raw_dens dens data sa ix : construct_csa_raw dens data sa = Some ix -> pc_dens (cr_psi ix) = dens.
Proof.
  unfold construct_csa_raw. intros H. apply bind_Some in H as (b & _ & H). apply bind_Some in H as (pc & HP & H).
  apply bind_Some in H as ([x l] & _ & H). apply bind_Some in H as (m & _ & H). injection H as <-. exact (psi_core_dens _ _ _ HP).
Qed.
Lemma rcsa_psi_dens dens data sa ix : construct_rcsa_psi dens data sa = Some ix -> pc_dens (ca_psi ix) = dens.
Proof.
  unfold construct_rcsa_psi. intros H. apply bind_Some in H as (b & _ & H). apply bind_Some in H as (pc & HP & H).
  apply bind_Some in H as ([x l] & _ & H). apply bind_Some in H as (m & _ & H). apply bind_Some in H as ([y z] & _ & H).
  injection H as <-. exact (psi_core_dens _ _ _ HP).
Qed.
Lemma sri_rate s data sa ix : construct_sri s data sa = Some ix -> sr_rate ix = s.
Proof.
  unfold construct_sri. intros H. apply bind_Some in H as (b & _ & H). apply bind_Some in H as ([x y] & _ & H).
  apply bind_Some in H as (m & _ & H). apply bind_Some in H as (m' & _ & H). injection H as <-. reflexivity.
Qed.
Lemma sri_valid_rate s data sa ix : construct_sri_valid s data sa = Some ix -> sr_rate ix = s.
Proof.
  unfold construct_sri_valid. intros H. apply bind_Some in H as (b & _ & H). apply bind_Some in H as ([x y] & _ & H).
  apply bind_Some in H as (m & _ & H). apply bind_Some in H as (m' & _ & H). apply bind_Some in H as ([v a] & _ & H).
  apply bind_Some in H as (m2 & _ & H). injection H as <-. reflexivity.
Qed.
Lemma commons_dens s dens data sa b pc f l m : construct_srcsa_commons s dens data sa = Some (b, pc, f, l, m) -> pc_dens pc = dens.
Proof.
  unfold construct_srcsa_commons. intros H. apply bind_Some in H as (b' & _ & H). apply bind_Some in H as (pc' & HP & H).
  apply bind_Some in H as ([x1 x2] & _ & H). apply bind_Some in H as (x3 & _ & H). apply bind_Some in H as ([x4 x5] & _ & H).
  apply bind_Some in H as (x6 & _ & H). apply bind_Some in H as ([x7 x8] & _ & H). apply bind_Some in H as (x9 & _ & H).
  injection H as <- <- <- <- <-. exact (psi_core_dens _ _ _ HP).
Qed.
Definition keeps (make : nat -> base_items * psi_core * sri_files * list nat * list bool -> option srcsa) : Prop :=
  forall s b pc f l m ix, make s (b, pc, f, l, m) = Some ix -> sc_psi ix = pc /\ sc_rate ix = s.
Lemma keeps_srcsa : keeps construct_srcsa_of.
Proof.
  intros s b pc f l m ix H. unfold construct_srcsa_of in H. apply bind_Some in H as (x & _ & H). apply bind_Some in H as (y & _ & H).
  injection H as <-. auto.
Qed.
Lemma keeps_slim : keeps construct_srcsa_slim_of.
Proof.
  intros s b pc f l m ix H. unfold construct_srcsa_slim_of in H. apply bind_Some in H as ([x1 x2] & _ & H).
  apply bind_Some in H as ([[x3 x4] x5] & _ & H). apply bind_Some in H as (y & _ & H). injection H as <-. auto.
Qed.
Lemma make_dens make s dens data sa ix : keeps make -> (c <- construct_srcsa_commons s dens data sa ;; make s c) = Some ix ->
  pc_dens (sc_psi ix) = dens /\ sc_rate ix = s.
Proof.
  intros K H. apply bind_Some in H as ([[[[b pc] f] l] m] & HC & H). destruct (K _ _ _ _ _ _ _ H) as (-> & ->).
  split; [exact (commons_dens _ _ _ _ _ _ _ _ _ HC) | reflexivity].
Qed.
Lemma valid_dens make s dens data sa ix : keeps make -> construct_srcsa_valid_of make s dens data sa = Some ix ->
  pc_dens (sc_psi ix) = dens /\ sc_rate ix = s.
Proof.
  intros K H. unfold construct_srcsa_valid_of in H. apply bind_Some in H as ([[[[b pc] f] l] m] & HC & H).
  apply bind_Some in H as (i0 & HM & H). apply bind_Some in H as (x & _ & H). apply bind_Some in H as ([y z] & _ & H).
  apply bind_Some in H as (u & _ & H). injection H as <-. unfold set_validity. cbn [sc_psi sc_rate].
  destruct (K _ _ _ _ _ _ _ HM) as (-> & ->). split; [exact (commons_dens _ _ _ _ _ _ _ _ _ HC) | reflexivity].
Qed.
Lemma psi_of_dens s dens data sa ix x : construct_srcsa_psi_of s dens data sa = Some (ix, x) -> pc_dens (sc_psi ix) = dens /\ sc_rate ix = s.
Proof.
  unfold construct_srcsa_psi_of. intros H. apply bind_Some in H as (b & _ & H). apply bind_Some in H as (pc & HP & H).
  apply bind_Some in H as ([x1 x2] & _ & H). apply bind_Some in H as (x3 & _ & H). apply bind_Some in H as ([x4 x5] & _ & H).
  apply bind_Some in H as ([x6 x7] & _ & H). apply bind_Some in H as (x8 & _ & H). apply bind_Some in H as ([x9 x10] & _ & H).
  apply bind_Some in H as (x11 & _ & H). apply bind_Some in H as (x12 & _ & H). apply bind_Some in H as (x13 & _ & H).
  injection H as <- _. cbn [sc_psi sc_rate]. split; [exact (psi_core_dens _ _ _ HP) | reflexivity].
Qed.
Lemma build_shape tm kd rate data sa v : build tm kd rate data sa = Some v -> shape tm kd rate v.
Proof.
  destruct kd; cbn [build]; intros H;
  match type of H with option_map _ ?c = _ => destruct c as [ix|] eqn:E; [|discriminate] end;
  injection H as <-; cbn [shape]; auto.
  - exact (sri_rate _ _ _ _ E).
  - exact (sri_valid_rate _ _ _ _ E).
  - exact (sri_valid_rate _ _ _ _ E).
  - exact (rcsa_bwt_dens _ _ _ _ E).
  - exact (csa_raw_dens _ _ _ _ E).
  - exact (make_dens _ _ _ _ _ _ keeps_srcsa E).
  - exact (valid_dens _ _ _ _ _ _ keeps_srcsa E).
  - exact (valid_dens _ _ _ _ _ _ keeps_srcsa E).
  - exact (make_dens _ _ _ _ _ _ keeps_slim E).
  - exact (valid_dens _ _ _ _ _ _ keeps_slim E).
  - exact (valid_dens _ _ _ _ _ _ keeps_slim E).
  - exact (rcsa_psi_dens _ _ _ _ E).
  - unfold construct_srcsa_psi in E. apply bind_Some in E as ([i x] & E & E'). injection E' as <-. exact (psi_of_dens _ _ _ _ _ _ E).
  - unfold construct_srcsa_psi_valid in E. apply bind_Some in E as ([i [x y]] & E & E'). apply bind_Some in E' as ([u1 u2] & _ & E').
    apply bind_Some in E' as (u3 & _ & E'). injection E' as <-. exact (psi_of_dens _ _ _ _ _ _ E).
  - unfold construct_srcsa_psi_valid in E. apply bind_Some in E as ([i [x y]] & E & E'). apply bind_Some in E' as ([u1 u2] & _ & E').
    apply bind_Some in E' as (u3 & _ & E'). injection E' as <-. exact (psi_of_dens _ _ _ _ _ _ E).
Qed.

(** Every class can be built and its answers are exact. *)
Lemma build_exact tm kd rate w sa data h p :
  zero_free w -> is_suffix_array (terminated w) sa -> data = w \/ data = terminated w ->
  0 < h -> t_dens tm = 2 * h -> S (List.length w) < 2 ^ 64 -> pattern_over w p ->
  exists v r l, build tm kd rate data sa = Some v /\ count_view v p = Some r /\ locate_view kd v p = Some l /\
    exact_answer p w l /\ row_interval p w sa (fst r) (snd r).
Proof.
  intros Hw HSA Hd Hh HD Hn Hp.
  assert (G : forall (v : loaded) (loc : option (list nat)) (cnt : option range), count_view v p = cnt -> locate_view kd v p = loc ->
    build tm kd rate data sa = Some v ->
    (exists l', loc = Some l' /\ exact_answer p w l') ->
    (exists st e, cnt = Some (st, e) /\ row_interval p w sa st e /\ exists l', exact_answer p w l' /\ List.length l' = e - st) ->
    exists v r l, build tm kd rate data sa = Some v /\ count_view v p = Some r /\ locate_view kd v p = Some l /\
      exact_answer p w l /\ row_interval p w sa (fst r) (snd r)).
  { intros v loc cnt E1 E2 E (l' & E3 & H1) (st & e & E4 & H2 & _). exists v, (st, e), l'. rewrite E1, E2. auto. }
  destruct kd; cbn [build] in *; rewrite ?HD in *.
  - destruct (C02_rindex_construct_total w sa data Hw HSA Hd) as [ix E]. rewrite E in *.
    apply (G (LdR ix) _ _ eq_refl eq_refl eq_refl (C02_rindex_locate w sa data ix p Hw HSA Hd E Hp) (C01_rindex_count w sa data ix p Hw HSA Hd E Hp)).
  - destruct (C03_srindex_construct_total w sa data rate Hw HSA Hd) as [ix E]. rewrite E in *.
    apply (G (LdSr ix) _ _ eq_refl eq_refl eq_refl (C03_srindex_locate w sa data rate ix p Hw HSA Hd E Hp)
      (C01_srindex_count w sa data rate ix p Hw HSA Hd (or_introl E) Hp)).
  - destruct (C04_srindex_valid_construct_total w sa data rate Hw HSA Hd) as [ix E]. rewrite E in *.
    apply (G (LdSr ix) _ _ eq_refl eq_refl eq_refl (C04_srindex_vm_locate w sa data rate ix p Hw HSA Hd E Hp)
      (C01_srindex_count w sa data rate ix p Hw HSA Hd (or_intror E) Hp)).
  - destruct (C04_srindex_valid_construct_total w sa data rate Hw HSA Hd) as [ix E]. rewrite E in *.
    apply (G (LdSr ix) _ _ eq_refl eq_refl eq_refl (C05_srindex_va_locate w sa data rate ix p Hw HSA Hd E Hp)
      (C01_srindex_count w sa data rate ix p Hw HSA Hd (or_intror E) Hp)).
  - destruct (C06_rcsa_bwt_construct_total w sa data h Hw HSA Hd Hh Hn) as [ix E]. rewrite E in *.
    apply (G (LdCsa ix) _ _ eq_refl eq_refl eq_refl (C06_rcsa_bwt_locate w sa data h ix p Hw HSA Hd Hh Hn E Hp)
      (C01_rcsa_bwt_count w sa data h ix p Hw HSA Hd Hh Hn E Hp)).
  - destruct (C08_csa_raw_construct_total w sa data h Hw HSA Hd Hh Hn) as [ix E]. rewrite E in *.
    apply (G (LdRaw ix) _ _ eq_refl eq_refl eq_refl (C08_csa_raw_locate w sa data h ix p Hw HSA Hd Hh Hn E Hp)
      (C01_csa_raw_count w sa data h ix p Hw HSA Hd Hh Hn E Hp)).
  - destruct (C09_srcsa_construct_total w sa data h rate Hw HSA Hd Hh Hn) as [ix E]. rewrite E in *.
    apply (G (LdSc ix) _ _ eq_refl eq_refl eq_refl (C09_srcsa_locate w sa data h rate ix p Hw HSA Hd Hh Hn E Hp)
      (C01_srcsa_count w sa data h rate ix p Hw HSA Hd Hh Hn ltac:(unfold srcsa_built; auto 10) Hp)).
  - destruct (C11_srcsa_vm_construct_total w sa data h rate Hw HSA Hd Hh Hn) as [ix E]. rewrite E in *.
    apply (G (LdSc ix) _ _ eq_refl eq_refl eq_refl (C11_srcsa_vm_locate w sa data h rate ix p Hw HSA Hd Hh Hn E Hp)
      (C01_srcsa_count w sa data h rate ix p Hw HSA Hd Hh Hn ltac:(unfold srcsa_built; auto 10) Hp)).
  - destruct (C12_srcsa_va_construct_total w sa data h rate Hw HSA Hd Hh Hn) as [ix E]. rewrite E in *.
    apply (G (LdSc ix) _ _ eq_refl eq_refl eq_refl (C12_srcsa_va_locate w sa data h rate ix p Hw HSA Hd Hh Hn E Hp)
      (C01_srcsa_count w sa data h rate ix p Hw HSA Hd Hh Hn ltac:(unfold srcsa_built; auto 10) Hp)).
  - destruct (C10_slim_construct_total w sa data h rate Hw HSA Hd Hh Hn) as [ix E]. rewrite E in *.
    apply (G (LdSc ix) _ _ eq_refl eq_refl eq_refl (C10_slim_locate w sa data h rate ix p Hw HSA Hd Hh Hn E Hp)
      (C01_srcsa_count w sa data h rate ix p Hw HSA Hd Hh Hn ltac:(unfold srcsa_built; auto 10) Hp)).
  - destruct (C11_slim_vm_construct_total w sa data h rate Hw HSA Hd Hh Hn) as [ix E]. rewrite E in *.
    apply (G (LdSc ix) _ _ eq_refl eq_refl eq_refl (C11_slim_vm_locate w sa data h rate ix p Hw HSA Hd Hh Hn E Hp)
      (C01_srcsa_count w sa data h rate ix p Hw HSA Hd Hh Hn ltac:(unfold srcsa_built; auto 10) Hp)).
  - destruct (C12_slim_va_construct_total w sa data h rate Hw HSA Hd Hh Hn) as [ix E]. rewrite E in *.
    apply (G (LdSc ix) _ _ eq_refl eq_refl eq_refl (C12_slim_va_locate w sa data h rate ix p Hw HSA Hd Hh Hn E Hp)
      (C01_srcsa_count w sa data h rate ix p Hw HSA Hd Hh Hn ltac:(unfold srcsa_built; auto 10) Hp)).
  - destruct (C07_rcsa_psi_construct_total w sa data h Hw HSA Hd Hh Hn) as [ix E]. rewrite E in *.
    apply (G (LdCsa ix) _ _ eq_refl eq_refl eq_refl (C07_rcsa_psi_locate w sa data h ix p Hw HSA Hd Hh Hn E Hp)
      (C01_rcsa_psi_count w sa data h ix p Hw HSA Hd Hh Hn E Hp)).
  - destruct (C13_psi_construct_total w sa data h rate Hw HSA Hd Hh Hn) as [ix E]. rewrite E in *.
    apply (G (LdSc ix) _ _ eq_refl eq_refl eq_refl (C13_psi_locate w sa data h rate ix p Hw HSA Hd Hh Hn E Hp)
      (C01_srcsa_count w sa data h rate ix p Hw HSA Hd Hh Hn ltac:(unfold srcsa_built; auto 10) Hp)).
  - destruct (C14_psi_vm_construct_total w sa data h rate Hw HSA Hd Hh Hn) as [ix E]. rewrite E in *.
    apply (G (LdSc ix) _ _ eq_refl eq_refl eq_refl (C14_psi_vm_locate w sa data h rate ix p Hw HSA Hd Hh Hn E Hp)
      (C01_srcsa_count w sa data h rate ix p Hw HSA Hd Hh Hn ltac:(unfold srcsa_built; auto 10) Hp)).
  - destruct (C14_psi_va_construct_total w sa data h rate Hw HSA Hd Hh Hn) as [ix E]. rewrite E in *.
    apply (G (LdSc ix) _ _ eq_refl eq_refl eq_refl (C14_psi_va_locate w sa data h rate ix p Hw HSA Hd Hh Hn E Hp)
      (C01_srcsa_count w sa data h rate ix p Hw HSA Hd Hh Hn ltac:(unfold srcsa_built; auto 10) Hp)).
Qed.
Lemma build_total tm kd rate w sa data h :
  zero_free w -> is_suffix_array (terminated w) sa -> data = w \/ data = terminated w ->
  0 < h -> t_dens tm = 2 * h -> S (List.length w) < 2 ^ 64 -> exists v, build tm kd rate data sa = Some v.
Proof.
  intros Hw HSA Hd Hh HD Hn.
  destruct kd; cbn [build] in *; rewrite ?HD in *.
  - destruct (C02_rindex_construct_total w sa data Hw HSA Hd) as [ix E]. rewrite E. eexists. reflexivity.
  - destruct (C03_srindex_construct_total w sa data rate Hw HSA Hd) as [ix E]. rewrite E. eexists. reflexivity.
  - destruct (C04_srindex_valid_construct_total w sa data rate Hw HSA Hd) as [ix E]. rewrite E. eexists. reflexivity.
  - destruct (C04_srindex_valid_construct_total w sa data rate Hw HSA Hd) as [ix E]. rewrite E. eexists. reflexivity.
  - destruct (C06_rcsa_bwt_construct_total w sa data h Hw HSA Hd Hh Hn) as [ix E]. rewrite E. eexists. reflexivity.
  - destruct (C08_csa_raw_construct_total w sa data h Hw HSA Hd Hh Hn) as [ix E]. rewrite E. eexists. reflexivity.
  - destruct (C09_srcsa_construct_total w sa data h rate Hw HSA Hd Hh Hn) as [ix E]. rewrite E. eexists. reflexivity.
  - destruct (C11_srcsa_vm_construct_total w sa data h rate Hw HSA Hd Hh Hn) as [ix E]. rewrite E. eexists. reflexivity.
  - destruct (C12_srcsa_va_construct_total w sa data h rate Hw HSA Hd Hh Hn) as [ix E]. rewrite E. eexists. reflexivity.
  - destruct (C10_slim_construct_total w sa data h rate Hw HSA Hd Hh Hn) as [ix E]. rewrite E. eexists. reflexivity.
  - destruct (C11_slim_vm_construct_total w sa data h rate Hw HSA Hd Hh Hn) as [ix E]. rewrite E. eexists. reflexivity.
  - destruct (C12_slim_va_construct_total w sa data h rate Hw HSA Hd Hh Hn) as [ix E]. rewrite E. eexists. reflexivity.
  - destruct (C07_rcsa_psi_construct_total w sa data h Hw HSA Hd Hh Hn) as [ix E]. rewrite E. eexists. reflexivity.
  - destruct (C13_psi_construct_total w sa data h rate Hw HSA Hd Hh Hn) as [ix E]. rewrite E. eexists. reflexivity.
  - destruct (C14_psi_vm_construct_total w sa data h rate Hw HSA Hd Hh Hn) as [ix E]. rewrite E. eexists. reflexivity.
  - destruct (C14_psi_va_construct_total w sa data h rate Hw HSA Hd Hh Hn) as [ix E]. rewrite E. eexists. reflexivity.
Qed.
