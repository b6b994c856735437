(** C16: all the index classes agree.  [index_answer] lists the sixteen classes; the rates and the
    encoding densities of two indexes are independent. *)
From Coq Require Import List Arith Bool Permutation.
From Verif Require Import Spec MBase MConstruct MPhi MRIndex MSrIndex MPsi MCsa MSrCsa Glue
  PropertiesRIndex PropertiesSrIndex PropertiesCsa PropertiesSrCsa.
Import ListNotations.

(** [index_answer data sa p r l]: some index built from [data] answers Count([p]) with the range [r]
    and Locate([p]) with [l]. *)
Inductive index_answer (data sa p : list nat) (r : range) (l : list nat) : Prop :=
| a_rindex : forall ix, construct_rindex data sa = Some ix ->
    rindex_count ix p = Some r -> rindex_locate ix p = Some l -> index_answer data sa p r l
| a_srindex : forall s ix, construct_sri s data sa = Some ix ->
    sr_count ix p = Some r -> srindex_locate ix p = Some l -> index_answer data sa p r l
| a_srindex_vm : forall s ix, construct_sri_valid s data sa = Some ix ->
    sr_count ix p = Some r -> srindex_vm_locate ix p = Some l -> index_answer data sa p r l
| a_srindex_va : forall s ix, construct_sri_valid s data sa = Some ix ->
    sr_count ix p = Some r -> srindex_va_locate ix p = Some l -> index_answer data sa p r l
| a_rcsa_bwt : forall h ix, 0 < h -> construct_rcsa_bwt (2 * h) data sa = Some ix ->
    rcsa_bwt_count ix p = Some r -> rcsa_bwt_locate ix p = Some l -> index_answer data sa p r l
| a_rcsa_psi : forall h ix, 0 < h -> construct_rcsa_psi (2 * h) data sa = Some ix ->
    rcsa_psi_count ix p = Some r -> rcsa_psi_locate ix p = Some l -> index_answer data sa p r l
| a_csa_raw : forall h ix, 0 < h -> construct_csa_raw (2 * h) data sa = Some ix ->
    csa_raw_count ix p = Some r -> csa_raw_locate ix p = Some l -> index_answer data sa p r l
| a_srcsa : forall s h ix, 0 < h -> construct_srcsa s (2 * h) data sa = Some ix ->
    srcsa_count ix p = Some r -> srcsa_locate ix p = Some l -> index_answer data sa p r l
| a_srcsa_vm : forall s h ix, 0 < h -> construct_srcsa_valid s (2 * h) data sa = Some ix ->
    srcsa_count ix p = Some r -> srcsa_vm_locate ix p = Some l -> index_answer data sa p r l
| a_srcsa_va : forall s h ix, 0 < h -> construct_srcsa_valid s (2 * h) data sa = Some ix ->
    srcsa_count ix p = Some r -> srcsa_va_locate ix p = Some l -> index_answer data sa p r l
| a_slim : forall s h ix, 0 < h -> construct_srcsa_slim s (2 * h) data sa = Some ix ->
    srcsa_count ix p = Some r -> slim_locate ix p = Some l -> index_answer data sa p r l
| a_slim_vm : forall s h ix, 0 < h -> construct_srcsa_slim_valid s (2 * h) data sa = Some ix ->
    srcsa_count ix p = Some r -> slim_vm_locate ix p = Some l -> index_answer data sa p r l
| a_slim_va : forall s h ix, 0 < h -> construct_srcsa_slim_valid s (2 * h) data sa = Some ix ->
    srcsa_count ix p = Some r -> slim_va_locate ix p = Some l -> index_answer data sa p r l
| a_psi : forall s h ix, 0 < h -> construct_srcsa_psi s (2 * h) data sa = Some ix ->
    srcsa_count ix p = Some r -> slim_locate ix p = Some l -> index_answer data sa p r l
| a_psi_vm : forall s h ix, 0 < h -> construct_srcsa_psi_valid s (2 * h) data sa = Some ix ->
    srcsa_count ix p = Some r -> slim_vm_locate ix p = Some l -> index_answer data sa p r l
| a_psi_va : forall s h ix, 0 < h -> construct_srcsa_psi_valid s (2 * h) data sa = Some ix ->
    srcsa_count ix p = Some r -> slim_va_locate ix p = Some l -> index_answer data sa p r l.

Lemma answer_exact w sa data p r l : zero_free w -> is_suffix_array (terminated w) sa -> data = w \/ data = terminated w ->
  S (length w) < 2 ^ 64 -> pattern_over w p -> index_answer data sa p r l ->
  exact_answer p w l /\ row_interval p w sa (fst r) (snd r).
Proof.
  intros Hw HSA Hd Hn Hp HA.
  assert (G : forall (loc : option (list nat)) (cnt : option range),
    (exists l', loc = Some l' /\ exact_answer p w l') ->
    (exists st e, cnt = Some (st, e) /\ row_interval p w sa st e /\ exists l', exact_answer p w l' /\ length l' = e - st) ->
    cnt = Some r -> loc = Some l -> exact_answer p w l /\ row_interval p w sa (fst r) (snd r)).
  { intros loc cnt (l' & E1 & H1) (st & e & E2 & H2 & _) E3 E4. rewrite E1 in E4. injection E4 as <-.
    rewrite E2 in E3. injection E3 as <-. auto. }
  destruct HA as [ix E Ec El|s ix E Ec El|s ix E Ec El|s ix E Ec El|h ix Hh E Ec El|h ix Hh E Ec El|h ix Hh E Ec El
    |s h ix Hh E Ec El|s h ix Hh E Ec El|s h ix Hh E Ec El|s h ix Hh E Ec El|s h ix Hh E Ec El|s h ix Hh E Ec El
    |s h ix Hh E Ec El|s h ix Hh E Ec El|s h ix Hh E Ec El].
  - apply (G _ _ (C02_rindex_locate w sa data ix p Hw HSA Hd E Hp) (C01_rindex_count w sa data ix p Hw HSA Hd E Hp)); auto.
  - apply (G _ _ (C03_srindex_locate w sa data s ix p Hw HSA Hd E Hp)
      (C01_srindex_count w sa data s ix p Hw HSA Hd (or_introl E) Hp)); auto.
  - apply (G _ _ (C04_srindex_vm_locate w sa data s ix p Hw HSA Hd E Hp)
      (C01_srindex_count w sa data s ix p Hw HSA Hd (or_intror E) Hp)); auto.
  - apply (G _ _ (C05_srindex_va_locate w sa data s ix p Hw HSA Hd E Hp)
      (C01_srindex_count w sa data s ix p Hw HSA Hd (or_intror E) Hp)); auto.
  - apply (G _ _ (C06_rcsa_bwt_locate w sa data h ix p Hw HSA Hd Hh Hn E Hp) (C01_rcsa_bwt_count w sa data h ix p Hw HSA Hd Hh Hn E Hp)); auto.
  - apply (G _ _ (C07_rcsa_psi_locate w sa data h ix p Hw HSA Hd Hh Hn E Hp) (C01_rcsa_psi_count w sa data h ix p Hw HSA Hd Hh Hn E Hp)); auto.
  - apply (G _ _ (C08_csa_raw_locate w sa data h ix p Hw HSA Hd Hh Hn E Hp) (C01_csa_raw_count w sa data h ix p Hw HSA Hd Hh Hn E Hp)); auto.
  - apply (G _ _ (C09_srcsa_locate w sa data h s ix p Hw HSA Hd Hh Hn E Hp)
      (C01_srcsa_count w sa data h s ix p Hw HSA Hd Hh Hn ltac:(unfold srcsa_built; auto 10) Hp)); auto.
  - apply (G _ _ (C11_srcsa_vm_locate w sa data h s ix p Hw HSA Hd Hh Hn E Hp)
      (C01_srcsa_count w sa data h s ix p Hw HSA Hd Hh Hn ltac:(unfold srcsa_built; auto 10) Hp)); auto.
  - apply (G _ _ (C12_srcsa_va_locate w sa data h s ix p Hw HSA Hd Hh Hn E Hp)
      (C01_srcsa_count w sa data h s ix p Hw HSA Hd Hh Hn ltac:(unfold srcsa_built; auto 10) Hp)); auto.
  - apply (G _ _ (C10_slim_locate w sa data h s ix p Hw HSA Hd Hh Hn E Hp)
      (C01_srcsa_count w sa data h s ix p Hw HSA Hd Hh Hn ltac:(unfold srcsa_built; auto 10) Hp)); auto.
  - apply (G _ _ (C11_slim_vm_locate w sa data h s ix p Hw HSA Hd Hh Hn E Hp)
      (C01_srcsa_count w sa data h s ix p Hw HSA Hd Hh Hn ltac:(unfold srcsa_built; auto 10) Hp)); auto.
  - apply (G _ _ (C12_slim_va_locate w sa data h s ix p Hw HSA Hd Hh Hn E Hp)
      (C01_srcsa_count w sa data h s ix p Hw HSA Hd Hh Hn ltac:(unfold srcsa_built; auto 10) Hp)); auto.
  - apply (G _ _ (C13_psi_locate w sa data h s ix p Hw HSA Hd Hh Hn E Hp)
      (C01_srcsa_count w sa data h s ix p Hw HSA Hd Hh Hn ltac:(unfold srcsa_built; auto 10) Hp)); auto.
  - apply (G _ _ (C14_psi_vm_locate w sa data h s ix p Hw HSA Hd Hh Hn E Hp)
      (C01_srcsa_count w sa data h s ix p Hw HSA Hd Hh Hn ltac:(unfold srcsa_built; auto 10) Hp)); auto.
  - apply (G _ _ (C14_psi_va_locate w sa data h s ix p Hw HSA Hd Hh Hn E Hp)
      (C01_srcsa_count w sa data h s ix p Hw HSA Hd Hh Hn ltac:(unfold srcsa_built; auto 10) Hp)); auto.
Qed.

Theorem C16_variants_agree : forall w sa data p r1 l1 r2 l2,
  zero_free w -> is_suffix_array (terminated w) sa -> data = w \/ data = terminated w ->
  S (length w) < 2 ^ 64 -> pattern_over w p ->
  index_answer data sa p r1 l1 -> index_answer data sa p r2 l2 ->
  Permutation l1 l2 /\ snd r1 - fst r1 = snd r2 - fst r2 /\ (fst r1 < snd r1 -> r1 = r2).
Proof.
  intros w sa data p r1 l1 r2 l2 Hw HSA Hd Hn Hp H1 H2.
  destruct (answer_exact w sa data p r1 l1 Hw HSA Hd Hn Hp H1) as [[N1 I1] R1].
  destruct (answer_exact w sa data p r2 l2 Hw HSA Hd Hn Hp H2) as [[N2 I2] R2].
  split; [apply NoDup_Permutation; auto; intros x; rewrite I1, I2; tauto|].
  destruct r1 as [s1 e1], r2 as [s2 e2]. cbn [fst snd] in *. destruct R1 as [B1 R1], R2 as [B2 R2].
  assert (E : forall i, s1 <= i < e1 <-> s2 <= i < e2) by (intros i; rewrite R1, R2; tauto).
  destruct (Nat.lt_ge_cases s1 e1) as [L|L].
  - pose proof (proj1 (E s1) ltac:(split; auto)) as A1. pose proof (proj1 (E (e1 - 1)) ltac:(Lia.lia)) as A2.
    pose proof (proj2 (E s2) ltac:(Lia.lia)) as A3. pose proof (proj2 (E (e2 - 1)) ltac:(Lia.lia)) as A4.
    assert (s1 = s2) by Lia.lia. assert (e1 = e2) by Lia.lia. subst. auto.
  - destruct (Nat.lt_ge_cases s2 e2) as [L2|L2].
    + pose proof (proj2 (E s2) ltac:(Lia.lia)). Lia.lia.
    + split; Lia.lia.
Qed.
Print Assumptions C16_variants_agree.
(** Every class answers. *)
Theorem C16_variants_answer : forall w sa data s h p,
  zero_free w -> is_suffix_array (terminated w) sa -> data = w \/ data = terminated w ->
  0 < h -> S (length w) < 2 ^ 64 -> pattern_over w p ->
  exists i1 i2 i3 i4 i5 i6 i7 i8 i9 i10 i11 i12,
  construct_rindex data sa = Some i1 /\ rindex_locate i1 p <> None /\
  construct_sri s data sa = Some i2 /\ srindex_locate i2 p <> None /\
  construct_sri_valid s data sa = Some i3 /\ srindex_vm_locate i3 p <> None /\ srindex_va_locate i3 p <> None /\
  construct_rcsa_bwt (2 * h) data sa = Some i4 /\ rcsa_bwt_locate i4 p <> None /\
  construct_rcsa_psi (2 * h) data sa = Some i5 /\ rcsa_psi_locate i5 p <> None /\
  construct_csa_raw (2 * h) data sa = Some i6 /\ csa_raw_locate i6 p <> None /\
  construct_srcsa s (2 * h) data sa = Some i7 /\ srcsa_locate i7 p <> None /\
  construct_srcsa_valid s (2 * h) data sa = Some i8 /\ srcsa_vm_locate i8 p <> None /\ srcsa_va_locate i8 p <> None /\
  construct_srcsa_slim s (2 * h) data sa = Some i9 /\ slim_locate i9 p <> None /\
  construct_srcsa_slim_valid s (2 * h) data sa = Some i10 /\ slim_vm_locate i10 p <> None /\ slim_va_locate i10 p <> None /\
  construct_srcsa_psi s (2 * h) data sa = Some i11 /\ slim_locate i11 p <> None /\
  construct_srcsa_psi_valid s (2 * h) data sa = Some i12 /\ slim_vm_locate i12 p <> None /\ slim_va_locate i12 p <> None.
Proof.
  intros w sa data s h p Hw HSA Hd Hh Hn Hp.
  destruct (C02_rindex_construct_total w sa data Hw HSA Hd) as [i1 E1].
  destruct (C03_srindex_construct_total w sa data s Hw HSA Hd) as [i2 E2].
  destruct (C04_srindex_valid_construct_total w sa data s Hw HSA Hd) as [i3 E3].
  destruct (C06_rcsa_bwt_construct_total w sa data h Hw HSA Hd Hh Hn) as [i4 E4].
  destruct (C07_rcsa_psi_construct_total w sa data h Hw HSA Hd Hh Hn) as [i5 E5].
  destruct (C08_csa_raw_construct_total w sa data h Hw HSA Hd Hh Hn) as [i6 E6].
  destruct (C09_srcsa_construct_total w sa data h s Hw HSA Hd Hh Hn) as [i7 E7].
  destruct (C11_srcsa_vm_construct_total w sa data h s Hw HSA Hd Hh Hn) as [i8 E8].
  destruct (C10_slim_construct_total w sa data h s Hw HSA Hd Hh Hn) as [i9 E9].
  destruct (C11_slim_vm_construct_total w sa data h s Hw HSA Hd Hh Hn) as [i10 E10].
  destruct (C13_psi_construct_total w sa data h s Hw HSA Hd Hh Hn) as [i11 E11].
  destruct (C14_psi_vm_construct_total w sa data h s Hw HSA Hd Hh Hn) as [i12 E12].
  assert (G : forall o : option (list nat), (exists l, o = Some l /\ exact_answer p w l) -> o <> None) by (intros o (l & -> & _); discriminate).
  exists i1, i2, i3, i4, i5, i6, i7, i8, i9, i10, i11, i12.
  split; [exact (E1)|].
  split; [exact (G _ (C02_rindex_locate w sa data i1 p Hw HSA Hd E1 Hp))|].
  split; [exact (E2)|].
  split; [exact (G _ (C03_srindex_locate w sa data s i2 p Hw HSA Hd E2 Hp))|].
  split; [exact (E3)|].
  split; [exact (G _ (C04_srindex_vm_locate w sa data s i3 p Hw HSA Hd E3 Hp))|].
  split; [exact (G _ (C05_srindex_va_locate w sa data s i3 p Hw HSA Hd E3 Hp))|].
  split; [exact (E4)|].
  split; [exact (G _ (C06_rcsa_bwt_locate w sa data h i4 p Hw HSA Hd Hh Hn E4 Hp))|].
  split; [exact (E5)|].
  split; [exact (G _ (C07_rcsa_psi_locate w sa data h i5 p Hw HSA Hd Hh Hn E5 Hp))|].
  split; [exact (E6)|].
  split; [exact (G _ (C08_csa_raw_locate w sa data h i6 p Hw HSA Hd Hh Hn E6 Hp))|].
  split; [exact (E7)|].
  split; [exact (G _ (C09_srcsa_locate w sa data h s i7 p Hw HSA Hd Hh Hn E7 Hp))|].
  split; [exact (E8)|].
  split; [exact (G _ (C11_srcsa_vm_locate w sa data h s i8 p Hw HSA Hd Hh Hn E8 Hp))|].
  split; [exact (G _ (C12_srcsa_va_locate w sa data h s i8 p Hw HSA Hd Hh Hn E8 Hp))|].
  split; [exact (E9)|].
  split; [exact (G _ (C10_slim_locate w sa data h s i9 p Hw HSA Hd Hh Hn E9 Hp))|].
  split; [exact (E10)|].
  split; [exact (G _ (C11_slim_vm_locate w sa data h s i10 p Hw HSA Hd Hh Hn E10 Hp))|].
  split; [exact (G _ (C12_slim_va_locate w sa data h s i10 p Hw HSA Hd Hh Hn E10 Hp))|].
  split; [exact (E11)|].
  split; [exact (G _ (C13_psi_locate w sa data h s i11 p Hw HSA Hd Hh Hn E11 Hp))|].
  split; [exact (E12)|].
  split; [exact (G _ (C14_psi_vm_locate w sa data h s i12 p Hw HSA Hd Hh Hn E12 Hp))|].
  exact (G _ (C14_psi_va_locate w sa data h s i12 p Hw HSA Hd Hh Hn E12 Hp)).
Qed.
Print Assumptions C16_variants_answer.

(** Concrete case: two classes at different rates on "abracadabra". *)
Example exa_agree :
  index_answer exf_w exf_sa [97] (1, 6) [5; 3; 0; 7; 10] /\ index_answer exf_w exf_sa [97] (1, 6) [10; 7; 0; 3; 5].
Proof.
  split.
  - assert (E : exists ix, construct_sri 2 exf_w exf_sa = Some ix /\ sr_count ix [97] = Some (1, 6) /\
      srindex_locate ix [97] = Some [5; 3; 0; 7; 10]).
    { eexists. split; [vm_compute; reflexivity|]. split; vm_compute; reflexivity. }
    destruct E as (ix & E1 & E2 & E3). exact (a_srindex _ _ _ _ _ 2 ix E1 E2 E3).
  - assert (E : exists ix, construct_srcsa_psi_valid 4 (2 * 2) exf_w exf_sa = Some ix /\ srcsa_count ix [97] = Some (1, 6) /\
      slim_va_locate ix [97] = Some [10; 7; 0; 3; 5]).
    { eexists. split; [vm_compute; reflexivity|]. split; vm_compute; reflexivity. }
    destruct E as (ix & E1 & E2 & E3). exact (a_psi_va _ _ _ _ _ 4 2 ix (Nat.lt_0_succ 1) E1 E2 E3).
Qed.
