(** C67: an object that loads again holds what it loads.  This does not hold: a load reads only what the
    storage of the object lacks. *)
From Coq Require Import List Arith Bool String.
From Verif Require Import Spec MBase MStore Glue SpecStore StoreProof StoreClass StoreRound StoreEnd PropertiesSrCsa PropertiesStore.
Import ListNotations.

(** The classes of sr_index.h and sr_csa.h, whose streams start with the rate. *)
Definition with_rate : list kind :=
  [KSrIndex; KSrIndexVM; KSrIndexVA; KSrCSA; KSrCSAVM; KSrCSAVA; KSlim; KSlimVM; KSlimVA].

(** What holds.  Any object of any class that has loaded once, from files or from a stream, whatever its
    storage held before: a load from any cache directory leaves it as it is, even if the directory is empty;
    a load from a stream takes nothing from the stream but the rate, in the classes that save it, and changes
    nothing but the rate. *)
Theorem C67_second_load : forall tm kd o0 src o s,
  reached (ob_store o0) -> load_from tm kd o0 src = Some (o, s) ->
  (forall fs, load_config tm kd o fs = Some o) /\
  (~ In kd with_rate -> forall i, load_stream tm kd o i = Some (o, i)) /\
  (In kd with_rate -> forall r i,
     load_stream tm kd o (TkNum r :: i) = Some (mk_obj r (ob_prefix o) (ob_store o), i)).
Proof.
  intros tm kd o0 src o s HR H.
  assert (A : forall src2, load_from tm kd o src2 = Some (o, mk_lstate (ob_store o) src2 []))
    by (intros src2; exact (load_again tm kd o0 src o s src2 (reached_wf _ HR) H)).
  assert (W : writes_rate kd = true <-> In kd with_rate) by (destruct kd; cbn; intuition discriminate).
  split; [|split].
  - intros fs. unfold load_config. rewrite A. reflexivity.
  - intros N i. unfold load_stream. destruct (writes_rate kd) eqn:E; [exfalso; tauto|].
    cbn [bind]. rewrite A. reflexivity.
  - intros N r i. unfold load_stream. rewrite (proj2 W N). cbn [rd_num bind].
    assert (B : load_from tm kd (mk_obj r (ob_prefix o) (ob_store o)) (SrcStream i)
      = Some (mk_obj r (ob_prefix o) (ob_store o), mk_lstate (ob_store o) (SrcStream i) [])).
    { specialize (A (SrcStream i)). unfold load_from in *. cbn [ob_prefix ob_store ob_rate] in *.
      apply bind_Some in A as (s1 & A & E). rewrite A. cbn [bind]. injection E as E ->. reflexivity. }
    rewrite B. reflexivity.
Qed.
Print Assumptions C67_second_load.

(** So in every class an object that answers for one text goes on doing so after a load of an index of another
    text, from its cache directory or from the stream that index was written to: no error shows, the stream is
    not read to its end, and the answers are wrong for the text whose index was loaded. *)
Theorem C67_load_refuted : forall kd, exists w1 sa1 w2 sa2 p fs1 fs2 o1 o2,
  (zero_free w1 /\ is_suffix_array (terminated w1) sa1) /\
  (zero_free w2 /\ is_suffix_array (terminated w2) sa2 /\ pattern_over w2 p) /\
  (cache ex_sd kd 3 w1 sa1 = Some fs1 /\ load_config ex_sd kd (new_rate 3 []) fs1 = Some o1) /\
  (cache ex_sd kd 3 w2 sa2 = Some fs2 /\ load_config ex_sd kd (new_rate 3 []) fs2 = Some o2) /\
  (exists l, obj_locate ex_sd kd o2 p = Some l /\ exact_answer p w2 l) /\
  (exists o l, load_config ex_sd kd o1 fs2 = Some o /\ obj_locate ex_sd kd o p = Some l /\ ~ exact_answer p w2 l) /\
  (exists o l t rest, load_stream ex_sd kd o1 (save ex_sd kd o2) = Some (o, t :: rest) /\
     obj_locate ex_sd kd o p = Some l /\ ~ exact_answer p w2 l).
Proof.
  intros kd. exists exf_w, exf_sa, exr_w, exr_sa, [97].
  assert (HW1 : zero_free exf_w) by (repeat constructor).
  assert (HS1 : is_suffix_array (terminated exf_w) exf_sa) by (apply sa_check_ok; vm_compute; reflexivity).
  assert (HW2 : zero_free exr_w) by (repeat constructor).
  assert (HS2 : is_suffix_array (terminated exr_w) exr_sa) by (apply sa_check_ok; vm_compute; reflexivity).
  assert (HP : pattern_over exr_w [97]) by (split; [discriminate|]; cbn; intuition).
  assert (HN : S (List.length exr_w) < 2 ^ 64).
  { apply Nat.lt_trans with 64; [cbn; repeat constructor|apply Nat.pow_gt_lin_r; repeat constructor]. }
  destruct (build_exact ex_sd kd 3 exr_w exr_sa exr_w 2 [97] HW2 HS2 (or_introl eq_refl)) as (v & r & l & B & C & LO & X & _); auto.
  clear HN C.
  assert (NX : forall l', ~ In 1 l' -> ~ exact_answer [97] exr_w l').
  { intros l' N (_ & H). apply N, H. exists [97], (skipn 2 exr_w). split; reflexivity. }
  assert (P1 : exists fs1 o1, cache ex_sd kd 3 exf_w exf_sa = Some fs1 /\ load_config ex_sd kd (new_rate 3 []) fs1 = Some o1 /\
    exists l1, obj_locate ex_sd kd o1 [97] = Some l1 /\ ~ In 1 l1).
  { destruct kd; (eexists; eexists; split; [vm_compute; reflexivity|]; split; [vm_compute; reflexivity|];
      eexists; split; [vm_compute; reflexivity|]; cbn; intuition discriminate). }
  destruct P1 as (fs1 & o1 & E1 & L1 & l1 & A1 & N1).
  assert (P2 : exists o2, load_config ex_sd kd (new_rate 3 []) (map (file_of (rate_prefix 3)) (built_files ex_sd kd v)) = Some o2 /\
    obj_locate ex_sd kd o2 [97] = Some l /\
    exists t rest, save ex_sd kd o2 = (if writes_rate kd then [TkNum 3] else []) ++ t :: rest).
  { destruct kd; (pose proof B as B'; vm_compute in B'; injection B' as EV; rewrite <- EV in LO |- *; clear EV B;
      eexists; split; [vm_compute; reflexivity|]; split; [rewrite <- LO; vm_compute; reflexivity|];
      eexists; eexists; vm_compute; reflexivity). }
  destruct P2 as (o2 & L2 & A2 & t & rest & SV).
  exists fs1, (map (file_of (rate_prefix 3)) (built_files ex_sd kd v)), o1, o2.
  split; [auto|]. split; [auto|]. split; [auto|]. split; [unfold cache; rewrite B; auto|]. split; [eauto|].
  pose proof L1 as L1'. unfold load_config in L1'. apply bind_Some in L1' as ([o1' s1] & L1' & E). injection E as ->.
  destruct (C67_second_load ex_sd kd (new_rate 3 []) (SrcFiles fs1) o1 s1 reached_empty L1') as (Q1 & Q2 & Q3).
  split; [exists o1, l1; auto|].
  exists o1, l1, t, rest. split; [|auto]. rewrite SV.
  assert (R1 : ob_rate o1 = 3).
  { unfold load_from in L1'. apply bind_Some in L1' as (? & _ & E). injection E as <- _. reflexivity. }
  destruct (writes_rate kd) eqn:WR.
  - cbn [app]. rewrite Q3 by (destruct kd; try discriminate WR; cbn; intuition). destruct o1; cbn in *. rewrite <- R1. reflexivity.
  - apply Q2. destruct kd; try discriminate WR; cbn; intuition discriminate.
Qed.
Print Assumptions C67_load_refuted.

(** With different rates it gets worse in the classes whose streams start with the rate: the object takes the
    new rate and keeps the samples of the old one.  An index of "aabbaaabaabbbbaaabb" with rate 8 that
    answers exactly loads the stream of an index of the same text with rate 2, and answers wrongly. *)
Theorem C67_mixed_rate_refuted : forall kd, In kd with_rate -> exists w sa p fs1 fs2 o1 o2 o rest l1 l2 l,
  zero_free w /\ is_suffix_array (terminated w) sa /\ pattern_over w p /\
  (cache ex_sd kd 8 w sa = Some fs1 /\ load_config ex_sd kd (new_rate 8 []) fs1 = Some o1) /\
  (cache ex_sd kd 2 w sa = Some fs2 /\ load_config ex_sd kd (new_rate 2 []) fs2 = Some o2) /\
  (obj_locate ex_sd kd o1 p = Some l1 /\ exact_answer p w l1) /\
  (obj_locate ex_sd kd o2 p = Some l2 /\ exact_answer p w l2) /\
  load_stream ex_sd kd o1 (save ex_sd kd o2) = Some (o, rest) /\
  obj_locate ex_sd kd o p = Some l /\ ~ exact_answer p w l.
Proof.
  intros kd HK. exists exr_w, exr_sa, [97].
  assert (HW2 : zero_free exr_w) by (repeat constructor).
  assert (HS2 : is_suffix_array (terminated exr_w) exr_sa) by (apply sa_check_ok; vm_compute; reflexivity).
  assert (HP : pattern_over exr_w [97]) by (split; [discriminate|]; cbn; intuition).
  assert (HN : S (List.length exr_w) < 2 ^ 64).
  { apply Nat.lt_trans with 64; [cbn; repeat constructor|apply Nat.pow_gt_lin_r; repeat constructor]. }
  destruct (build_exact ex_sd kd 8 exr_w exr_sa exr_w 2 [97] HW2 HS2 (or_introl eq_refl)) as (v1 & r1 & l1 & B1 & _ & LO1 & X1 & _); auto.
  destruct (build_exact ex_sd kd 2 exr_w exr_sa exr_w 2 [97] HW2 HS2 (or_introl eq_refl)) as (v2 & r2 & l2 & B2 & _ & LO2 & X2 & _); auto.
  clear HN. unfold cache. rewrite B1, B2. cbn [option_map].
  pose (chk := fun l' => forallb (fun i => existsb (Nat.eqb i) l') [8; 9; 15] && (List.length (nodup Nat.eq_dec l') =? List.length l')).
  assert (NX : forall l', chk l' = false -> ~ exact_answer [97] exr_w l').
  { intros l' N (U & H). unfold chk in N. rewrite (nodup_fixed_point Nat.eq_dec U), Nat.eqb_refl, andb_true_r in N.
    apply Bool.not_true_iff_false in N. apply N, forallb_forall. intros i Hi. apply existsb_exists. exists i.
    split; [|apply Nat.eqb_refl]. apply H. exists (firstn i exr_w), (skipn (S i) exr_w).
    cbn [In] in Hi. destruct Hi as [<-|[<-|[<-|[]]]]; split; reflexivity. }
  assert (P : exists o1 o2 o rest l,
    load_config ex_sd kd (new_rate 8 []) (map (file_of (rate_prefix 8)) (built_files ex_sd kd v1)) = Some o1 /\
    load_config ex_sd kd (new_rate 2 []) (map (file_of (rate_prefix 2)) (built_files ex_sd kd v2)) = Some o2 /\
    obj_locate ex_sd kd o1 [97] = Some l1 /\ obj_locate ex_sd kd o2 [97] = Some l2 /\
    load_stream ex_sd kd o1 (save ex_sd kd o2) = Some (o, rest) /\
    obj_locate ex_sd kd o [97] = Some l /\ chk l = false).
  { clear NX HP HS2 HW2 X1 X2. unfold chk. clear chk.
    cbn in HK; repeat (destruct HK as [<-|HK]; [
      vm_compute in B1; injection B1 as EV; rewrite <- EV in LO1 |- *; clear EV;
      vm_compute in B2; injection B2 as EV; rewrite <- EV in LO2 |- *; clear EV;
      do 5 eexists; split; [vm_compute; reflexivity|]; split; [vm_compute; reflexivity|];
      split; [rewrite <- LO1; vm_compute; reflexivity|]; split; [rewrite <- LO2; vm_compute; reflexivity|];
      split; [vm_compute; reflexivity|]; split; [vm_compute; reflexivity|]; vm_compute; reflexivity
      |]). contradiction. }
  clearbody chk. destruct P as (o1 & o2 & o & rest & l & P1 & P2 & P3 & P4 & P5 & P6 & P7).
  exists (map (file_of (rate_prefix 8)) (built_files ex_sd kd v1)), (map (file_of (rate_prefix 2)) (built_files ex_sd kd v2)), o1, o2, o, rest, l1, l2, l.
  exact (conj HW2 (conj HS2 (conj HP (conj (conj eq_refl P1) (conj (conj eq_refl P2) (conj (conj P3 X1) (conj (conj P4 X2)
    (conj P5 (conj P6 (NX l P7)))))))))).
Qed.
Print Assumptions C67_mixed_rate_refuted.
