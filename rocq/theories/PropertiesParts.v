(** C72: a copied or moved RLEString is a value of its own.  C73: the same for PsiCoreBV.

    [rle_at m x], [psi_at m x]: the sequence that all queries of the object [x] see in the memory [m]; [None]: a
    support of the object reads memory that is gone.  What these sequences answer: C19 to C24 and C53, C31. *)
From Coq Require Import List Arith Bool Lia.
From Verif Require Import MBase MRle MPsi MParts SpecParts StoreProof PartsProof.
Import ListNotations.

Lemma carried_whole A cls (gives : nat -> nat -> pop A -> Prop) m x v bs :
  (forall m1 y z o m2, inv A m1 -> gives z y o -> whole A m1 y v bs -> pstep A cls m1 o = Some m2 -> whole A m2 z v bs) ->
  pmade cls m x v bs -> forall m' y, carried cls gives m x m' y -> inv A m' /\ whole A m' y v bs.
Proof.
  intros G (m0 & o0 & R & Ho & H0) m' y C. apply preach_inv in R. induction C as [|m1 y o m2 C (I & W) L S|m1 y z o m2 C (I & W) L S].
  - split; [exact (k_inv A o0 m0 m (pstep_kept A cls m0 o0 m R H0))|]. exact (new_whole A cls m0 x v bs m o0 R Ho H0).
  - split; [exact (k_inv A o m1 m2 (pstep_kept A cls m1 o m2 I S))|].
    apply (whole_steps A cls [o] m1 m2 y v bs I); [auto|cbn; rewrite S; reflexivity|exact W].
  - split; [exact (k_inv A o m1 m2 (pstep_kept A cls m1 o m2 I S))|]. exact (G m1 y z o m2 I L W S).
Qed.

(** However often the value of an RLEString is copied, assigned or moved on, and whatever is done to its earlier
    holders and to other objects: the last holder is the sequence that was constructed or loaded. *)
Theorem C72_copy_and_move : forall m x s m' y,
  pmade RleParts m x (rle_members s) (rle_bits s) ->
  carried RleParts (fun z w o => pcopies z w o \/ pmoves z w o) m x m' y ->
  rle_at m' y = Some s.
Proof.
  intros m x s m' y M C.
  destruct (carried_whole rle_meta RleParts (fun z w o => pcopies z w o \/ pmoves z w o) m x (rle_members s) (rle_bits s)) with (m' := m') (y := y) as (_ & W); [|exact M|exact C|].
  - intros m1 w z o m2 I [G|G] W S; [exact (copy_whole_rle rle_meta m1 z w _ _ m2 o I G W S)|exact (move_whole rle_meta RleParts m1 z w _ _ m2 o I G W S)].
  - unfold rle_at. rewrite (whole_view rle_meta m' y _ _ W). destruct s. reflexivity.
Qed.
Print Assumptions C72_copy_and_move.

(** A moved PsiCoreBV keeps its value in the same way. *)
Theorem C73_move : forall m x s m' y,
  pmade PsiParts m x (psi_members s) (pv_partial s) -> carried PsiParts pmoves m x m' y -> psi_at m' y = Some s.
Proof.
  intros m x s m' y M C.
  destruct (carried_whole psi_meta PsiParts pmoves m x (psi_members s) (pv_partial s)) with (m' := m') (y := y) as (_ & W); [|exact M|exact C|].
  - intros m1 w z o m2 I G W S. exact (move_whole psi_meta PsiParts m1 z w _ _ m2 o I G W S).
  - unfold psi_at. rewrite (whole_view psi_meta m' y _ _ W). destruct s. reflexivity.
Qed.
Print Assumptions C73_move.

(** A copy of a PsiCoreBV keeps it as long as its original is left alone. *)
Theorem C73_copy : forall m x s m1 y z o m2 l m3,
  pmade PsiParts m x (psi_members s) (pv_partial s) -> carried PsiParts pmoves m x m1 y ->
  pcopies z y o -> pstep psi_meta PsiParts m1 o = Some m2 ->
  Forall (pleaves y) l -> Forall (pleaves z) l -> psteps psi_meta PsiParts m2 l = Some m3 ->
  psi_at m3 z = Some s.
Proof.
  intros m x s m1 y z o m2 l m3 M C G S Fy Fz H.
  destruct (carried_whole psi_meta PsiParts pmoves m x (psi_members s) (pv_partial s)) with (m' := m1) (y := y) as (I & W); [|exact M|exact C|].
  { intros m1' w z' o' m2' I G' W S'. exact (move_whole psi_meta PsiParts m1' z' w _ _ m2' o' I G' W S'). }
  pose proof (pstep_kept psi_meta PsiParts m1 o m2 I S) as K.
  destruct (copy_lean psi_meta m1 z y _ _ m2 o I G W S) as (ptrs & (ly & Ey & Eh) & Ln).
  assert (W2 : whole psi_meta m2 y (psi_members s) (pv_partial s)).
  { apply (whole_steps psi_meta PsiParts [o] m1 m2 y _ _ I); [|cbn; rewrite S; reflexivity|exact W].
    destruct G as (N & [->| ->]); constructor; cbn; auto. }
  pose proof (whole_steps psi_meta PsiParts l m2 m3 y _ _ (k_inv _ _ _ _ K) Fy H W2) as (l3 & E3 & F3).
  destruct (obj_steps psi_meta PsiParts l m2 m3 y _ (k_inv _ _ _ _ K) Fy H Ey) as (E3' & _).
  rewrite E3 in E3'. injection E3' as ->.
  pose proof (lean_steps psi_meta PsiParts l m2 m3 z _ _ _ (k_inv _ _ _ _ K) Fz H Ln) as Ln3.
  unfold psi_at. rewrite (lean_view psi_meta m3 z _ _ _ Ln3); [destruct s; reflexivity|].
  rewrite <- Eh. clear -F3. induction F3 as [|t b l bs (E & _) F IH]; constructor; auto.
Qed.
Print Assumptions C73_copy.

(** Once the original is destroyed, assigned to or loaded, the copy is of no use any more, whatever happens next
    (unless it is assigned to or loaded itself). *)
Theorem C73_copy_dangles : forall m x s m1 y z o m2 l m3 e m4 l' m5,
  pmade PsiParts m x (psi_members s) (pv_partial s) -> carried PsiParts pmoves m x m1 y ->
  pcopies z y o -> pstep psi_meta PsiParts m1 o = Some m2 ->
  Forall (pleaves y) l -> Forall (pleaves z) l -> psteps psi_meta PsiParts m2 l = Some m3 ->
  pends y e -> pleaves z e -> pstep psi_meta PsiParts m3 e = Some m4 ->
  Forall (pleaves z) l' -> psteps psi_meta PsiParts m4 l' = Some m5 ->
  (exists b, In b (pv_partial s) /\ b <> []) ->
  psi_at m5 z = None.
Proof.
  intros m x s m1 y z o m2 l m3 e m4 l' m5 M C G S Fy Fz H D Dz S4 Fz' H5 B.
  destruct (carried_whole psi_meta PsiParts pmoves m x (psi_members s) (pv_partial s)) with (m' := m1) (y := y) as (I & W); [|exact M|exact C|].
  { intros m1' w z' o' m2' I G' W S'. exact (move_whole psi_meta PsiParts m1' z' w _ _ m2' o' I G' W S'). }
  pose proof (k_inv _ _ _ _ (pstep_kept psi_meta PsiParts m1 o m2 I S)) as I2.
  destruct (copy_lean psi_meta m1 z y _ _ m2 o I G W S) as (ptrs & (ly & Ey & Eh) & Ln).
  destruct (obj_steps psi_meta PsiParts l m2 m3 y _ I2 Fy H Ey) as (E3 & _).
  pose proof (psteps_inv psi_meta PsiParts l m2 m3 I2 H) as I3.
  pose proof (k_inv _ _ _ _ (pstep_kept psi_meta PsiParts m3 e m4 I3 S4)) as I4.
  assert (Dead : forall p, In p ptrs -> pm_bits psi_meta m5 p = None).
  { intros p Q. rewrite <- Eh in Q. destruct (whole_ends psi_meta PsiParts m3 y _ ly e m4 I3 E3 D S4 p Q) as (Lp & Dp).
    exact (dead_steps psi_meta PsiParts l' m4 m5 p I4 H5 Lp Dp). }
  assert (Ln3 : lean psi_meta m3 z (psi_members s) ptrs (pv_partial s)) by exact (lean_steps psi_meta PsiParts l m2 m3 z _ _ _ I2 Fz H Ln).
  assert (Ln4 : lean psi_meta m4 z (psi_members s) ptrs (pv_partial s)).
  { apply (lean_steps psi_meta PsiParts [e] m3 m4 z _ _ _ I3); [auto|cbn; rewrite S4; reflexivity|exact Ln3]. }
  pose proof (lean_steps psi_meta PsiParts l' m4 m5 z _ _ _ I4 Fz' H5 Ln4) as Ln5.
  unfold psi_at. rewrite (lean_dead psi_meta m5 z _ _ _ Ln5 Dead B). reflexivity.
Qed.
Print Assumptions C73_copy_dangles.

(** Examples: the run-length string of a b b a a (block size 2), the Psi of the text "abab". *)
Definition ex_rle : rlestr := match rle_construct 2 [1;2;2;1;1] with Some s => s | None => mk_rlestr 0 0 [] [] [] end.
Definition ex_psi : psi_bv := match pv_construct [0;1;3;5] [2;3;4;1;0] with Some s => s | None => mk_psi_bv 0 0 [] end.
Example ex_rle_ok : rle_construct 2 [1;2;2;1;1] = Some ex_rle /\ length (rle_bits ex_rle) = 4.
Proof. vm_compute. auto. Qed.
Example ex_psi_ok : pv_construct [0;1;3;5] [2;3;4;1;0] = Some ex_psi /\ length (pv_partial ex_psi) = 3 /\ exists b, In b (pv_partial ex_psi) /\ b <> [].
Proof. split; [reflexivity|]. split; [reflexivity|]. vm_compute. eexists. split; [left; reflexivity|discriminate]. Qed.

Definition ok {A} (o : option A) : bool := match o with Some _ => true | None => false end.
(** The memory after the first [k] of some operations. *)
Definition after {A} cls (l : list (pop A)) (k : nat) : pmem A :=
  match psteps A cls (empty_pmem A) (firstn k l) with Some m => m | None => empty_pmem A end.
Lemma psteps_app A cls l1 : forall m l2, psteps A cls m (l1 ++ l2) = bind (psteps A cls m l1) (fun m => psteps A cls m l2).
Proof.
  induction l1 as [|o l1 IH]; intros m l2; [reflexivity|]. cbn. destruct (pstep A cls m o) as [m1|]; [|reflexivity]. cbn. apply IH.
Qed.
Lemma after_step A cls (l : list (pop A)) k o : ok (psteps A cls (empty_pmem A) l) = true -> nth_error l k = Some o ->
  pstep A cls (after cls l k) o = Some (after cls l (S k)).
Proof.
  intros H Hk. assert (E : firstn (S k) l = firstn k l ++ [o]).
  { clear H. revert k Hk. induction l as [|a l IH]; intros [|k] Hk; try discriminate; cbn in *; [congruence|]. f_equal. apply IH. exact Hk. }
  assert (Q : ok (psteps A cls (empty_pmem A) (firstn (S k) l)) = true).
  { rewrite <- (firstn_skipn (S k) l) in H. rewrite psteps_app in H. destruct (psteps A cls (empty_pmem A) (firstn (S k) l)); [reflexivity|discriminate]. }
  unfold after. rewrite E in *. rewrite psteps_app in *. destruct (psteps A cls (empty_pmem A) (firstn k l)) as [m|]; [|discriminate]. cbn in *.
  destruct (pstep A cls m o) as [m1|]; [reflexivity|discriminate].
Qed.
Lemma after_reach A cls (l : list (pop A)) k : preachable A cls (after cls l k).
Proof.
  unfold after. destruct (psteps A cls (empty_pmem A) (firstn k l)) as [m|] eqn:E; [exists (firstn k l); exact E|]. exists []. reflexivity.
Qed.

(** Copied, the original destroyed, the copy moved, the source of the move loaded, the target assigned on, moved on. *)
Definition rle_ops : list (pop rle_meta) :=
  [PNew rle_meta 0 (rle_members ex_rle) (rle_bits ex_rle); PCopy rle_meta 1 0; PDestroy rle_meta 0; PMove rle_meta 2 1;
   PLoad rle_meta 1 (0, 0, []) [[true]]; PNew rle_meta 0 (0, 0, []) []; PAssign rle_meta 0 2; PDestroy rle_meta 2; PMoveAssign rle_meta 1 0; PDestroy rle_meta 0].
Ltac run := apply after_step; vm_compute; reflexivity.
Example C72_met :
  pmade RleParts (after RleParts rle_ops 1) 0 (rle_members ex_rle) (rle_bits ex_rle) /\
  carried RleParts (fun z w o => pcopies z w o \/ pmoves z w o) (after RleParts rle_ops 1) 0 (after RleParts rle_ops 10) 1 /\
  rle_at (after RleParts rle_ops 10) 1 = Some ex_rle /\ rle_access ex_rle 2 = Some 2.
Proof.
  split; [|split; [|split; vm_compute; reflexivity]].
  - exists (after RleParts rle_ops 0). eexists. split; [apply after_reach|]. split; [left; reflexivity|]. run.
  - apply (carried_on _ _ _ _ (after RleParts rle_ops 9) 1 (PDestroy rle_meta 0)); [|discriminate|run].
    apply (carried_to _ _ _ _ (after RleParts rle_ops 8) 0 1 (PMoveAssign rle_meta 1 0)); [|right; right; reflexivity|run].
    apply (carried_on _ _ _ _ (after RleParts rle_ops 7) 0 (PDestroy rle_meta 2)); [|discriminate|run].
    apply (carried_to _ _ _ _ (after RleParts rle_ops 6) 2 0 (PAssign rle_meta 0 2)); [|left; split; [discriminate|right; reflexivity]|run].
    apply (carried_on _ _ _ _ (after RleParts rle_ops 5) 2 (PNew rle_meta 0 (0, 0, []) [])); [|discriminate|run].
    apply (carried_on _ _ _ _ (after RleParts rle_ops 4) 2 (PLoad rle_meta 1 (0, 0, []) [[true]])); [|discriminate|run].
    apply (carried_to _ _ _ _ (after RleParts rle_ops 3) 1 2 (PMove rle_meta 2 1)); [|right; left; reflexivity|run].
    apply (carried_on _ _ _ _ (after RleParts rle_ops 2) 1 (PDestroy rle_meta 0)); [|discriminate|run].
    apply (carried_to _ _ _ _ (after RleParts rle_ops 1) 0 1 (PCopy rle_meta 1 0)); [|left; split; [discriminate|left; reflexivity]|run].
    apply carried_here.
Qed.
(** Moved, copied, and the original of the copy destroyed while another object is made. *)
Definition psi_ops : list (pop psi_meta) :=
  [PNew psi_meta 0 (psi_members ex_psi) (pv_partial ex_psi); PMove psi_meta 1 0; PCopy psi_meta 2 1; PDestroy psi_meta 0;
   PDestroy psi_meta 1; PNew psi_meta 1 (0, 0) [[true]]].
Example C73_met :
  pmade PsiParts (after PsiParts psi_ops 1) 0 (psi_members ex_psi) (pv_partial ex_psi) /\
  carried PsiParts pmoves (after PsiParts psi_ops 1) 0 (after PsiParts psi_ops 2) 1 /\
  psi_at (after PsiParts psi_ops 2) 1 = Some ex_psi /\
  psi_at (after PsiParts psi_ops 4) 2 = Some ex_psi /\ psi_at (after PsiParts psi_ops 5) 2 = None /\ psi_at (after PsiParts psi_ops 6) 2 = None.
Proof.
  split; [|split; [|split; [vm_compute; reflexivity|split; [vm_compute; reflexivity|split; vm_compute; reflexivity]]]].
  - exists (after PsiParts psi_ops 0). eexists. split; [apply after_reach|]. split; [left; reflexivity|]. run.
  - apply (carried_to _ _ _ _ (after PsiParts psi_ops 1) 0 1 (PMove psi_meta 1 0)); [|left; reflexivity|run]. apply carried_here.
Qed.

(** So the property of C72 does not hold for PsiCoreBV. *)
Theorem C73_copy_is_value_refuted : ~ (forall m x s m' y,
  pmade PsiParts m x (psi_members s) (pv_partial s) ->
  carried PsiParts (fun z w o => pcopies z w o \/ pmoves z w o) m x m' y -> psi_at m' y = Some s).
Proof.
  intros H. specialize (H (after PsiParts psi_ops 1) 0 ex_psi (after PsiParts psi_ops 5) 2 (proj1 C73_met)).
  assert (C : carried PsiParts (fun z w o => pcopies z w o \/ pmoves z w o) (after PsiParts psi_ops 1) 0 (after PsiParts psi_ops 5) 2).
  { apply (carried_on _ _ _ _ (after PsiParts psi_ops 4) 2 (PDestroy psi_meta 1)); [|discriminate|run].
    apply (carried_on _ _ _ _ (after PsiParts psi_ops 3) 2 (PDestroy psi_meta 0)); [|discriminate|run].
    apply (carried_to _ _ _ _ (after PsiParts psi_ops 2) 1 2 (PCopy psi_meta 2 1)); [|left; split; [discriminate|left; reflexivity]|run].
    apply (carried_to _ _ _ _ (after PsiParts psi_ops 1) 0 1 (PMove psi_meta 1 0)); [|right; left; reflexivity|run]. apply carried_here. }
  specialize (H C). destruct C73_met as (_ & _ & _ & _ & E & _). rewrite H in E. discriminate.
Qed.
Print Assumptions C73_copy_is_value_refuted.
