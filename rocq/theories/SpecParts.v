(** Vocabulary of the properties of the life of RLEString and PsiCoreBV objects. *)
From Coq Require Import List.
From Verif Require Import MBase MParts.
Import ListNotations.

(** Memories that a program with such objects can reach. *)
Definition preachable (A : Type) (cls : part_class) (m : pmem A) : Prop := exists l, psteps A cls (empty_pmem A) l = Some m.
(** The operation does not load, assign, destroy or move from the object [x]; it may copy it. *)
Definition pleaves {A} (x : nat) (o : pop A) : Prop :=
  match o with
  | PNew _ y _ _ | PLoad _ y _ _ | PCopy _ y _ | PAssign _ y _ | PDestroy _ y => y <> x
  | PMove _ y z | PMoveAssign _ y z => y <> x /\ z <> x
  end.
(** [y] gets the value of [x] by copy, or by move. *)
Definition pcopies {A} (y x : nat) (o : pop A) : Prop := y <> x /\ (o = PCopy A y x \/ o = PAssign A y x).
Definition pmoves {A} (y x : nat) (o : pop A) : Prop := o = PMove A y x \/ o = PMoveAssign A y x.
(** [x] is destroyed, loaded, or another object is assigned to it. *)
Definition pends {A} (x : nat) (o : pop A) : Prop :=
  o = PDestroy A x \/ (exists v bs, o = PLoad A x v bs) \/ exists z, z <> x /\ (o = PAssign A x z \/ o = PMoveAssign A x z).
(** [x] has just been constructed from the value [v], [bs] or has loaded it, in a program that did anything before. *)
Definition pmade {A} (cls : part_class) (m : pmem A) (x : nat) (v : A) (bs : list (list bool)) : Prop :=
  exists m0 o, preachable A cls m0 /\ (o = PNew A x v bs \/ o = PLoad A x v bs) /\ pstep A cls m0 o = Some m.
(** [carried gives m x m' y]: between [m] and [m'] the value of [x] is handed on, with operations that [gives] allows,
    from object to object, the last one being [y]; each holder is left alone until it hands the value on. *)
Inductive carried {A} (cls : part_class) (gives : nat -> nat -> pop A -> Prop) (m : pmem A) (x : nat) : pmem A -> nat -> Prop :=
| carried_here : carried cls gives m x m x
| carried_on m1 y o m2 : carried cls gives m x m1 y -> pleaves y o -> pstep A cls m1 o = Some m2 -> carried cls gives m x m2 y
| carried_to m1 y z o m2 : carried cls gives m x m1 y -> gives z y o -> pstep A cls m1 o = Some m2 -> carried cls gives m x m2 z.
