(** Vocabulary of the properties of the life of index objects. *)
From Coq Require Import List String.
From Verif Require Import MBase MStore MLife.
Import ListNotations.

(** Memories that a program using one class can reach, by any operations in any order. *)
Definition reachable (tm : tmpl) (kd : kind) (m : memory) : Prop := exists l, steps tm kd empty_memory l = Some m.

(** The operation does not load, assign, destroy or move from the object [x]; it may copy it. *)
Definition leaves (x : nat) (o : op) : Prop :=
  match o with
  | OStorage | ODropStorage _ => True
  | ONew y _ | ONewExt y _ _ | OLoad y _ | OCopy y _ | OAssign y _ | ODestroy y => y <> x
  | OMove y z | OMoveAssign y z => y <> x /\ z <> x
  end.
(** The storage [a], which belongs to no object, stays. *)
Definition keeps_storage (a : nat) (o : op) : Prop := o <> ODropStorage a.

(** A new object as the constructors leave it (with a rate, or default-constructed), in a storage of its own. *)
Definition fresh (rate : option nat) : obj :=
  match rate with Some r => new_rate r [] | None => new_default [] end.

(** The classes of r_index.h and sr_index.h, RCSAWithBWTRun and CSARaw. *)
Definition movable (kd : kind) : Prop := In kd [KRIndex; KSrIndex; KSrIndexVM; KSrIndexVA; KRCSA; KCSARaw].
(** [y] becomes a copy of [x]: TIndex y(x), y = x, and what std::move does in the other classes. *)
Definition copies (kd : kind) (y x : nat) (o : op) : Prop :=
  y <> x /\ (o = OCopy y x \/ o = OAssign y x \/ ~ movable kd /\ (o = OMove y x \/ o = OMoveAssign y x)).
(** [y] takes over [x]: TIndex y(std::move(x)), y = std::move(x), in the classes that can move. *)
Definition takes (kd : kind) (y x : nat) (o : op) : Prop :=
  movable kd /\ (o = OMove y x \/ o = OMoveAssign y x).
(** [x] is destroyed, or another object is assigned to it. *)
Definition ends (x : nat) (o : op) : Prop :=
  o = ODestroy x \/ exists z, z <> x /\ (o = OAssign x z \/ o = OMoveAssign x z).
