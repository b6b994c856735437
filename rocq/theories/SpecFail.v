(** Vocabulary of the properties of loads that end with an exception. *)
From Coq Require Import List String.
From Verif Require Import MBase MStore.
Import ListNotations.

(** The directory [f] has some of the files of [fs], with the same content, and no other. *)
Definition part_of (fs f : files) : Prop := forall k h c, file_find f k h = Some c -> file_find fs k h = Some c.
