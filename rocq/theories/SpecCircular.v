(** Vocabulary for C17 and C61: what is searched when a pattern has bytes that are not in the text.
    [circular_at] and [searched] are in Spec.v. *)
From Coq Require Import List Arith.
From Verif Require Import Spec.
Import ListNotations.

Definition bytes (p : list nat) : Prop := forall c, In c p -> c < 256.
(** Rows [s, e) of the suffix array [sa] are those of the circular matches of [q] in [t]. *)
Definition circular_interval (q t sa : list nat) (s e : nat) : Prop :=
  s <= e <= length sa /\ forall i, s <= i < e <-> exists a, nth_error sa i = Some a /\ circular_at q t a.
(** [l] lists the circular matches of [q] in [t], each once. *)
Definition circular_exact (q t l : list nat) : Prop := NoDup l /\ forall i, In i l <-> circular_at q t i.
(** No circular match of a pattern that is longer than the text with its terminator. *)
Definition short_enough (w p : list nat) : Prop :=
  forall i, circular_at (searched w p) (terminated w) i -> length p <= S (length w).
(** Some byte of [p] is not in [w]. *)
Definition has_absent (w p : list nat) : Prop := exists c, In c p /\ ~ In c w.
(** [p] is an end of the text, one absent byte, and a beginning of the text; [i] is where that end starts. *)
Definition wraps (w p : list nat) (i : nat) : Prop :=
  exists u x v, p = u ++ x :: v /\ ~ In x w /\ (exists a, w = a ++ u) /\ (exists b, w = v ++ b) /\ i + length u = length w.

(** What an index over the text [w] with suffix array [sa] answers for any pattern of bytes. *)
Definition circular_answers (w sa : list nat) (count : list nat -> option (nat * nat))
  (locate : list nat -> option (list nat)) (p : list nat) : Prop :=
  exists s e, count p = Some (s, e) /\ circular_interval (searched w p) (terminated w) sa s e /\
    (p <> [] -> short_enough w p ->
     exists l, locate p = Some l /\ circular_exact (searched w p) (terminated w) l /\ length l = e - s).
