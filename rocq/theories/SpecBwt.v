(** Vocabulary of the properties of bwt.h, lf.h and Big-BWT files. *)
From Coq Require Import List Arith.
From Verif Require Import Spec.
Import ListNotations.

(** Row that the symbol at row [i] of [b] takes when the symbols are sorted stably. *)
Definition lf_row (b : list nat) (i : nat) : nat := smaller (nth i b 0) b + occ (nth i b 0) b i.

(** [l] lists, in increasing order, exactly the numbers with the property [P]. *)
Definition lists_in_order (l : list nat) (P : nat -> Prop) : Prop :=
  (forall i j a b, i < j -> nth_error l i = Some a -> nth_error l j = Some b -> a < b) /\ forall i, In i l <-> P i.

(** The [k] low bytes of [x], the lowest first. *)
Fixpoint le_bytes (k x : nat) : list nat :=
  match k with 0 => [] | S k => x mod 256 :: le_bytes k (x / 256) end.
(** The pairs <j, SA[j]> of the rows of [l], 5 bytes for each number. *)
Definition pairs_file (sa l : list nat) : list nat :=
  flat_map (fun j => le_bytes 5 j ++ le_bytes 5 (nth j sa 0)) l.

(** What Big-BWT writes for the text [w]: the BWT, and the pairs of the heads and of the tails of its runs. *)
Definition big_bwt_output (w sa bwt_file ssa_file esa_file : list nat) : Prop :=
  bwt_file = bwt_of (terminated w) sa /\
  (exists heads, lists_in_order heads (run_head bwt_file) /\ ssa_file = pairs_file sa heads) /\
  (exists tails, lists_in_order tails (run_tail bwt_file) /\ esa_file = pairs_file sa tails).

(** The bytes that std::isspace accepts: blank, and \t \n \v \f \r. *)
Definition white_space (c : nat) : Prop := In c [32; 9; 10; 11; 12; 13].
