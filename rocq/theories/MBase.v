(** Primitives of the model: the option monad for undefined behaviour and the
    documented meaning of the SDSL containers that the code is built on. *)
From Coq Require Import List Arith Bool.
Import ListNotations.

(** [None] = out-of-range access / unsatisfied precondition (undefined behaviour in C++). *)
Definition bind {A B} (m : option A) (f : A -> option B) : option B :=
  match m with Some a => f a | None => None end.
Notation "x <- m ;; k" := (bind m (fun x => k))
  (at level 61, m at next level, right associativity).
Notation "' p <- m ;; k" := (bind m (fun x => match x with p => k end))
  (at level 61, p pattern, m at next level, right associativity).
Definition guard (b : bool) : option unit := if b then Some tt else None.

(** Left-to-right monadic map. *)
Fixpoint mmap {A B} (f : A -> option B) (l : list A) : option (list B) :=
  match l with
  | [] => Some []
  | a :: t => b <- f a ;; r <- mmap f t ;; Some (b :: r)
  end.

(** Number of elements of the first [i] that satisfy [f]. *)
Definition rankP {A} (f : A -> bool) (l : list A) (i : nat) : nat :=
  length (filter f (firstn i l)).

(** Position of the element of rank [k] (from 0) satisfying [f]. *)
Fixpoint select0 {A} (f : A -> bool) (l : list A) (k : nat) : option nat :=
  match l with
  | [] => None
  | x :: t => if f x then match k with
                          | 0 => Some 0
                          | S k' => option_map S (select0 f t k')
                          end
              else option_map S (select0 f t k)
  end.

(** sdsl::sd_vector / bit_vector with rank_1_type and select_1_type.
    rank(i): ones in [0,i), requires i <= size.  select(k): position of the k-th one, k from 1. *)
Definition idb (b : bool) : bool := b.
Definition bv_rank (b : list bool) (i : nat) : option nat :=
  if i <=? length b then Some (rankP idb b i) else None.
Definition bv_select (b : list bool) (k : nat) : option nat :=
  match k with 0 => None | S k' => select0 idb b k' end.
(** rank_0_type of bit_vector. *)
Definition bv_rank0 (b : list bool) (i : nat) : option nat :=
  if i <=? length b then Some (rankP negb b i) else None.

(** sdsl wavelet trees: operator[], rank(i,c), select(k,c) with k from 1, inverse_select(i). *)
Definition wt_access (w : list nat) (i : nat) : option nat := nth_error w i.
Definition wt_rank (w : list nat) (i c : nat) : option nat :=
  if i <=? length w then Some (rankP (Nat.eqb c) w i) else None.
Definition wt_select (w : list nat) (k c : nat) : option nat :=
  match k with 0 => None | S k' => select0 (Nat.eqb c) w k' end.
Definition wt_inverse_select (w : list nat) (i : nat) : option (nat * nat) :=
  c <- nth_error w i ;; Some (rankP (Nat.eqb c) w i, c).

(** Unsigned 64-bit subtraction of two values below 2^64. *)
Definition sub64 (a b : nat) : nat := if b <=? a then a - b else a + 2 ^ 64 - b.
(** [a % b], undefined for b = 0. *)
Definition umod (a b : nat) : option nat := if b =? 0 then None else Some (a mod b).
