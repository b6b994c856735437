(** Specification vocabulary: what the English properties talk about.
    Nothing in this file refers to the model of the code. *)
From Coq Require Import List Arith Permutation.
Import ListNotations.

(** [p] occurs in [t] at position [i]. *)
Definition occurs_at (p t : list nat) (i : nat) : Prop :=
  exists u v, t = u ++ p ++ v /\ length u = i.

(** A result list answers an occurrence query exactly: every occurrence once, nothing else. *)
Definition exact_answer (p t : list nat) (l : list nat) : Prop :=
  NoDup l /\ forall i, In i l <-> occurs_at p t i.

(** Input data: a sequence of non-zero bytes. *)
Definition zero_free (w : list nat) : Prop := Forall (fun c => 0 < c < 256) w.

(** A query the alphabet can express: non-empty and only with bytes of the text. *)
Definition pattern_over (w p : list nat) : Prop := p <> [] /\ forall c, In c p -> In c w.

(** The text the index is built on: the data followed by the terminator 0. *)
Definition terminated (w : list nat) : list nat := w ++ [0].

(** [p] matches [t], read as a circle, at position [i]. *)
Definition circular_at (p t : list nat) (i : nat) : Prop :=
  i < length t /\ forall k c, nth_error p k = Some c -> nth_error t ((i + k) mod length t) = Some c.
(** The pattern [p] with the terminator in place of each byte that is not in [w]. *)
Definition searched (w p : list nat) : list nat := map (fun c => if in_dec Nat.eq_dec c w then c else 0) p.

(** Strict lexicographic order on sequences. *)
Inductive lex_lt : list nat -> list nat -> Prop :=
| lex_nil : forall b y, lex_lt [] (b :: y)
| lex_head : forall a b x y, a < b -> lex_lt (a :: x) (b :: y)
| lex_tail : forall a x y, lex_lt x y -> lex_lt (a :: x) (a :: y).

Definition suffix (t : list nat) (i : nat) : list nat := skipn i t.

(** [sa] lists all positions of [t] in increasing lexicographic order of their suffixes. *)
Definition is_suffix_array (t sa : list nat) : Prop :=
  Permutation sa (seq 0 (length t)) /\
  forall i j a b, i < j -> nth_error sa i = Some a -> nth_error sa j = Some b ->
                  lex_lt (suffix t a) (suffix t b).

(** Position before [a] in the circular text of length [n]. *)
Definition cpred (n a : nat) : nat := (a + n - 1) mod n.

(** The Burrows-Wheeler transform of [t] with suffix array [sa]. *)
Definition bwt_of (t sa : list nat) : list nat :=
  map (fun a => nth (cpred (length t) a) t 0) sa.

(** Number of elements equal to [c] among the first [i] elements of [l]. *)
Definition occ (c : nat) (l : list nat) (i : nat) : nat :=
  count_occ Nat.eq_dec (firstn i l) c.

(** [s, e) is a maximal run of symbol [c] in [l]. *)
Definition maximal_run (l : list nat) (s e c : nat) : Prop :=
  s < e <= length l /\
  (forall k, s <= k < e -> nth_error l k = Some c) /\
  (s = 0 \/ nth_error l (s - 1) <> Some c) /\
  nth_error l e <> Some c.

(** Positions that start / end a maximal run. *)
Definition run_head (l : list nat) (i : nat) : Prop :=
  i < length l /\ (i = 0 \/ nth_error l (i - 1) <> nth_error l i).
Definition run_tail (l : list nat) (i : nat) : Prop :=
  i < length l /\ nth_error l (S i) <> nth_error l i.

(** Number of maximal runs of [l] that start before position [i]. *)
Definition runs_before (l : list nat) (i : nat) : nat :=
  length (filter (fun k => orb (k =? 0) (negb (nth (k - 1) l 0 =? nth k l 0))) (seq 0 i)).
(** The same, counting only the runs of symbol [c]. *)
Definition runs_of_before (c : nat) (l : list nat) (i : nat) : nat :=
  length (filter (fun k => andb (nth k l 0 =? c)
                                (orb (k =? 0) (negb (nth (k - 1) l 0 =? nth k l 0)))) (seq 0 i)).
(** Largest symbol of a sequence. *)
Definition list_max_symbol (l : list nat) : nat := fold_right Nat.max 0 l.

(** [s, e) is exactly the set of rows of the suffix array whose suffix starts with [p]. *)
Definition row_interval (p w sa : list nat) (s e : nat) : Prop :=
  s <= e <= length sa /\
  forall i, s <= i < e <-> exists a, nth_error sa i = Some a /\ occurs_at p w a.
(** The rows [s, e) of a suffix array. *)
Definition rows (sa : list nat) (s e : nat) : list nat := firstn (e - s) (skipn s sa).
(** Number of elements of [l] smaller than [c]. *)
Definition smaller (c : nat) (l : list nat) : nat := length (filter (fun x => x <? c) l).

(** [x] is [y] with some elements removed. *)
Inductive subsequence {A} : list A -> list A -> Prop :=
| subseq_nil : forall y, subsequence [] y
| subseq_keep : forall a x y, subsequence x y -> subsequence (a :: x) (a :: y)
| subseq_skip : forall a x y, subsequence x y -> subsequence x (a :: y).
(** Distance of two numbers. *)
Definition distance (a b : nat) : nat := (a - b) + (b - a).
(** Strictly increasing or strictly decreasing. *)
Definition strictly_monotone (l : list nat) : Prop :=
  (forall l1 a l2 b l3, l = l1 ++ a :: l2 ++ b :: l3 -> a < b) \/
  (forall l1 a l2 b l3, l = l1 ++ a :: l2 ++ b :: l3 -> b < a).

(** [b] uses exactly the symbols 0 .. sigma-1. *)
Definition dense (b : list nat) (sigma : nat) : Prop := forall c, c < sigma <-> In c b.
(** Cumulative counts: entry c is the number of symbols smaller than c, for c = 0 .. sigma. *)
Definition cumulative (b : list nat) (sigma : nat) : list nat := map (fun c => smaller c b) (seq 0 (S sigma)).
(** Positions of symbol [c] in increasing order. *)
Definition positions (c : nat) (b : list nat) : list nat := filter (fun i => nth i b 0 =? c) (seq 0 (length b)).
(** All positions, grouped by symbol and increasing inside each symbol. *)
Definition grouped (b : list nat) (sigma : nat) : list nat := flat_map (fun c => positions c b) (seq 0 sigma).
(** Number of maximal runs of symbols smaller than [c]. *)
Definition runs_below (c : nat) (l : list nat) : nat :=
  length (filter (fun k => andb (nth k l 0 <? c)
                                (orb (k =? 0) (negb (nth (k - 1) l 0 =? nth k l 0)))) (seq 0 (length l))).
