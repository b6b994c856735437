(** Model of the construction of the base items: text, alphabet, BWT runs, BWT-RLE, sorted
    indices, links and mark bit vectors.  Files on disk (sdsl cache) hold exactly the sequences
    stored in them; integer widths are not modelled. *)
From Coq Require Import List Arith Bool.
From Verif Require Import MBase MRle.
Import ListNotations.

(** Monadic left fold (a loop over a range with a mutable state). *)
Fixpoint mfold {A S} (f : S -> A -> option S) (l : list A) (s : S) : option S :=
  match l with
  | [] => Some s
  | a :: t => s' <- f s a ;; mfold f t s'
  end.

(** construct_sdsl.h:20-40 constructText (std::find of the first zero, append_zero_symbol).
    [None] = the std::logic_error thrown at line 36. *)
Definition construct_text (data : list nat) : option (list nat) :=
  match select0 (Nat.eqb 0) data 0 with
  | None => Some (data ++ [0])
  | Some it_zero => if it_zero =? length data - 1 then Some data else None
  end.

(** sdsl::construct_bwt (external, called at construct_sdsl.h:143): BWT by its definition,
    bwt[i] = text[sa[i] - 1], with the last text symbol for sa[i] = 0. *)
Definition construct_bwt (text sa : list nat) : option (list nat) :=
  mmap (fun a => nth_error text (if 0 <? a then a - 1 else length text - 1)) sa.

(** sdsl::byte_alphabet (external, alphabet.h:14-17): members char2comp, C, sigma.  The loop is
    sdsl's csa_alphabet_strategy byte_alphabet(text_buf, len): it scans the 256 symbols and
    numbers those that occur. *)
Record alphabet := mk_alphabet { al_char2comp : list nat; al_C : list nat; al_sigma : nat }.
Fixpoint alpha_loop (counts : list nat) (sigma : nat) : list nat * list nat :=
  match counts with
  | [] => ([], [])
  | k :: rest =>
      if 0 <? k
      then let '(table, cs) := alpha_loop rest (S sigma) in (sigma :: table, k :: cs)
      else let '(table, cs) := alpha_loop rest sigma in (0 :: table, cs)
  end.
Fixpoint prefix_sums (acc : nat) (l : list nat) : list nat :=
  match l with [] => [acc] | k :: rest => acc :: prefix_sums (acc + k) rest end.
(** construct_base.h:56-67 constructAlphabet (from the BWT). *)
Definition construct_alphabet (bwt : list nat) : alphabet :=
  let counts := map (fun c => count_occ Nat.eq_dec bwt c) (seq 0 256) in
  let '(table, cs) := alpha_loop counts 0 in
  mk_alphabet table (prefix_sums 0 cs) (length cs).

(** construct_base.h:69-88 constructBWTRLE: RLEString over char2comp[bwt[i]] with the default
    block size 2 (rle_string.hpp:667). *)
Definition construct_bwt_rle (al : alphabet) (bwt : list nat) : option rlestr :=
  s <- mmap (fun c => nth_error (al_char2comp al) c) bwt ;;
  rle_construct 2 s.

(** Files written by construct_sdsl.h:43-123 constructBWTRuns. *)
Record bwt_runs := mk_bwt_runs {
  br_first : list nat;      (* KEY_BWT_RUN_FIRST *)
  br_first_text : list nat; (* KEY_BWT_RUN_FIRST_TEXT_POS *)
  br_last : list nat;       (* KEY_BWT_RUN_LAST *)
  br_last_text : list nat   (* KEY_BWT_RUN_LAST_TEXT_POS *)
}.
(** construct_sdsl.h:58-61 get_bwt_text_pos *)
Definition bwt_text_pos (n : nat) (sa : list nat) (i : nat) : option nat :=
  next_pos <- nth_error sa i ;;
  Some (if 0 <? next_pos then next_pos - 1 else n - 1).
(** construct_sdsl.h:87-106: one iteration; state = files, previous symbol, previous text
    position.  The counter [int i] is unbounded here; MCounter.v has the limit. *)
Definition bwt_runs_step (bwt sa : list nat) (st : bwt_runs * nat * nat) (i : nat)
  : option (bwt_runs * nat * nat) :=
  let '(f, prev_symbol, prev_text_pos) := st in
  symbol <- nth_error bwt i ;;
  text_pos <- bwt_text_pos (length bwt) sa i ;;
  Some (if negb (symbol =? prev_symbol)
        then (mk_bwt_runs (br_first f ++ [i]) (br_first_text f ++ [text_pos])
                          (br_last f ++ [i - 1]) (br_last_text f ++ [prev_text_pos]),
              symbol, text_pos)
        else (f, prev_symbol, text_pos)).
(** construct_sdsl.h:56-110 constructBWTRuns *)
Definition construct_bwt_runs (bwt sa : list nat) : option bwt_runs :=
  symbol0 <- nth_error bwt 0 ;;
  text_pos0 <- bwt_text_pos (length bwt) sa 0 ;;
  '(f, _, text_pos) <- mfold (bwt_runs_step bwt sa) (seq 1 (length bwt - 1))
                             (mk_bwt_runs [0] [text_pos0] [] [], symbol0, text_pos0) ;;
  Some (mk_bwt_runs (br_first f) (br_first_text f)
                    (br_last f ++ [length bwt - 1]) (br_last_text f ++ [text_pos])).

(** std::sort with a strict comparison: insertion sort.  All uses sort distinct keys, for
    which the result does not depend on the algorithm. *)
Fixpoint sort_insert (lt : nat -> nat -> bool) (x : nat) (l : list nat) : list nat :=
  match l with
  | [] => [x]
  | y :: t => if lt x y then x :: y :: t else y :: sort_insert lt x t
  end.
Definition std_sort (lt : nat -> nat -> bool) (l : list nat) : list nat :=
  fold_right (sort_insert lt) [] l.
(** construct.h:140-153 sortIndices; every index is below the size, so [nth] is in range. *)
Definition sort_indices (values : list nat) : list nat :=
  std_sort (fun a b => nth a values 0 <? nth b values 0) (seq 0 (length values)).

(** construct.h:155-166 constructMarkToSampleLinks *)
Definition construct_links (marks : list nat) (get_link : nat -> option nat)
  : option (list nat * list nat) :=
  let marks_idx := sort_indices marks in
  links <- mmap get_link marks_idx ;;
  Some (marks_idx, links).
(** construct.h:242-256 constructMarkToSampleLinksForPhiBackward *)
Definition construct_links_backward (marks : list nat) : option (list nat * list nat) :=
  construct_links marks (fun idx => umod (idx + length marks - 1) (length marks)).

(** construct.h:282-308 constructBitVectorFromIntVector *)
Definition list_set {A} (l : list A) (i : nat) (x : A) : option (list A) :=
  if i <? length l then Some (firstn i l ++ x :: skipn (S i) l) else None.
Definition construct_bit_vector (values : list nat) (size : nat) (init : bool) : option (list bool) :=
  mfold (fun bv item => list_set bv item (negb init)) values (repeat init size).
