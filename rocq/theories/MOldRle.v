(** Model of sparse_sd_vector (sparse_sd_vector.hpp), huff_string (huff_string.hpp) and rle_string
    (rle_string.hpp:32-648).  Every assert of the code is a guard: a failed assert gives [None]. *)
From Coq Require Import List Arith Bool.
From Verif Require Import MBase MRle.
Import ListNotations.

(** ** sparse_sd_vector.hpp:226-236: bitvector length [u] and sdsl::sd_vector *)
Record sdv := mk_sdv { sd_u : nat; sd_bits : list bool }.
(** sparse_sd_vector.hpp:35 *)
Definition sd_empty : sdv := mk_sdv 0 [].
(** sparse_sd_vector.hpp:40-55: from std::vector<bool> *)
Definition sd_of_bools (b : list bool) : sdv :=
  if length b =? 0 then sd_empty else mk_sdv (length b) b.
(** sparse_sd_vector.hpp:60-66: from sdsl::bit_vector; [u] keeps its initial value 0 *)
Definition sd_of_bit_vector (bv : list bool) : sdv := mk_sdv 0 bv.
(** sparse_sd_vector.hpp:68-76: operator= *)
Definition sd_assign (other : sdv) : sdv := mk_sdv (length (sd_bits other)) (sd_bits other).
(** The rank and select supports; a support over an empty sd_vector is not usable. *)
Definition sd_rank1 (v : sdv) (i : nat) : option nat :=
  _ <- guard (negb (length (sd_bits v) =? 0)) ;; bv_rank (sd_bits v) i.
Definition sd_select1 (v : sdv) (k : nat) : option nat := bv_select (sd_bits v) k.
(** sparse_sd_vector.hpp:185 size *)
Definition sd_size (v : sdv) : nat := sd_u v.
(** sparse_sd_vector.hpp:190 number_of_1 *)
Definition sd_ones (v : sdv) : option nat := sd_rank1 v (sd_size v).
(** sparse_sd_vector.hpp:90-99 operator[], at *)
Definition sd_access (v : sdv) (i : nat) : option bool :=
  _ <- guard (i <? sd_size v) ;; nth_error (sd_bits v) i.
(** sparse_sd_vector.hpp:105-110 rank *)
Definition sd_rank (v : sdv) (i : nat) : option nat :=
  _ <- guard (i <=? sd_size v) ;; sd_rank1 v i.
(** sparse_sd_vector.hpp:175-180 select *)
Definition sd_select (v : sdv) (i : nat) : option nat :=
  m <- sd_ones v ;; _ <- guard (i <? m) ;; sd_select1 v (i + 1).
(** sparse_sd_vector.hpp:117-126 predecessor_rank *)
Definition sd_predecessor_rank (v : sdv) (i : nat) : option nat :=
  r <- sd_rank v i ;; _ <- guard (0 <? r) ;; Some (r - 1).
(** sparse_sd_vector.hpp:133-142 predecessor *)
Definition sd_predecessor (v : sdv) (i : nat) : option nat :=
  r <- sd_rank v i ;; _ <- guard (0 <? r) ;; sd_select v (r - 1).
(** sparse_sd_vector.hpp:150-154 predecessor_rank_circular *)
Definition sd_predecessor_rank_circular (v : sdv) (i : nat) : option nat :=
  r <- sd_rank v i ;;
  if r =? 0 then m <- sd_ones v ;; Some (sub64 m 1) else Some (r - 1).
(** sparse_sd_vector.hpp:161-169 gapAt *)
Definition sd_gap_at (v : sdv) (i : nat) : option nat :=
  m <- sd_ones v ;; _ <- guard (i <? m) ;;
  if i =? 0 then p <- sd_select v 0 ;; Some (p + 1)
  else p <- sd_select v i ;; q <- sd_select v (i - 1) ;; Some (p - q).

(** ** huff_string.hpp:29-36: construct_im(wt, s.c_str(), 1) reads up to the first zero byte *)
Fixpoint c_str (s : list nat) : list nat :=
  match s with
  | [] => []
  | c :: t => if c =? 0 then [] else c :: c_str t
  end.
Definition huff_construct (s : list nat) : option (list nat) :=
  let s := s ++ [0] in
  let wt := c_str s in
  _ <- guard (length wt =? length s - 1) ;; Some wt.
(** huff_string.hpp:38-67; [wt_access], [wt_rank], [wt_inverse_select] are those of MBase.v;
    select counts from 0. *)
Definition huff_select (wt : list nat) (i c : nat) : option nat := wt_select wt (i + 1) c.

(** ** rle_string.hpp:632-645 (members) *)
Record oldrle := mk_oldrle {
  or_b : nat;
  or_runs : sdv;
  or_rpl : list sdv;               (* runs_per_letter *)
  or_heads : list nat;
  or_n : nat;
  or_r : nat
}.

(** rle_string.hpp:59-130 (constructor).  The loop at 75-98 has the text of the one of RLEString,
    modelled by [rle_build_step] (MRle.v).  [None]: empty input (assert at 111), a zero byte
    (assert at 61), or B = 0 (modulo by zero at 86). *)
Definition old_construct (b : nat) (l : list nat) : option oldrle :=
  match l with
  | [] => None
  | first :: rest =>
      _ <- guard (0 <? b) ;;
      _ <- guard (forallb (fun c => negb (c =? 0)) l) ;;
      let st := fold_left (rle_build_step b) rest (mk_rle_build first [] (fun _ => []) [] 0) in
      let runs := rb_runs st ++ [false] in
      let m := symmap_push (rb_map st) (rb_symbol st) true in
      heads <- huff_construct (rb_heads st ++ [rb_symbol st]) ;;
      _ <- guard (length heads =? S (rb_r st)) ;;
      Some (mk_oldrle b (sd_assign (sd_of_bools runs))
              (map (fun i => sd_assign (sd_of_bools (m i))) (seq 0 256)) heads (length l) (S (rb_r st)))
  end.

(** rle_string.hpp:400-410 run_at: length of the i-th run *)
Definition old_run_at (s : oldrle) (i : nat) : option nat :=
  _ <- guard (i <? or_r s) ;;
  c <- wt_access (or_heads s) i ;;
  rps <- nth_error (or_rpl s) c ;;
  k <- wt_rank (or_heads s) i c ;;
  sd_gap_at rps k.

(** First position of the block: rle_string.hpp:188-191, 237-240, 322, 591-593 *)
Definition old_block_start (s : oldrle) (block : nat) : option nat :=
  if 0 <? block then p <- sd_select (or_runs s) (block - 1) ;; Some (p + 1) else Some 0.

(** rle_string.hpp:198-205, 246-253: while (pos < i) { pos += run_at(current_run); ... }.
    State (pos, current_run, dist); fuel = number of iterations allowed. *)
Fixpoint old_scan (fuel : nat) (s : oldrle) (i pos run dist : nat) : option (nat * nat * nat) :=
  if pos <? i then
    match fuel with
    | 0 => None
    | S f =>
        len <- old_run_at s run ;;
        let pos := pos + len in
        let run := run + 1 in
        let dist := if pos <=? i then i - pos else dist in
        old_scan f s i pos run dist
    end
  else Some (pos, run, dist).

(** rle_string.hpp:185-211 and 233-258: the run of position i, and the distance to its start *)
Definition old_locate (s : oldrle) (i : nat) : option (nat * nat) :=
  block <- sd_rank (or_runs s) i ;;
  pos <- old_block_start s block ;;
  _ <- guard (pos <=? i) ;;
  '(pos, run, dist) <- old_scan (or_b s) s i pos (block * or_b s) (i - pos) ;;
  let run := if i <? pos then run - 1 else run in
  _ <- guard (run <? or_r s) ;;
  Some (run, dist).
(** rle_string.hpp:229-261 run_of_position *)
Definition old_run_of_position (s : oldrle) (i : nat) : option nat :=
  _ <- guard (i <? or_n s) ;; '(run, _) <- old_locate s i ;; Some run.

(** rle_string.hpp:585-621 run_of, 369-371 get_run_of: (run of position i, its last position).
    The loop at 597-602 is [old_scan] without the distance. *)
Definition old_run_of (s : oldrle) (i : nat) : option (nat * nat) :=
  block <- sd_rank (or_runs s) i ;;
  pos <- old_block_start s block ;;
  _ <- guard (pos <=? i) ;;
  '(pos, run, _) <- old_scan (or_b s) s i pos (block * or_b s) (i - pos) ;;
  '(run, pos) <- (if i <? pos then Some (run - 1, pos)
                  else len <- old_run_at s run ;; Some (run, pos + len)) ;;
  _ <- guard (0 <? pos) ;;
  _ <- guard (run <? or_r s) ;;
  Some (run, pos - 1).

(** rle_string.hpp:132-137 operator[] *)
Definition old_access (s : oldrle) (i : nat) : option nat :=
  _ <- guard (i <? or_n s) ;;
  '(run, _) <- old_run_of s i ;;
  wt_access (or_heads s) run.

(** rle_string.hpp:163-167, 386-391: for (t = from; t < from + count; ++t) k += run_at(t) *)
Fixpoint old_sum (s : oldrle) (t count k : nat) : option nat :=
  match count with
  | 0 => Some k
  | S m => len <- old_run_at s t ;; old_sum s (S t) m (k + len)
  end.

(** rle_string.hpp:142-171 select; i starts from 0 *)
Definition old_select (s : oldrle) (i c : nat) : option nat :=
  rps <- nth_error (or_rpl s) c ;;
  _ <- guard (i <? sd_size rps) ;;
  j <- sd_rank rps i ;;
  before <- (if j =? 0 then Some i
             else p <- sd_select rps (j - 1) ;; _ <- guard (p + 1 <=? i) ;; Some (i - (p + 1))) ;;
  r <- huff_select (or_heads s) j c ;;
  let block := r / or_b s in
  k <- old_block_start s block ;;
  k <- old_sum s (block * or_b s) (r - block * or_b s) k ;;
  Some (k + before).

(** rle_string.hpp:176-224 rank *)
Definition old_rank (s : oldrle) (i c : nat) : option nat :=
  _ <- guard (i <=? or_n s) ;;
  rps <- nth_error (or_rpl s) c ;;
  if sd_size rps =? 0 then Some 0
  else if i =? or_n s then Some (sd_size rps)
  else
    '(run, dist) <- old_locate s i ;;
    rk <- wt_rank (or_heads s) run c ;;
    h <- wt_access (or_heads s) run ;;
    let tail := if h =? c then dist else 0 in
    if rk =? 0 then Some tail
    else p <- sd_select rps (rk - 1) ;; Some (p + 1 + tail).

(** rle_string.hpp:378-397 run_range: inclusive range of the j-th run *)
Definition old_run_range (s : oldrle) (j : nat) : option (nat * nat) :=
  _ <- guard (j <? length (or_heads s)) ;;
  let block := j / or_b s in
  pos <- old_block_start s block ;;
  pos <- old_sum s (block * or_b s) (j - block * or_b s) pos ;;
  len <- old_run_at s j ;;
  Some (pos, pos + len - 1).

(** rle_string.hpp:268-309 break_range *)
Definition old_break_range (s : oldrle) (rn : nat * nat) (c : nat) : option (list (nat * nat)) :=
  let '(l, r) := rn in
  _ <- guard (l <=? r) ;;
  _ <- guard (r <? or_n s) ;;
  cl <- old_access s l ;; _ <- guard (cl =? c) ;;
  cr <- old_access s r ;; _ <- guard (cr =? c) ;;
  run_l <- old_run_of s l ;;
  run_r <- old_run_of s r ;;
  if fst run_l =? fst run_r then Some [rn]
  else
    rank_l <- wt_rank (or_heads s) (fst run_l) c ;;
    rank_r <- wt_rank (or_heads s) (fst run_r) c ;;
    mid <- mmap (fun j => q <- huff_select (or_heads s) j c ;; old_run_range s q)
                (seq (rank_l + 1) (rank_r - (rank_l + 1))) ;;
    q <- huff_select (or_heads s) rank_r c ;;
    range <- old_run_range s q ;;
    Some ((l, snd run_l) :: mid ++ [(fst range, r)]).

(** rle_string.hpp:32-36 StringRun *)
Record string_run := mk_string_run { sr_run : nat; sr_c : nat; sr_range : nat * nat }.
(** rle_string.hpp:328-332 get_run_info: (symbol, length) *)
Definition old_run_info (s : oldrle) (run : nat) : option (nat * nat) :=
  '(k, c) <- wt_inverse_select (or_heads s) run ;;
  rps <- nth_error (or_rpl s) c ;;
  len <- sd_gap_at rps k ;;
  Some (c, len).
(** rle_string.hpp:335-341: do { ... } while (pos <= first).  Result (pos, symbol, current_run). *)
Fixpoint old_find_first (fuel : nat) (s : oldrle) (first pos run : nat) : option (nat * nat * nat) :=
  match fuel with
  | 0 => None
  | S f =>
      '(c, len) <- old_run_info s run ;;
      let pos := pos + len in
      if pos <=? first then old_find_first f s first pos (run + 1)
      else Some (pos, c, run + 1)
  end.
(** rle_string.hpp:353-364: while (pos <= last) { ... } and the last run *)
Fixpoint old_report_runs (fuel : nat) (s : oldrle) (last pos prev_pos c run : nat) : option (list string_run) :=
  if pos <=? last then
    match fuel with
    | 0 => None
    | S f =>
        '(c', len) <- old_run_info s (run + 1) ;;
        rest <- old_report_runs f s last (pos + len) pos c' (run + 1) ;;
        Some (mk_string_run run c (prev_pos, pos - 1) :: rest)
    end
  else Some [mk_string_run run c (prev_pos, last)].
(** rle_string.hpp:311-367 break_in_runs *)
Definition old_break_in_runs (s : oldrle) (rn : nat * nat) : option (list string_run) :=
  let '(first, last) := rn in
  _ <- guard (first <=? last) ;;
  _ <- guard (last <? or_n s) ;;
  block <- sd_rank (or_runs s) first ;;
  pos <- old_block_start s block ;;
  _ <- guard (pos <=? first) ;;
  '(pos, c, run) <- old_find_first (or_b s) s first pos (block * or_b s) ;;
  let run := run - 1 in
  _ <- guard (first <? pos) ;;
  c' <- old_access s first ;; _ <- guard (c =? c') ;;
  _ <- guard (run <? or_r s) ;;
  old_report_runs (or_r s) s last pos first c run.

(** rle_string.hpp:373, 412 *)
Definition old_size (s : oldrle) : nat := or_n s.
Definition old_number_of_runs (s : oldrle) : nat := or_r s.
(** rle_string.hpp:464-473 toString *)
Definition old_to_string (s : oldrle) : option (list nat) := mmap (old_access s) (seq 0 (old_size s)).

(** rle_string.hpp:528-567 closest_run_break *)
Definition old_closest_run_break (s : oldrle) (rn : nat * nat) (c : nat) : option nat :=
  c0 <- old_access s (fst rn) ;;
  if c0 =? c then
    i <- old_run_of_position s (fst rn) ;;
    '(_, j) <- old_run_range s i ;;
    _ <- guard (j <? snd rn) ;;
    Some j
  else
    i <- old_rank s (fst rn) c ;;
    total <- old_rank s (old_size s) c ;;
    _ <- guard (i <? total) ;;
    i <- old_select s i c ;;
    ci <- old_access s i ;; _ <- guard (ci =? c) ;;
    _ <- guard (i <=? snd rn) ;;
    Some i.

(** ** Object identity of sparse_sd_vector: the rank and select supports hold the address of the
    sd_vector they read (sdsl rank_support_sd::m_v; copying a support copies the address). *)
Record sdobj := mk_sdobj { so_val : sdv; so_ptr : option nat }.
(** Memory: live objects by address. *)
Definition heap := nat -> option sdobj.
Definition heap_set (h : heap) (a : nat) (o : option sdobj) : heap := fun x => if x =? a then o else h x.
(** sparse_sd_vector.hpp:40-55, in place at address [a] (empty input: the supports stay unset) *)
Definition obj_of_bools (h : heap) (a : nat) (bits : list bool) : heap :=
  heap_set h a (Some (mk_sdobj (sd_of_bools bits) (if length bits =? 0 then None else Some a))).
(** The implicit copy constructor (none is declared in sparse_sd_vector.hpp): memberwise. *)
Definition obj_copy (h : heap) (dst src : nat) : option heap :=
  o <- h src ;; Some (heap_set h dst (Some (mk_sdobj (so_val o) (so_ptr o)))).
(** sparse_sd_vector.hpp:68-76: operator= on a live object *)
Definition obj_assign (h : heap) (dst src : nat) : option heap :=
  _ <- h dst ;; o <- h src ;; Some (heap_set h dst (Some (mk_sdobj (sd_assign (so_val o)) (Some dst)))).
(** End of lifetime. *)
Definition obj_destroy (h : heap) (a : nat) : heap := heap_set h a None.
(** sparse_sd_vector.hpp:105-110 rank through the support: [None] when its sd_vector is gone *)
Definition obj_rank (h : heap) (a i : nat) : option nat :=
  o <- h a ;;
  _ <- guard (i <=? sd_size (so_val o)) ;;
  p <- so_ptr o ;;
  t <- h p ;;
  sd_rank1 (so_val t) i.
