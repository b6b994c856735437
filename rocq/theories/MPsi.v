(** Model of the Elias-delta coder, enc_vector and the Psi cores (coder.h, enc_vector.hpp, psi.h).
    Words of 64 bits and the moving data pointer of the coder are modelled as one bit sequence and
    a bit position; integer widths are not modelled. *)
From Coq Require Import List Arith Bool.
From Verif Require Import MBase MConstruct.
Import ListNotations.

(** * Elias delta *)

(** The [k] low bits of [x], least significant first (sdsl::bits::write_int). *)
Fixpoint to_bits (k x : nat) : list bool :=
  match k with 0 => [] | S k' => Nat.odd x :: to_bits k' (Nat.div2 x) end.
Fixpoint from_bits (l : list bool) : nat :=
  match l with [] => 0 | b :: t => Nat.b2n b + 2 * from_bits t end.

(** sdsl::coder::elias_delta::encode (external): unary length of the length, the length without
    its top bit, the value without its top bit; 0 is coded as a value of 65 bits. *)
Definition ed_len (x : nat) : nat := if x =? 0 then 65 else S (Nat.log2 x).
Definition ed_encode (x : nat) : list bool :=
  let len := ed_len x in
  let len_1_len := Nat.log2 len in
  repeat false len_1_len ++ [true] ++
  (if len_1_len =? 0 then [] else to_bits len_1_len len ++ to_bits (len - 1) x).
(** sdsl::coder::elias_delta::encoding_length (external): the number of bits [ed_encode] writes. *)
Definition ed_length (x : nat) : nat := length (ed_encode x).

(** sdsl::bits::read_unary_and_move, read_int_and_move: [None] = reading past the data. *)
Definition read_unary (z : list bool) (pos : nat) : option (nat * nat) :=
  k <- select0 idb (skipn pos z) 0 ;; Some (k, pos + k + 1).
Definition read_int (z : list bool) (pos len : nat) : option (nat * nat) :=
  if pos + len <=? length z then Some (from_bits (firstn len (skipn pos z)), pos + len) else None.
(** coder.h:16-32 decode<elias_delta>: value and the position after it. *)
Definition ed_decode (z : list bool) (pos : nat) : option (nat * nat) :=
  '(len_1_len, pos) <- read_unary z pos ;;
  if len_1_len =? 0 then Some (1, pos)
  else '(l, pos) <- read_int z pos len_1_len ;;
       let len := l + 2 ^ len_1_len in
       '(v, pos) <- read_int z pos (len - 1) ;;
       Some (v + (if len - 1 <? 64 then 2 ^ (len - 1) else 0), pos).

(** * enc_vector *)

Record encv := mk_encv { ev_z : list bool; ev_sp : list nat; ev_size : nat }.

(** enc_vector.hpp:254-270: samples with pointers.  [v2 - v1] wraps modulo 2^64 in C++; the
    sequences encoded here never decrease.  [last] = the two entries after the last sample. *)
Fixpoint ev_samples (dens : nat) (last : nat -> list nat) (no_sample v1 z_size : nat) (c : list nat) : list nat :=
  match c with
  | [] => last z_size
  | v2 :: t =>
      match no_sample with
      | 0 => v2 :: z_size :: ev_samples dens last (dens - 1) v2 z_size t
      | S k => ev_samples dens last k v2 (z_size + ed_length (v2 - v1)) t
      end
  end.
(** enc_vector.hpp:272-284: the encoded deltas of the elements that are not samples. *)
Fixpoint ev_deltas (dens no_sample v1 : nat) (c : list nat) : list bool :=
  match c with
  | [] => []
  | v2 :: t =>
      match no_sample with
      | 0 => ev_deltas dens (dens - 1) v2 t
      | S k => ed_encode (v2 - v1) ++ ev_deltas dens k v2 t
      end
  end.
(** enc_vector.hpp:221-287 constructor from a container *)
Definition ev_construct (dens : nat) (c : list nat) : encv :=
  match c with
  | [] => mk_encv [] [] 0
  | v :: _ => mk_encv (ev_deltas dens 0 v c) (ev_samples dens (fun z => [0; S z]) 0 v 0 c) (length c)
  end.
(** enc_vector.hpp:289-343 constructor from an int_vector_buffer: the last entry is left 0. *)
Definition ev_construct_buf (dens : nat) (c : list nat) : encv :=
  match c with
  | [] => mk_encv [] [] 0
  | _ => mk_encv (ev_deltas dens 0 0 c) (ev_samples dens (fun _ => [0; 0]) 0 0 0 c) (length c)
  end.

(** t_coder::decode_prefix_sum (external): sum of [k] decoded values. *)
Fixpoint ed_prefix_sum (z : list bool) (pos k : nat) : option nat :=
  match k with
  | 0 => Some 0
  | S k' => '(v, pos') <- ed_decode z pos ;; s <- ed_prefix_sum z pos' k' ;; Some (v + s)
  end.
(** enc_vector.hpp:194-201 operator[] *)
Definition ev_access (dens : nat) (ev : encv) (i : nat) : option nat :=
  if i <? ev_size ev then
    let idx := i / dens in
    s <- nth_error (ev_sp ev) (2 * idx) ;;
    p <- nth_error (ev_sp ev) (2 * idx + 1) ;;
    d <- ed_prefix_sum (ev_z ev) p (i - dens * idx) ;;
    Some (s + d)
  else None.
(** enc_vector.hpp:203-209 sample *)
Definition ev_sample (ev : encv) (i : nat) : option nat := nth_error (ev_sp ev) (2 * i).
(** enc_vector.hpp:182-191 get_inter_sampled_values: 0 and the running sums of the deltas. *)
Fixpoint ed_running (z : list bool) (pos acc k : nat) : option (list nat) :=
  match k with
  | 0 => Some []
  | S k' => '(v, pos') <- ed_decode z pos ;; r <- ed_running z pos' (acc + v) k' ;; Some (acc + v :: r)
  end.
Definition ev_inter_sampled (dens : nat) (ev : encv) (i : nat) : option (list nat) :=
  p <- nth_error (ev_sp ev) (2 * i + 1) ;;
  r <- ed_running (ev_z ev) p 0
         (if i * dens + dens - 1 <? ev_size ev then dens - 1 else ev_size ev - i * dens - 1) ;;
  Some (0 :: r).

(** * constructPsi *)

(** psi.h:32-34: one iteration; state = psi and sa_position. *)
Definition psi_step (get_bwt_symbol : nat -> option nat) (st : list nat * list nat) (i : nat)
  : option (list nat * list nat) :=
  let '(psi, pos) := st in
  c <- get_bwt_symbol i ;;
  p <- nth_error pos c ;;
  psi' <- list_set psi p i ;;
  pos' <- list_set pos c (S p) ;;
  Some (psi', pos').
(** psi.h:23-37 constructPsi *)
Definition construct_psi (get_bwt_symbol : nat -> option nat) (C : list nat) : option (list nat) :=
  n <- nth_error C (length C - 1) ;;
  '(psi, _) <- mfold (psi_step get_bwt_symbol) (seq 0 n) (repeat 0 n, C) ;;
  Some psi.

(** * PsiCoreRLE *)

(** std::upper_bound / std::lower_bound on a partitioned range: the first element greater than
    (not less than) the value, or the size.  The binary search is external. *)
Fixpoint upper_bound (l : list nat) (v : nat) : nat :=
  match l with [] => 0 | x :: t => if v <? x then 0 else S (upper_bound t v) end.
Fixpoint lower_bound (l : list nat) (v : nat) : nat :=
  match l with [] => 0 | x :: t => if x <? v then S (lower_bound t v) else 0 end.

(** psi.h:50-55, 592-598 PsiCoreRLE members; [pc_dens] = TEncVector::sample_dens. *)
Record psi_core := mk_psi_core {
  pc_n : nat;
  pc_dens : nat;
  pc_first : nat;
  pc_partial : list (encv * list nat)
}.

(** psi.h:88-91: the end of a run.  Result: j, value, run_end_value after the loop. *)
Fixpoint pc_run_end (fuel : nat) (psi : list nat) (sa_ep j value run_end : nat) : option (nat * nat * nat) :=
  match fuel with
  | 0 => None
  | S fuel =>
      let j := S j in
      if j <? sa_ep then
        value <- nth_error psi j ;;
        if run_end =? value then pc_run_end fuel psi sa_ep j value (S run_end)
        else Some (j, value, run_end)
      else Some (j, value, run_end)
  end.
(** psi.h:86-99: the runs of a symbol; result = psi_c and psi_c_sample_rank. *)
Fixpoint pc_runs (fuel dens : nat) (psi : list nat) (sa_sp sa_ep j value : nat) (psi_c ranks : list nat)
  : option (list nat * list nat) :=
  if j <? sa_ep then
    match fuel with
    | 0 => None
    | S fuel =>
        '(j, value', run_end) <- pc_run_end (S sa_ep) psi sa_ep j value (value + 1) ;;
        let psi_c := psi_c ++ [value; run_end] in
        let ranks := if (length psi_c mod dens =? 0) && (j <? sa_ep) then ranks ++ [j - sa_sp] else ranks in
        pc_runs fuel dens psi sa_sp sa_ep j value' psi_c ranks
    end
  else Some (psi_c, ranks).
(** psi.h:71-106: one symbol; [first] = first_bwt_symbol_. *)
Definition pc_symbol (dens : nat) (C psi : list nat) (st : nat * list (encv * list nat)) (i : nat)
  : option (nat * list (encv * list nat)) :=
  let '(first, partial) := st in
  sa_sp <- nth_error C i ;;
  sa_ep <- nth_error C (S i) ;;
  value <- nth_error psi sa_sp ;;
  let first := if value =? 0 then i else first in
  '(psi_c, ranks) <- pc_runs (S sa_ep) dens psi sa_sp sa_ep sa_sp value [] [] ;;
  Some (first, partial ++ [(ev_construct dens psi_c, ranks)]).
(** psi.h:64-107 constructor *)
Definition pc_construct (dens : nat) (C psi : list nat) : option psi_core :=
  let sigma := length C - 1 in
  n <- nth_error C sigma ;;
  '(first, partial) <- mfold (pc_symbol dens C psi) (seq 0 sigma) (0, []) ;;
  Some (mk_psi_core n dens first partial).

(** psi.h:478-488 computeUpperBound *)
Definition pc_n_samples (dens : nat) (ev : encv) : nat := (ev_size ev - 1) / dens + 1.
Definition pc_upper_bound (dens : nat) (ev : encv) (v : nat) : option nat :=
  samples <- mmap (ev_sample ev) (seq 0 (pc_n_samples dens ev)) ;;
  Some (upper_bound samples v).

(** psi.h:506-554 RunOps with its DecodeUInt (490-504) *)
Record run_ops := mk_run_ops { ro_idx : nat; ro_ptr : nat; ro_left : nat; ro_rank : nat }.
Definition ro_start (ev : encv) (idx : nat) : option run_ops :=
  ptr <- nth_error (ev_sp ev) (2 * idx + 1) ;; Some (mk_run_ops idx ptr 0 0).
(** psi.h:514-532 nextStart *)
Definition ro_next_start (n dens : nat) (ev : encv) (ro : run_ops) (run_end : nat) : option (nat * run_ops) :=
  if 0 <? ro_left ro then
    '(d, ptr) <- ed_decode (ev_z ev) (ro_ptr ro) ;;
    Some (run_end + d, mk_run_ops (ro_idx ro) ptr (ro_left ro - 1) (S (ro_rank ro)))
  else if ro_idx ro <? pc_n_samples dens ev then
    s <- nth_error (ev_sp ev) (2 * ro_idx ro) ;;
    Some (s, mk_run_ops (S (ro_idx ro)) (ro_ptr ro)
               (Nat.min dens (ev_size ev - ro_idx ro * dens) / 2 - 1) (ro_idx ro * dens / 2))
  else Some (n, mk_run_ops (ro_idx ro) (ro_ptr ro) 0 (ev_size ev / 2)).
(** psi.h:534-536 nextEnd *)
Definition ro_next_end (n : nat) (ev : encv) (ro : run_ops) (run_start : nat) : option (nat * run_ops) :=
  if negb (run_start =? n) then
    '(d, ptr) <- ed_decode (ev_z ev) (ro_ptr ro) ;;
    Some (run_start + d, mk_run_ops (ro_idx ro) ptr (ro_left ro) (ro_rank ro))
  else Some (n, ro).

Section Core.
  Variable pc : psi_core.
  Let n := pc_n pc.
  Let dens := pc_dens pc.

  (** psi.h:556-561 RunSelect *)
  Record run_select := mk_run_select { rs_start : nat; rs_end : nat; rs_rank_end : nat }.

  (** psi.h:582-587 the do-while loop of selectCore *)
  Fixpoint pc_select_loop (fuel : nat) (ev : encv) (ro : run_ops) (run_end rank_end rnk : nat)
    : option (run_select * run_ops) :=
    match fuel with
    | 0 => None
    | S fuel =>
        '(run_start, ro) <- ro_next_start n dens ev ro run_end ;;
        '(run_end, ro) <- ro_next_end n ev ro run_start ;;
        let rank_end := rank_end + (run_end - run_start) in
        if rank_end <=? rnk then pc_select_loop fuel ev ro run_end rank_end rnk
        else Some (mk_run_select run_start run_end rank_end, ro)
    end.
  (** psi.h:568-590 selectCore; [t_rnk] = 0 wraps around in C++ *)
  Definition pc_select_core (rnk : nat) (ev : encv) (ranks : list nat) : option (run_select * run_ops) :=
    match rnk with
    | 0 => None
    | S rnk =>
        let idx := upper_bound ranks rnk in
        rank_end <- (if idx =? 0 then Some 0 else nth_error ranks (idx - 1)) ;;
        ro <- ro_start ev idx ;;
        pc_select_loop (ev_size ev + 2) ev ro 0 rank_end rnk
    end.
  (** psi.h:115-121 select *)
  Definition pc_select (c rnk : nat) : option nat :=
    '(ev, ranks) <- nth_error (pc_partial pc) c ;;
    '(run, _) <- pc_select_core rnk ev ranks ;;
    Some (rs_end run - 1 - (rs_rank_end run - rnk)).
  (** psi.h:127-135 select with report: value, run start, run end, index of the run *)
  Definition pc_select_report (c rnk : nat) : option (nat * nat * nat * nat) :=
    '(ev, ranks) <- nth_error (pc_partial pc) c ;;
    '(run, ro) <- pc_select_core rnk ev ranks ;;
    Some (rs_end run - 1 - (rs_rank_end run - rnk), rs_start run, rs_end run, ro_rank ro).

  (** psi.h:155-159 the do-while loop of rank *)
  Fixpoint pc_rank_loop (fuel : nat) (ev : encv) (ro : run_ops) (next_start rank v : nat) : option nat :=
    match fuel with
    | 0 => None
    | S fuel =>
        let run_start := next_start in
        '(run_end, ro) <- ro_next_end n ev ro run_start ;;
        let rank := rank + (run_end - run_start) in
        let res := if v <? run_end then rank - (run_end - v) else rank in
        if run_end <? v then
          '(next_start, ro) <- ro_next_start n dens ev ro run_end ;;
          if next_start <? v then pc_rank_loop fuel ev ro next_start rank v else Some res
        else Some res
    end.
  (** psi.h:141-163 rank *)
  Definition pc_rank (c v : nat) : option nat :=
    '(ev, ranks) <- nth_error (pc_partial pc) c ;;
    ub <- pc_upper_bound dens ev v ;;
    if ub =? 0 then Some 0
    else let idx := ub - 1 in
         rank <- (if idx =? 0 then Some 0 else nth_error ranks (idx - 1)) ;;
         ro <- ro_start ev idx ;;
         '(next_start, ro) <- ro_next_start n dens ev ro 0 ;;
         pc_rank_loop (ev_size ev + 2) ev ro next_start rank v.

  (** psi.h:188-192 the loop of rank with report *)
  Fixpoint pc_report_loop (fuel : nat) (ev : encv) (ro : run_ops) (run_start run_end rank v : nat)
    : option (run_ops * nat * nat * nat) :=
    if run_end <=? v then
      match fuel with
      | 0 => None
      | S fuel =>
          let rank := rank + (run_end - run_start) in
          '(run_start, ro) <- ro_next_start n dens ev ro run_end ;;
          '(run_end, ro) <- ro_next_end n ev ro run_start ;;
          pc_report_loop fuel ev ro run_start run_end rank v
      end
    else Some (ro, run_start, run_end, rank).
  (** psi.h:171-200 rank with report: rank, run start, run end, index of the run *)
  Definition pc_rank_report (c v : nat) : option (nat * nat * nat * nat) :=
    '(ev, ranks) <- nth_error (pc_partial pc) c ;;
    let v' := if v =? n then v - 1 else v in
    ub <- pc_upper_bound dens ev v' ;;
    let idx := if ub =? 0 then 0 else ub - 1 in
    rank <- (if idx =? 0 then Some 0 else nth_error ranks (idx - 1)) ;;
    ro <- ro_start ev idx ;;
    '(run_start, ro) <- ro_next_start n dens ev ro 0 ;;
    '(run_end, ro) <- ro_next_end n ev ro run_start ;;
    '(ro, run_start, run_end, rank) <- pc_report_loop (ev_size ev + 2) ev ro run_start run_end rank v' ;;
    let rank := if run_start <? v then rank + (v - run_start) else rank in
    Some (rank, run_start, run_end, ro_rank ro).

  (** psi.h:263-269 the loop of rankSoftRun; [rem] = n_runs_to_next_sample *)
  Fixpoint pc_soft_loop (ev : encv) (rem ptr run_start run_end n_runs v : nat) : option (nat * nat * nat) :=
    match rem with
    | 0 => Some (n_runs, run_start, run_end)
    | S rem =>
        if run_end <? v then
          '(gap, ptr) <- ed_decode (ev_z ev) ptr ;;
          let next_start := run_end + gap in
          if next_start <=? v then
            '(length, ptr) <- ed_decode (ev_z ev) ptr ;;
            pc_soft_loop ev rem ptr next_start (next_start + length) (S n_runs) v
          else Some (n_runs, run_start, run_end)
        else Some (n_runs, run_start, run_end)
    end.
  (** psi.h:242-272 rankSoftRun(c, value) *)
  Definition pc_rank_soft_run_c (c v : nat) : option (nat * nat) :=
    '(ev, ranks) <- nth_error (pc_partial pc) c ;;
    ub <- pc_upper_bound dens ev v ;;
    if ub =? 0 then Some (0, n)
    else let idx := ub - 1 in
         run_start <- nth_error (ev_sp ev) (2 * idx) ;;
         let n_runs := idx * dens / 2 + 1 in
         if run_start =? v then Some (n_runs, run_start)
         else ptr <- nth_error (ev_sp ev) (2 * idx + 1) ;;
              '(length, ptr) <- ed_decode (ev_z ev) ptr ;;
              '(n_runs, run_start, run_end) <-
                 pc_soft_loop ev (Nat.min dens (ev_size ev - idx * dens) / 2 - 1) ptr run_start
                              (run_start + length) n_runs v ;;
              Some (n_runs, if v <? run_end then run_start else n).
  (** psi.h:206-210 exist *)
  Definition pc_exist (c v : nat) : option bool :=
    '(_, run_start) <- pc_rank_soft_run_c c v ;; Some (negb (run_start =? n)).
  (** psi.h:225-236 rankSoftRun(value) *)
  Definition pc_rank_soft_run (v : nat) : option (nat * nat) :=
    mfold (fun st i => let '(n_runs, run_start) := st in
                       '(n_runs_c, run_start_c) <- pc_rank_soft_run_c i v ;;
                       Some (n_runs + n_runs_c, if negb (run_start_c =? n) then run_start_c else run_start))
          (seq 0 (length (pc_partial pc))) (0, n).
  (** psi.h:215-220 rankRun *)
  Definition pc_rank_run (v : nat) : option nat :=
    '(n_runs, run_start) <- pc_rank_soft_run v ;;
    Some (if negb (v =? n) && (run_start =? v) then n_runs - 1 else n_runs).
  (** psi.h:277-284 rankCharRun *)
  Definition pc_rank_char_run (c : nat) : option nat :=
    mfold (fun n_runs i => '(ev, _) <- nth_error (pc_partial pc) i ;; Some (n_runs + ev_size ev / 2)) (seq 0 c) 0.
  (** psi.h:443 countRuns *)
  Definition pc_count_runs (c : nat) : option nat :=
    '(ev, _) <- nth_error (pc_partial pc) c ;; Some (ev_size ev / 2).

  (** A reported run: first, last, symbol, index of the run, whether first is the run start. *)
  Record run_piece := mk_piece { pi_first : nat; pi_last : nat; pi_c : nat; pi_run : nat; pi_is_first : bool }.

  (** psi.h:352-357 *)
  Fixpoint pc_skip_loop (fuel : nat) (ev : encv) (ro : run_ops) (run_start run_end next_start first : nat)
    : option (run_ops * nat * nat * nat) :=
    if run_end <=? first then
      match fuel with
      | 0 => None
      | S fuel =>
          let run_start := next_start in
          '(run_end, ro) <- ro_next_end n ev ro run_start ;;
          '(next_start, ro) <- ro_next_start n dens ev ro run_end ;;
          pc_skip_loop fuel ev ro run_start run_end next_start first
      end
    else Some (ro, run_start, run_end, next_start).
  (** psi.h:362-370; the run index is [runSoftRank() - 1] because the next start has been read. *)
  Fixpoint pc_split_loop (fuel : nat) (ev : encv) (c : nat) (ro : run_ops)
    (first run_start run_end next_start last : nat) : option (list run_piece) :=
    if next_start <? last then
      match fuel with
      | 0 => None
      | S fuel =>
          let p := mk_piece first run_end c (ro_rank ro - 1) (first =? run_start) in
          let run_start := next_start in
          let first := run_start in
          '(run_end, ro) <- ro_next_end n ev ro run_start ;;
          '(next_start, ro) <- ro_next_start n dens ev ro run_end ;;
          ps <- pc_split_loop fuel ev c ro first run_start run_end next_start last ;;
          Some (p :: ps)
      end
    else
      let last := Nat.min last run_end in
      Some (if first <? last then [mk_piece first last c (ro_rank ro - 1) (first =? run_start)] else []).
  (** psi.h:337-376 splitInRuns(c, first, last) *)
  Definition pc_split_in_runs_c (c first last : nat) : option (list run_piece) :=
    '(ev, ranks) <- nth_error (pc_partial pc) c ;;
    ub <- pc_upper_bound dens ev first ;;
    let idx := if ub =? 0 then 0 else ub - 1 in
    ro <- ro_start ev idx ;;
    '(run_start, ro) <- ro_next_start n dens ev ro 0 ;;
    '(run_end, ro) <- ro_next_end n ev ro run_start ;;
    '(next_start, ro) <- ro_next_start n dens ev ro run_end ;;
    '(ro, run_start, run_end, next_start) <-
       pc_skip_loop (ev_size ev + 2) ev ro run_start run_end next_start first ;;
    pc_split_loop (ev_size ev + 2) ev c ro (Nat.max first run_start) run_start run_end next_start last.
  (** psi.h:324-329 splitInRuns(first, last) with report *)
  Definition pc_split_in_runs (first last : nat) : option (list run_piece) :=
    ps <- mmap (fun i => pc_split_in_runs_c i first last) (seq 0 (length (pc_partial pc))) ;;
    Some (concat ps).
  (** std::sort by the start of the run (insertion sort; the starts are distinct). *)
  Fixpoint insert_piece (p : run_piece) (l : list run_piece) : list run_piece :=
    match l with
    | [] => [p]
    | q :: t => if pi_first p <? pi_first q then p :: q :: t else q :: insert_piece p t
    end.
  Definition sort_pieces (l : list run_piece) : list run_piece := fold_right insert_piece [] l.
  (** psi.h:306-317 splitInSortedRuns; psi.h:290-298 splitInRuns keeps the pairs (first, last). *)
  Definition pc_split_in_sorted_runs (first last : nat) : option (list run_piece) :=
    ps <- pc_split_in_runs first last ;; Some (sort_pieces ps).

  (** psi.h:410-417 the loop of computeForwardRuns; [last_rank] after the decrement *)
  Fixpoint pc_forward_loop (fuel : nat) (ev : encv) (c : nat) (ro : run_ops)
    (first run_start run_end rank_end last_rank : nat) : option (list run_piece) :=
    if rank_end <? last_rank then
      match fuel with
      | 0 => None
      | S fuel =>
          let p := mk_piece first run_end c (ro_rank ro) (first =? run_start) in
          '(run_start, ro) <- ro_next_start n dens ev ro run_end ;;
          let first := run_start in
          '(run_end, ro) <- ro_next_end n ev ro run_start ;;
          let rank_end := rank_end + (run_end - run_start) in
          ps <- pc_forward_loop fuel ev c ro first run_start run_end rank_end last_rank ;;
          Some (p :: ps)
      end
    else Some [mk_piece first (run_end - 1 - (rank_end - last_rank) + 1) c (ro_rank ro) (first =? run_start)].
  (** psi.h:401-421 computeForwardRuns *)
  Definition pc_forward_runs (c first_rank last_rank : nat) : option (list run_piece) :=
    '(ev, ranks) <- nth_error (pc_partial pc) c ;;
    '(run, ro) <- pc_select_core first_rank ev ranks ;;
    let first := rs_end run - 1 - (rs_rank_end run - first_rank) in
    pc_forward_loop (ev_size ev + 2) ev c ro first (rs_start run) (rs_end run) (rs_rank_end run) (last_rank - 1).

  (** psi.h:423-437 traverse: the runs of a symbol *)
  Fixpoint pc_traverse_loop (fuel : nat) (ev : encv) (ro : run_ops) (run_start run_end : nat)
    : option (list (nat * nat)) :=
    if run_start <? n then
      match fuel with
      | 0 => None
      | S fuel =>
          '(next_start, ro) <- ro_next_start n dens ev ro run_end ;;
          '(next_end, ro) <- ro_next_end n ev ro next_start ;;
          rs <- pc_traverse_loop fuel ev ro next_start next_end ;;
          Some ((run_start, run_end) :: rs)
      end
    else Some [].
  Definition pc_traverse (c : nat) : option (list (nat * nat)) :=
    '(ev, _) <- nth_error (pc_partial pc) c ;;
    ro <- ro_start ev 0 ;;
    '(run_start, ro) <- ro_next_start n dens ev ro 0 ;;
    '(run_end, ro) <- ro_next_end n ev ro run_start ;;
    pc_traverse_loop (ev_size ev + 2) ev ro run_start run_end.
End Core.

(** * PsiCoreBV *)

(** psi.h:607-615, 706-714; rank and select structures are the SDSL ones over each bit vector. *)
Record psi_bv := mk_psi_bv { pv_n : nat; pv_first : nat; pv_partial : list (list bool) }.
(** psi.h:640-642 *)
Definition pv_mark (n : nat) (psi : list nat) (sp ep : nat) : option (list bool) :=
  mfold (fun bv j => v <- nth_error psi j ;; list_set bv v true) (seq sp (ep - sp)) (repeat false n).
Definition pv_symbol (n : nat) (C psi : list nat) (st : nat * list (list bool)) (i : nat)
  : option (nat * list (list bool)) :=
  let '(first, partial) := st in
  sp <- nth_error C (i - 1) ;;
  ep <- nth_error C i ;;
  v <- nth_error psi sp ;;
  bv <- pv_mark n psi sp ep ;;
  Some (if v =? 0 then i - 1 else first, partial ++ [bv]).
(** psi.h:622-648 constructor *)
Definition pv_construct (C psi : list nat) : option psi_bv :=
  let sigma := length C - 1 in
  n <- nth_error C sigma ;;
  '(first, partial) <- mfold (pv_symbol n C psi) (seq 1 sigma) (0, []) ;;
  Some (mk_psi_bv n first partial).
(** psi.h:656, 662, 668 *)
Definition pv_select (pv : psi_bv) (c rnk : nat) : option nat :=
  bv <- nth_error (pv_partial pv) c ;; bv_select bv rnk.
Definition pv_rank (pv : psi_bv) (c i : nat) : option nat :=
  bv <- nth_error (pv_partial pv) c ;; bv_rank bv i.
Definition pv_exist (pv : psi_bv) (c i : nat) : option bool :=
  bv <- nth_error (pv_partial pv) c ;; nth_error bv i.

(** * Functors *)

(** psi.h:725-729 computeCForSAIndex; -1 for an index below the first count. *)
Definition compute_c (C : list nat) (i : nat) : option nat :=
  match upper_bound C i with 0 => None | S c => Some c end.
(** psi.h:744-747 Psi::operator() *)
Definition psi_fn {A} (select : nat -> nat -> option A) (C : list nat) (i : nat) : option A :=
  c <- compute_c C i ;;
  cc <- nth_error C c ;;
  select c (i - cc + 1).
