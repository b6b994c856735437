(** Model of [RLEString] (include/sr-index/rle_string.hpp:652-1071).
    A [TBitVector] with its rank/select supports is a [list bool]; the wavelet tree
    [run_heads_] is the list of its symbols (see MBase.v). *)
From Coq Require Import List Arith Bool.
From Verif Require Import MBase.
Import ListNotations.

(** rle_string.hpp:1064-1070 (members). *)
Record rlestr := mk_rlestr {
  rl_r : nat;                      (* r_: number of runs *)
  rl_b : nat;                      (* b_: block size *)
  rl_heads : list nat;             (* run_heads_ *)
  rl_runs : list bool;             (* runs_.data *)
  rl_rps : list (list bool)        (* runs_per_symbol_[c].data *)
}.

(** std::map<symbol, std::vector<bool>> with operator[] creating empty vectors. *)
Definition symmap := nat -> list bool.
Definition symmap_push (m : symmap) (c : nat) (b : bool) : symmap :=
  fun x => if x =? c then m x ++ [b] else m x.

(** Local state of the constructor loop (rle_string.hpp:670-674). *)
Record rle_build := mk_rle_build {
  rb_symbol : nat;
  rb_heads : list nat;
  rb_map : symmap;
  rb_runs : list bool;
  rb_r : nat
}.

(** rle_string.hpp:676-690: one iteration of the loop. *)
Definition rle_build_step (b : nat) (st : rle_build) (next_symbol : nat) : rle_build :=
  let symbol := rb_symbol st in
  if negb (symbol =? next_symbol)
  then mk_rle_build next_symbol (rb_heads st ++ [symbol]) (symmap_push (rb_map st) symbol true)
         (rb_runs st ++ [(rb_r st) mod b =? b - 1]) (S (rb_r st))
  else mk_rle_build symbol (rb_heads st) (symmap_push (rb_map st) symbol false)
         (rb_runs st ++ [false]) (rb_r st).

(** Largest key of the map = largest symbol of the sequence (rle_string.hpp:704). *)
Definition max_symbol (l : list nat) : nat := fold_right Nat.max 0 l.

(** rle_string.hpp:667-712 (constructor).  [None]: empty sequence (assert at 668) or b = 0
    (modulo by zero at 680). *)
Definition rle_construct (b : nat) (l : list nat) : option rlestr :=
  match l with
  | [] => None
  | first :: rest =>
      _ <- guard (0 <? b) ;;
      let st := fold_left (rle_build_step b) rest
                          (mk_rle_build first [] (fun _ => []) [] 0) in
      let runs := rb_runs st ++ [false] in
      let m := symmap_push (rb_map st) (rb_symbol st) true in
      let heads := rb_heads st ++ [rb_symbol st] in
      Some (mk_rlestr (S (rb_r st)) b heads runs (map m (seq 0 (S (max_symbol l)))))
  end.

(** rle_string.hpp:714 *)
Definition rle_size (s : rlestr) : nat := length (rl_runs s).

(** rle_string.hpp:937-943: struct RunData. *)
Record rundata := mk_rundata { rd_rnk : nat; rd_c : nat; rd_start : nat; rd_end : nat }.

(** rle_string.hpp:999-1005 computeSymbolRunData *)
Definition rle_symbol_run_data (s : rlestr) (t_run : nat) : option rundata :=
  '(run, c) <- wt_inverse_select (rl_heads s) t_run ;;
  bv <- nth_error (rl_rps s) c ;;
  start <- (if run =? 0 then Some 0 else p <- bv_select bv run ;; Some (p + 1)) ;;
  e <- bv_select bv (run + 1) ;;
  Some (mk_rundata run c start (e + 1)).

(** rle_string.hpp:974-978 computeBothRunData *)
Definition rle_both_run_data (s : rlestr) (t_run t_run_start : nat) : option (rundata * rundata) :=
  sr <- rle_symbol_run_data s t_run ;;
  Some (mk_rundata t_run (rd_c sr) t_run_start (t_run_start + (rd_end sr - rd_start sr)), sr).

(** rle_string.hpp:983-986 computeRunData *)
Definition rle_run_data (s : rlestr) (t_run t_run_start : nat) : option rundata :=
  sr <- rle_symbol_run_data s t_run ;;
  Some (mk_rundata t_run (rd_c sr) t_run_start (t_run_start + (rd_end sr - rd_start sr))).

(** rle_string.hpp:991-994 computeRunLength *)
Definition rle_run_length (s : rlestr) (t_run : nat) : option nat :=
  sr <- rle_symbol_run_data s t_run ;;
  Some (rd_end sr - rd_start sr).

(** rle_string.hpp:962-964: while (run.end <= t_i) { ... }; fuel = number of iterations allowed. *)
Fixpoint rle_advance (fuel : nat) (s : rlestr) (t_i : nat) (rr : rundata * rundata)
  : option (rundata * rundata) :=
  if rd_end (fst rr) <=? t_i then
    match fuel with
    | 0 => None
    | S f => rr' <- rle_both_run_data s (rd_rnk (fst rr) + 1) (rd_end (fst rr)) ;;
             rle_advance f s t_i rr'
    end
  else Some rr.

(** rle_string.hpp:958-969 rankSoftBothRun *)
Definition rle_rank_soft_both_run (s : rlestr) (t_i : nat) : option (rundata * rundata) :=
  block <- bv_rank (rl_runs s) t_i ;;
  start <- (if 0 <? block then p <- bv_select (rl_runs s) block ;; Some (p + 1) else Some 0) ;;
  rr <- rle_both_run_data s (block * rl_b s) start ;;
  rle_advance (rl_b s) s t_i rr.

(** rle_string.hpp:949-952 rankSoftRun *)
Definition rle_rank_soft_run (s : rlestr) (t_i : nat) : option rundata :=
  '(run, _) <- rle_rank_soft_both_run s t_i ;; Some run.

(** rle_string.hpp:719-722 operator[] *)
Definition rle_access (s : rlestr) (i : nat) : option nat :=
  run <- rle_rank_soft_run s i ;;
  wt_access (rl_heads s) (rd_rnk run).

(** rle_string.hpp:749-751: for (i = block*b_; i < global_run; ++i) run_start += length(i) *)
Fixpoint rle_sum_lengths (s : rlestr) (i : nat) (count : nat) (acc : nat) : option nat :=
  match count with
  | 0 => Some acc
  | S k => len <- rle_run_length s i ;; rle_sum_lengths s (S i) k (acc + len)
  end.

(** rle_string.hpp:728-754 select *)
Definition rle_select (s : rlestr) (t_rnk t_c : nat) : option nat :=
  rps <- nth_error (rl_rps s) t_c ;;
  _ <- guard ((1 <=? t_rnk) && (t_rnk <=? length rps)) ;;
  let t_rnk := t_rnk - 1 in
  symbol_run <- bv_rank rps t_rnk ;;
  run_offset <- (if symbol_run =? 0 then Some t_rnk
                 else p <- bv_select rps symbol_run ;; Some (t_rnk - (p + 1))) ;;
  global_run <- wt_select (rl_heads s) (symbol_run + 1) t_c ;;
  block <- (if rl_b s =? 0 then None else Some (global_run / rl_b s)) ;;
  run_start <- (if block =? 0 then Some 0 else p <- bv_select (rl_runs s) block ;; Some (p + 1)) ;;
  run_start <- rle_sum_lengths s (block * rl_b s) (global_run - block * rl_b s) run_start ;;
  Some (run_start + run_offset).

(** rle_string.hpp:760-775 rank *)
Definition rle_rank (s : rlestr) (t_i t_c : nat) : option nat :=
  rps <- nth_error (rl_rps s) t_c ;;
  if length rps =? 0 then Some 0
  else if t_i =? rle_size s then Some (length rps)
  else
    run <- rle_rank_soft_run s t_i ;;
    symbol_run_rank <- wt_rank (rl_heads s) (rd_rnk run) t_c ;;
    symbol_run_start <- (if symbol_run_rank =? 0 then Some 0
                         else p <- bv_select rps symbol_run_rank ;; Some (p + 1)) ;;
    let run_offset := if rd_c run =? t_c then t_i - rd_start run else 0 in
    Some (symbol_run_start + run_offset).

(** rle_string.hpp:784-810 rank with report (rank, run rank, is_cover) *)
Definition rle_rank_report_c (s : rlestr) (t_i t_c : nat) : option (nat * nat * bool) :=
  rps <- nth_error (rl_rps s) t_c ;;
  if length rps =? 0 then Some (0, 0, false)
  else if t_i =? rle_size s then
    rr <- bv_rank rps (length rps) ;; Some (length rps, rr, false)
  else
    '(run, symbol_run) <- rle_rank_soft_both_run s t_i ;;
    let symbol_run_is_cover := rd_c run =? t_c in
    '(srnk, sstart) <- (if negb symbol_run_is_cover then
                          rnk <- wt_rank (rl_heads s) (rd_rnk run) t_c ;;
                          start <- (if rnk =? 0 then Some 0
                                    else p <- bv_select rps rnk ;; Some (p + 1)) ;;
                          Some (rnk, start)
                        else Some (rd_rnk symbol_run + 1, rd_start symbol_run)) ;;
    let run_offset := if symbol_run_is_cover then t_i - rd_start run else 0 in
    Some (sstart + run_offset, srnk, symbol_run_is_cover).

(** Arguments of the report at rle_string.hpp:825. *)
Record rank_report := mk_rank_report {
  rr_rnk : nat; rr_c : nat; rr_run_rnk : nat; rr_run_start : nat; rr_run_end : nat;
  rr_symbol_run_rnk : nat
}.

(** rle_string.hpp:818-826 rank with report for s[t_i] *)
Definition rle_rank_report (s : rlestr) (t_i : nat) : option rank_report :=
  '(run, symbol_run) <- rle_rank_soft_both_run s t_i ;;
  let run_offset := t_i - rd_start run in
  Some (mk_rank_report (rd_start symbol_run + run_offset) (rd_c run) (rd_rnk run)
                       (rd_start run) (rd_end run) (rd_rnk symbol_run)).

(** rle_string.hpp:832-836 selectOnRuns *)
Definition rle_select_on_runs (s : rlestr) (t_run_rnk t_c : nat) : option nat :=
  wt_select (rl_heads s) t_run_rnk t_c.

(** rle_string.hpp:865-869: while (run.end < t_last) report; *)
Fixpoint rle_split_loop (fuel : nat) (s : rlestr) (t_last : nat) (run : rundata)
  : option (list rundata) :=
  if rd_end run <? t_last then
    match fuel with
    | 0 => None
    | S f => run' <- rle_run_data s (rd_rnk run + 1) (rd_end run) ;;
             rest <- rle_split_loop f s t_last run' ;;
             Some (run :: rest)
    end
  else Some [run].

(** rle_string.hpp:859-872 splitInRuns: list of reported runs (rank, symbol, start, end). *)
Definition rle_split_in_runs (s : rlestr) (t_first t_last : nat) : option (list rundata) :=
  _ <- guard ((t_first <=? t_last) && (t_last <=? rle_size s)) ;;
  run <- rle_rank_soft_run s t_first ;;
  rle_split_loop (rl_r s) s t_last run.
