(** Model of bwt.h and of the generic functors of lf.h, and of the ingestion of the files of Big-BWT
    (construct_big_bwt.h).  C++ functors are higher-order arguments with the same parameters. *)
From Coq Require Import List Arith Bool.
From Verif Require Import MBase MRle MConstruct MRIndex.
Import ListNotations.

(** * bwt.h *)
(** The calls of the report functors of computeBWT, in order. *)
Inductive bwt_event :=
| EvSymbol (i c : nat)                     (* t_report_bwt *)
| EvFirst (run i c text_pos : nat)         (* t_report_bwt_run_first *)
| EvLast (run i c text_pos : nat).         (* t_report_bwt_run_last *)
(** bwt.h:25-28 get_text_pos *)
Definition bwt_get_text_pos (get_sa : nat -> option nat) (last_pos i : nat) : option nat :=
  next_pos <- get_sa i ;; Some (if 0 <? next_pos then next_pos - 1 else last_pos).
(** The variables of the loop: reported events, n_runs, prev_bwt_symbol, prev_text_pos, bwt_symbol, text_pos. *)
Record bwt_state := mk_bwt_state {
  bs_events : list bwt_event; bs_runs : nat;
  bs_prev_symbol : nat; bs_prev_pos : nat; bs_symbol : nat; bs_pos : nat }.
(** bwt.h:42-60, one iteration; the counter [int i] is unbounded here; MCounter.v has the limit. *)
Definition bwt_step (get_sa get_text : nat -> option nat) (last_pos : nat) (s : bwt_state) (i : nat) : option bwt_state :=
  text_pos <- bwt_get_text_pos get_sa last_pos i ;;
  symbol <- get_text text_pos ;;
  let ev := bs_events s ++ [EvSymbol i symbol] in
  Some (if negb (symbol =? bs_prev_symbol s)
        then mk_bwt_state (ev ++ [EvLast (bs_runs s) (i - 1) (bs_prev_symbol s) (bs_prev_pos s);
                                  EvFirst (S (bs_runs s)) i symbol text_pos])
               (S (bs_runs s)) symbol text_pos symbol text_pos
        else mk_bwt_state ev (bs_runs s) (bs_prev_symbol s) text_pos symbol text_pos).
(** bwt.h:14-66 computeBWT: the reports and the returned number of runs; [None] also for the assert at 21. *)
Definition compute_bwt (n : nat) (get_sa get_text : nat -> option nat) : option (list bwt_event * nat) :=
  _ <- guard (0 <? n) ;;
  let last_pos := n - 1 in
  text_pos <- bwt_get_text_pos get_sa last_pos 0 ;;
  symbol <- get_text text_pos ;;
  s <- mfold (bwt_step get_sa get_text last_pos) (seq 1 last_pos)
         (mk_bwt_state [EvSymbol 0 symbol; EvFirst 0 0 symbol text_pos] 0 symbol text_pos symbol text_pos) ;;
  Some (bs_events s ++ [EvLast (bs_runs s) last_pos (bs_symbol s) (bs_pos s)], S (bs_runs s)).

(** bwt.h:68-94 computeLF, on inclusive ranges.  [rank pos c], [f c]; get_f(c + 1) is evaluated only when
    the left operand of || is false. *)
Definition compute_lf (rank : nat -> nat -> option nat) (f : nat -> option nat)
  (range : nat * nat) (c bwt_size max_c : nat) : option (nat * nat) :=
  prev_to_c <- f c ;;
  absent <- (if (c =? max_c) && (prev_to_c =? bwt_size) then Some true
             else next <- f (c + 1) ;; Some (next <=? prev_to_c)) ;;
  if absent then Some (1, 0)
  else
    c_before <- rank (fst range) c ;;
    until <- rank (snd range + 1) c ;;
    let c_inside := sub64 until c_before in
    if c_inside =? 0 then Some (1, 0)
    else let l := prev_to_c + c_before in Some (l, l + c_inside - 1).
(** bwt.h:96-127 LFOnBWT::operator() and buildLF *)
Definition lf_on_bwt (rank : nat -> nat -> option nat) (f : nat -> option nat) (bwt_size max_c : nat)
  (range : nat * nat) (c : nat) : option (nat * nat) := compute_lf rank f range c bwt_size max_c.
(** bwt.h:129-151 BasicLF::operator() *)
Definition basic_lf (get_char : nat -> option nat) (rank : nat -> nat -> option nat) (f : nat -> option nat)
  (pos : nat) : option nat :=
  c <- get_char pos ;; x <- f c ;; y <- rank pos c ;; Some (x + y).

(** * lf.h *)
(** lf.h:25-43 lf; the argument t_empty_range is not used by the code. *)
Definition lf_generic {V R} (rank : nat -> nat -> option V) (cumulative : nat -> option nat)
  (first last c : nat) (create : V -> V -> nat -> R) : option R :=
  before <- rank c first ;;
  until <- rank c last ;;
  smaller_c <- cumulative c ;;
  Some (create before until smaller_c).
(** lf.h:97-122 LF<…, EmptyClass, EmptyClass>::operator() (and LFOnPsi, lf.h:127-133): half-open ranges. *)
Definition lf_simple (rank : nat -> nat -> option nat) (cumulative : nat -> option nat)
  (range : nat * nat) (c : nat) : option (nat * nat) :=
  lf_generic rank cumulative (fst range) (snd range) c (fun b u s => (s + b, s + u)).

(** * construct_big_bwt.h *)
(** std::isspace in the "C" locale *)
Definition is_space (c : nat) : bool := (c =? 32) || ((9 <=? c) && (c <=? 13)).
(** construct_big_bwt.h:48-50: while (bwt_file >> symbol) push_back(symbol).  The formatted extraction of
    an unsigned char skips white space (std::ios::skipws is set by default). *)
Fixpoint read_symbols (file : list nat) : list nat :=
  match file with
  | [] => []
  | c :: r => if is_space c then read_symbols r else c :: read_symbols r
  end.
(** construct_big_bwt.h:76: input.read((char * ) &j, 5) into a zeroed uint64_t of a little-endian machine *)
Definition le5 (b0 b1 b2 b3 b4 : nat) : nat := b0 + 256 * (b1 + 256 * (b2 + 256 * (b3 + 256 * b4))).
(** construct_big_bwt.h:74-79: pairs of 5-byte numbers up to the first read that fails *)
Fixpoint read_pairs (file : list nat) : list (nat * nat) :=
  match file with
  | a0 :: a1 :: a2 :: a3 :: a4 :: b0 :: b1 :: b2 :: b3 :: b4 :: r =>
      (le5 a0 a1 a2 a3 a4, le5 b0 b1 b2 b3 b4) :: read_pairs r
  | _ => []
  end.
(** construct_big_bwt.h:64-86 read_runs: positions and text positions *)
Definition read_runs (n : nat) (file : list nat) : list nat * list nat :=
  let ps := read_pairs file in
  (map fst ps, map (fun '(_, sa_j) => if sa_j =? 0 then n - 1 else sa_j - 1) ps).
(** The output of Big-BWT: construct_big_bwt.h:32-37 *)
Record big_files := mk_big_files { bg_bwt : list nat; bg_ssa : list nat; bg_esa : list nat }.
(** construct_big_bwt.h:54-90 constructBWTRuns; n is the size of the .bwt file. *)
Definition construct_big_runs (b : big_files) : bwt_runs :=
  let n := length (bg_bwt b) in
  let '(first, first_text) := read_runs n (bg_ssa b) in
  let '(last, last_text) := read_runs n (bg_esa b) in
  mk_bwt_runs first first_text last last_text.
(** construct_big_bwt.h:92-124 constructIndexBaseItems with no item present: the BWT, the run files, the
    alphabet and the BWT-RLE. *)
Definition construct_big_base (b : big_files) : option (list nat * bwt_runs * alphabet * rlestr) :=
  let bwt := read_symbols (bg_bwt b) in
  let al := construct_alphabet bwt in
  rle <- construct_bwt_rle al bwt ;;
  Some (bwt, construct_big_runs b, al, rle).
