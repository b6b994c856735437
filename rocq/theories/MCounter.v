(** Model of the loops of include/sr-index/ whose counter is an [int], and of the constructions and queries that run
    them.  [m] stands for INT_MAX (2^31 - 1 where an int has 32 bits).  [++i] with [i = INT_MAX] is undefined
    behaviour: [None].  In the conditions the counter is converted to std::size_t; a counter that is not negative
    keeps its value, one that is negative becomes greater than every size.

    The other loops with an [int] counter (psi.h:228, 279, 326 and 700) run over the symbols of the alphabet, of which
    there are at most 256, and are left as they are. *)
From Coq Require Import List Arith Bool.
From Verif Require Import MBase MRle MConstruct MPhi MRIndex MSrIndex MPsi MCsa MSrCsa MStore MBwt MCache.
Import ListNotations.

(** for (int i = [i]; [cond] i; ++i) [body]; the fuel is the number of evaluations of the condition *)
Fixpoint int_for {S} (fuel m i : nat) (cond : nat -> bool) (body : S -> nat -> option S) (s : S) : option S :=
  match fuel with
  | 0 => None
  | Datatypes.S fuel =>
      if cond i
      then s <- body s i ;; if i <? m then int_for fuel m (i + 1) cond body s else None
      else Some s
  end.

(** bwt.h:14-66 computeBWT: the loop at 42 is for (int i = 1; i <= last_pos; ++i) *)
Definition compute_bwt_int (m n : nat) (get_sa get_text : nat -> option nat) : option (list bwt_event * nat) :=
  _ <- guard (0 <? n) ;;
  let last_pos := n - 1 in
  text_pos <- bwt_get_text_pos get_sa last_pos 0 ;;
  symbol <- get_text text_pos ;;
  s <- int_for (S n) m 1 (fun i => i <=? last_pos) (bwt_step get_sa get_text last_pos)
         (mk_bwt_state [EvSymbol 0 symbol; EvFirst 0 0 symbol text_pos] 0 symbol text_pos symbol text_pos) ;;
  Some (bs_events s ++ [EvLast (bs_runs s) last_pos (bs_symbol s) (bs_pos s)], S (bs_runs s)).

(** construct_sdsl.h:56-110 constructBWTRuns: the loop at 87 is for (int i = 1; i < n; ++i) *)
Definition construct_bwt_runs_int (m : nat) (bwt sa : list nat) : option bwt_runs :=
  symbol0 <- nth_error bwt 0 ;;
  text_pos0 <- bwt_text_pos (length bwt) sa 0 ;;
  '(f, _, text_pos) <- int_for (S (length bwt)) m 1 (fun i => i <? length bwt) (bwt_runs_step bwt sa)
                               (mk_bwt_runs [0] [text_pos0] [] [], symbol0, text_pos0) ;;
  Some (mk_bwt_runs (br_first f) (br_first_text f)
                    (br_last f ++ [length bwt - 1]) (br_last_text f ++ [text_pos])).
(** construct_sdsl.h:42-123, as a step over the cache directory *)
Definition step_runs_int (m : nat) : step :=
  guarded (N FFirst) (fun p =>
    bwt <- load_ints p (N FBwt) ;; sa <- load_ints p (N FSa) ;; r <- construct_bwt_runs_int m bwt sa ;;
    Some (put_runs r p)).

(** sr_index.h:636-638, sr_csa.h:1013-1016, sr_csa_psi.h:607-609:
    for (int i = 0; i < idx.size(); ++i) links[i] = f(idx[i]) *)
Definition int_links (m : nat) (f : nat -> option nat) (idx : list nat) : option (list nat) :=
  int_for (S (length idx)) m 0 (fun i => i <? length idx)
    (fun links i => x <- nth_error idx i ;; y <- f x ;; Some (links ++ [y])) [].
(** sr_index.h:622-685 *)
Definition construct_submarks_int (m : nat) (idx marks : list nat) (r : nat) : option (list nat * list nat) :=
  to_mark <- int_links m (fun i => umod (i + 1) r) idx ;;
  sub <- mmap (nth_error marks) to_mark ;;
  Some (sub, sort_indices sub).
Definition step_submarks_backward_int (m s : nat) : step :=
  guarded (P s FFirstLinks) (fun p =>
    idx <- load_ints p (P s FLastIdx) ;; first <- buf_ints p (N FFirst) ;; marks <- load_ints p (N FFirstPos) ;;
    '(sub, links) <- construct_submarks_int m idx marks (List.length first) ;;
    Some (put (P s FFirstLinks) (ItInts links) (put (P s FFirstByLast) (ItInts sub) p))).
(** sr_csa.h:969-1019 *)
Definition sample_to_mark_bwt_int (m : nat) (b : base_items) (pc : psi_core) (idx : list nat) : option (list nat) :=
  n <- al_size (bi_alpha b) ;;
  let runs := bi_runs_files b in
  int_links m (fun i => pos <- nth_error (br_first runs) i ;;
                        link_to_mark (MCsa.basic_lf (bi_alpha b) (bi_bwt_rle b)) (core_psi_fn (bi_alpha b) pc)
                                     (lower_bound (br_last runs)) n pos) idx.
(** sr_csa.h:923-967 *)
Definition step_submarks_forward_int (m dens s : nat) : step :=
  guarded (P s FLastLinks) (fun p =>
    idx <- load_ints p (P s FFirstIdx) ;; '(b, pc) <- load_lf_psi dens p ;; to_mark <- sample_to_mark_bwt_int m b pc idx ;;
    marks <- load_ints p (N FLastPos) ;; '(sub, links) <- construct_submarks_of marks to_mark ;;
    Some (put (P s FLastLinks) (ItInts links) (put (P s FLastByFirst) (ItInts sub) p))).
(** sr_csa_psi.h:592-654 *)
Definition step_submarks_psi_int (m : nat) (c : bvclass) (s : nat) : step :=
  guarded (PT s FPsiTail (TyBv c)) (fun p =>
    '(sub, p) <- (if file_exists p (PT s FPsiTail TyInts)
                  then sub <- load_ints p (PT s FPsiTail TyInts) ;; Some (sub, p)
                  else idx <- load_ints p (P s FPsiHeadIdx) ;; heads <- buf_ints p (NT FPsiHead TyInts) ;;
                       to_mark <- int_links m (fun i => umod (i + List.length heads - 1) (List.length heads)) idx ;;
                       marks <- load_ints p (NT FPsiTail TyInts) ;;
                       sub <- mmap (nth_error marks) to_mark ;;
                       Some (sub, put (PT s FPsiTail TyInts) (ItInts sub) p)) ;;
    bwt <- buf_ints p (N FBwt) ;; b <- construct_bit_vector sub (List.length bwt) false ;;
    Some (put_bv c (P s FPsiTail) b p)).

(** The lists of steps of MCache.v with these steps *)
(** construct_sdsl.h:125-163; construct_big_bwt.h:92-123 has no [int] counter *)
Definition base_steps_int (m : nat) (rt : route) (sort : list nat -> list nat) (exe : list nat -> big_files) (data : list nat)
  : list step :=
  match rt with
  | Sdsl => [step_text data; step_sa sort; step_bwt; step_runs_int m; step_alphabet; step_rle]
  | BigBwt => [step_big_bwt exe data; step_big_runs; step_alphabet; step_rle]
  end.
(** sr_index.h:486-542 *)
Definition sri_steps_int (m : nat) (tm : tmpl) (s : nat) : list step :=
  [step_sorted (N FLastPos) (N FLastSorted); step_subsamples_backward s;
   step_bv (t_idx tm) (P s FLastIdx) (P s FLastIdx) (N FLast);
   step_submarks_backward_int m s; step_bv (t_marks tm) (P s FFirstByLast) (P s FFirstByLast) (N FBwt)].
(** sr_csa.h:1021-1050 *)
Definition srcsa_common_steps_int (m : nat) (tm : tmpl) (s : nat) : list step :=
  [step_bwt_size; step_sorted (N FFirstPos) (N FFirstSorted); step_subsamples_forward s;
   step_submarks_forward_int m (t_dens tm) s; step_bv (t_marks tm) (P s FLastByFirst) (P s FLastByFirst) (N FBwt)].
(** sr_csa_psi.h:474-533 *)
Definition srcsa_psi_steps_int (m : nat) (tm : tmpl) (s : nat) : list step :=
  [step_sorted (NT FPsiHead TyInts) (N FPsiHeadSorted); step_subsamples_psi s; step_submarks_psi_int m (t_marks tm) s;
   step_sublinks_psi s; step_bv (t_idx tm) (P s FPsiHeadIdx) (PT s FPsiHeadIdx TyInts) (NT FPsiHead TyInts);
   step_cumulative_psi (t_dens tm)].
(** r_index.h:283-293, sr_index.h:455-571, r_csa.h:339-378 and 623-677, sr_csa.h:746-874, sr_csa_psi.h:462-828 *)
Definition class_steps_int (m : nat) (tm : tmpl) (kd : kind) (s : nat) : list step :=
  match kd with
  | KRIndex => rindex_steps tm
  | KSrIndex => rindex_steps tm ++ sri_steps_int m tm s
  | KSrIndexVM | KSrIndexVA => rindex_steps tm ++ sri_steps_int m tm s ++ sri_valid_steps tm s
  | KRCSA | KCSARaw => rcsa_steps tm
  | KSrCSA => rcsa_steps tm ++ srcsa_common_steps_int m tm s ++ srcsa_steps tm s
  | KSrCSAVM | KSrCSAVA => rcsa_steps tm ++ srcsa_common_steps_int m tm s ++ srcsa_steps tm s ++ srcsa_valid_steps tm s
  | KSlim => rcsa_steps tm ++ srcsa_common_steps_int m tm s ++ slim_steps tm s
  | KSlimVM | KSlimVA => rcsa_steps tm ++ srcsa_common_steps_int m tm s ++ slim_steps tm s ++ srcsa_valid_steps tm s
  | KRCSAPsi => rcsa_psi_steps tm
  | KSrPsi => rcsa_psi_steps tm ++ srcsa_psi_steps_int m tm s
  | KSrPsiVM => rcsa_psi_steps tm ++ srcsa_psi_steps_int m tm s ++ [step_validity_psi (t_valid tm) s]
  | KSrPsiVA => rcsa_psi_steps tm ++ srcsa_psi_steps_int m tm s ++ [step_validity_psi (t_valid tm) s; step_areas_psi s]
  end.
Definition build_cache_int (m : nat) (i : input) (tm : tmpl) (kd : kind) (s : nat) (p : proc) : option proc :=
  run_steps (base_steps_int m (in_route i) (in_sort i) (in_exe i) (in_data i) ++ class_steps_int m tm kd s) p.
(** construct followed by t_index.load(t_config), for a new object *)
Definition construct_index_int (m : nat) (i : input) (tm : tmpl) (kd : kind) (s : nat) (p : proc) : option (obj * proc) :=
  p <- build_cache_int m i tm kd s p ;;
  o <- load_config tm kd (new_rate s []) (files_of (pr_disk p)) ;;
  Some (o, p).

(** * Queries *)
(** int i = [x] for a std::size_t [x]: its value modulo 2^32; [None]: a negative number *)
Definition int_of_size (m x : nat) : option nat :=
  let y := x mod (2 * (m + 1)) in if y <=? m then Some y else None.
(** sr_csa.h:520-542 constructSplitRangeInBWTRuns: the loop at 531 is
    for (int i = first_rank; i <= last_rank; ++i) *)
Definition srcsa_split_range_int (m : nat) (bv : list bool) (r : range) : option (list range) :=
  x <- bv_rank bv (fst r + 1) ;;
  last_rank <- bv_rank bv (snd r) ;;
  let first_rank := x + 1 in
  '(runs, run_start) <-
    match int_of_size m first_rank with
    | None => Some ([], fst r)
    | Some i =>
        int_for (S (last_rank + 1 - i)) m i (fun i => i <=? last_rank)
          (fun '(runs, run_start) i => run_end <- bv_select bv i ;; Some (runs ++ [(run_start, run_end)], run_end))
          ([], fst r)
    end ;;
  Some (runs ++ [(run_start, snd r)]).
(** sr_csa.h:438-474: [srcsa_locate_with] of MSrCsa.v with this split *)
Definition srcsa_locate_with_int (m : nat) (valid : bool) (phi : srcsa -> nat -> nat -> option (nat * bool)) (ix : srcsa)
  : list nat -> option (list nat) :=
  csa_locate (sc_alpha ix) (sc_psi ix) bwt_create 0
    (fun n => compute_all_values
      (fwd_range valid (fun r : range => srcsa_get_sample ix (fst r)) (srcsa_split_range_int m (sc_idx ix))
         (srcsa_split_run ix) (sc_rate ix) n csa_update_range range_empty (phi ix n))
      (srcsa_toehold ix n) csa_update_range).
(** Locate of the classes: SrCSA (sr_csa.h:418-474), SrCSAValidMark (sr_csa.h:594-668) and SrCSAValidArea
    (sr_csa.h:696-743) run the loop; Locate of the others has no [int] counter. *)
Definition locate_view_int (m : nat) (kd : kind) (v : loaded) (p : list nat) : option (list nat) :=
  match kd, v with
  | KSrCSA, LdSc ix => srcsa_locate_with_int m false phi_plain ix p
  | KSrCSAVM, LdSc ix => srcsa_locate_with_int m true phi_valid_mark ix p
  | KSrCSAVA, LdSc ix => srcsa_locate_with_int m true phi_valid_area ix p
  | _, _ => locate_view kd v p
  end.
(** index_base.h:48-54 *)
Definition obj_locate_int (m : nat) (tm : tmpl) (kd : kind) (o : obj) (p : list nat) : option (list nat) :=
  v <- view tm kd o ;; locate_view_int m kd v p.
