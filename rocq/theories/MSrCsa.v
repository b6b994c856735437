(** Model of the subsampled Psi indexes: SrCSA, SrCSASlim, SrCSAValidMark, SrCSAValidArea (sr_csa.h),
    SrCSAWithPsiRun, SRCSAValidMark, SRCSAValidArea (sr_csa_psi.h), and of the forward enumeration of
    a range (phi.h).  Loop counters of type int (sr_csa.h:531 and 1013, sr_csa_psi.h:607) are modelled
    as unbounded naturals.  Widths of stored integers are not modelled. *)
From Coq Require Import List Arith Bool.
From Verif Require Import MBase MRle MConstruct MPhi MRIndex MSrIndex MPsi MCsa.
Import ListNotations.

(** for (run : runs) value = f(run, value), with the reports of every call. *)
Fixpoint out_fold {R A} (f : R -> A -> out A) (runs : list R) (v : A) : out A :=
  match runs with
  | [] => Some (v, [])
  | run :: rest =>
      '(v, o1) <- f run v ;;
      '(v, o2) <- out_fold f rest v ;;
      Some (v, o1 ++ o2)
  end.

Section ForwardForRange.
  (** phi.h:379-457 PhiForwardForRange; the arguments are the functors of the class. *)
  Context {Range Run : Type}.
  Variable phi : nat -> option nat.
  Variable get_sample : Run -> option (option nat).
  Variable split_range : Range -> option (list Run).
  Variable split_run : Run -> option (list Run).
  Variable sampling_size seq_size : nat.
  Variable is_range_empty : Range -> bool.
  Variable update_run : Run -> Run.
  Variable is_run_empty : Run -> bool.
  (** Bound on the iterations of the inner loops; [None] when exceeded. *)
  Variable loop_fuel : nat.

  (** phi.h:429 and 727 (unsigned): ( *sample + 1 + seq_size_ - t_level + 1) % seq_size_ *)
  Definition sample_value (sample level : nat) : option nat :=
    umod (sub64 (sample + 1 + seq_size) level + 1) seq_size.

  (** phi.h:417-421 do { ... } while (!is_run_empty_(t_run)) *)
  Fixpoint pf_phi_loop (fuel : nat) (run : Run) (prev : nat) : out nat :=
    match fuel with
    | 0 => None
    | S f =>
        prev <- phi prev ;;
        let run := update_run run in
        if negb (is_run_empty run)
        then '(p, o) <- pf_phi_loop f run prev ;; Some (p, prev :: o)
        else Some (prev, [prev])
    end.

  (** phi.h:413-443 compute.  The fuel bounds the recursion depth; [None] when exceeded. *)
  Fixpoint pf_compute (fuel : nat) (run : Run) (prev level : nat) {struct fuel} : out nat :=
    match fuel with
    | 0 => None
    | S f =>
        if sampling_size <? level then pf_phi_loop loop_fuel run prev
        else
          sample <- get_sample run ;;
          '(prev, o1, run) <- match sample with
                              | Some x => v <- sample_value x level ;; Some (v, [v], update_run run)
                              | None => Some (prev, [], run)
                              end ;;
          if is_run_empty run then Some (prev, o1)
          else
            runs <- split_run run ;;
            '(p, o2) <- out_fold (fun run v => pf_compute f run v (S level)) runs prev ;;
            Some (p, o1 ++ o2)
    end.

  (** phi.h:402-411 operator() *)
  Definition pf_range (fuel : nat) (range : Range) (prev : nat) : option (list nat) :=
    if is_range_empty range then Some []
    else runs <- split_range range ;;
         '(_, o) <- out_fold (fun run v => pf_compute fuel run v 1) runs prev ;; Some o.

  (** phi.h:663-752 PhiForwardForRangeWithValidity: phi also returns the validity of its value. *)
  Variable phiv : nat -> option (nat * bool).

  (** phi.h:703-708 *)
  Fixpoint pfv_phi_loop (fuel : nat) (run : Run) (value : nat) : out (nat * bool) :=
    match fuel with
    | 0 => None
    | S f =>
        let run := update_run run in
        vv <- phiv value ;;
        if negb (is_run_empty run)
        then '(p, o) <- pfv_phi_loop f run (fst vv) ;; Some (p, value :: o)
        else Some (vv, [value])
    end.

  (** phi.h:715-720: while (!is_run_empty_(t_run) && t_value.second) *)
  Fixpoint pfv_valid_loop (fuel : nat) (run : Run) (vv : nat * bool) : out (Run * (nat * bool)) :=
    if negb (is_run_empty run) && snd vv then
      match fuel with
      | 0 => None
      | S f => let run := update_run run in
               vv' <- phiv (fst vv) ;;
               '(r, o) <- pfv_valid_loop f run vv' ;;
               Some (r, fst vv :: o)
      end
    else Some ((run, vv), []).

  (** phi.h:713-729: do { while ...; if empty return; sample } while (t_value.second).  A return from
      inside the loop is a result with an empty run. *)
  Fixpoint pfv_do_loop (fuel : nat) (level : nat) (run : Run) (vv : nat * bool)
    : out (Run * (nat * bool)) :=
    match fuel with
    | 0 => None
    | S f =>
        '((run, vv), o1) <- pfv_valid_loop loop_fuel run vv ;;
        if is_run_empty run then Some ((run, vv), o1)
        else
          sample <- get_sample run ;;
          vv <- match sample with
                | Some x => v <- sample_value x level ;; Some (v, true)
                | None => Some vv
                end ;;
          if snd vv then '(r, o2) <- pfv_do_loop f level run vv ;; Some (r, o1 ++ o2)
          else Some ((run, vv), o1)
    end.

  (** phi.h:699-738 compute *)
  Fixpoint pfv_compute (fuel : nat) (run : Run) (vv : nat * bool) (level : nat) {struct fuel} : out (nat * bool) :=
    match fuel with
    | 0 => None
    | S f =>
        if sampling_size <? level then pfv_phi_loop loop_fuel run (fst vv)
        else
          '((run, vv), o1) <- pfv_do_loop loop_fuel level run vv ;;
          if is_run_empty run then Some (vv, o1)
          else
            runs <- split_run run ;;
            '(p, o2) <- out_fold (fun run v => pfv_compute f run v (S level)) runs vv ;;
            Some (p, o1 ++ o2)
    end.

  (** phi.h:686-696 operator() *)
  Definition pfv_range (fuel : nat) (range : Range) (prev : nat) : option (list nat) :=
    if is_range_empty range then Some []
    else vv <- phiv prev ;;
         runs <- split_range range ;;
         '(_, o) <- out_fold (fun run v => pfv_compute fuel run v 1) runs vv ;; Some o.
End ForwardForRange.

(** * Construction *)

(** sr_csa.h:876-918 constructSubsamplingBackwardSamplesForPhiForwardWithBWTRuns and
    sr_csa_psi.h:535-570 constructSubsamplingBackwardSamplesForPhiForwardWithPsiRuns, with
    construct.h:61-67 getExtremes and sampling.h:52-68 computeSortedSampling: the samples from the
    last text position to the first.  [links] are the full mark-to-sample links. *)
Definition construct_subsamples_backward (s : nat) (samples links : list nat) : option (list nat * list nat) :=
  req0 <- nth_error links 0 ;;
  req1 <- nth_error links (length links - 1) ;;
  vec <- compute_sampling s (rev (sort_indices samples)) samples [req0; req1] ;;
  let idx := std_sort Nat.ltb vec in
  sub <- mmap (nth_error samples) idx ;;
  Some (idx, sub).

(** sr_csa.h:969-1019 computeSampleToMarkLinksForPhiForward *)
Definition sample_to_mark_bwt (b : base_items) (pc : psi_core) (idx : list nat) : option (list nat) :=
  n <- al_size (bi_alpha b) ;;
  let runs := bi_runs_files b in
  mmap (fun i => pos <- nth_error (br_first runs) i ;;
                 link_to_mark (basic_lf (bi_alpha b) (bi_bwt_rle b)) (core_psi_fn (bi_alpha b) pc)
                              (lower_bound (br_last runs)) n pos) idx.
(** sr_csa_psi.h:592-612 computeSampleToMarkLinksForPhiForwardWithPsiRuns *)
Definition sample_to_mark_psi (r : nat) (idx : list nat) : option (list nat) :=
  mmap (fun i => umod (i + r - 1) r) idx.

(** Sub-sampled marks by sub-sample, and links from the sub-sampled marks in text order:
    sr_csa.h:923-967 constructSubsamplingBackwardMarksForPhiForwardWithBWTRuns,
    sr_csa_psi.h:614-632 computeSubmarks..., 656-680 computeSubmarkLinks... *)
Definition construct_submarks_of (marks to_mark : list nat) : option (list nat * list nat) :=
  sub <- mmap (nth_error marks) to_mark ;;
  Some (sub, sort_indices sub).

(** Files shared by SrCSA and SrCSASlim: r_csa.h:351-378 constructRCSAWithBWTRuns, then
    sr_csa.h:1021-1050 constructSrCSACommonsWithBWTRuns.  The last component is the file of the marks
    sorted by text position. *)
Definition construct_srcsa_commons (s dens : nat) (data sa : list nat)
  : option (base_items * psi_core * sri_files * list nat * list bool) :=
  b <- construct_base data sa ;;
  pc <- construct_psi_core dens b ;;
  '(sorted_marks_idx, links) <- construct_links_forward_bwt b pc ;;
  full_marks <- construct_bit_vector (br_last_text (bi_runs_files b)) (length (bi_bwt_text b)) false ;;
  '(idx, samples) <- construct_subsamples_backward s (br_first_text (bi_runs_files b)) links ;;
  to_mark <- sample_to_mark_bwt b pc idx ;;
  '(marks, sub_links) <- construct_submarks_of (br_last_text (bi_runs_files b)) to_mark ;;
  bv_marks <- construct_bit_vector marks (length (bi_bwt_text b)) false ;;
  Some (b, pc, mk_sri_files idx samples marks sub_links, sorted_marks_idx, bv_marks).

(** Items of a loaded index of this family (sr_csa.h:65-73, 203-224, 418-436, 594-613, 696-719;
    sr_csa_psi.h:67-89, 333-344, 424-440).  [sc_idx] has one bit per row in SrCSA and one per run in
    the other classes; [sc_cum], [sc_valid] and [sc_areas] are empty where the class has no such item. *)
Record srcsa := mk_srcsa {
  sc_alpha : alphabet;
  sc_psi : psi_core;
  sc_rate : nat;
  sc_samples : list nat;
  sc_marks : list bool;
  sc_links : list nat;
  sc_idx : list bool;
  sc_cum : list nat;
  sc_valid : list bool;
  sc_areas : list nat
}.
Definition set_validity (ix : srcsa) (valid : list bool) (areas : list nat) : srcsa :=
  mk_srcsa (sc_alpha ix) (sc_psi ix) (sc_rate ix) (sc_samples ix) (sc_marks ix) (sc_links ix) (sc_idx ix)
           (sc_cum ix) valid areas.

(** SrCSA: sr_csa.h:796-828 construct, 1151-1166 constructSubsamplingBackwardSamplesPosition *)
Definition construct_srcsa_of (s : nat) (c : base_items * psi_core * sri_files * list nat * list bool) : option srcsa :=
  let '(b, pc, f, _, bv_marks) := c in
  pos <- mmap (nth_error (br_first (bi_runs_files b))) (sf_idx f) ;;
  bv_pos <- construct_bit_vector pos (length (bi_bwt_text b)) false ;;
  Some (mk_srcsa (bi_alpha b) pc s (sf_samples f) bv_marks (sf_links f) bv_pos [] [] []).
Definition construct_srcsa (s dens : nat) (data sa : list nat) : option srcsa :=
  c <- construct_srcsa_commons s dens data sa ;; construct_srcsa_of s c.

(** Running sums: the pushed values of n_runs (sr_csa.h:1078-1081, sr_csa_psi.h:718-721). *)
Fixpoint running_sums (acc : nat) (l : list nat) : list nat :=
  match l with
  | [] => []
  | x :: t => (acc + x) :: running_sums (acc + x) t
  end.
(** sr_csa.h:1052-1087 constructSamplesSortedByAlphabet; [starts] is the file of run starts. *)
Definition samples_sorted_by_alphabet (pc : psi_core) (starts : list nat) : option (list nat * list nat) :=
  runs <- mmap (pc_traverse pc) (seq 0 (length (pc_partial pc))) ;;
  Some (concat (map (map (fun p => lower_bound starts (fst p))) runs), running_sums 0 (map (@length _) runs)).

(** The loop of sr_csa.h:1118-1129.  State: i, c_subsamples, subsamples_sorted, subsamples_idx_sorted,
    subsamples_idx_to_sorted. *)
Definition sorted_state := (nat * nat * list nat * list nat * list nat)%type.
Definition sorted_step (bv : list bool) (subsamples : list nat) (st : sorted_state) (idx : nat) : option sorted_state :=
  let '(i, c, sub, idxs, to_sorted) := st in
  bit <- nth_error bv idx ;;
  if bit : bool then
    rnk <- bv_rank bv idx ;;
    x <- nth_error subsamples rnk ;;
    to_sorted <- list_set to_sorted rnk c ;;
    Some (S i, S c, sub ++ [x], idxs ++ [i], to_sorted)
  else Some (S i, c, sub, idxs, to_sorted).
(** sr_csa.h:1089-1149 constructSubsamplingBackwardSamplesSortedByAlphabet.  Result: sorted subsamples,
    their indices, and the links through the new order. *)
Definition subsamples_sorted_by_alphabet (samples_idx_sorted : list nat) (f : sri_files)
  : option (list nat * list nat * list nat) :=
  bv <- construct_bit_vector (sf_idx f) (length samples_idx_sorted) false ;;
  '(_, _, sub, idxs, to_sorted) <-
    mfold (sorted_step bv (sf_samples f)) samples_idx_sorted (0, 0, [], [], repeat 0 (length (sf_idx f))) ;;
  links <- mmap (nth_error to_sorted) (sf_links f) ;;
  Some (sub, idxs, links).
(** SrCSASlim: sr_csa.h:753-792 construct *)
Definition construct_srcsa_slim_of (s : nat) (c : base_items * psi_core * sri_files * list nat * list bool) : option srcsa :=
  let '(b, pc, f, _, bv_marks) := c in
  '(sorted, cum) <- samples_sorted_by_alphabet pc (br_first (bi_runs_files b)) ;;
  '(sub, idxs, links) <- subsamples_sorted_by_alphabet sorted f ;;
  bv_idx <- construct_bit_vector idxs (length (br_first (bi_runs_files b))) false ;;
  Some (mk_srcsa (bi_alpha b) pc s sub bv_marks links bv_idx cum [] []).
Definition construct_srcsa_slim (s dens : nat) (data sa : list nat) : option srcsa :=
  c <- construct_srcsa_commons s dens data sa ;; construct_srcsa_slim_of s c.

(** sr_csa.h:1168-1219 constructSubsamplingBackwardMarksValidity and sr_csa_psi.h:760-802
    constructSubmarksValidity: marks and sub-sampled marks are read from the last to the first, and the
    results are stored in reverse. *)
Definition construct_validity_backward (sorted_marks submarks : list nat) : option (list nat * list nat) :=
  v <- compute_submarks_validity (rev sorted_marks) (rev (std_sort Nat.ltb submarks)) ;;
  let r_prime := length submarks in
  Some (rev (map (fun '(i, _, _) => r_prime - i - 1) v), rev (map (fun '(_, x, y) => sub64 x y) v)).
(** sr_csa.h:832-874 construct of SrCSAValidMark and SrCSAValidArea, over SrCSA or SrCSASlim *)
Definition construct_srcsa_valid_of (make : nat -> base_items * psi_core * sri_files * list nat * list bool -> option srcsa)
  (s dens : nat) (data sa : list nat) : option srcsa :=
  c <- construct_srcsa_commons s dens data sa ;;
  ix <- make s c ;;
  let '(b, _, f, sorted_marks_idx, _) := c in
  sorted_marks <- mmap (nth_error (br_last_text (bi_runs_files b))) sorted_marks_idx ;;
  '(valid, areas) <- construct_validity_backward sorted_marks (sf_marks f) ;;
  bv_valid <- construct_bit_vector valid (length (sf_samples f)) true ;;
  Some (set_validity ix bv_valid areas).
Definition construct_srcsa_valid : nat -> nat -> list nat -> list nat -> option srcsa :=
  construct_srcsa_valid_of construct_srcsa_of.
Definition construct_srcsa_slim_valid : nat -> nat -> list nat -> list nat -> option srcsa :=
  construct_srcsa_valid_of construct_srcsa_slim_of.

(** SrCSAWithPsiRun: r_csa.h:623-677 and sr_csa_psi.h:474-533 constructItems, 703-725
    constructCumulativeCountsWithPsiRuns.  Second component: the text positions of the tails, and the
    files of the subsampling. *)
Definition construct_srcsa_psi_of (s dens : nat) (data sa : list nat) : option (srcsa * (list nat * sri_files)) :=
  b <- construct_base data sa ;;
  pc <- construct_psi_core dens b ;;
  '(heads, tails) <- construct_psi_run_files b ;;
  full_marks <- construct_bit_vector tails (length (bi_bwt_text b)) false ;;
  '(_, links) <- construct_links_forward_psi tails ;;
  '(idx, samples) <- construct_subsamples_backward s heads links ;;
  to_mark <- sample_to_mark_psi (length heads) idx ;;
  '(marks, sub_links) <- construct_submarks_of tails to_mark ;;
  bv_marks <- construct_bit_vector marks (length (bi_bwt_text b)) false ;;
  bv_idx <- construct_bit_vector idx (length heads) false ;;
  counts <- mmap (pc_count_runs pc) (seq 0 (length (pc_partial pc))) ;;
  Some (mk_srcsa (bi_alpha b) pc s samples bv_marks sub_links bv_idx (running_sums 0 counts) [] [],
        (tails, mk_sri_files idx samples marks sub_links)).
Definition construct_srcsa_psi (s dens : nat) (data sa : list nat) : option srcsa :=
  '(ix, _) <- construct_srcsa_psi_of s dens data sa ;; Some ix.
(** SRCSAValidMark and SRCSAValidArea: sr_csa_psi.h:729-758 and 804-828 constructItems *)
Definition construct_srcsa_psi_valid (s dens : nat) (data sa : list nat) : option srcsa :=
  '(ix, (tails, f)) <- construct_srcsa_psi_of s dens data sa ;;
  '(valid, areas) <- construct_validity_backward (std_sort Nat.ltb tails) (sf_marks f) ;;
  bv_valid <- construct_bit_vector valid (length (sf_marks f)) true ;;
  Some (set_validity ix bv_valid areas).

(** * Queries *)

(** sr_csa.h:100-106: the next symbols of constructSplitRunInBWTRuns; [C] the cumulative counts. *)
Fixpoint split_run_more (fuel : nat) (C : list nat) (pc : psi_core) (c cum_next_c last : nat) : option (list run_piece) :=
  if cum_next_c <? last then
    match fuel with
    | 0 => None
    | S f =>
        let c := S c in
        let cum_c := cum_next_c in
        cum_next_c <- nth_error C (c + 1) ;;
        ps <- pc_forward_runs pc c 1 (Nat.min last cum_next_c - cum_c + 1) ;;
        rest <- split_run_more f C pc c cum_next_c last ;;
        Some (ps ++ rest)
    end
  else Some [].
(** sr_csa.h:79-110 constructSplitRunInBWTRuns (and sr_csa_psi.h:235-266): the rows Psi of first..last-1 *)
Definition csa_split_run (C : list nat) (pc : psi_core) (first last : nat) : option (list run_piece) :=
  c <- compute_c C first ;;
  cum_c <- nth_error C c ;;
  cum_next_c <- nth_error C (c + 1) ;;
  ps <- pc_forward_runs pc c (first - cum_c + 1) (Nat.min last cum_next_c - cum_c + 1) ;;
  rest <- split_run_more (length C) C pc c cum_next_c last ;;
  Some (ps ++ rest).

(** A range engine: PhiForwardForRange over phi, or PhiForwardForRangeWithValidity. *)
Definition fwd_range {Run} (valid : bool) (get_sample : Run -> option (option nat))
  (split_range : range -> option (list Run)) (split_run : Run -> option (list Run)) (rate n : nat)
  (update_run : Run -> Run) (is_run_empty : Run -> bool) (phi : nat -> option (nat * bool))
  : range -> nat -> option (list nat) :=
  if valid then pfv_range get_sample split_range split_run rate n range_empty update_run is_run_empty (n + 2) phi (S rate)
  else pf_range (fun v => '(x, _) <- phi v ;; Some x) get_sample split_range split_run rate n range_empty update_run
         is_run_empty (n + 2) (S rate).

(** ** SrCSA *)
(** sr_csa.h:476-488 constructGetSample; outer [None] = out-of-range access *)
Definition srcsa_get_sample (ix : srcsa) (pos : nat) : option (option nat) :=
  bit <- nth_error (sc_idx ix) pos ;;
  if bit : bool then
    i <- bv_rank (sc_idx ix) pos ;;
    x <- nth_error (sc_samples ix) i ;;
    Some (Some x)
  else Some None.
(** sr_csa.h:530-536: the pieces up to the i-th sampled position, for the given i *)
Fixpoint split_at_samples (bv : list bool) (run_start : nat) (is : list nat) (last : nat) : option (list range) :=
  match is with
  | [] => Some [(run_start, last)]
  | i :: is =>
      run_end <- bv_select bv i ;;
      rest <- split_at_samples bv run_end is last ;;
      Some ((run_start, run_end) :: rest)
  end.
(** sr_csa.h:520-542 constructSplitRangeInBWTRuns *)
Definition srcsa_split_range (bv : list bool) (r : range) : option (list range) :=
  x <- bv_rank bv (fst r + 1) ;;
  last_rank <- bv_rank bv (snd r) ;;
  let first_rank := x + 1 in
  split_at_samples bv (fst r) (seq first_rank (last_rank + 1 - first_rank)) (snd r).
(** sr_csa.h:503-506, 516-518, 544-546: Run keeps the positions only *)
Definition srcsa_split_run (ix : srcsa) (r : range) : option (list range) :=
  ps <- csa_split_run (al_C (sc_alpha ix)) (sc_psi ix) (fst r) (snd r) ;;
  Some (map (fun p => (pi_first p, pi_last p)) ps).
(** sr_csa.h:548-562 constructPsiForRunData *)
Definition srcsa_psi (ix : srcsa) (pos : nat) : option nat := core_psi_fn (sc_alpha ix) (sc_psi ix) pos.
(** sr_csa.h:150-154 constructComputeToehold.  More than the subsampling rate jumps give [None]. *)
Definition srcsa_toehold (ix : srcsa) (n : nat) : step_data nat -> option nat :=
  compute_toehold (compute_sa_value (sc_rate ix) (srcsa_get_sample ix) (srcsa_psi ix) n false 0) n.
(** sr_csa.h:438-474 constructIndex with a phi for ranges; update_run and is_run_empty at 508-514 *)
Definition srcsa_locate_with (valid : bool) (phi : srcsa -> nat -> nat -> option (nat * bool)) (ix : srcsa)
  : list nat -> option (list nat) :=
  csa_locate (sc_alpha ix) (sc_psi ix) bwt_create 0
    (fun n => compute_all_values
      (fwd_range valid (fun r : range => srcsa_get_sample ix (fst r)) (srcsa_split_range (sc_idx ix))
         (srcsa_split_run ix) (sc_rate ix) n csa_update_range range_empty (phi ix n))
      (srcsa_toehold ix n) csa_update_range).
Definition srcsa_count (ix : srcsa) : list nat -> option range := csa_count (sc_alpha ix) (sc_psi ix).

(** Phi of the classes.  Plain (sr_csa.h:116-135, sr_csa_psi.h:193-209): links without validity. *)
Definition phi_plain (ix : srcsa) (n : nat) : nat -> option (nat * bool) :=
  csa_phi n (sc_marks ix) (sc_samples ix) (links_default (sc_links ix) false) sample_validator_default.
(** ValidMark (sr_csa.h:633-663, sr_csa_psi.h:354-371) *)
Definition phi_valid_mark (ix : srcsa) (n : nat) : nat -> option (nat * bool) :=
  csa_phi n (sc_marks ix) (sc_samples ix) (links_validity (sc_links ix) (sc_valid ix)) sample_validator_default.
(** ValidArea (sr_csa.h:734-743, sr_csa_psi.h:452-459) *)
Definition phi_valid_area (ix : srcsa) (n : nat) : nat -> option (nat * bool) :=
  csa_phi n (sc_marks ix) (sc_samples ix) (links_validity (sc_links ix) (sc_valid ix))
    (sample_validator (bv_rank0 (sc_valid ix)) (nth_error (sc_areas ix))).
Definition srcsa_locate : srcsa -> list nat -> option (list nat) := srcsa_locate_with false phi_plain.
Definition srcsa_vm_locate : srcsa -> list nat -> option (list nat) := srcsa_locate_with true phi_valid_mark.
Definition srcsa_va_locate : srcsa -> list nat -> option (list nat) := srcsa_locate_with true phi_valid_area.

(** ** SrCSASlim and the indexes over Psi runs (the same text in sr_csa_psi.h) *)
(** sr_csa.h:265-272 RunDataExt (sr_csa_psi.h:123-126) *)
Record psi_data := mk_psi_data { pd_pos : nat; pd_c : nat; pd_rank : nat; pd_start : bool }.
(** sr_csa.h:245-249 (sr_csa_psi.h:103-109) *)
Definition slim_create (r : range) (c : nat) (next : range_psi) : psi_data :=
  mk_psi_data (dp_start (fst next)) c (dp_rank (fst next)) (negb (fst r =? dp_start (fst next))).
(** sr_csa.h:277-296 constructGetSample (sr_csa_psi.h:139-161) *)
Definition slim_get_sample (ix : srcsa) (c partial_rank : nat) (is_run_start : bool) : option (option nat) :=
  if negb is_run_start then Some None
  else
    cc <- (if 0 <? c then nth_error (sc_cum ix) (c - 1) else Some 0) ;;
    let idx := cc + partial_rank in
    bit <- nth_error (sc_idx ix) idx ;;
    if bit : bool then
      i <- bv_rank (sc_idx ix) idx ;;
      x <- nth_error (sc_samples ix) i ;;
      Some (Some x)
    else Some None.
(** sr_csa.h:305-342 Run: the fields of [run_piece]; update_run and is_run_empty (sr_csa_psi.h:170-191) *)
Definition piece_update (p : run_piece) : run_piece :=
  mk_piece (S (pi_first p)) (pi_last p) (pi_c p) (pi_run p) false.
Definition piece_empty (p : run_piece) : bool := negb (pi_first p <? pi_last p).
(** sr_csa.h:358-376 constructPsiForRunData (sr_csa_psi.h:268-286) *)
Definition slim_psi (ix : srcsa) (d : psi_data) : option psi_data :=
  psi_fn (fun c rnk => '(pos, run_start, _, run_rank) <- pc_select_report (sc_psi ix) c rnk ;;
                       Some (mk_psi_data pos c run_rank (pos =? run_start)))
         (al_C (sc_alpha ix)) (pd_pos d).
(** sr_csa.h:150-154 (sr_csa_psi.h:130-136).  Jumps: the subsampling rate, and one when the rate is 0. *)
Definition slim_toehold (ix : srcsa) (n : nat) : step_data psi_data -> option nat :=
  compute_toehold (compute_sa_value (Nat.max 1 (sc_rate ix))
                     (fun d => slim_get_sample ix (pd_c d) (pd_rank d) (pd_start d)) (slim_psi ix) n false 0) n.
(** sr_csa.h:240-261 (sr_csa_psi.h:97-119) constructIndex *)
Definition slim_locate_with (valid : bool) (phi : srcsa -> nat -> nat -> option (nat * bool)) (ix : srcsa)
  : list nat -> option (list nat) :=
  csa_locate (sc_alpha ix) (sc_psi ix) slim_create (mk_psi_data 0 0 0 false)
    (fun n => compute_all_values
      (fwd_range valid (fun p => slim_get_sample ix (pi_c p) (pi_run p) (pi_is_first p))
         (fun r : range => pc_split_in_sorted_runs (sc_psi ix) (fst r) (snd r))
         (fun p => csa_split_run (al_C (sc_alpha ix)) (sc_psi ix) (pi_first p) (pi_last p))
         (sc_rate ix) n piece_update piece_empty (phi ix n))
      (slim_toehold ix n) csa_update_range).
Definition slim_locate : srcsa -> list nat -> option (list nat) := slim_locate_with false phi_plain.
Definition slim_vm_locate : srcsa -> list nat -> option (list nat) := slim_locate_with true phi_valid_mark.
Definition slim_va_locate : srcsa -> list nat -> option (list nat) := slim_locate_with true phi_valid_area.
