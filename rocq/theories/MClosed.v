(** Model of the toolkit on inclusive ranges: the r-index assembled by buildSharedPtrRIndex (index_base.h) over an
    rle_string BWT, as in benchmark/factory.h and test/*_tests.cpp, and the functors of tools.h, toehold.h and
    phi.h that only this assembly uses. *)
From Coq Require Import List Arith Bool.
From Verif Require Import MBase MRle MConstruct MPhi MRIndex MSrIndex MOldRle MBwt.
Import ListNotations.

(** phi.h:358, 365, index_base.h:306-307: the empty inclusive range. *)
Definition closed_empty (r : nat * nat) : bool := snd r <? fst r.

(** * F table *)
(** bm_build_ri_items.cpp:119 ++f[symbol + 1] on a table of 256 entries; [None]: out of the table. *)
Definition f_count (f : list nat) (symbol : nat) : option (list nat) :=
  x <- nth_error f (symbol + 1) ;; list_set f (symbol + 1) (x + 1).
(** bm_build_ri_items.cpp:176-178 f[i] += f[i - 1] *)
Fixpoint f_sums (acc : nat) (f : list nat) : list nat :=
  match f with
  | [] => []
  | x :: r => (acc + x) :: f_sums (acc + x) r
  end.
(** bm_build_ri_items.cpp:101, 114-120 and 175-178 *)
Definition f_table (bwt : list nat) : option (list nat) :=
  f <- mfold f_count bwt (repeat 0 256) ;; Some (f_sums 0 f).

(** * Components *)
(** benchmark/factory.h:345-373: the BWT as an rle_string, F, and the arrays of a sampling. *)
Record cix := mk_cix {
  cx_bwt : oldrle;
  cx_f : list nat;
  cx_rate : nat;
  cx_samples : list nat;       (* tails_in_text *)
  cx_idx : list bool;          (* sampled_tails_idx_bv *)
  cx_marks : list bool;        (* heads_in_text_bv *)
  cx_links : list nat;         (* tail_idxs_by_heads_in_text *)
  cx_valid : list bool;        (* marked_sampled_idxs_bv *)
  cx_areas : list nat          (* head_marked_sample_trusted_areas *)
}.
Definition cx_size (x : cix) : nat := old_size (cx_bwt x).

(** bm_build_ri_items.cpp:205-210: the terminator becomes the byte 1 in the rle_string. *)
Definition replace_zero (c : nat) : nat := if c =? 0 then 1 else c.

(** bm_build_ri_items.cpp: the BWT items; for the arrays of the sampling, the ones that the library builds
    (construct_sri_valid, MSrIndex.v), which have the same contents as those of bm_build_ri_items.cpp but for
    the trusted areas (MItems.v, ItemsEnd.v: closed_parts, factory_ok).
    [b]: the block size of the rle_string. *)
Definition construct_closed (b s : nat) (data sa : list nat) : option cix :=
  base <- construct_base data sa ;;
  ix <- construct_sri_valid s data sa ;;
  bwt <- old_construct b (map replace_zero (bi_bwt_text base)) ;;
  f <- f_table (bi_bwt_text base) ;;
  Some (mk_cix bwt f (sr_rate ix) (sr_samples ix) (sr_samples_idx ix) (sr_marks ix) (sr_links ix)
          (sr_valid_marks ix) (sr_valid_areas ix)).

(** * Functors *)
(** factory.h:111-117 makeLF: buildLF over RankOfChar (tools.h:160-171) and the F table, max_c = f.size() - 1. *)
Definition cx_lf (x : cix) : nat * nat -> nat -> option (nat * nat) :=
  lf_on_bwt (old_rank (cx_bwt x)) (nth_error (cx_f x)) (cx_size x) (length (cx_f x) - 1).
(** factory.h:201-204: buildBasicLF *)
Definition cx_basic_lf (x : cix) : nat -> option nat :=
  basic_lf (old_access (cx_bwt x)) (old_rank (cx_bwt x)) (nth_error (cx_f x)).
(** tools.h:196-211 GetSampleForBWTRun *)
Definition sample_for_bwt_run (idx : list bool) (samples : list nat) (run : nat) : option nat :=
  k <- bv_rank idx run ;; nth_error samples k.
(** tools.h:218-241 GetSampleForSAPosition *)
Definition sample_for_sa_position (run_of : nat -> option (nat * nat)) (is_sampled : nat -> option bool)
  (sample_of_run : nat -> option nat) (pos : nat) : option (option nat) :=
  '(run, last) <- run_of pos ;;
  if negb (pos =? last) then Some None
  else b <- is_sampled run ;;
       if negb b then Some None else v <- sample_of_run run ;; Some (Some v).
(** factory.h:119-132 makeGetSampleForSAPosition *)
Definition cx_sample_at (x : cix) : nat -> option (option nat) :=
  sample_for_sa_position (old_run_of (cx_bwt x)) (nth_error (cx_idx x)) (sample_for_bwt_run (cx_idx x) (cx_samples x)).

(** * Simple engine *)
(** phi.h:343-377 buildPhiForRangeSimple *)
Definition simple_update (r : string_run) : string_run :=
  mk_string_run (sr_run r) (sr_c r) (fst (sr_range r), sub64 (snd (sr_range r)) 1).
Definition simple_navigate (lf : nat * nat -> nat -> option (nat * nat)) (r : string_run) : option string_run :=
  rng <- lf (sr_range r) (sr_c r) ;; Some (mk_string_run (sr_run r) (sr_c r) rng).
Definition phi_for_range_simple (phi : nat -> option (nat * bool)) (split : nat * nat -> option (list string_run))
  (lf : nat * nat -> nat -> option (nat * nat)) (sample_at : nat -> option (option nat)) (sampling_size bwt_size : nat)
  : nat * nat -> nat -> option (list nat) :=
  pb_range (fun v => '(k, _) <- phi v ;; Some k) (fun r => sample_at (snd (sr_range r))) split
    (fun r => split (sr_range r)) (simple_navigate lf) sampling_size bwt_size closed_empty simple_update
    (fun r => closed_empty (sr_range r)) (bwt_size + 2) (S sampling_size).

(** * Original engine with validity *)
Section Original.
  (** phi.h:459-548 PhiBackwardForRangeWithValidityOriginal *)
  Variable phi : nat -> option (nat * bool).
  Variable split : nat * nat -> option (list string_run).
  Variable lf : nat * nat -> nat -> option (nat * nat).
  Variable sample_at : nat -> option (option nat).
  Variables sampling_size bwt_size : nat.
  (** Bound on the iterations of the loops; [None] when exceeded. *)
  Variable loop_fuel : nat.

  (** phi.h:496-501: do { report; phi; --last } while (first <= last) *)
  Fixpoint po_phi_loop (fuel first last value : nat) : out (nat * bool) :=
    match fuel with
    | 0 => None
    | S f =>
        vv <- phi value ;;
        let last := sub64 last 1 in
        if first <=? last then '(p, o) <- po_phi_loop f first last (fst vv) ;; Some (p, value :: o)
        else Some (vv, [value])
    end.
  (** phi.h:509-514: while (first <= last && last_value.second) *)
  Fixpoint po_valid_loop (fuel first last : nat) (vv : nat * bool) : out (nat * (nat * bool)) :=
    if (first <=? last) && snd vv then
      match fuel with
      | 0 => None
      | S f =>
          vv' <- phi (fst vv) ;;
          '(r, o) <- po_valid_loop f first (sub64 last 1) vv' ;; Some (r, fst vv :: o)
      end
    else Some ((last, vv), []).
  (** phi.h:506-526: do { ...; if (last < first) return; sample } while (validity) *)
  Fixpoint po_do_loop (fuel first last n_jumps : nat) (vv : nat * bool) : out (nat * (nat * bool)) :=
    match fuel with
    | 0 => None
    | S f =>
        '((last, vv), o1) <- po_valid_loop loop_fuel first last vv ;;
        if last <? first then Some ((last, vv), o1)
        else
          sample <- sample_at last ;;
          vv <- match sample with
                | Some v => y <- umod (v + 1 + n_jumps) bwt_size ;; Some (y, true)
                | None => Some vv
                end ;;
          if snd vv then '(r, o2) <- po_do_loop f first last n_jumps vv ;; Some (r, o1 ++ o2)
          else Some ((last, vv), o1)
    end.
  (** phi.h:482-538 compute; the fuel bounds the depth of the recursion.  The returned -1 of 491 wraps. *)
  Fixpoint po_compute (fuel : nat) (range : nat * nat) (vv : nat * bool) (n_jumps : nat) {struct fuel} : out (nat * bool) :=
    match fuel with
    | 0 => None
    | S f =>
        let '(first, last) := range in
        if last <? first then Some ((sub64 0 1, false), [])
        else if sampling_size <=? n_jumps then po_phi_loop loop_fuel first last (fst vv)
        else
          '((last, vv), o1) <- po_do_loop loop_fuel first last n_jumps vv ;;
          if last <? first then Some (vv, o1)
          else
            runs <- split (first, last) ;;
            match rev runs with
            | [] => None
            | r :: rest =>
                rng <- lf (sr_range r) (sr_c r) ;;
                '(vv, o2) <- po_compute f rng vv (S n_jumps) ;;
                '(vv, o3) <- (fix go (rest : list string_run) (vv : nat * bool) : out (nat * bool) :=
                   match rest with
                   | [] => Some (vv, [])
                   | r :: rest => '(vv, o1) <- po_compute f (sr_range r) vv n_jumps ;;
                                  '(vv, o2) <- go rest vv ;; Some (vv, o1 ++ o2)
                   end) rest vv ;;
                Some (vv, o1 ++ o2 ++ o3)
            end
    end.
  (** phi.h:476-480 operator() *)
  Definition phi_for_range_original (fuel : nat) (range : nat * nat) (prev : nat) : option (list nat) :=
    vv <- phi prev ;;
    '(_, o) <- po_compute fuel range vv 0 ;; Some o.
End Original.

(** * Toehold *)
(** toehold.h:80-93 buildComputeDataBackwardSearchStepForPhiBackward: the run data is (c, end of the range).  The
    data is [None] after a read out of the BWT. *)
Definition closed_lf_trivial (access : nat -> option nat) (range : nat * nat) (c : nat) (next : nat * nat) : option bool :=
  if closed_empty next then Some true
  else x <- access (snd range) ;; Some (x =? c).
Definition closed_create_data (range : nat * nat) (c : nat) (next : nat * nat) (step : nat) : step_data (nat * nat) :=
  mk_step_data step (c, snd range).
Definition closed_step_data (access : nat -> option nat) (range next : nat * nat) (c step : nat)
  (last : option (step_data (nat * nat))) : option (step_data (nat * nat)) :=
  d <- last ;;
  if sd_step d =? 0 then Some (closed_create_data range c next step)
  else b <- closed_lf_trivial access range c next ;;
       Some (compute_step_data (fun _ _ _ => b) closed_create_data range next c step d).
(** toehold.h:33-50 GetInitialDataBackwardSearchStep *)
Definition closed_initial (c range_end step : nat) : step_data (nat * nat) := mk_step_data step (c, range_end).
(** toehold.h:137-155 buildComputeToeholdForPhiBackward *)
Definition closed_toehold (bwt : oldrle) (get_sa_value : nat -> option nat) : step_data (nat * nat) -> option nat :=
  compute_toehold (fun '(c, run_end) =>
    rnk <- old_rank bwt (run_end + 1) c ;;
    _ <- guard (0 <? rnk) ;;
    j <- old_select bwt (rnk - 1) c ;;
    _ <- guard (j <=? run_end) ;;
    get_sa_value j) (old_size bwt).
(** factory.h:199-210 makeComputeAllValuesWithPhiForRange, with phi.h:806-815; the fuel of the walk to a sample is the rate. *)
Definition closed_get_sa_value (x : cix) : nat -> option nat :=
  compute_sa_value (cx_rate x) (cx_sample_at x) (cx_basic_lf x) (cx_size x) true 0.
Definition closed_update_range (r : nat * nat) : nat * nat := (fst r, sub64 (snd r) 1).
Definition closed_compute_all (x : cix) (phi_for_range : nat * nat -> nat -> option (list nat))
  (range : nat * nat) (data : option (step_data (nat * nat))) : option (list nat) :=
  d <- data ;;
  compute_all_values phi_for_range (closed_toehold (cx_bwt x) (closed_get_sa_value x)) closed_update_range range d.

(** * Assemblies *)
(** index_base.h:295-326 buildSharedPtrRIndex: full range (0, n - 1), emptiness second < first; get_symbol of
    factory.h:238 is the byte. *)
Definition closed_full (n : nat) : nat * nat := (0, sub64 n 1).
Definition closed_locate (x : cix) (phi_for_range : nat * nat -> nat -> option (list nat)) (p : list nat)
  : option (list nat) :=
  c <- old_access (cx_bwt x) (cx_size x - 1) ;;
  engine_locate (cx_lf x) (fun r => r) (closed_step_data (old_access (cx_bwt x)))
    (closed_compute_all x phi_for_range) (cx_size x)
    (Some (closed_initial c (cx_size x - 1) (sub64 (length p) 1))) (fun c => Some c) closed_full closed_empty p.
Definition closed_count (x : cix) (p : list nat) : option (nat * nat) :=
  engine_count (cx_lf x) (fun r => r) (cx_size x) (fun c => Some c) closed_full closed_empty p.

(** factory.h:256-273 RIndexSampled *)
Definition closed_simple_locate (x : cix) : list nat -> option (list nat) :=
  closed_locate x (phi_for_range_simple
    (ri_phi (cx_size x) (cx_marks x) (cx_samples x) (links_default (cx_links x) false) sample_validator_default)
    (old_break_in_runs (cx_bwt x)) (cx_lf x) (cx_sample_at x) (cx_rate x) (cx_size x)).
(** factory.h:275-292 RIndexSampledWithTrustedMarks; the fuel 2 rate + 1 of the recursion is shown to suffice. *)
Definition closed_original_locate (x : cix) (validator : nat -> nat -> bool -> option bool) : list nat -> option (list nat) :=
  closed_locate x (phi_for_range_original
    (ri_phi (cx_size x) (cx_marks x) (cx_samples x) (links_validity (cx_links x) (cx_valid x)) validator)
    (old_break_in_runs (cx_bwt x)) (cx_lf x) (cx_sample_at x) (cx_rate x) (cx_size x) (cx_size x + 2)
    (2 * cx_rate x + 1)).
Definition closed_marks_locate (x : cix) : list nat -> option (list nat) :=
  closed_original_locate x sample_validator_default.
(** factory.h:294-315 RIndexSampledWithTrustedAreas *)
Definition closed_areas_locate (x : cix) : list nat -> option (list nat) :=
  closed_original_locate x (sample_validator (bv_rank0 (cx_valid x)) (nth_error (cx_areas x))).

(** * The r-index with all samples *)
(** tools.h:251-308 GetLastValue *)
Definition get_last_value (bwt : oldrle) (sample_at : nat -> option (option nat)) (range next : nat * nat) (c : nat)
  (last_value : option nat) : option (option nat) :=
  if closed_empty next then Some last_value
  else
    x <- old_access bwt (snd range) ;;
    if x =? c then
      match last_value with
      | Some v => _ <- guard (0 <? v) ;; Some (Some (v - 1))
      | None => y <- old_access bwt (snd range + 1) ;;
                if y =? c then Some last_value else sample_at (snd range)
      end
    else
      rnk <- old_rank bwt (snd range) c ;;
      _ <- guard (0 <? rnk) ;;
      j <- old_select bwt (rnk - 1) c ;;
      _ <- guard ((fst range <=? j) && (j <? snd range)) ;;
      sample_at j.
(** factory.h:134-142 makeGetLastValue() *)
Definition all_sample_at (bwt : oldrle) (samples : list nat) : nat -> option (option nat) :=
  sample_for_sa_position (old_run_of bwt) (fun _ => Some true) (nth_error samples).
(** phi.h:754-772 ComputeAllValuesWithPhi: [*t_k] is [None] without a value; one report per row. *)
Fixpoint report_with_phi (phi : nat -> option (nat * bool)) (count k : nat) : option (list nat) :=
  match count with
  | 0 => Some []
  | S m => '(k', _) <- phi k ;; o <- report_with_phi phi m k' ;; Some (k :: o)
  end.
Definition compute_all_with_phi (phi : nat -> option (nat * bool)) (range : nat * nat) (k : option nat) : option (list nat) :=
  k <- k ;; report_with_phi phi (snd range + 1 - fst range) k.

(** The items of the r-index: the BWT and F as above, samples, marks and links of all the runs. *)
Record cri := mk_cri { cr_bwt : oldrle; cr_f : list nat; cr_samples : list nat; cr_marks : list bool; cr_links : list nat }.
Definition construct_cri (b : nat) (data sa : list nat) : option cri :=
  base <- construct_base data sa ;;
  ix <- construct_rindex data sa ;;
  bwt <- old_construct b (map replace_zero (bi_bwt_text base)) ;;
  f <- f_table (bi_bwt_text base) ;;
  Some (mk_cri bwt f (ri_samples ix) (ri_marks ix) (ri_links ix)).
Definition cr_lf (x : cri) : nat * nat -> nat -> option (nat * nat) :=
  lf_on_bwt (old_rank (cr_bwt x)) (nth_error (cr_f x)) (old_size (cr_bwt x)) (length (cr_f x) - 1).
Definition cr_phi (x : cri) : nat -> option (nat * bool) :=
  ri_phi (old_size (cr_bwt x)) (cr_marks x) (cr_samples x) (links_default (cr_links x) true) sample_validator_default.
Definition cr_last_value (x : cri) : nat * nat -> nat * nat -> nat -> option nat -> option (option nat) :=
  get_last_value (cr_bwt x) (all_sample_at (cr_bwt x) (cr_samples x)).
(** tools.h:358-369 GetOptionalValue and factory.h:244-245: the value of the last sample plus one *)
Definition cr_initial (x : cri) : option nat :=
  match nth_error (cr_samples x) (length (cr_samples x) - 1) with Some v => Some (v + 1) | None => None end.
(** factory.h:241-254 with index_base.h:246: Locate calls the functor on the data and does not use the result.  The data
    is paired with a flag that is false after a failed read or assertion of the call. *)
Definition cr_locate (x : cri) (p : list nat) : option (list nat) :=
  engine_locate (cr_lf x) (fun r => r)
    (fun range next c _ '(k, fine) => (k, fine && match cr_last_value x range next c k with Some _ => true | None => false end))
    (fun range '(k, fine) => _ <- guard fine ;; compute_all_with_phi (cr_phi x) range k) (old_size (cr_bwt x))
    (cr_initial x, true) (fun c => Some c) closed_full closed_empty p.
Definition cr_count (x : cri) (p : list nat) : option (nat * nat) :=
  engine_count (cr_lf x) (fun r => r) (old_size (cr_bwt x)) (fun c => Some c) closed_full closed_empty p.
