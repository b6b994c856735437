(** Model of the subsampling (sampling.h) and of SrIndex, SrIndexValidMark and SrIndexValidArea
    (sr_index.h). *)
From Coq Require Import List Arith Bool.
From Verif Require Import MBase MRle MConstruct MPhi MRIndex.
Import ListNotations.

(** std::find(...) != end *)
Definition contains (x : nat) (l : list nat) : bool := existsb (Nat.eqb x) l.

(** sampling.h:34-45: the loop of computeSampling followed by the last emplace_back (47). *)
Fixpoint sampling_loop (s : nat) (values req : list nat) (prev_idx prev last : nat)
  (rest : list nat) : option (list nat) :=
  match rest with
  | [] => Some [prev_idx]
  | curr_idx :: rest' =>
      curr <- nth_error values curr_idx ;;
      if (s <? (if curr <? last then last - curr else curr - last)) || contains prev_idx req
      then r <- sampling_loop s values req curr_idx curr prev rest' ;; Some (prev_idx :: r)
      else sampling_loop s values req curr_idx curr last rest'
  end.
(** sampling.h:15-50 computeSampling *)
Definition compute_sampling (s : nat) (idxs values req : list nat) : option (list nat) :=
  match idxs with
  | [] => Some []
  | first_idx :: rest =>
      last <- nth_error values first_idx ;;
      match rest with
      | [] => Some [first_idx]
      | prev_idx :: rest' =>
          prev <- nth_error values prev_idx ;;
          r <- sampling_loop s values req prev_idx prev last rest' ;; Some (first_idx :: r)
      end
  end.

(** Files of the subsampling (sr_index.h:486-542). *)
Record sri_files := mk_sri_files {
  sf_idx : list nat;       (* <s>_KEY_BWT_RUN_LAST_IDX: sub-sampled runs *)
  sf_samples : list nat;   (* <s>_KEY_BWT_RUN_LAST_TEXT_POS *)
  sf_marks : list nat;     (* <s>_KEY_BWT_RUN_FIRST_TEXT_POS_BY_LAST *)
  sf_links : list nat      (* <s>_KEY_BWT_RUN_FIRST_TEXT_POS_SORTED_TO_LAST_IDX *)
}.
(** sr_index.h:573-620 constructSubsamplingForwardSamplesForPhiBackward; [links] are the full
    mark-to-sample links.  [None] on an empty link file (size - 1 at 592). *)
Definition construct_subsamples (s : nat) (samples links : list nat) : option (list nat * list nat) :=
  req0 <- nth_error links 0 ;;
  req1 <- nth_error links (length links - 1) ;;
  vec <- compute_sampling s (sort_indices samples) samples [req0; req1] ;;
  let idx := std_sort Nat.ltb vec in
  sub <- mmap (nth_error samples) idx ;;
  Some (idx, sub).
(** sr_index.h:622-685 computeSampleToMarkLinksForPhiBackward and
    constructSubsamplingForwardMarksForPhiBackward *)
Definition construct_submarks (idx marks : list nat) (r : nat) : option (list nat * list nat) :=
  to_mark <- mmap (fun i => umod (i + 1) r) idx ;;
  sub <- mmap (nth_error marks) to_mark ;;
  Some (sub, sort_indices sub).
Definition construct_sri_files (s : nat) (runs : bwt_runs) (links : list nat) : option sri_files :=
  '(idx, samples) <- construct_subsamples s (br_last_text runs) links ;;
  '(marks, sub_links) <- construct_submarks idx (br_first_text runs) (length (br_first runs)) ;;
  Some (mk_sri_files idx samples marks sub_links).

(** construct.h:258-280 computeSubmarksValidity: the calls of t_report (i, submark, next_mark), in
    order.  State of the mark and submark iterators: the marks and submarks not read yet. *)
Fixpoint skip_marks (marks : list nat) (next_mark next_submark : nat) : option (list nat) :=
  if next_mark =? next_submark then Some marks
  else match marks with
       | [] => None
       | m :: rest => skip_marks rest m next_submark
       end.
Fixpoint submarks_validity_loop (i : nat) (marks : list nat) (submark : nat) (submarks : list nat)
  : option (list (nat * nat * nat)) :=
  match submarks with
  | [] => Some []
  | next_submark :: submarks' =>
      match marks with
      | [] => None
      | next_mark :: marks' =>
          if negb (next_mark =? next_submark) then
            (* do { next_mark = get_next_mark(); } while (next_mark != next_submark); *)
            match marks' with
            | [] => None
            | m :: marks'' =>
                rest_marks <- skip_marks marks'' m next_submark ;;
                r <- submarks_validity_loop (S i) rest_marks next_submark submarks' ;;
                Some ((i, submark, next_mark) :: r)
            end
          else submarks_validity_loop (S i) marks' next_submark submarks'
      end
  end.
Definition compute_submarks_validity (marks submarks : list nat) : option (list (nat * nat * nat)) :=
  match marks, submarks with
  | _ :: marks', submark :: submarks' => submarks_validity_loop 0 marks' submark submarks'
  | _, _ => None
  end.

(** Items of a loaded SrIndex (sr_index.h:68-86) and of the Valid* variants (284-314, 388-417). *)
Record sri := mk_sri {
  sr_alpha : alphabet;
  sr_bwt : rlestr;
  sr_rate : nat;
  sr_samples : list nat;
  sr_marks : list bool;
  sr_links : list nat;
  sr_samples_idx : list bool;
  sr_valid_marks : list bool;
  sr_valid_areas : list nat
}.

(** sr_index.h:486-542 constructSRI and the load; no validity items. *)
Definition construct_sri_files_of (s : nat) (b : base_items) : option (sri_files * list nat) :=
  '(sorted_marks_idx, links) <- construct_links_backward (br_first_text (bi_runs_files b)) ;;
  f <- construct_sri_files s (bi_runs_files b) links ;;
  Some (f, sorted_marks_idx).
Definition construct_sri (s : nat) (data sa : list nat) : option sri :=
  b <- construct_base data sa ;;
  '(f, _) <- construct_sri_files_of s b ;;
  bv_idx <- construct_bit_vector (sf_idx f) (length (br_last (bi_runs_files b))) false ;;
  bv_marks <- construct_bit_vector (sf_marks f) (length (bi_bwt_text b)) false ;;
  Some (mk_sri (bi_alpha b) (bi_bwt_rle b) s (sf_samples f) bv_marks (sf_links f) bv_idx [] []).

(** sr_index.h:687-739 constructSubsamplingForwardMarksValidity *)
Definition construct_validity (marks sorted_marks_idx submarks : list nat) : option (list nat * list nat) :=
  sorted_marks <- mmap (nth_error marks) sorted_marks_idx ;;
  v <- compute_submarks_validity sorted_marks (std_sort Nat.ltb submarks) ;;
  Some (map (fun '(i, _, _) => i) v, map (fun '(_, x, y) => sub64 y x) v).
(** sr_index.h:546-571 constructSRIValidMark and the load of SrIndexValidMark / SrIndexValidArea *)
Definition construct_sri_valid (s : nat) (data sa : list nat) : option sri :=
  b <- construct_base data sa ;;
  '(f, sorted_marks_idx) <- construct_sri_files_of s b ;;
  bv_idx <- construct_bit_vector (sf_idx f) (length (br_last (bi_runs_files b))) false ;;
  bv_marks <- construct_bit_vector (sf_marks f) (length (bi_bwt_text b)) false ;;
  '(valid, areas) <- construct_validity (br_first_text (bi_runs_files b)) sorted_marks_idx (sf_marks f) ;;
  bv_valid <- construct_bit_vector valid (length (sf_samples f)) true ;;
  Some (mk_sri (bi_alpha b) (bi_bwt_rle b) s (sf_samples f) bv_marks (sf_links f) bv_idx bv_valid areas).

(** sr_index.h:109-116 RunDataExt, and its creation at 120-125 (unsigned next_end.value - 1). *)
Record run_data_ext := mk_run_data_ext { re_c : nat; re_last : nat; re_end : bool; re_next : nat }.
Definition sr_create_data (r : range) (c : nat) (next : range_lf) (step : nat) : step_data run_data_ext :=
  mk_step_data step (mk_run_data_ext c (dl_rank (snd next)) true (sub64 (dl_value (snd next)) 1)).

(** sr_index.h:127-137 constructGetSample; outer [None] = out-of-range access. *)
Definition sr_get_sample (ix : sri) (run : nat) : option (option nat) :=
  is_sampled <- nth_error (sr_samples_idx ix) run ;;
  if is_sampled : bool then
    i <- bv_rank (sr_samples_idx ix) run ;;
    x <- nth_error (sr_samples ix) i ;;
    Some (Some x)
  else Some None.

(** sr_index.h:148-161 lf_run_data *)
Definition sr_lf_run_data (ix : sri) (d : run_data_ext) : option run_data_ext :=
  rep <- rle_rank_report (sr_bwt ix) (re_next d) ;;
  smaller <- nth_error (al_C (sr_alpha ix)) (rr_c rep) ;;
  Some (mk_run_data_ext (rr_c rep) (rr_run_rnk rep) (re_next d =? rr_run_end rep - 1)
                        (smaller + rr_rnk rep)).
(** sr_index.h:143-145 get_sample_run_data *)
Definition sr_get_sample_data (ix : sri) (d : run_data_ext) : option (option nat) :=
  if re_end d then sr_get_sample ix (re_last d) else Some None.
(** sr_index.h:139-169 constructComputeToehold.  The fuel of the navigation is the subsampling
    rate: more jumps give [None]. *)
Definition sr_toehold (ix : sri) (n : nat) : step_data run_data_ext -> option nat :=
  compute_toehold
    (fun d => run <- rle_select_on_runs (sr_bwt ix) (re_last d) (re_c d) ;;
              compute_sa_value (sr_rate ix) (sr_get_sample_data ix) (sr_lf_run_data ix) n true 0
                (mk_run_data_ext (re_c d) run (re_end d) (re_next d)))
    (rle_size (sr_bwt ix)).

(** sr_index.h:171-181 Run *)
Record srun := mk_srun { su_start : nat; su_end : nat; su_c : nat; su_rnk : nat; su_is_end : bool }.
(** sr_index.h:187-192: runs.front().start = first, runs.back().end = last *)
Definition set_front (first : nat) (l : list srun) : option (list srun) :=
  match l with
  | [] => None
  | r :: t => Some (mk_srun first (su_end r) (su_c r) (su_rnk r) (su_is_end r) :: t)
  end.
Fixpoint set_back (last : nat) (l : list srun) : option (list srun) :=
  match l with
  | [] => None
  | [r] => Some [mk_srun (su_start r) last (su_c r) (su_rnk r) (su_is_end r)]
  | r :: t => t' <- set_back last t ;; Some (r :: t')
  end.
(** sr_index.h:183-195 constructSplitInBWTRuns *)
Definition sr_split (s : rlestr) (first last : nat) : option (list srun) :=
  rs <- rle_split_in_runs s first last ;;
  let runs := map (fun d => mk_srun (rd_start d) (rd_end d) (rd_c d) (rd_rnk d) (rd_end d <=? last)) rs in
  runs <- set_front first runs ;;
  set_back last runs.
(** sr_index.h:197-217 constructLFForPhi *)
Definition sr_lf_for_phi (al : alphabet) (s : rlestr) (r : srun) : option srun :=
  before_sp <- rle_rank s (su_start r) (su_c r) ;;
  until_ep <- rle_rank s (su_end r) (su_c r) ;;
  smaller_c <- nth_error (al_C al) (su_c r) ;;
  Some (mk_srun (before_sp + smaller_c) (until_ep + smaller_c) 0 0 false).
(** sr_index.h:222-223 get_sample_run *)
Definition sr_get_sample_run (ix : sri) (r : srun) : option (option nat) :=
  if su_is_end r then sr_get_sample ix (su_rnk r) else Some None.
(** sr_index.h:229-233 update_run, is_run_empty *)
Definition srun_update (r : srun) : srun :=
  mk_srun (su_start r) (su_end r - 1) (su_c r) (su_rnk r) false.
Definition srun_empty (r : srun) : bool := negb (su_start r <? su_end r).

(** sr_index.h:219-245 constructPhiForRange.  Fuel: rate + 1 nested levels, and n + 2 iterations
    of the inner loops. *)
Definition sr_phi_for_range (ix : sri) (n : nat) (phi : nat -> option (nat * bool))
  : range -> nat -> option (list nat) :=
  pb_range (fun v => '(x, _) <- phi v ;; Some x) (sr_get_sample_run ix)
    (fun r : range => sr_split (sr_bwt ix) (fst r) (snd r))
    (fun r => sr_split (sr_bwt ix) (su_start r) (su_end r))
    (sr_lf_for_phi (sr_alpha ix) (sr_bwt ix)) (sr_rate ix) n range_empty srun_update srun_empty
    (n + 2) (S (sr_rate ix)).
(** sr_index.h:322-348 constructPhiForRange of SrIndexValidMark *)
Definition sr_phi_for_range_valid (ix : sri) (n : nat) (phi : nat -> option (nat * bool))
  : range -> nat -> option (list nat) :=
  pbv_range (sr_get_sample_run ix)
    (fun r : range => sr_split (sr_bwt ix) (fst r) (snd r))
    (fun r => sr_split (sr_bwt ix) (su_start r) (su_end r))
    (sr_lf_for_phi (sr_alpha ix) (sr_bwt ix)) (sr_rate ix) n range_empty srun_update srun_empty
    (n + 2) phi (S (sr_rate ix)).

(** tools.h:60-73 RandomAccessForTwoContainers *)
Definition links_validity (links : list nat) (valid : list bool) (pos : nat) : option (nat * bool) :=
  l <- nth_error links pos ;; v <- nth_error valid pos ;; Some (l, v).

(** sr_index.h:93-105 constructIndex with a phi for ranges. *)
Definition sr_locate (ix : sri) (phi_range : nat -> range -> nat -> option (list nat)) (pattern : list nat)
  : option (list nat) :=
  n <- al_size (sr_alpha ix) ;;
  engine_locate (ri_lf (sr_alpha ix) (sr_bwt ix)) range_of_lf
    (compute_step_data ri_lf_trivial sr_create_data)
    (compute_all_values (phi_range n) (sr_toehold ix n) ri_update_range)
    n (mk_step_data 0 (mk_run_data_ext 0 0 false 0)) (al_symbol (sr_alpha ix)) (fun n => (0, n)) range_empty
    pattern.
Definition sr_count (ix : sri) (pattern : list nat) : option range :=
  n <- al_size (sr_alpha ix) ;;
  engine_count (ri_lf (sr_alpha ix) (sr_bwt ix)) range_of_lf n (al_symbol (sr_alpha ix))
    (fun n => (0, n)) range_empty pattern.

(** SrIndex: sr_index.h:88-91, 219-221 *)
Definition srindex_locate (ix : sri) : list nat -> option (list nat) :=
  sr_locate ix (fun n => sr_phi_for_range ix n
    (ri_phi n (sr_marks ix) (sr_samples ix) (links_default (sr_links ix) true) sample_validator_default)).
(** SrIndexValidMark: sr_index.h:304-320 *)
Definition srindex_vm_locate (ix : sri) : list nat -> option (list nat) :=
  sr_locate ix (fun n => sr_phi_for_range_valid ix n
    (ri_phi n (sr_marks ix) (sr_samples ix) (links_validity (sr_links ix) (sr_valid_marks ix))
            sample_validator_default)).
(** SrIndexValidArea: sr_index.h:405-436 *)
Definition srindex_va_locate (ix : sri) : list nat -> option (list nat) :=
  sr_locate ix (fun n => sr_phi_for_range_valid ix n
    (ri_phi n (sr_marks ix) (sr_samples ix) (links_validity (sr_links ix) (sr_valid_marks ix))
            (sample_validator (bv_rank0 (sr_valid_marks ix)) (nth_error (sr_valid_areas ix))))).
