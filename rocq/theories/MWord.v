(** Queries with the arithmetic of std::size_t: the functions of MPhi.v, MRIndex.v, MSrIndex.v, MCsa.v and MSrCsa.v
    whose sums can exceed the length of the text, with every sum, difference and product modulo 2^64.  The loops
    without such arithmetic, and the sums of LF, Psi and the splits, which are positions of the text, are those of
    the files above.  No proofs. *)
From Coq Require Import List Arith Bool.
From Verif Require Import MBase MRle MConstruct MPhi MRIndex MSrIndex MPsi MCsa MSrCsa.
Import ListNotations.

(** The values of std::size_t (64 bits) are those below [word]. *)
Definition word : nat := 2 ^ 64.
(** Unsigned a + b, a - b and a * b. *)
Definition addw (a b : nat) : nat := (a + b) mod word.
Definition subw (a b : nat) : nat := (a + (word - b mod word)) mod word.
Definition mulw (a b : nat) : nat := (a * b) mod word.

(** sequence_ops.h:18-44 CircularPredecessor: (rank + n_ones - 1) % n_ones *)
Definition w_predecessor (bv : list bool) (size i : nat) : option (nat * nat) :=
  n_ones <- bv_rank bv size ;;
  rnk <- bv_rank bv i ;;
  order <- umod (subw (addw rnk n_ones) 1) n_ones ;;
  value <- bv_select bv (order + 1) ;;
  Some (order, value).
(** phi.h:85-119 PhiBackward *)
Definition w_phi_backward (predecessor : nat -> option (nat * nat))
  (get_sample : nat -> nat -> option (nat * bool)) (size prev : nat) : option (nat * bool) :=
  phi_fn predecessor get_sample
         (fun prev related => if related <? prev then subw prev related else addw prev 1)
         (fun sample delta => umod (addw sample delta) size) prev.
(** phi.h:136-168 PhiForward *)
Definition w_phi_forward (soft_successor : nat -> option (nat * nat))
  (get_sample : nat -> nat -> option (nat * bool)) (size prev : nat) : option (nat * bool) :=
  phi_fn soft_successor get_sample
         (fun prev related => subw related prev)
         (fun sample delta => umod (subw (addw sample size) delta) size) prev.

Section Back.
  (** phi.h:255-341 PhiBackwardForRange and phi.h:561-661 PhiBackwardForRangeWithValidity *)
  Context {Range Run : Type}.
  Variable phi : nat -> option nat.
  Variable get_sample : Run -> option (option nat).
  Variable split_range : Range -> option (list Run).
  Variable split_run : Run -> option (list Run).
  Variable navigate : Run -> option Run.
  Variable sampling_size seq_size : nat.
  Variable is_range_empty : Range -> bool.
  Variable update_run : Run -> Run.
  Variable is_run_empty : Run -> bool.
  Variable loop_fuel : nat.

  (** phi.h:290-327 *)
  Fixpoint wb_runs (fuel : nat) (runs : list Run) (prev level : nat) {struct fuel} : out nat :=
    match fuel with
    | 0 => None
    | S f =>
        (fix go (runs : list Run) (prev : nat) : out nat :=
           match runs with
           | [] => Some (prev, [])
           | run :: rest =>
               sample <- get_sample run ;;
               '(prev, o1, run) <- match sample with
                                   | Some x => v <- umod (addw (addw x 1) level) seq_size ;;
                                               Some (v, [v], update_run run)
                                   | None => Some (prev, [], run)
                                   end ;;
               if is_run_empty run then
                 '(p, o2) <- go rest prev ;; Some (p, o1 ++ o2)
               else
                 run' <- navigate run ;;
                 '(prev, o2) <- (if sampling_size <=? addw level 1
                                 then pb_phi_loop phi update_run is_run_empty loop_fuel run' prev
                                 else runs' <- split_run run' ;; wb_runs f (rev runs') prev (addw level 1)) ;;
                 '(p, o3) <- go rest prev ;; Some (p, o1 ++ o2 ++ o3)
           end) runs prev
    end.
  (** phi.h:281-286 operator() *)
  Definition wb_range (fuel : nat) (range : Range) (prev : nat) : option (list nat) :=
    if is_range_empty range then Some []
    else runs <- split_range range ;;
         '(_, o) <- wb_runs fuel (rev runs) prev 0 ;; Some o.

  Variable phiv : nat -> option (nat * bool).
  (** phi.h:604-621 *)
  Fixpoint wbv_do_loop (fuel : nat) (level : nat) (run : Run) (vv : nat * bool)
    : out (Run * (nat * bool)) :=
    match fuel with
    | 0 => None
    | S f =>
        '((run, vv), o1) <- pbv_valid_loop update_run is_run_empty phiv loop_fuel run vv ;;
        if is_run_empty run then Some ((run, vv), o1)
        else
          sample <- get_sample run ;;
          vv <- match sample with
                | Some x => v <- umod (addw (addw x 1) level) seq_size ;; Some (v, true)
                | None => Some vv
                end ;;
          if snd vv then '(r, o2) <- wbv_do_loop f level run vv ;; Some (r, o1 ++ o2)
          else Some ((run, vv), o1)
    end.
  (** phi.h:598-647 *)
  Fixpoint wbv_runs (fuel : nat) (runs : list Run) (vv : nat * bool) (level : nat) {struct fuel}
    : out (nat * bool) :=
    match fuel with
    | 0 => None
    | S f =>
        (fix go (runs : list Run) (vv : nat * bool) : out (nat * bool) :=
           match runs with
           | [] => Some (vv, [])
           | run :: rest =>
               '((run, vv), o1) <- wbv_do_loop loop_fuel level run vv ;;
               if negb (is_run_empty run) then
                 run' <- navigate run ;;
                 '(vv, o2) <- (if sampling_size <=? addw level 1
                               then pbv_phi_loop update_run is_run_empty phiv loop_fuel run' (fst vv)
                               else runs' <- split_run run' ;; wbv_runs f (rev runs') vv (addw level 1)) ;;
                 '(p, o3) <- go rest vv ;; Some (p, o1 ++ o2 ++ o3)
               else
                 '(p, o3) <- go rest vv ;; Some (p, o1 ++ o3)
           end) runs vv
    end.
  (** phi.h:586-594 operator() *)
  Definition wbv_range (fuel : nat) (range : Range) (prev : nat) : option (list nat) :=
    if is_range_empty range then Some []
    else vv <- phiv prev ;;
         runs <- split_range range ;;
         '(_, o) <- wbv_runs fuel (rev runs) vv 0 ;; Some o.
End Back.

Section Forward.
  (** phi.h:379-457 PhiForwardForRange and phi.h:663-752 PhiForwardForRangeWithValidity *)
  Context {Range Run : Type}.
  Variable phi : nat -> option nat.
  Variable get_sample : Run -> option (option nat).
  Variable split_range : Range -> option (list Run).
  Variable split_run : Run -> option (list Run).
  Variable sampling_size seq_size : nat.
  Variable is_range_empty : Range -> bool.
  Variable update_run : Run -> Run.
  Variable is_run_empty : Run -> bool.
  Variable loop_fuel : nat.

  (** phi.h:429 and 727: ( *sample + 1 + seq_size_ - t_level + 1) % seq_size_ *)
  Definition w_sample_value (sample level : nat) : option nat :=
    umod (addw (subw (addw (addw sample 1) seq_size) level) 1) seq_size.
  (** phi.h:413-443 compute *)
  Fixpoint wf_compute (fuel : nat) (run : Run) (prev level : nat) {struct fuel} : out nat :=
    match fuel with
    | 0 => None
    | S f =>
        if sampling_size <? level then pf_phi_loop phi update_run is_run_empty loop_fuel run prev
        else
          sample <- get_sample run ;;
          '(prev, o1, run) <- match sample with
                              | Some x => v <- w_sample_value x level ;; Some (v, [v], update_run run)
                              | None => Some (prev, [], run)
                              end ;;
          if is_run_empty run then Some (prev, o1)
          else
            runs <- split_run run ;;
            '(p, o2) <- out_fold (fun run v => wf_compute f run v (addw level 1)) runs prev ;;
            Some (p, o1 ++ o2)
    end.
  (** phi.h:402-411 operator() *)
  Definition wf_range (fuel : nat) (range : Range) (prev : nat) : option (list nat) :=
    if is_range_empty range then Some []
    else runs <- split_range range ;;
         '(_, o) <- out_fold (fun run v => wf_compute fuel run v 1) runs prev ;; Some o.

  Variable phiv : nat -> option (nat * bool).
  (** phi.h:713-729 *)
  Fixpoint wfv_do_loop (fuel : nat) (level : nat) (run : Run) (vv : nat * bool)
    : out (Run * (nat * bool)) :=
    match fuel with
    | 0 => None
    | S f =>
        '((run, vv), o1) <- pfv_valid_loop update_run is_run_empty phiv loop_fuel run vv ;;
        if is_run_empty run then Some ((run, vv), o1)
        else
          sample <- get_sample run ;;
          vv <- match sample with
                | Some x => v <- w_sample_value x level ;; Some (v, true)
                | None => Some vv
                end ;;
          if snd vv then '(r, o2) <- wfv_do_loop f level run vv ;; Some (r, o1 ++ o2)
          else Some ((run, vv), o1)
    end.
  (** phi.h:699-738 compute *)
  Fixpoint wfv_compute (fuel : nat) (run : Run) (vv : nat * bool) (level : nat) {struct fuel} : out (nat * bool) :=
    match fuel with
    | 0 => None
    | S f =>
        if sampling_size <? level then pfv_phi_loop update_run is_run_empty phiv loop_fuel run (fst vv)
        else
          '((run, vv), o1) <- wfv_do_loop loop_fuel level run vv ;;
          if is_run_empty run then Some (vv, o1)
          else
            runs <- split_run run ;;
            '(p, o2) <- out_fold (fun run v => wfv_compute f run v (addw level 1)) runs vv ;;
            Some (p, o1 ++ o2)
    end.
  (** phi.h:686-696 operator() *)
  Definition wfv_range (fuel : nat) (range : Range) (prev : nat) : option (list nat) :=
    if is_range_empty range then Some []
    else vv <- phiv prev ;;
         runs <- split_range range ;;
         '(_, o) <- out_fold (fun run v => wfv_compute fuel run v 1) runs vv ;; Some o.
End Forward.

(** tools.h:315-346 ComputeSAValue.  The factor is an int, 1 or -1, converted to std::size_t before the product. *)
Fixpoint w_sa_value {D} (fuel : nat) (get_sample : D -> option (option nat))
  (navigate : D -> option D) (seq_size : nat) (backward : bool) (n_jumps : nat) (d : D) : option nat :=
  sample <- get_sample d ;;
  match sample with
  | Some x => umod (addw (addw (addw x 1) seq_size) (mulw (if backward then 1 else word - 1) n_jumps)) seq_size
  | None => match fuel with
            | 0 => None
            | S f => d' <- navigate d ;;
                     w_sa_value f get_sample navigate seq_size backward (addw n_jumps 1) d'
            end
  end.
(** toehold.h:117-135 ComputeToehold *)
Definition w_toehold {D} (get_sa_value : D -> option nat) (n : nat) (d : step_data D) : option nat :=
  v <- get_sa_value (sd_run d) ;;
  umod (subw (subw (addw v n) (sd_step d)) 1) n.

(** ** RIndex and SrIndex *)
(** r_index.h:224-246 constructPhi *)
Definition w_ri_phi (n : nat) (marks : list bool) (samples : list nat)
  (get_mark_to_sample : nat -> option (nat * bool))
  (validator : nat -> nat -> bool -> option bool) : nat -> option (nat * bool) :=
  w_phi_backward (w_predecessor marks n)
    (get_sample_for_phi get_mark_to_sample (nth_error samples) validator) n.
(** r_index.h:212-222 constructComputeToehold *)
Definition w_ri_toehold (ix : rindex) : step_data run_data -> option nat :=
  w_toehold (fun d => run <- rle_select_on_runs (ri_bwt ix) (rn_last d) (rn_c d) ;;
                      sample <- nth_error (ri_samples ix) run ;;
                      Some (addw sample 1))
            (rle_size (ri_bwt ix)).
(** RIndex: r_index.h:103-114 constructIndex *)
Definition w_rindex_locate (ix : rindex) (pattern : list nat) : option (list nat) :=
  n <- al_size (ri_alpha ix) ;;
  engine_locate (ri_lf (ri_alpha ix) (ri_bwt ix)) range_of_lf
    (compute_step_data ri_lf_trivial ri_create_data)
    (compute_all_values
       (ri_phi_for_range (w_ri_phi n (ri_marks ix) (ri_samples ix)
                                   (links_default (ri_links ix) true) sample_validator_default))
       (w_ri_toehold ix) ri_update_range)
    n (mk_step_data 0 (mk_run_data 0 0)) (al_symbol (ri_alpha ix)) (fun n => (0, n)) range_empty
    pattern.
(** sr_index.h:219-245 and 322-348 constructPhiForRange *)
Definition w_sr_range (valid : bool) (ix : sri) (n : nat) (phi : nat -> option (nat * bool))
  : range -> nat -> option (list nat) :=
  let split_range := fun r : range => sr_split (sr_bwt ix) (fst r) (snd r) in
  let split_run := fun r => sr_split (sr_bwt ix) (su_start r) (su_end r) in
  let navigate := sr_lf_for_phi (sr_alpha ix) (sr_bwt ix) in
  if valid then wbv_range (sr_get_sample_run ix) split_range split_run navigate (sr_rate ix) n range_empty srun_update
                  srun_empty (n + 2) phi (S (sr_rate ix))
  else wb_range (fun v => '(x, _) <- phi v ;; Some x) (sr_get_sample_run ix) split_range split_run navigate (sr_rate ix)
         n range_empty srun_update srun_empty (n + 2) (S (sr_rate ix)).
(** sr_index.h:139-169 constructComputeToehold *)
Definition w_sr_toehold (ix : sri) (n : nat) : step_data run_data_ext -> option nat :=
  w_toehold
    (fun d => run <- rle_select_on_runs (sr_bwt ix) (re_last d) (re_c d) ;;
              w_sa_value (sr_rate ix) (sr_get_sample_data ix) (sr_lf_run_data ix) n true 0
                (mk_run_data_ext (re_c d) run (re_end d) (re_next d)))
    (rle_size (sr_bwt ix)).
(** sr_index.h:93-105 constructIndex *)
Definition w_sr_locate (valid : bool) (ix : sri) (phi : nat -> nat -> option (nat * bool)) (pattern : list nat)
  : option (list nat) :=
  n <- al_size (sr_alpha ix) ;;
  engine_locate (ri_lf (sr_alpha ix) (sr_bwt ix)) range_of_lf
    (compute_step_data ri_lf_trivial sr_create_data)
    (compute_all_values (w_sr_range valid ix n (phi n)) (w_sr_toehold ix n) ri_update_range)
    n (mk_step_data 0 (mk_run_data_ext 0 0 false 0)) (al_symbol (sr_alpha ix)) (fun n => (0, n)) range_empty
    pattern.
(** SrIndex: sr_index.h:88-91, 219-221 *)
Definition w_srindex_locate (ix : sri) : list nat -> option (list nat) :=
  w_sr_locate false ix (fun n => w_ri_phi n (sr_marks ix) (sr_samples ix) (links_default (sr_links ix) true)
                                   sample_validator_default).
(** SrIndexValidMark: sr_index.h:304-320 *)
Definition w_srindex_vm_locate (ix : sri) : list nat -> option (list nat) :=
  w_sr_locate true ix (fun n => w_ri_phi n (sr_marks ix) (sr_samples ix)
                                  (links_validity (sr_links ix) (sr_valid_marks ix)) sample_validator_default).
(** SrIndexValidArea: sr_index.h:405-436 *)
Definition w_srindex_va_locate (ix : sri) : list nat -> option (list nat) :=
  w_sr_locate true ix (fun n => w_ri_phi n (sr_marks ix) (sr_samples ix)
                                  (links_validity (sr_links ix) (sr_valid_marks ix))
                                  (sample_validator (bv_rank0 (sr_valid_marks ix)) (nth_error (sr_valid_areas ix)))).

(** ** The indexes over Psi *)
(** buildPhiForward: phi.h:170-178 *)
Definition w_csa_phi (n : nat) (marks : list bool) (samples : list nat)
  (get_mark_to_sample : nat -> option (nat * bool))
  (validator : nat -> nat -> bool -> option bool) : nat -> option (nat * bool) :=
  w_phi_forward (circular_soft_successor marks n)
    (get_sample_for_phi get_mark_to_sample (nth_error samples) validator) n.
(** r_csa.h:206-229 constructPhiForRange (566-589 in RCSAWithPsiRun) *)
Definition w_csa_range (ix : csa) (n : nat) : range -> nat -> option (list nat) :=
  ri_phi_for_range (w_csa_phi n (ca_marks ix) (ca_samples ix) (links_default (ca_links ix) true)
                              sample_validator_default).
(** RCSAWithBWTRun: r_csa.h:105-120 constructIndex, 231-241 constructComputeToehold *)
Definition w_rcsa_bwt_locate (ix : csa) : list nat -> option (list nat) :=
  csa_locate (ca_alpha ix) (ca_psi ix) bwt_create 0
    (fun n => compute_all_values (w_csa_range ix n)
      (w_toehold (fun pos => run <- pc_rank_run (ca_psi ix) pos ;;
                             sample <- nth_error (ca_samples ix) run ;;
                             Some (addw sample 1))
                 (pc_n (ca_psi ix)))
      csa_update_range).
(** RCSAWithPsiRun: r_csa.h:466-482 constructIndex, 591-601 constructComputeToehold *)
Definition w_rcsa_psi_locate (ix : csa) : list nat -> option (list nat) :=
  csa_locate (ca_alpha ix) (ca_psi ix) psi_create (0, 0)
    (fun n => compute_all_values (w_csa_range ix n)
      (w_toehold (fun '(c, partial_rank) =>
                    n_prev_runs <- pc_rank_char_run (ca_psi ix) c ;;
                    sample <- nth_error (ca_samples ix) (n_prev_runs + partial_rank) ;;
                    Some (addw sample 1))
                 (pc_n (ca_psi ix)))
      csa_update_range).
(** A range engine: phi.h:379-457 PhiForwardForRange over phi, or phi.h:663-752 PhiForwardForRangeWithValidity *)
Definition w_fwd_range {Run} (valid : bool) (get_sample : Run -> option (option nat))
  (split_range : range -> option (list Run)) (split_run : Run -> option (list Run)) (rate n : nat)
  (update_run : Run -> Run) (is_run_empty : Run -> bool) (phi : nat -> option (nat * bool))
  : range -> nat -> option (list nat) :=
  if valid then wfv_range get_sample split_range split_run rate n range_empty update_run is_run_empty (n + 2) phi (S rate)
  else wf_range (fun v => '(x, _) <- phi v ;; Some x) get_sample split_range split_run rate n range_empty update_run
         is_run_empty (n + 2) (S rate).
(** SrCSA, SrCSAValidMark and SrCSAValidArea: sr_csa.h:438-474 constructIndex, 150-154 constructComputeToehold *)
Definition w_srcsa_locate_with (valid : bool) (phi : srcsa -> nat -> nat -> option (nat * bool)) (ix : srcsa)
  : list nat -> option (list nat) :=
  csa_locate (sc_alpha ix) (sc_psi ix) bwt_create 0
    (fun n => compute_all_values
      (w_fwd_range valid (fun r : range => srcsa_get_sample ix (fst r)) (srcsa_split_range (sc_idx ix))
         (srcsa_split_run ix) (sc_rate ix) n csa_update_range range_empty (phi ix n))
      (w_toehold (w_sa_value (sc_rate ix) (srcsa_get_sample ix) (srcsa_psi ix) n false 0) n) csa_update_range).
(** SrCSASlim and the classes over Psi runs: sr_csa.h:240-261 (sr_csa_psi.h:97-119) constructIndex, sr_csa.h:150-154
    (sr_csa_psi.h:130-136) constructComputeToehold *)
Definition w_slim_locate_with (valid : bool) (phi : srcsa -> nat -> nat -> option (nat * bool)) (ix : srcsa)
  : list nat -> option (list nat) :=
  csa_locate (sc_alpha ix) (sc_psi ix) slim_create (mk_psi_data 0 0 0 false)
    (fun n => compute_all_values
      (w_fwd_range valid (fun p => slim_get_sample ix (pi_c p) (pi_run p) (pi_is_first p))
         (fun r : range => pc_split_in_sorted_runs (sc_psi ix) (fst r) (snd r))
         (fun p => csa_split_run (al_C (sc_alpha ix)) (sc_psi ix) (pi_first p) (pi_last p))
         (sc_rate ix) n piece_update piece_empty (phi ix n))
      (w_toehold (w_sa_value (Nat.max 1 (sc_rate ix))
                    (fun d => slim_get_sample ix (pd_c d) (pd_rank d) (pd_start d)) (slim_psi ix) n false 0) n)
      csa_update_range).
(** Phi of the classes: sr_csa.h:116-135, 633-663, 734-743 (sr_csa_psi.h:193-209, 354-371, 452-459) *)
Definition w_phi_plain (ix : srcsa) (n : nat) : nat -> option (nat * bool) :=
  w_csa_phi n (sc_marks ix) (sc_samples ix) (links_default (sc_links ix) false) sample_validator_default.
Definition w_phi_valid_mark (ix : srcsa) (n : nat) : nat -> option (nat * bool) :=
  w_csa_phi n (sc_marks ix) (sc_samples ix) (links_validity (sc_links ix) (sc_valid ix)) sample_validator_default.
Definition w_phi_valid_area (ix : srcsa) (n : nat) : nat -> option (nat * bool) :=
  w_csa_phi n (sc_marks ix) (sc_samples ix) (links_validity (sc_links ix) (sc_valid ix))
    (sample_validator (bv_rank0 (sc_valid ix)) (nth_error (sc_areas ix))).
Definition w_srcsa_locate : srcsa -> list nat -> option (list nat) := w_srcsa_locate_with false w_phi_plain.
Definition w_srcsa_vm_locate : srcsa -> list nat -> option (list nat) := w_srcsa_locate_with true w_phi_valid_mark.
Definition w_srcsa_va_locate : srcsa -> list nat -> option (list nat) := w_srcsa_locate_with true w_phi_valid_area.
Definition w_slim_locate : srcsa -> list nat -> option (list nat) := w_slim_locate_with false w_phi_plain.
Definition w_slim_vm_locate : srcsa -> list nat -> option (list nat) := w_slim_locate_with true w_phi_valid_mark.
Definition w_slim_va_locate : srcsa -> list nat -> option (list nat) := w_slim_locate_with true w_phi_valid_area.
