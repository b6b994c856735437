(** Locate of the subsampled indexes again, with the calls it makes: the functions of MPhi.v, MSrIndex.v
    and MSrCsa.v where every call of a part of the index is recorded before its result is used.  No proofs. *)
From Coq Require Import List Arith Bool.
From Verif Require Import MBase MRle MConstruct MPhi MRIndex MSrIndex MPsi MCsa MSrCsa.
Import ListNotations.

(** A call made by Locate: a step of the backward search, a look-up of a sample, a move of a run or a row by LF
    or Psi, a computation of phi, a cut of rows into runs (with the number of runs), a report. *)
Inductive call := Step | Sample | Move | Phi | Split (runs : nat) | Report (v : nat).
(** A value and the calls made for it. *)
Definition traced (A : Type) := option (A * list call).

Section Back.
  (** phi.h:255-341 PhiBackwardForRange and phi.h:561-661 PhiBackwardForRangeWithValidity *)
  Context {Range Run : Type}.
  Variable phi : nat -> option nat.
  Variable get_sample : Run -> option (option nat).
  Variable split_range : Range -> option (list Run).
  Variable split_run : Run -> option (list Run).
  Variable navigate : Run -> option Run.
  Variable sampling_size seq_size : nat.
  Variable is_range_empty : Range -> bool.
  Variable update_run : Run -> Run.
  Variable is_run_empty : Run -> bool.
  Variable loop_fuel : nat.

  (** phi.h:315-321 *)
  Fixpoint tb_phi_loop (fuel : nat) (run : Run) (prev : nat) : traced nat :=
    match fuel with
    | 0 => None
    | S f =>
        prev <- phi prev ;;
        let run := update_run run in
        if negb (is_run_empty run)
        then '(p, t) <- tb_phi_loop f run prev ;; Some (p, Phi :: Report prev :: t)
        else Some (prev, [Phi; Report prev])
    end.
  (** phi.h:290-327 *)
  Fixpoint tb_runs (fuel : nat) (runs : list Run) (prev level : nat) {struct fuel} : traced nat :=
    match fuel with
    | 0 => None
    | S f =>
        (fix go (runs : list Run) (prev : nat) : traced nat :=
           match runs with
           | [] => Some (prev, [])
           | run :: rest =>
               sample <- get_sample run ;;
               '(prev, t1, run) <- match sample with
                                   | Some x => v <- umod (x + 1 + level) seq_size ;;
                                               Some (v, [Sample; Report v], update_run run)
                                   | None => Some (prev, [Sample], run)
                                   end ;;
               if is_run_empty run then
                 '(p, t2) <- go rest prev ;; Some (p, t1 ++ t2)
               else
                 run' <- navigate run ;;
                 '(prev, t2) <- (if sampling_size <=? S level then tb_phi_loop loop_fuel run' prev
                                 else runs' <- split_run run' ;;
                                      '(p, t) <- tb_runs f (rev runs') prev (S level) ;;
                                      Some (p, Split (length runs') :: t)) ;;
                 '(p, t3) <- go rest prev ;; Some (p, t1 ++ Move :: t2 ++ t3)
           end) runs prev
    end.
  (** phi.h:281-286 operator() *)
  Definition tb_range (fuel : nat) (range : Range) (prev : nat) : option (list call) :=
    if is_range_empty range then Some []
    else runs <- split_range range ;;
         '(_, t) <- tb_runs fuel (rev runs) prev 0 ;; Some (Split (length runs) :: t).

  Variable phiv : nat -> option (nat * bool).
  (** phi.h:635-639 *)
  Fixpoint tbv_phi_loop (fuel : nat) (run : Run) (value : nat) : traced (nat * bool) :=
    match fuel with
    | 0 => None
    | S f =>
        let run := update_run run in
        vv <- phiv value ;;
        if negb (is_run_empty run)
        then '(p, t) <- tbv_phi_loop f run (fst vv) ;; Some (p, Report value :: Phi :: t)
        else Some (vv, [Report value; Phi])
    end.
  (** phi.h:606-610 *)
  Fixpoint tbv_valid_loop (fuel : nat) (run : Run) (vv : nat * bool) : traced (Run * (nat * bool)) :=
    if negb (is_run_empty run) && snd vv then
      match fuel with
      | 0 => None
      | S f => let run := update_run run in
               vv' <- phiv (fst vv) ;;
               '(r, t) <- tbv_valid_loop f run vv' ;;
               Some (r, Report (fst vv) :: Phi :: t)
      end
    else Some ((run, vv), []).
  (** phi.h:604-621 *)
  Fixpoint tbv_do_loop (fuel : nat) (level : nat) (run : Run) (vv : nat * bool)
    : traced (Run * (nat * bool)) :=
    match fuel with
    | 0 => None
    | S f =>
        '((run, vv), t1) <- tbv_valid_loop loop_fuel run vv ;;
        if is_run_empty run then Some ((run, vv), t1)
        else
          sample <- get_sample run ;;
          vv <- match sample with
                | Some x => v <- umod (x + 1 + level) seq_size ;; Some (v, true)
                | None => Some vv
                end ;;
          if snd vv then '(r, t2) <- tbv_do_loop f level run vv ;; Some (r, t1 ++ Sample :: t2)
          else Some ((run, vv), t1 ++ [Sample])
    end.
  (** phi.h:598-647 *)
  Fixpoint tbv_runs (fuel : nat) (runs : list Run) (vv : nat * bool) (level : nat) {struct fuel}
    : traced (nat * bool) :=
    match fuel with
    | 0 => None
    | S f =>
        (fix go (runs : list Run) (vv : nat * bool) : traced (nat * bool) :=
           match runs with
           | [] => Some (vv, [])
           | run :: rest =>
               '((run, vv), t1) <- tbv_do_loop loop_fuel level run vv ;;
               if negb (is_run_empty run) then
                 run' <- navigate run ;;
                 '(vv, t2) <- (if sampling_size <=? S level then tbv_phi_loop loop_fuel run' (fst vv)
                               else runs' <- split_run run' ;;
                                    '(p, t) <- tbv_runs f (rev runs') vv (S level) ;;
                                    Some (p, Split (length runs') :: t)) ;;
                 '(p, t3) <- go rest vv ;; Some (p, t1 ++ Move :: t2 ++ t3)
               else
                 '(p, t3) <- go rest vv ;; Some (p, t1 ++ t3)
           end) runs vv
    end.
  (** phi.h:586-594 operator() *)
  Definition tbv_range (fuel : nat) (range : Range) (prev : nat) : option (list call) :=
    if is_range_empty range then Some []
    else vv <- phiv prev ;;
         runs <- split_range range ;;
         '(_, t) <- tbv_runs fuel (rev runs) vv 0 ;; Some (Phi :: Split (length runs) :: t).
End Back.

(** The loops over runs of phi.h:402-411 and 686-696 *)
Fixpoint traced_fold {A R} (f : R -> A -> traced A) (runs : list R) (v : A) : traced A :=
  match runs with
  | [] => Some (v, [])
  | r :: rest =>
      '(v, t1) <- f r v ;;
      '(v, t2) <- traced_fold f rest v ;;
      Some (v, t1 ++ t2)
  end.

Section Forward.
  (** phi.h:379-457 PhiForwardForRange and phi.h:663-752 PhiForwardForRangeWithValidity; split_run moves the
      run by Psi and cuts the result. *)
  Context {Range Run : Type}.
  Variable phi : nat -> option nat.
  Variable get_sample : Run -> option (option nat).
  Variable split_range : Range -> option (list Run).
  Variable split_run : Run -> option (list Run).
  Variable sampling_size seq_size : nat.
  Variable is_range_empty : Range -> bool.
  Variable update_run : Run -> Run.
  Variable is_run_empty : Run -> bool.
  Variable loop_fuel : nat.

  (** phi.h:417-421 *)
  Fixpoint tf_phi_loop (fuel : nat) (run : Run) (prev : nat) : traced nat :=
    match fuel with
    | 0 => None
    | S f =>
        prev <- phi prev ;;
        let run := update_run run in
        if negb (is_run_empty run)
        then '(p, t) <- tf_phi_loop f run prev ;; Some (p, Phi :: Report prev :: t)
        else Some (prev, [Phi; Report prev])
    end.
  (** phi.h:413-443 compute *)
  Fixpoint tf_compute (fuel : nat) (run : Run) (prev level : nat) {struct fuel} : traced nat :=
    match fuel with
    | 0 => None
    | S f =>
        if sampling_size <? level then tf_phi_loop loop_fuel run prev
        else
          sample <- get_sample run ;;
          '(prev, t1, run) <- match sample with
                              | Some x => v <- sample_value seq_size x level ;;
                                          Some (v, [Sample; Report v], update_run run)
                              | None => Some (prev, [Sample], run)
                              end ;;
          if is_run_empty run then Some (prev, t1)
          else
            runs <- split_run run ;;
            '(p, t2) <- traced_fold (fun run v => tf_compute f run v (S level)) runs prev ;;
            Some (p, t1 ++ Move :: Split (length runs) :: t2)
    end.
  (** phi.h:402-411 operator() *)
  Definition tf_range (fuel : nat) (range : Range) (prev : nat) : option (list call) :=
    if is_range_empty range then Some []
    else runs <- split_range range ;;
         '(_, t) <- traced_fold (fun run v => tf_compute fuel run v 1) runs prev ;;
         Some (Split (length runs) :: t).

  Variable phiv : nat -> option (nat * bool).
  (** phi.h:703-708 *)
  Fixpoint tfv_phi_loop (fuel : nat) (run : Run) (value : nat) : traced (nat * bool) :=
    match fuel with
    | 0 => None
    | S f =>
        let run := update_run run in
        vv <- phiv value ;;
        if negb (is_run_empty run)
        then '(p, t) <- tfv_phi_loop f run (fst vv) ;; Some (p, Report value :: Phi :: t)
        else Some (vv, [Report value; Phi])
    end.
  (** phi.h:715-720 *)
  Fixpoint tfv_valid_loop (fuel : nat) (run : Run) (vv : nat * bool) : traced (Run * (nat * bool)) :=
    if negb (is_run_empty run) && snd vv then
      match fuel with
      | 0 => None
      | S f => let run := update_run run in
               vv' <- phiv (fst vv) ;;
               '(r, t) <- tfv_valid_loop f run vv' ;;
               Some (r, Report (fst vv) :: Phi :: t)
      end
    else Some ((run, vv), []).
  (** phi.h:713-729 *)
  Fixpoint tfv_do_loop (fuel : nat) (level : nat) (run : Run) (vv : nat * bool)
    : traced (Run * (nat * bool)) :=
    match fuel with
    | 0 => None
    | S f =>
        '((run, vv), t1) <- tfv_valid_loop loop_fuel run vv ;;
        if is_run_empty run then Some ((run, vv), t1)
        else
          sample <- get_sample run ;;
          vv <- match sample with
                | Some x => v <- sample_value seq_size x level ;; Some (v, true)
                | None => Some vv
                end ;;
          if snd vv then '(r, t2) <- tfv_do_loop f level run vv ;; Some (r, t1 ++ Sample :: t2)
          else Some ((run, vv), t1 ++ [Sample])
    end.
  (** phi.h:699-738 compute *)
  Fixpoint tfv_compute (fuel : nat) (run : Run) (vv : nat * bool) (level : nat) {struct fuel} : traced (nat * bool) :=
    match fuel with
    | 0 => None
    | S f =>
        if sampling_size <? level then tfv_phi_loop loop_fuel run (fst vv)
        else
          '((run, vv), t1) <- tfv_do_loop loop_fuel level run vv ;;
          if is_run_empty run then Some (vv, t1)
          else
            runs <- split_run run ;;
            '(p, t2) <- traced_fold (fun run v => tfv_compute f run v (S level)) runs vv ;;
            Some (p, t1 ++ Move :: Split (length runs) :: t2)
    end.
  (** phi.h:686-696 operator() *)
  Definition tfv_range (fuel : nat) (range : Range) (prev : nat) : option (list call) :=
    if is_range_empty range then Some []
    else vv <- phiv prev ;;
         runs <- split_range range ;;
         '(_, t) <- traced_fold (fun run v => tfv_compute fuel run v 1) runs vv ;;
         Some (Phi :: Split (length runs) :: t).
End Forward.

(** tools.h:315-346 ComputeSAValue *)
Fixpoint t_sa_value {D} (fuel : nat) (get_sample : D -> option (option nat))
  (navigate : D -> option D) (seq_size : nat) (backward : bool) (n_jumps : nat) (d : D) : traced nat :=
  sample <- get_sample d ;;
  match sample with
  | Some x => v <- umod (if backward then x + 1 + seq_size + n_jumps
                         else sub64 (x + 1 + seq_size) n_jumps) seq_size ;;
              Some (v, [Sample])
  | None => match fuel with
            | 0 => None
            | S f => d' <- navigate d ;;
                     '(v, t) <- t_sa_value f get_sample navigate seq_size backward (S n_jumps) d' ;;
                     Some (v, Sample :: Move :: t)
            end
  end.
(** toehold.h:117-135 ComputeToehold *)
Definition t_toehold {D} (get_sa_value : D -> traced nat) (n : nat) (d : step_data D) : traced nat :=
  '(v, t) <- get_sa_value (sd_run d) ;;
  v <- umod (sub64 (sub64 (v + n) (sd_step d)) 1) n ;;
  Some (v, t).
(** phi.h:779-804 ComputeAllValuesWithPhiForRange *)
Definition t_all_values {Range Data} (phi_for_range : Range -> nat -> option (list call))
  (toehold : Data -> traced nat) (update_range : Range -> Range) (range : Range) (data : Data)
  : option (list call) :=
  '(k, t1) <- toehold data ;;
  t2 <- phi_for_range (update_range range) k ;;
  Some (t1 ++ Report k :: t2).

Section Engine.
  (** index_base.h:204-293 RIndexBase; the arguments are those of [engine_locate] *)
  Context {Range Next Data : Type}.
  Variable lf : Range -> nat -> option Next.
  Variable to_range : Next -> Range.
  Variable update_toehold : Range -> Next -> nat -> nat -> Data -> Data.
  Variable compute_all : Range -> Data -> option (list call).
  Variable bwt_size : nat.
  Variable initial_toehold : Data.
  Variable get_symbol : nat -> option nat.
  Variable full_range : nat -> Range.
  Variable is_range_empty : Range -> bool.
  (** index_base.h:242-249 *)
  Fixpoint t_locate_loop (rpattern : list nat) (range : Range) (i : nat) (d : Data) : traced (Range * Data) :=
    match rpattern with
    | [] => Some ((range, d), [])
    | ch :: rest =>
        if is_range_empty range then Some ((range, d), [])
        else
          c <- get_symbol ch ;;
          next <- lf range c ;;
          '(x, t) <- t_locate_loop rest (to_range next) (i - 1) (update_toehold range next c i d) ;;
          Some (x, Step :: t)
    end.
  (** index_base.h:235-254 Locate *)
  Definition t_engine (pattern : list nat) : option (list call) :=
    '((range, d), t1) <- t_locate_loop (rev pattern) (full_range bwt_size) (length pattern - 1) initial_toehold ;;
    if is_range_empty range then Some t1
    else t2 <- compute_all range d ;; Some (t1 ++ t2).
End Engine.

(** ** The classes *)
(** sr_index.h:219-245 and 322-348 constructPhiForRange *)
Definition t_sr_range (valid : bool) (ix : sri) (n : nat) (phi : nat -> option (nat * bool))
  : range -> nat -> option (list call) :=
  let split_range := fun r : range => sr_split (sr_bwt ix) (fst r) (snd r) in
  let split_run := fun r => sr_split (sr_bwt ix) (su_start r) (su_end r) in
  let navigate := sr_lf_for_phi (sr_alpha ix) (sr_bwt ix) in
  if valid then tbv_range (sr_get_sample_run ix) split_range split_run navigate (sr_rate ix) n range_empty srun_update
                  srun_empty (n + 2) phi (S (sr_rate ix))
  else tb_range (fun v => '(x, _) <- phi v ;; Some x) (sr_get_sample_run ix) split_range split_run navigate (sr_rate ix)
         n range_empty srun_update srun_empty (n + 2) (S (sr_rate ix)).
(** sr_index.h:139-169 constructComputeToehold *)
Definition t_sr_toehold (ix : sri) (n : nat) : step_data run_data_ext -> traced nat :=
  t_toehold
    (fun d => run <- rle_select_on_runs (sr_bwt ix) (re_last d) (re_c d) ;;
              t_sa_value (sr_rate ix) (sr_get_sample_data ix) (sr_lf_run_data ix) n true 0
                (mk_run_data_ext (re_c d) run (re_end d) (re_next d)))
    (rle_size (sr_bwt ix)).
(** sr_index.h:93-105 constructIndex *)
Definition t_sr_locate (valid : bool) (ix : sri) (phi : nat -> nat -> option (nat * bool)) (pattern : list nat)
  : option (list call) :=
  n <- al_size (sr_alpha ix) ;;
  t_engine (ri_lf (sr_alpha ix) (sr_bwt ix)) range_of_lf
    (compute_step_data ri_lf_trivial sr_create_data)
    (t_all_values (t_sr_range valid ix n (phi n)) (t_sr_toehold ix n) ri_update_range)
    n (mk_step_data 0 (mk_run_data_ext 0 0 false 0)) (al_symbol (sr_alpha ix)) (fun n => (0, n)) range_empty
    pattern.
(** SrIndex: sr_index.h:88-91, 219-221 *)
Definition srindex_calls (ix : sri) : list nat -> option (list call) :=
  t_sr_locate false ix (fun n => ri_phi n (sr_marks ix) (sr_samples ix) (links_default (sr_links ix) true)
                                   sample_validator_default).
(** SrIndexValidMark: sr_index.h:304-320 *)
Definition srindex_vm_calls (ix : sri) : list nat -> option (list call) :=
  t_sr_locate true ix (fun n => ri_phi n (sr_marks ix) (sr_samples ix)
                                  (links_validity (sr_links ix) (sr_valid_marks ix)) sample_validator_default).
(** SrIndexValidArea: sr_index.h:405-436 *)
Definition srindex_va_calls (ix : sri) : list nat -> option (list call) :=
  t_sr_locate true ix (fun n => ri_phi n (sr_marks ix) (sr_samples ix)
                                  (links_validity (sr_links ix) (sr_valid_marks ix))
                                  (sample_validator (bv_rank0 (sr_valid_marks ix)) (nth_error (sr_valid_areas ix)))).

(** A range engine over Psi, as [fwd_range]: phi.h:379-457 PhiForwardForRange over phi, or
    phi.h:663-752 PhiForwardForRangeWithValidity *)
Definition t_fwd_range {Run} (valid : bool) (get_sample : Run -> option (option nat))
  (split_range : range -> option (list Run)) (split_run : Run -> option (list Run)) (rate n : nat)
  (update_run : Run -> Run) (is_run_empty : Run -> bool) (phi : nat -> option (nat * bool))
  : range -> nat -> option (list call) :=
  if valid then tfv_range get_sample split_range split_run rate n range_empty update_run is_run_empty (n + 2) phi (S rate)
  else tf_range (fun v => '(x, _) <- phi v ;; Some x) get_sample split_range split_run rate n range_empty update_run
         is_run_empty (n + 2) (S rate).
(** r_csa.h:105-120, 306-321, 466-482 constructIndex *)
Definition t_csa_locate {D} (al : alphabet) (pc : psi_core) (create : range -> nat -> range_psi -> D) (init : D)
  (compute_all : nat -> range -> step_data D -> option (list call)) (pattern : list nat) : option (list call) :=
  n <- al_size al ;;
  t_engine (csa_lf al pc) range_of_psi
    (compute_step_data csa_lf_trivial (fun r c next step => mk_step_data step (create r c next)))
    (compute_all n) n (mk_step_data 0 init) (al_symbol al) (fun n => (0, n)) range_empty pattern.
(** sr_csa.h:150-154 constructComputeToehold *)
Definition t_srcsa_toehold (ix : srcsa) (n : nat) : step_data nat -> traced nat :=
  t_toehold (t_sa_value (sc_rate ix) (srcsa_get_sample ix) (srcsa_psi ix) n false 0) n.
(** SrCSA, SrCSAValidMark and SrCSAValidArea: sr_csa.h:438-474 constructIndex *)
Definition srcsa_calls_with (valid : bool) (phi : srcsa -> nat -> nat -> option (nat * bool)) (ix : srcsa)
  : list nat -> option (list call) :=
  t_csa_locate (sc_alpha ix) (sc_psi ix) bwt_create 0
    (fun n => t_all_values
      (t_fwd_range valid (fun r : range => srcsa_get_sample ix (fst r)) (srcsa_split_range (sc_idx ix))
         (srcsa_split_run ix) (sc_rate ix) n csa_update_range range_empty (phi ix n))
      (t_srcsa_toehold ix n) csa_update_range).
(** sr_csa.h:150-154 (sr_csa_psi.h:130-136) *)
Definition t_slim_toehold (ix : srcsa) (n : nat) : step_data psi_data -> traced nat :=
  t_toehold (t_sa_value (Nat.max 1 (sc_rate ix))
               (fun d => slim_get_sample ix (pd_c d) (pd_rank d) (pd_start d)) (slim_psi ix) n false 0) n.
(** SrCSASlim and the classes over Psi runs: sr_csa.h:240-261 (sr_csa_psi.h:97-119) constructIndex *)
Definition slim_calls_with (valid : bool) (phi : srcsa -> nat -> nat -> option (nat * bool)) (ix : srcsa)
  : list nat -> option (list call) :=
  t_csa_locate (sc_alpha ix) (sc_psi ix) slim_create (mk_psi_data 0 0 0 false)
    (fun n => t_all_values
      (t_fwd_range valid (fun p => slim_get_sample ix (pi_c p) (pi_run p) (pi_is_first p))
         (fun r : range => pc_split_in_sorted_runs (sc_psi ix) (fst r) (snd r))
         (fun p => csa_split_run (al_C (sc_alpha ix)) (sc_psi ix) (pi_first p) (pi_last p))
         (sc_rate ix) n piece_update piece_empty (phi ix n))
      (t_slim_toehold ix n) csa_update_range).

(** SrCSA, SrCSAValidMark, SrCSAValidArea: sr_csa.h:116-135, 633-663, 734-743 *)
Definition srcsa_calls : srcsa -> list nat -> option (list call) := srcsa_calls_with false phi_plain.
Definition srcsa_vm_calls : srcsa -> list nat -> option (list call) := srcsa_calls_with true phi_valid_mark.
Definition srcsa_va_calls : srcsa -> list nat -> option (list call) := srcsa_calls_with true phi_valid_area.
(** SrCSASlim (sr_csa.h:240-261) and SrCSAWithPsiRun, SRCSAValidMark, SRCSAValidArea
    (sr_csa_psi.h:193-209, 354-371, 452-459) *)
Definition slim_calls : srcsa -> list nat -> option (list call) := slim_calls_with false phi_plain.
Definition slim_vm_calls : srcsa -> list nat -> option (list call) := slim_calls_with true phi_valid_mark.
Definition slim_va_calls : srcsa -> list nat -> option (list call) := slim_calls_with true phi_valid_area.

(** ** The indexes without subsampling *)
(** r_index.h:248-260 *)
Fixpoint t_phi_iter (phi : nat -> option (nat * bool)) (count k : nat) : option (list call) :=
  match count with
  | 0 => Some []
  | S m => '(k', _) <- phi k ;; rest <- t_phi_iter phi m k' ;; Some (Phi :: Report k' :: rest)
  end.
(** A look-up of one sample: r_index.h:212-222, r_csa.h:231-241, 591-601 *)
Definition t_one_sample {D} (f : D -> option nat) (d : D) : traced nat := v <- f d ;; Some (v, [Sample]).
(** RIndex: r_index.h:103-114 constructIndex *)
Definition rindex_calls (ix : rindex) (pattern : list nat) : option (list call) :=
  n <- al_size (ri_alpha ix) ;;
  t_engine (ri_lf (ri_alpha ix) (ri_bwt ix)) range_of_lf
    (compute_step_data ri_lf_trivial ri_create_data)
    (t_all_values
       (fun r => t_phi_iter (ri_phi n (ri_marks ix) (ri_samples ix) (links_default (ri_links ix) true)
                                    sample_validator_default) (snd r - fst r))
       (t_one_sample (ri_toehold ix)) ri_update_range)
    n (mk_step_data 0 (mk_run_data 0 0)) (al_symbol (ri_alpha ix)) (fun n => (0, n)) range_empty
    pattern.
(** r_csa.h:206-229 constructPhiForRange (566-589 in RCSAWithPsiRun) *)
Definition t_csa_range (ix : csa) (n : nat) (r : range) : nat -> option (list call) :=
  t_phi_iter (csa_phi n (ca_marks ix) (ca_samples ix) (links_default (ca_links ix) true) sample_validator_default)
    (snd r - fst r).
(** RCSAWithBWTRun: r_csa.h:105-120 constructIndex *)
Definition rcsa_bwt_calls (ix : csa) : list nat -> option (list call) :=
  t_csa_locate (ca_alpha ix) (ca_psi ix) bwt_create 0
    (fun n => t_all_values (t_csa_range ix n) (t_one_sample (rcsa_bwt_toehold ix)) csa_update_range).
(** RCSAWithPsiRun: r_csa.h:466-482 constructIndex *)
Definition rcsa_psi_calls (ix : csa) : list nat -> option (list call) :=
  t_csa_locate (ca_alpha ix) (ca_psi ix) psi_create (0, 0)
    (fun n => t_all_values (t_csa_range ix n) (t_one_sample (rcsa_psi_toehold ix)) csa_update_range).
