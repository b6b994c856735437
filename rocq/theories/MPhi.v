(** Model of sequence_ops.h, phi.h, tools.h (validators), toehold.h and the query engine of
    index_base.h.  C++ functors are higher-order arguments with the same role; a functor that
    may read out of range returns [option]. *)
From Coq Require Import List Arith Bool.
From Verif Require Import MBase.
Import ListNotations.

(** sequence_ops.h:18-44 CircularPredecessor over a bit vector (n_ones_ computed at 23). *)
Definition circular_predecessor (bv : list bool) (size i : nat) : option (nat * nat) :=
  n_ones <- bv_rank bv size ;;
  rnk <- bv_rank bv i ;;
  order <- umod (rnk + n_ones - 1) n_ones ;;
  value <- bv_select bv (order + 1) ;;
  Some (order, value).

(** sequence_ops.h:56-82 CircularSoftSuccessor *)
Definition circular_soft_successor (bv : list bool) (size i : nat) : option (nat * nat) :=
  n_ones <- bv_rank bv size ;;
  rnk <- bv_rank bv i ;;
  order <- umod rnk n_ones ;;
  value <- bv_select bv (order + 1) ;;
  Some (order, value).

(** tools.h:101-106 SampleValidatorDefault *)
Definition sample_validator_default (pred_pos delta : nat) (trusted : bool) : option bool := Some trusted.
(** tools.h:108-130 SampleValidator *)
Definition sample_validator (get_area_idx get_area : nat -> option nat)
  (pred_pos delta : nat) (trusted : bool) : option bool :=
  if negb trusted then
    idx <- get_area_idx pred_pos ;;
    area <- get_area idx ;;
    if area <=? delta then Some false else Some true
  else Some true.

(** phi.h:20-51 GetSampleForPhi *)
Definition get_sample_for_phi (get_sample_index : nat -> option (nat * bool))
  (get_sample : nat -> option nat) (is_sample_valid : nat -> nat -> bool -> option bool)
  (pos delta : nat) : option (nat * bool) :=
  '(sample_index, initial_validity) <- get_sample_index pos ;;
  sample <- get_sample sample_index ;;
  validity <- is_sample_valid pos delta initial_validity ;;
  Some (sample, validity).

(** phi.h:62-78 phi *)
Definition phi_fn (get_related : nat -> option (nat * nat))
  (get_sample : nat -> nat -> option (nat * bool))
  (get_delta : nat -> nat -> nat) (get_next : nat -> nat -> option nat)
  (prev : nat) : option (nat * bool) :=
  '(related_pos, related) <- get_related prev ;;
  let delta := get_delta prev related in
  '(sample, validity) <- get_sample related_pos delta ;;
  next <- get_next sample delta ;;
  Some (next, validity).

(** phi.h:85-119 PhiBackward *)
Definition phi_backward (predecessor : nat -> option (nat * nat))
  (get_sample : nat -> nat -> option (nat * bool)) (size prev : nat) : option (nat * bool) :=
  phi_fn predecessor get_sample
         (fun prev related => if related <? prev then prev - related else prev + 1)
         (fun sample delta => umod (sample + delta) size) prev.

(** phi.h:136-168 PhiForward (unsigned subtractions at 152 and 157). *)
Definition phi_forward (soft_successor : nat -> option (nat * nat))
  (get_sample : nat -> nat -> option (nat * bool)) (size prev : nat) : option (nat * bool) :=
  phi_fn soft_successor get_sample
         (fun prev related => sub64 related prev)
         (fun sample delta => umod (sub64 (sample + size) delta) size) prev.

(** A report sequence with a final value. *)
Definition out (A : Type) := option (A * list nat).

Section BackwardForRange.
  (** phi.h:255-341 PhiBackwardForRange *)
  Context {Range Run : Type}.
  Variable phi : nat -> option nat.
  Variable get_sample : Run -> option (option nat).
  Variable split_range : Range -> option (list Run).
  Variable split_run : Run -> option (list Run).
  Variable navigate : Run -> option Run.
  Variable sampling_size seq_size : nat.
  Variable is_range_empty : Range -> bool.
  Variable update_run : Run -> Run.
  Variable is_run_empty : Run -> bool.
  (** Bound on the iterations of the do-while loop; [None] when exceeded. *)
  Variable loop_fuel : nat.

  (** phi.h:315-321 do { ... } while (!is_run_empty(run)) *)
  Fixpoint pb_phi_loop (fuel : nat) (run : Run) (prev : nat) : out nat :=
    match fuel with
    | 0 => None
    | S f =>
        prev <- phi prev ;;
        let run := update_run run in
        if negb (is_run_empty run)
        then '(p, o) <- pb_phi_loop f run prev ;; Some (p, prev :: o)
        else Some (prev, [prev])
    end.

  (** phi.h:290-327: computeForRuns on the runs in reverse order; [compute] is inlined.  The
      fuel bounds the recursion depth; [None] when exceeded. *)
  Fixpoint pb_runs (fuel : nat) (runs : list Run) (prev level : nat) {struct fuel} : out nat :=
    match fuel with
    | 0 => None
    | S f =>
        (fix go (runs : list Run) (prev : nat) : out nat :=
           match runs with
           | [] => Some (prev, [])
           | run :: rest =>
               sample <- get_sample run ;;
               '(prev, o1, run) <- match sample with
                                   | Some x => v <- umod (x + 1 + level) seq_size ;;
                                               Some (v, [v], update_run run)
                                   | None => Some (prev, [], run)
                                   end ;;
               if is_run_empty run then
                 '(p, o2) <- go rest prev ;; Some (p, o1 ++ o2)
               else
                 run' <- navigate run ;;
                 '(prev, o2) <- (if sampling_size <=? S level then pb_phi_loop loop_fuel run' prev
                                 else runs' <- split_run run' ;; pb_runs f (rev runs') prev (S level)) ;;
                 '(p, o3) <- go rest prev ;; Some (p, o1 ++ o2 ++ o3)
           end) runs prev
    end.

  (** phi.h:281-286 operator() *)
  Definition pb_range (fuel : nat) (range : Range) (prev : nat) : option (list nat) :=
    if is_range_empty range then Some []
    else runs <- split_range range ;;
         '(_, o) <- pb_runs fuel (rev runs) prev 0 ;; Some o.

  (** phi.h:561-661 PhiBackwardForRangeWithValidity: the phi of these indexes also returns the
      validity of its value. *)
  Variable phiv : nat -> option (nat * bool).

  (** phi.h:635-639 *)
  Fixpoint pbv_phi_loop (fuel : nat) (run : Run) (value : nat) : out (nat * bool) :=
    match fuel with
    | 0 => None
    | S f =>
        let run := update_run run in
        vv <- phiv value ;;
        if negb (is_run_empty run)
        then '(p, o) <- pbv_phi_loop f run (fst vv) ;; Some (p, value :: o)
        else Some (vv, [value])
    end.

  (** phi.h:606-610: while (!is_run_empty(run) && validity); result: run, value, validity. *)
  Fixpoint pbv_valid_loop (fuel : nat) (run : Run) (vv : nat * bool) : out (Run * (nat * bool)) :=
    if negb (is_run_empty run) && snd vv then
      match fuel with
      | 0 => None
      | S f => let run := update_run run in
               vv' <- phiv (fst vv) ;;
               '(r, o) <- pbv_valid_loop f run vv' ;;
               Some (r, fst vv :: o)
      end
    else Some ((run, vv), []).

  (** phi.h:604-621: do { while ...; if empty break; sample } while (validity). *)
  Fixpoint pbv_do_loop (fuel : nat) (level : nat) (run : Run) (vv : nat * bool)
    : out (Run * (nat * bool)) :=
    match fuel with
    | 0 => None
    | S f =>
        '((run, vv), o1) <- pbv_valid_loop loop_fuel run vv ;;
        if is_run_empty run then Some ((run, vv), o1)
        else
          sample <- get_sample run ;;
          vv <- match sample with
                | Some x => v <- umod (x + 1 + level) seq_size ;; Some (v, true)
                | None => Some vv
                end ;;
          if snd vv then '(r, o2) <- pbv_do_loop f level run vv ;; Some (r, o1 ++ o2)
          else Some ((run, vv), o1)
    end.

  (** phi.h:598-647 computeForRuns / compute *)
  Fixpoint pbv_runs (fuel : nat) (runs : list Run) (vv : nat * bool) (level : nat) {struct fuel}
    : out (nat * bool) :=
    match fuel with
    | 0 => None
    | S f =>
        (fix go (runs : list Run) (vv : nat * bool) : out (nat * bool) :=
           match runs with
           | [] => Some (vv, [])
           | run :: rest =>
               '((run, vv), o1) <- pbv_do_loop loop_fuel level run vv ;;
               if negb (is_run_empty run) then
                 run' <- navigate run ;;
                 '(vv, o2) <- (if sampling_size <=? S level then pbv_phi_loop loop_fuel run' (fst vv)
                               else runs' <- split_run run' ;; pbv_runs f (rev runs') vv (S level)) ;;
                 '(p, o3) <- go rest vv ;; Some (p, o1 ++ o2 ++ o3)
               else
                 '(p, o3) <- go rest vv ;; Some (p, o1 ++ o3)
           end) runs vv
    end.

  (** phi.h:586-594 operator() *)
  Definition pbv_range (fuel : nat) (range : Range) (prev : nat) : option (list nat) :=
    if is_range_empty range then Some []
    else vv <- phiv prev ;;
         runs <- split_range range ;;
         '(_, o) <- pbv_runs fuel (rev runs) vv 0 ;; Some o.
End BackwardForRange.

(** phi.h:779-804 ComputeAllValuesWithPhiForRange *)
Definition compute_all_values {Range Data} (phi_for_range : Range -> nat -> option (list nat))
  (compute_toehold : Data -> option nat) (update_range : Range -> Range)
  (range : Range) (data : Data) : option (list nat) :=
  k <- compute_toehold data ;;
  o <- phi_for_range (update_range range) k ;;
  Some (k :: o).

(** toehold.h:14-20 DataBackwardSearchStep *)
Record step_data (RunData : Type) := mk_step_data { sd_step : nat; sd_run : RunData }.
Arguments mk_step_data {RunData}.
Arguments sd_step {RunData}.
Arguments sd_run {RunData}.

(** toehold.h:57-78 ComputeDataBackwardSearchStep *)
Definition compute_step_data {Range Next RunData}
  (is_lf_trivial : Range -> nat -> Next -> bool)
  (create_data : Range -> nat -> Next -> nat -> step_data RunData)
  (range : Range) (next : Next) (c step : nat) (last : step_data RunData) : step_data RunData :=
  if (sd_step last =? 0) || negb (is_lf_trivial range c next)
  then create_data range c next step
  else last.

(** toehold.h:117-135 ComputeToehold (unsigned subtraction). *)
Definition compute_toehold {RunData} (get_sa_value : RunData -> option nat) (n : nat)
  (d : step_data RunData) : option nat :=
  v <- get_sa_value (sd_run d) ;;
  umod (sub64 (sub64 (v + n) (sd_step d)) 1) n.

(** tools.h:315-346 ComputeSAValue: while (!sample) navigate; the fuel bounds the number of
    jumps, [None] when exceeded.  The result adds (backward) or subtracts (forward) the jumps. *)
Fixpoint compute_sa_value {RunData} (fuel : nat) (get_sample : RunData -> option (option nat))
  (navigate : RunData -> option RunData) (seq_size : nat) (backward : bool)
  (n_jumps : nat) (d : RunData) : option nat :=
  sample <- get_sample d ;;
  match sample with
  | Some x => umod (if backward then x + 1 + seq_size + n_jumps
                    else sub64 (x + 1 + seq_size) n_jumps) seq_size
  | None => match fuel with
            | 0 => None
            | S f => d' <- navigate d ;;
                     compute_sa_value f get_sample navigate seq_size backward (S n_jumps) d'
            end
  end.

Section Engine.
  (** index_base.h:204-293 RIndexBase *)
  Context {Range Next Data : Type}.
  Variable lf : Range -> nat -> option Next.
  Variable to_range : Next -> Range.              (* conversion at index_base.h:248 and 274 *)
  Variable update_toehold : Range -> Next -> nat -> nat -> Data -> Data.
  Variable compute_all : Range -> Data -> option (list nat).
  Variable bwt_size : nat.
  Variable initial_toehold : Data.
  Variable get_symbol : nat -> option nat.
  Variable full_range : nat -> Range.
  Variable is_range_empty : Range -> bool.

  (** index_base.h:242-249; the pattern is given reversed; [i] is the step number. *)
  Fixpoint locate_loop (rpattern : list nat) (range : Range) (i : nat) (d : Data)
    : option (Range * Data) :=
    match rpattern with
    | [] => Some (range, d)
    | ch :: rest =>
        if is_range_empty range then Some (range, d)
        else
          c <- get_symbol ch ;;
          next <- lf range c ;;
          locate_loop rest (to_range next) (i - 1) (update_toehold range next c i d)
    end.
  (** index_base.h:235-254 Locate; for an empty pattern the step counter wraps but is unused. *)
  Definition engine_locate (pattern : list nat) : option (list nat) :=
    '(range, d) <- locate_loop (rev pattern) (full_range bwt_size) (length pattern - 1) initial_toehold ;;
    if is_range_empty range then Some [] else compute_all range d.

  (** index_base.h:272-275 *)
  Fixpoint count_loop (rpattern : list nat) (range : Range) : option Range :=
    match rpattern with
    | [] => Some range
    | ch :: rest =>
        if is_range_empty range then Some range
        else
          c <- get_symbol ch ;;
          next <- lf range c ;;
          count_loop rest (to_range next)
    end.
  (** index_base.h:256-278 Count *)
  Definition engine_count (pattern : list nat) : option Range :=
    count_loop (rev pattern) (full_range bwt_size).
End Engine.
