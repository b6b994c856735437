(** What is counted in the calls of a Locate. *)
From Coq Require Import List Arith Bool.
From Verif Require Import MTrace.
Import ListNotations.

Definition total (f : call -> nat) (t : list call) : nat := fold_right (fun c k => f c + k) 0 t.
(** Steps of the backward search. *)
Definition steps : list call -> nat := total (fun c => match c with Step => 1 | _ => 0 end).
(** Look-ups of samples. *)
Definition samples : list call -> nat := total (fun c => match c with Sample => 1 | _ => 0 end).
(** Moves of a run or of a row by LF or by Psi. *)
Definition moves : list call -> nat := total (fun c => match c with Move => 1 | _ => 0 end).
(** Computations of phi. *)
Definition phis : list call -> nat := total (fun c => match c with Phi => 1 | _ => 0 end).
(** Runs that cuts of rows give. *)
Definition pieces : list call -> nat := total (fun c => match c with Split k => k | _ => 0 end).
(** The reported values, in order. *)
Definition reports (t : list call) : list nat := flat_map (fun c => match c with Report v => [v] | _ => [] end) t.

(** The calls [t] of a Locate of a pattern of [m] symbols in an index with rate [s], against its number of reports. *)
Definition cheap (s m : nat) (t : list call) : Prop :=
  let occ := length (reports t) in
  let rate := Nat.max 1 s in
  steps t <= m /\ phis t <= occ /\ moves t <= rate * occ /\ samples t <= (rate + 1) * occ /\ pieces t <= (rate + 1) * occ.

(** The calls of an index that keeps every sample: one look-up and one phi per further report. *)
Definition direct (m : nat) (t : list call) : Prop :=
  let occ := length (reports t) in
  steps t <= m /\ moves t = 0 /\ pieces t = 0 /\ samples t = Nat.min 1 occ /\ phis t = occ - 1.
