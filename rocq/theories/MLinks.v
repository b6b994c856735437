(** Model of two overloads that only the tests of the library call. *)
From Coq Require Import List Arith.
From Verif Require Import MBase MPsi MCsa.
Import ListNotations.

(** phi.h:190-205 computeMarkToSampleLinkForPhiForward over all marks: [select_mark] from 1, [rank_sample] as the rank support
    of a bit vector; the reported pairs in order.  [link_to_sample] is phi.h:216-229.  A rank of 0 would wrap around in the
    unsigned subtraction; it is undefined here. *)
Definition sample_rank (rank_sample : nat -> option nat) (k : nat) : option nat :=
  r <- rank_sample (k + 1) ;; if r =? 0 then None else Some (r - 1).
Definition all_links_to_sample (n r : nat) (select_mark rank_sample lf psi : nat -> option nat) : option (list (nat * nat)) :=
  mmap (fun i => t <- select_mark i ;; k <- link_to_sample lf psi (fun k => k) n t ;; j <- sample_rank rank_sample k ;; Some (i - 1, j)) (seq 1 r).
(** psi.h:383-393 computeForwardRuns without report: the first and last positions of the reported pieces *)
Definition forward_runs_list (pc : psi_core) (c first_rank last_rank : nat) : option (list (nat * nat)) :=
  ps <- pc_forward_runs pc c first_rank last_rank ;; Some (map (fun p => (pi_first p, pi_last p)) ps).
