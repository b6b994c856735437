(** Vocabulary of the properties of constructions that share a cache directory at the same time. *)
From Coq Require Import List Arith.
From Verif Require Import MBase MStore MBwt MCache SpecCache MSched.
Import ListNotations.

(** A call of construct by a process whose file_map is [m]. *)
Definition call_of (e : world) (m : list (option nat * fkey)) (r : run) : member := enter m (input_of e r) (ru_tm r) (ru_kd r) (ru_rate r).
(** The process may be interrupted here: it is not between the sub-sampling of the Psi-run classes and the
    sub-sampling of their marks. *)
Definition may_switch (m : member) : Prop := forall c s l, mb_todo m <> step_submarks_psi c s :: l.
Definition finished (m : member) : Prop := mb_todo m = [].

(** Everything that can happen over one cache directory: [sched w e dens d l] says that the directory can be
    [d] while the calls [l] are at work on it.  Calls begin at any time, take turns in any order and of any
    length, and are dropped (killed, or done) at any time; a process that is done may begin another call.
    All calls have the same data file and the same density of Psi. *)
Inductive sched (w : list nat) (e : world) (dens : nat) : disk -> list (run * member) -> Prop :=
| s_start : forall p, history w e dens p -> sched w e dens (pr_disk p) []
| s_join : forall d l r, sched w e dens d l -> run_ready w e dens r -> sched w e dens d ((r, call_of e [] r) :: l)
| s_again : forall d l1 r m l2 r', sched w e dens d (l1 ++ (r, m) :: l2) -> finished m -> run_ready w e dens r' ->
    sched w e dens d (l1 ++ (r', call_of e (mb_map m) r') :: l2)
| s_drop : forall d l1 x l2, sched w e dens d (l1 ++ x :: l2) -> sched w e dens d (l1 ++ l2)
| s_turn : forall d l1 r m l2 k d' m', sched w e dens d (l1 ++ (r, m) :: l2) -> turn k d m = Some (d', m') -> may_switch m' ->
    sched w e dens d' (l1 ++ (r, m') :: l2).
