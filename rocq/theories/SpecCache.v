(** Vocabulary of the properties of construction over a cache directory. *)
From Coq Require Import List Arith String.
From Verif Require Import MBase MBwt MStore MCache Spec SpecBwt.
Import ListNotations.

Definition present (d : disk) (n : name) : Prop := d_find d n <> None.
Definition whole (d : disk) (n : name) : Prop := exists it, d_find d n = Some (Whole it).

(** The files that construction takes to be complete when it finds the file [n]. *)
Definition bundle (dens : nat) (n : name) : list name :=
  match n with
  (* a bit vector: its supports; that of the sub-sampled marks of a Psi-run class: also their list; that of
     the validity marks of such a class: also the validity areas *)
  | mk_name r ((FFirstValid | FLastValid) as k) (Some (TyBv c)) =>
      [n; mk_name r k (Some (TySup (SupRank c false)))]
  | mk_name (Some s) FPsiTailValid (Some (TyBv c)) =>
      [n; PT s FPsiTailValid (TySup (SupRank c false)); PT s FPsiTailArea TyInts]
  | mk_name (Some s) FPsiTail (Some (TyBv c)) =>
      [n; PT s FPsiTail (TySup (SupRank c true)); PT s FPsiTail (TySup (SupSelect c)); PT s FPsiTail TyInts]
  | mk_name r k (Some (TyBv c)) =>
      [n; mk_name r k (Some (TySup (SupRank c true))); mk_name r k (Some (TySup (SupSelect c)))]
  (* files of the whole text *)
  | mk_name None FFirst None => [n; N FFirstPos; N FLast; N FLastPos]
  | mk_name None FPsi None => [n; NT FPsi (TyPsi dens)]
  | mk_name None FFirstLinks None => [n; N FFirstSorted]
  | mk_name None FLastLinks None => [n; N FLastSorted]
  | mk_name None FFirstIdxAlpha None => [n; N FCum]
  | mk_name None FPsiHead (Some TyInts) => [n; NT FPsiTail TyInts]
  | mk_name None FBigBwt None => [n; N FBigSsa; N FBigEsa; N FBwt]
  | mk_name None (FText | FSa | FBwt | FAlpha | FRle | FFirstSorted | FLastSorted | FPsiHeadSorted) None => [n]
  | mk_name None (FPsiTailLinks | FPsiCum) (Some TyInts) => [n]
  (* files of a rate *)
  | mk_name (Some s) FLastIdx None => [n; P s FLastPos]
  | mk_name (Some s) FFirstIdx None => [n; P s FFirstPos]
  | mk_name (Some s) FFirstLinks None => [n; P s FFirstByLast]
  | mk_name (Some s) FLastLinks None => [n; P s FLastByFirst]
  | mk_name (Some s) FFirst None => [n]
  | mk_name (Some s) FFirstPosAlpha None => [n; P s FFirstIdxAlpha; P s FLastLinksAlpha]
  | mk_name (Some s) FFirstValid None => [n; P s FFirstArea]
  | mk_name (Some s) FLastValid None => [n; P s FLastArea]
  | mk_name (Some s) FPsiHead (Some TyInts) => [n; PT s FPsiHeadIdx TyInts; PT s FPsiTail TyInts]
  | mk_name (Some s) FPsiTailValid (Some TyInts) => [n; PT s FPsiTailArea TyInts]
  | mk_name (Some s) (FPsiTail | FPsiTailLinks | FPsiTailArea) (Some TyInts) => [n]
  | _ => []
  end.
(** Every file that construction takes to be complete is. *)
Definition closed (dens : nat) (d : disk) : Prop := forall n, present d n -> forall o, In o (bundle dens n) -> whole d o.

(** * Histories of a cache directory *)
(** What a construction finds outside the directory: the data file, the suffix sorting, and Big-BWT. *)
Record world := mk_world { wd_data : list nat; wd_sort : list nat -> list nat; wd_exe : list nat -> big_files }.
(** A call of construct: the route of the base items, the template arguments, the class and the rate *)
Record run := mk_run { ru_route : route; ru_tm : tmpl; ru_kd : kind; ru_rate : nat }.
Definition input_of (e : world) (r : run) : input := mk_input (ru_route r) (wd_sort e) (wd_exe e) (wd_data e).
(** The call without the load, and with it. *)
Definition run_cache (e : world) (r : run) (p : proc) : option proc := build_cache (input_of e r) (ru_tm r) (ru_kd r) (ru_rate r) p.
Definition run_index (e : world) (r : run) (p : proc) : option (obj * proc) := construct_index (input_of e r) (ru_tm r) (ru_kd r) (ru_rate r) p.

(** The data file is the text [w], with or without its terminator; the suffix sorting sorts. *)
Definition sound_world (w : list nat) (e : world) : Prop :=
  zero_free w /\ (wd_data e = w \/ wd_data e = terminated w) /\ is_suffix_array (terminated w) (wd_sort e (terminated w)).
(** Big-BWT does as its documentation says, and the text is one that the ingestion can read (C49). *)
Definition sound_big (w : list nat) (e : world) : Prop :=
  let g := wd_exe e (wd_data e) in
  big_bwt_output w (wd_sort e (terminated w)) (bg_bwt g) (bg_ssa g) (bg_esa g) /\
  (forall c, In c w -> ~ white_space c) /\ S (List.length w) <= 256 ^ 5.
(** A call whose Psi has the density [dens], and whose route can read the text. *)
Definition run_ready (w : list nat) (e : world) (dens : nat) (r : run) : Prop :=
  t_dens (ru_tm r) = dens /\ (ru_route r = BigBwt -> sound_big w e).

(** What is left when a run that takes the directory from [d0] to [d1] is stopped: some of its writes, in
    the order in which it makes them, and perhaps a part of the next one. *)
Inductive stopped (d0 d1 : disk) : disk -> Prop :=
| stop_between : forall ws todo, d1 = todo ++ ws ++ d0 -> stopped d0 d1 (ws ++ d0)
| stop_within : forall ws todo n c, d1 = todo ++ (n, c) :: ws ++ d0 -> stopped d0 d1 ((n, Torn) :: ws ++ d0).

(** The processes that completed calls, and calls stopped with a [closed] directory, can lead to.  All
    calls have the same data file and the same density; classes, rates, routes and the other template
    arguments vary. *)
Inductive history (w : list nat) (e : world) (dens : nat) : proc -> Prop :=
| h_empty : history w e dens (new_proc [])
| h_run : forall p r p', history w e dens p -> run_ready w e dens r -> run_cache e r p = Some p' -> history w e dens p'
| h_new : forall p, history w e dens p -> history w e dens (new_proc (pr_disk p))
| h_stop : forall p r p' d, history w e dens p -> run_ready w e dens r -> run_cache e r p = Some p' ->
    stopped (pr_disk p) (pr_disk p') d -> closed dens d -> history w e dens (new_proc d).

(** What completed calls, of the same or of other processes, make of [p]. *)
Inductive later (w : list nat) (e : world) (dens : nat) (p : proc) : proc -> Prop :=
| l_refl : later w e dens p p
| l_run : forall q r q', later w e dens p q -> run_ready w e dens r -> run_cache e r q = Some q' -> later w e dens p q'
| l_new : forall q, later w e dens p q -> later w e dens p (new_proc (pr_disk q)).

(** The index of [r] that [run_index] gives is exact on the text [w]. *)
Definition exact_index (w : list nat) (e : world) (r : run) (o : obj) : Prop :=
  forall x, pattern_over w x -> exists l s t,
    obj_locate (ru_tm r) (ru_kd r) o x = Some l /\ exact_answer x w l /\
    obj_count (ru_tm r) (ru_kd r) o x = Some (s, t) /\ row_interval x w (wd_sort e (terminated w)) s t.
