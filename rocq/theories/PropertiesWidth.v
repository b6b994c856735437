(** C65, C66: the packed arrays hold what is written into them.

    [file_width d n]: the number of bits per value with which the code creates the array of the file [n] of the
    directory [d] (MWidth.v).  [stored k l]: what an array of [k] bits holds after [l] is written into it (SpecWidth.v). *)
From Coq Require Import List Arith Bool String Lia.
From Verif Require Import Spec MBase MRle MConstruct MPsi MCsa MSrCsa MStore MBwt SpecBwt MCache SpecCache CacheIdeal CacheStep CacheEnd
  MWidth SpecWidth WidthProof PropertiesSrCsa PropertiesCache.
Import ListNotations.

(** * C65 *)
(** Whatever the calls that led to the directory: an array in it whose width the code takes from files that are there holds
    the values that were written. *)
Theorem C65_arrays : forall w e h p n l k,
  sound_world w e -> 0 < h -> S (List.length w) < 2 ^ 64 -> (forall c, In c w -> c < 256) -> history w e (2 * h) p ->
  d_find (pr_disk p) n = Some (Whole (ItInts l)) -> file_width (pr_disk p) n = Some k -> stored k l = l.
Proof.
  intros w e h p n l k HS Hh Hn HB H E W. destruct (world_base w e h HS Hh Hn) as [b Hb]. apply fits_stored.
  apply (file_fits w e h HS Hh Hn HB b Hb p (history_inv w e h HS Hh Hn b Hb p H) n l k); [|exact W]. unfold ints_at. rewrite E. reflexivity.
Qed.
Print Assumptions C65_arrays.
(** After a call, every array of its class is there, has a width, and holds what was written. *)
Theorem C65_class_arrays : forall w e h p r p' n,
  sound_world w e -> 0 < h -> S (List.length w) < 2 ^ 64 -> (forall c, In c w -> c < 256) -> history w e (2 * h) p ->
  run_ready w e (2 * h) r -> run_cache e r p = Some p' -> In n (class_arrays (ru_kd r) (ru_rate r)) ->
  exists l k, d_find (pr_disk p') n = Some (Whole (ItInts l)) /\ file_width (pr_disk p') n = Some k /\ stored k l = l.
Proof.
  intros w e h p r p' n HS Hh Hn HB H HR E I. destruct (after_fits w e h HS Hh Hn HB p r p' H HR E n I) as (l & k & E1 & E2 & F).
  exists l, k. split; [exact E1|]. split; [exact E2|]. apply fits_stored, F.
Qed.
Print Assumptions C65_class_arrays.
(** So do the arrays that the construction keeps in memory only. *)
Theorem C65_working_arrays : forall w e h p r p' a,
  sound_world w e -> 0 < h -> S (List.length w) < 2 ^ 64 -> (forall c, In c w -> c < 256) -> history w e (2 * h) p ->
  run_ready w e (2 * h) r -> run_cache e r p = Some p' -> In a (working_arrays (2 * h) (pr_disk p') (ru_kd r) (ru_rate r)) ->
  exists k l, a = Some (k, l) /\ stored k l = l.
Proof.
  intros w e h p r p' a HS Hh Hn HB H HR E I. destruct (after_working w e h HS Hh Hn HB p r p' H HR E a I) as (k & l & E1 & F).
  exists k, l. split; [exact E1|]. apply fits_stored, F.
Qed.
Print Assumptions C65_working_arrays.

(** The widths of the files of a class on the text of the examples, of 12 symbols and 8 runs *)
Definition widths_of (r : run) : list (option nat) :=
  map (file_width (pr_disk (ends exf_world r (new_proc [])))) (class_arrays (ru_kd r) (ru_rate r)).
Example C65_example_bytes : forall c, In c exf_w -> c < 256.
Proof. apply Forall_forall. vm_compute. repeat constructor. Qed.
Example C65_example : widths_of (ex_run Sdsl KSlimVM 3) =
  map Some [8; 4; 4; 4; 4; 4; 4; 4; 4; 4; 4; 4; 3; 4; 4; 4; 4; 3; 3; 2].
Proof. vm_compute. reflexivity. Qed.
Example C65_example_working :
  working_arrays 4 (pr_disk (ends exf_world (ex_run Sdsl KSlimVM 3) (new_proc []))) KSlimVM 3 =
  [Some (4, [3; 0; 6; 7; 8; 9; 10; 11; 5; 2; 1; 4]); Some (4, [3; 4; 1; 7; 0]); Some (4, [1; 0; 4; 3; 2])].
Proof. vm_compute. reflexivity. Qed.

(** * C66 *)
(** The first pass of the two constructors of enc_vector makes room for the second one: for every sequence and density the
    samples and pointers keep their values in the width that it computes, and both arrays have the size that it computes. *)
Theorem C66_samples : forall dens c k n m, c <> [] ->
  (ev_room dens (hd 0 c) c = (k, n, m) ->
   let v := ev_construct dens c in stored k (ev_sp v) = ev_sp v /\ List.length (ev_sp v) = n /\ List.length (ev_z v) = m) /\
  (ev_room dens 0 c = (k, n, m) ->
   let v := ev_construct_buf dens c in stored k (ev_sp v) = ev_sp v /\ List.length (ev_sp v) = n /\ List.length (ev_z v) = m).
Proof.
  intros dens c k n m Hc. destruct c as [|x t]; [congruence|]. split; intros E; cbv zeta; cbn [ev_construct ev_construct_buf ev_sp ev_z hd] in *.
  - destruct (ev_room_ok dens x (x :: t) k n m (fun z => [0; S z]) E) as (A & B & C); [intros zz v [<-|[<-|[]]]; lia|reflexivity|].
    split; [apply fits_stored, A|]. split; assumption.
  - destruct (ev_room_ok dens 0 (x :: t) k n m (fun _ => [0; 0]) E) as (A & B & C); [intros zz v [<-|[<-|[]]]; lia|reflexivity|].
    split; [apply fits_stored, A|]. split; assumption.
Qed.
Print Assumptions C66_samples.
(** The ranks of the samples of a symbol fit in the width of the last one. *)
Theorem C66_ranks : forall dens C psi pc, pc_construct dens C psi = Some pc ->
  forall ev ranks, In (ev, ranks) (pc_partial pc) -> (exists c, ev = ev_construct dens c) /\ stored (ranks_width ranks) ranks = ranks.
Proof.
  intros dens C psi pc E ev ranks I. destruct (pc_construct_ranks dens C psi pc E ev ranks I) as (c & -> & F). split; [eauto|]. apply fits_stored, F.
Qed.
Print Assumptions C66_ranks.
Example C66_example_room : ev_room 3 2 [2; 2; 7; 9; 300; 301; 1000] = (10, 8, 98).
Proof. vm_compute. reflexivity. Qed.
Example C66_example_ranks : exists pc, pc_construct 2 [0; 1; 8] [4; 0; 2; 3; 5; 6; 7; 9] = Some pc /\
  map (fun x => (snd x, ranks_width (snd x))) (pc_partial pc) = [([], 64); ([1; 3; 6], 3)].
Proof. eexists. split; [vm_compute; reflexivity|]. vm_compute. reflexivity. Qed.
