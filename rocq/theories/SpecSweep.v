(** Vocabulary of the properties of a cache directory from which files are removed. *)
From Coq Require Import List Arith Bool.
From Verif Require Import MBase MBwt MStore MCache Spec SpecBwt SpecCache.
Import ListNotations.

(** The directory without the files that [gone] names *)
Definition without (gone : name -> bool) (d : disk) : disk := filter (fun x => negb (gone (fst x))) d.
(** No file that stays stands for one that goes. *)
Definition tidy (dens : nat) (gone : name -> bool) (d : disk) : Prop :=
  forall n, present d n -> gone n = false -> forall o, In o (bundle dens n) -> gone o = false.
(** What completed calls, calls stopped with a [closed] directory, and tidy removals, between the calls of a
    process or by others, can lead to. *)
Inductive swept (w : list nat) (e : world) (dens : nat) : proc -> Prop :=
| sw_empty : swept w e dens (new_proc [])
| sw_run : forall p r p', swept w e dens p -> run_ready w e dens r -> run_cache e r p = Some p' -> swept w e dens p'
| sw_new : forall p, swept w e dens p -> swept w e dens (new_proc (pr_disk p))
| sw_stop : forall p r p' d, swept w e dens p -> run_ready w e dens r -> run_cache e r p = Some p' ->
    stopped (pr_disk p) (pr_disk p') d -> closed dens d -> swept w e dens (new_proc d)
| sw_remove : forall p gone, swept w e dens p -> tidy dens gone (pr_disk p) -> swept w e dens (mk_proc (without gone (pr_disk p)) (pr_map p)).

(** The files of some rates *)
Definition of_rates (f : nat -> bool) (n : name) : bool := match nm_rate n with Some s => f s | None => false end.
(** The text and the suffix array, the largest files that only construction needs *)
Definition text_or_sa (n : name) : bool :=
  match n with mk_name None (FText | FSa) None => true | _ => false end.
(** All that the steps of the classes wrote: what is left are the base items and the files of Big-BWT. *)
Definition of_classes (n : name) : bool :=
  match n with
  | mk_name None (FText | FSa | FBwt | FAlpha | FRle | FFirst | FFirstPos | FLast | FLastPos | FBigBwt | FBigSsa | FBigEsa) None => false
  | _ => true
  end.
