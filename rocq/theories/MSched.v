(** Model of several constructions over one cache directory at the same time.

    The files of a cache_config (construct_sdsl.h:125-163, construct_big_bwt.h:92-123, construct.h:69-92, and the
    construct functions of the classes: r_index.h:283-293, sr_index.h:455-571, r_csa.h:339-378 and 623-677,
    sr_csa.h:746-874, sr_csa_psi.h:462-828) are shared by every process that is given the same directory and id;
    nothing locks them.  Each process has its own file_map.  Simplification: a turn is one or more whole steps of MCache.v (a guard
    and the writes behind it); what a switch within a step does is shown in PropertiesSched.v. *)
From Coq Require Import List Arith.
From Verif Require Import MBase MStore MBwt MCache.
Import ListNotations.

(** A process in the middle of a call of construct (construct.h:33-38): its file_map, and the steps that it still has to do. *)
Record member := mk_member { mb_map : list (option nat * fkey); mb_todo : list step }.
(** construct of a class by a process with the file_map [m]: the steps of [build_cache] (MCache.v). *)
Definition enter (m : list (option nat * fkey)) (i : input) (tm : tmpl) (kd : kind) (s : nat) : member :=
  mk_member m (base_steps (in_route i) (in_sort i) (in_exe i) (in_data i) ++ class_steps tm kd s).
(** A turn: the first [k] steps that are left (the calls in the bodies of the construct functions cited above). *)
Definition turn (k : nat) (d : disk) (m : member) : option (disk * member) :=
  p <- run_steps (firstn k (mb_todo m)) (mk_proc d (mb_map m)) ;;
  Some (pr_disk p, mk_member (pr_map p) (skipn k (mb_todo m))).
(** Loading the index once construct is done: construct.h:33-38, t_index.load(t_config) *)
Definition load_index (tm : tmpl) (kd : kind) (s : nat) (d : disk) : option obj := load_config tm kd (new_rate s []) (files_of d).
