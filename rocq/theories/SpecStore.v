(** Vocabulary of the properties of the storage, of serialization and of loading. *)
From Coq Require Import List String.
From Verif Require Import MBase MStore.
Import ListNotations.

(** The cache directory holds these files. *)
Definition has_files (fs : files) (l : list (string * option ty * list token)) : Prop :=
  forall k h c, In (k, h, c) l -> file_find fs k h = Some c.

(** Storages that load members of any classes can leave, each from any source, completed or
    interrupted after any of its items. *)
Inductive reached : store -> Prop :=
| reached_empty : reached []
| reached_step : forall st tm kd p c src log s', reached st -> In c (load_all tm kd ++ load_build tm kd) ->
    exec p c (mk_lstate st src log) = Some s' -> reached (ls_store s').

(** Storages that loads of classes of [L], with any rates, from the cache directory [fs] can leave. *)
Inductive shared (tm : tmpl) (fs : files) (L : kind -> Prop) : store -> Prop :=
| shared_empty : shared tm fs L []
| shared_load : forall st kd rate o, shared tm fs L st -> L kd ->
    load_config tm kd (new_rate rate st) fs = Some o -> shared tm fs L (ob_store o).
