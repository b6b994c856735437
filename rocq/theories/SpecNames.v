(** Vocabulary of the property of several texts in one output directory. *)
From Coq Require Import List Arith String Ascii.
From Verif Require Import MBase MStore MCache Spec SpecCache MNames.
Import ListNotations.

(** A number in decimal *)
Definition decimal (s : string) : Prop := s <> EmptyString /\ forall c, In c (list_ascii_of_string s) -> 48 <= nat_of_ascii c <= 57.
(** The words that follow the first one in the keys of the files, and the numbers *)
Definition key_list : list string :=
  ["rle"; "run"; "cumulative"; "count"; "first"; "last"; "idx"; "text"; "pos"; "by"; "sorted"; "asc"; "to"; "link"; "valid"; "mark"; "area";
   "alphabet"]%string.
Definition key_word (s : string) : Prop := In s key_list \/ decimal s.
(** Such words, joined with underscores *)
Inductive key_words : string -> Prop :=
| kw_one : forall w, key_word w -> key_words w
| kw_more : forall w s, key_word w -> key_words s -> key_words (w ++ "_" ++ s).
(** Two names of data files that differ, and none of which is the other one with such words and an underscore in front. *)
Definition apart (a b : string) : Prop :=
  a <> b /\ (forall s, key_words s -> a <> s ++ "_" ++ b)%string /\ (forall s, key_words s -> b <> s ++ "_" ++ a)%string.

(** Texts in one output directory: which there are, and for each its content and what its constructions find outside. *)
Record texts := mk_texts { te_in : text_file -> Prop; te_text : text_file -> list nat; te_world : text_file -> world }.

(** What completed constructions of the texts, in any order, and constructions that are stopped while the files of their
    text are [closed] (as in C47) leave.  Each has a new Config. *)
Inductive shared_history (hash : ty -> string) (T : texts) (dens : nat) : shared_disk -> Prop :=
| sh_empty : shared_history hash T dens []
| sh_run : forall D t r p ws, shared_history hash T dens D -> te_in T t -> run_ready (te_text T t) (te_world T t) dens r ->
    run_cache (te_world T t) r (new_proc (view_of hash dens t D)) = Some p ->
    pr_disk p = ws ++ view_of hash dens t D -> shared_history hash T dens (stamp t ws ++ D)
| sh_stop : forall D t r p ws, shared_history hash T dens D -> te_in T t -> run_ready (te_text T t) (te_world T t) dens r ->
    run_cache (te_world T t) r (new_proc (view_of hash dens t D)) = Some p ->
    stopped (view_of hash dens t D) (pr_disk p) (ws ++ view_of hash dens t D) -> closed dens (ws ++ view_of hash dens t D) ->
    shared_history hash T dens (stamp t ws ++ D).

(** Any two of the texts have names that are [apart]. *)
Definition all_apart (T : texts) : Prop := forall t u, te_in T t -> te_in T u -> t <> u -> apart (tx_name t) (tx_name u).
(** Each text is fit for construction, and short enough for the words of the machine. *)
Definition all_sound (T : texts) : Prop := forall t, te_in T t ->
  sound_world (te_text T t) (te_world T t) /\ S (List.length (te_text T t)) < 2 ^ 64.

(** The hashes are numbers in decimal, and types have different ones. *)
Definition good_hash (hash : ty -> string) : Prop := (forall t, decimal (hash t)) /\ (forall t u, hash t = hash u -> t = u).
(** What was last written to a file of the directory, or beside a data file *)
Fixpoint latest (hash : ty -> string) (f : place) (D : shared_disk) : option content :=
  match D with
  | [] => None
  | (u, m, c) :: D => if place_eq_dec (place_of hash u m) f then Some c else latest hash f D
  end.
(** The files of the output directory that a class with a Psi of the density [dens] can ask for *)
Definition cache_name (dens : nat) (n : name) : Prop :=
  ~ In (nm_key n) [FBigBwt; FBigSsa; FBigEsa] /\ (forall d, nm_hash n = Some (TyPsi d) -> d = dens).
