(** Model of one output directory that holds the files of several texts: the names of the files.

    MCache has one directory for each text, and a file is known by its rate, key and type.  Here the files of all texts
    are in one directory, under the names that SDSL gives them: the key, the hash of the type, and the name of the data
    file, joined with underscores.  A construction finds every file whose name is one of those that it asks for. *)
From Coq Require Import List Arith Bool String.
From Verif Require Import MBase MStore MCache.
Import ListNotations.

(** A data file: the directory it is in, and its name.  Config (config.h:112-120) passes the name, data_path.filename(),
    to sdsl::cache_config as the id of the files.  An empty name, for which SDSL takes the number of the process, is
    left out. *)
Record text_file := mk_text { tx_dir : string; tx_name : string }.
Definition text_eq_dec (a b : text_file) : {a = b} + {a <> b}.
Proof. decide equality; apply string_dec. Defined.
(** In the output directory, or beside the data file (construct_big_bwt.h:24-27). *)
Inductive place := InCache (file : string) | Beside (t : text_file) (k : fkey).
Definition place_eq_dec (a b : place) : {a = b} + {a <> b}.
Proof. decide equality; [apply string_dec | apply fkey_eq_dec | apply text_eq_dec]. Defined.

Section Hash.
(** sdsl::util::class_to_hash: a number, as a string *)
Variable hash : ty -> string.
(** sdsl cache_file_name, without the directory; keys with a rate: sr_index.h:27 *)
Definition file_name (id : string) (n : name) : string :=
  (name_str n ++ (match nm_hash n with Some t => "_" ++ hash t | None => "" end) ++ "_" ++ id ++ ".sdsl")%string.
Definition place_of (t : text_file) (n : name) : place :=
  match nm_key n with
  | FBigBwt | FBigSsa | FBigEsa => Beside t (nm_key n)
  | _ => InCache (file_name (tx_name t) n)
  end.

(** The writes made to the directory, the latest first: by a construction of which text, to which of its files. *)
Definition shared_disk := list (text_file * name * content).
Definition all_keys : list fkey :=
  [FText; FSa; FBwt; FAlpha; FRle; FPsi;
   FFirst; FFirstIdx; FFirstPos; FFirstByLast; FFirstSorted; FFirstLinks; FFirstValid; FFirstArea;
   FLast; FLastIdx; FLastPos; FLastByFirst; FLastSorted; FLastLinks; FLastValid; FLastArea;
   FCum; FFirstIdxAlpha; FFirstPosAlpha; FLastLinksAlpha;
   FPsiHead; FPsiHeadIdx; FPsiHeadSorted; FPsiTail; FPsiTailLinks; FPsiTailValid; FPsiTailArea; FPsiCum;
   FBigBwt; FBigSsa; FBigEsa].
(** The types of the files of classes with a Psi of the density [dens] *)
Definition all_types (dens : nat) : list ty :=
  [TyAlpha; TyRle; TyPsi dens; TyInts] ++
  flat_map (fun c => [TyBv c; TySup (SupRank c true); TySup (SupRank c false); TySup (SupSelect c)]) [BvSd; BvPlain].
(** The files of the text [t] that are the file [m] of the text [u].  A name starts with the rate, so that only files of
    one rate can be the same; files of one text are different (C95_own_names). *)
Definition aliases (dens : nat) (t u : text_file) (m : name) : list name :=
  if text_eq_dec t u then [m]
  else filter (fun n => if place_eq_dec (place_of t n) (place_of u m) then true else false)
         (flat_map (fun k => map (fun h => mk_name (nm_rate m) k h) (None :: map Some (all_types dens))) all_keys).
(** What a construction for the text [t] finds *)
Definition view_of (dens : nat) (t : text_file) (D : shared_disk) : disk :=
  flat_map (fun '(u, m, c) => map (fun n => (n, c)) (aliases dens t u m)) D.
Definition stamp (t : text_file) (ws : disk) : shared_disk := map (fun '(n, c) => (t, n, c)) ws.
(** The writes that a process adds to the directory [d], if it ends with [d'] *)
Definition new_writes (d d' : disk) : disk := firstn (List.length d' - List.length d) d'.

(** construct.h:33-38 construct(index, data_path, config) with a new Config for the text [t] *)
Definition shared_call (t : text_file) (i : input) (tm : tmpl) (kd : kind) (s : nat) (D : shared_disk) : option (obj * shared_disk) :=
  let d := view_of (t_dens tm) t D in
  '(o, p) <- construct_index i tm kd s (new_proc d) ;;
  Some (o, stamp t (new_writes d (pr_disk p)) ++ D).
End Hash.
