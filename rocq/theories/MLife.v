(** Model of the life of index objects: construction, load, copy, move, assignment and destruction.

    Every class keeps its items in storage_ and the functors that answer in index_ (index_base.h:197-201).
    The functors hold references to the items of the storage the index was loaded into
    (std::cref, index_base.h:128, 145, 162), and the rank and select supports hold the address of their bit
    vector (set_vector, index_base.h:140, 157; rank_support_v::m_v and the like in SDSL).  No class declares a
    copy or move member, so copies are memberwise: the items are copied, the addresses inside supports are
    kept, and index_ is shared (std::shared_ptr).

    Left out: moves of one object to itself, constructors that copy a given storage that is not a
    reference, loads that end with an exception (MFail), and objects of different classes over one storage (C52). *)
From Coq Require Import List Arith Bool String.
From Verif Require Import MBase MRle MConstruct MRIndex MSrIndex MPsi MCsa MSrCsa MStore.
Import ListNotations.

(** A node of a storage (std::map does not move its nodes): the item, and for a support the storage in
    which its bit vector lives ([en_ptr] is the key there). *)
Record cell := mk_cell { ce_entry : entry; ce_home : nat }.
Definition nodes := list (string * cell).
Fixpoint nd_find (ns : nodes) (k : string) : option cell :=
  match ns with
  | [] => None
  | (x, c) :: r => if String.eqb x k then Some c else nd_find r k
  end.
(** The items alone, as in MStore. *)
Definition plain (ns : nodes) : store := map (fun x => (fst x, ce_entry (snd x))) ns.
(** The nodes of storage [a] after a load that turned [ns] into [st]: the new supports are set to vectors of
    [a] (index_base.h:135-142, 152-159), the others stay. *)
Definition retag (a : nat) (ns : nodes) (st : store) : nodes :=
  map (fun x => (fst x, mk_cell (snd x) (match nd_find ns (fst x) with Some c => ce_home c | None => a end))) st.

(** TStorage: GenericStorage, a member of the object, or a reference to one that lives elsewhere
    (benchmark/sr-csa/factory.h:18, 68). *)
Inductive place := Own (a : nat) | Ext (a : nat).
Definition place_map (pl : place) : nat := match pl with Own a => a | Ext a => a end.
(** What the functors of index_ have: the rate (by value), and references to the items with these keys. *)
Record held := mk_held { he_rate : nat; he_prefix : string; he_map : nat }.
Record idx := mk_idx { ix_rate : nat; ix_prefix : string; ix_place : place; ix_held : option held }.

(** Memory: the storages and the objects that are alive; the next free address of a storage; the storages
    that no object owns. *)
Record memory := mk_memory {
  me_next : nat; me_maps : nat -> option nodes; me_ext : nat -> bool; me_objs : nat -> option idx }.
Definition upd {A} (f : nat -> A) (a : nat) (v : A) : nat -> A := fun x => if x =? a then v else f x.
Definition empty_memory : memory := mk_memory 0 (fun _ => None) (fun _ => false) (fun _ => None).

Definition set_obj (m : memory) (x : nat) (i : option idx) : memory :=
  mk_memory (me_next m) (me_maps m) (me_ext m) (upd (me_objs m) x i).
Definition set_map (m : memory) (a : nat) (ns : option nodes) : memory :=
  mk_memory (me_next m) (upd (me_maps m) a ns) (me_ext m) (me_objs m).
Definition alloc (m : memory) (ns : nodes) : memory * nat :=
  (mk_memory (S (me_next m)) (upd (me_maps m) (me_next m) (Some ns)) (me_ext m) (me_objs m), me_next m).
(** The end of a storage_ member: a reference ends nothing. *)
Definition free_place (m : memory) (pl : place) : memory :=
  match pl with Own a => set_map m a None | Ext _ => m end.

Section Class.
  Variables (tm : tmpl) (kd : kind).

  (** Classes whose objects are moved by std::move.  A declared destructor takes the move members away
      (sr_csa.h:34, r_csa.h:398, sr_csa_psi.h:40), and then std::move copies; the classes derived from
      these get move members that copy the base. *)
  Definition moves : bool :=
    match kd with KRIndex | KSrIndex | KSrIndexVM | KSrIndexVA | KRCSA | KCSARaw => true | _ => false end.

  (** The copy of a storage_ member, and of a reference to a storage. *)
  Definition copy_place (m : memory) (pl : place) : option (memory * place) :=
    match pl with
    | Own a => ns <- me_maps m a ;; let '(m, b) := alloc m ns in Some (m, Own b)
    | Ext a => Some (m, Ext a)
    end.
  (** The move of a storage_ member: the nodes pass to the target, the source is left empty.  Third
      component: the place of the source. *)
  Definition move_place (m : memory) (pl : place) : memory * place * place :=
    match pl with
    | Own a => let '(m, b) := alloc m [] in (m, Own a, Own b)
    | Ext a => (m, Ext a, Ext a)
    end.

  Inductive op :=
  | OStorage                              (* a GenericStorage of its own *)
  | ODropStorage (a : nat)                (* its end *)
  | ONew (x : nat) (rate : option nat)    (* an object with its own storage; [None]: default-constructed *)
  | ONewExt (x : nat) (rate : nat) (a : nat)
  | OLoad (x : nat) (src : source)
  | OCopy (y x : nat)                     (* TIndex y(x) *)
  | OMove (y x : nat)                     (* TIndex y(std::move(x)) *)
  | OAssign (y x : nat)                   (* y = x *)
  | OMoveAssign (y x : nat)               (* y = std::move(x) *)
  | ODestroy (x : nat).

  Definition fresh_obj (m : memory) (x : nat) : option unit :=
    match me_objs m x with None => Some tt | Some _ => None end.
  (** load of MStore, either source *)
  Definition load_any (o : obj) (src : source) : option obj :=
    match src with
    | SrcFiles fs => load_config tm kd o fs
    | SrcStream i => '(o, _) <- load_stream tm kd o i ;; Some o
    end.
  Definition same_storage_type (a b : place) : option unit :=
    match a, b with Own _, Own _ | Ext _, Ext _ => Some tt | _, _ => None end.

  (** Copy constructor (implicit): rate, prefix and references are copied. *)
  Definition copy_to (m : memory) (y : nat) (i : idx) : option memory :=
    '(m, pl) <- copy_place m (ix_place i) ;;
    Some (set_obj m y (Some (mk_idx (ix_rate i) (ix_prefix i) pl (ix_held i)))).
  (** Move constructor (implicit, [moves]): the source keeps its rate; its string and its pointer are empty. *)
  Definition move_to (m : memory) (y x : nat) (i : idx) : memory :=
    let '(m, pl, rest) := move_place m (ix_place i) in
    set_obj (set_obj m y (Some (mk_idx (ix_rate i) (ix_prefix i) pl (ix_held i))))
      x (Some (mk_idx (ix_rate i) "" rest None)).

  (** One operation; [None]: not a program (an object or a storage that is not there, a second object at the
      same place), or a load that fails. *)
  Definition step (m : memory) (o : op) : option memory :=
    match o with
    | OStorage => let '(m, a) := alloc m [] in Some (mk_memory (me_next m) (me_maps m) (upd (me_ext m) a true) (me_objs m))
    | ODropStorage a => if me_ext m a then Some (set_map m a None) else None
    | ONew x rate =>
        _ <- fresh_obj m x ;;
        let '(m, a) := alloc m [] in
        Some (set_obj m x (Some (match rate with
                                 | Some r => mk_idx r (rate_prefix r) (Own a) None
                                 | None => mk_idx 1 "" (Own a) None
                                 end)))
    | ONewExt x rate a =>
        _ <- fresh_obj m x ;;
        if me_ext m a then Some (set_obj m x (Some (mk_idx rate (rate_prefix rate) (Ext a) None))) else None
    | OLoad x src =>
        i <- me_objs m x ;;
        let a := place_map (ix_place i) in
        ns <- me_maps m a ;;
        o <- load_any (mk_obj (ix_rate i) (ix_prefix i) (plain ns)) src ;;
        Some (set_obj (set_map m a (Some (retag a ns (ob_store o)))) x
          (Some (mk_idx (ob_rate o) (ix_prefix i) (ix_place i) (Some (mk_held (ob_rate o) (ix_prefix i) a)))))
    | OCopy y x => _ <- fresh_obj m y ;; i <- me_objs m x ;; copy_to m y i
    | OMove y x =>
        _ <- fresh_obj m y ;; i <- me_objs m x ;;
        if moves then Some (move_to m y x i) else copy_to m y i
    | OAssign y x =>
        j <- me_objs m y ;; i <- me_objs m x ;;
        if y =? x then Some m
        else _ <- same_storage_type (ix_place j) (ix_place i) ;;
             m <- copy_to m y i ;; Some (free_place m (ix_place j))
    | OMoveAssign y x =>
        j <- me_objs m y ;; i <- me_objs m x ;;
        if y =? x then None
        else _ <- same_storage_type (ix_place j) (ix_place i) ;;
             if moves then Some (free_place (move_to m y x i) (ix_place j))
             else m <- copy_to m y i ;; Some (free_place m (ix_place j))
    | ODestroy x => i <- me_objs m x ;; Some (free_place (set_obj m x None) (ix_place i))
    end.
  Fixpoint steps (m : memory) (l : list op) : option memory :=
    match l with [] => Some m | o :: l => m <- step m o ;; steps m l end.

  (** What a reference to the item with key [k] of storage [a] denotes (see [look]): [None] when the
      storage is gone, and for a support also when the storage of its bit vector is gone. *)
  Definition deref (m : memory) (a : nat) (t : ty) (k : string) : option item :=
    ns <- me_maps m a ;;
    c <- nd_find ns k ;;
    if ty_eq_dec (item_ty (en_item (ce_entry c))) t then
      match en_item (ce_entry c) with
      | ItSup sp d =>
          p <- en_ptr (ce_entry c) ;;
          ms <- me_maps m (ce_home c) ;;
          v <- st_get (plain ms) (TyBv (sup_class sp)) p ;;
          match sup_class sp, en_item v with
          | BvSd, ItBv _ _ => Some (en_item (ce_entry c))
          | BvPlain, ItBv _ b => if list_eq_dec Bool.bool_dec d b then Some (en_item (ce_entry c)) else None
          | _, _ => None
          end
      | it => Some it
      end
    else None.

  (** [view] of MStore, over what references denote. *)
  Section View.
    Variables (get : ty -> string -> option item) (rate : nat) (prefix : string).
    Definition see_alpha (k : skey) : option alphabet :=
      it <- get TyAlpha (realize prefix k) ;; match it with ItAlpha a => Some a | _ => None end.
    Definition see_rle (k : skey) : option rlestr :=
      it <- get TyRle (realize prefix k) ;; match it with ItRle s => Some s | _ => None end.
    Definition see_psi (k : skey) : option psi_core :=
      it <- get (TyPsi (t_dens tm)) (realize prefix k) ;; match it with ItPsi p => Some p | _ => None end.
    Definition see_ints (k : skey) : option (list nat) :=
      it <- get TyInts (realize prefix k) ;; match it with ItInts l => Some l | _ => None end.
    Definition see_bv (c : bvclass) (k : skey) (sups : list sup) : option (list bool) :=
      it <- get (TyBv c) (realize prefix k) ;;
      _ <- mmap (fun sp => get (TySup sp) (realize prefix k ++ sup_suffix sp)%string) sups ;;
      match it with ItBv _ b => Some b | _ => None end.
    Definition see : option loaded :=
      let m := t_marks tm in
      al <- see_alpha k_alpha ;;
      match kd with
      | KCSARaw => pc <- see_psi (k_nav kd) ;; sa <- see_ints k_sa ;; Some (LdRaw (mk_csa_raw al pc sa))
      | _ =>
          samples <- see_ints (k_samples kd) ;;
          marks <- see_bv m (k_marks kd) [SupRank m true; SupSelect m] ;;
          links <- see_ints (k_links kd) ;;
          ids <- (if has_idx kd
                  then see_bv (t_idx tm) (k_idx kd)
                         (SupRank (t_idx tm) true :: if has_idx_select kd then [SupSelect (t_idx tm)] else [])
                  else Some []) ;;
          cum <- (if has_cum kd then see_ints (k_cum kd) else Some []) ;;
          valid <- (if has_valid kd
                    then see_bv (t_valid tm) (k_valid kd) (if has_areas kd then [SupRank (t_valid tm) false] else [])
                    else Some []) ;;
          areas <- (if has_areas kd then see_ints (k_areas kd) else Some []) ;;
          match kd with
          | KRIndex => nav <- see_rle (k_nav kd) ;; Some (LdR (mk_rindex al nav samples marks links))
          | KSrIndex | KSrIndexVM | KSrIndexVA =>
              nav <- see_rle (k_nav kd) ;; Some (LdSr (mk_sri al nav rate samples marks links ids valid areas))
          | KRCSA | KRCSAPsi => nav <- see_psi (k_nav kd) ;; Some (LdCsa (mk_csa al nav samples marks links))
          | _ => nav <- see_psi (k_nav kd) ;; Some (LdSc (mk_srcsa al nav rate samples marks links ids cum valid areas))
          end
      end.
  End View.

  (** What the functors of object [x] reach; [None]: no index_, or a reference to something that is gone. *)
  Definition reach (m : memory) (x : nat) : option loaded :=
    i <- me_objs m x ;; h <- ix_held i ;; see (deref m (he_map h)) (he_rate h) (he_prefix h).
  (** index_base.h:48-54 Locate and Count of object [x] *)
  Definition at_locate (m : memory) (x : nat) (p : list nat) : option (list nat) :=
    v <- reach m x ;; locate_view kd v p.
  Definition at_count (m : memory) (x : nat) (p : list nat) : option range :=
    v <- reach m x ;; count_view v p.
  (** serialize of object [x] (through its own storage). *)
  Definition at_save (m : memory) (x : nat) : option (list token) :=
    i <- me_objs m x ;; ns <- me_maps m (place_map (ix_place i)) ;;
    Some (save tm kd (mk_obj (ix_rate i) (ix_prefix i) (plain ns))).
End Class.
