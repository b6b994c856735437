(** Model of loads from a cache directory that end with an exception, and of sizeSequence.

    A missing file makes load throw (index_base.h:117-118); what was read before stays in storage_.  MStore has only
    the loads that end, and [None] for all others; here an exception is a result.  [None] is left for reading a file
    with the content of another type.  Loads from streams do not throw: they do not test the stream.  The index has
    its own storage or one that no other object uses meanwhile. *)
From Coq Require Import List Arith Bool String.
From Verif Require Import MBase MConstruct MRIndex MStore.
Import ListNotations.

(** index_base.h:114-119 load from a cache directory.  Inner [None]: throws std::invalid_argument. *)
Definition t_fetch (fs : files) (t : ty) (k : string) (hash : bool) : option (option item) :=
  match file_find fs k (if hash then Some t else None) with
  | None => Some None
  | Some c => '(it, _) <- rd_item t c ;; Some (Some it)
  end.
(** The storage afterwards, and whether the call returned. *)
Definition tried := option (store * bool).
(** index_base.h:93-104, 126-130 loadRawItem and loadItem *)
Definition t_raw (fs : files) (t : ty) (k : string) (hash : bool) (st : store) : tried :=
  match st_get st t k with
  | Some _ => Some (st, true)
  | None =>
      r <- t_fetch fs t k hash ;;
      match r with
      | None => Some (st, false)
      | Some it => let st := st_emplace st k (mk_entry it None) in _ <- st_get st t k ;; Some (st, true)
      end
  end.
(** index_base.h:132-165 loadBVRank and loadBVSelect *)
Definition t_sup (fs : files) (sp : sup) (k : string) (hash : bool) (st : store) : tried :=
  let key_sup := (k ++ sup_suffix sp)%string in
  match st_get st (TySup sp) key_sup with
  | Some _ => Some (st, true)
  | None =>
      '(st, ok) <- t_raw fs (TyBv (sup_class sp)) k hash st ;;
      if ok then
        r <- t_fetch fs (TySup sp) k hash ;;
        match r with
        | None => Some (st, false)
        | Some it => let st := st_emplace st key_sup (mk_entry it (Some k)) in
                     _ <- st_get st (TySup sp) key_sup ;; Some (st, true)
        end
      else Some (st, false)
  end.
(** The calls of loadAllItems and constructIndex, in their order, up to the first that throws. *)
Definition t_exec (prefix : string) (fs : files) (c : cmd) (st : store) : tried :=
  match c with
  | LItem t k h => t_raw fs t (realize prefix k) h st
  | LSup sp k h => t_sup fs sp (realize prefix k) h st
  end.
Fixpoint t_run (prefix : string) (fs : files) (cs : list cmd) (st : store) : tried :=
  match cs with
  | [] => Some (st, true)
  | c :: r => '(st, ok) <- t_exec prefix fs c st ;; if ok then t_run prefix fs r st else Some (st, false)
  end.

(** An object with n_ and whether index_ is set (index_base.h:197-201). *)
Record whole := mk_whole { wh_obj : obj; wh_size : nat; wh_index : bool }.
Definition new_whole (o : obj) : whole := mk_whole o 0 false.
Definition with_store (o : obj) (st : store) : obj := mk_obj (ob_rate o) (ob_prefix o) st.
(** load(Config): loadInner (r_index.h:74-78, r_csa.h:76-80, 436-440): all items, then constructIndex, which sets n_ in
    constructLF (r_index.h:156-159, r_csa.h:164-167, 526-529) before anything else is loaded; index_ is set at its end.
    Second component: whether load returned. *)
Definition try_load (tm : tmpl) (kd : kind) (w : whole) (fs : files) : option (whole * bool) :=
  let o := wh_obj w in
  '(st, ok) <- t_run (ob_prefix o) fs (load_all tm kd) (ob_store o) ;;
  if ok then
    al <- look_alpha (with_store o st) k_alpha ;;
    n <- al_size al ;;
    '(st, ok) <- t_run (ob_prefix o) fs (load_build tm kd) st ;;
    Some (mk_whole (with_store o st) n (ok || wh_index w), ok)
  else Some (mk_whole (with_store o st) (wh_size w) (wh_index w), false).
(** Loads one after the other, from these directories; exceptions are caught. *)
Fixpoint tries (tm : tmpl) (kd : kind) (w : whole) (fss : list files) : option whole :=
  match fss with [] => Some w | fs :: r => '(w, _) <- try_load tm kd w fs ;; tries tm kd w r end.

(** index_base.h:48-57 Locate, Count and sizeSequence; a query without index_ dereferences a null pointer. *)
Definition whole_locate (tm : tmpl) (kd : kind) (w : whole) (p : list nat) : option (list nat) :=
  if wh_index w then obj_locate tm kd (wh_obj w) p else None.
Definition whole_count (tm : tmpl) (kd : kind) (w : whole) (p : list nat) : option range :=
  if wh_index w then obj_count tm kd (wh_obj w) p else None.
Definition whole_size (w : whole) : nat := wh_size w.
