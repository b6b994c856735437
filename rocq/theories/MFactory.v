(** Model of the factories of the benchmarks: benchmark/sr-csa/factory.h and benchmark/sr-index/factory.h (the two
    classes differ in their lists of index types only).

    Left out: the size in bytes that goes with an index, the length of the text (sizeSequence), and the end of the
    factory, which ends its storage (C70).  A file that does not read as what it is asked for ends the load like a
    missing one (SDSL does not check what it reads). *)
From Coq Require Import List Arith Bool String.
From Verif Require Import MBase MRle MConstruct MPhi MRIndex MStore.
Import ListNotations.

(** benchmark/sr-csa/factory.h:23-36 IndexEnum *)
Inductive csa_enum :=
| E_R_CSA | E_CSA_RAW | E_SR_CSA | E_SR_CSA_VM | E_SR_CSA_VA | E_SR_CSA_SLIM | E_SR_CSA_SLIM_VM | E_SR_CSA_SLIM_VA
| E_R_CSA_PSI_RUNS | E_SR_CSA_PSI_RUNS | E_SR_CSA_PSI_RUNS_VM | E_SR_CSA_PSI_RUNS_VA.
Definition csa_rank (e : csa_enum) : nat :=
  match e with
  | E_R_CSA => 0 | E_CSA_RAW => 1 | E_SR_CSA => 2 | E_SR_CSA_VM => 3 | E_SR_CSA_VA => 4 | E_SR_CSA_SLIM => 5
  | E_SR_CSA_SLIM_VM => 6 | E_SR_CSA_SLIM_VA => 7 | E_R_CSA_PSI_RUNS => 8 | E_SR_CSA_PSI_RUNS => 9
  | E_SR_CSA_PSI_RUNS_VM => 10 | E_SR_CSA_PSI_RUNS_VA => 11
  end.
(** The class that each case makes (benchmark/sr-csa/factory.h:66-157) *)
Definition csa_kind (e : csa_enum) : kind :=
  match e with
  | E_R_CSA => KRCSA | E_CSA_RAW => KCSARaw
  | E_SR_CSA => KSrCSA | E_SR_CSA_VM => KSrCSAVM | E_SR_CSA_VA => KSrCSAVA
  | E_SR_CSA_SLIM => KSlim | E_SR_CSA_SLIM_VM => KSlimVM | E_SR_CSA_SLIM_VA => KSlimVA
  | E_R_CSA_PSI_RUNS => KRCSAPsi
  | E_SR_CSA_PSI_RUNS => KSrPsi | E_SR_CSA_PSI_RUNS_VM => KSrPsiVM | E_SR_CSA_PSI_RUNS_VA => KSrPsiVA
  end.
(** benchmark/sr-index/factory.h:22-27 IndexEnum and its cases (57-87) *)
Inductive sri_enum := E_R_INDEX | E_SR_INDEX | E_SR_INDEX_VM | E_SR_INDEX_VA.
Definition sri_rank (e : sri_enum) : nat :=
  match e with E_R_INDEX => 0 | E_SR_INDEX => 1 | E_SR_INDEX_VM => 2 | E_SR_INDEX_VA => 3 end.
Definition sri_kind (e : sri_enum) : kind :=
  match e with E_R_INDEX => KRIndex | E_SR_INDEX => KSrIndex | E_SR_INDEX_VM => KSrIndexVM | E_SR_INDEX_VA => KSrIndexVA end.

(** What a load leaves in the storage, also when it throws (index_base.h:93-165): each item that was read stays; a
    support that cannot be read leaves its vector. *)
Definition exec_left (p : string) (c : cmd) (s : lstate) : lstate :=
  match exec p c s with
  | Some s => s
  | None =>
      match c with
      | LItem _ _ _ => s
      | LSup sp k h => match load_raw (TyBv (sup_class sp)) (realize p k) h s with Some s => s | None => s end
      end
  end.
Fixpoint run_left (p : string) (cs : list cmd) (s : lstate) : lstate :=
  match cs with
  | [] => s
  | c :: cs => match exec p c s with Some s => run_left p cs s | None => exec_left p c s end
  end.
Definition load_left (tm : tmpl) (kd : kind) (o : obj) (fs : files) : store :=
  ls_store (run_left (ob_prefix o) (load_all tm kd ++ load_build tm kd) (mk_lstate (ob_store o) (SrcFiles fs) [])).

Section Factory.
  Variables (E : Type) (rank_of : E -> nat) (kind_of : E -> kind) (tm : tmpl).

  (** Config: benchmark/sr-csa/factory.h:38-45, benchmark/sr-index/factory.h:29-36 *)
  Record cfg := mk_cfg { cf_type : E; cf_rate : nat }.
  Definition cfg_lt (a b : cfg) : bool :=
    (rank_of (cf_type a) <? rank_of (cf_type b)) ||
    ((rank_of (cf_type a) =? rank_of (cf_type b)) && (cf_rate a <? cf_rate b)).
  (** An index that was handed out: its class, and what its functors hold besides references to the storage. *)
  Record handle := mk_handle { ha_kind : kind; ha_rate : nat; ha_prefix : string }.
  (** std::map::find: the element that is neither less nor greater (the order of the list does not matter). *)
  Fixpoint made_find (l : list (cfg * handle)) (c : cfg) : option handle :=
    match l with
    | [] => None
    | (x, h) :: l => if negb (cfg_lt x c) && negb (cfg_lt c x) then Some h else made_find l c
    end.
  (** benchmark/sr-csa/factory.h:166-173, benchmark/sr-index/factory.h:96-103: config_ (the cache directory), storage_, indexes_ *)
  Record factory := mk_factory { fa_files : files; fa_store : store; fa_made : list (cfg * handle) }.
  Definition new_factory (fs : files) : factory := mk_factory fs [] [].
  (** make: benchmark/sr-csa/factory.h:59-164, benchmark/sr-index/factory.h:50-94; [None]: the load throws, before
      indexes_ is changed *)
  Definition make (f : factory) (c : cfg) : factory * option handle :=
    match made_find (fa_made f) c with
    | Some h => (f, Some h)
    | None =>
        let o := new_rate (cf_rate c) (fa_store f) in
        match load_config tm (kind_of (cf_type c)) o (fa_files f) with
        | Some o =>
            let h := mk_handle (kind_of (cf_type c)) (ob_rate o) (ob_prefix o) in
            (mk_factory (fa_files f) (ob_store o) ((c, h) :: fa_made f), Some h)
        | None => (mk_factory (fa_files f) (load_left tm (kind_of (cf_type c)) o (fa_files f)) (fa_made f), None)
        end
    end.
  (** What happens to a factory: a call of make, or a change of the cache directory (by construct, say). *)
  Inductive event := FMake (c : cfg) | FFiles (fs : files).
  Definition happen (f : factory) (e : event) : factory * option handle :=
    match e with FMake c => make f c | FFiles fs => (mk_factory fs (fa_store f) (fa_made f), None) end.
  (** A history, with the indexes the calls return. *)
  Fixpoint history (f : factory) (l : list event) : factory * list (option handle) :=
    match l with
    | [] => (f, [])
    | e :: l => let '(f, r) := happen f e in let '(f, rs) := history f l in (f, r :: rs)
    end.
  (** Queries of an index that was handed out, when the factory is [f]. *)
  Definition ask_locate (f : factory) (h : handle) (p : list nat) : option (list nat) :=
    obj_locate tm (ha_kind h) (mk_obj (ha_rate h) (ha_prefix h) (fa_store f)) p.
  Definition ask_count (f : factory) (h : handle) (p : list nat) : option range :=
    obj_count tm (ha_kind h) (mk_obj (ha_rate h) (ha_prefix h) (fa_store f)) p.
End Factory.
Arguments mk_cfg {E}. Arguments FMake {E}. Arguments FFiles {E}. Arguments cf_type {E}. Arguments cf_rate {E}.
