(** C71: the factories of the benchmarks hand out exact indexes. *)
From Coq Require Import List Arith Bool String.
From Verif Require Import Spec MBase MRle MConstruct MPhi MRIndex MStore SpecStore StoreRound StoreEnd PropertiesSrCsa PropertiesStore
  MFactory SpecFactory FactoryProof.
Import ListNotations.

(** benchmark/sr-csa: any calls of make, with any types and rates, in any order and any number of times, while files are
    added to the cache directory.  Each call for an index whose files are there when it is made succeeds, whatever
    calls have failed before; the index is of the class and the rate asked for and, after the whole history,
    gives exact answers; to ask again for it gives the same index and leaves the factory as it is. *)
Theorem C71_csa_factory : forall tm w sa data h fs (evs : list (event csa_enum)) f rs,
  zero_free w -> is_suffix_array (terminated w) sa -> data = w \/ data = terminated w ->
  0 < h -> t_dens tm = 2 * h -> S (List.length w) < 2 ^ 64 -> only_adds fs evs ->
  history csa_enum csa_rank csa_kind tm (new_factory csa_enum fs) evs = (f, rs) ->
  forall i c v, nth_error evs i = Some (FMake c) -> build tm (csa_class (cf_type c)) (cf_rate c) data sa = Some v ->
    has_files (dir_after fs (firstn i evs)) (map (file_of (rate_prefix (cf_rate c))) (built_files tm (csa_class (cf_type c)) v)) ->
    exists hd, nth_error rs i = Some (Some hd) /\
      ha_kind hd = csa_class (cf_type c) /\ ha_rate hd = cf_rate c /\ make csa_enum csa_rank csa_kind tm f c = (f, Some hd) /\
      forall p, pattern_over w p -> exists l s e,
        ask_locate csa_enum tm f hd p = Some l /\ exact_answer p w l /\
        ask_count csa_enum tm f hd p = Some (s, e) /\ row_interval p w sa s e.
Proof.
  apply (factory_exact csa_enum csa_rank csa_kind csa_class).
  - intros a b. destruct a, b; (reflexivity || discriminate).
  - intros a b. destruct a, b; reflexivity.
  - intros a. destruct a; reflexivity.
Qed.
Print Assumptions C71_csa_factory.

(** benchmark/sr-index *)
Theorem C71_sri_factory : forall tm w sa data h fs (evs : list (event sri_enum)) f rs,
  zero_free w -> is_suffix_array (terminated w) sa -> data = w \/ data = terminated w ->
  0 < h -> t_dens tm = 2 * h -> S (List.length w) < 2 ^ 64 -> only_adds fs evs ->
  history sri_enum sri_rank sri_kind tm (new_factory sri_enum fs) evs = (f, rs) ->
  forall i c v, nth_error evs i = Some (FMake c) -> build tm (sri_class (cf_type c)) (cf_rate c) data sa = Some v ->
    has_files (dir_after fs (firstn i evs)) (map (file_of (rate_prefix (cf_rate c))) (built_files tm (sri_class (cf_type c)) v)) ->
    exists hd, nth_error rs i = Some (Some hd) /\
      ha_kind hd = sri_class (cf_type c) /\ ha_rate hd = cf_rate c /\ make sri_enum sri_rank sri_kind tm f c = (f, Some hd) /\
      forall p, pattern_over w p -> exists l s e,
        ask_locate sri_enum tm f hd p = Some l /\ exact_answer p w l /\
        ask_count sri_enum tm f hd p = Some (s, e) /\ row_interval p w sa s e.
Proof.
  apply (factory_exact sri_enum sri_rank sri_kind sri_class).
  - intros a b. destruct a, b; (reflexivity || discriminate).
  - intros a b. destruct a, b; reflexivity.
  - intros a. destruct a; reflexivity.
Qed.
Print Assumptions C71_sri_factory.

(** Concrete cases, over "abracadabra": all types with the rates 2 and 3, and again. *)
Definition fac_files (kinds : list kind) : files :=
  List.concat (map (fun r => List.concat (map (fun kd => match cache ex_sd kd r exf_w exf_sa with Some fs => fs | None => [] end) kinds)) [2; 3]).
Definition fac_run {E} (rank_of : E -> nat) (kind_of : E -> kind) (types : list E) (p : list nat) : option (list (option (list nat))) :=
  let calls := flat_map (fun t => [mk_cfg t 2; mk_cfg t 3]) types in
  let '(f, hs) := history E rank_of kind_of ex_sd (new_factory E (fac_files (map kind_of types))) (map FMake (calls ++ rev calls)) in
  mmap (fun h => h <- h ;; Some (ask_locate E ex_sd f h p)) hs.
Definition fac_good (n : nat) (r : option (list (option (list nat)))) : bool :=
  match r with
  | Some l => (List.length l =? n) && forallb (fun x => match x with Some [0; 7] | Some [7; 0] => true | _ => false end) l
  | None => false
  end.
Example C71_csa_run : fac_good 48 (fac_run csa_rank csa_kind
  [E_R_CSA; E_CSA_RAW; E_SR_CSA; E_SR_CSA_VM; E_SR_CSA_VA; E_SR_CSA_SLIM; E_SR_CSA_SLIM_VM; E_SR_CSA_SLIM_VA;
   E_R_CSA_PSI_RUNS; E_SR_CSA_PSI_RUNS; E_SR_CSA_PSI_RUNS_VM; E_SR_CSA_PSI_RUNS_VA] [97; 98; 114]) = true.
Proof. vm_compute. reflexivity. Qed.
Example C71_sri_run : fac_good 16 (fac_run sri_rank sri_kind [E_R_INDEX; E_SR_INDEX; E_SR_INDEX_VM; E_SR_INDEX_VA] [97; 98; 114]) = true.
Proof. vm_compute. reflexivity. Qed.
(** The hypothesis on the files is met by this directory. *)
Definition fac_types : list csa_enum := [E_R_CSA; E_SR_CSA_VM; E_SR_CSA_SLIM_VA; E_SR_CSA_PSI_RUNS].
Definition fac_dir : files := Eval vm_compute in fac_files (map csa_kind fac_types).
Example C71_files_met : forall c v, In c (flat_map (fun t => [mk_cfg t 2; mk_cfg t 3]) fac_types) ->
  build ex_sd (csa_kind (cf_type c)) (cf_rate c) exf_w exf_sa = Some v ->
  has_files fac_dir (map (file_of (rate_prefix (cf_rate c))) (built_files ex_sd (csa_kind (cf_type c)) v)).
Proof.
  intros c v Hc B. cbn [fac_types flat_map app In] in Hc.
  repeat (destruct Hc as [<-|Hc];
    [cbn [cf_type cf_rate csa_kind] in B; vm_compute in B; injection B as <-;
     match goal with |- has_files _ ?l => let l' := eval vm_compute in l in change (has_files fac_dir l') end;
     intros k h d I; cbn [In] in I; repeat (destruct I as [I|I]; [injection I as <- <- <-; vm_compute; reflexivity|]); contradiction|]).
  contradiction.
Qed.
(** Asked for too early: the first calls fail half way; files are added; the same calls succeed. *)
Definition fac_part : files := Eval vm_compute in firstn 4 fac_dir.
Definition fac_late : list (event csa_enum) :=
  [FMake (mk_cfg E_SR_CSA_VM 2); FMake (mk_cfg E_R_CSA 0); FFiles fac_dir; FMake (mk_cfg E_SR_CSA_VM 2); FMake (mk_cfg E_R_CSA 2)].
Example C71_late_adds : only_adds fac_part fac_late.
Proof. split; [|exact I]. intros k h c H. unfold fac_dir. change (file_find (fac_part ++ skipn 4 fac_dir) k h = Some c).
  revert H. generalize (skipn 4 fac_dir) as r. generalize fac_part as l. induction l as [|[[x y] d] l IH]; intros r H; [discriminate|].
  cbn [file_find app] in *. destruct (String.eqb x k); [|auto]. destruct y, h; auto. destruct (ty_eq_dec _ _); auto.
Qed.
Example C71_late_run :
  let '(f, rs) := history csa_enum csa_rank csa_kind ex_sd (new_factory csa_enum fac_part) fac_late in
  map (fun r => match r with Some hd => ask_locate csa_enum ex_sd f hd [97; 98; 114] | None => None end) rs = [None; None; None; Some [7; 0]; Some [7; 0]] /\
  List.length (fa_store csa_enum (fst (history csa_enum csa_rank csa_kind ex_sd (new_factory csa_enum fac_part) (firstn 1 fac_late)))) = 2.
Proof. vm_compute. auto. Qed.
