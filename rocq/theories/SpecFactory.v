(** Vocabulary of the properties of the factories of the benchmarks. *)
From Coq Require Import List.
From Verif Require Import MBase MStore MFactory.
Import ListNotations.

(** The classes the names of the index types stand for. *)
Definition csa_class (e : csa_enum) : kind :=
  match e with
  | E_R_CSA => KRCSA | E_CSA_RAW => KCSARaw | E_R_CSA_PSI_RUNS => KRCSAPsi
  | E_SR_CSA => KSrCSA | E_SR_CSA_VM => KSrCSAVM | E_SR_CSA_VA => KSrCSAVA
  | E_SR_CSA_SLIM => KSlim | E_SR_CSA_SLIM_VM => KSlimVM | E_SR_CSA_SLIM_VA => KSlimVA
  | E_SR_CSA_PSI_RUNS => KSrPsi | E_SR_CSA_PSI_RUNS_VM => KSrPsiVM | E_SR_CSA_PSI_RUNS_VA => KSrPsiVA
  end.
Definition sri_class (e : sri_enum) : kind :=
  match e with E_R_INDEX => KRIndex | E_SR_INDEX => KSrIndex | E_SR_INDEX_VM => KSrIndexVM | E_SR_INDEX_VA => KSrIndexVA end.

(** [fs'] has all the files of [fs], with their contents. *)
Definition extends (fs fs' : files) : Prop := forall k h c, file_find fs k h = Some c -> file_find fs' k h = Some c.
(** Nothing that is in the directory goes away or changes. *)
Fixpoint only_adds {E} (fs : files) (l : list (event E)) : Prop :=
  match l with
  | [] => True
  | FMake _ :: l => only_adds fs l
  | FFiles fs' :: l => extends fs fs' /\ only_adds fs' l
  end.
(** The directory after a history. *)
Fixpoint dir_after {E} (fs : files) (l : list (event E)) : files :=
  match l with [] => fs | FMake _ :: l => dir_after fs l | FFiles fs' :: l => dir_after fs' l end.
