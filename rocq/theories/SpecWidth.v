(** The packed arrays that a completed construction leaves in the cache directory. *)
From Coq Require Import List Arith.
From Verif Require Import MBase MStore MCache.
Import ListNotations.

(** Arrays of the base items; of the classes of r_index.h and sr_index.h; of r_csa.h and sr_csa.h; of the Psi-run classes. *)
Definition base_arrays : list name := [N FBwt; N FFirst; N FFirstPos; N FLast; N FLastPos].
Definition r_arrays : list name := base_arrays ++ [N FFirstSorted; N FFirstLinks].
Definition sr_arrays (s : nat) : list name := r_arrays ++ [N FLastSorted; P s FLastIdx; P s FLastPos; P s FFirstByLast; P s FFirstLinks].
Definition sr_valid_arrays (s : nat) : list name := [P s FFirstValid; P s FFirstArea].
Definition csa_arrays : list name := base_arrays ++ [N FPsi; N FLastSorted; N FLastLinks].
Definition srcsa_arrays (s : nat) : list name := csa_arrays ++ [N FFirstSorted; P s FFirstIdx; P s FFirstPos; P s FLastByFirst; P s FLastLinks].
Definition slim_arrays (s : nat) : list name := [N FFirstIdxAlpha; N FCum; P s FFirstPosAlpha; P s FFirstIdxAlpha; P s FLastLinksAlpha].
Definition srcsa_valid_arrays (s : nat) : list name := [P s FLastValid; P s FLastArea].
Definition psi_arrays : list name := base_arrays ++ [N FPsi; NT FPsiHead TyInts; NT FPsiTail TyInts; NT FPsiTailLinks TyInts].
Definition srpsi_arrays (s : nat) : list name :=
  psi_arrays ++ [N FPsiHeadSorted; PT s FPsiHead TyInts; PT s FPsiHeadIdx TyInts; PT s FPsiTail TyInts; PT s FPsiTailLinks TyInts; NT FPsiCum TyInts].
Definition class_arrays (kd : kind) (s : nat) : list name :=
  match kd with
  | KRIndex => r_arrays
  | KSrIndex => sr_arrays s
  | KSrIndexVM | KSrIndexVA => sr_arrays s ++ sr_valid_arrays s
  | KRCSA | KCSARaw => csa_arrays
  | KSrCSA => srcsa_arrays s ++ [P s FFirst]
  | KSrCSAVM | KSrCSAVA => srcsa_arrays s ++ [P s FFirst] ++ srcsa_valid_arrays s
  | KSlim => srcsa_arrays s ++ slim_arrays s
  | KSlimVM | KSlimVA => srcsa_arrays s ++ slim_arrays s ++ srcsa_valid_arrays s
  | KRCSAPsi => psi_arrays
  | KSrPsi => srpsi_arrays s
  | KSrPsiVM | KSrPsiVA => srpsi_arrays s ++ [PT s FPsiTailArea TyInts]
  end.
(** Every value fits in [k] bits. *)
Definition fits (k : nat) (l : list nat) : Prop := Forall (fun v => v < 2 ^ k) l.
(** What an array of [k] bits per value holds after [l] is written into it: the low bits. *)
Definition stored (k : nat) (l : list nat) : list nat := map (fun v => v mod 2 ^ k) l.
