(** Model of the widths of the packed arrays: the number of bits per value with which each array of the cache
    directory, each working array of the construction, and each array of Psi is created. *)
From Coq Require Import List Arith Bool.
From Verif Require Import MBase MRle MConstruct MPsi MCsa MSrCsa MStore MCache.
Import ListNotations.

(** sdsl::bits::hi (external): the position of the highest bit that is set, 0 for 0. *)
Definition hi (x : nat) : nat := Nat.log2 x.

(** * Files *)
(** Where the width of an array comes from: a constant, hi(size of a file) + 1, hi(largest value) + 1, or the width of the
    array loaded from a file. *)
Inductive width_source := WFixed (bits : nat) | WSize (n : name) | WMax | WFile (n : name).
Definition source (n : name) : option width_source :=
  match nm_rate n, nm_key n with
  (* construct_sdsl.h:23-24, 142 and construct_big_bwt.h:46: int_vector<8> *)
  | None, (FText | FBwt) => Some (WFixed 8)
  (* construct_sdsl.h:65-72, construct_big_bwt.h:59-62: hi(n) + 1 *)
  | None, (FFirst | FFirstPos | FLast | FLastPos) => Some (WSize (N FBwt))
  (* construct.h:83: bit_compress (external) *)
  | None, FPsi => Some WMax
  (* construct.h:143-145 sortIndices and 161-162 constructMarkToSampleLinks *)
  | None, (FFirstSorted | FFirstLinks) => Some (WSize (N FFirstPos))
  | None, (FLastSorted | FLastLinks) => Some (WSize (N FLastPos))
  | None, FPsiHeadSorted => Some (WSize (NT FPsiHead TyInts))
  | None, FPsiTailLinks => Some (WSize (NT FPsiTail TyInts))
  (* construct.h:122-127 *)
  | None, FPsiHead => Some (WFile (N FFirstPos))
  | None, FPsiTail => Some (WFile (N FLastPos))
  (* sr_csa.h:1061-1075 *)
  | None, (FFirstIdxAlpha | FCum) => Some (WSize (N FFirst))
  (* sr_csa_psi.h:711-716 *)
  | None, FPsiCum => Some (WSize (NT FPsiHead TyInts))
  (* sr_index.h:579-580, 605, 614; sr_csa.h:883-884, 903, 912; sampling.h:62-64 and sr_csa_psi.h:562 *)
  | Some _, FLastIdx => Some (WSize (N FLastPos))
  | Some _, FLastPos => Some (WFile (N FLastPos))
  | Some _, FFirstIdx => Some (WSize (N FFirstPos))
  | Some _, FFirstPos => Some (WFile (N FFirstPos))
  | Some _, FPsiHeadIdx => Some (WSize (NT FPsiHead TyInts))
  | Some _, FPsiHead => Some (WFile (NT FPsiHead TyInts))
  (* sr_index.h:660, 667-670; sr_csa.h:942, 949-952; sr_csa_psi.h:625, 666-671: r_prime is the number of the sub-samples,
     in sr_csa_psi.h of the sub-sampled marks *)
  | Some _, FFirstByLast => Some (WFile (N FFirstPos))
  | Some s, FFirstLinks => Some (WSize (P s FLastIdx))
  | Some _, FLastByFirst => Some (WFile (N FLastPos))
  | Some s, FLastLinks => Some (WSize (P s FFirstIdx))
  | Some _, FPsiTail => Some (WFile (NT FPsiTail TyInts))
  | Some s, FPsiTailLinks => Some (WSize (PT s FPsiTail TyInts))
  (* sr_index.h:703-727, sr_csa.h:1184-1208, sr_csa_psi.h:791-792.  The validity marks of the last are
     of 64 bits: line 791 gives the width in the place of the default value *)
  | Some s, FFirstValid => Some (WSize (P s FFirstByLast))
  | Some s, FLastValid => Some (WSize (P s FLastByFirst))
  | Some _, FPsiTailValid => Some (WFixed 64)
  | Some _, (FFirstArea | FLastArea | FPsiTailArea) => Some WMax
  (* sr_csa.h:1161 *)
  | Some _, FFirst => Some (WFile (N FFirst))
  (* sr_csa.h:1113, 1105 with 1116, and 1141 *)
  | Some s, FFirstPosAlpha => Some (WFile (P s FFirstPos))
  | Some s, FFirstIdxAlpha => Some (WFile (P s FFirstIdx))
  | Some s, FLastLinksAlpha => Some (WFile (P s FLastLinks))
  | _, _ => None
  end.
Definition ints_at (d : disk) (n : name) : option (list nat) :=
  match d_find d n with Some (Whole (ItInts l)) => Some l | _ => None end.
(** The width of a file, from the other files of the directory; [None]: one of them is missing, or more than [fuel] arrays
    pass a width on. *)
Fixpoint width_from (fuel : nat) (d : disk) (n : name) : option nat :=
  match fuel with
  | 0 => None
  | S f =>
      s <- source n ;;
      match s with
      | WFixed k => Some k
      | WSize m => l <- ints_at d m ;; Some (hi (List.length l) + 1)
      | WMax => l <- ints_at d n ;; Some (hi (list_max l) + 1)
      | WFile m => width_from f d m
      end
  end.
Definition file_width (d : disk) (n : name) : option nat := width_from 4 d n.

(** * Working arrays *)
(** sr_index.h:627-640 subsample_to_mark_links: of the width of the indices *)
Definition to_marks_backward (d : disk) (s : nat) : option (nat * list nat) :=
  idx <- ints_at d (P s FLastIdx) ;; first <- ints_at d (N FFirst) ;; k <- file_width d (P s FLastIdx) ;;
  l <- mmap (fun i => umod (i + 1) (List.length first)) idx ;; Some (k, l).
(** sr_csa.h:969-1019 *)
Definition to_marks_forward (dens : nat) (d : disk) (s : nat) : option (nat * list nat) :=
  idx <- ints_at d (P s FFirstIdx) ;; k <- file_width d (P s FFirstIdx) ;;
  '(b, pc) <- load_lf_psi dens (new_proc d) ;; l <- sample_to_mark_bwt b pc idx ;; Some (k, l).
(** sr_csa_psi.h:592-611 *)
Definition to_marks_psi (d : disk) (s : nat) : option (nat * list nat) :=
  idx <- ints_at d (PT s FPsiHeadIdx TyInts) ;; heads <- ints_at d (NT FPsiHead TyInts) ;;
  k <- file_width d (PT s FPsiHeadIdx TyInts) ;; l <- sample_to_mark_psi (List.length heads) idx ;; Some (k, l).
(** sr_csa.h:1105 subsamples_idx_to_sorted, of the width of the indices *)
Definition to_sorted_slim (d : disk) (s : nat) : option (nat * list nat) :=
  sorted <- ints_at d (N FFirstIdxAlpha) ;; idx <- ints_at d (P s FFirstIdx) ;; samples <- ints_at d (P s FFirstPos) ;;
  k <- file_width d (P s FFirstIdx) ;;
  bv <- construct_bit_vector idx (List.length sorted) false ;;
  '(_, _, _, _, l) <- mfold (sorted_step bv samples) sorted (0, 0, [], [], repeat 0 (List.length idx)) ;; Some (k, l).

(** psi.h:23-37 constructPsi: the array before bit_compress, of hi(C[sigma]) + 1 bits *)
Definition psi_array (d : disk) : option (nat * list nat) :=
  al <- load_alpha (new_proc d) (N FAlpha) ;; s <- load_rle (new_proc d) (N FRle) ;;
  n <- nth_error (al_C al) (List.length (al_C al) - 1) ;; l <- construct_psi (rle_access s) (al_C al) ;;
  Some (hi n + 1, l).
(** The working arrays of the construction of a class *)
Definition working_arrays (dens : nat) (d : disk) (kd : kind) (s : nat) : list (option (nat * list nat)) :=
  match kd with
  | KRIndex => []
  | KSrIndex | KSrIndexVM | KSrIndexVA => [to_marks_backward d s]
  | KRCSA | KCSARaw | KRCSAPsi => [psi_array d]
  | KSrCSA | KSrCSAVM | KSrCSAVA => [psi_array d; to_marks_forward dens d s]
  | KSlim | KSlimVM | KSlimVA => [psi_array d; to_marks_forward dens d s; to_sorted_slim d s]
  | KSrPsi | KSrPsiVM | KSrPsiVA => [psi_array d; to_marks_psi d s]
  end.

(** * Psi *)
(** enc_vector.hpp:232-244 (and 302-313): the first pass: the largest sample, the number of bits of the deltas, and the
    number of samples *)
Fixpoint ev_scan (dens no_sample v1 max_sample z_size samples : nat) (c : list nat) : nat * nat * nat :=
  match c with
  | [] => (max_sample, z_size, samples)
  | v2 :: t =>
      match no_sample with
      | 0 => ev_scan dens (dens - 1) v2 (if max_sample <? v2 then v2 else max_sample) z_size (S samples) t
      | S k => ev_scan dens k v2 max_sample (z_size + ed_length (v2 - v1)) samples t
      end
  end.
(** enc_vector.hpp:248-252, 272 (and 316-325): what the second pass writes into: the width and the size of the array of
    samples and pointers, and the size of the bit vector of the deltas.  [v1]: the value before the first one, *it or 0. *)
Definition ev_room (dens v1 : nat) (c : list nat) : nat * nat * nat :=
  let '(max_sample, z_size, samples) := ev_scan dens 0 v1 0 0 0 c in
  (if z_size + 1 <? max_sample then hi max_sample + 1 else hi (z_size + 1) + 1, 2 * samples + 2, z_size).
(** psi.h:101-102: the width of the ranks, from the last one; 64 when there is none *)
Definition ranks_width (ranks : list nat) : nat :=
  match ranks with [] => 64 | _ => hi (last ranks 0) + 1 end.
