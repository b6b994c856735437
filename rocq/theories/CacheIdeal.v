(** The content that every construction writes to a file of the cache directory, whatever the class, the
    rate and the route: [ideal].  It is a function of the base items and of the suffix array. *)
From Coq Require Import List Arith Bool String.
From Verif Require Import MBase MRle MConstruct MPhi MRIndex MSrIndex MPsi MCsa MSrCsa MStore MBwt MCache Lists.
Import ListNotations.

Section Ideal.
Variables (sa : list nat) (b : base_items) (dens : nat) (g : big_files).
Notation rn := (bi_runs_files b).

Definition v_psi : option (list nat) := construct_psi (rle_access (bi_bwt_rle b)) (al_C (bi_alpha b)).
Definition v_pc : option psi_core := construct_psi_core dens b.
(* links of the whole text: sorted marks, links *)
Definition v_lb := construct_links_backward (br_first_text rn).
Definition v_lf := pc <- v_pc ;; construct_links_forward_bwt b pc.
Definition v_ht := construct_psi_run_files b.
Definition v_lp := '(_, tails) <- v_ht ;; construct_links_forward_psi tails.
(* sub-samples: indices, values *)
Definition v_sb (s : nat) := '(_, links) <- v_lb ;; construct_subsamples s (br_last_text rn) links.
Definition v_sf (s : nat) := '(_, links) <- v_lf ;; construct_subsamples_backward s (br_first_text rn) links.
Definition v_sp (s : nat) := '(heads, _) <- v_ht ;; '(_, links) <- v_lp ;; construct_subsamples_backward s heads links.
(* sub-sampled marks and their links *)
Definition v_mb (s : nat) := '(idx, _) <- v_sb s ;; construct_submarks idx (br_first_text rn) (List.length (br_first rn)).
Definition v_mf (s : nat) := pc <- v_pc ;; '(idx, _) <- v_sf s ;; t <- sample_to_mark_bwt b pc idx ;; construct_submarks_of (br_last_text rn) t.
Definition v_mp (s : nat) :=
  '(heads, tails) <- v_ht ;; '(idx, _) <- v_sp s ;; t <- sample_to_mark_psi (List.length heads) idx ;; construct_submarks_of tails t.
(* validity marks and areas *)
Definition v_vb (s : nat) := '(order, _) <- v_lb ;; '(sub, _) <- v_mb s ;; construct_validity (br_first_text rn) order sub.
Definition v_vf (s : nat) :=
  '(order, _) <- v_lf ;; '(sub, _) <- v_mf s ;; m <- mmap (nth_error (br_last_text rn)) order ;; construct_validity_backward m sub.
Definition v_vp (s : nat) := '(_, tails) <- v_ht ;; '(sub, _) <- v_mp s ;; construct_validity_backward (std_sort Nat.ltb tails) sub.
(* SrCSA, SrCSASlim, SrCSAWithPsiRun *)
Definition v_pos (s : nat) := '(idx, _) <- v_sf s ;; mmap (nth_error (br_first rn)) idx.
Definition v_al := pc <- v_pc ;; samples_sorted_by_alphabet pc (br_first rn).
Definition v_sal (s : nat) :=
  '(sorted, _) <- v_al ;; '(idx, samples) <- v_sf s ;; '(_, links) <- v_mf s ;;
  subsamples_sorted_by_alphabet sorted (mk_sri_files idx samples [] links).
Definition v_cum := pc <- v_pc ;; counts <- mmap (pc_count_runs pc) (seq 0 (List.length (pc_partial pc))) ;; Some (running_sums 0 counts).

Definition p1 {A B} (x : option (A * B)) : option A := option_map fst x.
Definition p2 {A B} (x : option (A * B)) : option B := option_map snd x.
Definition ints (r : option nat) (k : fkey) : option (list nat) :=
  match r, k with
  | None, FText => Some (bi_text b) | None, FSa => Some sa | None, FBwt => Some (bi_bwt_text b)
  | None, FFirst => Some (br_first rn) | None, FFirstPos => Some (br_first_text rn)
  | None, FLast => Some (br_last rn) | None, FLastPos => Some (br_last_text rn)
  | None, FBigBwt => Some (bg_bwt g) | None, FBigSsa => Some (bg_ssa g) | None, FBigEsa => Some (bg_esa g)
  | None, FPsi => v_psi
  | None, FFirstSorted => Some (sort_indices (br_first_text rn)) | None, FFirstLinks => p2 v_lb
  | None, FLastSorted => Some (sort_indices (br_last_text rn)) | None, FLastLinks => p2 v_lf
  | None, FPsiHead => p1 v_ht | None, FPsiTail => p2 v_ht | None, FPsiTailLinks => p2 v_lp
  | None, FPsiHeadSorted => option_map sort_indices (p1 v_ht) | None, FPsiCum => v_cum
  | None, FFirstIdxAlpha => p1 v_al | None, FCum => p2 v_al
  | Some s, FLastIdx => p1 (v_sb s) | Some s, FLastPos => p2 (v_sb s)
  | Some s, FFirstByLast => p1 (v_mb s) | Some s, FFirstLinks => p2 (v_mb s)
  | Some s, FFirstValid => p1 (v_vb s) | Some s, FFirstArea => p2 (v_vb s)
  | Some s, FFirstIdx => p1 (v_sf s) | Some s, FFirstPos => p2 (v_sf s)
  | Some s, FLastByFirst => p1 (v_mf s) | Some s, FLastLinks => p2 (v_mf s)
  | Some s, FLastValid => p1 (v_vf s) | Some s, FLastArea => p2 (v_vf s)
  | Some s, FFirst => v_pos s
  | Some s, FFirstPosAlpha => p1 (p1 (v_sal s)) | Some s, FFirstIdxAlpha => p2 (p1 (v_sal s)) | Some s, FLastLinksAlpha => p2 (v_sal s)
  | Some s, FPsiHeadIdx => p1 (v_sp s) | Some s, FPsiHead => p2 (v_sp s)
  | Some s, FPsiTail => p1 (v_mp s) | Some s, FPsiTailLinks => p2 (v_mp s)
  | Some s, FPsiTailValid => p1 (v_vp s) | Some s, FPsiTailArea => p2 (v_vp s)
  | _, _ => None
  end.
Definition bits (r : option nat) (k : fkey) : option (list bool) :=
  let n := List.length (bi_bwt_text b) in
  let of size init := l <- ints r k ;; construct_bit_vector l size init in
  match r, k with
  | None, FFirstPos | None, FLastPos | None, FPsiTail => of n false
  | Some s, FFirstByLast | Some s, FLastByFirst | Some s, FFirst | Some s, FPsiTail => of n false
  | Some s, FLastIdx => of (List.length (br_last rn)) false
  | Some s, FFirstIdxAlpha => of (List.length (br_first rn)) false
  | Some s, FPsiHeadIdx => h <- p1 v_ht ;; of (List.length h) false
  | Some s, FFirstValid => l <- p2 (v_sb s) ;; of (List.length l) true
  | Some s, FLastValid => l <- p2 (v_sf s) ;; of (List.length l) true
  | Some s, FPsiTailValid => l <- p1 (v_mp s) ;; of (List.length l) true
  | _, _ => None
  end.
Definition ideal (n : name) : option item :=
  match nm_hash n with
  | None =>
      match nm_rate n, nm_key n with
      | None, FAlpha => Some (ItAlpha (bi_alpha b))
      | None, FRle => Some (ItRle (bi_bwt_rle b))
      | r, k => option_map ItInts (ints r k)
      end
  | Some TyInts => option_map ItInts (ints (nm_rate n) (nm_key n))
  | Some (TyPsi d) =>
      match nm_rate n, nm_key n with
      | None, FPsi => if d =? dens then option_map ItPsi v_pc else None
      | _, _ => None
      end
  | Some (TyBv c) => option_map (ItBv c) (bits (nm_rate n) (nm_key n))
  | Some (TySup s) => option_map (ItSup s) (bits (nm_rate n) (nm_key n))
  | _ => None
  end.
End Ideal.
