(** Model of RCSAWithBWTRun, CSARaw and RCSAWithPsiRun (r_csa.h) and of their construction
    (construct.h).  [dens] is the sampling density of the encoded vectors of the Psi core: 64 with
    the default template arguments (psi.h:50). *)
From Coq Require Import List Arith Bool.
From Verif Require Import MBase MRle MConstruct MPhi MRIndex MPsi.
Import ListNotations.

(** * Construction *)

(** construct_sdsl.h:125-163 constructIndexBaseItems, then construct.h:69-92 constructPsi. *)
Definition construct_psi_core (dens : nat) (b : base_items) : option psi_core :=
  psi <- construct_psi (rle_access (bi_bwt_rle b)) (al_C (bi_alpha b)) ;;
  pc_construct dens (al_C (bi_alpha b)) psi.

(** bwt.h:129-146 BasicLF over the run-length BWT (construct.h:182-193) *)
Definition basic_lf (al : alphabet) (s : rlestr) (pos : nat) : option nat :=
  c <- rle_access s pos ;;
  f <- nth_error (al_C al) c ;;
  rnk <- rle_rank s pos c ;;
  Some (f + rnk).
(** construct.h:195-203: Psi functor over the Psi core *)
Definition core_psi_fn (al : alphabet) (pc : psi_core) (i : nat) : option nat :=
  psi_fn (pc_select pc) (al_C al) i.
(** phi.h:216-229 computeMarkToSampleLinkForPhiForward *)
Definition link_to_sample (lf psi : nat -> option nat) (rank_sample : nat -> nat) (n mark_pos : nat) : option nat :=
  j <- lf mark_pos ;;
  j' <- umod (j + 1) n ;;
  k <- psi j' ;;
  Some (rank_sample k).
(** phi.h:240-253 computeSampleToMarkLinkForPhiForward *)
Definition link_to_mark (lf psi : nat -> option nat) (rank_mark : nat -> nat) (n sample_pos : nat) : option nat :=
  j <- lf sample_pos ;;
  j' <- umod (j + n - 1) n ;;
  k <- psi j' ;;
  Some (rank_mark k).
(** construct.h:168-222 constructMarkToSampleLinksForPhiForwardWithBWTRuns *)
Definition construct_links_forward_bwt (b : base_items) (pc : psi_core) : option (list nat * list nat) :=
  n <- al_size (bi_alpha b) ;;
  let runs := bi_runs_files b in
  construct_links (br_last_text runs)
    (fun idx => pos <- nth_error (br_last runs) idx ;;
                link_to_sample (basic_lf (bi_alpha b) (bi_bwt_rle b)) (core_psi_fn (bi_alpha b) pc)
                               (lower_bound (br_first runs)) n pos).

(** construct.h:117-120: text positions appended to the bucket of the symbol of their run *)
Definition bucket_step (s : rlestr) (pos text_pos : list nat) (buckets : list (list nat)) (i : nat)
  : option (list (list nat)) :=
  p <- nth_error pos i ;;
  c <- rle_access s p ;;
  t <- nth_error text_pos i ;;
  l <- nth_error buckets c ;;
  list_set buckets c (l ++ [t]).
(** construct.h:94-138 constructPsiRuns for one part (heads or tails) *)
Definition construct_psi_runs (sigma : nat) (s : rlestr) (pos text_pos : list nat) : option (list nat) :=
  buckets <- mfold (bucket_step s pos text_pos) (seq 0 (length pos)) (repeat [] sigma) ;;
  Some (concat buckets).
(** construct.h:224-240 constructMarkToSampleLinksForPhiForwardWithPsiRuns *)
Definition construct_links_forward_psi (marks : list nat) : option (list nat * list nat) :=
  construct_links marks (fun idx => umod (idx + 1) (length marks)).

(** Items of a loaded RCSAWithBWTRun (r_csa.h:91-103) or RCSAWithPsiRun (r_csa.h:452-464). *)
Record csa := mk_csa {
  ca_alpha : alphabet;
  ca_psi : psi_core;
  ca_samples : list nat;
  ca_marks : list bool;
  ca_links : list nat
}.

(** r_csa.h:351-378 constructRCSAWithBWTRuns and the load *)
Definition construct_rcsa_bwt (dens : nat) (data sa : list nat) : option csa :=
  b <- construct_base data sa ;;
  pc <- construct_psi_core dens b ;;
  '(_, links) <- construct_links_forward_bwt b pc ;;
  marks <- construct_bit_vector (br_last_text (bi_runs_files b)) (length (bi_bwt_text b)) false ;;
  Some (mk_csa (bi_alpha b) pc (br_first_text (bi_runs_files b)) marks links).

(** Psi runs of a construction: text positions of heads and of tails *)
Definition construct_psi_run_files (b : base_items) : option (list nat * list nat) :=
  let runs := bi_runs_files b in
  heads <- construct_psi_runs (al_sigma (bi_alpha b)) (bi_bwt_rle b) (br_first runs) (br_first_text runs) ;;
  tails <- construct_psi_runs (al_sigma (bi_alpha b)) (bi_bwt_rle b) (br_last runs) (br_last_text runs) ;;
  Some (heads, tails).
(** r_csa.h:623-677 constructItems(RCSAWithPsiRun) and the load.  Conversions to other container
    types keep the values. *)
Definition construct_rcsa_psi (dens : nat) (data sa : list nat) : option csa :=
  b <- construct_base data sa ;;
  pc <- construct_psi_core dens b ;;
  '(heads, tails) <- construct_psi_run_files b ;;
  marks <- construct_bit_vector tails (length (bi_bwt_text b)) false ;;
  '(_, links) <- construct_links_forward_psi tails ;;
  Some (mk_csa (bi_alpha b) pc heads marks links).

(** * Queries *)

(** r_csa.h:122-138 DataLF; a range of DataLF is a pair (155-158). *)
Record data_psi := mk_data_psi { dp_value : nat; dp_start : nat; dp_end : nat; dp_rank : nat }.
Definition range_psi := (data_psi * data_psi)%type.
(** r_csa.h:148-152 Range::operator= *)
Definition range_of_psi (r : range_psi) : range := (dp_value (fst r), dp_value (snd r)).

(** r_csa.h:169-178 psi_rank *)
Definition csa_psi_rank (pc : psi_core) (c pos : nat) : option data_psi :=
  '(rank, run_start, run_end, run_rank) <- pc_rank_report pc c pos ;;
  Some (mk_data_psi rank run_start run_end run_rank).
(** r_csa.h:164-189 constructLF (and 526-551) with lf.h:25-43 *)
Definition csa_lf (al : alphabet) (pc : psi_core) (r : range) (c : nat) : option range_psi :=
  before_sp <- csa_psi_rank pc c (fst r) ;;
  until_ep <- csa_psi_rank pc c (snd r) ;;
  smaller_c <- nth_error (al_C al) c ;;
  Some (mk_data_psi (dp_value before_sp + smaller_c) (dp_start before_sp) (dp_end before_sp) (dp_rank before_sp),
        mk_data_psi (dp_value until_ep + smaller_c) (dp_start until_ep) (dp_end until_ep) (dp_rank until_ep)).
(** toehold.h:95-104: is_lf_trivial of buildComputeDataBackwardSearchStepForPhiForward *)
Definition csa_lf_trivial (r : range) (c : nat) (next : range_psi) : bool :=
  negb (dp_value (fst next) <? dp_value (snd next)) ||
  (negb (fst r <? dp_start (fst next)) && (fst r <? dp_end (fst next))).

(** buildPhiForward (phi.h:170-178) over CircularSoftSuccessor, with links and validator given *)
Definition csa_phi (n : nat) (marks : list bool) (samples : list nat)
  (get_mark_to_sample : nat -> option (nat * bool))
  (validator : nat -> nat -> bool -> option bool) : nat -> option (nat * bool) :=
  phi_forward (circular_soft_successor marks n)
    (get_sample_for_phi get_mark_to_sample (nth_error samples) validator) n.
(** r_csa.h:206-229 constructPhiForRange (566-589 in RCSAWithPsiRun) *)
Definition csa_phi_for_range (ix : csa) (n : nat) : range -> nat -> option (list nat) :=
  ri_phi_for_range (csa_phi n (ca_marks ix) (ca_samples ix) (links_default (ca_links ix) true)
                            sample_validator_default).
(** r_csa.h:245-249 update_range *)
Definition csa_update_range (r : range) : range := (S (fst r), snd r).

(** Queries of an index over a Psi core: r_csa.h:105-120, 306-321, 466-482 constructIndex, with the
    RunData creation, the enumeration of the range and the initial RunData as arguments. *)
Definition csa_locate {D} (al : alphabet) (pc : psi_core) (create : range -> nat -> range_psi -> D) (init : D)
  (compute_all : nat -> range -> step_data D -> option (list nat)) (pattern : list nat) : option (list nat) :=
  n <- al_size al ;;
  engine_locate (csa_lf al pc) range_of_psi
    (compute_step_data csa_lf_trivial (fun r c next step => mk_step_data step (create r c next)))
    (compute_all n) n (mk_step_data 0 init) (al_symbol al) (fun n => (0, n)) range_empty pattern.
Definition csa_count (al : alphabet) (pc : psi_core) (pattern : list nat) : option range :=
  n <- al_size al ;;
  engine_count (csa_lf al pc) range_of_psi n (al_symbol al) (fun n => (0, n)) range_empty pattern.

(** r_csa.h:191-196 RunData of RCSAWithBWTRun is a position; created at 109-112. *)
Definition bwt_create (r : range) (c : nat) (next : range_psi) : nat := dp_start (fst next).
(** r_csa.h:231-241 constructComputeToehold *)
Definition rcsa_bwt_toehold (ix : csa) : step_data nat -> option nat :=
  compute_toehold (fun pos => run <- pc_rank_run (ca_psi ix) pos ;;
                              sample <- nth_error (ca_samples ix) run ;;
                              Some (sample + 1))
                  (pc_n (ca_psi ix)).
Definition rcsa_bwt_locate (ix : csa) : list nat -> option (list nat) :=
  csa_locate (ca_alpha ix) (ca_psi ix) bwt_create 0
    (fun n => compute_all_values (csa_phi_for_range ix n) (rcsa_bwt_toehold ix) csa_update_range).
Definition rcsa_bwt_count (ix : csa) : list nat -> option range := csa_count (ca_alpha ix) (ca_psi ix).

(** r_csa.h:553-556 RunData of RCSAWithPsiRun; created at 470-473. *)
Definition psi_create (r : range) (c : nat) (next : range_psi) : nat * nat := (c, dp_rank (fst next)).
(** r_csa.h:591-601 constructComputeToehold *)
Definition rcsa_psi_toehold (ix : csa) : step_data (nat * nat) -> option nat :=
  compute_toehold (fun '(c, partial_rank) =>
                     n_prev_runs <- pc_rank_char_run (ca_psi ix) c ;;
                     sample <- nth_error (ca_samples ix) (n_prev_runs + partial_rank) ;;
                     Some (sample + 1))
                  (pc_n (ca_psi ix)).
Definition rcsa_psi_locate (ix : csa) : list nat -> option (list nat) :=
  csa_locate (ca_alpha ix) (ca_psi ix) psi_create (0, 0)
    (fun n => compute_all_values (csa_phi_for_range ix n) (rcsa_psi_toehold ix) csa_update_range).
Definition rcsa_psi_count (ix : csa) : list nat -> option range := csa_count (ca_alpha ix) (ca_psi ix).

(** CSARaw (r_csa.h:263-337): alphabet, Psi core and the suffix array. *)
Record csa_raw := mk_csa_raw { cr_alpha : alphabet; cr_psi : psi_core; cr_sa : list nat }.
(** The items come from constructRCSAWithBWTRuns; [sa] is the stored suffix array file. *)
Definition construct_csa_raw (dens : nat) (data sa : list nat) : option csa_raw :=
  b <- construct_base data sa ;;
  pc <- construct_psi_core dens b ;;
  '(_, links) <- construct_links_forward_bwt b pc ;;
  marks <- construct_bit_vector (br_last_text (bi_runs_files b)) (length (bi_bwt_text b)) false ;;
  Some (mk_csa_raw (bi_alpha b) pc sa).
(** r_csa.h:323-335 constructComputeSAValues: sa[first], ..., sa[last - 1] *)
Definition csa_raw_values (sa : list nat) (r : range) : option (list nat) :=
  mmap (nth_error sa) (seq (fst r) (snd r - fst r)).
Definition csa_raw_locate (ix : csa_raw) : list nat -> option (list nat) :=
  csa_locate (cr_alpha ix) (cr_psi ix) bwt_create 0 (fun n r _ => csa_raw_values (cr_sa ix) r).
Definition csa_raw_count (ix : csa_raw) : list nat -> option range := csa_count (cr_alpha ix) (cr_psi ix).
