(** Model of construction over a cache directory: the guarded steps of construct_sdsl.h,
    construct_big_bwt.h, construct.h, r_index.h, sr_index.h, r_csa.h, sr_csa.h and sr_csa_psi.h, each of
    which reads files of the directory and writes others.

    A directory is the list of the writes made to it, the latest first, so that what a process leaves when
    it is stopped is a suffix of what it would have left at its end.  A file is whole, or torn: created but
    not completely written.  Reading a torn file is undefined ([None]).  Failures of the file system are not
    modelled. *)
From Coq Require Import List Arith Bool String.
From Verif Require Import MBase MRle MConstruct MPhi MRIndex MSrIndex MPsi MCsa MSrCsa MStore MBwt.
Import ListNotations.

(** * Files *)
(** The keys: construct_base.h:21-53, construct.h:57-59 (KeySortedByAlphabet),
    config.h:41-98, construct_big_bwt.h:24-27 and SDSL's KEY_TEXT, KEY_SA, KEY_BWT, KEY_PSI. *)
Inductive fkey :=
| FText | FSa | FBwt | FAlpha | FRle | FPsi
| FFirst | FFirstIdx | FFirstPos | FFirstByLast | FFirstSorted | FFirstLinks | FFirstValid | FFirstArea
| FLast | FLastIdx | FLastPos | FLastByFirst | FLastSorted | FLastLinks | FLastValid | FLastArea
| FCum | FFirstIdxAlpha | FFirstPosAlpha | FLastLinksAlpha
| FPsiHead | FPsiHeadIdx | FPsiHeadSorted | FPsiTail | FPsiTailLinks | FPsiTailValid | FPsiTailArea | FPsiCum
| FBigBwt | FBigSsa | FBigEsa.
Definition fkey_str (k : fkey) : string :=
  match k with
  | FText => "text" | FSa => "sa" | FBwt => "bwt" | FAlpha => "alphabet" | FRle => "bwt_rle" | FPsi => "psi"
  | FFirst => "bwt_run_first" | FFirstIdx => "bwt_run_first_idx" | FFirstPos => "bwt_run_first_text_pos"
  | FFirstByLast => "bwt_run_first_text_pos_by_last" | FFirstSorted => "bwt_run_first_text_pos_sorted_idx"
  | FFirstLinks => "bwt_run_first_text_pos_sorted_to_last_idx"
  | FFirstValid => "bwt_run_first_text_pos_sorted_valid_mark" | FFirstArea => "bwt_run_first_text_pos_sorted_valid_area"
  | FLast => "bwt_run_last" | FLastIdx => "bwt_run_last_idx" | FLastPos => "bwt_run_last_text_pos"
  | FLastByFirst => "bwt_run_last_text_pos_by_first" | FLastSorted => "bwt_run_last_text_pos_sorted_idx"
  | FLastLinks => "bwt_run_last_text_pos_sorted_to_first_idx"
  | FLastValid => "bwt_run_last_text_pos_sorted_valid_mark" | FLastArea => "bwt_run_last_text_pos_sorted_valid_area"
  | FCum => "bwt_run_cumulative_count" | FFirstIdxAlpha => "bwt_run_first_idx_sorted_alphabet"
  | FFirstPosAlpha => "bwt_run_first_text_pos_sorted_alphabet"
  | FLastLinksAlpha => "bwt_run_last_text_pos_sorted_to_first_idx_sorted_alphabet"
  | FPsiHead => "psi_run_first_text_pos" | FPsiHeadIdx => "psi_run_first_idx"
  | FPsiHeadSorted => "psi_run_first_text_pos_asc_idx" | FPsiTail => "psi_run_last_text_pos"
  | FPsiTailLinks => "psi_run_last_text_pos_asc_link" | FPsiTailValid => "psi_run_last_text_pos_asc_valid_mark"
  | FPsiTailArea => "psi_run_last_text_pos_asc_valid_area" | FPsiCum => "psi_run_cumulative_count"
  | FBigBwt => "big_bwt" | FBigSsa => "big_bwt_ssa" | FBigEsa => "big_bwt_esa"
  end%string.
Definition fkey_eq_dec (a b : fkey) : {a = b} + {a <> b}.
Proof. decide equality. Defined.
(** A file: the rate in front of the key (std::to_string(rate) + "_"), the key, and the type whose hash
    follows the key (sdsl cache_file_name).  The files of Big-BWT are beside the data, not in the cache
    directory; their names are their keys here. *)
Record name := mk_name { nm_rate : option nat; nm_key : fkey; nm_hash : option ty }.
Definition name_eq_dec (a b : name) : {a = b} + {a <> b}.
Proof. decide equality; [decide equality; apply ty_eq_dec | apply fkey_eq_dec | decide equality; apply Nat.eq_dec]. Defined.
Definition N (k : fkey) : name := mk_name None k None.
Definition NT (k : fkey) (t : ty) : name := mk_name None k (Some t).
Definition P (s : nat) (k : fkey) : name := mk_name (Some s) k None.
Definition PT (s : nat) (k : fkey) (t : ty) : name := mk_name (Some s) k (Some t).
Definition with_hash (n : name) (t : ty) : name := mk_name (nm_rate n) (nm_key n) (Some t).

Inductive content := Whole (it : item) | Torn.
Definition disk := list (name * content).
Fixpoint d_find (d : disk) (n : name) : option content :=
  match d with
  | [] => None
  | (m, c) :: r => if name_eq_dec m n then Some c else d_find r n
  end.

(** * A process *)
(** The directory, and the entries of cache_config::file_map that send a key to the file with the type
    hash of int_vector.  All other entries name the file that the key would have without them. *)
Record proc := mk_proc { pr_disk : disk; pr_map : list (option nat * fkey) }.
(** A new process: the map is empty. *)
Definition new_proc (d : disk) : proc := mk_proc d [].
Definition same_key (a b : option nat * fkey) : bool :=
  (match fst a, fst b with None, None => true | Some x, Some y => x =? y | _, _ => false end)
  && (if fkey_eq_dec (snd a) (snd b) then true else false).
(** sdsl cache_file_name *)
Definition resolve (p : proc) (n : name) : name :=
  match nm_hash n with
  | None => if existsb (same_key (nm_rate n, nm_key n)) (pr_map p) then with_hash n TyInts else n
  | Some _ => n
  end.
Definition look_file (p : proc) (n : name) : option content := d_find (pr_disk p) (resolve p n).
(** sdsl cache_file_exists *)
Definition file_exists (p : proc) (n : name) : bool :=
  match look_file p n with Some _ => true | None => false end.
(** sdsl load_from_cache of an int_vector: a missing file leaves the (new, empty) vector as it is. *)
Definition load_ints (p : proc) (n : name) : option (list nat) :=
  match look_file p n with
  | None => Some []
  | Some (Whole (ItInts l)) => Some l
  | _ => None
  end.
(** An int_vector_buffer over a file that must exist. *)
Definition buf_ints (p : proc) (n : name) : option (list nat) :=
  match look_file p n with Some (Whole (ItInts l)) => Some l | _ => None end.
Definition load_alpha (p : proc) (n : name) : option alphabet :=
  match look_file p n with Some (Whole (ItAlpha a)) => Some a | _ => None end.
Definition load_rle (p : proc) (n : name) : option rlestr :=
  match look_file p n with Some (Whole (ItRle s)) => Some s | _ => None end.
Definition load_psi (p : proc) (n : name) : option psi_core :=
  match look_file p n with Some (Whole (ItPsi c)) => Some c | _ => None end.

(** sri::store_to_cache (io.h:37-53), and sdsl::store_to_cache without type hash *)
Definition put (n : name) (it : item) (p : proc) : proc := mk_proc ((resolve p n, Whole it) :: pr_disk p) (pr_map p).
(** sdsl::store_to_cache of an int_vector with type hash: the key without the hash is registered. *)
Definition put_registered (n : name) (l : list nat) (p : proc) : proc :=
  mk_proc ((with_hash n TyInts, Whole (ItInts l)) :: pr_disk p) ((nm_rate n, nm_key n) :: pr_map p).
(** int_vector_buffer opened with std::ios::out: creates the file, or truncates it. *)
Definition create (n : name) (p : proc) : proc := mk_proc ((resolve p n, Torn) :: pr_disk p) (pr_map p).

Definition step := proc -> option proc.
Definition guarded (n : name) (body : step) : step := fun p => if file_exists p n then Some p else body p.
Fixpoint run_steps (l : list step) (p : proc) : option proc :=
  match l with [] => Some p | f :: r => p <- f p ;; run_steps r p end.

(** * Base items *)
(** construct_sdsl.h:19-40 constructText *)
Definition step_text (data : list nat) : step :=
  guarded (N FText) (fun p => t <- construct_text data ;; Some (put (N FText) (ItInts t) p)).
(** construct_sdsl.h:134-138: sdsl::construct_sa, with [sort] the suffix sorting *)
Definition step_sa (sort : list nat -> list nat) : step :=
  guarded (N FSa) (fun p => t <- load_ints p (N FText) ;; Some (put (N FSa) (ItInts (sort t)) p)).
(** construct_sdsl.h:140-144: sdsl::construct_bwt *)
Definition step_bwt : step :=
  guarded (N FBwt) (fun p =>
    t <- load_ints p (N FText) ;; sa <- buf_ints p (N FSa) ;; bwt <- construct_bwt t sa ;;
    Some (put (N FBwt) (ItInts bwt) p)).
(** construct_sdsl.h:42-123 constructBWTRuns: four buffers are opened, then closed in this order *)
Definition put_runs (r : bwt_runs) (p : proc) : proc :=
  put (N FLastPos) (ItInts (br_last_text r)) (put (N FLast) (ItInts (br_last r))
    (put (N FFirstPos) (ItInts (br_first_text r)) (put (N FFirst) (ItInts (br_first r))
      (create (N FLastPos) (create (N FLast) (create (N FFirstPos) (create (N FFirst) p))))))).
Definition step_runs : step :=
  guarded (N FFirst) (fun p =>
    bwt <- load_ints p (N FBwt) ;; sa <- load_ints p (N FSa) ;; r <- construct_bwt_runs bwt sa ;;
    Some (put_runs r p)).
(** construct_base.h:56-67 constructAlphabet *)
Definition step_alphabet : step :=
  guarded (N FAlpha) (fun p =>
    bwt <- buf_ints p (N FBwt) ;; Some (put (N FAlpha) (ItAlpha (construct_alphabet bwt)) p)).
(** construct_base.h:69-88 constructBWTRLE *)
Definition step_rle : step :=
  guarded (N FRle) (fun p =>
    bwt <- buf_ints p (N FBwt) ;; al <- load_alpha p (N FAlpha) ;; s <- construct_bwt_rle al bwt ;;
    Some (put (N FRle) (ItRle s) p)).
(** construct_big_bwt.h:39-52 constructBWT; [exe]: the run of Big-BWT, which writes its files beside the
    data.  The buffer of the BWT is closed by its destructor. *)
Definition step_big_bwt (exe : list nat -> big_files) (data : list nat) : step :=
  guarded (N FBigBwt) (fun p =>
    let g := exe data in
    let p := put (N FBigEsa) (ItInts (bg_esa g)) (put (N FBigSsa) (ItInts (bg_ssa g)) (put (N FBigBwt) (ItInts (bg_bwt g)) p)) in
    bytes <- buf_ints p (N FBigBwt) ;;
    Some (put (N FBwt) (ItInts (read_symbols bytes)) (create (N FBwt) p))).
(** construct_big_bwt.h:54-90 constructBWTRuns: nothing is written for a missing file of Big-BWT; file_size
    of a missing .bwt throws. *)
Definition read_runs_step (n : nat) (key pos text_pos : name) (p : proc) : option proc :=
  match look_file p key with
  | None => Some p
  | Some (Whole (ItInts bytes)) =>
      let '(js, ts) := read_runs n bytes in
      Some (put text_pos (ItInts ts) (put pos (ItInts js) (create text_pos (create pos p))))
  | _ => None
  end.
Definition step_big_runs : step :=
  guarded (N FFirst) (fun p =>
    bytes <- buf_ints p (N FBigBwt) ;;
    p <- read_runs_step (List.length bytes) (N FBigSsa) (N FFirst) (N FFirstPos) p ;;
    read_runs_step (List.length bytes) (N FBigEsa) (N FLast) (N FLastPos) p).

(** Config::sa_algo (config.h:16-20, 107) *)
Inductive route := Sdsl | BigBwt.
(** construct.h:40-55 constructIndexBaseItems: construct_sdsl.h:125-163 or construct_big_bwt.h:92-123 *)
Definition base_steps (rt : route) (sort : list nat -> list nat) (exe : list nat -> big_files) (data : list nat) : list step :=
  match rt with
  | Sdsl => [step_text data; step_sa sort; step_bwt; step_runs; step_alphabet; step_rle]
  | BigBwt => [step_big_bwt exe data; step_big_runs; step_alphabet; step_rle]
  end.

(** * Steps of several classes *)
(** construct.h:282-329 constructBitVectorFromIntVector: the vector, then rank_1 and select_1 *)
Definition put_bv (c : bvclass) (n : name) (b : list bool) (p : proc) : proc :=
  put (with_hash n (TySup (SupSelect c))) (ItSup (SupSelect c) b)
    (put (with_hash n (TySup (SupRank c true))) (ItSup (SupRank c true) b)
      (put (with_hash n (TyBv c)) (ItBv c b) p)).
(** The same with rank_0 and select_0; no class loads select_0, and it is left out. *)
Definition put_bv0 (c : bvclass) (n : name) (b : list bool) (p : proc) : proc :=
  put (with_hash n (TySup (SupRank c false))) (ItSup (SupRank c false) b) (put (with_hash n (TyBv c)) (ItBv c b) p).
(** construct.h:310-329: the values of [src] as a bit vector; [size]: the file whose size is the length *)
Definition step_bv (c : bvclass) (n src size : name) : step :=
  guarded (with_hash n (TyBv c)) (fun p =>
    l <- buf_ints p size ;; vs <- buf_ints p src ;; b <- construct_bit_vector vs (List.length l) false ;;
    Some (put_bv c n b p)).
Definition step_bv0 (c : bvclass) (n src size : name) : step :=
  guarded (with_hash n (TyBv c)) (fun p =>
    l <- buf_ints p size ;; vs <- buf_ints p src ;; b <- construct_bit_vector vs (List.length l) true ;;
    Some (put_bv0 c n b p)).
(** construct.h:331-341 constructSortedIndices *)
Definition step_sorted (src out : name) : step :=
  guarded out (fun p => vs <- load_ints p src ;; Some (put out (ItInts (sort_indices vs)) p)).
(** sampling.h:24-68 with the order and the values read from files; None: an empty file of links *)
Definition subsamples_of (s : nat) (order samples links : list nat) : option (list nat * list nat) :=
  req0 <- nth_error links 0 ;;
  req1 <- nth_error links (List.length links - 1) ;;
  vec <- compute_sampling s order samples [req0; req1] ;;
  let idx := std_sort Nat.ltb vec in
  sub <- mmap (nth_error samples) idx ;;
  Some (idx, sub).
(** Two buffers opened together, then closed in this order *)
Definition put_two (a b : name) (x y : list nat) (p : proc) : proc :=
  put b (ItInts y) (put a (ItInts x) (create b (create a p))).

(** * r_index.h and sr_index.h *)
(** construct.h:242-256 constructMarkToSampleLinksForPhiBackward (r_index.h:299-305) *)
Definition step_links_backward : step :=
  guarded (N FFirstLinks) (fun p =>
    marks <- load_ints p (N FFirstPos) ;; '(idx, links) <- construct_links_backward marks ;;
    Some (put (N FFirstLinks) (ItInts links) (put (N FFirstSorted) (ItInts idx) p))).
(** r_index.h:307-311 and r_csa.h:367-371: the size of the BWT, read before the guard *)
Definition step_bv_bwt (c : bvclass) (n : name) : step :=
  fun p => _ <- buf_ints p (N FBwt) ;; step_bv c n n (N FBwt) p.
(** r_index.h:295-321 constructRIndex, after the base items *)
Definition rindex_steps (tm : tmpl) : list step := [step_links_backward; step_bv_bwt (t_marks tm) (N FFirstPos)].

(** sr_index.h:573-620 constructSubsamplingForwardSamplesForPhiBackward *)
Definition step_subsamples_backward (s : nat) : step :=
  guarded (P s FLastIdx) (fun p =>
    samples <- load_ints p (N FLastPos) ;; order <- load_ints p (N FLastSorted) ;;
    links <- buf_ints p (N FFirstLinks) ;; '(idx, sub) <- subsamples_of s order samples links ;;
    Some (put (P s FLastPos) (ItInts sub) (put (P s FLastIdx) (ItInts idx) p))).
(** sr_index.h:622-685 *)
Definition step_submarks_backward (s : nat) : step :=
  guarded (P s FFirstLinks) (fun p =>
    idx <- load_ints p (P s FLastIdx) ;; first <- buf_ints p (N FFirst) ;; marks <- load_ints p (N FFirstPos) ;;
    '(sub, links) <- construct_submarks idx marks (List.length first) ;;
    Some (put (P s FFirstLinks) (ItInts links) (put (P s FFirstByLast) (ItInts sub) p))).
(** sr_index.h:486-542 constructSRI, after constructRIndex *)
Definition sri_steps (tm : tmpl) (s : nat) : list step :=
  [step_sorted (N FLastPos) (N FLastSorted); step_subsamples_backward s;
   step_bv (t_idx tm) (P s FLastIdx) (P s FLastIdx) (N FLast);
   step_submarks_backward s; step_bv (t_marks tm) (P s FFirstByLast) (P s FFirstByLast) (N FBwt)].
(** sr_index.h:687-739 constructSubsamplingForwardMarksValidity *)
Definition step_validity (s : nat) : step :=
  guarded (P s FFirstValid) (fun p =>
    marks <- load_ints p (N FFirstPos) ;; order <- load_ints p (N FFirstSorted) ;;
    submarks <- load_ints p (P s FFirstByLast) ;; '(valid, areas) <- construct_validity marks order submarks ;;
    Some (put_two (P s FFirstValid) (P s FFirstArea) valid areas p)).
(** sr_index.h:546-571 constructSRIValidMark, after constructSRI *)
Definition sri_valid_steps (tm : tmpl) (s : nat) : list step :=
  [step_validity s; step_bv0 (t_valid tm) (P s FFirstValid) (P s FFirstValid) (P s FLastPos)].

(** * r_csa.h and sr_csa.h *)
(** construct.h:69-92 constructPsi (r_csa.h:355-359, 632-636) *)
Definition step_psi (dens : nat) : step :=
  guarded (N FPsi) (fun p =>
    al <- load_alpha p (N FAlpha) ;; s <- load_rle p (N FRle) ;;
    psi <- construct_psi (rle_access s) (al_C al) ;;
    let p := put (N FPsi) (ItInts psi) p in
    pc <- pc_construct dens (al_C al) psi ;;
    Some (put (NT FPsi (TyPsi dens)) (ItPsi pc) p)).
(** The items that construct.h:168-222 and sr_csa.h:969-1019 load *)
Definition load_lf_psi (dens : nat) (p : proc) : option (base_items * psi_core) :=
  s <- load_rle p (N FRle) ;; al <- load_alpha p (N FAlpha) ;; pc <- load_psi p (NT FPsi (TyPsi dens)) ;;
  first <- load_ints p (N FFirst) ;; last <- load_ints p (N FLast) ;; last_text <- load_ints p (N FLastPos) ;;
  Some (mk_base_items [] [] (mk_bwt_runs first [] last last_text) al s, pc).
(** construct.h:168-222 constructMarkToSampleLinksForPhiForwardWithBWTRuns (r_csa.h:361-365) *)
Definition step_links_forward (dens : nat) : step :=
  guarded (N FLastLinks) (fun p =>
    '(b, pc) <- load_lf_psi dens p ;; '(idx, links) <- construct_links_forward_bwt b pc ;;
    Some (put (N FLastLinks) (ItInts links) (put (N FLastSorted) (ItInts idx) p))).
(** r_csa.h:351-378 constructRCSAWithBWTRuns, after the base items *)
Definition rcsa_steps (tm : tmpl) : list step :=
  [step_psi (t_dens tm); step_links_forward (t_dens tm); step_bv_bwt (t_marks tm) (N FLastPos)].

(** sr_csa.h:876-918 constructSubsamplingBackwardSamplesForPhiForwardWithBWTRuns *)
Definition step_subsamples_forward (s : nat) : step :=
  guarded (P s FFirstIdx) (fun p =>
    samples <- load_ints p (N FFirstPos) ;; order <- load_ints p (N FFirstSorted) ;;
    links <- buf_ints p (N FLastLinks) ;; '(idx, sub) <- subsamples_of s (rev order) samples links ;;
    Some (put (P s FFirstPos) (ItInts sub) (put (P s FFirstIdx) (ItInts idx) p))).
(** sr_csa.h:923-1019 *)
Definition step_submarks_forward (dens s : nat) : step :=
  guarded (P s FLastLinks) (fun p =>
    idx <- load_ints p (P s FFirstIdx) ;; '(b, pc) <- load_lf_psi dens p ;; to_mark <- sample_to_mark_bwt b pc idx ;;
    marks <- load_ints p (N FLastPos) ;; '(sub, links) <- construct_submarks_of marks to_mark ;;
    Some (put (P s FLastLinks) (ItInts links) (put (P s FLastByFirst) (ItInts sub) p))).
(** sr_csa.h:1021-1050 constructSrCSACommonsWithBWTRuns; the size of the BWT is read at its start *)
Definition step_bwt_size : step := fun p => _ <- buf_ints p (N FBwt) ;; Some p.
Definition srcsa_common_steps (tm : tmpl) (s : nat) : list step :=
  [step_bwt_size; step_sorted (N FFirstPos) (N FFirstSorted); step_subsamples_forward s;
   step_submarks_forward (t_dens tm) s; step_bv (t_marks tm) (P s FLastByFirst) (P s FLastByFirst) (N FBwt)].
(** sr_csa.h:1151-1166 constructSubsamplingBackwardSamplesPosition *)
Definition step_positions (s : nat) : step :=
  guarded (P s FFirst) (fun p =>
    first <- load_ints p (N FFirst) ;; idx <- load_ints p (P s FFirstIdx) ;; pos <- mmap (nth_error first) idx ;;
    Some (put (P s FFirst) (ItInts pos) p)).
(** sr_csa.h:796-828 construct(SrCSA), after the common steps *)
Definition srcsa_steps (tm : tmpl) (s : nat) : list step :=
  [step_bwt_size; step_positions s; step_bv (t_idx tm) (P s FFirst) (P s FFirst) (N FBwt)].
(** sr_csa.h:1052-1087 constructSamplesSortedByAlphabet *)
Definition step_sorted_alphabet (dens : nat) : step :=
  guarded (N FFirstIdxAlpha) (fun p =>
    pc <- load_psi p (NT FPsi (TyPsi dens)) ;; first <- load_ints p (N FFirst) ;;
    '(sorted, cum) <- samples_sorted_by_alphabet pc first ;;
    Some (put_two (N FFirstIdxAlpha) (N FCum) sorted cum p)).
(** sr_csa.h:1089-1149 constructSubsamplingBackwardSamplesSortedByAlphabet; the links are read after the
    two first files are closed. *)
Definition step_subsamples_alphabet (s : nat) : step :=
  guarded (P s FFirstPosAlpha) (fun p =>
    sorted <- load_ints p (N FFirstIdxAlpha) ;; idx <- load_ints p (P s FFirstIdx) ;;
    samples <- load_ints p (P s FFirstPos) ;; links <- load_ints p (P s FLastLinks) ;;
    '(sub, idxs, links') <- subsamples_sorted_by_alphabet sorted (mk_sri_files idx samples [] links) ;;
    Some (put (P s FLastLinksAlpha) (ItInts links') (create (P s FLastLinksAlpha)
           (put_two (P s FFirstPosAlpha) (P s FFirstIdxAlpha) sub idxs p)))).
(** sr_csa.h:753-792 construct(SrCSASlim), after the common steps *)
Definition slim_steps (tm : tmpl) (s : nat) : list step :=
  [step_sorted_alphabet (t_dens tm); step_subsamples_alphabet s;
   step_bv (t_idx tm) (P s FFirstIdxAlpha) (P s FFirstIdxAlpha) (N FFirst)].
(** sr_csa.h:1168-1219 constructSubsamplingBackwardMarksValidity *)
Definition step_validity_backward (s : nat) : step :=
  guarded (P s FLastValid) (fun p =>
    marks <- load_ints p (N FLastPos) ;; order <- load_ints p (N FLastSorted) ;;
    submarks <- load_ints p (P s FLastByFirst) ;; sorted_marks <- mmap (nth_error marks) order ;;
    '(valid, areas) <- construct_validity_backward sorted_marks submarks ;;
    Some (put_two (P s FLastValid) (P s FLastArea) valid areas p)).
(** sr_csa.h:832-874 construct(SrCSAValidMark) and construct(SrCSAValidArea), after the steps of the base
    class.  The load of the copy of the base object (sr_csa.h:838-839) writes nothing and is left out. *)
Definition srcsa_valid_steps (tm : tmpl) (s : nat) : list step :=
  [step_validity_backward s; step_bv0 (t_valid tm) (P s FLastValid) (P s FLastValid) (P s FFirstPos)].

(** * RCSAWithPsiRun and sr_csa_psi.h; Samples, MarksToSamples, CumulativeRuns and ValidAreas are int_vector *)
(** construct.h:94-138 constructPsiRuns: the file of the heads, then the file of the tails *)
Definition psi_runs_part (pos text_pos out : fkey) (al : alphabet) (s : rlestr) : step := fun p =>
  ps <- buf_ints p (N pos) ;; ts <- buf_ints p (N text_pos) ;;
  l <- construct_psi_runs (al_sigma al) s ps ts ;;
  Some (put (NT out TyInts) (ItInts l) (create (NT out TyInts) p)).
Definition step_psi_runs : step :=
  guarded (NT FPsiHead TyInts) (fun p =>
    al <- load_alpha p (N FAlpha) ;; s <- load_rle p (N FRle) ;;
    p <- psi_runs_part FFirst FFirstPos FPsiHead al s p ;; psi_runs_part FLast FLastPos FPsiTail al s p).
(** construct.h:224-240 (r_csa.h:661-676) *)
Definition step_links_psi : step :=
  guarded (NT FPsiTailLinks TyInts) (fun p =>
    marks <- load_ints p (NT FPsiTail TyInts) ;; '(_, links) <- construct_links_forward_psi marks ;;
    Some (put (NT FPsiTailLinks TyInts) (ItInts links) p)).
(** r_csa.h:623-677 constructItems(RCSAWithPsiRun), after the base items *)
Definition rcsa_psi_steps (tm : tmpl) : list step :=
  [step_psi (t_dens tm); step_psi_runs; step_bv (t_marks tm) (N FPsiTail) (NT FPsiTail TyInts) (N FBwt); step_links_psi].

(** sr_csa_psi.h:535-590: the indices are stored with sdsl::store_to_cache *)
Definition step_subsamples_psi (s : nat) : step :=
  guarded (PT s FPsiHead TyInts) (fun p =>
    samples <- load_ints p (NT FPsiHead TyInts) ;; order <- load_ints p (N FPsiHeadSorted) ;;
    links <- buf_ints p (NT FPsiTailLinks TyInts) ;; '(idx, sub) <- subsamples_of s (rev order) samples links ;;
    Some (put (PT s FPsiHead TyInts) (ItInts sub) (put_registered (P s FPsiHeadIdx) idx p))).
(** sr_csa_psi.h:592-654: the indices are loaded without type hash *)
Definition step_submarks_psi (c : bvclass) (s : nat) : step :=
  guarded (PT s FPsiTail (TyBv c)) (fun p =>
    '(sub, p) <- (if file_exists p (PT s FPsiTail TyInts)
                  then sub <- load_ints p (PT s FPsiTail TyInts) ;; Some (sub, p)
                  else idx <- load_ints p (P s FPsiHeadIdx) ;; heads <- buf_ints p (NT FPsiHead TyInts) ;;
                       to_mark <- sample_to_mark_psi (List.length heads) idx ;; marks <- load_ints p (NT FPsiTail TyInts) ;;
                       sub <- mmap (nth_error marks) to_mark ;;
                       Some (sub, put (PT s FPsiTail TyInts) (ItInts sub) p)) ;;
    bwt <- buf_ints p (N FBwt) ;; b <- construct_bit_vector sub (List.length bwt) false ;;
    Some (put_bv c (P s FPsiTail) b p)).
(** sr_csa_psi.h:656-701 *)
Definition step_sublinks_psi (s : nat) : step :=
  guarded (PT s FPsiTailLinks TyInts) (fun p =>
    sub <- load_ints p (PT s FPsiTail TyInts) ;; Some (put (PT s FPsiTailLinks TyInts) (ItInts (sort_indices sub)) p)).
(** sr_csa_psi.h:703-725 constructCumulativeCountsWithPsiRuns *)
Definition step_cumulative_psi (dens : nat) : step :=
  guarded (NT FPsiCum TyInts) (fun p =>
    pc <- load_psi p (NT FPsi (TyPsi dens)) ;; counts <- mmap (pc_count_runs pc) (seq 0 (List.length (pc_partial pc))) ;;
    Some (put (NT FPsiCum TyInts) (ItInts (running_sums 0 counts)) p)).
(** sr_csa_psi.h:474-533 constructItems(SrCSAWithPsiRun), after those of its base class; constructSortedIndices
    reads the values with type hash. *)
Definition srcsa_psi_steps (tm : tmpl) (s : nat) : list step :=
  [step_sorted (NT FPsiHead TyInts) (N FPsiHeadSorted); step_subsamples_psi s; step_submarks_psi (t_marks tm) s;
   step_sublinks_psi s; step_bv (t_idx tm) (P s FPsiHeadIdx) (PT s FPsiHeadIdx TyInts) (NT FPsiHead TyInts);
   step_cumulative_psi (t_dens tm)].
(** sr_csa_psi.h:729-802 constructItems(SRCSAValidMark) and constructSubmarksValidity *)
Definition step_validity_psi (c : bvclass) (s : nat) : step :=
  guarded (PT s FPsiTailValid (TyBv c)) (fun p =>
    p <- guarded (PT s FPsiTailValid TyInts) (fun p =>
           marks <- load_ints p (NT FPsiTail TyInts) ;; submarks <- load_ints p (PT s FPsiTail TyInts) ;;
           '(valid, areas) <- construct_validity_backward (std_sort Nat.ltb marks) submarks ;;
           Some (put (PT s FPsiTailArea TyInts) (ItInts areas) (put (PT s FPsiTailValid TyInts) (ItInts valid) p))) p ;;
    submarks <- buf_ints p (PT s FPsiTail TyInts) ;; valid <- buf_ints p (PT s FPsiTailValid TyInts) ;;
    b <- construct_bit_vector valid (List.length submarks) true ;;
    Some (put_bv0 c (P s FPsiTailValid) b p)).
(** sr_csa_psi.h:804-828 constructItems(SRCSAValidArea) *)
Definition step_areas_psi (s : nat) : step :=
  guarded (PT s FPsiTailArea TyInts) (fun p =>
    areas <- load_ints p (PT s FPsiTailArea TyInts) ;; Some (put (PT s FPsiTailArea TyInts) (ItInts areas) p)).

(** * The classes *)
(** construct(index, data_path, config): r_index.h:283-293, sr_index.h:455-484 and 486-571, r_csa.h:339-378,
    623-677, sr_csa.h:746-874, sr_csa_psi.h:462-828 *)
Definition class_steps (tm : tmpl) (kd : kind) (s : nat) : list step :=
  match kd with
  | KRIndex => rindex_steps tm
  | KSrIndex => rindex_steps tm ++ sri_steps tm s
  | KSrIndexVM | KSrIndexVA => rindex_steps tm ++ sri_steps tm s ++ sri_valid_steps tm s
  | KRCSA | KCSARaw => rcsa_steps tm
  | KSrCSA => rcsa_steps tm ++ srcsa_common_steps tm s ++ srcsa_steps tm s
  | KSrCSAVM | KSrCSAVA => rcsa_steps tm ++ srcsa_common_steps tm s ++ srcsa_steps tm s ++ srcsa_valid_steps tm s
  | KSlim => rcsa_steps tm ++ srcsa_common_steps tm s ++ slim_steps tm s
  | KSlimVM | KSlimVA => rcsa_steps tm ++ srcsa_common_steps tm s ++ slim_steps tm s ++ srcsa_valid_steps tm s
  | KRCSAPsi => rcsa_psi_steps tm
  | KSrPsi => rcsa_psi_steps tm ++ srcsa_psi_steps tm s
  | KSrPsiVM => rcsa_psi_steps tm ++ srcsa_psi_steps tm s ++ [step_validity_psi (t_valid tm) s]
  | KSrPsiVA => rcsa_psi_steps tm ++ srcsa_psi_steps tm s ++ [step_validity_psi (t_valid tm) s; step_areas_psi s]
  end.
(** The parameters of a run: route, suffix sorting, Big-BWT, and the bytes of the data file *)
Record input := mk_input { in_route : route; in_sort : list nat -> list nat; in_exe : list nat -> big_files; in_data : list nat }.
Definition build_cache (i : input) (tm : tmpl) (kd : kind) (s : nat) (p : proc) : option proc :=
  run_steps (base_steps (in_route i) (in_sort i) (in_exe i) (in_data i) ++ class_steps tm kd s) p.

(** The directory as the loads of MStore see it *)
Definition name_str (n : name) : string :=
  match nm_rate n with
  | Some s => (rate_prefix s ++ fkey_str (nm_key n))%string
  | None => fkey_str (nm_key n)
  end.
Definition files_of (d : disk) : files :=
  map (fun '(n, c) => (name_str n, nm_hash n, match c with Whole it => item_tokens it | Torn => [] end)) d.
(** construct followed by t_index.load(t_config), for a new object *)
Definition construct_index (i : input) (tm : tmpl) (kd : kind) (s : nat) (p : proc) : option (obj * proc) :=
  p <- build_cache i tm kd s p ;;
  o <- load_config tm kd (new_rate s []) (files_of (pr_disk p)) ;;
  Some (o, p).
