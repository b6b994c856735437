(** Model of the first pair of benchmark programs: benchmark/bm_build_ri_items.cpp, which writes the items of the
    r-indexes on inclusive ranges to a directory, and benchmark/bm_locate.cpp, which loads them through
    benchmark/factory.h and queries them.

    A directory is a list of stores, the newest first.  [None]: an exception leaves the program, an assertion fails or
    behaviour is undefined.  A file read by load_from_cache that does not exist leaves an empty object; one read through
    an int_vector_buffer is [None].  Left out: measured times, breakdown.csv, the command line but for --rebuild, and the
    options of the benchmark library. *)
From Coq Require Import List Arith Bool Ascii String.
From Verif Require Import MBase MRle MConstruct MPhi MRIndex MSrIndex MOldRle MBwt MClosed MBench.
Import ListNotations.

(** * Files *)
(** The keys: benchmark/definitions.h:12-31, with the suffixes and the prefixes of rates of bm_build_ri_items.cpp *)
Inductive ikey :=
| KText | KSA | KBwt | KHeads | KHeadsText | KHeadsTextVec | KHeadsBv | KHeadsBvSd
| KTails | KTailsText | KTailsTextVec | KF | KRle | KTailsSorted | KHeadsSorted | KLinks
| KSampled (s : nat) | KSampledIdxVec (s : nat) | KSampledIdxBv (s : nat) | KSampledIdxBvSd (s : nat)
| KSampledLinks (s : nat) | KMarkedVec (s : nat) | KMarkedBv (s : nat) | KMarkedBvSd (s : nat)
| KSampledHeadsBv (s : nat) | KSampledHeadsBvSd (s : nat) | KAreas (s : nat).
Definition ikey_dec (a b : ikey) : {a = b} + {a <> b}.
Proof. decide equality; apply Nat.eq_dec. Defined.
(** The names of the keys: benchmark/definitions.h:12-31, sdsl::conf::KEY_TEXT, KEY_SA and KEY_BWT, and
    std::to_string(s) + "_" *)
Definition rated (s : nat) (name : string) : string :=
  (DecimalString.NilEmpty.string_of_uint (Nat.to_uint s) ++ "_" ++ name)%string.
Definition key_name (k : ikey) : string :=
  match k with
  | KText => "text" | KSA => "sa" | KBwt => "bwt"
  | KHeads => "bwt_heads" | KHeadsText => "bwt_heads_tpos" | KHeadsTextVec => "bwt_heads_tpos_vec"
  | KHeadsBv => "bwt_heads_tpos_bv" | KHeadsBvSd => "bwt_heads_tpos_bv_sd"
  | KTails => "bwt_tails" | KTailsText => "bwt_tails_tpos" | KTailsTextVec => "bwt_tails_tpos_vec"
  | KF => "f" | KRle => "bwt_rle"
  | KTailsSorted => "bwt_tails_tpos_sorted_idx_vec" | KHeadsSorted => "bwt_heads_tpos_sorted_idx_vec"
  | KLinks => "bwt_tails_sampled_idx_by_heads_tpos"
  | KSampled s => rated s "bwt_tails_sampled_tpos"
  | KSampledIdxVec s => rated s "bwt_tails_sampled_idx_vec"
  | KSampledIdxBv s => rated s "bwt_tails_sampled_idx_bv"
  | KSampledIdxBvSd s => rated s "bwt_tails_sampled_idx_bv_sd"
  | KSampledLinks s => rated s "bwt_tails_sampled_idx_by_heads_tpos"
  | KMarkedVec s => rated s "bwt_tails_marked_sampled_idx_by_heads_tpos_vec"
  | KMarkedBv s => rated s "bwt_tails_marked_sampled_idx_by_heads_tpos_bv"
  | KMarkedBvSd s => rated s "bwt_tails_marked_sampled_idx_by_heads_tpos_bv_sd"
  | KSampledHeadsBv s => rated s "bwt_heads_sampled_tpos_bv"
  | KSampledHeadsBvSd s => rated s "bwt_heads_sampled_tpos_bv_sd"
  | KAreas s => rated s "bwt_heads_marked_sampled_trusted_area"
  end.
Inductive icontent := INums (l : list nat) | IBits (l : list bool) | IRle (x : oldrle).
Definition idir := list (ikey * icontent).
Fixpoint fget (d : idir) (k : ikey) : option icontent :=
  match d with
  | [] => None
  | (k', c) :: d => if ikey_dec k k' then Some c else fget d k
  end.
(** sdsl::store_to_cache, the files of [l] one after the other *)
Definition fputs (d : idir) (l : list (ikey * icontent)) : idir := fold_left (fun d kc => kc :: d) l d.
(** sdsl::cache_file_exists *)
Definition fexists (d : idir) (k : ikey) : bool := match fget d k with Some _ => true | None => false end.
(** sdsl::load_from_cache into an empty object *)
Definition load_nums (d : idir) (k : ikey) : option (list nat) :=
  match fget d k with None => Some [] | Some (INums l) => Some l | Some _ => None end.
Definition load_bits (d : idir) (k : ikey) : option (list bool) :=
  match fget d k with None => Some [] | Some (IBits l) => Some l | Some _ => None end.
(** sdsl::int_vector_buffer *)
Definition buffer_nums (d : idir) (k : ikey) : option (list nat) :=
  match fget d k with Some (INums l) => Some l | _ => None end.

(** * Helpers *)
(** sdsl::bits::hi(x) + 1 *)
Definition width_of (x : nat) : nat := Nat.log2 x + 1.
(** An int_vector of [width] bits per number keeps the low bits. *)
Definition packed (width : nat) (l : list nat) : list nat := map (fun v => v mod 2 ^ width) l.
(** for (auto _ : t_state): the library asks for at least one round; [more] is the number of further ones. *)
Fixpoint rounds {S} (body : S -> option S) (more : nat) (st : S) : option S :=
  st <- body st ;; match more with 0 => Some st | S more => rounds body more st end.
(** The counters n, r, s, r' and mr': bm_build_ri_items.cpp:23-29 *)
Record icounters := mk_icounters { ic_n : nat; ic_r : nat; ic_s : nat; ic_r' : nat; ic_mr' : nat }.
Definition stores := list (ikey * icontent).

(** * bm_build_ri_items.cpp *)
(** BM_BuildText: bm_build_ri_items.cpp:39-69 *)
Definition build_text (data : list nat) : list nat := map (fun c => if c =? 0 then 2 else c) data ++ [0].
Definition bm_text (data : list nat) (more : nat) (d : idir) : option (stores * icounters) :=
  n <- rounds (fun _ => Some (List.length data)) more 0 ;;
  Some ([(KText, INums (build_text data))], mk_icounters n 0 0 0 0).

(** BM_BuildSA: bm_build_ri_items.cpp:72-79.  sdsl::construct_sa<8> is the argument [sort]. *)
Definition bm_sa (sort : list nat -> option (list nat)) (more : nat) (d : idir) : option (stores * icounters) :=
  text <- buffer_nums d KText ;;
  sa <- sort text ;;
  Some ([(KSA, INums sa)], mk_icounters 0 0 0 0 0).

(** The vectors the reports of computeBWT write to: bm_build_ri_items.cpp:112-140 *)
Record bwt_vars := mk_bwt_vars {
  bw_bwt : list nat; bw_f : list nat;
  bw_heads : list nat; bw_heads_text : list nat; bw_tails : list nat; bw_tails_text : list nat }.
Definition on_event (v : bwt_vars) (e : bwt_event) : option bwt_vars :=
  match e with
  | EvSymbol _ c => f <- f_count (bw_f v) c ;;
      Some (mk_bwt_vars (bw_bwt v ++ [c]) f (bw_heads v) (bw_heads_text v) (bw_tails v) (bw_tails_text v))
  | EvFirst _ i _ pos =>
      Some (mk_bwt_vars (bw_bwt v) (bw_f v) (bw_heads v ++ [i]) (bw_heads_text v ++ [pos]) (bw_tails v) (bw_tails_text v))
  | EvLast _ i _ pos =>
      Some (mk_bwt_vars (bw_bwt v) (bw_f v) (bw_heads v) (bw_heads_text v) (bw_tails v ++ [i]) (bw_tails_text v ++ [pos]))
  end.
(** What a round of BM_BuildBWT leaves: bm_build_ri_items.cpp:93-103 *)
Record bwt_round := mk_bwt_round { br_vars : bwt_vars; br_heads_bv : list bool; br_r : nat }.
(** A round of BM_BuildBWT: bm_build_ri_items.cpp:105-181.  f, bwt_heads_text_pos_vec and bwt_tails_text_pos_vec outlive
    a round and are cleared; the file of the BWT is truncated; the vectors of the positions in the BWT are local. *)
Definition bwt_body (text sa : list nat) (st : bwt_round) : option bwt_round :=
  let cleared := mk_bwt_vars [] (repeat 0 256) [] [] [] [] in
  '(ev, r) <- compute_bwt (List.length text) (nth_error sa) (nth_error text) ;;
  v <- mfold on_event ev cleared ;;
  _ <- guard ((List.length text =? List.length (bw_bwt v)) && (r =? List.length (bw_heads v)) && (r =? List.length (bw_tails v))) ;;
  bv <- construct_bit_vector (bw_heads_text v) (List.length text) false ;;
  let f := f_sums 0 (bw_f v) in
  last <- nth_error f 255 ;;
  _ <- guard (last =? List.length text) ;;
  Some (mk_bwt_round (mk_bwt_vars (bw_bwt v) f (bw_heads v) (bw_heads_text v) (bw_tails v) (bw_tails_text v)) bv r).
(** BM_BuildBWT: bm_build_ri_items.cpp:82-197 *)
Definition bm_bwt (more : nat) (d : idir) : option (stores * icounters) :=
  text <- load_nums d KText ;;
  sa <- buffer_nums d KSA ;;
  st <- rounds (bwt_body text sa) more (mk_bwt_round (mk_bwt_vars [] (repeat 0 256) [] [] [] []) [] 0) ;;
  let v := br_vars st in
  let w := width_of (List.length text) in
  Some ([(KBwt, INums (bw_bwt v)); (KHeads, INums (packed w (bw_heads v))); (KHeadsText, INums (packed w (bw_heads_text v)));
         (KHeadsTextVec, INums (bw_heads_text v)); (KHeadsBv, IBits (br_heads_bv st)); (KHeadsBvSd, IBits (br_heads_bv st));
         (KTails, INums (packed w (bw_tails v))); (KTailsText, INums (packed w (bw_tails_text v)));
         (KTailsTextVec, INums (bw_tails_text v)); (KF, INums (bw_f v))], mk_icounters 0 (br_r st) 0 0 0).

(** BM_BuildBWTRunLengthEncoded: bm_build_ri_items.cpp:200-216; the block size is the default of rle_string.hpp:59 *)
Definition bm_rle (more : nat) (d : idir) : option (stores * icounters) :=
  bwt <- buffer_nums d KBwt ;;
  let bwt_s := map replace_zero bwt in
  x <- rounds (fun _ => x <- old_construct 2 bwt_s ;; Some (Some x)) more None ;;
  x <- x ;;
  Some ([(KRle, IRle x)], mk_icounters 0 0 0 0 0).

(** BM_SortBWTTailsTextPos: bm_build_ri_items.cpp:219-240; a round sorts 0, 1, ... anew *)
Definition bm_sort_tails (more : nat) (d : idir) : option (stores * icounters) :=
  tails <- load_nums d KTailsTextVec ;;
  idxs <- rounds (fun _ => Some (sort_indices tails)) more [] ;;
  Some ([(KTailsSorted, INums idxs)], mk_icounters 0 0 0 0 0).
(** BM_SortBWTHeadsTextPos: bm_build_ri_items.cpp:243-276 *)
Definition bm_sort_heads (more : nat) (d : idir) : option (stores * icounters) :=
  heads <- load_nums d KHeadsTextVec ;;
  let r := List.length heads in
  '(idxs, links) <- rounds (fun _ =>
      let idxs := sort_indices heads in
      links <- mmap (fun i => umod (i + r - 1) r) idxs ;; Some (idxs, packed (width_of r) links)) more ([], []) ;;
  Some ([(KHeadsSorted, INums idxs); (KLinks, INums links)], mk_icounters 0 0 0 0 0).

(** The loop over the sorted tails: bm_build_ri_items.cpp:320-336; the sampled indices and the last [prev].  The
    difference is unsigned. *)
Fixpoint tails_loop (s first_req last_req : nat) (tails : list nat) (sampled : list nat) (last_sampled prev_idx prev : nat)
  (rest : list nat) : option (list nat * nat) :=
  match rest with
  | [] => Some (sampled ++ [prev_idx], prev)
  | current_idx :: rest =>
      current <- nth_error tails current_idx ;;
      if (prev_idx =? first_req) || (prev_idx =? last_req) || (s <? sub64 current last_sampled)
      then tails_loop s first_req last_req tails (sampled ++ [prev_idx]) prev current_idx current rest
      else tails_loop s first_req last_req tails sampled last_sampled current_idx current rest
  end.
(** A round of BM_BuildBWTTailsSampling: bm_build_ri_items.cpp:309-354; sampled_idxs_vec is cleared.  tails_idxs_sorted[0]
    and [1] are read whatever its size. *)
Record tails_round := mk_tails_round { tr_idxs : list nat; tr_sampled : list nat; tr_bv : list bool }.
Definition tails_body (s first_req last_req : nat) (tails sorted : list nat) (st : tails_round) : option tails_round :=
  let sampled := [] in
  i0 <- nth_error sorted 0 ;;
  last_sampled <- nth_error tails i0 ;;
  i1 <- nth_error sorted 1 ;;
  prev <- nth_error tails i1 ;;
  '(sampled, prev) <- tails_loop s first_req last_req tails (sampled ++ [i0]) last_sampled i1 prev (skipn 2 sorted) ;;
  let idxs := std_sort Nat.ltb sampled in
  in_text <- mmap (nth_error tails) idxs ;;
  bv <- construct_bit_vector idxs (List.length sorted) false ;;
  Some (mk_tails_round idxs (packed (width_of prev) in_text) bv).
(** BM_BuildBWTTailsSampling: bm_build_ri_items.cpp:279-368 *)
Definition bm_tails (s : nat) (more : nat) (d : idir) : option (stores * icounters) :=
  tails <- load_nums d KTailsTextVec ;;
  sorted <- load_nums d KTailsSorted ;;
  let r := List.length sorted in
  heads_sorted <- load_nums d KHeadsSorted ;;
  _ <- guard (List.length heads_sorted =? r) ;;
  front <- nth_error heads_sorted 0 ;;
  back <- nth_error heads_sorted (List.length heads_sorted - 1) ;;
  first_req <- umod (front + r - 1) r ;;
  last_req <- umod (back + r - 1) r ;;
  st <- rounds (tails_body s first_req last_req tails sorted) more (mk_tails_round [] [] []) ;;
  Some ([(KSampled s, INums (tr_sampled st)); (KSampledIdxVec s, INums (tr_idxs st));
         (KSampledIdxBv s, IBits (tr_bv st)); (KSampledIdxBvSd s, IBits (tr_bv st))],
        mk_icounters 0 0 s (List.length (tr_idxs st)) 0).

(** while (next_sampled_head_idx != head_idxs_sorted_in_text[++j]): bm_build_ri_items.cpp:450; the new [j].  The fuel
    bounds the rounds. *)
Fixpoint skip_heads (fuel : nat) (sorted : list nat) (j next : nat) : option nat :=
  match fuel with
  | 0 => None
  | S fuel => h <- nth_error sorted (S j) ;; if negb (next =? h) then skip_heads fuel sorted (S j) next else Some (S j)
  end.
(** What the loop over the sampled heads writes to: bm_build_ri_items.cpp:422-430 *)
Record heads_round := mk_heads_round { hr_links : list nat; hr_marked : list bool; hr_bv : list bool; hr_areas : list nat }.
(** bm_build_ri_items.cpp:435-454: [nexts] are next_sampled_head_idx of the rounds to come.  marked_sampled_idxs_vec and
    marked_sampled_idxs_bv are always the same. *)
Fixpoint heads_loop (heads sorted : list nat) (i j sampled_head : nat) (nexts : list nat) (st : heads_round) : option heads_round :=
  match nexts with
  | [] => Some st
  | next :: nexts =>
      tpos <- nth_error heads sampled_head ;;
      bv <- list_set (hr_bv st) tpos true ;;
      head <- nth_error sorted (S j) ;;
      if negb (next =? head) then
        marked <- list_set (hr_marked st) i false ;;
        hpos <- nth_error heads head ;;
        j <- skip_heads (List.length sorted) sorted (S j) next ;;
        heads_loop heads sorted (S i) j next nexts
          (mk_heads_round (hr_links st) marked bv (hr_areas st ++ [sub64 hpos tpos + 1]))
      else heads_loop heads sorted (S i) (S j) next nexts (mk_heads_round (hr_links st) (hr_marked st) bv (hr_areas st))
  end.
(** A round of BM_BuildBWTHeadsSampling: bm_build_ri_items.cpp:403-471; trusted_area_for_marked_sampled_idxs_vec is
    cleared.  On no sampled tails front() is undefined. *)
Definition heads_body (heads idxs sorted : list nat) (st : heads_round) : option heads_round :=
  let r := List.length heads in
  let r' := List.length idxs in
  follow <- mmap (fun k => umod (k + 1) r) idxs ;;
  follow_text <- mmap (nth_error heads) follow ;;
  let links := sort_indices follow_text in
  nexts <- mmap (nth_error follow) links ;;
  first <- nth_error nexts 0 ;;
  final <- nth_error nexts (r' - 1) ;;
  front <- nth_error sorted 0 ;;
  back <- nth_error sorted (List.length sorted - 1) ;;
  _ <- guard ((first =? front) && (final =? back)) ;;
  last <- nth_error heads back ;;
  st <- heads_loop heads sorted 0 0 front (tl nexts)
          (mk_heads_round [] (repeat true r') (repeat false (last + 1)) []) ;;
  bv <- list_set (hr_bv st) last true ;;
  Some (mk_heads_round (packed (width_of r') links) (hr_marked st) bv (hr_areas st)).
(** BM_BuildBWTHeadsSampling: bm_build_ri_items.cpp:371-499 *)
Definition bm_heads (s : nat) (more : nat) (d : idir) : option (stores * icounters) :=
  heads <- load_nums d KHeadsTextVec ;;
  idxs <- load_nums d (KSampledIdxVec s) ;;
  sorted <- load_nums d KHeadsSorted ;;
  _ <- guard (List.length sorted =? List.length heads) ;;
  st <- rounds (heads_body heads idxs sorted) more (mk_heads_round [] [] [] []) ;;
  Some ([(KSampledLinks s, INums (hr_links st)); (KMarkedVec s, IBits (hr_marked st)); (KMarkedBv s, IBits (hr_marked st));
         (KMarkedBvSd s, IBits (hr_marked st)); (KSampledHeadsBv s, IBits (hr_bv st)); (KSampledHeadsBvSd s, IBits (hr_bv st));
         (KAreas s, INums (hr_areas st))],
        mk_icounters 0 0 s (List.length idxs) (count_occ Bool.bool_dec (hr_marked st) true)).

(** The functions given to the benchmark library, with their arguments *)
Inductive item_fn := FText | FSA | FBwt | FRle | FSortTails | FSortHeads | FTails (s : nat) | FHeads (s : nat).
(** RangeMultiplier(2)->Range(4, 2u << 8u): bm_build_ri_items.cpp:545-546, 551-552; the library takes both ends and the
    powers of two in between *)
Definition item_rates : list nat := [4; 8; 16; 32; 64; 128; 256; 512].
(** main: bm_build_ri_items.cpp:519-553, the functions that are registered *)
Definition registered (rebuild : bool) (d : idir) : list item_fn :=
  let missing k := negb (fexists d k) || rebuild in
  (if missing KText then [FText] else []) ++ (if missing KSA then [FSA] else []) ++
  (if missing KBwt then [FBwt] else []) ++ (if missing KRle then [FRle] else []) ++
  (if missing KTailsSorted then [FSortTails] else []) ++ (if missing KHeadsSorted then [FSortHeads] else []) ++
  (if missing (KSampled 16) then map FTails item_rates else []) ++
  (if missing (KSampledHeadsBv 16) then map FHeads item_rates else []).

Section Items.
  Variable sort : list nat -> option (list nat).
  Variable data : list nat.

  Definition item_call (fn : item_fn) (more : nat) (d : idir) : option (stores * icounters) :=
    match fn with
    | FText => bm_text data more d
    | FSA => bm_sa sort more d
    | FBwt => bm_bwt more d
    | FRle => bm_rle more d
    | FSortTails => bm_sort_tails more d
    | FSortHeads => bm_sort_heads more d
    | FTails s => bm_tails s more d
    | FHeads s => bm_heads s more d
    end.
  (** RunSpecifiedBenchmarks: the functions in the order of registration.  The library calls each once or more, to find
      the number of rounds: [calls fn] are the further rounds of the first call and of the others. *)
  Definition item_calls (calls : item_fn -> nat * list nat) (fn : item_fn) : list nat := fst (calls fn) :: snd (calls fn).
  Definition run_call (st : idir * list icounters) (call : item_fn * nat) : option (idir * list icounters) :=
    '(l, co) <- item_call (fst call) (snd call) (fst st) ;; Some (fputs (fst st) l, snd st ++ [co]).
  Definition run_calls (calls : list (item_fn * nat)) (d : idir) : option (idir * list icounters) := mfold run_call calls (d, []).
  Definition calls_of (calls : item_fn -> nat * list nat) (fns : list item_fn) : list (item_fn * nat) :=
    flat_map (fun fn => map (fun more => (fn, more)) (item_calls calls fn)) fns.
  (** main: bm_build_ri_items.cpp:501-559 *)
  Definition build_items (rebuild : bool) (calls : item_fn -> nat * list nat) (d : idir) : option (idir * list icounters) :=
    run_calls (calls_of calls (registered rebuild d)) d.
  (** The directories a run may leave when it is stopped: after some calls, and some stores of the next one *)
  Definition stopped (rebuild : bool) (calls : item_fn -> nat * list nat) (d d' : idir) : Prop :=
    exists before call after st l co k,
      calls_of calls (registered rebuild d) = before ++ call :: after /\
      run_calls before d = Some st /\ item_call (fst call) (snd call) (fst st) = Some (l, co) /\
      d' = fputs (fst st) (firstn k l).
End Items.

(** * benchmark/factory.h *)
(** Item: factory.h:325-341 *)
Record item (A : Type) := mk_item { it_val : A; it_size : nat }.
Arguments mk_item {A}. Arguments it_val {A}. Arguments it_size {A}.
(** What sdsl::size_in_bytes returns for the objects and their supports *)
Record sizes := mk_sizes {
  sz_nums : list nat -> nat; sz_vector : list nat -> nat; sz_rle : oldrle -> nat;
  sz_sd : list bool -> nat; sz_rank_sd : list bool -> nat; sz_select_sd : list bool -> nat;
  sz_bv : list bool -> nat; sz_rank0 : list bool -> nat }.
(** RIndexComponents: factory.h:349-371; a support is kept as the bits it belongs to *)
Record ipack := mk_ipack {
  pk_tails : item (list nat); pk_heads : item (list bool); pk_rank_heads : item (list bool); pk_select_heads : item (list bool);
  pk_links : item (list nat); pk_idx : item (list bool); pk_rank_idx : item (list bool);
  pk_marked : item (list bool); pk_rank_marked : item (list bool); pk_areas : item (list nat) }.
Record ifactory := mk_ifactory { if_bwt : item oldrle; if_f : item (list nat); if_packs : list (nat * ipack) }.

Section Factory.
  Variable sz : sizes.
  (** load and computeSize: factory.h:330-341 *)
  Definition load_item {A} (size : A -> nat) (x : option A) : option (item A) := v <- x ;; Some (mk_item v (size v)).
  Definition computed (size : list bool -> nat) (v : list bool) : item (list bool) := mk_item v (size v).
  (** An item that is never loaded: factory.h:326-328 *)
  Definition fresh {A} : item (list A) := mk_item [] 0.
  (** The components of all the runs: factory.h:43-58 *)
  Definition load_pack0 (d : idir) : option ipack :=
    tails <- load_item (sz_nums sz) (load_nums d KTailsText) ;;
    heads <- load_item (sz_sd sz) (load_bits d KHeadsBvSd) ;;
    links <- load_item (sz_nums sz) (load_nums d KLinks) ;;
    Some (mk_ipack tails heads (computed (sz_rank_sd sz) (it_val heads)) (computed (sz_select_sd sz) (it_val heads)) links
            fresh fresh fresh fresh fresh).
  (** The components of a rate: factory.h:61-92; computeSize is not called for rank_marked_sampled_idxs_bv *)
  Definition load_pack (d : idir) (s : nat) : option ipack :=
    tails <- load_item (sz_nums sz) (load_nums d (KSampled s)) ;;
    heads <- load_item (sz_sd sz) (load_bits d (KSampledHeadsBvSd s)) ;;
    links <- load_item (sz_nums sz) (load_nums d (KSampledLinks s)) ;;
    idx <- load_item (sz_sd sz) (load_bits d (KSampledIdxBvSd s)) ;;
    marked <- load_item (sz_bv sz) (load_bits d (KMarkedBv s)) ;;
    areas <- load_item (sz_nums sz) (load_nums d (KAreas s)) ;;
    Some (mk_ipack tails heads (computed (sz_rank_sd sz) (it_val heads)) (computed (sz_select_sd sz) (it_val heads)) links
            idx (computed (sz_rank_sd sz) (it_val idx)) marked (mk_item (it_val marked) 0) areas).
  (** for (int i = 4; i <= 512; i *= 2): factory.h:61; the fuel bounds the rounds *)
  Fixpoint doubling (fuel i last : nat) : list nat :=
    match fuel with
    | 0 => []
    | S fuel => if i <=? last then i :: doubling fuel (i * 2) last else []
    end.
  (** Factory(): factory.h:31-93; a missing rle_string is [None] here *)
  Definition make_factory (d : idir) : option ifactory :=
    bwt <- match fget d KRle with Some (IRle x) => Some x | _ => None end ;;
    f <- load_item (sz_vector sz) (load_nums d KF) ;;
    p0 <- load_pack0 d ;;
    packs <- mmap (fun s => p <- load_pack d s ;; Some (s, p)) (doubling 10 4 512) ;;
    Some (mk_ifactory (mk_item bwt (sz_rle sz bwt)) f ((0, p0) :: packs)).

  (** Config: factory.h:24-29, 99-102 *)
  Inductive ikind := IRIndex | ISampled | IMarks | IAreas.
  (** sizeBasicComponents and the others: factory.h:212-235 *)
  Definition size_basic (fa : ifactory) : nat := it_size (if_bwt fa) + it_size (if_f fa).
  Definition size_pack (p : ipack) : nat :=
    it_size (pk_tails p) + it_size (pk_heads p) + it_size (pk_rank_heads p) + it_size (pk_select_heads p)
    + it_size (pk_links p) + it_size (pk_idx p) + it_size (pk_rank_idx p).
  Definition size_marks (p : ipack) : nat := size_pack p + it_size (pk_marked p).
  Definition size_areas (p : ipack) : nat :=
    size_pack p + it_size (pk_marked p) + it_size (pk_rank_marked p) + it_size (pk_areas p).
  (** The parts of the factory an index is assembled from: factory.h:111-210 *)
  Definition cix_of (fa : ifactory) (s : nat) (p : ipack) : cix :=
    mk_cix (it_val (if_bwt fa)) (it_val (if_f fa)) s (it_val (pk_tails p)) (it_val (pk_idx p)) (it_val (pk_heads p))
      (it_val (pk_links p)) (it_val (pk_marked p)) (it_val (pk_areas p)).
  Definition cri_of (fa : ifactory) (p : ipack) : cri :=
    mk_cri (it_val (if_bwt fa)) (it_val (if_f fa)) (it_val (pk_tails p)) (it_val (pk_heads p)) (it_val (pk_links p)).
  (** make: factory.h:104-106, 237-318; r_index_packs_.at throws.  The index is its Locate. *)
  Definition pack_at (fa : ifactory) (s : nat) : option ipack :=
    match find (fun sp => fst sp =? s) (if_packs fa) with Some (_, p) => Some p | None => None end.
  Definition make_index (fa : ifactory) (k : ikind) (s : nat) : option ((list nat -> option (list nat)) * nat) :=
    match k with
    | IRIndex => p <- pack_at fa 0 ;; Some (cr_locate (cri_of fa p), size_basic fa + size_pack p)
    | ISampled => p <- pack_at fa s ;; Some (closed_simple_locate (cix_of fa s p), size_basic fa + size_pack p)
    | IMarks => p <- pack_at fa s ;; Some (closed_marks_locate (cix_of fa s p), size_basic fa + size_marks p)
    | IAreas => p <- pack_at fa s ;; Some (closed_areas_locate (cix_of fa s p), size_basic fa + size_areas p)
    end.

  (** * benchmark/bm_locate.cpp *)
  (** The loop that reads the patterns: bm_locate.cpp:118-124, the same as that of bm_locate.h:220-236 without decoding *)
  Definition ri_patterns (file : list nat) : option (list pattern) := patterns_loop (S (List.length file)) CPlain file [].
  (** index_configs: bm_locate.cpp:133-153 *)
  Definition ri_configs : list (string * (ikind * nat)) :=
    [("R-Index", (IRIndex, 0));
     ("R-Index-WS/4", (ISampled, 4)); ("R-Index-WS/8", (ISampled, 8)); ("R-Index-WS/16", (ISampled, 16));
     ("R-Index-WS/32", (ISampled, 32)); ("R-Index-WS/64", (ISampled, 64));
     ("R-Index-WS-TM/4", (IMarks, 4)); ("R-Index-WS-TM/8", (IMarks, 8)); ("R-Index-WS-TM/16", (IMarks, 16));
     ("R-Index-WS-TM/32", (IMarks, 32)); ("R-Index-WS-TM/64", (IMarks, 64));
     ("R-Index-WS-TA/4", (IAreas, 4)); ("R-Index-WS-TA/8", (IAreas, 8)); ("R-Index-WS-TA/16", (IAreas, 16));
     ("R-Index-WS-TA/32", (IAreas, 32)); ("R-Index-WS-TA/64", (IAreas, 64))]%string.
  (** replace('/', '_') and the name of the file: bm_locate.cpp:67-69 *)
  Fixpoint no_slash (s : string) : string :=
    match s with
    | EmptyString => EmptyString
    | String c s => String (if Ascii.eqb c "/" then "_" else c)%char (no_slash s)
    end.
  Definition ri_output (name : string) : string := ("result-" ++ no_slash name ++ ".txt")%string.
  (** The counters of BM_QueryLocate and BM_PrintQueryLocate (bm_locate.cpp:49-58, 88-97): those of bm_locate.h with the
      sizes *)
  Record ri_counters := mk_ri_counters { rc_collection : nat; rc_size : nat; rc_queries : counters }.
  (** The indexes main registers: bm_locate.cpp:156-166; SequenceSize (factory.h:37, 95-97) is the size of the BWT *)
  Record ri_index := mk_ri_index { rx_name : string; rx_locate : list nat -> option (list nat); rx_size : nat }.
  Definition ri_indexes (fa : ifactory) : option (list ri_index) :=
    mmap (fun '(name, (k, s)) => '(ix, size) <- make_index fa k s ;; Some (mk_ri_index name ix size)) ri_configs.
  (** A call of BM_QueryLocate (bm_locate.cpp:38-59) or BM_PrintQueryLocate (61-98) for an index: the number of rounds, the
      counters, and the file that is written.  The loops are those of bm_locate.h:56-70 and 90-121 (MBench.v) on patterns
      that are their own encoding; the pattern is written before the query is asked, which makes no difference. *)
  Record ri_job := mk_ri_job { rj_idx : nat; rj_print : bool; rj_more : nat }.
  Definition ri_call (fa : ifactory) (xs : list ri_index) (ps : list pattern) (j : ri_job) : option (ri_counters * list (string * list nat)) :=
    x <- nth_error xs (rj_idx j) ;;
    let report co := mk_ri_counters (old_size (it_val (if_bwt fa))) (rx_size x) co in
    if rj_print j
    then '(co, out) <- print_locate (rx_locate x) (S (rj_more j)) ps ;; Some (report co, [(ri_output (rx_name x), out)])
    else co <- macro_locate (rx_locate x) (S (rj_more j)) ps ;; Some (report co, []).
  Definition ri_step (fa : ifactory) (xs : list ri_index) (ps : list pattern)
    (st : list ri_counters * list (string * list nat)) (j : ri_job) : option (list ri_counters * list (string * list nat)) :=
    '(co, outs) <- ri_call fa xs ps j ;; Some (fst st ++ [co], outs ++ snd st).
  (** main: bm_locate.cpp:100-172, for files that can be opened; the files written, the newest first *)
  Definition ri_program (d : idir) (file : list nat) (js : list ri_job) : option (list ri_counters * list (string * list nat)) :=
    ps <- ri_patterns file ;;
    fa <- make_factory d ;;
    xs <- ri_indexes fa ;;
    mfold (ri_step fa xs ps) js ([], []).
End Factory.
