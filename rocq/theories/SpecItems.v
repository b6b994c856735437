(** Vocabulary of the properties of the first pair of benchmark programs. *)
From Coq Require Import List Arith Bool String DecimalString Sorting.Sorted.
From Verif Require Import Spec SpecBwt MBase MOldRle MClosed MBench SpecBench MItems.
Import ListNotations.

(** Data the programs are meant for: not empty, and without the bytes 1 and 255. *)
Definition item_data (data : list nat) : Prop := data <> [] /\ Forall (fun c => c = 0 \/ 1 < c < 255) data.
(** The text that is indexed: the data with the byte 2 in place of 0. *)
Definition zero_as_two (data : list nat) : list nat := map (fun c => if c =? 0 then 2 else c) data.
(** [sa] is what the sorter returns for the text of [data], and it is right. *)
Definition sorted_by (sort : list nat -> option (list nat)) (data sa : list nat) : Prop :=
  sort (terminated (zero_as_two data)) = Some sa /\ is_suffix_array (terminated (zero_as_two data)) sa.
Definition rates : list nat := [4; 8; 16; 32; 64; 128; 256; 512].
(** The files, in groups: the file whose presence is tested, and all the files that are written if it is absent. *)
Definition groups : list (ikey * list ikey) :=
  [(KText, [KText]); (KSA, [KSA]);
   (KBwt, [KBwt; KHeads; KHeadsText; KHeadsTextVec; KHeadsBv; KHeadsBvSd; KTails; KTailsText; KTailsTextVec; KF]);
   (KRle, [KRle]); (KTailsSorted, [KTailsSorted]); (KHeadsSorted, [KHeadsSorted; KLinks]);
   (KSampled 16, flat_map (fun s => [KSampled s; KSampledIdxVec s; KSampledIdxBv s; KSampledIdxBvSd s]) rates);
   (KSampledHeadsBv 16, flat_map (fun s => [KSampledLinks s; KMarkedVec s; KMarkedBv s; KMarkedBvSd s; KSampledHeadsBv s; KSampledHeadsBvSd s; KAreas s]) rates)].
Definition all_files : list ikey := flat_map snd groups.
Definition present (d : idir) (k : ikey) : Prop := fget d k <> None.
(** Every group of which the tested file is there is complete. *)
Definition no_torn_group (d : idir) : Prop :=
  forall g ks, In (g, ks) groups -> present d g -> forall k, In k ks -> present d k.
(** The two directories have the same files. *)
Definition same_files (d d' : idir) : Prop := forall k, fget d k = fget d' k.
(** Number of maximal runs. *)
Definition number_of_runs (l : list nat) : nat := runs_before l (List.length l).
(** The counters a call has to leave, given the directory at the end. *)
Definition counted (data sa : list nat) (d : idir) (fn : item_fn) (co : icounters) : Prop :=
  match fn with
  | FText => co = mk_icounters (List.length data) 0 0 0 0
  | FBwt => co = mk_icounters 0 (number_of_runs (bwt_of (terminated (zero_as_two data)) sa)) 0 0 0
  | FTails s => exists l, fget d (KSampled s) = Some (INums l) /\ co = mk_icounters 0 0 s (List.length l) 0
  | FHeads s => exists l m, fget d (KSampled s) = Some (INums l) /\ fget d (KMarkedBv s) = Some (IBits m) /\
                  co = mk_icounters 0 0 s (List.length l) (count_occ Bool.bool_dec m true)
  | _ => co = mk_icounters 0 0 0 0 0
  end.
(** The bits [v], [n] of them, that are set are those at [l]. *)
Definition bits_at (v : list bool) (n : nat) (l : list nat) : Prop := List.length v = n /\ forall i, nth i v false = true <-> In i l.
(** The files that do not depend on a rate: the text, its suffix array and BWT, the heads and the tails of the runs with the
    text positions before their suffixes, and for every byte the number of smaller ones. *)
Definition run_files (t sa : list nat) (d : idir) (l : list nat) (rows : ikey) (nums bits : list ikey) : Prop :=
  let before := map (fun i => cpred (List.length t) (nth i sa 0)) l in
  fget d rows = Some (INums l) /\ (forall k, In k nums -> fget d k = Some (INums before)) /\
  (forall k, In k bits -> exists v, fget d k = Some (IBits v) /\ bits_at v (List.length t) before).
Definition bwt_files (data sa : list nat) (d : idir) : Prop :=
  let t := terminated (zero_as_two data) in
  let b := bwt_of t sa in
  fget d KText = Some (INums t) /\ fget d KSA = Some (INums sa) /\ fget d KBwt = Some (INums b) /\
  (exists l, lists_in_order l (run_head b) /\ run_files t sa d l KHeads [KHeadsText; KHeadsTextVec] [KHeadsBv; KHeadsBvSd]) /\
  (exists l, lists_in_order l (run_tail b) /\ run_files t sa d l KTails [KTailsText; KTailsTextVec] []) /\
  (exists f, fget d KF = Some (INums f) /\ List.length f = 256 /\ forall c, c < 256 -> nth_error f c = Some (smaller c b)).
(** The files of the tails that are kept with the rate [s]: their numbers [ks] among all the tails, and their positions.  A
    tail that is not kept is between a kept one and the tail that follows it in the text, which are at most [s] apart. *)
Definition sampled_files (d : idir) (s : nat) : Prop :=
  exists tails ks, fget d KTailsText = Some (INums tails) /\ fget d (KSampledIdxVec s) = Some (INums ks) /\
    let at_ k := nth k tails 0 in
    lists_in_order ks (fun k => In k ks) /\ (forall k, In k ks -> k < List.length tails) /\
    fget d (KSampled s) = Some (INums (map at_ ks)) /\
    (forall k, In k [KSampledIdxBv s; KSampledIdxBvSd s] -> exists v, fget d k = Some (IBits v) /\ bits_at v (List.length tails) ks) /\
    (forall k, k < List.length tails -> ~ In k ks -> exists j q, In j ks /\ q < List.length tails /\ at_ j < at_ k < at_ q /\
       (forall x, x < List.length tails -> ~ at_ k < at_ x < at_ q) /\ at_ q - at_ j <= s).
(** [l] are the numbers of the entries of [pos], in the order of the positions. *)
Definition in_text_order (pos l : list nat) : Prop :=
  (forall i, In i l <-> i < List.length pos) /\ StronglySorted (fun i j => nth i pos 0 < nth j pos 0) l.
(** The files of the heads and tails in text order, and for each head, in text order, the run before it. *)
Definition order_files (d : idir) : Prop :=
  exists heads tails hs ts, fget d KHeadsText = Some (INums heads) /\ fget d KTailsText = Some (INums tails) /\
    fget d KHeadsSorted = Some (INums hs) /\ in_text_order heads hs /\ fget d KTailsSorted = Some (INums ts) /\ in_text_order tails ts /\
    fget d KLinks = Some (INums (map (cpred (List.length heads)) hs)).
(** The files of the heads that follow the tails kept with the rate [s], with the rows cyclic: their order in the text, the bits
    set at their positions, the marks of those that no other head separates from the next kept one, and for each of the
    others the distance to the next head, plus one. *)
Definition marked_files (d : idir) (s : nat) : Prop :=
  exists text heads ks links marks areas, fget d KText = Some (INums text) /\ fget d KHeadsText = Some (INums heads) /\
    fget d (KSampledIdxVec s) = Some (INums ks) /\
    let kept := map (fun k => nth ((k + 1) mod List.length heads) heads 0) ks in
    let at_ i := nth (nth i links 0) kept 0 in
    fget d (KSampledLinks s) = Some (INums links) /\ in_text_order kept links /\
    (forall k, In k [KSampledHeadsBv s; KSampledHeadsBvSd s] -> exists v, fget d k = Some (IBits v) /\ bits_at v (List.length text) kept) /\
    (forall k, In k [KMarkedVec s; KMarkedBv s; KMarkedBvSd s] -> fget d k = Some (IBits marks)) /\ List.length marks = List.length ks /\
    (forall i, i < List.length ks -> nth i marks true = false <-> S i < List.length ks /\ exists h, In h heads /\ at_ i < h < at_ (S i)) /\
    fget d (KAreas s) = Some (INums areas) /\
    exists is, lists_in_order is (fun i => nth i marks true = false) /\
      Forall2 (fun i area => exists h, In h heads /\ at_ i < h /\ (forall x, In x heads -> at_ i < x -> h <= x) /\ area = h - at_ i + 1) is areas.
(** The sizes of the indexes: of all the structures that they query. *)
Definition size_classic (sz : sizes) (x : cri) : nat :=
  sz_rle sz (cr_bwt x) + sz_vector sz (cr_f x) + sz_nums sz (cr_samples x) + sz_nums sz (cr_links x)
  + (sz_sd sz (cr_marks x) + sz_rank_sd sz (cr_marks x) + sz_select_sd sz (cr_marks x)).
Definition size_sampled (sz : sizes) (x : cix) : nat :=
  sz_rle sz (cx_bwt x) + sz_vector sz (cx_f x) + sz_nums sz (cx_samples x) + sz_nums sz (cx_links x)
  + (sz_sd sz (cx_marks x) + sz_rank_sd sz (cx_marks x) + sz_select_sd sz (cx_marks x)) + (sz_sd sz (cx_idx x) + sz_rank_sd sz (cx_idx x)).
Definition size_with_marks (sz : sizes) (x : cix) : nat := size_sampled sz x + sz_bv sz (cx_valid x).
Definition size_with_areas (sz : sizes) (x : cix) : nat := size_with_marks sz x + sz_rank0 sz (cx_valid x) + sz_nums sz (cx_areas x).
(** The patterns of a file: its lines that are not empty. *)
Definition line_patterns (file : list nat) (ps : list pattern) : Prop :=
  exists ls, lines_of file ls /\ ps = map (fun l => mk_pattern l l) (filter (fun l => negb (List.length l =? 0)) ls).
(** What a call for the index of number [i] has to report on the queries: of all the text with its end, all the patterns and
    all their occurrences. *)
Definition ri_reported (data : list nat) (ps : list pattern) (r : ri_counters) : Prop :=
  rc_collection r = S (List.length data) /\ co_patterns (rc_queries r) = List.length ps /\
  all_occurrences (zero_as_two data) (map pt_decoded ps) (co_occurrences (rc_queries r)).
(** The functions of the construction program. *)
Definition item_functions : list item_fn :=
  [FText; FSA; FBwt; FRle; FSortTails; FSortHeads] ++ map FTails rates ++ map FHeads rates.
(** The directories that runs leave, also stopped ones, when each starts with --rebuild or over complete groups. *)
Inductive item_dirs (sort : list nat -> option (list nat)) (data : list nat) : idir -> Prop :=
| id_new : item_dirs sort data []
| id_run : forall d rebuild calls d' cs, item_dirs sort data d -> rebuild = true \/ no_torn_group d ->
    build_items sort data rebuild calls d = Some (d', cs) -> item_dirs sort data d'
| id_stopped : forall d rebuild calls d', item_dirs sort data d -> rebuild = true \/ no_torn_group d ->
    stopped sort data rebuild calls d d' -> item_dirs sort data d'.
Definition complete (d : idir) : Prop := forall k, In k all_files -> present d k.
(** The structures of an index, as the files have them. *)
Definition classic_in (d : idir) (x : cri) : Prop :=
  fget d KRle = Some (IRle (cr_bwt x)) /\ fget d KF = Some (INums (cr_f x)) /\ fget d KTailsText = Some (INums (cr_samples x)) /\
  fget d KHeadsBvSd = Some (IBits (cr_marks x)) /\ fget d KLinks = Some (INums (cr_links x)).
Definition sampled_in (d : idir) (s : nat) (x : cix) : Prop :=
  fget d KRle = Some (IRle (cx_bwt x)) /\ fget d KF = Some (INums (cx_f x)) /\ fget d (KSampled s) = Some (INums (cx_samples x)) /\
  fget d (KSampledIdxBvSd s) = Some (IBits (cx_idx x)) /\ fget d (KSampledHeadsBvSd s) = Some (IBits (cx_marks x)) /\
  fget d (KSampledLinks s) = Some (INums (cx_links x)) /\ fget d (KMarkedBv s) = Some (IBits (cx_valid x)) /\ fget d (KAreas s) = Some (INums (cx_areas x)).
(** The size that a call for the entry [c] of the program has to report. *)
Definition sized (sz : sizes) (d : idir) (c : string * (ikind * nat)) (size : nat) : Prop :=
  let '(_, (k, s)) := c in
  match k with
  | IRIndex => exists x, classic_in d x /\ size = size_classic sz x
  | ISampled => exists x, sampled_in d s x /\ size = size_sampled sz x
  | IMarks => exists x, sampled_in d s x /\ size = size_with_marks sz x
  | IAreas => exists x, sampled_in d s x /\ size = size_with_areas sz x
  end.
(** The entries that the program has to offer: the name tells the kind of the index and its rate in decimal digits. *)
Definition kind_name (k : ikind) : string :=
  match k with IRIndex => "R-Index" | ISampled => "R-Index-WS" | IMarks => "R-Index-WS-TM" | IAreas => "R-Index-WS-TA" end.
Definition entry_name (k : ikind) (s : nat) : string :=
  match k with
  | IRIndex => kind_name k
  | _ => kind_name k ++ "/" ++ NilEmpty.string_of_uint (Nat.to_uint s)
  end.
