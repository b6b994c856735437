(** C88: the limits that the loops with an [int] counter set.  [m] is INT_MAX.

    [construct_index_int], [obj_locate_int]: construction and Locate with these counters (MCounter.v); leaving the
    range of an [int] is [None].  [run_index]: construction with counters that have no limit (MCache.v). *)
From Coq Require Import List Arith Bool Lia.
From Verif Require Import Spec MBase Runs MRle MConstruct MPhi MRIndex MSrIndex MPsi MCsa MSrCsa MStore MBwt Glue
  PropertiesSrCsa SpecStore SpecBwt StoreProof StoreClass StoreRound StoreEnd BwtProof
  MCache SpecCache CacheIdeal CacheBuilt CacheStep CacheEnd WidthProof SpecItems PropertiesCache MCounter CounterProof.
Import ListNotations.

Definition build_int (m : nat) (e : world) (r : run) (p : proc) : option (obj * proc) :=
  construct_index_int m (input_of e r) (ru_tm r) (ru_kd r) (ru_rate r) p.

(** Every class, rate, route and history of the directory: if the text is not longer than INT_MAX symbols (with its
    terminator) or does not go through SDSL, and its BWT has fewer than INT_MAX runs, then no counter overflows,
    construction leaves the same directory as with counters without limit, and the index is exact.
    Missing: longer texts through SDSL, for which the claim is false (C88_long_refuted). *)
Theorem C88_short_partial : forall m w e h p r,
  sound_world w e -> 0 < h -> S (List.length w) < 2 ^ 64 -> (forall c, In c w -> c < 256) ->
  history w e (2 * h) p -> run_ready w e (2 * h) r -> (ru_kd r = KCSARaw -> ru_route r = Sdsl) ->
  number_of_runs (bwt_of (terminated w) (wd_sort e (terminated w))) < m -> (ru_route r = Sdsl -> S (List.length w) <= m) ->
  exists o p', build_int m e r p = Some (o, p') /\ run_index e r p = Some (o, p') /\ history w e (2 * h) p' /\
    forall x, pattern_over w x -> exists l s t,
      obj_locate_int m (ru_tm r) (ru_kd r) o x = Some l /\ exact_answer x w l /\
      obj_count (ru_tm r) (ru_kd r) o x = Some (s, t) /\ row_interval x w (wd_sort e (terminated w)) s t.
Proof.
  intros m w e h p r HS Hh Hn Hb H HR HK HN HL. destruct (world_base w e h HS Hh Hn) as [b HB].
  pose proof (history_inv w e h HS Hh Hn b HB p H) as IV. rewrite <- (runs_number w e HS b HB) in HN.
  destruct (run_int w e h m HS Hh Hn Hb b HB ltac:(lia) ltac:(lia) r p HR HK IV HL HN) as (o & p' & E & E' & X).
  destruct (run_exact w e h HS Hh Hn b HB r p HR HK IV) as (o2 & p2 & E2 & E3 & EX).
  assert (o2 = o /\ p2 = p') as [-> ->] by (rewrite E' in E2; injection E2; auto).
  exists o, p'. split; [exact E|]. split; [exact E'|]. split; [eapply h_run; eauto|].
  intros x Hx. destruct (EX x Hx) as (l & s & t & A & B & C & D). exists l, s, t. rewrite X. auto.
Qed.
Print Assumptions C88_short_partial.

(** A number of symbols below INT_MAX is enough, whatever the number of runs. *)
Theorem C88_shorter_partial : forall m w e h p r,
  sound_world w e -> 0 < h -> S (List.length w) < 2 ^ 64 -> (forall c, In c w -> c < 256) ->
  history w e (2 * h) p -> run_ready w e (2 * h) r -> (ru_kd r = KCSARaw -> ru_route r = Sdsl) ->
  S (List.length w) < m ->
  exists o p', build_int m e r p = Some (o, p') /\ run_index e r p = Some (o, p') /\
    forall x, pattern_over w x -> exists l, obj_locate_int m (ru_tm r) (ru_kd r) o x = Some l /\ exact_answer x w l.
Proof.
  intros m w e h p r HS Hh Hn Hb H HR HK HL.
  assert (HN : number_of_runs (bwt_of (terminated w) (wd_sort e (terminated w))) < m).
  { eapply Nat.le_lt_trans; [|exact HL]. destruct (world_base w e h HS Hh Hn) as [b HB]. rewrite <- (runs_number w e HS b HB).
    etransitivity; [exact (sh_rn _ _ (shape_holds w e h HS Hh Hn Hb b HB))|]. rewrite (text_length w e HS b HB). apply le_n. }
  destruct (C88_short_partial m w e h p r HS Hh Hn Hb H HR HK HN (fun _ => Nat.lt_le_incl _ _ HL)) as (o & p' & E & E' & _ & X).
  exists o, p'. split; [exact E|]. split; [exact E'|]. intros x Hx. destruct (X x Hx) as (l & s & t & A & B & _). eauto.
Qed.
Print Assumptions C88_shorter_partial.

(** A text with more than INT_MAX symbols that goes through SDSL, into a directory without the run files: construction
    of every class overflows a counter (construct_sdsl.h:87), although the construction with counters without limit
    succeeds and is exact. *)
Theorem C88_long_refuted : forall m w e h p r,
  0 < m -> sound_world w e -> 0 < h -> S (List.length w) < 2 ^ 64 ->
  history w e (2 * h) p -> run_ready w e (2 * h) r -> ru_route r = Sdsl -> file_exists p (N FFirst) = false ->
  m < S (List.length w) ->
  build_int m e r p = None /\ exists o p', run_index e r p = Some (o, p') /\ exact_index w e r o.
Proof.
  intros m w e h p r Hm HS Hh Hn H HR HRt HF HL. destruct (world_base w e h HS Hh Hn) as [b HB].
  pose proof (history_inv w e h HS Hh Hn b HB p H) as IV. split.
  - unfold build_int, construct_index_int. rewrite (run_long w e h m HS Hh Hn b HB Hm r p HR IV HRt HF HL). reflexivity.
  - destruct (run_exact w e h HS Hh Hn b HB r p HR (fun _ => HRt) IV) as (o & p' & E & _ & X). eauto.
Qed.
Print Assumptions C88_long_refuted.

(** The two loops over the text: computeBWT (bwt.h:14-66) and constructBWTRuns (construct_sdsl.h:56-110). *)
Theorem C88_functions : forall m n get_sa get_text bwt sa, 0 < m ->
  compute_bwt_int m n get_sa get_text = (if n <=? m then compute_bwt n get_sa get_text else None) /\
  construct_bwt_runs_int m bwt sa = (if List.length bwt <=? m then construct_bwt_runs bwt sa else None).
Proof. intros. split; [now apply compute_bwt_int_eq|now apply construct_bwt_runs_int_eq]. Qed.
Print Assumptions C88_functions.

(** The split of a range at the kept run heads (sr_csa.h:520-542), with [x] kept heads up to the start of the range and
    [y] before its end: as with counters without limit while there are fewer than INT_MAX kept heads ... *)
Theorem C88_split : forall m bv r, List.length (filter (fun b => b) bv) < m ->
  srcsa_split_range_int m bv r = srcsa_split_range bv r.
Proof. intros. now apply split_range_small. Qed.
Print Assumptions C88_split.
(** ... undefined when the range holds the INT_MAX-th, and without any cut when INT_MAX or more (up to 2^32 - 2) are
    before it. *)
Theorem C88_split_refuted : forall m bv first last x y,
  bv_rank bv (first + 1) = Some x -> bv_rank bv last = Some y ->
  (x < m /\ m <= y -> srcsa_split_range_int m bv (first, last) = None) /\
  (m <= x /\ x <= 2 * m -> srcsa_split_range_int m bv (first, last) = Some [(first, last)]).
Proof.
  intros m bv first last x y E1 E2. split; intros [H1 H2].
  - exact (split_range_over m bv (first, last) x y E1 H1 E2 H2).
  - apply (split_range_wraps m bv (first, last) x E1 H1 H2). unfold bv_rank in E2. cbn [snd]. destruct (Nat.leb_spec last (List.length bv)); [assumption|discriminate].
Qed.
Print Assumptions C88_split_refuted.

(** ** Concrete cases: the text abracadabra, with its 12 symbols and 8 runs *)
Example C88_runs : number_of_runs (bwt_of (terminated exf_w) (wd_sort exf_world (terminated exf_w))) = 8.
Proof. vm_compute. reflexivity. Qed.
Definition answers_int (m : nat) (r : run) (p : proc) (x : list nat) : option (list nat) :=
  '(o, _) <- build_int m exf_world r p ;; obj_locate_int m (ru_tm r) (ru_kd r) o x.
(** The bounds are met with INT_MAX = 12 through SDSL and 9 through Big-BWT; with 11 SDSL fails; with 11 and the files
    that Big-BWT left, it does not. *)
Example C88_example :
  answers_int 12 (ex_run Sdsl KSrCSAVA 3) (new_proc []) [97; 98; 114] = Some [7; 0] /\
  answers_int 9 (ex_run BigBwt KSrCSAVA 3) (new_proc []) [97; 98; 114] = Some [7; 0] /\
  answers_int 11 (ex_run Sdsl KSrCSAVA 3) (new_proc []) [97; 98; 114] = None /\
  answers_int 11 (ex_run Sdsl KSrCSAVA 3) (new_proc (pr_disk (ends exf_world (ex_run BigBwt KSrCSAVA 3) (new_proc [])))) [97; 98; 114] = Some [7; 0] /\
  history exf_w exf_world (2 * 2) (new_proc []) /\ (forall c, In c exf_w -> c < 256).
Proof.
  repeat (split; [vm_compute; reflexivity|]). split; [apply h_empty|].
  assert (X : Forall (fun c => c < 256) exf_w) by (repeat constructor). apply Forall_forall, X.
Qed.
(** Kept heads at rows 1, 3 and 4 and INT_MAX = 2: the range 3..6 is not cut at row 4. *)
Example C88_split_example :
  let bv := [false; true; false; true; true; false; false] in
  srcsa_split_range bv (3, 6) = Some [(3, 4); (4, 6)] /\ srcsa_split_range_int 2 bv (3, 6) = Some [(3, 6)] /\
  srcsa_split_range_int 2 bv (1, 6) = None /\ srcsa_split_range_int 4 bv (3, 6) = Some [(3, 4); (4, 6)].
Proof. vm_compute. auto. Qed.
