(** C97: files removed from a cache directory. *)
From Coq Require Import List Arith Bool String Lia.
From Verif Require Import Spec MBase MConstruct MPhi MRIndex MStore MBwt SpecStore SpecBwt StoreProof
  MCache SpecCache CacheIdeal CacheBuilt CacheStep CacheEnd CacheTwo CacheRaw CacheStuck SpecSweep SweepProof
  PropertiesSrCsa PropertiesCache PropertiesStuck.
Import ListNotations.

(** After any history of calls, stops and tidy removals, construct of any class, rate, route and template
    arguments ends, and its index is exact.  Missing: removals of a file that another one stands for. *)
Theorem C97_rebuilt_partial : forall w e h p r,
  sound_world w e -> 0 < h -> S (List.length w) < 2 ^ 64 -> swept w e (2 * h) p ->
  run_ready w e (2 * h) r -> (ru_kd r = KCSARaw -> ru_route r = Sdsl) ->
  exists o p', run_index e r p = Some (o, p') /\ exact_index w e r o /\ swept w e (2 * h) p'.
Proof.
  intros w e h p r HS Hh Hn H HR HK. destruct (world_base w e h HS Hh Hn) as [b HB].
  destruct (run_exact w e h HS Hh Hn b HB r p HR HK (swept_inv w e h HS Hh Hn b HB p H)) as (o & p' & E & E' & X).
  exists o, p'. split; [exact E|]. split; [exact X|]. exact (sw_run _ _ _ p r p' H HR E').
Qed.
Print Assumptions C97_rebuilt_partial.

(** A file that is written again is what it was. *)
Theorem C97_same_files : forall w e h p q n a c,
  sound_world w e -> 0 < h -> S (List.length w) < 2 ^ 64 -> swept w e (2 * h) p -> swept w e (2 * h) q ->
  d_find (pr_disk p) n = Some (Whole a) -> d_find (pr_disk q) n = Some (Whole c) -> a = c.
Proof.
  intros w e h p q n a c HS Hh Hn Hp Hq E1 E2. destruct (world_base w e h HS Hh Hn) as [b HB].
  pose proof (swept_inv w e h HS Hh Hn b HB p Hp) as [G1 _ _]. pose proof (swept_inv w e h HS Hh Hn b HB q Hq) as [G2 _ _].
  apply d_find_In in E1. apply d_find_In in E2. apply (proj1 (Forall_forall _ _) G1) in E1. apply (proj1 (Forall_forall _ _) G2) in E2.
  unfold entry_ok in E1, E2. cbn [fst snd] in *. congruence.
Qed.
Print Assumptions C97_same_files.

(** Three removals that are always tidy: all files of any set of rates; the text and the suffix array; all but
    the base items.  The directory has no such file afterwards, and the others are as before. *)
Theorem C97_tidy : forall w e dens p gone,
  swept w e dens p -> (exists f, gone = of_rates f) \/ gone = text_or_sa \/ gone = of_classes ->
  swept w e dens (mk_proc (without gone (pr_disk p)) (pr_map p)) /\
  forall n, d_find (without gone (pr_disk p)) n = if gone n then None else d_find (pr_disk p) n.
Proof.
  intros w e dens p gone H HG. split; [|intros n; apply find_without]. apply sw_remove; [exact H|].
  destruct HG as [[f ->]|[->| ->]]; [apply tidy_rates|apply tidy_text|apply tidy_classes].
Qed.
Print Assumptions C97_tidy.

(** One file is enough to spoil a directory, for every text and every call: without it, construct of this class with
    these template arguments and this rate never ends again, whatever calls, completed or stopped, for whatever data
    follow. *)
Theorem C97_one_file_refuted : forall w e h q r p,
  sound_world w e -> 0 < h -> S (List.length w) < 2 ^ 64 -> swept w e (2 * h) q -> run_ready w e (2 * h) r ->
  run_cache e r q = Some p ->
  exists x, whole (pr_disk p) x /\
    forall q' e2 r2, let gone n := if name_eq_dec n x then true else false in
      anything (new_proc (without gone (pr_disk p))) q' -> ru_kd r2 = ru_kd r -> ru_tm r2 = ru_tm r -> ru_rate r2 = ru_rate r ->
      run_index e2 r2 q' = None.
Proof.
  intros w e h q r p HS Hh Hn HQ HR E. destruct (world_base w e h HS Hh Hn) as [b HB].
  pose proof (swept_inv w e h HS Hh Hn b HB _ HQ) as I0.
  destruct (run_ok w e h HS Hh Hn b HB r HR _ I0 ltac:(intros ? [])) as [(p2 & ws & E' & _ & _ & HW & _) _].
  assert (p2 = p) by congruence. subst p2.
  assert (W : forall n, In n (class_names (2 * h) (ru_tm r) (ru_kd r) (ru_rate r)) -> whole (pr_disk p) n).
  { intros n I. apply HW. unfold all_names. apply in_or_app. now right. }
  assert (GX : exists G X, (forall i tm kd s, kept (halted G X) (build_cache i tm kd s)) /\ G <> X /\ whole (pr_disk p) G /\ whole (pr_disk p) X /\
    forall i q, halted G X q -> construct_index i (ru_tm r) (ru_kd r) (ru_rate r) q = None).
  { assert (RAW : ru_kd r = KCSARaw \/ ru_kd r <> KCSARaw) by (clear; destruct (ru_kd r); (left; reflexivity) || (right; discriminate)).
    destruct RAW as [RAW|RAW].
    - exists (N FPsi), (NT FPsi (TyPsi (2 * h))). split; [apply psi_halted|]. split; [discriminate|].
      split; [|split].
      + apply W. rewrite RAW. cbn [class_names]. unfold rcsa_names. cbn [In]. repeat (first [left; reflexivity | right]).
      + apply W. rewrite RAW. cbn [class_names]. unfold rcsa_names. cbn [In]. repeat (first [left; reflexivity | right]).
      + intros i q0 H. apply (psi_halted_index (2 * h)); [exact H|apply HR|rewrite RAW; cbn [nav_ty]; rewrite (proj1 HR); reflexivity].
    - set (m := marks_name (ru_kd r) (ru_rate r)).
      exists (with_hash m (TyBv (t_marks (ru_tm r)))), (with_hash m (TySup (SupRank (t_marks (ru_tm r)) true))).
      split; [apply bv_halted|]. split; [discriminate|]. split; [|split].
      + apply W. unfold m. clear - RAW. destruct (ru_kd r); try (now destruct RAW); cbn; repeat (first [left; reflexivity | right]).
      + apply W. unfold m. clear - RAW. destruct (ru_kd r); try (now destruct RAW); cbn; repeat (first [left; reflexivity | right]).
      + intros i q0 H. now apply bv_halted_index. }
  destruct GX as (G & X & K & NE & WG & WX & F). exists X. split; [exact WX|]. intros q' e2 r2 gone A E1 E2 E3.
  unfold run_index. rewrite E1, E2, E3. apply F. refine (anything_halted G X _ q' K _ A).
  split; [|split; [|intros ? ? []]]; cbn [new_proc pr_disk].
  - apply names_d_find. rewrite find_without. unfold gone. destruct (name_eq_dec G X); [contradiction|]. destruct WG as [it ->]. discriminate.
  - intros I. apply d_find_names in I. rewrite find_without in I. unfold gone in I. destruct (name_eq_dec X X); [now apply I|contradiction].
Qed.
Print Assumptions C97_one_file_refuted.

(** SrIndex of "abracadabra" for the rates 2 and 3; the files of rate 2, then the text and the suffix array are removed;
    SrIndex of rate 2 is built again.  Without the rank support of the marks of rate 2 alone, SrIndex fails. *)
Definition ex_sw1 : proc := ends exf_world (ex_run Sdsl KSrIndex 2) (new_proc []).
Definition ex_sw2 : proc := ends exf_world (ex_run Sdsl KSrIndex 3) ex_sw1.
Definition ex_swept : disk := without text_or_sa (without (of_rates (Nat.eqb 2)) (pr_disk ex_sw2)).
Lemma answered {A B C} (x : option (A * B)) (f : A -> option C) l :
  match x with Some (o, _) => f o | None => None end = Some l -> exists o q, x = Some (o, q) /\ f o = Some l.
Proof. destruct x as [[o q]|]; [intros H; now exists o, q|discriminate]. Qed.
Lemma ex_sw2_swept : swept exf_w exf_world (2 * 2) ex_sw2.
Proof.
  assert (E1 : run_cache exf_world (ex_run Sdsl KSrIndex 2) (new_proc []) = Some ex_sw1) by (vm_compute; reflexivity).
  assert (E2 : run_cache exf_world (ex_run Sdsl KSrIndex 3) ex_sw1 = Some ex_sw2) by (vm_compute; reflexivity).
  refine (sw_run _ _ _ ex_sw1 _ ex_sw2 _ (ex_ready _ _ _) E2). exact (sw_run _ _ _ _ _ ex_sw1 (sw_empty _ _ _) (ex_ready _ _ _) E1).
Qed.
Lemma ex_swept_swept : swept exf_w exf_world (2 * 2) (new_proc ex_swept).
Proof.
  pose proof (proj1 (C97_tidy _ _ _ ex_sw2 _ ex_sw2_swept (or_introl (ex_intro _ (Nat.eqb 2) eq_refl)))) as A.
  pose proof (proj1 (C97_tidy _ _ _ _ _ A (or_intror (or_introl eq_refl)))) as B. apply sw_new in B. cbn [pr_disk] in B. exact B.
Qed.
Example C97_example :
  swept exf_w exf_world (2 * 2) ex_sw2 /\ swept exf_w exf_world (2 * 2) (new_proc ex_swept) /\
  10 <= List.length ex_swept /\ List.length ex_swept + 10 <= List.length (pr_disk ex_sw2) /\
  (exists o q, run_index exf_world (ex_run Sdsl KSrIndex 2) (new_proc ex_swept) = Some (o, q) /\ obj_locate ex_sd4 KSrIndex o [97; 98; 114] = Some [0; 7]) /\
  run_index exf_world (ex_run Sdsl KSrIndex 2)
    (new_proc (without (fun n => if name_eq_dec n (PT 2 FFirstByLast (TySup (SupRank BvSd true))) then true else false) (pr_disk ex_sw2))) = None.
Proof.
  split; [exact ex_sw2_swept|]. split; [exact ex_swept_swept|].
  split; [apply Nat.leb_le; vm_compute; reflexivity|]. split; [apply Nat.leb_le; vm_compute; reflexivity|].
  split; [apply answered|]; vm_compute; reflexivity.
Qed.
