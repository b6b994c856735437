(** C47, C48, C57-C60: construction over a cache directory: interrupted, repeated, shared by classes, rates
    and routes, or left by another data file.

    [history w e dens p]: the process [p] is what completed calls of construct for the text [w], and calls
    stopped with a [closed] directory, can lead to (SpecCache.v). *)
From Coq Require Import List Arith Bool String Lia.
From Verif Require Import Spec MBase Runs MRle MConstruct MPhi MRIndex MSrIndex MPsi MCsa MSrCsa MStore MBwt Glue
  PropertiesSrCsa SpecStore SpecBwt StoreProof StoreClass StoreRound StoreEnd BwtProof
  MCache SpecCache CacheIdeal CacheBuilt CacheStep CacheEnd.
Import ListNotations.

(** * C47 *)
(** After any history, construct of any class, rate, template arguments and route succeeds, and its index
    is exact.  Missing: stops that leave a file without the files that construction takes to be complete
    with it; they are refuted below. *)
Theorem C47_resume_partial : forall w e h p r,
  sound_world w e -> 0 < h -> S (List.length w) < 2 ^ 64 -> history w e (2 * h) p ->
  run_ready w e (2 * h) r -> (ru_kd r = KCSARaw -> ru_route r = Sdsl) ->
  exists o p', run_index e r p = Some (o, p') /\ exact_index w e r o /\ history w e (2 * h) p'.
Proof.
  intros w e h p r HS Hh Hn H HR HK. destruct (world_base w e h HS Hh Hn) as [b HB].
  destruct (run_exact w e h HS Hh Hn b HB r p HR HK (history_inv w e h HS Hh Hn b HB p H)) as (o & p' & E & E' & X).
  exists o, p'. split; [exact E|]. split; [exact X|]. eapply h_run; eauto.
Qed.
Print Assumptions C47_resume_partial.

(** Two histories lead to indexes with the same answers, for every pattern.  With [h_empty] for [q]: the
    resumed construction and the uninterrupted one. *)
Theorem C47_same_index : forall w e h p q r o p' o' q',
  sound_world w e -> 0 < h -> S (List.length w) < 2 ^ 64 -> history w e (2 * h) p -> history w e (2 * h) q ->
  run_ready w e (2 * h) r -> (ru_kd r = KCSARaw -> ru_route r = Sdsl) ->
  run_index e r p = Some (o, p') -> run_index e r q = Some (o', q') ->
  forall x, obj_locate (ru_tm r) (ru_kd r) o x = obj_locate (ru_tm r) (ru_kd r) o' x /\
            obj_count (ru_tm r) (ru_kd r) o x = obj_count (ru_tm r) (ru_kd r) o' x.
Proof.
  intros w e h p q r o p' o' q' HS Hh Hn Hp Hq HR HK E1 E2 x. destruct (world_base w e h HS Hh Hn) as [b HB].
  destruct (run_loads w e h HS Hh Hn b HB r p HR HK (history_inv w e h HS Hh Hn b HB p Hp)) as (v & o1 & p1 & EV & _ & E1' & L1 & C1).
  destruct (run_loads w e h HS Hh Hn b HB r q HR HK (history_inv w e h HS Hh Hn b HB q Hq)) as (v' & o2 & p2 & EV' & _ & E2' & L2 & C2).
  assert (v' = v) by congruence. assert (o1 = o) by congruence. assert (o2 = o') by congruence. subst.
  rewrite L1, L2, C1, C2. auto.
Qed.
Print Assumptions C47_same_index.

(** A file that two histories completed has the same content in both. *)
Theorem C47_same_files : forall w e h p q n a c,
  sound_world w e -> 0 < h -> S (List.length w) < 2 ^ 64 -> history w e (2 * h) p -> history w e (2 * h) q ->
  d_find (pr_disk p) n = Some (Whole a) -> d_find (pr_disk q) n = Some (Whole c) -> a = c.
Proof.
  intros w e h p q n a c HS Hh Hn Hp Hq E1 E2. destruct (world_base w e h HS Hh Hn) as [b HB].
  pose proof (history_inv w e h HS Hh Hn b HB p Hp) as [G1 _ _]. pose proof (history_inv w e h HS Hh Hn b HB q Hq) as [G2 _ _].
  apply d_find_In in E1. apply d_find_In in E2. apply (proj1 (Forall_forall _ _) G1) in E1. apply (proj1 (Forall_forall _ _) G2) in E2.
  unfold entry_ok in E1, E2. cbn [fst snd] in *. congruence.
Qed.
Print Assumptions C47_same_files.

(** A stop between any two steps of a call is a history (so that a new process can go on), but for the one
    in front of [step_submarks_psi]. *)
Theorem C47_stop_between_steps : forall w e h p r l1 l2,
  sound_world w e -> 0 < h -> S (List.length w) < 2 ^ 64 -> history w e (2 * h) p -> run_ready w e (2 * h) r ->
  base_steps (ru_route r) (wd_sort e) (wd_exe e) (wd_data e) ++ class_steps (ru_tm r) (ru_kd r) (ru_rate r) = l1 ++ l2 ->
  (forall c s k, l2 <> step_submarks_psi c s :: k) ->
  exists p1 p', run_steps l1 p = Some p1 /\ run_cache e r p = Some p' /\ stopped (pr_disk p) (pr_disk p') (pr_disk p1) /\
    history w e (2 * h) (new_proc (pr_disk p1)).
Proof.
  intros w e h p r l1 l2 HS Hh Hn H HR E N. destruct (world_base w e h HS Hh Hn) as [b HB].
  exact (run_boundary w e h HS Hh Hn b HB r p l1 l2 HR H E N).
Qed.
Print Assumptions C47_stop_between_steps.

(** ** Concrete cases *)
Definition exf_bwt : list nat := [97; 114; 100; 0; 114; 99; 97; 97; 97; 97; 98; 98].
Definition exf_world : world := mk_world exf_w (fun _ => exf_sa)
  (fun _ => mk_big_files exf_bwt (pairs_file exf_sa (heads_of exf_bwt)) (pairs_file exf_sa (tails_of exf_bwt))).
Lemma exf_sound : sound_world exf_w exf_world.
Proof. split; [repeat constructor|]. split; [left; reflexivity|]. cbn [wd_sort exf_world]. apply sa_check_ok. vm_compute. reflexivity. Qed.
Lemma exf_big : sound_big exf_w exf_world.
Proof.
  split; [|split].
  - cbn [wd_exe wd_sort wd_data exf_world bg_bwt bg_ssa bg_esa]. split; [vm_compute; reflexivity|]. split.
    + exists (heads_of exf_bwt). split; [apply heads_in_order|reflexivity].
    + exists (tails_of exf_bwt). split; [apply tails_in_order|reflexivity].
  - intros c H W. unfold white_space in W. cbn in H, W. lia.
  - apply Nat.le_trans with (256 ^ 1); [cbn; lia|]. apply Nat.pow_le_mono_r; lia.
Qed.
Definition ex_sd4 : tmpl := mk_tmpl BvSd BvSd BvSd (2 * 2).
Definition ex_run (rt : route) (kd : kind) (s : nat) : run := mk_run rt ex_sd4 kd s.
Lemma ex_ready rt kd s : run_ready exf_w exf_world (2 * 2) (ex_run rt kd s).
Proof. split; [reflexivity|]. intros _. apply exf_big. Qed.
Definition stop_at (k : nat) (d : disk) : disk := skipn (List.length d - k) d.
Lemma stop_at_ok k d : stopped [] d (stop_at k d).
Proof.
  unfold stop_at. rewrite <- (app_nil_r (skipn _ d)). apply (stop_between [] d _ (firstn (List.length d - k) d)). rewrite app_nil_r. symmetry. apply firstn_skipn.
Qed.
Definition torn_at (k : nat) (d : disk) : disk := match stop_at k d with [] => [] | (n, _) :: r => (n, Torn) :: r end.
Definition ends (e : world) (r : run) (p : proc) : proc := match run_cache e r p with Some p' => p' | None => new_proc [] end.
Definition answers (e : world) (r : run) (p : proc) (x : list nat) : option (list nat) :=
  '(o, _) <- run_index e r p ;; obj_locate (ru_tm r) (ru_kd r) o x.

(** A construction of the validity-area index is stopped in the middle of a step (the sorted marks are
    written, the links are not), goes on in another process with Big-BWT for another class, and so on:
    the hypotheses hold and the answers are those of the text. *)
Example C47_example :
  let d := stop_at 14 (pr_disk (ends exf_world (ex_run Sdsl KSrIndexVA 3) (new_proc []))) in
  history exf_w exf_world (2 * 2) (new_proc d) /\
  (exists it, hd_error d = Some (N FFirstSorted, Whole it)) /\ d_find d (N FFirstLinks) = None /\
  answers exf_world (ex_run Sdsl KSrIndexVA 3) (new_proc d) [97; 98; 114] = Some [0; 7] /\
  answers exf_world (ex_run BigBwt KSrPsiVA 5) (new_proc d) [97; 98; 114] = Some [7; 0] /\
  answers exf_world (ex_run BigBwt KSlim 2) (ends exf_world (ex_run BigBwt KSrPsiVA 5) (new_proc d)) [97; 98; 114] = Some [7; 0].
Proof.
  cbv zeta. split.
  { apply (h_stop exf_w exf_world (2 * 2) (new_proc []) (ex_run Sdsl KSrIndexVA 3) (ends exf_world (ex_run Sdsl KSrIndexVA 3) (new_proc [])));
      [apply h_empty | apply ex_ready | vm_compute; reflexivity | apply stop_at_ok | apply is_closed_ok; vm_compute; reflexivity]. }
  split; [eexists; vm_compute; reflexivity|]. split; [vm_compute; reflexivity|]. split; [vm_compute; reflexivity|]. split; vm_compute; reflexivity.
Qed.

(** ** Stops after which construct fails *)
Definition bad_stop (kd : kind) : nat :=
  match kd with
  | KRIndex => 16 (* the marks as a bit vector, without its supports *)
  | KSrIndex | KSrIndexVM | KSrIndexVA => 20 (* the indices of the sub-samples, without their values *)
  | _ => 14 (* Psi, without its compressed form *)
  end.
Definition all_whole (d : disk) : bool := forallb (fun x => is_whole d (fst x)) d.
Lemma all_whole_ok d : all_whole d = true -> forall n, present d n -> whole d n.
Proof.
  intros H n HP. unfold present in HP. destruct (d_find d n) as [c|] eqn:E; [|congruence]. pose proof (d_find_In _ _ _ E) as I.
  unfold all_whole in H. rewrite forallb_forall in H. specialize (H _ I). cbn [fst] in H. unfold is_whole in H. unfold whole. rewrite E in *. destruct c; [eauto|discriminate].
Qed.
(** Every class has such a stop, although every file that is left is complete. *)
Theorem C47_resume_refuted : forall kd, exists w e r p d,
  sound_world w e /\ S (List.length w) < 2 ^ 64 /\ ru_kd r = kd /\ run_ready w e (2 * 2) r /\
  run_cache e r (new_proc []) = Some p /\ stopped [] (pr_disk p) d /\ (forall n, present d n -> whole d n) /\
  run_index e r (new_proc d) = None.
Proof.
  intros kd. exists exf_w, exf_world, (ex_run Sdsl kd 3), (ends exf_world (ex_run Sdsl kd 3) (new_proc [])),
    (stop_at (bad_stop kd) (pr_disk (ends exf_world (ex_run Sdsl kd 3) (new_proc [])))).
  split; [apply exf_sound|]. split; [exact exf_small|]. split; [reflexivity|]. split; [apply ex_ready|].
  split; [destruct kd; vm_compute; reflexivity|]. split; [apply stop_at_ok|].
  split; [apply all_whole_ok|]; destruct kd; vm_compute; reflexivity.
Qed.
Print Assumptions C47_resume_refuted.
(** A stop between the two steps that [C47_stop_between_steps] excludes: a new process completes the
    construction, but Locate of the index is undefined for a pattern of the text. *)
Theorem C47_stop_before_submarks_refuted : exists w e r l1 l2 p1 o p' x,
  sound_world w e /\ S (List.length w) < 2 ^ 64 /\ run_ready w e (2 * 2) r /\
  base_steps (ru_route r) (wd_sort e) (wd_exe e) (wd_data e) ++ class_steps (ru_tm r) (ru_kd r) (ru_rate r) = l1 ++ l2 /\
  run_steps l1 (new_proc []) = Some p1 /\
  run_index e r (new_proc (pr_disk p1)) = Some (o, p') /\ pattern_over w x /\ obj_locate (ru_tm r) (ru_kd r) o x = None.
Proof.
  set (r := ex_run Sdsl KSrPsi 1).
  set (l := base_steps (ru_route r) (wd_sort exf_world) (wd_exe exf_world) (wd_data exf_world) ++ class_steps (ru_tm r) (ru_kd r) (ru_rate r)).
  set (p1 := match run_steps (firstn 12 l) (new_proc []) with Some p => p | None => new_proc [] end).
  exists exf_w, exf_world, r, (firstn 12 l), (skipn 12 l), p1.
  destruct (run_index exf_world r (new_proc (pr_disk p1))) as [[o p']|] eqn:E; [|exfalso; vm_compute in E; discriminate E].
  exists o, p', [98]. split; [apply exf_sound|]. split; [exact exf_small|]. split; [apply ex_ready|].
  split; [symmetry; apply firstn_skipn|]. split; [vm_compute; reflexivity|]. split; [reflexivity|].
  split; [split; [discriminate|intros c [<-|[]]; cbn; auto 20]|].
  assert (A : answers exf_world r (new_proc (pr_disk p1)) [98] = None) by (vm_compute; reflexivity).
  unfold answers in A. rewrite E in A. exact A.
Qed.
Print Assumptions C47_stop_before_submarks_refuted.

(** * C48 *)
(** A call that is completed, in any history: whatever completed calls follow, of this class or of others,
    in this process or in new ones, the same call succeeds again and writes nothing. *)
Theorem C48_rerun : forall w e h p r p' q,
  sound_world w e -> 0 < h -> S (List.length w) < 2 ^ 64 -> history w e (2 * h) p -> run_ready w e (2 * h) r ->
  run_cache e r p = Some p' -> later w e (2 * h) p' q -> run_cache e r q = Some q.
Proof.
  intros w e h p r p' q HS Hh Hn H HR E L. destruct (world_base w e h HS Hh Hn) as [b HB].
  pose proof (history_inv w e h HS Hh Hn b HB p H) as IV.
  assert (H' : history w e (2 * h) p') by (eapply h_run; eauto).
  destruct (later_inv w e h HS Hh Hn b HB p' q (history_inv w e h HS Hh Hn b HB p' H') L) as [IQ K].
  exact (rerun_idle w e h HS Hh Hn b HB r p p' HR IV E q IQ K).
Qed.
Print Assumptions C48_rerun.
(** The index of the repeated call has the same answers. *)
Theorem C48_rerun_index : forall w e h p r o p' q,
  sound_world w e -> 0 < h -> S (List.length w) < 2 ^ 64 -> history w e (2 * h) p -> run_ready w e (2 * h) r ->
  (ru_kd r = KCSARaw -> ru_route r = Sdsl) ->
  run_index e r p = Some (o, p') -> later w e (2 * h) p' q ->
  exists o', run_index e r q = Some (o', q) /\
    forall x, obj_locate (ru_tm r) (ru_kd r) o' x = obj_locate (ru_tm r) (ru_kd r) o x /\
              obj_count (ru_tm r) (ru_kd r) o' x = obj_count (ru_tm r) (ru_kd r) o x.
Proof.
  intros w e h p r o p' q HS Hh Hn H HR HK E L. destruct (world_base w e h HS Hh Hn) as [b HB].
  destruct (run_loads w e h HS Hh Hn b HB r p HR HK (history_inv w e h HS Hh Hn b HB p H)) as (v & o1 & p1 & EV & R1 & E1 & L1 & C1).
  assert (A : Some (o1, p1) = Some (o, p')) by congruence. injection A as -> ->.
  assert (H' : history w e (2 * h) p') by (eapply h_run; eauto). pose proof (later_history w e h p' q H' L) as HQ.
  destruct (run_loads w e h HS Hh Hn b HB r q HR HK (history_inv w e h HS Hh Hn b HB q HQ)) as (v' & o2 & p2 & EV' & R2 & E2 & L2 & C2).
  pose proof (C48_rerun w e h p r p' q HS Hh Hn H HR R1 L) as I. assert (p2 = q) by congruence. assert (v' = v) by congruence. subst.
  exists o2. split; [exact E2|]. intros x. rewrite L1, L2, C1, C2. auto.
Qed.
Print Assumptions C48_rerun_index.
Example C48_example :
  let r := ex_run Sdsl KSrCSAVA 3 in let p := ends exf_world r (new_proc []) in
  let q := ends exf_world (ex_run BigBwt KSrIndexVM 2) (new_proc (pr_disk p)) in
  run_cache exf_world r (new_proc []) = Some p /\ later exf_w exf_world (2 * 2) p q /\ List.length (pr_disk p) < List.length (pr_disk q) /\
  answers exf_world r q [97; 98; 114] = Some [7; 0].
Proof.
  cbv zeta. split; [vm_compute; reflexivity|]. split.
  - eapply l_run; [apply l_new, l_refl | apply (ex_ready BigBwt KSrIndexVM 2) | vm_compute; reflexivity].
  - split; vm_compute; [lia|reflexivity].
Qed.

(** * C57 *)
(** One cache directory, for any sequence of completed calls, from an empty directory: any classes, rates,
    routes and classes of bit vectors.  Every next call gives an exact index. *)
Theorem C57_shared_directory : forall w e h p r,
  sound_world w e -> 0 < h -> S (List.length w) < 2 ^ 64 -> later w e (2 * h) (new_proc []) p ->
  run_ready w e (2 * h) r -> (ru_kd r = KCSARaw -> ru_route r = Sdsl) ->
  exists o p', run_index e r p = Some (o, p') /\ exact_index w e r o /\ later w e (2 * h) (new_proc []) p'.
Proof.
  intros w e h p r HS Hh Hn L HR HK.
  destruct (C47_resume_partial w e h p r HS Hh Hn (later_history w e h _ p (h_empty _ _ _) L) HR HK) as (o & p' & E & X & _).
  exists o, p'. split; [exact E|]. split; [exact X|]. eapply l_run; eauto. unfold run_index, construct_index in E.
  apply bind_Some in E as (p2 & E1 & E2). apply bind_Some in E2 as (o2 & _ & E2). unfold run_cache. congruence.
Qed.
Print Assumptions C57_shared_directory.
Fixpoint all_ends (e : world) (l : list run) (p : proc) : proc :=
  match l with [] => p | r :: l => all_ends e l (ends e r (new_proc (pr_disk p))) end.
Lemma all_ends_later l p : Forall (run_ready exf_w exf_world (2 * 2)) l -> later exf_w exf_world (2 * 2) (new_proc []) p ->
  later exf_w exf_world (2 * 2) (new_proc []) (all_ends exf_world l p).
Proof.
  intros F. revert p. induction F as [|r l HR _ IH]; intros p L; [exact L|]. cbn [all_ends]. apply IH. apply l_new in L.
  destruct (world_base exf_w exf_world 2 exf_sound ltac:(lia) exf_small) as [b HB].
  pose proof (history_inv exf_w exf_world 2 exf_sound ltac:(lia) exf_small b HB _ (later_history exf_w exf_world 2 _ _ (h_empty _ _ _) L)) as IV.
  destruct (run_ok exf_w exf_world 2 exf_sound ltac:(lia) exf_small b HB r HR _ IV ltac:(intros ? [])) as [(p' & _ & E & _) _].
  unfold ends. rewrite E. eapply l_run; eauto.
Qed.
(** The sixteen classes, with two rates, both routes and both bit-vector classes, one after the other. *)
Definition ex_calls : list run :=
  map (fun '(k, kd) => mk_run (if Nat.even k then BigBwt else Sdsl) (mk_tmpl (if Nat.even k then BvSd else BvPlain) BvSd BvPlain (2 * 2)) kd (2 + k mod 3))
    (combine (seq 0 16) kinds).
Example C57_example :
  let p := all_ends exf_world ex_calls (new_proc []) in
  List.length ex_calls = 16 /\ later exf_w exf_world (2 * 2) (new_proc []) p /\
  forallb (fun r => match answers exf_world r p [97; 98; 114] with Some [7; 0] | Some [0; 7] => true | _ => false end) ex_calls = true.
Proof.
  cbv zeta. split; [reflexivity|]. split; [|vm_compute; reflexivity]. apply all_ends_later; [|apply l_refl].
  apply Forall_forall. intros r H. apply in_map_iff in H as ([k kd] & <- & _). split; [reflexivity|]. intros _. apply exf_big.
Qed.

(** * C58 *)
(** The directory does not know its data file: over a directory that a call completed, the same call for
    any other data file succeeds, writes nothing and gives the index of the first text. *)
Theorem C58_stale_directory : forall w e h p r p' other,
  sound_world w e -> 0 < h -> S (List.length w) < 2 ^ 64 -> history w e (2 * h) p -> run_ready w e (2 * h) r ->
  (ru_kd r = KCSARaw -> ru_route r = Sdsl) -> run_cache e r p = Some p' ->
  exists o, run_index other r p' = Some (o, p') /\ exact_index w e r o.
Proof.
  intros w e h p r p' other HS Hh Hn H HR HK E. destruct (world_base w e h HS Hh Hn) as [b HB].
  pose proof (history_inv w e h HS Hh Hn b HB p H) as IV.
  assert (H' : history w e (2 * h) p') by (eapply h_run; eauto).
  destruct (run_exact w e h HS Hh Hn b HB r p' HR HK (history_inv w e h HS Hh Hn b HB p' H')) as (o & p2 & E1 & E2 & X).
  pose proof (stale_idle w e h HS Hh Hn b HB r p p' other HR IV E) as I1. pose proof (stale_idle w e h HS Hh Hn b HB r p p' e HR IV E) as I2.
  exists o. split; [|exact X]. unfold run_index, construct_index in *. unfold run_cache in *. cbn [input_of] in *. rewrite I1. rewrite I2 in E1. rewrite E1. congruence.
Qed.
Print Assumptions C58_stale_directory.
Example C58_example :
  let r := ex_run Sdsl KSrIndex 3 in let p := ends exf_world r (new_proc []) in
  let other := mk_world [98; 98; 98] (fun _ => [3; 2; 1; 0]) (fun _ => mk_big_files [] [] []) in
  run_cache exf_world r (new_proc []) = Some p /\ answers other r p [97; 98; 114] = Some [0; 7] /\ answers other r (new_proc []) [98] = Some [0; 1; 2].
Proof. cbv zeta. split; [vm_compute; reflexivity|]. split; vm_compute; reflexivity. Qed.

(** * C59 *)
(** Two Psi types: the file of the uncompressed Psi says that both compressed forms are there, and the
    second class cannot be built. *)
Theorem C59_two_psi_types_refuted : exists w e tm1 tm2 p,
  sound_world w e /\ S (List.length w) < 2 ^ 64 /\ t_dens tm1 = 2 * 2 /\ t_dens tm2 = 2 * 3 /\
  run_cache e (mk_run Sdsl tm1 KRCSA 1) (new_proc []) = Some p /\
  run_index e (mk_run Sdsl tm2 KRCSA 1) p = None /\ run_index e (mk_run Sdsl tm2 KRCSAPsi 1) p = None /\
  run_index e (mk_run Sdsl tm2 KRCSA 1) (new_proc []) <> None.
Proof.
  exists exf_w, exf_world, ex_sd4, (mk_tmpl BvSd BvSd BvSd (2 * 3)), (ends exf_world (mk_run Sdsl ex_sd4 KRCSA 1) (new_proc [])).
  split; [apply exf_sound|]. split; [exact exf_small|]. split; [reflexivity|]. split; [reflexivity|].
  split; [vm_compute; reflexivity|]. split; [vm_compute; reflexivity|]. split; [vm_compute; reflexivity|]. vm_compute. discriminate.
Qed.
Print Assumptions C59_two_psi_types_refuted.

(** * C60 *)
(** The Big-BWT route does not write the suffix array, and CSARaw loads it: its construction fails. *)
Theorem C60_raw_refuted : exists w e,
  sound_world w e /\ sound_big w e /\ run_cache e (ex_run BigBwt KCSARaw 1) (new_proc []) <> None /\
  run_index e (ex_run BigBwt KCSARaw 1) (new_proc []) = None.
Proof.
  exists exf_w, exf_world. split; [apply exf_sound|]. split; [apply exf_big|]. split; vm_compute; [discriminate|reflexivity].
Qed.
Print Assumptions C60_raw_refuted.
(** Big-BWT's files stay beside the data.  With a new cache directory, or after a stop before the BWT is
    copied, every class fails on the Big-BWT route, for every text. *)
Definition left_files (e : world) : disk :=
  let g := wd_exe e (wd_data e) in
  [(N FBigEsa, Whole (ItInts (bg_esa g))); (N FBigSsa, Whole (ItInts (bg_ssa g))); (N FBigBwt, Whole (ItInts (bg_bwt g)))].
Theorem C60_left_files_refuted : forall e r, ru_route r = BigBwt ->
  run_index e r (new_proc (left_files e)) = None /\
  forall p, run_cache e r (new_proc []) = Some p -> stopped [] (pr_disk p) (left_files e).
Proof.
  intros e r HR. unfold left_files. cbv zeta. split.
  - unfold run_index, construct_index, build_cache. cbn [input_of in_route in_sort in_exe in_data]. rewrite HR. cbn [base_steps app run_steps].
    destruct (wd_exe e (wd_data e)) as [bw ss es]. cbn [bg_bwt bg_ssa bg_esa].
    set (p0 := new_proc _). assert (E1 : step_big_bwt (wd_exe e) (wd_data e) p0 = Some p0) by reflexivity. rewrite E1. cbn [bind].
    destruct (read_runs (List.length bw) ss) as [f ft] eqn:ES. destruct (read_runs (List.length bw) es) as [l lt] eqn:EE.
    assert (E2 : exists q, step_big_runs p0 = Some q /\ step_alphabet q = None).
    { unfold step_big_runs, guarded, p0. cbn -[read_runs]. rewrite ES. cbn -[read_runs]. rewrite EE. eexists. split; reflexivity. }
    destruct E2 as (q & E2 & E3). rewrite E2. cbn [bind]. rewrite E3. reflexivity.
  - intros p E. unfold run_cache, build_cache in E. cbn [input_of in_route in_sort in_exe in_data] in E. rewrite HR in E. cbn [base_steps app] in E.
    set (g := wd_exe e (wd_data e)) in *. set (d := [(N FBigEsa, _); _; _]).
    assert (E1 : step_big_bwt (wd_exe e) (wd_data e) (new_proc []) =
      Some (mk_proc ([(N FBwt, Whole (ItInts (read_symbols (bg_bwt g)))); (N FBwt, Torn)] ++ d) [])) by reflexivity.
    cbn [run_steps] in E. rewrite E1 in E. cbn [bind] in E.
    assert (G : exists ws, pr_disk p = ws ++ [(N FBwt, Whole (ItInts (read_symbols (bg_bwt g)))); (N FBwt, Torn)] ++ d).
    { change (run_steps ([step_big_runs; step_alphabet; step_rle] ++ class_steps (ru_tm r) (ru_kd r) (ru_rate r))
        (mk_proc ([(N FBwt, Whole (ItInts (read_symbols (bg_bwt g)))); (N FBwt, Torn)] ++ d) []) = Some p) in E.
      apply grows_run in E; [exact E|]. pose proof (grows_base BigBwt (wd_sort e) (wd_exe e) (wd_data e)) as G. cbn [base_steps] in G.
      inversion G; subst. apply Forall_app. split; [assumption|apply grows_class]. }
    destruct G as [ws G]. rewrite <- (app_nil_r d). apply (stop_between [] _ d (ws ++ [(N FBwt, Whole (ItInts (read_symbols (bg_bwt g)))); (N FBwt, Torn)])).
    rewrite G, app_nil_r, <- app_assoc. reflexivity.
Qed.
Print Assumptions C60_left_files_refuted.
(** All classes but CSARaw are built on the Big-BWT route from an empty directory. *)
Theorem C60_big_bwt_route_partial : forall w e h r,
  sound_world w e -> sound_big w e -> 0 < h -> S (List.length w) < 2 ^ 64 -> ru_route r = BigBwt -> t_dens (ru_tm r) = 2 * h -> ru_kd r <> KCSARaw ->
  exists o p', run_index e r (new_proc []) = Some (o, p') /\ exact_index w e r o.
Proof.
  intros w e h r HS HG Hh Hn HR HD HK.
  destruct (C57_shared_directory w e h (new_proc []) r HS Hh Hn (l_refl _ _ _ _) (conj HD (fun _ => HG)) ltac:(congruence)) as (o & p' & E & X & _). eauto.
Qed.
Print Assumptions C60_big_bwt_route_partial.
Example C60_example : answers exf_world (ex_run BigBwt KSrIndexVA 3) (new_proc []) [97; 98; 114] = Some [0; 7].
Proof. vm_compute. reflexivity. Qed.
