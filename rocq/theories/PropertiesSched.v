(** C89: constructions that share a cache directory at the same time.

    [sched w e dens d l]: the directory can be [d] while the calls [l] are at work on it (SpecSched.v). *)
From Coq Require Import List Arith Bool String Lia.
From Verif Require Import Spec MBase Runs MRle MConstruct MPhi MRIndex MSrIndex MPsi MCsa MSrCsa MStore MBwt Glue
  PropertiesSrCsa SpecStore SpecBwt StoreProof StoreClass StoreRound StoreEnd BwtProof
  MCache SpecCache CacheIdeal CacheBuilt CacheStep CacheEnd PropertiesCache MSched SpecSched SchedProof.
Import ListNotations.

(** * C89 *)
(** Whatever the other calls have done so far, the next turn of a call succeeds: no call fails because of the
    others.  Missing, here and below: turns that end within a step, and between the two sub-sampling steps of the
    Psi-run classes; both are refuted below. *)
Theorem C89_turn_partial : forall w e h d l r m k,
  sound_world w e -> 0 < h -> S (List.length w) < 2 ^ 64 -> sched w e (2 * h) d l -> In (r, m) l ->
  (forall c s t, skipn k (mb_todo m) <> step_submarks_psi c s :: t) ->
  exists d' m', turn k d m = Some (d', m') /\ mb_todo m' = skipn k (mb_todo m).
Proof.
  intros w e h d l r m k HS Hh Hn H I N. destruct (world_base w e h HS Hh Hn) as [b HB].
  exact (sched_turn w e h HS Hh Hn b HB d l r m k H I N).
Qed.
Print Assumptions C89_turn_partial.
(** The index of a call that is done loads and is exact, at any time from then on. *)
Theorem C89_exact_partial : forall w e h d l r m,
  sound_world w e -> 0 < h -> S (List.length w) < 2 ^ 64 -> sched w e (2 * h) d l -> In (r, m) l -> finished m ->
  (ru_kd r = KCSARaw -> ru_route r = Sdsl) ->
  exists o, load_index (ru_tm r) (ru_kd r) (ru_rate r) d = Some o /\ exact_index w e r o.
Proof.
  intros w e h d l r m HS Hh Hn H I E HK. destruct (world_base w e h HS Hh Hn) as [b HB].
  exact (sched_finished w e h HS Hh Hn b HB d l r m H I E HK).
Qed.
Print Assumptions C89_exact_partial.
(** At any time a call that is left to itself ends, and its index is exact. *)
Theorem C89_ends_partial : forall w e h d l r m,
  sound_world w e -> 0 < h -> S (List.length w) < 2 ^ 64 -> sched w e (2 * h) d l -> In (r, m) l ->
  (ru_kd r = KCSARaw -> ru_route r = Sdsl) ->
  exists d' m' o, turn (List.length (mb_todo m)) d m = Some (d', m') /\ finished m' /\
    load_index (ru_tm r) (ru_kd r) (ru_rate r) d' = Some o /\ exact_index w e r o.
Proof.
  intros w e h d l r m HS Hh Hn H I HK.
  assert (N : forall c s t, skipn (List.length (mb_todo m)) (mb_todo m) <> step_submarks_psi c s :: t) by (intros c s t X; rewrite skipn_all in X; discriminate X).
  destruct (C89_turn_partial w e h d l r m _ HS Hh Hn H I N) as (d' & m' & E & ET). rewrite skipn_all in ET.
  apply in_split in I as (l1 & l2 & ->).
  assert (H' : sched w e (2 * h) d' (l1 ++ (r, m') :: l2)) by (eapply s_turn; [exact H|exact E|intros c s t X; rewrite ET in X; discriminate X]).
  destruct (C89_exact_partial w e h d' _ r m' HS Hh Hn H' ltac:(apply in_elt) ET HK) as (o & L & X). exists d', m', o. auto.
Qed.
Print Assumptions C89_ends_partial.
(** Every file that is complete has the content that it has after any history without concurrency. *)
Theorem C89_same_files_partial : forall w e h d l q n a c,
  sound_world w e -> 0 < h -> S (List.length w) < 2 ^ 64 -> sched w e (2 * h) d l -> history w e (2 * h) q ->
  d_find d n = Some (Whole a) -> d_find (pr_disk q) n = Some (Whole c) -> a = c.
Proof.
  intros w e h d l q n a c HS Hh Hn H Hq E1 E2. destruct (world_base w e h HS Hh Hn) as [b HB].
  destruct (sched_table w e h HS Hh Hn b HB d l H) as [[G1 _ _] _]. pose proof (history_inv w e h HS Hh Hn b HB q Hq) as [G2 _ _].
  apply d_find_In in E1. apply d_find_In in E2. apply (proj1 (Forall_forall _ _) G1) in E1. apply (proj1 (Forall_forall _ _) G2) in E2.
  unfold entry_ok in E1, E2. cbn [fst snd] in *. congruence.
Qed.
Print Assumptions C89_same_files_partial.
(** A file that is complete stays so, whatever is done next. *)
Theorem C89_kept_partial : forall w e h d l r m k d' m' n it,
  sound_world w e -> 0 < h -> S (List.length w) < 2 ^ 64 -> sched w e (2 * h) d l -> In (r, m) l ->
  turn k d m = Some (d', m') -> may_switch m' -> d_find d n = Some (Whole it) -> d_find d' n = Some (Whole it).
Proof.
  intros w e h d l r m k d' m' n it HS Hh Hn H I E N F. destruct (world_base w e h HS Hh Hn) as [b HB].
  destruct (sched_table w e h HS Hh Hn b HB d l H) as [[G1 _ _] FA]. apply (proj1 (Forall_forall _ _) FA) in I.
  unfold turn in E. apply bind_Some in E as (p0 & E0 & E). injection E as <- <-.
  destruct (seat_turn w e h b d r m k I N) as (p & E1 & IP & K & _). assert (p0 = p) by congruence. subst p0.
  destruct (K n (ex_intro _ it F)) as [it' F']. rewrite F'. f_equal. f_equal.
  apply d_find_In in F. apply d_find_In in F'. apply (proj1 (Forall_forall _ _) G1) in F. apply (proj1 (Forall_forall _ _) (inv_good _ _ _ _ _ IP)) in F'.
  unfold entry_ok in F, F'. cbn [fst snd] in *. congruence.
Qed.
Print Assumptions C89_kept_partial.

(** ** Concrete cases *)
Definition after (k : nat) (x : disk * member) : disk * member := match turn k (fst x) (snd x) with Some y => y | None => x end.
Lemma after_sched d l1 r m l2 k :
  sched exf_w exf_world (2 * 2) d (l1 ++ (r, m) :: l2) -> (forall c s t, skipn k (mb_todo m) <> step_submarks_psi c s :: t) ->
  sched exf_w exf_world (2 * 2) (fst (after k (d, m))) (l1 ++ (r, snd (after k (d, m))) :: l2) /\ mb_todo (snd (after k (d, m))) = skipn k (mb_todo m).
Proof.
  intros H N. destruct (C89_turn_partial exf_w exf_world 2 d _ r m k exf_sound ltac:(lia) exf_small H ltac:(apply in_elt) N) as (d' & m' & E & ET).
  unfold after. cbn [fst snd]. rewrite E. cbn [fst snd]. split; [|exact ET]. eapply s_turn; [exact H|exact E|]. intros c s t. rewrite ET. apply N.
Qed.
Lemma psi_not_submarks v c s : step_psi v <> step_submarks_psi c s.
Proof. intros E. apply (f_equal (fun f : step => f (mk_proc [(N FPsi, Torn)] []))) in E. destruct c; discriminate E. Qed.
Lemma bv_not_submarks v c s : step_bv v (N FPsiTail) (NT FPsiTail TyInts) (N FBwt) <> step_submarks_psi c s.
Proof. intros E. apply (f_equal (fun f : step => f (mk_proc [(NT FPsiTail (TyBv v), Torn)] []))) in E. destruct v, c; discriminate E. Qed.

(** Two processes construct the same sub-sampled index at the same time, while a third one constructs another
    class with Big-BWT: they take turns in the middle of their calls, and all three end with exact indexes. *)
Definition ex_psi : run := ex_run Sdsl KSrPsi 3.
Definition ex_va : run := ex_run BigBwt KSrIndexVA 2.
Definition ex_a1 := after 6 ([], call_of exf_world [] ex_psi).
Definition ex_b1 := after 8 (fst ex_a1, call_of exf_world [] ex_psi).
Definition ex_c1 := after (List.length (mb_todo (call_of exf_world [] ex_va))) (fst ex_b1, call_of exf_world [] ex_va).
Definition ex_a2 := after (List.length (mb_todo (snd ex_a1))) (fst ex_c1, snd ex_a1).
Definition ex_b2 := after (List.length (mb_todo (snd ex_b1))) (fst ex_a2, snd ex_b1).
Lemma ex_sched : sched exf_w exf_world (2 * 2) (fst ex_b2) [(ex_va, snd ex_c1); (ex_psi, snd ex_b2); (ex_psi, snd ex_a2)] /\
  finished (snd ex_a2) /\ finished (snd ex_b2) /\ finished (snd ex_c1).
Proof.
  assert (ALL : forall m c s t, skipn (List.length (mb_todo m)) (mb_todo m) <> step_submarks_psi c s :: t) by (intros m c s t X; rewrite skipn_all in X; discriminate X).
  pose proof (s_start exf_w exf_world (2 * 2) _ (h_empty _ _ _)) as S0.
  pose proof (s_join _ _ _ _ _ ex_psi S0 (ex_ready _ _ _)) as S1.
  destruct (after_sched _ [] ex_psi _ [] 6 S1 ltac:(intros c s t X; injection X as X _; exact (psi_not_submarks _ c s X))) as [S2 _]. cbn [app] in S2.
  pose proof (s_join _ _ _ _ _ ex_psi S2 (ex_ready _ _ _)) as S3.
  destruct (after_sched _ [] ex_psi _ _ 8 S3 ltac:(intros c s t X; injection X as X _; exact (bv_not_submarks _ c s X))) as [S4 _]. cbn [app] in S4.
  pose proof (s_join _ _ _ _ _ ex_va S4 (ex_ready _ _ _)) as S5.
  destruct (after_sched _ [] ex_va _ _ _ S5 (ALL _)) as [S6 F6]. cbn [app] in S6. rewrite skipn_all in F6.
  destruct (after_sched _ [_; _] ex_psi _ [] _ S6 (ALL _)) as [S7 F7]. cbn [app] in S7. rewrite skipn_all in F7.
  destruct (after_sched _ [_] ex_psi _ [_] _ S7 (ALL _)) as [S8 F8]. cbn [app] in S8. rewrite skipn_all in F8.
  split; [exact S8|]. split; [exact F7|]. split; [exact F8|exact F6].
Qed.
Definition load_answers (r : run) (d : disk) (x : list nat) : option (list nat) :=
  o <- load_index (ru_tm r) (ru_kd r) (ru_rate r) d ;; obj_locate (ru_tm r) (ru_kd r) o x.
Example C89_example :
  sched exf_w exf_world (2 * 2) (fst ex_b2) [(ex_va, snd ex_c1); (ex_psi, snd ex_b2); (ex_psi, snd ex_a2)] /\
  finished (snd ex_a2) /\ finished (snd ex_b2) /\ finished (snd ex_c1) /\
  List.length (fst ex_a1) < List.length (fst ex_b1) /\ List.length (fst ex_b1) < List.length (fst ex_c1) /\ List.length (fst ex_c1) < List.length (fst ex_a2) /\
  load_answers ex_psi (fst ex_b2) [97; 98; 114] = Some [7; 0] /\ load_answers ex_va (fst ex_b2) [97; 98; 114] = Some [0; 7].
Proof.
  destruct ex_sched as (S & A & B & C). split; [exact S|]. split; [exact A|]. split; [exact B|]. split; [exact C|].
  split; [vm_compute; lia|]. split; [vm_compute; lia|]. split; [vm_compute; lia|]. split; vm_compute; reflexivity.
Qed.

(** ** Schedules that spoil the directory *)
(** A switch between the two sub-sampling steps of a Psi-run class: another process constructs the same index
    meanwhile.  Both calls succeed, but Locate of the index that is left is undefined for a pattern of the text. *)
Theorem C89_switch_before_submarks_refuted : exists w e r k d1 m1 d2 m2 d3 m3 o x,
  sound_world w e /\ S (List.length w) < 2 ^ 64 /\ run_ready w e (2 * 2) r /\
  turn k [] (call_of e [] r) = Some (d1, m1) /\
  turn (List.length (mb_todo (call_of e [] r))) d1 (call_of e [] r) = Some (d2, m2) /\ finished m2 /\
  turn (List.length (mb_todo m1)) d2 m1 = Some (d3, m3) /\ finished m3 /\
  load_index (ru_tm r) (ru_kd r) (ru_rate r) d3 = Some o /\ pattern_over w x /\ obj_locate (ru_tm r) (ru_kd r) o x = None.
Proof.
  set (r := ex_run Sdsl KSrPsi 1).
  assert (T : forall k d m, match turn k d m with Some _ => true | None => false end = true -> turn k d m = Some (after k (d, m))).
  { intros k d m H. unfold after. cbn [fst snd]. destruct (turn k d m); [reflexivity|discriminate H]. }
  assert (F : forall d m, match turn (List.length (mb_todo m)) d m with Some _ => true | None => false end = true -> finished (snd (after (List.length (mb_todo m)) (d, m)))).
  { intros d m H. unfold after. cbn [fst snd]. unfold turn in *. destruct (run_steps _ _) as [p|]; [|discriminate H]. cbn [bind snd]. unfold finished. cbn [mb_todo]. apply skipn_all. }
  set (x1 := after 12 ([], call_of exf_world [] r)).
  set (x2 := after (List.length (mb_todo (call_of exf_world [] r))) (fst x1, call_of exf_world [] r)).
  set (x3 := after (List.length (mb_todo (snd x1))) (fst x2, snd x1)).
  assert (A : load_answers r (fst x3) [98] = None) by (vm_compute; reflexivity).
  unfold load_answers in A. destruct (load_index (ru_tm r) (ru_kd r) (ru_rate r) (fst x3)) as [o|] eqn:E; [|exfalso; vm_compute in E; discriminate E].
  exists exf_w, exf_world, r, 12, (fst x1), (snd x1), (fst x2), (snd x2), (fst x3), (snd x3), o, [98].
  split; [apply exf_sound|]. split; [exact exf_small|]. split; [apply ex_ready|].
  assert (P : forall x : disk * member, (fst x, snd x) = x) by (intros []; reflexivity). rewrite !P.
  split; [apply T; vm_compute; reflexivity|]. split; [apply T; vm_compute; reflexivity|]. split; [apply F; vm_compute; reflexivity|].
  split; [apply T; vm_compute; reflexivity|]. split; [apply F; vm_compute; reflexivity|]. split; [exact E|].
  split; [split; [discriminate|intros c [<-|[]]; cbn; auto 20]|exact A].
Qed.
Print Assumptions C89_switch_before_submarks_refuted.
(** A switch within a step: a process has found that the file of the alphabet is missing; another process completes
    its call; the first one opens the file for writing.  The index of the completed call does not load, for
    every class. *)
Theorem C89_switch_within_step_refuted : forall kd, exists w e r d0 p n,
  sound_world w e /\ S (List.length w) < 2 ^ 64 /\ ru_kd r = kd /\ run_ready w e (2 * 2) r /\
  later w e (2 * 2) (new_proc []) (new_proc d0) /\ file_exists (new_proc d0) n = false /\
  run_cache e r (new_proc d0) = Some p /\ whole (pr_disk p) n /\
  load_index (ru_tm r) (ru_kd r) (ru_rate r) (pr_disk p) <> None /\
  load_index (ru_tm r) (ru_kd r) (ru_rate r) ((n, Torn) :: pr_disk p) = None.
Proof.
  intros kd. exists exf_w, exf_world, (ex_run Sdsl kd 3), [], (ends exf_world (ex_run Sdsl kd 3) (new_proc [])), (N FAlpha).
  split; [apply exf_sound|]. split; [exact exf_small|]. split; [reflexivity|]. split; [apply ex_ready|]. split; [apply l_refl|]. split; [reflexivity|].
  split; [destruct kd; vm_compute; reflexivity|]. split; [destruct kd; eexists; vm_compute; reflexivity|].
  split; [destruct kd; vm_compute; discriminate|destruct kd; vm_compute; reflexivity].
Qed.
Print Assumptions C89_switch_within_step_refuted.
