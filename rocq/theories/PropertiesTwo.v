(** C59, C60: what a directory with the Psi of one density means for every class, and what calls through
    Big-BWT mean for the raw CSA, for every text. *)
From Coq Require Import List Arith Bool String Lia.
From Verif Require Import Spec MBase MConstruct MStore MBwt SpecStore SpecBwt StoreProof StoreBuilt StoreEnd
  MCache SpecCache CacheIdeal CacheBuilt CacheStep CacheEnd CacheTwo CacheRaw PropertiesSrCsa PropertiesCache.
Import ListNotations.

(** The classes that have a Psi *)
Definition with_psi (kd : kind) : bool := match kd with KRIndex | KSrIndex | KSrIndexVM | KSrIndexVA => false | _ => true end.

(** After a completed construct of a class with Psi, and whatever completed calls follow, every construct of
    a class with a Psi of another density fails: for every text, class, rate, route and bit vector type. *)
Theorem C59_second_type_fails : forall w e h q r1 p1 p r,
  sound_world w e -> 0 < h -> S (List.length w) < 2 ^ 64 -> history w e (2 * h) q ->
  run_ready w e (2 * h) r1 -> with_psi (ru_kd r1) = true -> run_cache e r1 q = Some p1 -> later w e (2 * h) p1 p ->
  with_psi (ru_kd r) = true -> t_dens (ru_tm r) <> 2 * h ->
  run_index e r p = None.
Proof.
  intros w e h q r1 p1 p r HS Hh Hn HQ HR K1 E1 L K2 ND. destruct (world_base w e h HS Hh Hn) as [b HB].
  pose proof (history_inv w e h HS Hh Hn b HB q HQ) as IQ.
  assert (H1 : history w e (2 * h) p1) by (eapply h_run; eauto).
  pose proof (history_inv w e h HS Hh Hn b HB p1 H1) as I1.
  destruct (later_inv w e h HS Hh Hn b HB p1 p I1 L) as [IP KP].
  destruct (run_ok w e h HS Hh Hn b HB r1 HR q IQ ltac:(intros ? [])) as [(p2 & ws & E' & _ & _ & HW & _) _].
  assert (p2 = p1) by congruence. subst p2.
  assert (W : whole (pr_disk p) (N FPsi)).
  { apply KP, HW. unfold all_names. apply in_or_app. right. destruct (ru_kd r1); try discriminate K1; cbn; auto 20. }
  apply (stuck_index (t_dens (ru_tm r))); [|reflexivity|destruct (ru_kd r); try discriminate K2; reflexivity].
  destruct W as [it0 W]. split; [rewrite W; discriminate|]. split; [|apply IP].
  intros it F. apply d_find_In in F. pose proof (inv_good _ _ _ _ _ IP) as G. apply (proj1 (Forall_forall _ _) G) in F.
  unfold entry_ok in F. cbn [fst snd ideal NT nm_hash nm_rate nm_key] in F. destruct (Nat.eqb_spec (t_dens (ru_tm r)) (2 * h)); [contradiction|discriminate].
Qed.
Print Assumptions C59_second_type_fails.

(** The classes without Psi can be constructed with any density among them, and the directory stays one of
    the first density.  Missing: the classes with Psi, by C59_second_type_fails. *)
Theorem C59_without_psi_partial : forall w e h p r,
  sound_world w e -> 0 < h -> S (List.length w) < 2 ^ 64 -> history w e (2 * h) p ->
  with_psi (ru_kd r) = false -> (ru_route r = BigBwt -> sound_big w e) ->
  exists o p', run_index e r p = Some (o, p') /\ exact_index w e r o /\ history w e (2 * h) p'.
Proof.
  intros w e h p [rt [c1 c2 c3 d] kd s] HS Hh Hn H K HR. cbn [ru_kd ru_route] in *.
  destruct (C47_resume_partial w e h p (mk_run rt (mk_tmpl c1 c2 c3 (2 * h)) kd s) HS Hh Hn H) as (o & p' & E & X & H').
  - split; [reflexivity|exact HR].
  - cbn. intros ->. discriminate.
  - exists o, p'. split; [|split; [|exact H']].
    + rewrite <- E. destruct kd; try discriminate K; reflexivity.
    + destruct kd; try discriminate K; exact X.
Qed.
Print Assumptions C59_without_psi_partial.

(** Two classes of density 4 over one directory, then one of density 6 *)
Example C59_example : exists q p o,
  history exf_w exf_world (2 * 2) q /\ run_cache exf_world (ex_run Sdsl KRCSA 1) (new_proc []) = Some q /\
  later exf_w exf_world (2 * 2) q p /\ p <> q /\
  run_index exf_world (mk_run Sdsl (mk_tmpl BvSd BvSd BvSd 6) KSlim 2) p = None /\
  run_index exf_world (mk_run Sdsl (mk_tmpl BvSd BvSd BvSd 6) KSrIndex 2) p = Some o.
Proof.
  pose proof exf_sound as HS. pose proof exf_small as Hn.
  assert (R1 : run_ready exf_w exf_world (2 * 2) (ex_run Sdsl KRCSA 1)) by apply ex_ready.
  assert (R2 : run_ready exf_w exf_world (2 * 2) (ex_run Sdsl KSrCSA 2)) by apply ex_ready.
  set (q := ends exf_world (ex_run Sdsl KRCSA 1) (new_proc [])).
  set (p := ends exf_world (ex_run Sdsl KSrCSA 2) q).
  assert (E1 : run_cache exf_world (ex_run Sdsl KRCSA 1) (new_proc []) = Some q) by (vm_compute; reflexivity).
  assert (E2 : run_cache exf_world (ex_run Sdsl KSrCSA 2) q = Some p) by (vm_compute; reflexivity).
  assert (H1 : history exf_w exf_world (2 * 2) q) by (eapply h_run; [apply h_empty|exact R1|exact E1]).
  assert (L : later exf_w exf_world (2 * 2) q p) by (eapply l_run; [apply l_refl|exact R2|exact E2]).
  destruct (C59_without_psi_partial exf_w exf_world 2 p (mk_run Sdsl (mk_tmpl BvSd BvSd BvSd 6) KSrIndex 2) HS ltac:(auto) Hn) as (o & p' & E & _).
  { eapply later_history; eauto. }
  { reflexivity. }
  { discriminate. }
  exists q, p, (o, p'). split; [exact H1|]. split; [exact E1|]. split; [exact L|]. split.
  { intros C. assert (X : List.length (pr_disk p) = List.length (pr_disk q)) by now rewrite C. revert X. vm_compute. discriminate. }
  split; [|exact E].
  apply (C59_second_type_fails exf_w exf_world 2 (new_proc []) (ex_run Sdsl KRCSA 1) q p (mk_run Sdsl (mk_tmpl BvSd BvSd BvSd 6) KSlim 2) HS ltac:(auto) Hn (h_empty _ _ _) R1 eq_refl E1 L eq_refl).
  cbn. discriminate.
Qed.

(** * C60: the raw CSA through Big-BWT *)
(** What calls through Big-BWT alone, completed or stopped anywhere, can lead to *)
Inductive big_only (e : world) : proc -> Prop :=
| bo_empty : big_only e (new_proc [])
| bo_run : forall p r p', big_only e p -> ru_route r = BigBwt -> run_cache e r p = Some p' -> big_only e p'
| bo_new : forall p, big_only e p -> big_only e (new_proc (pr_disk p))
| bo_stop : forall p r p' d, big_only e p -> ru_route r = BigBwt -> run_cache e r p = Some p' ->
    stopped (pr_disk p) (pr_disk p') d -> big_only e (new_proc d).
(** Through Big-BWT alone no raw CSA can be constructed: for every data file, run of Big-BWT, rate, template
    arguments, and whatever calls were made or stopped before. *)
Theorem C60_raw_fails : forall e p r,
  big_only e p -> ru_route r = BigBwt -> ru_kd r = KCSARaw -> run_index e r p = None.
Proof.
  intros e p r H HR HK. unfold run_index. rewrite HK. apply clean_raw; [exact HR|].
  clear r HR HK. induction H as [|p r p' _ IH HR E|p _ IH|p r p' d _ IH HR E HS].
  - apply Forall_nil.
  - exact (big_clean (input_of e r) _ _ _ HR p p' E IH).
  - exact IH.
  - exact (clean_stopped _ _ _ (big_clean (input_of e r) _ _ _ HR p p' E IH) HS).
Qed.
Print Assumptions C60_raw_fails.
(** After a completed construct through SDSL, of any class, the raw CSA can be constructed through Big-BWT
    as well: then the suffix array is there. *)
Theorem C60_raw_after_sdsl : forall w e h q r1 p1 p r,
  sound_world w e -> 0 < h -> S (List.length w) < 2 ^ 64 -> history w e (2 * h) q ->
  run_ready w e (2 * h) r1 -> ru_route r1 = Sdsl -> run_cache e r1 q = Some p1 -> later w e (2 * h) p1 p ->
  run_ready w e (2 * h) r ->
  exists o p', run_index e r p = Some (o, p') /\ exact_index w e r o /\ history w e (2 * h) p'.
Proof.
  intros w e h q r1 p1 p r HS Hh Hn HQ HR1 ES E1 L HR. destruct (world_base w e h HS Hh Hn) as [b HB].
  pose proof (history_inv w e h HS Hh Hn b HB q HQ) as IQ.
  assert (H1 : history w e (2 * h) p1) by (exact (h_run _ _ _ q r1 p1 HQ HR1 E1)).
  assert (HP : history w e (2 * h) p) by (eapply later_history; eauto).
  pose proof (history_inv w e h HS Hh Hn b HB p1 H1) as I1.
  destruct (later_inv w e h HS Hh Hn b HB p1 p I1 L) as [IP KP].
  destruct (run_ok w e h HS Hh Hn b HB r1 HR1 q IQ ltac:(intros ? [])) as [(p2 & ws & E' & _ & _ & HW & _) _].
  assert (p2 = p1) by congruence. subst p2.
  destruct (run_ok w e h HS Hh Hn b HB r HR p IP ltac:(intros ? [])) as [(p' & ws' & E2 & _ & I2 & HW2 & K2) _].
  set (r' := mk_run Sdsl (ru_tm r) (ru_kd r) (ru_rate r)).
  assert (HR' : run_ready w e (2 * h) r') by (split; [apply HR|discriminate]).
  assert (HN : wholes p' (all_names (2 * h) (ru_route r') (ru_tm r') (ru_kd r') (ru_rate r'))).
  { intros n I. unfold all_names in I. apply in_app_or in I as [I|I]; [apply in_app_or in I as [I|I]|].
    - apply K2, KP, HW. rewrite ES. unfold all_names. apply in_or_app. left. apply in_or_app. now left.
    - apply HW2. unfold all_names. apply in_or_app. left. apply in_or_app. now right.
    - apply HW2. unfold all_names. apply in_or_app. now right. }
  destruct (load_views w e h HS Hh Hn b HB r' p' HR' (fun _ => eq_refl) I2 HN) as (v & o & EV & LD & V).
  change (ru_tm r') with (ru_tm r) in *. change (ru_kd r') with (ru_kd r) in *. change (ru_rate r') with (ru_rate r) in *.
  exists o, p'. split; [|split; [|exact (h_run _ _ _ p r p' HP HR E2)]].
  - unfold run_index, construct_index. change (build_cache _ _ _ _ p) with (run_cache e r p). rewrite E2. cbn [bind]. rewrite LD. reflexivity.
  - intros x Hx. destruct HS as (Hw & Hd & HSA).
    destruct (build_exact (ru_tm r) (ru_kd r) (ru_rate r) w _ _ h x Hw HSA Hd Hh (proj1 HR) Hn Hx) as (v' & [s t] & l & EV' & EC & EL & A & RI).
    assert (v' = v) by congruence. subst v'. exists l, s, t.
    unfold obj_locate, obj_count. rewrite V. cbn [bind]. rewrite trim_locate, trim_count. auto.
Qed.
Print Assumptions C60_raw_after_sdsl.
Example C60_raw_example : exists p p1 o p',
  big_only exf_world p /\ pr_disk p <> [] /\ run_index exf_world (ex_run BigBwt KCSARaw 1) p = None /\
  run_cache exf_world (ex_run Sdsl KRIndex 1) (new_proc []) = Some p1 /\
  run_index exf_world (ex_run BigBwt KCSARaw 1) p1 = Some (o, p').
Proof.
  pose proof exf_sound as HS. pose proof exf_small as Hn.
  set (p := ends exf_world (ex_run BigBwt KRCSA 1) (new_proc [])).
  assert (E : run_cache exf_world (ex_run BigBwt KRCSA 1) (new_proc []) = Some p) by (vm_compute; reflexivity).
  assert (B : big_only exf_world p) by (eapply bo_run; [apply bo_empty| |exact E]; reflexivity).
  set (p1 := ends exf_world (ex_run Sdsl KRIndex 1) (new_proc [])).
  assert (E1 : run_cache exf_world (ex_run Sdsl KRIndex 1) (new_proc []) = Some p1) by (vm_compute; reflexivity).
  destruct (C60_raw_after_sdsl exf_w exf_world 2 (new_proc []) (ex_run Sdsl KRIndex 1) p1 p1 (ex_run BigBwt KCSARaw 1) HS ltac:(auto) Hn
    (h_empty _ _ _) (ex_ready _ _ _) eq_refl E1 (l_refl _ _ _ _) (ex_ready _ _ _)) as (o & p' & X & _).
  exists p, p1, o, p'. split; [exact B|]. split; [vm_compute; discriminate|]. split; [now apply C60_raw_fails|]. auto.
Qed.
