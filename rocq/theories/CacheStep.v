(** Construction steps over a directory: every step completes its files with their [ideal] contents. *)
From Coq Require Import List Arith Bool String Lia.
From Verif Require Import MBase MRle MConstruct MPhi MRIndex MSrIndex MPsi MCsa MSrCsa MStore MBwt MCache SpecCache CacheIdeal CacheBuilt
  StoreProof.
Import ListNotations.

(** * Directories *)
Lemma d_find_app w d n : d_find (w ++ d) n = match d_find w n with Some c => Some c | None => d_find d n end.
Proof. induction w as [|[m c] w IH]; cbn; [reflexivity|]. destruct (name_eq_dec m n); auto. Qed.
Lemma d_find_In d n c : d_find d n = Some c -> In (n, c) d.
Proof.
  induction d as [|[m e] d IH]; cbn; [discriminate|]. destruct (name_eq_dec m n) as [->|].
  - intros E. injection E as ->. auto.
  - auto.
Qed.
Lemma d_find_names d n : In n (map fst d) -> d_find d n <> None.
Proof.
  induction d as [|[m e] d IH]; cbn; [tauto|]. destruct (name_eq_dec m n); [congruence|]. intros [H|H]; [congruence|auto].
Qed.
Lemma names_d_find d n : d_find d n <> None -> In n (map fst d).
Proof.
  destruct (d_find d n) as [c|] eqn:E; [|congruence]. intros _. apply d_find_In in E. apply in_map_iff. exists (n, c). auto.
Qed.
Definition final (w : disk) : Prop := forall n, In n (map fst w) -> whole w n.
Lemma whole_app w d n : final w -> whole d n -> whole (w ++ d) n.
Proof.
  intros F [it H]. unfold whole. rewrite d_find_app. destruct (d_find w n) eqn:E.
  - destruct (F n) as [it' H']; [apply names_d_find; congruence|]. exists it'. congruence.
  - eauto.
Qed.
Lemma whole_app_l w d n : final w -> In n (map fst w) -> whole (w ++ d) n.
Proof. intros F H. destruct (F n H) as [it E]. exists it. now rewrite d_find_app, E. Qed.
(** Complete files, the latest, over files that they replace. *)
Definition wholes_of (l : list (name * item)) : disk := map (fun '(n, it) => (n, Whole it)) l.
Lemma wholes_names l : map fst (wholes_of l) = map fst l.
Proof. unfold wholes_of. rewrite map_map. apply map_ext. intros [n it]. reflexivity. Qed.
Lemma final_wholes l t : incl (map fst t) (map fst l) -> final (wholes_of l ++ t).
Proof.
  intros I n H. rewrite map_app, wholes_names in H.
  assert (H' : In n (map fst l)) by (apply in_app_or in H as [H|H]; auto). clear H.
  unfold whole. rewrite d_find_app. destruct (d_find (wholes_of l) n) as [c|] eqn:E.
  - apply d_find_In, in_map_iff in E as ([m it] & E & _). injection E as <- <-. eauto.
  - exfalso. revert E. apply d_find_names. now rewrite wholes_names.
Qed.

Section Steps.
Variables (data sa : list nat) (b : base_items) (dens : nat) (g : big_files).
Hypothesis HB : construct_base data sa = Some b.
Hypothesis HT : forall kd s, exists v, build (mk_tmpl BvSd BvSd BvSd dens) kd s data sa = Some v.
Notation ID := (ideal sa b dens g).
Notation rn := (bi_runs_files b).

Definition entry_ok (e : name * content) : Prop := match snd e with Whole it => ID (fst e) = Some it | Torn => True end.
Definition good (d : disk) : Prop := Forall entry_ok d.
Definition map_ok (p : proc) : Prop := forall r k, In (r, k) (pr_map p) -> k = FPsiHeadIdx.
Record inv (p : proc) : Prop := { inv_good : good (pr_disk p); inv_closed : closed dens (pr_disk p); inv_map : map_ok p }.
Definition wholes (p : proc) (l : list name) : Prop := forall n, In n l -> whole (pr_disk p) n.

Definition plain (n : name) : bool := match nm_hash n, nm_key n with None, FPsiHeadIdx => false | _, _ => true end.
Lemma resolve_plain p n : map_ok p -> plain n = true -> resolve p n = n.
Proof.
  intros M H. unfold resolve. destruct (nm_hash n) eqn:EH; [reflexivity|].
  destruct (existsb (same_key (nm_rate n, nm_key n)) (pr_map p)) eqn:E; [|reflexivity].
  apply existsb_exists in E as ([r k] & I & S). apply M in I as ->. unfold same_key in S. apply andb_prop in S as [_ S]. cbn in S.
  destruct (fkey_eq_dec (nm_key n) FPsiHeadIdx) as [K|]; [|discriminate]. unfold plain in H. rewrite EH, K in H. discriminate.
Qed.
Definition ready (p : proc) : Prop := good (pr_disk p) /\ map_ok p.
Lemma inv_ready p : inv p -> ready p.
Proof. intros IV. split; apply IV. Qed.
Lemma look_whole p n it : ready p -> plain n = true -> whole (pr_disk p) n -> ID n = Some it -> look_file p n = Some (Whole it).
Proof.
  intros [G M] HP [it' W] HI. unfold look_file. rewrite (resolve_plain p n M HP), W. apply d_find_In in W.
  apply (proj1 (Forall_forall _ _) G) in W. cbn in W. congruence.
Qed.
Lemma exists_whole p n : map_ok p -> plain n = true -> whole (pr_disk p) n -> file_exists p n = true.
Proof. intros M HP [it W]. unfold file_exists, look_file. now rewrite (resolve_plain p n M HP), W. Qed.
Lemma exists_present p n : map_ok p -> plain n = true -> file_exists p n = true -> present (pr_disk p) n.
Proof.
  intros M HP. unfold file_exists, look_file, present. rewrite (resolve_plain p n M HP). destruct (d_find (pr_disk p) n); congruence.
Qed.
Lemma put_plain p n it : map_ok p -> plain n = true -> put n it p = mk_proc ((n, Whole it) :: pr_disk p) (pr_map p).
Proof. intros M HP. unfold put. now rewrite resolve_plain. Qed.
Lemma create_plain p n : map_ok p -> plain n = true -> create n p = mk_proc ((n, Torn) :: pr_disk p) (pr_map p).
Proof. intros M HP. unfold create. now rewrite resolve_plain. Qed.

(** * Steps *)
(** From a directory in which the files [R] are complete, [f] completes the files [W]; if they already are
    complete it does nothing. *)
Definition ok (f : step) (R W : list name) : Prop := forall p, inv p -> wholes p R ->
  (exists p' ws, f p = Some p' /\ pr_disk p' = ws ++ pr_disk p /\ inv p' /\ wholes p' W /\
     (forall n, whole (pr_disk p) n -> whole (pr_disk p') n)) /\
  (wholes p W -> f p = Some p).
Lemma ok_seq f h R1 W1 R2 W2 : ok f R1 W1 -> ok h R2 W2 -> incl R2 (R1 ++ W1) -> ok (fun p => bind (f p) h) R1 (W1 ++ W2).
Proof.
  intros Hf Hh I p IV HR. destruct (Hf p IV HR) as [(p1 & w1 & E1 & D1 & IV1 & HW1 & K1) Idle1].
  assert (HR2 : wholes p1 R2).
  { intros n Hn. apply I in Hn. apply in_app_or in Hn as [Hn|Hn]; auto. }
  destruct (Hh p1 IV1 HR2) as [(p2 & w2 & E2 & D2 & IV2 & HW2 & K2) _]. split.
  - exists p2, (w2 ++ w1). rewrite E1. cbn [bind]. split; [exact E2|]. split; [now rewrite D2, D1, app_assoc|]. split; [exact IV2|]. split.
    + intros n Hn. apply in_app_or in Hn as [Hn|Hn]; auto.
    + auto.
  - intros HW. rewrite Idle1; [|intros n Hn; apply HW, in_or_app; auto]. cbn [bind].
    apply (Hh p IV).
    + intros n Hn. apply I in Hn. apply in_app_or in Hn as [Hn|Hn]; [auto|apply HW, in_or_app; auto].
    + intros n Hn. apply HW, in_or_app; auto.
Qed.
Lemma ok_weak f R W R' : ok f R W -> incl R R' -> ok f R' W.
Proof. intros H I p IV HR. apply H; [exact IV|]. intros n Hn. auto. Qed.
Lemma ok_ext f h R W : (forall p, f p = h p) -> ok f R W -> ok h R W.
Proof. intros E H p IV HR. rewrite <- !E. apply H; auto. Qed.
Lemma ok_same f R W W' : ok f R W -> incl W W' -> incl W' W -> ok f R W'.
Proof.
  intros H I1 I2 p IV HR. destruct (H p IV HR) as [(p' & ws & E & D & IV' & HW & K) Idle]. split.
  - exists p', ws. repeat split; auto; try apply IV'. intros n Hn. auto.
  - intros HW'. apply Idle. intros n Hn. auto.
Qed.
Lemma ok_nil R : ok (run_steps []) R [].
Proof.
  intros p IV HR. cbn. split; [|reflexivity]. exists p, []. repeat split; auto; try apply IV. intros n [].
Qed.
Lemma ok_cons f l R W1 R2 W2 : ok f R W1 -> ok (run_steps l) R2 W2 -> incl R2 (R ++ W1) -> ok (run_steps (f :: l)) R (W1 ++ W2).
Proof. intros. cbn [run_steps]. eapply ok_seq; eauto. Qed.
Lemma ok_step f l R R1 W1 W2 : ok f R1 W1 -> incl R1 R -> ok (run_steps l) (R ++ W1) W2 -> ok (run_steps (f :: l)) R (W1 ++ W2).
Proof. intros H1 I H2. eapply ok_cons; [eapply ok_weak; eauto|exact H2|apply incl_refl]. Qed.
Lemma run_app l1 l2 p : run_steps (l1 ++ l2) p = bind (run_steps l1 p) (run_steps l2).
Proof. revert p. induction l1 as [|f l IH]; cbn; intros p; [reflexivity|]. destruct (f p); cbn; auto. Qed.
Lemma ok_app l1 l2 R W1 R2 W2 : ok (run_steps l1) R W1 -> ok (run_steps l2) R2 W2 -> incl R2 (R ++ W1) -> ok (run_steps (l1 ++ l2)) R (W1 ++ W2).
Proof. intros H1 H2 I. eapply ok_ext; [intros p; symmetry; apply run_app|]. eapply ok_seq; eauto. Qed.

(** The same for a list of steps, step by step: every step needs files that are there at the start or that an earlier one
    completes, whatever else is done to the directory in between.  [step_submarks_psi] goes with the step before it. *)
Inductive chain : list step -> list name -> list name -> Prop :=
| ch_nil R : chain [] R []
| ch_one f l R R1 W1 W2 : ok f R1 W1 -> incl R1 R -> chain l (R ++ W1) W2 -> chain (f :: l) R (W1 ++ W2)
| ch_pair f c s l R R1 W1 W2 : ok (fun p => bind (f p) (step_submarks_psi c s)) R1 W1 -> incl R1 R -> chain l (R ++ W1) W2 ->
    chain (f :: step_submarks_psi c s :: l) R (W1 ++ W2)
| ch_sub l R W W' : chain l R W -> incl W' W -> chain l R W'.
Lemma incl_app_mono (A B C : list name) : incl A B -> incl (A ++ C) (B ++ C).
Proof. intros H. apply incl_app; [now apply incl_appl|now apply incl_appr]. Qed.
Lemma chain_weak l R W : chain l R W -> forall R', incl R R' -> chain l R' W.
Proof.
  induction 1 as [R|f l R R1 W1 W2 H I _ IH|f c s l R R1 W1 W2 H I _ IH|l R W W' _ IH I]; intros R' HR.
  - constructor.
  - eapply ch_one; [exact H|exact (incl_tran I HR)|]. apply IH, incl_app_mono, HR.
  - eapply ch_pair; [exact H|exact (incl_tran I HR)|]. apply IH, incl_app_mono, HR.
  - eapply ch_sub; eauto.
Qed.
Lemma chain_app l1 R W1 : chain l1 R W1 -> forall l2 R2 W2, chain l2 R2 W2 -> incl R2 (R ++ W1) -> chain (l1 ++ l2) R (W1 ++ W2).
Proof.
  induction 1 as [R|f l R R1 W0 W1 H I _ IH|f c s l R R1 W0 W1 H I _ IH|l R W W' _ IH I]; intros l2 R2 W2 H2 HI.
  - cbn [app]. eapply chain_weak; [exact H2|]. now rewrite app_nil_r in HI.
  - rewrite <- app_assoc. cbn [app]. eapply ch_one; [exact H|exact I|]. apply (IH l2 R2 W2 H2). now rewrite <- app_assoc.
  - rewrite <- app_assoc. cbn [app]. eapply ch_pair; [exact H|exact I|]. apply (IH l2 R2 W2 H2). now rewrite <- app_assoc.
  - eapply ch_sub; [apply (IH l2 R2 W2 H2)|].
    + intros n Hn. apply HI in Hn. apply in_app_or in Hn as [Hn|Hn]; apply in_or_app; auto.
    + now apply incl_app_mono.
Qed.
(** Part of a chain, up to a place where it can be left. *)
Lemma chain_part l R W : chain l R W -> forall l1 l2, l = l1 ++ l2 -> (forall c s r, l2 <> step_submarks_psi c s :: r) -> forall p, inv p -> wholes p R ->
  exists p' R' W', run_steps l1 p = Some p' /\ inv p' /\ (forall n, whole (pr_disk p) n -> whole (pr_disk p') n) /\
    chain l2 R' W' /\ wholes p' R' /\ incl (R ++ W) (R' ++ W').
Proof.
  induction 1 as [R|f l R R1 W1 W2 H I HC IH|f c s l R R1 W1 W2 H I HC IH|l R W W' HC IH I]; intros l1 l2 E N p IV HR.
  - symmetry in E. apply app_eq_nil in E as [-> ->]. exists p, R, []. split; [reflexivity|]. repeat (split; [solve [auto using ch_nil]|]). apply incl_refl.
  - destruct l1 as [|x l1]; cbn in E.
    + subst l2. exists p, R, (W1 ++ W2). split; [reflexivity|]. split; [exact IV|]. split; [auto|]. split; [eapply ch_one; eauto|]. split; [exact HR|apply incl_refl].
    + injection E as <- E. destruct (H p IV ltac:(intros n Hn; auto)) as [(p1 & w1 & E1 & _ & IV1 & HW1 & K1) _].
      destruct (IH l1 l2 E N p1 IV1) as (p' & R' & W' & E2 & IV2 & K2 & C2 & HR2 & IC).
      { intros n Hn. apply in_app_or in Hn as [Hn|Hn]; auto. }
      exists p', R', W'. cbn [run_steps]. rewrite E1. cbn [bind]. split; [exact E2|]. split; [exact IV2|]. split; [auto|]. split; [exact C2|]. split; [exact HR2|].
      now rewrite app_assoc.
  - destruct l1 as [|x l1]; cbn in E.
    + subst l2. exists p, R, (W1 ++ W2). split; [reflexivity|]. split; [exact IV|]. split; [auto|]. split; [eapply ch_pair; eauto|]. split; [exact HR|apply incl_refl].
    + injection E as <- E. destruct l1 as [|y l1]; cbn in E; [exfalso; eapply N; symmetry; exact E|]. injection E as <- E.
      destruct (H p IV ltac:(intros n Hn; auto)) as [(p1 & w1 & E1 & _ & IV1 & HW1 & K1) _].
      destruct (IH l1 l2 E N p1 IV1) as (p' & R' & W' & E2 & IV2 & K2 & C2 & HR2 & IC).
      { intros n Hn. apply in_app_or in Hn as [Hn|Hn]; auto. }
      exists p', R', W'. cbn [run_steps]. apply bind_Some in E1 as (p0 & E0 & E1). rewrite E0. cbn [bind]. rewrite E1. cbn [bind].
      split; [exact E2|]. split; [exact IV2|]. split; [auto|]. split; [exact C2|]. split; [exact HR2|]. now rewrite app_assoc.
  - destruct (IH l1 l2 E N p IV HR) as (p' & R' & W0 & E2 & IV2 & K2 & C2 & HR2 & IC). exists p', R', W0. split; [exact E2|]. split; [exact IV2|]. split; [exact K2|]. split; [exact C2|]. split; [exact HR2|].
    intros n Hn. apply IC. apply in_app_or in Hn as [Hn|Hn]; apply in_or_app; auto.
Qed.

(** The same for a list of steps; between two steps the directory is as [inv] says, unless the second is [step_submarks_psi]. *)
Definition oks (l : list step) (R W : list name) : Prop := ok (run_steps l) R W /\ chain l R W.
Lemma oks_nil R : oks [] R [].
Proof. split; [apply ok_nil|apply ch_nil]. Qed.
Lemma oks_same l R W W' : oks l R W -> incl W W' -> incl W' W -> oks l R W'.
Proof. intros [H B] I1 I2. split; [eapply ok_same; eauto|eapply ch_sub; eauto]. Qed.
Lemma oks_weak l R W R' : oks l R W -> incl R R' -> oks l R' W.
Proof. intros [H B] I. split; [eapply ok_weak; eauto|eapply chain_weak; eauto]. Qed.
Lemma oks_app l1 l2 R W1 R2 W2 : oks l1 R W1 -> oks l2 R2 W2 -> incl R2 (R ++ W1) -> oks (l1 ++ l2) R (W1 ++ W2).
Proof. intros [H1 B1] [H2 B2] I. split; [eapply ok_app; eauto|eapply chain_app; eauto]. Qed.
Lemma oks_step f l R R1 W1 W2 : ok f R1 W1 -> incl R1 R -> oks l (R ++ W1) W2 -> oks (f :: l) R (W1 ++ W2).
Proof. intros H1 I [H2 B2]. split; [eapply ok_step; eauto|eapply ch_one; eauto]. Qed.
Lemma oks_pair f c s l R R1 W1 W2 : ok (fun p => bind (f p) (step_submarks_psi c s)) R1 W1 -> incl R1 R -> oks l (R ++ W1) W2 ->
  oks (f :: step_submarks_psi c s :: l) R (W1 ++ W2).
Proof.
  intros H1 I [H2 B2]. split; [|eapply ch_pair; eauto]. eapply ok_ext; [|exact (ok_step _ l R R1 W1 W2 H1 I H2)].
  intros p. cbn [run_steps]. destruct (f p); reflexivity.
Qed.
Lemma oks_part l R W : oks l R W -> forall l1 l2, l = l1 ++ l2 -> (forall c s r, l2 <> step_submarks_psi c s :: r) -> forall p, inv p -> wholes p R ->
  exists p', run_steps l1 p = Some p' /\ inv p'.
Proof. intros [_ C] l1 l2 E N p IV HR. destruct (chain_part l R W C l1 l2 E N p IV HR) as (p' & _ & _ & E' & IV' & _). eauto. Qed.

(** A list of writes: contents, completion, and the files taken to be complete with each. *)
Definition writes (ws : disk) (R : list name) : Prop :=
  good ws /\ final ws /\ forall n o, In n (map fst ws) -> In o (bundle dens n) -> In o (map fst ws) \/ In o R.
Lemma inv_writes p p' ws R : inv p -> wholes p R -> writes ws R -> pr_disk p' = ws ++ pr_disk p -> map_ok p' -> inv p'.
Proof.
  intros [G C M] HR (G1 & F & B) D M'. split; [rewrite D; apply Forall_app; auto | | exact M'].
  rewrite D. intros n HP o HO. unfold present in HP. rewrite d_find_app in HP. destruct (d_find ws n) as [c|] eqn:E.
  - destruct (B n o) as [H|H]; auto; [apply names_d_find; congruence|now apply whole_app_l|apply whole_app; auto].
  - apply whole_app; [exact F|]. apply (C n); auto.
Qed.
Lemma writes_wholes l t R : Forall (fun '(n, it) => ID n = Some it) l -> Forall (fun e => snd e = Torn) t -> incl (map fst t) (map fst l) ->
  (forall n, In n (map fst l) -> incl (bundle dens n) (map fst l ++ R)) -> writes (wholes_of l ++ t) R.
Proof.
  intros HL Ht I B. split; [|split].
  - apply Forall_app. split.
    + unfold wholes_of. apply Forall_map. eapply Forall_impl; [|exact HL]. intros [n it] H. exact H.
    + eapply Forall_impl; [|exact Ht]. intros [n c] H. cbn in H. subst. exact Logic.I.
  - now apply final_wholes.
  - intros n o H HO. rewrite map_app, wholes_names in *.
    assert (H' : In n (map fst l)) by (apply in_app_or in H as [H|H]; auto).
    apply (B n H') in HO. apply in_app_or in HO as [HO|HO]; auto. left. apply in_or_app. auto.
Qed.
Lemma writes_mk ws R : good ws -> final ws -> (forall n, In n (map fst ws) -> incl (bundle dens n) (map fst ws ++ R)) -> writes ws R.
Proof. intros G F B. split; [exact G|]. split; [exact F|]. intros n o H HO. apply in_app_or. exact (B n H o HO). Qed.
Lemma final_app w1 w2 : final w1 -> final w2 -> final (w1 ++ w2).
Proof.
  intros F1 F2 n H. rewrite map_app in H. destruct (d_find w1 n) eqn:E.
  - apply whole_app_l; auto. apply names_d_find. congruence.
  - apply in_app_or in H as [H|H]; [now apply d_find_names in H|]. apply whole_app; auto.
Qed.
(** The first half of [ok]. *)
Definition does (f : step) (R W : list name) : Prop := forall p, inv p -> wholes p R ->
  exists p' ws, f p = Some p' /\ pr_disk p' = ws ++ pr_disk p /\ inv p' /\ wholes p' W /\ (forall n, whole (pr_disk p) n -> whole (pr_disk p') n).
Lemma ok_does f R W : ok f R W -> does f R W.
Proof. intros H p IV HR. apply H; auto. Qed.
Lemma does_sub f R W W' : does f R W -> incl W' W -> does f R W'.
Proof. intros H I p IV HR. destruct (H p IV HR) as (p' & ws & E & D & IV' & HW & K). exists p', ws. repeat split; auto; try apply IV'. intros n Hn. auto. Qed.
Lemma does_writes f R ws : writes ws R -> (forall p, inv p -> wholes p R -> f p = Some (mk_proc (ws ++ pr_disk p) (pr_map p))) -> does f R (map fst ws).
Proof.
  intros HW E p IV HR. exists (mk_proc (ws ++ pr_disk p) (pr_map p)), ws. split; [apply E; auto|]. split; [reflexivity|]. split.
  - eapply inv_writes; [exact IV|exact HR|exact HW|reflexivity|]. apply IV.
  - destruct HW as (_ & F & _). split; [intros n Hn; now apply whole_app_l|intros n Hn; now apply whole_app].
Qed.
Lemma does_seq f h R W1 R2 W2 : does f R W1 -> does h R2 W2 -> incl R2 (R ++ W1) -> does (fun p => bind (f p) h) R (W1 ++ W2).
Proof.
  intros Hf Hh I p IV HR. destruct (Hf p IV HR) as (p1 & w1 & E1 & D1 & IV1 & HW1 & K1).
  assert (HR2 : wholes p1 R2) by (intros n Hn; apply I in Hn; apply in_app_or in Hn as [Hn|Hn]; auto).
  destruct (Hh p1 IV1 HR2) as (p2 & w2 & E2 & D2 & IV2 & HW2 & K2).
  exists p2, (w2 ++ w1). rewrite E1. cbn [bind]. split; [exact E2|]. split; [now rewrite D2, D1, app_assoc|]. split; [exact IV2|]. split; [|auto].
  intros n Hn. apply in_app_or in Hn as [Hn|Hn]; auto.
Qed.
Lemma does_guarded gd f R W : plain gd = true -> In gd W -> incl W (bundle dens gd) -> does f R W -> ok (guarded gd f) R W.
Proof.
  intros HP HG HI H p IV HR. unfold guarded. destruct (file_exists p gd) eqn:E.
  - split; [|reflexivity]. exists p, []. split; [reflexivity|]. split; [reflexivity|]. split; [exact IV|]. split; [|auto].
    intros n Hn. apply HI in Hn. apply (inv_closed p IV gd); [|exact Hn]. apply exists_present; auto. apply IV.
  - split; [exact (H p IV HR)|]. intros HWp. rewrite (exists_whole p gd) in E; [discriminate|apply IV|exact HP|auto].
Qed.
Lemma ok_guarded gd body R ws : plain gd = true -> writes ws R -> In gd (map fst ws) -> incl (map fst ws) (bundle dens gd) ->
  (forall p, inv p -> wholes p R -> body p = Some (mk_proc (ws ++ pr_disk p) (pr_map p))) ->
  ok (guarded gd body) R (map fst ws).
Proof.
  intros HP HW HG HI HB'. apply does_guarded; auto. apply does_writes; auto.
Qed.

(** * The steps of the code *)
Lemma load_ok p n l : ready p -> plain n = true -> whole (pr_disk p) n -> ID n = Some (ItInts l) -> load_ints p n = Some l.
Proof. intros. unfold load_ints. now rewrite (look_whole p n (ItInts l)). Qed.
Lemma buf_ok p n l : ready p -> plain n = true -> whole (pr_disk p) n -> ID n = Some (ItInts l) -> buf_ints p n = Some l.
Proof. intros. unfold buf_ints. now rewrite (look_whole p n (ItInts l)). Qed.
Lemma alpha_ok p n l : ready p -> plain n = true -> whole (pr_disk p) n -> ID n = Some (ItAlpha l) -> load_alpha p n = Some l.
Proof. intros. unfold load_alpha. now rewrite (look_whole p n (ItAlpha l)). Qed.
Lemma rle_ok p n l : ready p -> plain n = true -> whole (pr_disk p) n -> ID n = Some (ItRle l) -> load_rle p n = Some l.
Proof. intros. unfold load_rle. now rewrite (look_whole p n (ItRle l)). Qed.
Lemma psi_ok p n l : ready p -> plain n = true -> whole (pr_disk p) n -> ID n = Some (ItPsi l) -> load_psi p n = Some l.
Proof. intros. unfold load_psi. now rewrite (look_whole p n (ItPsi l)). Qed.

Definition bv_names (r : option nat) (k : fkey) (c : bvclass) : list name :=
  [mk_name r k (Some (TyBv c)); mk_name r k (Some (TySup (SupRank c true))); mk_name r k (Some (TySup (SupSelect c)))].
Definition bv0_names (r : option nat) (k : fkey) (c : bvclass) : list name :=
  [mk_name r k (Some (TyBv c)); mk_name r k (Some (TySup (SupRank c false)))].
Definition base_names : list name := [N FBwt; N FFirst; N FFirstPos; N FLast; N FLastPos; N FAlpha; N FRle].
Definition rindex_names (c : bvclass) : list name := [N FFirstLinks; N FFirstSorted] ++ bv_names None FFirstPos c.
Definition sri_names (s : nat) (tm : tmpl) : list name := [N FLastSorted; P s FLastIdx; P s FLastPos] ++ bv_names (Some s) FLastIdx (t_idx tm)
  ++ [P s FFirstLinks; P s FFirstByLast] ++ bv_names (Some s) FFirstByLast (t_marks tm).
Definition sri_valid_names (s : nat) (tm : tmpl) : list name := [P s FFirstValid; P s FFirstArea] ++ bv0_names (Some s) FFirstValid (t_valid tm).
Definition rcsa_names (c : bvclass) : list name :=
  [N FPsi; NT FPsi (TyPsi dens); N FLastLinks; N FLastSorted] ++ bv_names None FLastPos c.
Definition common_names (s : nat) (tm : tmpl) : list name :=
  [N FFirstSorted; P s FFirstIdx; P s FFirstPos; P s FLastLinks; P s FLastByFirst] ++ bv_names (Some s) FLastByFirst (t_marks tm).
Definition srcsa_names (s : nat) (tm : tmpl) : list name := [P s FFirst] ++ bv_names (Some s) FFirst (t_idx tm).
Definition slim_names (s : nat) (tm : tmpl) : list name :=
  [N FFirstIdxAlpha; N FCum; P s FFirstPosAlpha; P s FFirstIdxAlpha; P s FLastLinksAlpha] ++ bv_names (Some s) FFirstIdxAlpha (t_idx tm).
Definition srcsa_valid_names (s : nat) (tm : tmpl) : list name := [P s FLastValid; P s FLastArea] ++ bv0_names (Some s) FLastValid (t_valid tm).
Definition rcsa_psi_names (c : bvclass) : list name :=
  [N FPsi; NT FPsi (TyPsi dens); NT FPsiHead TyInts; NT FPsiTail TyInts] ++ bv_names None FPsiTail c ++ [NT FPsiTailLinks TyInts].
Definition srpsi_names (s : nat) (tm : tmpl) : list name :=
  [N FPsiHeadSorted; PT s FPsiHead TyInts; PT s FPsiHeadIdx TyInts; PT s FPsiTail TyInts] ++ bv_names (Some s) FPsiTail (t_marks tm)
  ++ [PT s FPsiTailLinks TyInts] ++ bv_names (Some s) FPsiHeadIdx (t_idx tm) ++ [NT FPsiCum TyInts].
Definition psi_valid_names (s : nat) (c : bvclass) : list name := bv0_names (Some s) FPsiTailValid c ++ [PT s FPsiTailArea TyInts].
Definition run_names : list name := [N FFirst; N FFirstPos; N FLast; N FLastPos].
Ltac open_names := cbv [bv_names bv0_names base_names rindex_names sri_names sri_valid_names rcsa_names common_names srcsa_names slim_names
  srcsa_valid_names rcsa_psi_names srpsi_names psi_valid_names run_names app] in *.
Ltac mem := open_names; cbn [In app map fst wholes_of]; repeat (first [left; reflexivity | right]); fail.
Ltac value := cbn [ideal bits ints N NT P PT with_hash nm_hash nm_rate nm_key]; use_eqs; rewrite ?Nat.eqb_refl; reflexivity.
Ltac side IV HR := solve [exact IV | exact (inv_ready _ IV) | reflexivity | apply HR; mem | value].
Ltac rd IV HR := repeat (first [erewrite load_ok by side IV HR | erewrite buf_ok by side IV HR | erewrite alpha_ok by side IV HR
  | erewrite rle_ok by side IV HR | erewrite psi_ok by side IV HR]; cbn [bind]).
Ltac wr M := repeat first [rewrite put_plain by (solve [exact M | reflexivity]) | rewrite create_plain by (solve [exact M | reflexivity])]; cbn [pr_disk pr_map].
Ltac incs := let H := fresh in intros ? H; open_names; cbn [In app map fst wholes_of] in H;
  repeat (destruct H as [<-|H]; [solve [mem]|]); now destruct H.
Ltac bundles := let n := fresh in let H := fresh in intros n H; cbn [In app map fst] in H;
  repeat (destruct H as [<-|H]; [cbn [bundle N NT P PT with_hash nm_rate nm_key nm_hash]; solve [incs]|]); now destruct H.
Ltac wsolve := apply writes_wholes; [repeat (apply Forall_cons; [value|]); apply Forall_nil | repeat (apply Forall_cons; [reflexivity|]); apply Forall_nil | incs | bundles].
Ltac step_by l t R := refine (ok_guarded _ _ R (wholes_of l ++ t) _ _ _ _ _); [reflexivity | wsolve | mem | cbn [bundle N NT P PT with_hash nm_rate nm_key nm_hash]; incs |].

Lemma base_parts : construct_text data = Some (bi_text b) /\ construct_bwt (bi_text b) sa = Some (bi_bwt_text b) /\
  construct_bwt_runs (bi_bwt_text b) sa = Some rn /\ construct_alphabet (bi_bwt_text b) = bi_alpha b /\
  construct_bwt_rle (bi_alpha b) (bi_bwt_text b) = Some (bi_bwt_rle b).
Proof.
  unfold construct_base in HB. apply bind_Some in HB as (t & E1 & H). apply bind_Some in H as (w & E2 & H).
  apply bind_Some in H as (r & E3 & H). cbv zeta in H. apply bind_Some in H as (l & E4 & H). injection H as <-. cbn. auto.
Qed.
Ltac step_as l t R := eapply ok_same; [step_by l t R | incs | incs].
Ltac go := let p := fresh "p" in let IV := fresh "IV" in let HR := fresh "HR" in
  intros p IV HR; rd IV HR; use_eqs; rd IV HR; use_eqs; wr (inv_map p IV); try reflexivity.

Lemma ok_text : ok (step_text data) [] [N FText].
Proof. destruct base_parts as (E & _). unfold step_text. step_as [(N FText, ItInts (bi_text b))] (@nil (name * content)) (@nil name). go. Qed.
Lemma ok_sa sort : sort (bi_text b) = sa -> ok (step_sa sort) [N FText] [N FSa].
Proof. intros HS. unfold step_sa. step_as [(N FSa, ItInts sa)] (@nil (name * content)) [N FText]. go. now rewrite HS. Qed.
Lemma ok_bwt : ok step_bwt [N FText; N FSa] [N FBwt].
Proof. destruct base_parts as (_ & E & _). unfold step_bwt. step_as [(N FBwt, ItInts (bi_bwt_text b))] (@nil (name * content)) [N FText; N FSa]. go. Qed.
Lemma ok_runs : ok step_runs [N FBwt; N FSa] run_names.
Proof.
  destruct base_parts as (_ & _ & E & _). unfold step_runs.
  step_as [(N FLastPos, ItInts (br_last_text rn)); (N FLast, ItInts (br_last rn)); (N FFirstPos, ItInts (br_first_text rn)); (N FFirst, ItInts (br_first rn))]
    [(N FLastPos, Torn); (N FLast, Torn); (N FFirstPos, Torn); (N FFirst, Torn)] [N FBwt; N FSa].
  unfold put_runs. go.
Qed.
Lemma ok_alphabet : ok step_alphabet [N FBwt] [N FAlpha].
Proof. destruct base_parts as (_ & _ & _ & E & _). unfold step_alphabet. step_as [(N FAlpha, ItAlpha (bi_alpha b))] (@nil (name * content)) [N FBwt]. go. now rewrite E. Qed.
Lemma ok_rle : ok step_rle [N FBwt; N FAlpha] [N FRle].
Proof. destruct base_parts as (_ & _ & _ & _ & E). unfold step_rle. step_as [(N FRle, ItRle (bi_bwt_rle b))] (@nil (name * content)) [N FBwt; N FAlpha]. go. Qed.

(** Bit vectors *)
Lemma sup_bundle r k sp : bundle dens (mk_name r k (Some (TySup sp))) = [].
Proof. destruct r, k; reflexivity. Qed.
Lemma ok_bv c r k src size m vs l : bits sa b dens g r k = Some vs ->
  bundle dens (mk_name r k (Some (TyBv c))) = bv_names r k c -> plain src = true -> plain size = true ->
  ID src = Some (ItInts m) -> ID size = Some (ItInts l) -> construct_bit_vector m (List.length l) false = Some vs ->
  ok (step_bv c (mk_name r k None) src size) [src; size] (bv_names r k c).
Proof.
  intros HV HBd P1 P2 H1 H2 E. unfold step_bv, with_hash. cbn [nm_rate nm_key].
  eapply ok_same; [refine (ok_guarded (mk_name r k (Some (TyBv c))) _ [src; size] (wholes_of [(mk_name r k (Some (TySup (SupSelect c))), ItSup (SupSelect c) vs);
    (mk_name r k (Some (TySup (SupRank c true))), ItSup (SupRank c true) vs); (mk_name r k (Some (TyBv c)), ItBv c vs)] ++ (@nil (name * content))) _ _ _ _ _)
    | incs | incs].
  - reflexivity.
  - apply writes_wholes.
    + repeat (apply Forall_cons; [unfold ideal; cbn [nm_hash nm_rate nm_key]; rewrite HV; reflexivity|]). apply Forall_nil.
    + apply Forall_nil.
    + incs.
    + intros n [<-|[<-|[<-|[]]]]; cbn [fst]; rewrite ?sup_bundle, ?HBd; [intros ? [] | intros ? [] | incs].
  - mem.
  - rewrite HBd. incs.
  - intros p IV HR. rewrite (buf_ok p size l (inv_ready p IV) P2), (buf_ok p src m (inv_ready p IV) P1) by (auto; apply HR; mem). cbn [bind]. rewrite E. cbn [bind].
    unfold put_bv, with_hash. cbn [nm_rate nm_key]. wr (inv_map p IV). reflexivity.
Qed.
Lemma ok_bv0 c r k src size m vs l : bits sa b dens g r k = Some vs ->
  bundle dens (mk_name r k (Some (TyBv c))) = bv0_names r k c -> plain src = true -> plain size = true ->
  ID src = Some (ItInts m) -> ID size = Some (ItInts l) -> construct_bit_vector m (List.length l) true = Some vs ->
  ok (step_bv0 c (mk_name r k None) src size) [src; size] (bv0_names r k c).
Proof.
  intros HV HBd P1 P2 H1 H2 E. unfold step_bv0, with_hash. cbn [nm_rate nm_key].
  eapply ok_same; [refine (ok_guarded (mk_name r k (Some (TyBv c))) _ [src; size] (wholes_of [
    (mk_name r k (Some (TySup (SupRank c false))), ItSup (SupRank c false) vs); (mk_name r k (Some (TyBv c)), ItBv c vs)] ++ (@nil (name * content))) _ _ _ _ _)
    | incs | incs].
  - reflexivity.
  - apply writes_wholes.
    + repeat (apply Forall_cons; [unfold ideal; cbn [nm_hash nm_rate nm_key]; rewrite HV; reflexivity|]). apply Forall_nil.
    + apply Forall_nil.
    + incs.
    + intros n [<-|[<-|[]]]; cbn [fst]; rewrite ?sup_bundle, ?HBd; [intros ? [] | incs].
  - mem.
  - rewrite HBd. incs.
  - intros p IV HR. rewrite (buf_ok p size l (inv_ready p IV) P2), (buf_ok p src m (inv_ready p IV) P1) by (auto; apply HR; mem). cbn [bind]. rewrite E. cbn [bind].
    unfold put_bv0, with_hash. cbn [nm_rate nm_key]. wr (inv_map p IV). reflexivity.
Qed.
Lemma ok_bv_bwt c k m vs : bits sa b dens g None k = Some vs ->
  bundle dens (mk_name None k (Some (TyBv c))) = bv_names None k c -> plain (N k) = true -> ID (N k) = Some (ItInts m) ->
  construct_bit_vector m (List.length (bi_bwt_text b)) false = Some vs ->
  ok (step_bv_bwt c (N k)) [N k; N FBwt] (bv_names None k c).
Proof.
  intros HV HBd HP HI E. assert (O := ok_bv c None k (N k) (N FBwt) m vs (bi_bwt_text b) HV HBd HP eq_refl HI eq_refl E).
  intros p IV HR. unfold step_bv_bwt. rewrite (buf_ok p (N FBwt) (bi_bwt_text b) (inv_ready p IV) eq_refl) by (try reflexivity; apply HR; mem).
  cbn [bind]. apply O; auto.
Qed.
Lemma ok_sorted src out m : plain src = true -> plain out = true -> bundle dens out = [out] -> ID src = Some (ItInts m) ->
  ID out = Some (ItInts (sort_indices m)) -> ok (step_sorted src out) [src] [out].
Proof.
  intros P1 P2 HBd H1 H2. unfold step_sorted.
  eapply ok_same; [refine (ok_guarded out _ [src] (wholes_of [(out, ItInts (sort_indices m))] ++ (@nil (name * content))) _ _ _ _ _) | incs | incs].
  - exact P2.
  - apply writes_wholes; [apply Forall_cons; [exact H2|apply Forall_nil] | apply Forall_nil | incs|].
    intros n [<-|[]]. cbn [fst]. rewrite HBd. incs.
  - mem.
  - rewrite HBd. incs.
  - intros p IV HR. rewrite (load_ok p src m (inv_ready p IV) P1) by (auto; apply HR; mem). cbn [bind]. wr (inv_map p IV). now rewrite put_plain by (auto; apply IV).
Qed.

(** r_index.h, sr_index.h *)
Ltac next H := eapply oks_step; [apply H | incs |].
Ltac last_step := apply oks_nil.
Ltac tot H := let x := fresh "y" in destruct H as [x ?]; dpair x.
Lemma links_fst {m f x y} : construct_links m f = Some (x, y) -> x = sort_indices m.
Proof. unfold construct_links. intros H. apply bind_Some in H as (l & _ & H). congruence. Qed.
Lemma lb_sorted x y : v_lb b = Some (x, y) -> x = sort_indices (br_first_text rn).
Proof. apply links_fst. Qed.
Lemma ok_links_backward : ok step_links_backward [N FFirstPos] [N FFirstLinks; N FFirstSorted].
Proof.
  destruct (total_lb data sa b dens g HB HT 0) as ([[x y] E] & _). pose proof (lb_sorted _ _ E) as ->. unfold step_links_backward.
  step_as [(N FFirstLinks, ItInts y); (N FFirstSorted, ItInts (sort_indices (br_first_text rn)))] (@nil (name * content)) [N FFirstPos].
  unfold v_lb in E. go.
Qed.
Lemma ok_subsamples_backward s : ok (step_subsamples_backward s) [N FLastPos; N FLastSorted; N FFirstLinks] [P s FLastIdx; P s FLastPos].
Proof.
  destruct (total_lb data sa b dens g HB HT s) as ([[x y] E] & [[i l] E2] & _). unfold step_subsamples_backward.
  step_as [(P s FLastPos, ItInts l); (P s FLastIdx, ItInts i)] (@nil (name * content)) [N FLastPos; N FLastSorted; N FFirstLinks].
  assert (E3 : subsamples_of s (sort_indices (br_last_text rn)) (br_last_text rn) y = Some (i, l)).
  { unfold v_sb in E2. rewrite E in E2. exact E2. }
  go.
Qed.
Lemma ok_submarks_backward s : ok (step_submarks_backward s) [P s FLastIdx; N FFirst; N FFirstPos] [P s FFirstLinks; P s FFirstByLast].
Proof.
  destruct (total_lb data sa b dens g HB HT s) as (_ & [[i l] E] & [[m k] E2] & _). unfold step_submarks_backward.
  step_as [(P s FFirstLinks, ItInts k); (P s FFirstByLast, ItInts m)] (@nil (name * content)) [P s FLastIdx; N FFirst; N FFirstPos].
  assert (E3 := E2). unfold v_mb in E3. rewrite E in E3. cbn [bind] in E3. go.
Qed.
Lemma ok_validity s : ok (step_validity s) [N FFirstPos; N FFirstSorted; P s FFirstByLast] [P s FFirstValid; P s FFirstArea].
Proof.
  destruct (total_lb data sa b dens g HB HT s) as ([[x y] E] & _ & [[m k] E1] & [[v a] E2] & _). pose proof (lb_sorted _ _ E) as ->. unfold step_validity, put_two.
  step_as [(P s FFirstArea, ItInts a); (P s FFirstValid, ItInts v)] [(P s FFirstArea, Torn); (P s FFirstValid, Torn)] [N FFirstPos; N FFirstSorted; P s FFirstByLast].
  assert (E3 := E2). unfold v_vb in E3. rewrite E, E1 in E3. cbn [bind] in E3. go.
Qed.
Lemma ok_rindex tm : oks (rindex_steps tm) base_names (rindex_names (t_marks tm)).
Proof.
  destruct (total_fp data sa b dens g HB HT) as [v E].
  unfold rindex_steps. eapply oks_same.
  - next ok_links_backward. next (ok_bv_bwt (t_marks tm) FFirstPos (br_first_text rn) v E eq_refl eq_refl eq_refl E). last_step.
  - incs.
  - incs.
Qed.
Ltac bv_side F E := first [reflexivity | value | exact F | cbn [bits ints] in F; rewrite ?E in F; exact F].
Lemma ok_sri tm s : oks (sri_steps tm s) (base_names ++ rindex_names (t_marks tm)) (sri_names s tm).
Proof.
  destruct (total_lb data sa b dens g HB HT s) as (_ & [[i l] E1] & [[m k] E2] & _ & [v1 F1] & [v2 F2] & _).
  unfold sri_steps. eapply oks_same.
  - next (ok_sorted (N FLastPos) (N FLastSorted) (br_last_text rn) eq_refl eq_refl eq_refl eq_refl eq_refl).
    next (ok_subsamples_backward s).
    eapply oks_step; [apply (ok_bv (t_idx tm) (Some s) FLastIdx (P s FLastIdx) (N FLast) i v1 (br_last rn)); bv_side F1 E1 | incs |].
    next (ok_submarks_backward s).
    eapply oks_step; [apply (ok_bv (t_marks tm) (Some s) FFirstByLast (P s FFirstByLast) (N FBwt) m v2 (bi_bwt_text b)); bv_side F2 E2 | incs |].
    last_step.
  - incs.
  - incs.
Qed.
Lemma ok_sri_valid tm s : oks (sri_valid_steps tm s) (base_names ++ rindex_names (t_marks tm) ++ sri_names s tm) (sri_valid_names s tm).
Proof.
  destruct (total_lb data sa b dens g HB HT s) as (_ & [[i l] E1] & _ & [[v a] E2] & _ & _ & [v1 F1]).
  unfold sri_valid_steps. eapply oks_same.
  - next (ok_validity s).
    eapply oks_step; [apply (ok_bv0 (t_valid tm) (Some s) FFirstValid (P s FFirstValid) (P s FLastPos) v v1 l); try bv_side F1 E2 | incs |].
    + cbn [bits ints] in F1. rewrite E1, E2 in F1. exact F1.
    + last_step.
  - incs.
  - incs.
Qed.

(** r_csa.h, sr_csa.h *)
Lemma ok_psi : ok (step_psi dens) [N FAlpha; N FRle] [N FPsi; NT FPsi (TyPsi dens)].
Proof.
  destruct (total_psi data sa b dens HB HT) as (psi & pc & E1 & E2 & E3). unfold step_psi.
  step_as [(NT FPsi (TyPsi dens), ItPsi pc); (N FPsi, ItInts psi)] (@nil (name * content)) [N FAlpha; N FRle].
  assert (E4 := E1). unfold v_psi in E4. go.
Qed.
Lemma load_lf_psi_ok p pc : inv p -> wholes p [N FRle; N FAlpha; NT FPsi (TyPsi dens); N FFirst; N FLast; N FLastPos] -> v_pc b dens = Some pc ->
  load_lf_psi dens p = Some (mk_base_items [] [] (mk_bwt_runs (br_first rn) [] (br_last rn) (br_last_text rn)) (bi_alpha b) (bi_bwt_rle b), pc).
Proof. intros IV HR E. unfold load_lf_psi. rd IV HR. reflexivity. Qed.
Lemma lf_sorted x y : v_lf b dens = Some (x, y) -> x = sort_indices (br_last_text rn).
Proof.
  unfold v_lf. intros H. apply bind_Some in H as (pc & _ & H). unfold construct_links_forward_bwt in H. apply bind_Some in H as (n & _ & H).
  exact (links_fst H).
Qed.
Lemma ok_links_forward : ok (step_links_forward dens) [N FRle; N FAlpha; NT FPsi (TyPsi dens); N FFirst; N FLast; N FLastPos] [N FLastLinks; N FLastSorted].
Proof.
  destruct (total_lf data sa b dens g HB HT 0) as ([pc E0] & [[x y] E] & _). pose proof (lf_sorted _ _ E) as ->. unfold step_links_forward.
  step_as [(N FLastLinks, ItInts y); (N FLastSorted, ItInts (sort_indices (br_last_text rn)))] (@nil (name * content))
    [N FRle; N FAlpha; NT FPsi (TyPsi dens); N FFirst; N FLast; N FLastPos].
  intros p IV HR. rewrite (load_lf_psi_ok p pc IV HR E0). cbn [bind].
  assert (E1 := E). unfold v_lf in E1. rewrite E0 in E1. cbn [bind] in E1.
  match goal with |- context [construct_links_forward_bwt ?x ?y] => change (construct_links_forward_bwt x y) with (construct_links_forward_bwt b y) end.
  rewrite E1. cbn [bind]. wr (inv_map p IV). reflexivity.
Qed.
Lemma ok_rcsa tm : t_dens tm = dens -> oks (rcsa_steps tm) base_names (rcsa_names (t_marks tm)).
Proof.
  intros HD. destruct (total_lf data sa b dens g HB HT 0) as (_ & _ & _ & _ & _ & _ & [v F] & _). unfold rcsa_steps. rewrite HD. eapply oks_same.
  - next ok_psi. next ok_links_forward.
    eapply oks_step; [apply (ok_bv_bwt (t_marks tm) FLastPos (br_last_text rn) v); try reflexivity; exact F | incs |]. last_step.
  - incs.
  - incs.
Qed.
Lemma ok_subsamples_forward s : ok (step_subsamples_forward s) [N FFirstPos; N FFirstSorted; N FLastLinks] [P s FFirstIdx; P s FFirstPos].
Proof.
  destruct (total_lf data sa b dens g HB HT s) as (_ & [[x y] E] & [[i l] E2] & _). unfold step_subsamples_forward.
  step_as [(P s FFirstPos, ItInts l); (P s FFirstIdx, ItInts i)] (@nil (name * content)) [N FFirstPos; N FFirstSorted; N FLastLinks].
  assert (E3 : subsamples_of s (rev (sort_indices (br_first_text rn))) (br_first_text rn) y = Some (i, l)).
  { unfold v_sf in E2. rewrite E in E2. exact E2. }
  go.
Qed.
Lemma ok_submarks_forward s : ok (step_submarks_forward dens s)
  [N FRle; N FAlpha; NT FPsi (TyPsi dens); N FFirst; N FLast; N FLastPos; P s FFirstIdx] [P s FLastLinks; P s FLastByFirst].
Proof.
  destruct (total_lf data sa b dens g HB HT s) as ([pc E0] & _ & [[i l] E] & [[m k] E2] & _). unfold step_submarks_forward.
  step_as [(P s FLastLinks, ItInts k); (P s FLastByFirst, ItInts m)] (@nil (name * content))
    [N FRle; N FAlpha; NT FPsi (TyPsi dens); N FFirst; N FLast; N FLastPos; P s FFirstIdx].
  intros p IV HR. rd IV HR. rewrite (load_lf_psi_ok p pc IV) by (auto; intros n Hn; apply HR; revert Hn; cbn [In]; tauto). cbn [bind].
  assert (E1 := E2). unfold v_mf in E1. rewrite E0, E in E1. cbn [bind] in E1. apply bind_Some in E1 as (t & E3 & E4).
  match goal with |- context [sample_to_mark_bwt ?x ?y ?z] => change (sample_to_mark_bwt x y z) with (sample_to_mark_bwt b y z) end.
  rewrite E3. cbn [bind]. rd IV HR. rewrite E4. cbn [bind]. wr (inv_map p IV). reflexivity.
Qed.
Lemma ok_bwt_size : ok step_bwt_size [N FBwt] [].
Proof.
  intros p IV HR. unfold step_bwt_size. rd IV HR. split; [|reflexivity]. exists p, []. repeat split; auto; try apply IV. intros n [].
Qed.
Lemma ok_common tm s : t_dens tm = dens -> oks (srcsa_common_steps tm s) (base_names ++ rcsa_names (t_marks tm)) (common_names s tm).
Proof.
  intros HD. destruct (total_lf data sa b dens g HB HT s) as (_ & _ & _ & [[m k] E2] & _ & _ & _ & [v F] & _). unfold srcsa_common_steps. rewrite HD. eapply oks_same.
  - next ok_bwt_size. next (ok_sorted (N FFirstPos) (N FFirstSorted) (br_first_text rn) eq_refl eq_refl eq_refl eq_refl eq_refl).
    next (ok_subsamples_forward s). next (ok_submarks_forward s).
    eapply oks_step; [apply (ok_bv (t_marks tm) (Some s) FLastByFirst (P s FLastByFirst) (N FBwt) m v (bi_bwt_text b)); bv_side F E2 | incs |]. last_step.
  - incs.
  - incs.
Qed.
Lemma ok_positions s : ok (step_positions s) [N FFirst; P s FFirstIdx] [P s FFirst].
Proof.
  destruct (total_lf data sa b dens g HB HT s) as (_ & _ & [[i l] E] & _ & _ & [m E2] & _). unfold step_positions.
  step_as [(P s FFirst, ItInts m)] (@nil (name * content)) [N FFirst; P s FFirstIdx].
  assert (E3 := E2). unfold v_pos in E3. rewrite E in E3. cbn [bind] in E3. go.
Qed.
Lemma ok_srcsa tm s : oks (srcsa_steps tm s) (base_names ++ common_names s tm) (srcsa_names s tm).
Proof.
  destruct (total_lf data sa b dens g HB HT s) as (_ & _ & _ & _ & _ & [m E2] & _ & _ & [v F] & _). unfold srcsa_steps. eapply oks_same.
  - next ok_bwt_size. next (ok_positions s).
    eapply oks_step; [apply (ok_bv (t_idx tm) (Some s) FFirst (P s FFirst) (N FBwt) m v (bi_bwt_text b)); bv_side F E2 | incs |]. last_step.
  - incs.
  - incs.
Qed.
Lemma ok_sorted_alphabet : ok (step_sorted_alphabet dens) [NT FPsi (TyPsi dens); N FFirst] [N FFirstIdxAlpha; N FCum].
Proof.
  destruct (total_lf data sa b dens g HB HT 0) as ([pc E0] & _). destruct (total_al data sa b dens g HB HT 0) as ([[i c] E] & _). unfold step_sorted_alphabet, put_two.
  step_as [(N FCum, ItInts c); (N FFirstIdxAlpha, ItInts i)] [(N FCum, Torn); (N FFirstIdxAlpha, Torn)] [NT FPsi (TyPsi dens); N FFirst].
  assert (E3 := E). unfold v_al in E3. rewrite E0 in E3. cbn [bind] in E3. go.
Qed.
Ltac goods := unfold good; cbn [wholes_of map app]; repeat (apply Forall_cons; [unfold entry_ok; cbn [fst snd]; first [exact Logic.I | value]|]); apply Forall_nil.
Lemma ok_subsamples_alphabet s : ok (step_subsamples_alphabet s) [N FFirstIdxAlpha; P s FFirstIdx; P s FFirstPos; P s FLastLinks]
  [P s FFirstPosAlpha; P s FFirstIdxAlpha; P s FLastLinksAlpha].
Proof.
  destruct (total_lf data sa b dens g HB HT s) as (_ & _ & [[i l] E1] & [[m k] E2] & _).
  destruct (total_al data sa b dens g HB HT s) as ([[a c] E] & [[[x y] z] E3] & _). unfold step_subsamples_alphabet, put_two.
  eapply ok_same; [refine (ok_guarded _ _ [N FFirstIdxAlpha; P s FFirstIdx; P s FFirstPos; P s FLastLinks]
    ((wholes_of [(P s FLastLinksAlpha, ItInts z)] ++ [(P s FLastLinksAlpha, Torn)]) ++ (wholes_of [(P s FFirstIdxAlpha, ItInts y); (P s FFirstPosAlpha, ItInts x)]
    ++ [(P s FFirstIdxAlpha, Torn); (P s FFirstPosAlpha, Torn)])) _ _ _ _ _) | incs | incs].
  - reflexivity.
  - apply writes_mk; [goods | apply final_app; apply final_wholes; incs | bundles].
  - mem.
  - cbn [bundle P]. incs.
  - assert (E4 := E3). unfold v_sal in E4. rewrite E, E1, E2 in E4. cbn [bind] in E4. go.
Qed.
Lemma ok_slim tm s : t_dens tm = dens -> oks (slim_steps tm s) (base_names ++ rcsa_names (t_marks tm) ++ common_names s tm) (slim_names s tm).
Proof.
  intros HD. destruct (total_al data sa b dens g HB HT s) as (_ & [[[x y] z] E3] & [v F]). unfold slim_steps. rewrite HD. eapply oks_same.
  - next ok_sorted_alphabet. next (ok_subsamples_alphabet s).
    eapply oks_step; [apply (ok_bv (t_idx tm) (Some s) FFirstIdxAlpha (P s FFirstIdxAlpha) (N FFirst) y v (br_first rn)); bv_side F E3 | incs |]. last_step.
  - incs.
  - incs.
Qed.
Lemma ok_validity_backward s : ok (step_validity_backward s) [N FLastPos; N FLastSorted; P s FLastByFirst] [P s FLastValid; P s FLastArea].
Proof.
  destruct (total_lf data sa b dens g HB HT s) as (_ & [[x y] E] & _ & [[m k] E1] & [[v a] E2] & _). pose proof (lf_sorted _ _ E) as ->. unfold step_validity_backward, put_two.
  step_as [(P s FLastArea, ItInts a); (P s FLastValid, ItInts v)] [(P s FLastArea, Torn); (P s FLastValid, Torn)] [N FLastPos; N FLastSorted; P s FLastByFirst].
  assert (E3 := E2). unfold v_vf in E3. rewrite E, E1 in E3. cbn [bind] in E3. apply bind_Some in E3 as (t & E4 & E5). go.
Qed.
Lemma ok_srcsa_valid tm s : t_dens tm = dens -> oks (srcsa_valid_steps tm s) (base_names ++ rcsa_names (t_marks tm) ++ common_names s tm) (srcsa_valid_names s tm).
Proof.
  intros HD. destruct (total_lf data sa b dens g HB HT s) as (_ & _ & [[i l] E1] & _ & [[v a] E2] & _ & _ & _ & _ & [v1 F1]).
  unfold srcsa_valid_steps. eapply oks_same.
  - next (ok_validity_backward s).
    eapply oks_step; [apply (ok_bv0 (t_valid tm) (Some s) FLastValid (P s FLastValid) (P s FFirstPos) v v1 l); try bv_side F1 E2 | incs |].
    + cbn [bits ints] in F1. rewrite E1, E2 in F1. exact F1.
    + last_step.
  - incs.
  - incs.
Qed.

(** RCSAWithPsiRun, sr_csa_psi.h *)
Lemma ready_more p ws m : ready p -> good ws -> map_ok (mk_proc [] m) -> ready (mk_proc (ws ++ pr_disk p) m).
Proof. intros [G _] GW M. split; [apply Forall_app; auto|exact M]. Qed.
Lemma wholes_more p ws m R : final ws -> wholes p R -> wholes (mk_proc (ws ++ pr_disk p) m) R.
Proof. intros F H n Hn. apply whole_app; auto. Qed.
Lemma ok_psi_runs : ok step_psi_runs [N FAlpha; N FRle; N FFirst; N FFirstPos; N FLast; N FLastPos] [NT FPsiHead TyInts; NT FPsiTail TyInts].
Proof.
  destruct (total_lp data sa b dens g HB HT 0) as ([[h t] E] & _). unfold step_psi_runs.
  assert (E0 := E). unfold v_ht, construct_psi_run_files in E0. cbn [bind] in E0. apply bind_Some in E0 as (h' & E1 & E0). apply bind_Some in E0 as (t' & E2 & E0).
  injection E0 as -> ->.
  eapply ok_same; [refine (ok_guarded _ _ [N FAlpha; N FRle; N FFirst; N FFirstPos; N FLast; N FLastPos]
    ((wholes_of [(NT FPsiTail TyInts, ItInts t)] ++ [(NT FPsiTail TyInts, Torn)]) ++ (wholes_of [(NT FPsiHead TyInts, ItInts h)]
    ++ [(NT FPsiHead TyInts, Torn)])) _ _ _ _ _) | incs | incs].
  - reflexivity.
  - apply writes_mk; [goods | apply final_app; apply final_wholes; incs | bundles].
  - mem.
  - cbn [bundle NT]. incs.
  - intros p IV HR. rd IV HR. unfold psi_runs_part. rd IV HR. rewrite E1. cbn [bind]. wr (inv_map p IV).
    assert (RD := ready_more p (wholes_of [(NT FPsiHead TyInts, ItInts h)] ++ [(NT FPsiHead TyInts, Torn)]) (pr_map p) (inv_ready _ IV) ltac:(goods) (inv_map p IV)).
    assert (HR1 := wholes_more p _ (pr_map p) _ (final_wholes [(NT FPsiHead TyInts, ItInts h)] [(NT FPsiHead TyInts, Torn)] ltac:(incs)) HR).
    cbn [wholes_of map app] in RD, HR1 |- *. rd RD HR1. rewrite E2. cbn [bind]. wr (inv_map p IV). reflexivity.
Qed.
Lemma ok_links_psi : ok step_links_psi [NT FPsiTail TyInts] [NT FPsiTailLinks TyInts].
Proof.
  destruct (total_lp data sa b dens g HB HT 0) as ([[h t] E] & [[x y] E1] & _). unfold step_links_psi.
  step_as [(NT FPsiTailLinks TyInts, ItInts y)] (@nil (name * content)) [NT FPsiTail TyInts].
  assert (E2 := E1). unfold v_lp in E2. rewrite E in E2. cbn [bind] in E2. go.
Qed.
Lemma ok_rcsa_psi tm : t_dens tm = dens -> oks (rcsa_psi_steps tm) base_names (rcsa_psi_names (t_marks tm)).
Proof.
  intros HD. destruct (total_lp data sa b dens g HB HT 0) as ([[h t] E] & _ & _ & _ & _ & _ & [v F] & _). unfold rcsa_psi_steps. rewrite HD. eapply oks_same.
  - next ok_psi. next ok_psi_runs.
    eapply oks_step; [apply (ok_bv (t_marks tm) None FPsiTail (NT FPsiTail TyInts) (N FBwt) t v (bi_bwt_text b)); bv_side F E | incs |].
    next ok_links_psi. last_step.
  - incs.
  - incs.
Qed.

Definition bv_disk (r : option nat) (k : fkey) (c : bvclass) (v : list bool) : list (name * item) :=
  [(mk_name r k (Some (TySup (SupSelect c))), ItSup (SupSelect c) v); (mk_name r k (Some (TySup (SupRank c true))), ItSup (SupRank c true) v);
   (mk_name r k (Some (TyBv c)), ItBv c v)].
Lemma bv_disk_ok r k c v : bits sa b dens g r k = Some v -> Forall (fun '(n, it) => ID n = Some it) (bv_disk r k c v).
Proof. intros H. unfold bv_disk. repeat (apply Forall_cons; [unfold ideal; cbn [nm_hash nm_rate nm_key]; rewrite H; reflexivity|]). apply Forall_nil. Qed.
Definition bv0_disk (r : option nat) (k : fkey) (c : bvclass) (v : list bool) : list (name * item) :=
  [(mk_name r k (Some (TySup (SupRank c false))), ItSup (SupRank c false) v); (mk_name r k (Some (TyBv c)), ItBv c v)].
Lemma bv0_disk_ok r k c v : bits sa b dens g r k = Some v -> Forall (fun '(n, it) => ID n = Some it) (bv0_disk r k c v).
Proof. intros H. unfold bv0_disk. repeat (apply Forall_cons; [unfold ideal; cbn [nm_hash nm_rate nm_key]; rewrite H; reflexivity|]). apply Forall_nil. Qed.
Lemma ok_submarks_psi c s : ok (step_submarks_psi c s) [PT s FPsiTail TyInts; N FBwt] (bv_names (Some s) FPsiTail c).
Proof.
  destruct (total_lp data sa b dens g HB HT s) as (_ & _ & _ & [[m k] E] & _ & _ & _ & [v F] & _). unfold step_submarks_psi.
  eapply ok_same; [refine (ok_guarded _ _ [PT s FPsiTail TyInts; N FBwt] (wholes_of (bv_disk (Some s) FPsiTail c v) ++ []) _ _ _ _ _) | incs | incs].
  - reflexivity.
  - apply writes_wholes; [now apply bv_disk_ok | apply Forall_nil | incs | bundles].
  - mem.
  - cbn [bundle PT]. incs.
  - intros p IV HR. rewrite (exists_whole p (PT s FPsiTail TyInts)) by (first [apply IV | reflexivity | apply HR; mem]).
    rd IV HR. cbn [bits ints] in F. rewrite E in F. cbn [p1 option_map fst bind] in F. rewrite F. cbn [bind]. unfold put_bv, with_hash. cbn [nm_rate nm_key P]. wr (inv_map p IV). reflexivity.
Qed.
Definition step_sub_psi (c : bvclass) (s : nat) : step := fun p => bind (step_subsamples_psi s p) (step_submarks_psi c s).
Definition sub_psi_names (c : bvclass) (s : nat) : list name :=
  [PT s FPsiHead TyInts; PT s FPsiHeadIdx TyInts; PT s FPsiTail TyInts] ++ bv_names (Some s) FPsiTail c.
Lemma find_other d n m c : m <> n -> d_find ((m, c) :: d) n = d_find d n.
Proof. intros H. cbn. destruct (name_eq_dec m n); congruence. Qed.
Lemma resolve_reg d s m : resolve (mk_proc d ((Some s, FPsiHeadIdx) :: m)) (P s FPsiHeadIdx) = PT s FPsiHeadIdx TyInts.
Proof. unfold resolve. cbn. unfold same_key at 1. cbn [fst snd]. now rewrite Nat.eqb_refl. Qed.
Lemma ok_sub_psi c s : ok (step_sub_psi c s) [NT FPsiHead TyInts; N FPsiHeadSorted; NT FPsiTailLinks TyInts; NT FPsiTail TyInts; N FBwt] (sub_psi_names c s).
Proof.
  destruct (total_lp data sa b dens g HB HT s) as ([[h t] E0] & [[x y] E1] & [[i l] E2] & [[m k] E] & _ & _ & _ & [v F] & _).
  assert (E3 : subsamples_of s (rev (sort_indices h)) h y = Some (i, l)).
  { assert (A := E2). unfold v_sp in A. rewrite E0, E1 in A. exact A. }
  assert (E4 : exists tm, sample_to_mark_psi (List.length h) i = Some tm /\ mmap (nth_error t) tm = Some m).
  { assert (A := E). unfold v_mp in A. rewrite E0, E2 in A. cbn [bind] in A. apply bind_Some in A as (tm & A1 & A2). unfold construct_submarks_of in A2.
    apply bind_Some in A2 as (sub & A2 & A3). exists tm. split; [exact A1|]. congruence. }
  destruct E4 as (tm & E4 & E5).
  intros p IV HR. destruct (file_exists p (PT s FPsiHead TyInts)) eqn:X.
  - assert (EQ : step_sub_psi c s p = step_submarks_psi c s p) by (unfold step_sub_psi, step_subsamples_psi, guarded at 1; now rewrite X).
    rewrite EQ. assert (CL : forall n, In n [PT s FPsiHead TyInts; PT s FPsiHeadIdx TyInts; PT s FPsiTail TyInts] -> whole (pr_disk p) n).
    { intros n Hn. apply (inv_closed p IV (PT s FPsiHead TyInts)); [|exact Hn]. apply exists_present in X; auto. apply IV. }
    assert (HR2 : wholes p [PT s FPsiTail TyInts; N FBwt]).
    { intros n [<-|[<-|[]]]; [apply CL; mem|apply HR; mem]. }
    destruct (ok_submarks_psi c s p IV HR2) as [(p' & ws & E6 & D & IV' & HW & K) ID']. split.
    + exists p', ws. repeat split; auto; try apply IV'. unfold sub_psi_names. intros n Hn. apply in_app_or in Hn as [Hn|Hn]; auto.
    + intros HW'. apply ID'. intros n Hn. apply HW'. unfold sub_psi_names. apply in_or_app. now right.
  - split; [|intros HW; rewrite (exists_whole p (PT s FPsiHead TyInts)) in X; [discriminate|apply IV|reflexivity|apply HW; mem]].
    unfold step_sub_psi, step_subsamples_psi, guarded at 1. rewrite X. rd IV HR. rewrite E3. cbn [bind]. unfold put_registered. cbn [with_hash nm_rate nm_key P].
    set (M := (Some s, FPsiHeadIdx) :: pr_map p).
    assert (MO : forall d, map_ok (mk_proc d M)).
    { intros d r q [H|H]; [now inversion H|]. exact (inv_map p IV r q H). }
    rewrite put_plain by (try reflexivity; apply MO). cbn [pr_disk pr_map].
    set (w1 := wholes_of [(PT s FPsiHead TyInts, ItInts l); (PT s FPsiHeadIdx TyInts, ItInts i)] ++ []).
    match goal with |- context [mk_proc (?a :: ?b' :: pr_disk p) M] => change (a :: b' :: pr_disk p) with (w1 ++ pr_disk p) end.
    assert (F1 : final w1) by (apply final_wholes; incs). assert (G1 : good w1) by goods.
    destruct (file_exists p (PT s FPsiTail TyInts)) eqn:Y.
    + (* the list of the marks is there *)
      assert (TW : whole (pr_disk p) (PT s FPsiTail TyInts)).
      { apply (inv_closed p IV (PT s FPsiTail TyInts)); [|mem]. apply exists_present in Y; auto. apply IV. }
      assert (IV1 : inv (mk_proc (w1 ++ pr_disk p) M)).
      { eapply (inv_writes p _ w1 [PT s FPsiTail TyInts]); [exact IV| |apply writes_mk; [exact G1|exact F1|bundles]|reflexivity|apply MO]. intros n [<-|[]]. exact TW. }
      assert (HR2 : wholes (mk_proc (w1 ++ pr_disk p) M) [PT s FPsiTail TyInts; N FBwt]).
      { apply wholes_more; [exact F1|]. intros n [<-|[<-|[]]]; [exact TW|apply HR; mem]. }
      destruct (ok_submarks_psi c s _ IV1 HR2) as [(p' & ws & E6 & D & IV' & HW & K) _].
      exists p', (ws ++ w1). split; [exact E6|]. split; [rewrite D; cbn [pr_disk]; apply app_assoc|]. split; [exact IV'|]. split.
      * intros n Hn. apply in_app_or in Hn as [Hn|Hn]; [|auto]. apply K. cbn [pr_disk]. destruct Hn as [<-|[<-|[<-|[]]]]; [apply whole_app_l; [exact F1|mem]..|].
        apply whole_app; auto.
      * intros n Hn. apply K. apply whole_app; auto.
    + (* neither the list of the marks nor their bit vector *)
      assert (YB : file_exists p (PT s FPsiTail (TyBv c)) = false).
      { destruct (file_exists p (PT s FPsiTail (TyBv c))) eqn:Z; [|reflexivity]. exfalso. apply exists_present in Z; [|apply IV|reflexivity].
        assert (W : whole (pr_disk p) (PT s FPsiTail TyInts)) by (apply (inv_closed p IV _ Z); mem).
        rewrite (exists_whole p (PT s FPsiTail TyInts)) in Y; [discriminate|apply IV|reflexivity|exact W]. }
      unfold step_submarks_psi, guarded.
      assert (O : forall ty, file_exists (mk_proc (w1 ++ pr_disk p) M) (PT s FPsiTail ty) = file_exists p (PT s FPsiTail ty)).
      { intros ty. unfold file_exists, look_file, resolve. cbn [nm_hash PT pr_disk w1 wholes_of map app]. rewrite !find_other by discriminate. reflexivity. }
      rewrite !O, Y, YB.
      assert (LI : load_ints (mk_proc (w1 ++ pr_disk p) M) (P s FPsiHeadIdx) = Some i).
      { unfold load_ints, look_file, M. rewrite resolve_reg. cbn [pr_disk w1 wholes_of map app].
        rewrite find_other by discriminate. cbn [d_find]. destruct (name_eq_dec _ _) as [_|Q]; [reflexivity|]. exfalso. apply Q. reflexivity. }
      rewrite LI. cbn [bind].
      assert (RD := ready_more p w1 M (inv_ready _ IV) G1 (MO [])). assert (HR1 := wholes_more p w1 M _ F1 HR).
      rd RD HR1. rewrite E4. cbn [bind]. rd RD HR1. rewrite E5. cbn [bind].
      rewrite put_plain by (try reflexivity; apply MO). cbn [pr_disk pr_map].
      assert (RD2 := ready_more _ [(PT s FPsiTail TyInts, Whole (ItInts m))] M RD ltac:(goods) (MO [])). cbn [pr_disk app] in RD2.
      assert (HR3 := wholes_more _ [(PT s FPsiTail TyInts, Whole (ItInts m))] M _ (final_wholes [(PT s FPsiTail TyInts, ItInts m)] [] ltac:(incs)) HR1). cbn [pr_disk app] in HR3.
      rd RD2 HR3. assert (F' := F). cbn [bits ints] in F'. rewrite E in F'. cbn [p1 option_map fst bind] in F'. rewrite F'. cbn [bind]. unfold put_bv, with_hash. cbn [nm_rate nm_key P].
      repeat rewrite put_plain by (try reflexivity; apply MO). cbn [pr_disk pr_map].
      set (ws := wholes_of (bv_disk (Some s) FPsiTail c v ++ [(PT s FPsiTail TyInts, ItInts m); (PT s FPsiHead TyInts, ItInts l); (PT s FPsiHeadIdx TyInts, ItInts i)]) ++ []).
      eexists. exists ws. split; [reflexivity|]. split; [reflexivity|].
      assert (FW : final ws) by (apply final_wholes; incs).
      split; [|split].
      * eapply (inv_writes p _ ws []); [exact IV|intros ? []| |reflexivity|apply MO].
        apply writes_mk; [|exact FW|].
        -- unfold ws. rewrite app_nil_r. apply Forall_map. apply Forall_app. split.
           ++ eapply Forall_impl; [|apply bv_disk_ok; exact F]. intros [? ?] Q. exact Q.
           ++ repeat (apply Forall_cons; [unfold entry_ok; cbn [fst snd]; value|]). apply Forall_nil.
        -- unfold ws. bundles.
      * intros n Hn. change (whole (ws ++ pr_disk p) n). apply whole_app_l; [exact FW|]. revert n Hn. unfold ws. cbn [wholes_of bv_disk map app fst]. unfold sub_psi_names. incs.
      * intros n Hn. change (whole (ws ++ pr_disk p) n). now apply whole_app.
Qed.

Lemma ok_sublinks_psi s : ok (step_sublinks_psi s) [PT s FPsiTail TyInts] [PT s FPsiTailLinks TyInts].
Proof.
  destruct (total_lp data sa b dens g HB HT s) as ([[h t] E0] & _ & [[i l] E1] & [[m k] E] & _). unfold step_sublinks_psi.
  assert (E2 : k = sort_indices m).
  { assert (A := E). unfold v_mp in A. rewrite E0, E1 in A. cbn [bind] in A. apply bind_Some in A as (tm & _ & A). unfold construct_submarks_of in A.
    apply bind_Some in A as (sub & _ & A). congruence. }
  subst k. step_as [(PT s FPsiTailLinks TyInts, ItInts (sort_indices m))] (@nil (name * content)) [PT s FPsiTail TyInts]. go.
Qed.
Lemma ok_cumulative_psi : ok (step_cumulative_psi dens) [NT FPsi (TyPsi dens)] [NT FPsiCum TyInts].
Proof.
  destruct (total_psi data sa b dens HB HT) as (psi & pc & _ & _ & E1).
  destruct (total_lp data sa b dens g HB HT 0) as (_ & _ & _ & _ & _ & [cum E2] & _). unfold step_cumulative_psi.
  step_as [(NT FPsiCum TyInts, ItInts cum)] (@nil (name * content)) [NT FPsi (TyPsi dens)].
  assert (E3 := E2). unfold v_cum in E3. rewrite E1 in E3. cbn [bind] in E3. apply bind_Some in E3 as (counts & E4 & E5). injection E5 as <-. go.
Qed.
Lemma ok_srpsi tm s : t_dens tm = dens -> oks (srcsa_psi_steps tm s) (base_names ++ rcsa_psi_names (t_marks tm)) (srpsi_names s tm).
Proof.
  intros HD. destruct (total_lp data sa b dens g HB HT s) as ([[h t] E0] & _ & [[i l] E1] & _ & _ & _ & _ & _ & [v F] & _).
  unfold srcsa_psi_steps. rewrite HD.
  eapply oks_same.
  - eapply oks_step; [apply (ok_sorted (NT FPsiHead TyInts) (N FPsiHeadSorted) h); first [reflexivity | value] | incs |].
    eapply oks_pair; [apply (ok_sub_psi (t_marks tm) s) | unfold sub_psi_names; incs |].
    eapply oks_step; [apply (ok_sublinks_psi s) | unfold sub_psi_names; incs |].
    eapply oks_step; [apply (ok_bv (t_idx tm) (Some s) FPsiHeadIdx (PT s FPsiHeadIdx TyInts) (NT FPsiHead TyInts) i v h); try bv_side F E1 | unfold sub_psi_names; incs |].
    + cbn [bits ints] in F. rewrite E0, E1 in F. exact F.
    + eapply oks_step; [apply ok_cumulative_psi | unfold sub_psi_names; incs |]. last_step.
  - unfold sub_psi_names. incs.
  - unfold sub_psi_names. incs.
Qed.
Lemma ok_validity_psi c s : ok (step_validity_psi c s) [NT FPsiTail TyInts; PT s FPsiTail TyInts] (psi_valid_names s c).
Proof.
  destruct (total_lp data sa b dens g HB HT s) as ([[h t] E0] & _ & _ & [[m k] E1] & [[v a] E2] & _ & _ & _ & _ & [bv F]).
  assert (E3 : construct_validity_backward (std_sort Nat.ltb t) m = Some (v, a)).
  { assert (A := E2). unfold v_vp in A. rewrite E0, E1 in A. exact A. }
  unfold step_validity_psi. apply does_guarded; [reflexivity | unfold psi_valid_names; mem | cbn [bundle PT]; unfold psi_valid_names; incs |].
  eapply does_sub.
  - eapply (does_seq _ _ _ [PT s FPsiTailArea TyInts; PT s FPsiTailValid TyInts] [PT s FPsiTail TyInts; PT s FPsiTailArea TyInts; PT s FPsiTailValid TyInts]
      (map fst (wholes_of (bv0_disk (Some s) FPsiTailValid c bv) ++ []))).
    + apply ok_does. step_as [(PT s FPsiTailArea TyInts, ItInts a); (PT s FPsiTailValid TyInts, ItInts v)] (@nil (name * content)) [NT FPsiTail TyInts; PT s FPsiTail TyInts].
      go.
    + apply does_writes.
      * apply writes_wholes; [now apply bv0_disk_ok | apply Forall_nil | incs | bundles].
      * intros p IV HR. rd IV HR. assert (F' := F). cbn [bits ints] in F'. rewrite E1, E2 in F'. cbn [p1 p2 option_map fst snd bind] in F'. rewrite F'. cbn [bind].
        unfold put_bv0, with_hash. cbn [nm_rate nm_key P]. wr (inv_map p IV). reflexivity.
    + incs.
  - unfold psi_valid_names. incs.
Qed.
Lemma ok_areas_psi s : ok (step_areas_psi s) [PT s FPsiTailArea TyInts] [].
Proof.
  intros p IV HR. unfold step_areas_psi, guarded. rewrite (exists_whole p (PT s FPsiTailArea TyInts)) by (first [apply IV | reflexivity | apply HR; mem]).
  split; [|reflexivity]. exists p, []. repeat split; auto; try apply IV. intros n [].
Qed.

(** Base items *)
Lemma ok_base_sdsl sort exe : sort (bi_text b) = sa -> oks (base_steps Sdsl sort exe data) [] ([N FText; N FSa] ++ base_names).
Proof.
  intros HS. cbn [base_steps]. eapply oks_same.
  - next ok_text. next (ok_sa sort HS). next ok_bwt. next ok_runs. next ok_alphabet. next ok_rle. last_step.
  - incs.
  - incs.
Qed.
Definition big_names : list name := [N FBigBwt; N FBigSsa; N FBigEsa].
Lemma ok_big_bwt exe : exe data = g -> read_symbols (bg_bwt g) = bi_bwt_text b -> ok (step_big_bwt exe data) [] (N FBwt :: big_names).
Proof.
  intros HE HR0. unfold step_big_bwt, big_names.
  eapply ok_same; [refine (ok_guarded _ _ [] ((wholes_of [(N FBwt, ItInts (bi_bwt_text b))] ++ [(N FBwt, Torn)]) ++ (wholes_of [(N FBigEsa, ItInts (bg_esa g));
    (N FBigSsa, ItInts (bg_ssa g)); (N FBigBwt, ItInts (bg_bwt g))] ++ [])) _ _ _ _ _) | incs | incs].
  - reflexivity.
  - apply writes_mk; [goods | apply final_app; apply final_wholes; incs | bundles].
  - mem.
  - cbn [bundle N]. incs.
  - intros p IV HR. rewrite HE. cbn zeta. wr (inv_map p IV).
    match goal with |- context [buf_ints ?q (N FBigBwt)] => assert (A : buf_ints q (N FBigBwt) = Some (bg_bwt g)) end.
    { apply buf_ok; [|reflexivity| |reflexivity].
      - apply (ready_more p [(N FBigEsa, Whole (ItInts (bg_esa g))); (N FBigSsa, Whole (ItInts (bg_ssa g))); (N FBigBwt, Whole (ItInts (bg_bwt g)))]); [exact (inv_ready _ IV) | goods | exact (inv_map p IV)].
      - exists (ItInts (bg_bwt g)). cbn [pr_disk]. rewrite !find_other by discriminate. cbn [d_find]. destruct (name_eq_dec _ _) as [_|Q]; [reflexivity|]. exfalso. apply Q. reflexivity. }
    rewrite A. cbn [bind]. rewrite HR0. wr (inv_map p IV). reflexivity.
Qed.
Lemma ok_big_runs : construct_big_runs g = rn -> ok step_big_runs big_names run_names.
Proof.
  intros HG. unfold construct_big_runs in HG. destruct (read_runs (List.length (bg_bwt g)) (bg_ssa g)) as [f ft] eqn:E1.
  destruct (read_runs (List.length (bg_bwt g)) (bg_esa g)) as [l lt] eqn:E2.
  unfold step_big_runs.
  eapply ok_same; [refine (ok_guarded _ _ big_names ((wholes_of [(N FLastPos, ItInts (br_last_text rn)); (N FLast, ItInts (br_last rn))] ++ [(N FLastPos, Torn); (N FLast, Torn)])
    ++ (wholes_of [(N FFirstPos, ItInts (br_first_text rn)); (N FFirst, ItInts (br_first rn))] ++ [(N FFirstPos, Torn); (N FFirst, Torn)])) _ _ _ _ _) | incs | incs].
  - reflexivity.
  - apply writes_mk; [goods | apply final_app; apply final_wholes; incs | bundles].
  - mem.
  - cbn [bundle N]. incs.
  - intros p IV HR. unfold big_names in HR. rd IV HR. unfold read_runs_step.
    rewrite (look_whole p (N FBigSsa) (ItInts (bg_ssa g))) by side IV HR. rewrite E1. cbn [bind]. wr (inv_map p IV).
    rewrite <- HG. cbn [br_first br_first_text br_last br_last_text].
    set (w1 := wholes_of [(N FFirstPos, ItInts ft); (N FFirst, ItInts f)] ++ [(N FFirstPos, Torn); (N FFirst, Torn)]).
    match goal with |- context [look_file (mk_proc ?d ?m)] => change d with (w1 ++ pr_disk p) end.
    assert (G1 : good w1) by (unfold w1; unfold good; cbn [wholes_of map app]; repeat (apply Forall_cons; [unfold entry_ok; cbn [fst snd]; first [exact Logic.I | cbn [ideal ints N nm_hash nm_rate nm_key]; rewrite <- HG; reflexivity]|]); apply Forall_nil).
    assert (RD := ready_more p w1 (pr_map p) (inv_ready _ IV) G1 (inv_map p IV)).
    assert (HR1 := wholes_more p w1 (pr_map p) _ (final_wholes [(N FFirstPos, ItInts ft); (N FFirst, ItInts f)] [(N FFirstPos, Torn); (N FFirst, Torn)] ltac:(incs)) HR).
    rewrite (look_whole _ (N FBigEsa) (ItInts (bg_esa g))) by side RD HR1. rewrite E2. wr (inv_map p IV). reflexivity.
Qed.
Lemma ok_base_big sort exe : exe data = g -> read_symbols (bg_bwt g) = bi_bwt_text b -> construct_big_runs g = rn ->
  oks (base_steps BigBwt sort exe data) [] (big_names ++ base_names).
Proof.
  intros HE HR HG. cbn [base_steps]. eapply oks_same.
  - eapply oks_step; [apply (ok_big_bwt exe HE HR) | incs |].
    eapply oks_step; [apply (ok_big_runs HG) | unfold big_names; incs |].
    eapply oks_step; [apply ok_alphabet | unfold big_names; incs |].
    eapply oks_step; [apply ok_rle | unfold big_names; incs |]. last_step.
  - unfold big_names. incs.
  - unfold big_names. incs.
Qed.

(** The classes *)
Definition class_names (tm : tmpl) (kd : kind) (s : nat) : list name :=
  match kd with
  | KRIndex => rindex_names (t_marks tm)
  | KSrIndex => rindex_names (t_marks tm) ++ sri_names s tm
  | KSrIndexVM | KSrIndexVA => rindex_names (t_marks tm) ++ sri_names s tm ++ sri_valid_names s tm
  | KRCSA | KCSARaw => rcsa_names (t_marks tm)
  | KSrCSA => rcsa_names (t_marks tm) ++ common_names s tm ++ srcsa_names s tm
  | KSrCSAVM | KSrCSAVA => rcsa_names (t_marks tm) ++ common_names s tm ++ srcsa_names s tm ++ srcsa_valid_names s tm
  | KSlim => rcsa_names (t_marks tm) ++ common_names s tm ++ slim_names s tm
  | KSlimVM | KSlimVA => rcsa_names (t_marks tm) ++ common_names s tm ++ slim_names s tm ++ srcsa_valid_names s tm
  | KRCSAPsi => rcsa_psi_names (t_marks tm)
  | KSrPsi => rcsa_psi_names (t_marks tm) ++ srpsi_names s tm
  | KSrPsiVM | KSrPsiVA => rcsa_psi_names (t_marks tm) ++ srpsi_names s tm ++ psi_valid_names s (t_valid tm)
  end.
Lemma ok_class tm kd s : t_dens tm = dens -> oks (class_steps tm kd s) base_names (class_names tm kd s).
Proof.
  intros HD. assert (RP := ok_rcsa tm HD). assert (CM := ok_common tm s HD). assert (SV := ok_srcsa_valid tm s HD). assert (SL := ok_slim tm s HD).
  assert (PS := ok_rcsa_psi tm HD). assert (SP := ok_srpsi tm s HD).
  assert (VP : oks [step_validity_psi (t_valid tm) s] [NT FPsiTail TyInts; PT s FPsiTail TyInts] (psi_valid_names s (t_valid tm))).
  { eapply oks_same; [next (ok_validity_psi (t_valid tm) s); last_step | incs | incs]. }
  assert (VA : oks [step_validity_psi (t_valid tm) s; step_areas_psi s] [NT FPsiTail TyInts; PT s FPsiTail TyInts] (psi_valid_names s (t_valid tm))).
  { eapply oks_same; [next (ok_validity_psi (t_valid tm) s); next (ok_areas_psi s); last_step | incs | incs]. }
  assert (RI := ok_rindex tm). assert (SI := ok_sri tm s). assert (SIV := ok_sri_valid tm s). assert (SC := ok_srcsa tm s).
  assert (app3 : forall l1 l2 l3 R W1 W2 W3 R2 R3, oks l1 R W1 -> oks l2 R2 W2 -> oks l3 R3 W3 ->
    incl R2 (R ++ W1) -> incl R3 ((R ++ W1) ++ W2) -> oks (l1 ++ l2 ++ l3) R (W1 ++ W2 ++ W3)).
  { intros l1 l2 l3 R W1 W2 W3 R2 R3 O1 O2 O3 I2 I3. eapply oks_app; [exact O1| |apply incl_refl]. eapply oks_app; [eapply oks_weak; [exact O2|exact I2] | exact O3 | exact I3]. }
  assert (app4 : forall l1 l2 l3 l4 R W1 W2 W3 W4 R2 R3 R4, oks l1 R W1 -> oks l2 R2 W2 -> oks l3 R3 W3 -> oks l4 R4 W4 ->
    incl R2 (R ++ W1) -> incl R3 ((R ++ W1) ++ W2) -> incl R4 (((R ++ W1) ++ W2) ++ W3) -> oks (l1 ++ l2 ++ l3 ++ l4) R (W1 ++ W2 ++ W3 ++ W4)).
  { intros l1 l2 l3 l4 R W1 W2 W3 W4 R2 R3 R4 O1 O2 O3 O4 I2 I3 I4. eapply oks_app; [exact O1| |apply incl_refl]. eapply app3; [eapply oks_weak; [exact O2|exact I2] | exact O3 | exact O4 | exact I3 | exact I4]. }
  destruct kd; cbn [class_steps class_names].
  - exact RI.
  - eapply oks_app; [exact RI | exact SI | incs].
  - eapply app3; [exact RI | exact SI | exact SIV | incs | incs].
  - eapply app3; [exact RI | exact SI | exact SIV | incs | incs].
  - exact RP.
  - exact RP.
  - eapply app3; [exact RP | exact CM | exact SC | incs | incs].
  - eapply app4; [exact RP | exact CM | exact SC | exact SV | incs | incs | incs].
  - eapply app4; [exact RP | exact CM | exact SC | exact SV | incs | incs | incs].
  - eapply app3; [exact RP | exact CM | exact SL | incs | incs].
  - eapply app4; [exact RP | exact CM | exact SL | exact SV | incs | incs | incs].
  - eapply app4; [exact RP | exact CM | exact SL | exact SV | incs | incs | incs].
  - exact PS.
  - eapply oks_app; [exact PS | exact SP | incs].
  - eapply app3; [exact PS | exact SP | exact VP | incs | incs].
  - eapply app3; [exact PS | exact SP | exact VA | incs | incs].
Qed.
Definition route_names (rt : route) : list name := match rt with Sdsl => [N FText; N FSa] | BigBwt => big_names end.
Definition all_names (rt : route) (tm : tmpl) (kd : kind) (s : nat) : list name := (route_names rt ++ base_names) ++ class_names tm kd s.
(** The route can produce the base items. *)
Definition route_ok (i : input) : Prop := in_data i = data /\
  match in_route i with
  | Sdsl => in_sort i (bi_text b) = sa
  | BigBwt => in_exe i data = g /\ read_symbols (bg_bwt g) = bi_bwt_text b /\ construct_big_runs g = rn
  end.
Theorem ok_build i tm kd s : route_ok i -> t_dens tm = dens -> oks (base_steps (in_route i) (in_sort i) (in_exe i) (in_data i) ++ class_steps tm kd s) [] (all_names (in_route i) tm kd s).
Proof.
  intros [HI HR] HD. unfold all_names. rewrite HI.
  apply (oks_app _ _ [] (route_names (in_route i) ++ base_names) base_names); [|now apply ok_class|intros n Hn; cbn [app]; apply in_or_app; auto].
  destruct (in_route i); [now apply ok_base_sdsl | destruct HR as (H1 & H2 & H3); now apply ok_base_big].
Qed.
End Steps.
