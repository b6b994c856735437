(** Proofs about constructions that share a cache directory at the same time. *)
From Coq Require Import List Arith Bool String Lia.
From Verif Require Import Spec MBase Runs MRle MConstruct MPhi MRIndex MSrIndex MPsi MCsa MSrCsa MStore MBwt Glue
  SpecStore SpecBwt StoreProof StoreClass StoreRound StoreBuilt StoreEnd BwtProof
  MCache SpecCache CacheIdeal CacheBuilt CacheStep CacheEnd MSched SpecSched.
Import ListNotations.

Section Sched.
Variable w : list nat.
Variable e : world.
Variable h : nat.
Hypothesis HS : sound_world w e.
Hypothesis Hh : 0 < h.
Hypothesis Hn : S (List.length w) < 2 ^ 64.
Notation sa := (wd_sort e (terminated w)).
Notation data := (wd_data e).
Notation dens := (2 * h).
Notation g := (wd_exe e (wd_data e)).
Variable b : base_items.
Hypothesis HB : construct_base data sa = Some b.
Notation INV := (inv sa b dens g).
Notation chain := (chain sa b dens g).
Definition need (r : run) : list name := all_names dens (ru_route r) (ru_tm r) (ru_kd r) (ru_rate r).
(** A member: the files that its next steps need are there, and it will have completed all of its files. *)
Definition seat (d : disk) (x : run * member) : Prop :=
  run_ready w e dens (fst x) /\ INV (mk_proc d (mb_map (snd x))) /\
  exists R W, chain (mb_todo (snd x)) R W /\ wholes (mk_proc d (mb_map (snd x))) R /\ incl (need (fst x)) (R ++ W).
Definition table (d : disk) (l : list (run * member)) : Prop := INV (new_proc d) /\ Forall (seat d) l.

Lemma seat_call d m r : run_ready w e dens r -> INV (mk_proc d m) -> seat d (r, call_of e m r).
Proof.
  intros HR IV. split; [exact HR|]. split; [exact IV|]. exists [], (need r).
  split; [exact (proj2 (run_oks w e h HS Hh Hn b HB r HR))|]. split; [intros n []|apply incl_refl].
Qed.
Lemma seat_move d p x : seat d x -> INV p -> (forall n, whole d n -> whole (pr_disk p) n) -> seat (pr_disk p) x.
Proof.
  intros (HR & IV & R & W & HC & HW & HI) IP K. split; [exact HR|]. split.
  - split; [apply IP|apply IP|apply IV].
  - exists R, W. split; [exact HC|]. split; [|exact HI]. intros n N. apply K, (HW n N).
Qed.
Lemma seat_turn d r m k : seat d (r, m) -> (forall c s l, skipn k (mb_todo m) <> step_submarks_psi c s :: l) ->
  exists p, run_steps (firstn k (mb_todo m)) (mk_proc d (mb_map m)) = Some p /\ INV p /\ (forall n, whole d n -> whole (pr_disk p) n) /\
    seat (pr_disk p) (r, mk_member (pr_map p) (skipn k (mb_todo m))).
Proof.
  intros (HR & IV & R & W & HC & HW & HI) N. cbn [fst snd] in *.
  destruct (chain_part _ _ _ _ _ _ _ HC (firstn k (mb_todo m)) (skipn k (mb_todo m)) (eq_sym (firstn_skipn k (mb_todo m))) N _ IV HW)
    as (p & R' & W' & E & IP & K & HC' & HW' & HI').
  exists p. split; [exact E|]. split; [exact IP|]. split; [exact K|]. split; [exact HR|]. cbn [snd mb_map mb_todo fst].
  assert (EP : mk_proc (pr_disk p) (pr_map p) = p) by (destruct p; reflexivity). rewrite EP.
  split; [exact IP|]. exists R', W'. split; [exact HC'|]. split; [exact HW'|]. exact (incl_tran HI HI').
Qed.
Lemma sched_table d l : sched w e dens d l -> table d l.
Proof.
  induction 1 as [p H|d l r H [IV F] HR|d l1 r m l2 r' H [IV F] E HR|d l1 x l2 H [IV F]|d l1 r m l2 k d' m' H [IV F] E N].
  - split; [|constructor]. exact (inv_new _ _ _ _ _ (history_inv w e h HS Hh Hn b HB p H)).
  - split; [exact IV|]. constructor; [|exact F]. now apply seat_call.
  - split; [exact IV|]. apply Forall_app in F as [F1 F2]. inversion F2 as [|y l' S F3]; subst. apply Forall_app. split; [exact F1|].
    constructor; [|exact F3]. apply seat_call; [exact HR|exact (proj1 (proj2 S))].
  - split; [exact IV|]. apply Forall_app in F as [F1 F2]. inversion F2; subst. apply Forall_app. split; assumption.
  - apply Forall_app in F as [F1 F2]. inversion F2 as [|y l' S F3]; subst. unfold turn in E. apply bind_Some in E as (p0 & E0 & E). injection E as <- <-.
    destruct (seat_turn d r m k S N) as (p & E1 & IP & K & S').
    assert (p0 = p) by congruence. subst p0. split; [exact (inv_new _ _ _ _ _ IP)|].
    apply Forall_app. split; [|constructor; [exact S'|]].
    + apply Forall_impl with (2 := F1). intros x Sx. now apply (seat_move d p).
    + apply Forall_impl with (2 := F3). intros x Sx. now apply (seat_move d p).
Qed.
Lemma sched_turn d l r m k : sched w e dens d l -> In (r, m) l -> (forall c s t, skipn k (mb_todo m) <> step_submarks_psi c s :: t) ->
  exists d' m', turn k d m = Some (d', m') /\ mb_todo m' = skipn k (mb_todo m).
Proof.
  intros H I N. destruct (sched_table d l H) as [_ F]. apply (proj1 (Forall_forall _ _) F) in I.
  destruct (seat_turn d r m k I N) as (p & E & _). unfold turn. rewrite E. cbn [bind]. eauto.
Qed.
Lemma chain_done R W : chain [] R W -> incl W [].
Proof.
  intros H. remember (@nil step) as l eqn:E. induction H as [R|f l R R1 W1 W2 H I HC IH|f c s l R R1 W1 W2 H I HC IH|l R W W' HC IH I]; try discriminate.
  - apply incl_refl.
  - exact (incl_tran I (IH E)).
Qed.
Lemma load_exact r p : run_ready w e dens r -> (ru_kd r = KCSARaw -> ru_route r = Sdsl) -> INV p -> wholes p (need r) ->
  exists o, load_index (ru_tm r) (ru_kd r) (ru_rate r) (pr_disk p) = Some o /\ exact_index w e r o.
Proof.
  intros HR HK IV HW. destruct (load_views w e h HS Hh Hn b HB r p HR HK IV HW) as (v & o & EV & L & V).
  exists o. split; [exact L|]. intros x Hx. destruct HS as (Hw & Hd & HSA).
  destruct (build_exact (ru_tm r) (ru_kd r) (ru_rate r) w sa data h x Hw HSA Hd Hh (proj1 HR) Hn Hx) as (v' & [s t] & l & EV' & EC & EL & A & RI).
  assert (v' = v) by congruence. subst v'. exists l, s, t. unfold obj_locate, obj_count. rewrite V. cbn [bind]. rewrite trim_locate, trim_count. auto.
Qed.
Lemma sched_finished d l r m : sched w e dens d l -> In (r, m) l -> finished m -> (ru_kd r = KCSARaw -> ru_route r = Sdsl) ->
  exists o, load_index (ru_tm r) (ru_kd r) (ru_rate r) d = Some o /\ exact_index w e r o.
Proof.
  intros H I E HK. destruct (sched_table d l H) as [_ F]. apply (proj1 (Forall_forall _ _) F) in I.
  destruct I as (HR & IV & R & W & HC & HW & HI). cbn [fst snd] in *. rewrite E in HC. apply chain_done in HC.
  apply (load_exact r (mk_proc d (mb_map m)) HR HK IV). intros n N. apply HI in N. apply in_app_or in N as [N|N]; [now apply HW|]. now apply HC in N.
Qed.
End Sched.
