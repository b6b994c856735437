(** C47: for every text and every class there is a stop that no later call repairs. *)
From Coq Require Import List Arith Bool String Lia.
From Verif Require Import Spec MBase MConstruct MStore MBwt SpecStore SpecBwt StoreProof
  MCache SpecCache CacheIdeal CacheBuilt CacheStep CacheEnd CacheTwo CacheRaw CacheStuck PropertiesSrCsa PropertiesCache.
Import ListNotations.

(** What calls of construct for any data, class, rate, route and template arguments, completed or stopped
    anywhere, of the same or of other processes, can make of [p] *)
Inductive anything (p : proc) : proc -> Prop :=
| an_refl : anything p p
| an_run : forall q e r q', anything p q -> run_cache e r q = Some q' -> anything p q'
| an_new : forall q, anything p q -> anything p (new_proc (pr_disk q))
| an_stop : forall q e r q' d, anything p q -> run_cache e r q = Some q' -> stopped (pr_disk q) (pr_disk q') d -> anything p (new_proc d).

Lemma anything_halted G X p q : (forall i tm kd s, kept (halted G X) (build_cache i tm kd s)) ->
  halted G X p -> anything p q -> halted G X q.
Proof.
  intros K H. induction 1 as [|q e r q' _ IH E|q _ IH|q e r q' d _ IH E S].
  - exact H.
  - exact (K _ _ _ _ q q' E IH).
  - destruct IH as (A & B & _). split; [exact A|]. split; [exact B|intros ? ? []].
  - pose proof (K _ _ _ _ q q' E IH) as (_ & N & _). exact (halted_stopped G X q _ d IH N S).
Qed.

(** Construct of any class over an empty directory, for every text, has a moment between two writes at which
    a stop is fatal: whatever calls follow, construct of this class, with these template arguments and this
    rate, always fails in this directory. *)
Theorem C47_never_repaired : forall w e h r,
  sound_world w e -> 0 < h -> S (List.length w) < 2 ^ 64 -> run_ready w e (2 * h) r -> (ru_kd r = KCSARaw -> ru_route r = Sdsl) ->
  exists p d todo, run_cache e r (new_proc []) = Some p /\ pr_disk p = todo ++ d /\ d <> [] /\
    run_index e r (new_proc []) <> None /\
    forall q e2 r2, anything (new_proc d) q -> ru_kd r2 = ru_kd r -> ru_tm r2 = ru_tm r -> ru_rate r2 = ru_rate r ->
      run_index e2 r2 q = None.
Proof.
  intros w e h r HS Hh Hn HR HK. destruct (world_base w e h HS Hh Hn) as [b HB].
  pose proof (history_inv w e h HS Hh Hn b HB _ (h_empty w e (2 * h))) as I0.
  destruct (run_exact w e h HS Hh Hn b HB r _ HR HK I0) as (o & p & EI & E & _).
  destruct (run_ok w e h HS Hh Hn b HB r HR _ I0 ltac:(intros ? [])) as [(p2 & ws & E' & _ & _ & HW & _) _].
  assert (p2 = p) by congruence. subst p2.
  assert (GX : exists G X, (forall i tm kd s, kept (halted G X) (build_cache i tm kd s)) /\ seen G X p /\ In X (map fst (pr_disk p)) /\
    forall i q, halted G X q -> construct_index i (ru_tm r) (ru_kd r) (ru_rate r) q = None).
  { assert (W : forall n, In n (class_names (2 * h) (ru_tm r) (ru_kd r) (ru_rate r)) -> In n (map fst (pr_disk p))).
    { intros n I. destruct (HW n) as [it D]; [unfold all_names; apply in_or_app; now right|]. apply names_d_find. rewrite D. discriminate. }
    assert (RAW : ru_kd r = KCSARaw \/ ru_kd r <> KCSARaw) by (clear; destruct (ru_kd r); (left; reflexivity) || (right; discriminate)).
    destruct RAW as [RAW|RAW].
    - exists (N FPsi), (NT FPsi (TyPsi (2 * h))). split; [apply psi_halted|]. split; [exact (psi_seen _ _ _ _ _ _ _ E (seen_empty _ _))|]. split.
      + apply W. rewrite RAW. cbn [class_names]. unfold rcsa_names. cbn [In]. repeat (first [left; reflexivity | right]).
      + intros i q H. apply (psi_halted_index (2 * h)); [exact H|apply HR|rewrite RAW; cbn [nav_ty]; rewrite (proj1 HR); reflexivity].
    - set (m := marks_name (ru_kd r) (ru_rate r)).
      exists (with_hash m (TyBv (t_marks (ru_tm r)))), (with_hash m (TySup (SupRank (t_marks (ru_tm r)) true))).
      split; [apply bv_halted|]. split; [exact (bv_seen m _ _ _ _ _ _ _ E (seen_empty _ _))|]. split.
      + apply W. unfold m. clear - RAW. destruct (ru_kd r); try (now destruct RAW); cbn; repeat (first [left; reflexivity | right]).
      + intros i q H. now apply bv_halted_index. }
  destruct GX as (G & X & K & SE & IX & F). destruct (seen_stop G X p SE IX) as (d & todo & D & H).
  exists p, d, todo. split; [exact E|]. split; [exact D|]. split; [|split].
  - destruct H as [H _]. intros ->. exact H.
  - rewrite EI. discriminate.
  - intros q e2 r2 A E1 E2 E3. unfold run_index. rewrite E1, E2, E3. apply F. exact (anything_halted G X _ q K H A).
Qed.
Print Assumptions C47_never_repaired.
(** SrCSASlim of "abracadabra", stopped before the rank support of its marks is written: RIndex of the same directory
    can still be constructed, and SrCSASlim fails before and after that. *)
Fixpoint cut_at (n : name) (d : disk) : disk :=
  match d with [] => [] | x :: r => if name_eq_dec (fst x) n then r else cut_at n r end.
Example C47_never_example : let r := ex_run Sdsl KSlim 2 in
  let p := ends exf_world r (new_proc []) in
  let d := cut_at (PT 2 FLastByFirst (TySup (SupRank BvSd true))) (pr_disk p) in
  run_cache exf_world r (new_proc []) = Some p /\ (exists todo, todo <> [] /\ pr_disk p = todo ++ d) /\ 10 <= List.length d /\
  exists q, run_cache exf_world (ex_run Sdsl KRIndex 1) (new_proc d) = Some q /\ anything (new_proc d) q /\
    run_index exf_world (ex_run Sdsl KRIndex 1) (new_proc d) <> None /\
    run_index exf_world r (new_proc d) = None /\ run_index exf_world r q = None.
Proof.
  cbv zeta. set (p := ends _ _ _). set (d := cut_at _ _).
  split; [vm_compute; reflexivity|]. split.
  { exists (firstn (List.length (pr_disk p) - List.length d) (pr_disk p)). split; [vm_compute; discriminate|vm_compute; reflexivity]. }
  split; [apply Nat.leb_le; vm_compute; reflexivity|].
  set (q := ends exf_world (ex_run Sdsl KRIndex 1) (new_proc d)).
  assert (E : run_cache exf_world (ex_run Sdsl KRIndex 1) (new_proc d) = Some q) by (vm_compute; reflexivity).
  exists q. split; [exact E|]. split; [eapply an_run; [apply an_refl|exact E]|].
  split; [vm_compute; discriminate|]. split; vm_compute; reflexivity.
Qed.
