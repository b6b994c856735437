(** computeSubmarksValidity: a submark is reported exactly when the mark after it is not a
    submark, with that mark. *)
From Coq Require Import List Arith Bool Lia ZifyBool ZifyNat Permutation.
From Verif Require Import MBase Lists MSrIndex Util.
Import ListNotations.

Lemma NoDup_app_r {A} (l1 l2 : list A) : NoDup (l1 ++ l2) -> NoDup l2.
Proof. induction l1 as [|a l1 IH]; cbn [app]; intros H; auto. inversion_clear H; auto. Qed.

Section Validity.
  Variables (fm : list nat) (p : nat -> bool) (succ : nat -> nat).
  Hypothesis Hnd : NoDup fm.
  Hypothesis Hsucc : forall l1 x y l2, fm = l1 ++ x :: y :: l2 -> succ x = y.

  Lemma skip_marks_ok ms : forall h y, In y (h :: ms) -> NoDup (h :: ms) ->
    exists l1 rest, h :: ms = l1 ++ y :: rest /\ skip_marks ms h y = Some rest.
  Proof.
    induction ms as [|m ms IH]; intros h y Hy N.
    - destruct Hy as [->|[]]. exists [], []. split; auto. cbn. rewrite Nat.eqb_refl. auto.
    - cbn [skip_marks]. destruct (Nat.eqb_spec h y) as [->|Hne].
      + exists [], (m :: ms). auto.
      + destruct Hy as [E|Hy]; [congruence|].
        destruct (IH m y Hy) as (l1 & rest & E1 & E2); [inversion_clear N; auto|].
        exists (h :: l1), rest. split; auto. cbn [app]. congruence.
  Qed.

  Fixpoint vspec (i x : nat) (subs : list nat) : list (nat * nat * nat) :=
    match subs with
    | [] => []
    | y :: t => (if succ x =? y then [] else [(i, x, succ x)]) ++ vspec (S i) y t
    end.

  Lemma filter_split y rest l : forall l1, l = l1 ++ y :: rest -> p y = true -> NoDup l ->
    hd_error (filter p l) = Some y -> filter p l = y :: filter p rest.
  Proof.
    intros l1 -> Hy N H. rewrite filter_app in *. cbn [filter] in *. rewrite Hy in *.
    destruct (filter p l1) as [|z t] eqn:E; auto. exfalso.
    cbn in H. injection H as ->.
    assert (G : In y l1) by (assert (In y (filter p l1)) by (rewrite E; left; auto); apply filter_In in H; tauto).
    apply NoDup_remove_2 in N. apply N, in_app_iff. auto.
  Qed.

  Lemma validity_loop_ok subs : forall i pre x marks, fm = pre ++ x :: marks -> subs = filter p marks ->
    submarks_validity_loop i marks x subs = Some (vspec i x subs).
  Proof.
    induction subs as [|y subs IH]; intros i pre x marks Hf Hs; auto.
    cbn [submarks_validity_loop vspec].
    assert (Hy : In y marks /\ p y = true) by (apply filter_In; rewrite <- Hs; left; auto).
    destruct Hy as [Hy Hp].
    assert (N : NoDup marks) by (rewrite Hf in Hnd; apply NoDup_app_r in Hnd; inversion Hnd; auto).
    destruct marks as [|m marks]; [destruct Hy|].
    assert (Esx : succ x = m) by (eapply Hsucc; eauto). rewrite Esx.
    destruct (Nat.eqb_spec m y) as [->|Hne]; cbn [negb app].
    - apply (IH (S i) (pre ++ [x]) y marks); [rewrite <- app_assoc; auto|].
      cbn [filter] in Hs. rewrite Hp in Hs. congruence.
    - destruct Hy as [E|Hy]; [congruence|].
      destruct marks as [|m2 marks]; [destruct Hy|].
      destruct (skip_marks_ok marks m2 y Hy) as (l1 & rest & E1 & E2); [inversion_clear N; auto|].
      rewrite E2. cbn [bind].
      rewrite (IH (S i) (pre ++ x :: m :: l1) y rest); auto.
      + rewrite Hf, E1. rewrite <- app_assoc. auto.
      + assert (G : filter p (m :: m2 :: marks) = y :: filter p rest).
        { apply (filter_split y rest _ (m :: l1)); auto; [cbn [app]; congruence|rewrite <- Hs; auto]. }
        congruence.
  Qed.

  Lemma vspec_map subs : forall i x, vspec i x subs =
    map (fun j => (i + j, nth j (x :: subs) 0, succ (nth j (x :: subs) 0)))
        (filter (fun j => negb (succ (nth j (x :: subs) 0) =? nth (S j) (x :: subs) 0)) (seq 0 (length subs))).
  Proof.
    induction subs as [|y subs IH]; intros i x; auto.
    cbn [vspec]. rewrite (IH (S i) y). cbn [length seq filter].
    rewrite <- (seq_shift (length subs) 0).
    set (f := fun j => negb (succ (nth j (x :: y :: subs) 0) =? nth (S j) (x :: y :: subs) 0)).
    assert (G : forall l, filter f (map S l) =
              map S (filter (fun j => negb (succ (nth j (y :: subs) 0) =? nth (S j) (y :: subs) 0)) l)).
    { induction l as [|a l IHl]; auto. cbn [map filter]. rewrite IHl. unfold f at 1.
      change (nth (S a) (x :: y :: subs) 0) with (nth a (y :: subs) 0).
      change (nth (S (S a)) (x :: y :: subs) 0) with (nth (S a) (y :: subs) 0).
      destruct (negb (succ (nth a (y :: subs) 0) =? nth (S a) (y :: subs) 0)); auto. }
    rewrite G. clear G. unfold f. clear f.
    change (nth 0 (x :: y :: subs) 0) with x. change (nth 1 (x :: y :: subs) 0) with y.
    assert (G : forall l, map (fun j => (S i + j, nth j (y :: subs) 0, succ (nth j (y :: subs) 0))) l =
        map (fun j => (i + j, nth j (x :: y :: subs) 0, succ (nth j (x :: y :: subs) 0))) (map S l)).
    { intros l. rewrite map_map. apply map_ext. intros j. rewrite Nat.add_succ_r. auto. }
    rewrite G. destruct (succ x =? y); cbn [negb app map]; auto.
    rewrite Nat.add_0_r. auto.
  Qed.

  Theorem compute_submarks_validity_ok sub : sub = filter p fm -> sub <> [] -> hd 0 sub = hd 0 fm ->
    compute_submarks_validity fm sub =
    Some (map (fun j => (j, nth j sub 0, succ (nth j sub 0)))
              (filter (fun j => negb (succ (nth j sub 0) =? nth (S j) sub 0)) (seq 0 (length sub - 1)))).
  Proof.
    intros Hs Hne Hhd. assert (Ef : exists a marks, fm = a :: marks).
    { destruct fm as [|a marks]; eauto. subst. cbn in Hne. congruence. }
    destruct Ef as (a & marks & Ef). rewrite Ef in Hhd. rewrite Ef at 1.
    destruct sub as [|x subs]; [congruence|]. cbn in Hhd. subst x. unfold compute_submarks_validity.
    rewrite (validity_loop_ok subs 0 [] a marks); auto.
    - rewrite vspec_map. f_equal. cbn [length]. replace (S (length subs) - 1) with (length subs) by lia. auto.
    - assert (Hp : p a = true).
      { assert (In a (filter p fm)) by (rewrite <- Hs; left; auto). apply filter_In in H; tauto. }
      rewrite Ef in Hs. cbn [filter] in Hs. rewrite Hp in Hs. congruence.
  Qed.
End Validity.

(** Position of an element among the selected ones. *)
Lemma nth_filter_seq (inv : nat -> bool) (f : nat -> nat) m j : j < m -> inv j = true ->
  nth_error (map f (filter inv (seq 0 m))) (length (filter inv (seq 0 j))) = Some (f j).
Proof.
  intros Hj Hi. replace m with (j + (1 + (m - j - 1))) by lia.
  rewrite seq_app, filter_app, map_app. rewrite nth_error_app2; rewrite map_length; [|lia].
  rewrite Nat.sub_diag. cbn [plus]. rewrite (seq_app 1). cbn [seq app filter]. rewrite Hi. auto.
Qed.
