(** Counting, rank and select lemmas. *)
From Coq Require Import List Arith Lia Bool Permutation ZifyBool ZifyNat.
From Verif Require Import MBase.
Import ListNotations.

Section RankSelect.
  Context {A : Type} (f : A -> bool).

  Definition count (l : list A) : nat := length (filter f l).

  Lemma count_app l1 l2 : count (l1 ++ l2) = count l1 + count l2.
  Proof. unfold count. rewrite filter_app, app_length. reflexivity. Qed.

  Lemma rankP_0 l : rankP f l 0 = 0.
  Proof. reflexivity. Qed.

  Lemma rankP_all l i : length l <= i -> rankP f l i = count l.
  Proof. intros H. unfold rankP, count. rewrite firstn_all2; auto. Qed.

  Lemma rankP_cons x l i : rankP f (x :: l) (S i) = (if f x then 1 else 0) + rankP f l i.
  Proof. unfold rankP. cbn. destruct (f x); reflexivity. Qed.

  Lemma rankP_S l : forall i x, nth_error l i = Some x ->
    rankP f l (S i) = rankP f l i + (if f x then 1 else 0).
  Proof.
    induction l as [|a l IH]; intros [|i] x H; cbn in H; try discriminate.
    - injection H as ->. rewrite rankP_cons, !rankP_0. lia.
    - rewrite !rankP_cons. rewrite (IH _ _ H). lia.
  Qed.

  Lemma rankP_S_le l i : rankP f l i <= rankP f l (S i).
  Proof.
    destruct (nth_error l i) as [x|] eqn:E.
    - rewrite (rankP_S _ _ _ E). lia.
    - apply nth_error_None in E. rewrite !rankP_all; lia.
  Qed.

  Lemma rankP_mono l i j : i <= j -> rankP f l i <= rankP f l j.
  Proof.
    induction 1 as [|j H IH]; auto.
    etransitivity; [exact IH | apply rankP_S_le].
  Qed.

  Lemma rankP_le_count l i : rankP f l i <= count l.
  Proof.
    destruct (le_ge_dec (length l) i) as [H|H].
    - rewrite rankP_all; auto.
    - rewrite <- (rankP_all l (length l)) by lia. apply rankP_mono; lia.
  Qed.

  Lemma rankP_le l i : rankP f l i <= i.
  Proof.
    induction i as [|i IH]; [reflexivity|].
    destruct (nth_error l i) as [x|] eqn:E.
    - rewrite (rankP_S _ _ _ E). destruct (f x); lia.
    - apply nth_error_None in E.
      rewrite rankP_all in * by lia. lia.
  Qed.

  Lemma rankP_app_l l1 l2 i : i <= length l1 -> rankP f (l1 ++ l2) i = rankP f l1 i.
  Proof.
    intros H. unfold rankP. rewrite firstn_app.
    replace (i - length l1) with 0 by lia. cbn. rewrite app_nil_r. reflexivity.
  Qed.

  Lemma rankP_app_r l1 l2 i : length l1 <= i ->
    rankP f (l1 ++ l2) i = count l1 + rankP f l2 (i - length l1).
  Proof.
    intros H. unfold rankP, count. rewrite firstn_app, filter_app, app_length.
    rewrite firstn_all2; auto.
  Qed.

  Lemma rankP_lt_step l i j x :
    nth_error l i = Some x -> f x = true -> i < j -> rankP f l i < rankP f l j.
  Proof.
    intros H Hx Hij. assert (rankP f l (S i) <= rankP f l j) by (apply rankP_mono; lia).
    rewrite (rankP_S _ _ _ H), Hx in H0. lia.
  Qed.

  Lemma select0_spec l : forall k p, select0 f l k = Some p ->
    (exists x, nth_error l p = Some x /\ f x = true) /\ rankP f l p = k.
  Proof.
    induction l as [|a l IH]; intros k p H; cbn in H; [discriminate|].
    destruct (f a) eqn:Ea.
    - destruct k as [|k].
      + injection H as <-. cbn. split; [eauto|reflexivity].
      + destruct (select0 f l k) as [q|] eqn:E; [|discriminate].
        injection H as <-. destruct (IH _ _ E) as [? ?].
        split; [cbn; auto|]. rewrite rankP_cons, Ea. lia.
    - destruct (select0 f l k) as [q|] eqn:E; [|discriminate].
      injection H as <-. destruct (IH _ _ E) as [? ?].
      split; [cbn; auto|]. rewrite rankP_cons, Ea. lia.
  Qed.

  Lemma select0_complete l : forall p x, nth_error l p = Some x -> f x = true ->
    select0 f l (rankP f l p) = Some p.
  Proof.
    induction l as [|a l IH]; intros [|p] x H Hx; cbn in H; try discriminate.
    - injection H as ->. cbn. rewrite Hx. reflexivity.
    - rewrite rankP_cons. cbn. destruct (f a) eqn:Ea; cbn; rewrite (IH _ _ H Hx); reflexivity.
  Qed.

  Lemma select0_total l : forall k, k < count l -> exists p, select0 f l k = Some p.
  Proof.
    unfold count. induction l as [|a l IH]; intros k H; cbn in H; [lia|].
    cbn. destruct (f a) eqn:Ea.
    - destruct k as [|k]; [eauto|]. cbn in H.
      destruct (IH k ltac:(lia)) as [p Hp]. rewrite Hp. cbn. eauto.
    - destruct (IH k H) as [p Hp]. rewrite Hp. cbn. eauto.
  Qed.

  Lemma select0_lt l k p : select0 f l k = Some p -> p < length l /\ k < count l.
  Proof.
    intros H. destruct (select0_spec _ _ _ H) as [[x [Hx Hfx]] Hr].
    assert (p < length l) by (apply nth_error_Some; congruence).
    split; auto.
    rewrite <- Hr. rewrite <- (rankP_all l (length l)) by lia.
    eapply rankP_lt_step; eauto.
  Qed.

  Lemma select0_unique l k p x :
    nth_error l p = Some x -> f x = true -> rankP f l p = k -> select0 f l k = Some p.
  Proof. intros H1 H2 <-. eapply select0_complete; eauto. Qed.

  Lemma select0_None l k : count l <= k -> select0 f l k = None.
  Proof.
    intros H. destruct (select0 f l k) eqn:E; auto.
    apply select0_lt in E. lia.
  Qed.

  (** The rank-[q] element lies between two positions iff q lies between the ranks. *)
  Lemma select0_between l s e q : e <= length l ->
    rankP f l s <= q < rankP f l e ->
    exists p x, s <= p < e /\ nth_error l p = Some x /\ f x = true /\ rankP f l p = q.
  Proof.
    intros He Hq.
    assert (Hc : q < count l).
    { pose proof (rankP_le_count l e). lia. }
    destruct (select0_total l q Hc) as [p Hp].
    destruct (select0_spec _ _ _ Hp) as [[x [Hx Hfx]] Hr].
    exists p, x. repeat split; auto.
    - destruct (le_lt_dec s p); auto.
      assert (rankP f l p < rankP f l s) by (eapply rankP_lt_step; eauto). lia.
    - destruct (lt_dec p e) as [|n]; auto.
      assert (rankP f l e <= rankP f l p) by (apply rankP_mono; lia). lia.
  Qed.
End RankSelect.

Lemma count_ext_in {A} (f g : A -> bool) l :
  (forall x, In x l -> f x = g x) -> count f l = count g l.
Proof.
  intros H. unfold count. rewrite (filter_ext_in _ _ _ H). reflexivity.
Qed.

Lemma count_perm {A} (f : A -> bool) l l' : Permutation l l' -> count f l = count f l'.
Proof.
  unfold count. induction 1; cbn; try lia.
  - destruct (f x); cbn; lia.
  - destruct (f x), (f y); cbn; lia.
Qed.

Lemma count_map {A B} (g : A -> B) (f : B -> bool) l :
  count f (map g l) = count (fun x => f (g x)) l.
Proof.
  unfold count. induction l as [|a l IH]; cbn; auto.
  destruct (f (g a)); cbn; lia.
Qed.

Lemma count_or {A} (f g : A -> bool) l :
  (forall x, In x l -> f x = true -> g x = true -> False) ->
  count (fun x => f x || g x) l = count f l + count g l.
Proof.
  unfold count. induction l as [|a l IH]; intros H; cbn; auto.
  assert (IH' := IH (fun x Hx => H x (or_intror Hx))).
  specialize (H a (or_introl eq_refl)).
  destruct (f a), (g a); cbn in *; try lia; exfalso; apply H; reflexivity.
Qed.

Lemma count_false {A} (f : A -> bool) l : (forall x, In x l -> f x = false) -> count f l = 0.
Proof.
  intros H. rewrite (count_ext_in _ (fun _ => false)); auto.
  unfold count. induction l; cbn; auto. apply IHl. intros; apply H; cbn; auto.
Qed.

Lemma count_le_length {A} (f : A -> bool) l : count f l <= length l.
Proof. unfold count. induction l as [|a l IH]; cbn; auto. destruct (f a); cbn; lia. Qed.

Lemma count_true {A} (f : A -> bool) l : (forall x, In x l -> f x = true) -> count f l = length l.
Proof.
  unfold count. induction l as [|a l IH]; intros H; cbn; auto.
  rewrite (H a) by (cbn; auto). cbn. rewrite IH; auto. intros; apply H; cbn; auto.
Qed.

Lemma count_lt_seq x n : x <= n -> count (fun k => k <? x) (seq 0 n) = x.
Proof.
  intros H. replace n with (x + (n - x)) by lia.
  rewrite seq_app, count_app. cbn.
  rewrite count_true, seq_length, count_false; [lia| |].
  - intros a Ha. apply in_seq in Ha. apply Nat.ltb_ge; lia.
  - intros a Ha. apply in_seq in Ha. apply Nat.ltb_lt; lia.
Qed.

Lemma nth_error_nth_lt {A} (l : list A) i d : i < length l -> nth_error l i = Some (nth i l d).
Proof. intros H. apply nth_error_nth'. exact H. Qed.

Lemma nth_error_Some_lt {A} (l : list A) i x : nth_error l i = Some x -> i < length l.
Proof. intros H. apply nth_error_Some. congruence. Qed.

Lemma skipn_cons_nth {A} (l : list A) i x : nth_error l i = Some x -> skipn i l = x :: skipn (S i) l.
Proof.
  revert i; induction l as [|a l IH]; intros [|i] H; cbn in H; try discriminate.
  - injection H as ->. reflexivity.
  - cbn [skipn]. rewrite (IH _ H). reflexivity.
Qed.

(** rankP as a count over positions. *)
Lemma rankP_seq {A} (f : A -> bool) (l : list A) d i : i <= length l ->
  rankP f l i = count (fun k => f (nth k l d)) (seq 0 i).
Proof.
  induction i as [|i IH]; intros H; [reflexivity|].
  rewrite seq_S, count_app, <- IH by lia.
  rewrite (rankP_S f l i (nth i l d)) by (apply nth_error_nth_lt; lia).
  unfold count; cbn. destruct (f (nth i l d)); reflexivity.
Qed.
