(** computeSampling against its specification. *)
From Coq Require Import List Arith Bool Lia ZifyBool ZifyNat.
From Verif Require Import Spec MBase Lists MConstruct MSrIndex Util SamplingProof.
Import ListNotations.

Section Subseq.
  Variables (s : nat) (values req : list nat).
  Lemma loop_subseq : forall rest p pv last r, sampling_loop s values req p pv last rest = Some r ->
    subsequence r (p :: rest).
  Proof.
    induction rest as [|c rest IH]; intros p pv last r E; cbn [sampling_loop] in E.
    - injection E as <-. apply subseq_keep. constructor.
    - destruct (nth_error values c) as [cv|]; [|discriminate]. cbn [bind] in E. destruct (_ || _).
      + destruct (sampling_loop s values req c cv pv rest) as [r'|] eqn:E'; [|discriminate]. injection E as <-.
        apply subseq_keep. eapply IH; eauto.
      + apply subseq_skip. eapply IH; eauto.
  Qed.
  Lemma sampling_subseq idxs out : compute_sampling s idxs values req = Some out -> subsequence out idxs.
  Proof.
    unfold compute_sampling. destruct idxs as [|a [|b rest]]; intros E.
    - injection E as <-. constructor.
    - destruct (nth_error values a); [|discriminate]. injection E as <-. apply subseq_keep. constructor.
    - destruct (nth_error values a) as [va|]; [|discriminate]. cbn [bind] in E.
      destruct (nth_error values b) as [vb|]; [|discriminate]. cbn [bind] in E.
      destruct (sampling_loop s values req b vb va rest) as [r|] eqn:E'; [|discriminate]. injection E as <-.
      apply subseq_keep. eapply loop_subseq; eauto.
  Qed.

  (** The distances do not change when the values are mirrored. *)
  Variable H : nat.
  Let mv := map (fun v => H - v) values.
  Hypothesis HH : forall v, In v values -> v <= H.
  Lemma mirror_nth i : nth_error mv i = option_map (fun v => H - v) (nth_error values i).
  Proof. unfold mv. apply nth_error_map. Qed.
  Lemma nth_H i v : nth_error values i = Some v -> v <= H.
  Proof. intros E. apply HH. eapply nth_error_In; eauto. Qed.
  Lemma loop_mirror : forall rest p pv last, pv <= H -> last <= H ->
    sampling_loop s mv req p (H - pv) (H - last) rest = sampling_loop s values req p pv last rest.
  Proof.
    induction rest as [|c rest IH]; intros p pv last H1 H2; cbn [sampling_loop]; auto.
    rewrite mirror_nth. destruct (nth_error values c) as [cv|] eqn:E; auto. cbn [option_map bind].
    pose proof (nth_H _ _ E) as H3. rewrite !IH by auto.
    replace (if H - cv <? H - last then H - last - (H - cv) else H - cv - (H - last))
      with (if cv <? last then last - cv else cv - last); auto.
    destruct (Nat.ltb_spec cv last), (Nat.ltb_spec (H - cv) (H - last)); lia.
  Qed.
  Lemma sampling_mirror idxs : compute_sampling s idxs mv req = compute_sampling s idxs values req.
  Proof.
    unfold compute_sampling. destruct idxs as [|a [|b rest]]; auto; rewrite mirror_nth;
      destruct (nth_error values a) as [va|] eqn:Ea; auto; cbn [option_map bind].
    rewrite mirror_nth. destruct (nth_error values b) as [vb|] eqn:Eb; auto; cbn [option_map bind].
    rewrite loop_mirror; auto; eapply nth_H; eauto.
  Qed.
End Subseq.

(** Decompositions of a list at its last element with a property. *)
Lemma last_such (P : nat -> bool) l : (exists x, In x l /\ P x = true) ->
  exists l0 j l3, l = l0 ++ j :: l3 /\ P j = true /\ forall x, In x l3 -> P x = false.
Proof.
  induction l as [|a l IH]; intros (x & Hx & Px); [destruct Hx|].
  destruct (existsb P l) eqn:E.
  - apply existsb_exists in E. destruct (IH E) as (l0 & j & l3 & -> & H1 & H2). exists (a :: l0), j, l3. auto.
  - assert (Hl : forall y, In y l -> P y = false).
    { intros y Hy. destruct (P y) eqn:G; auto. assert (existsb P l = true) by (apply existsb_exists; eauto). congruence. }
    destruct Hx as [->|Hx]; [|rewrite Hl in Px by auto; discriminate].
    exists [], x, l. auto.
Qed.

Lemma mono_cases (f : nat -> nat) l1 j0 l2 : strictly_monotone (map f (l1 ++ l2)) -> In j0 l1 -> forall l3 j l4 q l5,
  l1 = l3 ++ j :: l4 -> (j0 = j \/ In j0 l3) -> l2 = l5 ++ [q] \/ (exists l6, l2 = l5 ++ q :: l6) ->
  distance (f q) (f j) <= distance (f q) (f j0).
Proof.
  intros HM H0 l3 j l4 q l5 -> Hj Hl2.
  assert (E : exists l6, l2 = l5 ++ q :: l6) by (destruct Hl2; eauto). destruct E as (l6 & ->).
  destruct Hj as [->|Hj]; auto. apply in_split in Hj. destruct Hj as (la & lb & ->).
  assert (E1 : map f (((la ++ j0 :: lb) ++ j :: l4) ++ l5 ++ q :: l6) =
               map f la ++ f j0 :: map f lb ++ f j :: map f (l4 ++ l5 ++ q :: l6)).
  { repeat (progress (rewrite ?map_app, <- ?app_assoc; cbn [map app])). auto. }
  assert (E2 : map f (((la ++ j0 :: lb) ++ j :: l4) ++ l5 ++ q :: l6) =
               map f (la ++ j0 :: lb) ++ f j :: map f (l4 ++ l5) ++ f q :: map f l6).
  { repeat (progress (rewrite ?map_app, <- ?app_assoc; cbn [map app])). auto. }
  unfold distance. destruct HM as [HM|HM].
  - pose proof (HM _ _ _ _ _ E1). pose proof (HM _ _ _ _ _ E2). lia.
  - pose proof (HM _ _ _ _ _ E1). pose proof (HM _ _ _ _ _ E2). lia.
Qed.

Lemma mono_NoDup (f : nat -> nat) l : strictly_monotone (map f l) -> NoDup l.
Proof.
  intros HM. assert (G : forall l1 l2, l = l1 ++ l2 -> NoDup l2).
  { intros l1 l2. revert l1. induction l2 as [|a l2 IH]; intros l1 E; constructor.
    - intros Hin. apply in_split in Hin. destruct Hin as (u & v & ->).
      assert (E1 : map f l = map f l1 ++ f a :: map f u ++ f a :: map f v).
      { rewrite E, map_app. cbn [map]. rewrite map_app. auto. }
      destruct HM as [HM|HM]; specialize (HM _ _ _ _ _ E1); lia.
    - apply (IH (l1 ++ [a])). rewrite <- app_assoc. auto. }
  apply (G [] l). auto.
Qed.

Lemma absdiff_distance a b : absdiff a b = distance a b.
Proof. unfold absdiff, distance. destruct (Nat.ltb_spec a b); lia. Qed.

Theorem sampling_cover_spec s idxs values req : (forall i, In i idxs -> i < length values) ->
  strictly_monotone (map (fun i => nth i values 0) idxs) ->
  exists out, compute_sampling s idxs values req = Some out /\ subsequence out idxs /\
    (forall x l, idxs = x :: l -> In x out) /\ (forall x l, idxs = l ++ [x] -> In x out) /\
    (forall x, In x idxs -> In x req -> In x out) /\
    (forall l1 p q l2, idxs = l1 ++ p :: q :: l2 -> ~ In p out ->
       exists l0 j l3, l1 = l0 ++ j :: l3 /\ In j out /\ (forall x, In x l3 -> ~ In x out) /\
         distance (nth q values 0) (nth j values 0) <= s).
Proof.
  intros Hi HM. destruct (sampling_total s idxs values req Hi) as [out E]. exists out. split; auto.
  pose proof (mono_NoDup _ _ HM) as N.
  split; [eapply sampling_subseq; eauto|]. split; [intros; eapply sampling_first; eauto|].
  split. { intros x l El. replace x with (last idxs 0) by (rewrite El; apply last_last).
           eapply sampling_last; eauto. rewrite El. destruct l; discriminate. }
  split; [intros; eapply sampling_req; eauto|].
  intros l1 p q l2 El Hp. destruct (sampling_cover s idxs values req out E l1 p q l2 N El Hp) as (j0 & H1 & H2 & H3).
  rewrite absdiff_distance in H3.
  destruct (last_such (fun x => contains x out) l1) as (l0 & j & l3 & Ej & H4 & H5).
  { exists j0. split; auto. apply contains_In; auto. }
  exists l0, j, l3. split; auto. split; [apply contains_In; auto|]. split.
  { intros x Hx Ho. apply contains_In in Ho. rewrite H5 in Ho by auto. discriminate. }
  assert (Hj0 : j0 = j \/ In j0 l0).
  { rewrite Ej in H1. apply in_app_iff in H1. destruct H1 as [H1|[H1|H1]]; auto.
    apply H5 in H1. apply contains_In in H2. congruence. }
  etransitivity; [|exact H3].
  apply (mono_cases (fun i => nth i values 0) l1 j0 (p :: q :: l2)) with (l3 := l0) (l4 := l3) (l5 := [p]); auto.
  - rewrite <- El. auto.
  - right. exists l2. auto.
Qed.

Lemma ssorted_mono (f : nat -> nat) l : (forall l1 a l2 b l3, map f l = l1 ++ a :: l2 ++ b :: l3 -> a < b) -> ssorted (map f l).
Proof.
  intros H. assert (G : forall l2 l1, map f l = l1 ++ l2 -> ssorted l2).
  { induction l2 as [|a l2 IH]; intros l1 E; constructor.
    - apply (IH (l1 ++ [a])). rewrite <- app_assoc. auto.
    - apply Forall_forall. intros b Hb. apply in_split in Hb. destruct Hb as (u & v & ->). eapply H; eauto. }
  apply (G _ []). auto.
Qed.
Theorem sampling_size_spec s idxs values req out lo hi :
  strictly_monotone (map (fun i => nth i values 0) idxs) ->
  (forall i, In i idxs -> lo <= nth i values 0 <= hi) ->
  compute_sampling s idxs values req = Some out -> (forall i, In i idxs -> i < length values) ->
  length out <= 2 * ((hi - lo) / (s + 1)) + 2 + length req.
Proof.
  intros HM HB E Hi. rewrite Nat.add_1_r. pose proof (mono_NoDup _ _ HM) as N.
  destruct HM as [HM|HM].
  - eapply sampling_size; eauto. apply ssorted_mono in HM. auto.
  - set (H := hi + fold_right Nat.max 0 values).
    assert (HH : forall v, In v values -> v <= H).
    { assert (G : forall l v, In v l -> v <= fold_right Nat.max 0 l).
      { induction l as [|a l IH]; intros v Hv; [destruct Hv|]. cbn [fold_right]. destruct Hv as [->|Hv]; [lia|]. specialize (IH v Hv). lia. }
      intros v Hv. apply G in Hv. unfold H. lia. }
    rewrite <- (sampling_mirror s values req H HH) in E.
    assert (Em : forall i, In i idxs -> nth i (map (fun v => H - v) values) 0 = H - nth i values 0).
    { intros i Hin. rewrite (nth_indep _ 0 (H - 0)) by (rewrite map_length; auto).
      exact (map_nth (fun v => H - v) values 0 i). }
    replace (hi - lo) with (H - lo - (H - hi)) by lia.
    eapply (sampling_size s idxs _ req out E); auto.
    + apply ssorted_mono. intros l1 a l2 b l3 El.
      rewrite (map_ext_in _ (fun i => H - nth i values 0)) in El by auto.
      rewrite <- (map_map (fun i => nth i values 0) (fun v => H - v)) in El.
      apply map_eq_app in El. destruct El as (la & lb & E1 & E2 & E3).
      apply map_eq_cons in E3. destruct E3 as (a' & lc & -> & <- & E4).
      apply map_eq_app in E4. destruct E4 as (ld & le & -> & E5 & E6).
      apply map_eq_cons in E6. destruct E6 as (b' & lf & -> & <- & E7).
      specialize (HM _ _ _ _ _ E1).
      assert (In a' (map (fun i => nth i values 0) idxs)) by (rewrite E1; apply in_app_iff; right; left; auto).
      apply in_map_iff in H0. destruct H0 as (i & <- & Hin). specialize (HB i Hin). lia.
    + intros i Hin. rewrite Em by auto. specialize (HB i Hin). lia.
Qed.
