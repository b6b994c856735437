(** Properties of computeSampling. *)
From Coq Require Import List Arith Bool Lia ZifyBool ZifyNat.
From Verif Require Import Spec MBase Lists MConstruct MSrIndex Util.
Import ListNotations.

Definition absdiff (a b : nat) : nat := if a <? b then b - a else a - b.

Lemma contains_In x l : contains x l = true <-> In x l.
Proof.
  unfold contains. rewrite existsb_exists. split.
  - intros (y & Hy & E). apply Nat.eqb_eq in E. subst. auto.
  - intros H. exists x. rewrite Nat.eqb_refl. auto.
Qed.

(** Opaque to lia. *)
Definition dv (s x : nat) : nat := x / S s.
Lemma dv_mono s x y : x <= y -> dv s x <= dv s y.
Proof. intros. unfold dv. apply Nat.div_le_mono; lia. Qed.

Section Loop.
  Variables (s : nat) (values req : list nat).
  Let val (i : nat) : nat := nth i values 0.

  Lemma loop_total : forall rest prev_idx prev last,
    (forall i, In i rest -> i < length values) ->
    exists r, sampling_loop s values req prev_idx prev last rest = Some r.
  Proof.
    induction rest as [|c rest IH]; intros p pv last H; cbn [sampling_loop]; eauto.
    rewrite (nth_error_nth' values 0) by (apply H; left; auto). cbn [bind].
    destruct (_ || _).
    - destruct (IH c (nth c values 0) pv) as [r ->]; [intros; apply H; right; auto|]. cbn [bind]. eauto.
    - apply IH. intros; apply H; right; auto.
  Qed.

  Lemma loop_incl : forall rest p pv last r, sampling_loop s values req p pv last rest = Some r ->
    forall x, In x r -> In x (p :: rest).
  Proof.
    induction rest as [|c rest IH]; intros p pv last r E x Hx; cbn [sampling_loop] in E.
    - injection E as <-. auto.
    - destruct (nth_error values c) as [cv|]; [|discriminate]. cbn [bind] in E.
      destruct (_ || _).
      + destruct (sampling_loop s values req c cv pv rest) as [r'|] eqn:E'; [|discriminate]. injection E as <-.
        destruct Hx as [->|Hx]; [left; auto|]. right. eapply IH; eauto.
      + right. eapply IH; eauto.
  Qed.

  Lemma loop_NoDup : forall rest p pv last r, sampling_loop s values req p pv last rest = Some r ->
    NoDup (p :: rest) -> NoDup r.
  Proof.
    induction rest as [|c rest IH]; intros p pv last r E N; cbn [sampling_loop] in E.
    - injection E as <-. auto.
    - destruct (nth_error values c) as [cv|]; [|discriminate]. cbn [bind] in E.
      inversion_clear N as [|? ? N1 N2]. destruct (_ || _).
      + destruct (sampling_loop s values req c cv pv rest) as [r'|] eqn:E'; [|discriminate]. injection E as <-.
        constructor; [|eapply IH; eauto]. intros H. apply N1. eapply loop_incl; eauto.
      + eapply IH; eauto.
  Qed.

  Lemma loop_last : forall rest p pv last r, sampling_loop s values req p pv last rest = Some r ->
    In (List.last (p :: rest) 0) r.
  Proof.
    induction rest as [|c rest IH]; intros p pv last r E; cbn [sampling_loop] in E.
    - injection E as <-. left; auto.
    - destruct (nth_error values c) as [cv|]; [|discriminate]. cbn [bind] in E.
      change (List.last (p :: c :: rest) 0) with (List.last (c :: rest) 0). destruct (_ || _).
      + destruct (sampling_loop s values req c cv pv rest) as [r'|] eqn:E'; [|discriminate]. injection E as <-.
        right. eapply IH; eauto.
      + eapply IH; eauto.
  Qed.

  Lemma loop_req : forall rest p pv last r, sampling_loop s values req p pv last rest = Some r ->
    forall x, In x (p :: rest) -> In x req -> In x r.
  Proof.
    induction rest as [|c rest IH]; intros p pv last r E x Hx Hr; cbn [sampling_loop] in E.
    - injection E as <-. auto.
    - destruct (nth_error values c) as [cv|]; [|discriminate]. cbn [bind] in E.
      destruct (_ || _) eqn:B.
      + destruct (sampling_loop s values req c cv pv rest) as [r'|] eqn:E'; [|discriminate]. injection E as <-.
        destruct Hx as [->|Hx]; [left; auto|]. right. eapply IH; eauto.
      + destruct Hx as [->|Hx]; [|eapply IH; eauto].
        apply contains_In in Hr. rewrite Hr, orb_true_r in B. discriminate.
  Qed.

  (** A skipped element is within [s] of ... the element after it is within [s] of an earlier kept one. *)
  Lemma loop_cover : forall rest p pv lst r, sampling_loop s values req p pv lst rest = Some r ->
    NoDup (p :: rest) -> pv = val p ->
    forall l1 x q l2, p :: rest = l1 ++ x :: q :: l2 -> ~ In x r ->
    absdiff (val q) lst <= s \/ exists j, In j l1 /\ In j r /\ absdiff (val q) (val j) <= s.
  Proof.
    induction rest as [|c rest IH]; intros p pv lst r E N Ev l1 x q l2 Hl Hx; cbn [sampling_loop] in E.
    - destruct l1 as [|? [|? ?]]; discriminate.
    - destruct (nth_error values c) as [cv|] eqn:Ec; [|discriminate]. cbn [bind] in E.
      assert (Ecv : cv = val c) by (unfold val; symmetry; apply nth_error_nth; auto).
      inversion N as [|? ? N1 N2]; subst.
      destruct (_ || _) eqn:B.
      + destruct (sampling_loop s values req c (val c) (val p) rest) as [r'|] eqn:E'; [|discriminate].
        injection E as <-. destruct l1 as [|y l1].
        * injection Hl as -> ->. exfalso. apply Hx. left; auto.
        * injection Hl as -> Hl. destruct (IH c (val c) (val y) r' E' N2 eq_refl l1 x q l2 Hl) as [H|(j & H1 & H2 & H3)].
          { intros H. apply Hx. right; auto. }
          { right. exists y. split; [left; auto|]. split; [left; auto|auto]. }
          { right. exists j. split; [right; auto|]. split; [right; auto|auto]. }
      + destruct l1 as [|y l1].
        * injection Hl as E1 E2 E3. subst. left. unfold absdiff. lia.
        * injection Hl as -> Hl. destruct (IH c (val c) lst r E N2 eq_refl l1 x q l2 Hl Hx) as [H|(j & H1 & H2 & H3)]; auto.
          right. exists j. split; [right; auto|auto].
  Qed.

  (** Size. *)
  Lemma div_step x y : y + S s <= x -> dv s y + 1 <= dv s x.
  Proof.
    intros H. unfold dv. rewrite <- Nat.div_add by lia. apply Nat.div_le_mono; lia.
  Qed.
  Lemma loop_size : forall rest p pv lst r L, sampling_loop s values req p pv lst rest = Some r ->
    pv = val p -> lst <= pv -> ssorted (map val (p :: rest)) -> (forall i, In i (p :: rest) -> val i <= L) ->
    length r <= 1 + length (filter (fun i => contains i req) (p :: rest)) + dv s (L - lst) + dv s (L - pv).
  Proof.
    induction rest as [|c rest IH]; intros p pv lst r L E Ev Hl HS HL; cbn [sampling_loop] in E.
    - injection E as <-. cbn [length]. lia.
    - destruct (nth_error values c) as [cv|] eqn:Ec; [|discriminate]. cbn [bind] in E.
      assert (Ecv : cv = val c) by (unfold val; symmetry; apply nth_error_nth; auto).
      assert (Hpc : val p < val c).
      { cbn [map] in HS. inversion HS as [|? ? H1 H2]. inversion H2; auto. }
      assert (HS' : ssorted (map val (c :: rest))) by (cbn [map] in *; inversion HS; auto).
      assert (HL' : forall i, In i (c :: rest) -> val i <= L) by (intros; apply HL; right; auto).
      pose proof (HL c ltac:(right; left; auto)) as HLc.
      pose proof (dv_mono s) as M.
      pose proof (M (L - val c) (L - val p) ltac:(lia)) as M1.
      pose proof (M (L - val p) (L - lst) ltac:(lia)) as M2.
      subst pv cv. cbn [filter]. destruct (_ || _) eqn:B.
      + destruct (sampling_loop s values req c (val c) (val p) rest) as [r'|] eqn:E'; [|discriminate].
        injection E as <-. pose proof (IH c (val c) (val p) r' L E' eq_refl ltac:(lia) HS' HL') as H.
        cbn [filter] in H. cbn [length]. apply orb_prop in B. destruct B as [B|B].
        * pose proof (div_step (L - lst) (L - val c)) as D.
          assert (val c >= lst + S s) by (destruct (val c <? lst) eqn:?; lia).
          specialize (D ltac:(lia)). destruct (contains p req); cbn [length]; lia.
        * rewrite B. cbn [length]. lia.
      + pose proof (IH c (val c) lst r L E eq_refl ltac:(lia) HS' HL') as H. cbn [filter] in H.
        destruct (contains p req); cbn [length]; lia.
  Qed.
End Loop.

Section Sampling.
  Variables (s : nat) (idxs values req out : list nat).
  Hypothesis Hout : compute_sampling s idxs values req = Some out.
  Let val (i : nat) : nat := nth i values 0.

  Lemma sampling_incl x : In x out -> In x idxs.
  Proof.
    intros Hx. unfold compute_sampling in Hout. destruct idxs as [|a [|b rest]].
    - injection Hout as <-. auto.
    - destruct (nth_error values a); [|discriminate]. injection Hout as <-. auto.
    - destruct (nth_error values a) as [va|]; [|discriminate]. cbn [bind] in Hout.
      destruct (nth_error values b) as [vb|]; [|discriminate]. cbn [bind] in Hout.
      destruct (sampling_loop _ _ _ _ _ _ _) as [r|] eqn:E; [|discriminate]. injection Hout as <-.
      destruct Hx as [->|Hx]; [left; auto|]. right. eapply loop_incl; eauto.
  Qed.
  Lemma sampling_NoDup : NoDup idxs -> NoDup out.
  Proof.
    intros N. unfold compute_sampling in Hout. destruct idxs as [|a [|b rest]].
    - injection Hout as <-. auto.
    - destruct (nth_error values a); [|discriminate]. injection Hout as <-. auto.
    - destruct (nth_error values a) as [va|]; [|discriminate]. cbn [bind] in Hout.
      destruct (nth_error values b) as [vb|]; [|discriminate]. cbn [bind] in Hout.
      destruct (sampling_loop _ _ _ _ _ _ _) as [r|] eqn:E; [|discriminate]. injection Hout as <-.
      inversion_clear N as [|? ? N1 N2]. constructor; [|eapply loop_NoDup; eauto].
      intros Q. apply N1. eapply loop_incl; eauto.
  Qed.
  Lemma sampling_first x l : idxs = x :: l -> In x out.
  Proof.
    intros ->. unfold compute_sampling in Hout. destruct (nth_error values x) as [va|]; [|discriminate].
    cbn [bind] in Hout. destruct l as [|b rest].
    - injection Hout as <-. left; auto.
    - destruct (nth_error values b) as [vb|]; [|discriminate]. cbn [bind] in Hout.
      destruct (sampling_loop _ _ _ _ _ _ _) as [r|] eqn:E; [|discriminate]. injection Hout as <-. left; auto.
  Qed.
  Lemma sampling_last : idxs <> [] -> In (last idxs 0) out.
  Proof.
    intros Hn. unfold compute_sampling in Hout. destruct idxs as [|a [|b rest]]; [congruence| |].
    - destruct (nth_error values a); [|discriminate]. injection Hout as <-. left; auto.
    - destruct (nth_error values a) as [va|]; [|discriminate]. cbn [bind] in Hout.
      destruct (nth_error values b) as [vb|]; [|discriminate]. cbn [bind] in Hout.
      destruct (sampling_loop _ _ _ _ _ _ _) as [r|] eqn:E; [|discriminate]. injection Hout as <-.
      right. change (last (a :: b :: rest) 0) with (last (b :: rest) 0). eapply loop_last; eauto.
  Qed.
  Lemma sampling_req x : In x idxs -> In x req -> In x out.
  Proof.
    intros Hx Hr. unfold compute_sampling in Hout. destruct idxs as [|a [|b rest]]; [destruct Hx| |].
    - destruct (nth_error values a); [|discriminate]. injection Hout as <-. auto.
    - destruct (nth_error values a) as [va|]; [|discriminate]. cbn [bind] in Hout.
      destruct (nth_error values b) as [vb|]; [|discriminate]. cbn [bind] in Hout.
      destruct (sampling_loop _ _ _ _ _ _ _) as [r|] eqn:E; [|discriminate]. injection Hout as <-.
      destruct Hx as [->|Hx]; [left; auto|]. right. eapply loop_req; eauto.
  Qed.
  Lemma sampling_cover l1 p q l2 : NoDup idxs -> idxs = l1 ++ p :: q :: l2 -> ~ In p out ->
    exists j, In j l1 /\ In j out /\ absdiff (val q) (val j) <= s.
  Proof.
    intros N El Hp. unfold compute_sampling in Hout. destruct idxs as [|a [|b rest]].
    - destruct l1; discriminate.
    - destruct l1 as [|? [|? ?]]; discriminate.
    - destruct (nth_error values a) as [va|] eqn:Ea; [|discriminate]. cbn [bind] in Hout.
      destruct (nth_error values b) as [vb|] eqn:Eb; [|discriminate]. cbn [bind] in Hout.
      destruct (sampling_loop _ _ _ _ _ _ _) as [r|] eqn:E; [|discriminate]. injection Hout as <-.
      destruct l1 as [|y l1].
      + injection El as -> -> ->. exfalso. apply Hp. left; auto.
      + injection El as -> El. inversion_clear N as [|? ? N1 N2].
        destruct (loop_cover s values req rest b vb va r E N2) with (l1 := l1) (x := p) (q := q) (l2 := l2)
          as [H|(j & H1 & H2 & H3)]; auto.
        * symmetry. apply nth_error_nth. auto.
        * intros H. apply Hp. right; auto.
        * exists y. split; [left; auto|]. split; [left; auto|].
          replace (val y) with va by (symmetry; apply nth_error_nth; auto). auto.
        * exists j. split; [right; auto|]. split; [right; auto|auto].
  Qed.
  Lemma sampling_size lo hi : ssorted (map val idxs) -> NoDup idxs ->
    (forall i, In i idxs -> lo <= val i <= hi) ->
    length out <= 2 * ((hi - lo) / S s) + 2 + length req.
  Proof.
    intros HS N HB. fold (dv s (hi - lo)). unfold compute_sampling in Hout. destruct idxs as [|a [|b rest]].
    - injection Hout as <-. cbn [length]. lia.
    - destruct (nth_error values a); [|discriminate]. injection Hout as <-. cbn [length]. lia.
    - destruct (nth_error values a) as [va|] eqn:Ea; [|discriminate]. cbn [bind] in Hout.
      destruct (nth_error values b) as [vb|] eqn:Eb; [|discriminate]. cbn [bind] in Hout.
      destruct (sampling_loop _ _ _ _ _ _ _) as [r|] eqn:E; [|discriminate]. injection Hout as <-.
      assert (Eva : va = val a) by (symmetry; apply nth_error_nth; auto).
      assert (Evb : vb = val b) by (symmetry; apply nth_error_nth; auto).
      assert (Hab : val a < val b).
      { cbn [map] in HS. inversion HS as [|? ? H1 H2]. inversion H2; auto. }
      assert (HS' : ssorted (map val (b :: rest))) by (cbn [map] in *; inversion HS; auto).
      pose proof (loop_size s values req rest b vb va r hi E Evb ltac:(lia) HS') as H.
      assert (HB' : forall i, In i (b :: rest) -> val i <= hi) by (intros; apply HB; right; auto).
      specialize (H HB').
      assert (Q : length (filter (fun i => contains i req) (b :: rest)) <= length req).
      { apply NoDup_incl_length.
        - apply NoDup_filter. inversion N; auto.
        - intros x Hx. apply filter_In in Hx. apply contains_In, Hx. }
      pose proof (HB a ltac:(left; auto)). pose proof (HB b ltac:(right; left; auto)).
      pose proof (dv_mono s (hi - va) (hi - lo) ltac:(lia)).
      pose proof (dv_mono s (hi - vb) (hi - lo) ltac:(lia)).
      cbn [length]. lia.
  Qed.
End Sampling.
Lemma sampling_total s idxs values req : (forall i, In i idxs -> i < length values) ->
  exists out, compute_sampling s idxs values req = Some out.
Proof.
  intros H. unfold compute_sampling. destruct idxs as [|a [|b rest]]; eauto.
  - rewrite (nth_error_nth' values 0) by (apply H; left; auto). cbn [bind]. eauto.
  - rewrite (nth_error_nth' values 0) by (apply H; left; auto). cbn [bind].
    rewrite (nth_error_nth' values 0) by (apply H; right; left; auto). cbn [bind].
    destruct (loop_total s values req rest b (nth b values 0) (nth a values 0)) as [r ->].
    + intros; apply H; right; right; auto.
    + cbn [bind]. eauto.
Qed.
