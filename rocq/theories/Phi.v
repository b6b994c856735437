(** Theory of the phi functions on a text with its suffix array: neighbouring rows of the
    suffix array travel together in the text until a BWT run boundary. *)
From Coq Require Import List Arith Lia Bool Permutation ZifyBool ZifyNat.
From Verif Require Import Spec MBase Lists FM Runs.
Import ListNotations.

Section Phi.
  Variable T sa : list nat.
  Hypothesis HT : text_ok T.
  Hypothesis HSA : is_suffix_array T sa.

  Notation n := (len T).
  Notation SA := (SA sa).
  Notation ISA := (ISA sa).
  Notation BW := (BW T sa).
  Notation bw := (bw T sa).
  Notation LFr := (LFr T sa).
  Notation PSr := (PSr T sa).
  Notation csucc := (csucc T).

  Local Hint Resolve n_pos SA_lt ISA_lt cpred_lt csucc_lt LFr_lt PSr_lt : fm.
  Ltac fm := eauto with fm.

  (** Text position of the symbol of BWT row [i]. *)
  Definition tpos (i : nat) : nat := cpred n (SA i).
  Definition headr (i : nat) : bool := headb BW i.
  Definition tailr (i : nat) : bool := tailb BW i.

  Lemma headr_0 : headr 0 = true.
  Proof. reflexivity. Qed.
  Lemma tailr_last : tailr (n - 1) = true.
  Proof. unfold tailr, tailb. rewrite (BW_length T sa) by auto. rewrite Nat.eqb_refl. reflexivity. Qed.
  Lemma headr_S i : S i < n -> headr (S i) = tailr i.
  Proof.
    intros H. unfold headr, headb, tailr, tailb. rewrite (BW_length T sa) by auto.
    replace (S i - 1) with i by lia. destruct (Nat.eqb_spec i (n - 1)); [lia|].
    destruct (Nat.eqb_spec (S i) 0); [lia|]. reflexivity.
  Qed.
  Lemma headr_false i : i < n -> headr i = false -> 0 < i /\ bw (i - 1) = bw i.
  Proof.
    intros H. unfold headr, headb. destruct (Nat.eqb_spec i 0); [discriminate|]. cbn [orb].
    destruct (Nat.eqb_spec (nth (i - 1) BW 0) (nth i BW 0)) as [E|]; [|discriminate].
    intros _. split; [lia|]. exact E.
  Qed.
  Lemma tailr_false i : i < n -> tailr i = false -> S i < n /\ bw (S i) = bw i.
  Proof.
    intros H Ht. destruct (Nat.eq_dec i (n - 1)) as [->|Hn]; [rewrite tailr_last in Ht; discriminate|].
    split; [lia|]. rewrite <- headr_S in Ht by lia. apply headr_false in Ht; [|lia].
    destruct Ht as [_ Ht]. replace (S i - 1) with i in Ht by lia. auto.
  Qed.

  Lemma tpos_lt i : tpos i < n.
  Proof. apply cpred_lt; auto. Qed.
  Lemma tpos_LFr i : tpos i = SA (LFr i).
  Proof. unfold tpos. symmetry. apply SA_LFr; auto. Qed.
  Lemma csucc_tpos i : i < n -> csucc (tpos i) = SA i.
  Proof. intros. unfold tpos. apply csucc_cpred; fm. Qed.
  Lemma tpos_inj i j : i < n -> j < n -> tpos i = tpos j -> i = j.
  Proof.
    intros Hi Hj H. apply (SA_inj T sa); auto.
    rewrite <- (csucc_tpos i), <- (csucc_tpos j) by auto. congruence.
  Qed.
  Lemma tpos_ISA a : a < n -> tpos (ISA (csucc a)) = a.
  Proof.
    intros H. unfold tpos. rewrite (SA_ISA T sa) by fm. apply cpred_csucc; auto.
  Qed.

  (** The value before / after a value in the (circular) suffix array. *)
  Definition PHI (v : nat) : nat := SA (cpred n (ISA v)).
  Definition PHIF (v : nat) : nat := SA (csucc (ISA v)).

  Lemma PHI_SA i : S i < n -> PHI (SA (S i)) = SA i.
  Proof. intros H. unfold PHI. rewrite (ISA_SA T sa) by (auto; lia). rewrite cpred_S by auto. reflexivity. Qed.
  Lemma PHIF_SA i : S i < n -> PHIF (SA i) = SA (S i).
  Proof. intros H. unfold PHIF. rewrite (ISA_SA T sa) by (auto; lia). rewrite csucc_small by auto. reflexivity. Qed.
  Lemma PHI_lt v : PHI v < n.
  Proof. unfold PHI. fm. Qed.
  Lemma PHIF_lt v : PHIF v < n.
  Proof. unfold PHIF. fm. Qed.

  Lemma PHI_step v : v < n -> headr (ISA (csucc v)) = false -> PHI (csucc v) = csucc (PHI v).
  Proof.
    intros Hv Hh. set (i := ISA (csucc v)) in *.
    assert (Hi : i < n) by (unfold i; fm).
    apply headr_false in Hh; auto. destruct Hh as [H0 E].
    assert (EL : LFr i = S (LFr (i - 1))).
    { replace i with (S (i - 1)) at 1 by lia. apply LFr_consecutive; auto; [lia|].
      rewrite E. f_equal. lia. }
    assert (EI : ISA v = LFr i).
    { rewrite <- (tpos_ISA v) at 1 by auto. fold i. rewrite tpos_LFr. apply (ISA_SA T sa); auto. fm. }
    assert (Hlt : LFr i < n) by fm.
    unfold PHI. fold i. rewrite EI, EL, cpred_S by (auto; lia). rewrite <- tpos_LFr.
    rewrite csucc_tpos by lia. f_equal. replace i with (S (i - 1)) at 1 by lia. apply cpred_S; auto; lia.
  Qed.

  Lemma PHIF_step v : v < n -> tailr (ISA (csucc v)) = false -> PHIF (csucc v) = csucc (PHIF v).
  Proof.
    intros Hv Hh. set (i := ISA (csucc v)) in *.
    assert (Hi : i < n) by (unfold i; fm).
    apply tailr_false in Hh; auto. destruct Hh as [H0 E].
    assert (EL : LFr (S i) = S (LFr i)) by (apply LFr_consecutive; auto).
    assert (EI : ISA v = LFr i).
    { rewrite <- (tpos_ISA v) at 1 by auto. fold i. rewrite tpos_LFr. apply (ISA_SA T sa); auto. fm. }
    assert (Hlt : LFr (S i) < n) by fm.
    unfold PHIF. fold i. rewrite EI, (csucc_small T (LFr i)), <- EL by lia. rewrite <- tpos_LFr.
    rewrite csucc_tpos by lia. f_equal. apply csucc_small; auto.
  Qed.

  Lemma csucc_add a d : csucc ((a + d) mod n) = (a + S d) mod n.
  Proof.
    pose proof (n_pos T HT). unfold csucc. rewrite Nat.add_mod_idemp_l by lia. f_equal. lia.
  Qed.

  Lemma PHI_travel a d : a < n -> (forall k, k < d -> headr (ISA ((a + S k) mod n)) = false) ->
    PHI ((a + d) mod n) = (PHI a + d) mod n.
  Proof.
    intros Ha. pose proof (n_pos T HT). induction d as [|d IH]; intros H'.
    - rewrite !Nat.add_0_r, !Nat.mod_small; auto. apply PHI_lt.
    - rewrite <- !csucc_add. rewrite PHI_step.
      + rewrite IH; auto.
      + apply Nat.mod_upper_bound; lia.
      + rewrite csucc_add. apply H'. lia.
  Qed.

  Lemma PHIF_travel a d : a < n -> (forall k, k < d -> tailr (ISA ((a + S k) mod n)) = false) ->
    PHIF ((a + d) mod n) = (PHIF a + d) mod n.
  Proof.
    intros Ha. pose proof (n_pos T HT). induction d as [|d IH]; intros H'.
    - rewrite !Nat.add_0_r, !Nat.mod_small; auto. apply PHIF_lt.
    - rewrite <- !csucc_add. rewrite PHIF_step.
      + rewrite IH; auto.
      + apply Nat.mod_upper_bound; lia.
      + rewrite csucc_add. apply H'. lia.
  Qed.

  (** The row whose BWT symbol is the terminator. *)
  Lemma SA_0 : SA 0 = n - 1.
  Proof.
    pose proof (n_pos T HT).
    assert (Hn : n - 1 < n) by lia.
    pose proof (ISA_lt T sa HSA (n - 1) Hn) as Hl. pose proof (SA_ISA T sa HSA (n - 1) Hn) as He.
    destruct (ISA (n - 1)) as [|k] eqn:E; [auto|exfalso].
    assert (HL : lex_lt (suffix T (SA 0)) (suffix T (SA (S k)))) by (apply (SA_lex T sa HSA); lia).
    rewrite He in HL. rewrite (suffix_cons T (n - 1)), (tx_last T HT) in HL by auto.
    replace (S (n - 1)) with n in HL by lia.
    assert (suffix T n = []) by (unfold suffix, len; apply skipn_all).
    rewrite H0 in HL. rewrite (suffix_cons T (SA 0)) in HL by fm.
    inversion HL; subst; [lia|].
    match goal with H : lex_lt _ [] |- _ => inversion H end.
  Qed.

  Lemma row_of_zero : bw (ISA 0) = 0.
  Proof.
    pose proof (n_pos T HT). rewrite (bw_tx T sa) by fm. rewrite (SA_ISA T sa) by auto.
    rewrite (cpred_0 T) by auto. apply tx_last; auto.
  Qed.
  Lemma bw_zero_row i : i < n -> bw i = 0 -> i = ISA 0.
  Proof.
    intros H E. pose proof (n_pos T HT). apply (SA_inj T sa); auto; [fm|].
    rewrite (SA_ISA T sa) by auto. eapply bw_zero; eauto.
  Qed.
  Lemma ISA_0_head : headr (ISA 0) = true.
  Proof.
    pose proof (n_pos T HT). destruct (headr (ISA 0)) eqn:E; auto. exfalso.
    apply headr_false in E; [|fm]. destruct E as [H0 E]. rewrite row_of_zero in E.
    assert (ISA 0 < n) by fm. apply bw_zero_row in E; lia.
  Qed.
  Lemma ISA_0_tail : tailr (ISA 0) = true.
  Proof.
    pose proof (n_pos T HT). destruct (tailr (ISA 0)) eqn:E; auto. exfalso.
    apply tailr_false in E; [|fm]. destruct E as [H0 E]. rewrite row_of_zero in E.
    apply bw_zero_row in E; lia.
  Qed.
  Lemma tpos_ISA_0 : tpos (ISA 0) = n - 1.
  Proof. pose proof (n_pos T HT). unfold tpos. rewrite (SA_ISA T sa) by auto. apply cpred_0; auto. Qed.

  (** Marks of the backward phi: text positions of run heads; of the forward phi: run tails. *)
  Definition is_hmark (m : nat) : Prop := exists h, h < n /\ headr h = true /\ tpos h = m.
  Definition is_tmark (m : nat) : Prop := exists h, h < n /\ tailr h = true /\ tpos h = m.

  Lemma is_hmark_lt m : is_hmark m -> m < n.
  Proof. intros [h [_ [_ <-]]]. apply tpos_lt. Qed.
  Lemma is_tmark_lt m : is_tmark m -> m < n.
  Proof. intros [h [_ [_ <-]]]. apply tpos_lt. Qed.
  Lemma is_hmark_head v : v < n -> is_hmark v <-> headr (ISA (csucc v)) = true.
  Proof.
    intros Hv. split.
    - intros [h [Hh [Hd E]]]. replace (ISA (csucc v)) with h; auto.
      apply tpos_inj; fm. rewrite tpos_ISA; auto.
    - intros Hd. exists (ISA (csucc v)). split; [fm|]. split; auto. apply tpos_ISA; auto.
  Qed.
  Lemma is_tmark_tail v : v < n -> is_tmark v <-> tailr (ISA (csucc v)) = true.
  Proof.
    intros Hv. split.
    - intros [h [Hh [Hd E]]]. replace (ISA (csucc v)) with h; auto.
      apply tpos_inj; fm. rewrite tpos_ISA; auto.
    - intros Hd. exists (ISA (csucc v)). split; [fm|]. split; auto. apply tpos_ISA; auto.
  Qed.
  Lemma last_hmark : is_hmark (n - 1).
  Proof.
    pose proof (n_pos T HT). exists (ISA 0). split; [fm|]. split; [apply ISA_0_head|apply tpos_ISA_0].
  Qed.
  Lemma last_tmark : is_tmark (n - 1).
  Proof.
    pose proof (n_pos T HT). exists (ISA 0). split; [fm|]. split; [apply ISA_0_tail|apply tpos_ISA_0].
  Qed.

  (** Backward phi from the mark of head [h], [delta] positions before [v] with no mark in
      between: the sample is the text position of the row before [h]. *)
  Theorem PHI_from_mark h delta v : h < n -> 0 < delta -> v < n ->
    (tpos h + delta) mod n = v ->
    (forall k, 0 < k < delta -> ~ is_hmark ((tpos h + k) mod n)) ->
    PHI v = (tpos (cpred n h) + delta) mod n.
  Proof.
    intros Hh Hd Hv E Hno. pose proof (n_pos T HT).
    assert (EA : forall k, (SA h + k) mod n = (tpos h + S k) mod n).
    { intros k. rewrite <- csucc_tpos by auto. unfold csucc. rewrite Nat.add_mod_idemp_l by lia. f_equal. lia. }
    assert (Ev : v = (SA h + (delta - 1)) mod n) by (rewrite EA; rewrite <- E; f_equal; lia).
    rewrite Ev. rewrite PHI_travel.
    - unfold PHI. rewrite (ISA_SA T sa) by auto.
      rewrite <- (csucc_tpos (cpred n h)) by fm. unfold csucc. rewrite Nat.add_mod_idemp_l by lia. f_equal. lia.
    - fm.
    - intros k Hk. rewrite EA.
      specialize (Hno (S k) ltac:(lia)). rewrite is_hmark_head in Hno by (apply Nat.mod_upper_bound; lia).
      rewrite csucc_add in Hno. destruct (headr _); auto. congruence.
  Qed.

  (** Forward phi: [m] is a mark at distance [delta] after [v], no mark in between. *)
  Theorem PHIF_from_mark m delta v : v < n -> m < n -> (v + delta) mod n = m ->
    (forall k, k < delta -> ~ is_tmark ((v + k) mod n)) ->
    PHIF m = (PHIF v + delta) mod n.
  Proof.
    intros Hv Hm E Hno. rewrite <- E. apply PHIF_travel; auto.
    intros k Hk. specialize (Hno k Hk). pose proof (n_pos T HT).
    rewrite is_tmark_tail in Hno by (apply Nat.mod_upper_bound; lia).
    rewrite csucc_add in Hno. destruct (tailr _); auto. congruence.
  Qed.

  (** The row associated to the forward mark of tail [i]: always a run head. *)
  Definition flink (i : nat) : nat := PSr (csucc (LFr i)).
  Lemma flink_lt i : flink i < n.
  Proof. unfold flink. fm. Qed.
  Lemma tpos_flink i : i < n -> tpos (flink i) = PHIF (tpos i).
  Proof.
    intros H. unfold flink, PHIF. rewrite !tpos_LFr. rewrite (LFr_PSr T sa) by fm.
    rewrite (ISA_SA T sa) by fm. reflexivity.
  Qed.

  Lemma PSr_csucc_tail i : i < n -> tailr i = true -> headr (PSr (csucc (LFr i))) = true.
  Proof.
    intros Hi Ht. set (p := PSr (csucc (LFr i))).
    destruct (headr p) eqn:E; auto. exfalso.
    assert (Hp : p < n) by (unfold p; fm).
    apply headr_false in E; auto. destruct E as [H0 E].
    assert (EL : LFr p = S (LFr (p - 1))).
    { replace p with (S (p - 1)) at 1 by lia. apply LFr_consecutive; auto; [lia|]. rewrite E. f_equal. lia. }
    unfold p in EL at 1. rewrite (LFr_PSr T sa) in EL by fm.
    assert (LFr i < n) by fm. assert (LFr (p - 1) < n) by fm.
    destruct (Nat.eq_dec (LFr i) (n - 1)) as [e|Hne].
    { rewrite e, csucc_last in EL by auto. lia. }
    rewrite csucc_small in EL by lia. assert (LFr i = LFr (p - 1)) by lia.
    apply (LFr_inj T sa) in H2; auto; try lia. clearbody p. subst i.
    rewrite <- headr_S in Ht by lia. replace (S (p - 1)) with p in Ht by lia.
    unfold headr, headb in Ht. unfold bw in E.
    destruct (Nat.eqb_spec p 0); [lia|]. rewrite E, Nat.eqb_refl in Ht. discriminate.
  Qed.

  Lemma flink_head i : i < n -> tailr i = true -> headr (flink i) = true.
  Proof. apply PSr_csucc_tail. Qed.

  (** The tail that corresponds to a head: inverse of [flink]. *)
  Definition blink (h : nat) : nat := PSr (cpred n (LFr h)).
  Lemma blink_flink i : i < n -> blink (flink i) = i.
  Proof.
    intros H. unfold blink, flink. rewrite (LFr_PSr T sa) by fm. rewrite cpred_csucc by (auto; fm).
    apply (PSr_LFr T sa); auto.
  Qed.
  Lemma flink_blink h : h < n -> flink (blink h) = h.
  Proof.
    intros H. unfold blink, flink. rewrite (LFr_PSr T sa) by fm. rewrite csucc_cpred by (auto; fm).
    apply (PSr_LFr T sa); auto.
  Qed.
  Lemma blink_lt h : blink h < n.
  Proof. unfold blink. fm. Qed.
  Lemma blink_tail h : h < n -> headr h = true -> tailr (blink h) = true.
  Proof.
    intros Hh Hd. set (p := blink h). assert (Hp : p < n) by apply blink_lt.
    destruct (tailr p) eqn:E; auto. exfalso.
    apply tailr_false in E; auto. destruct E as [H0 E].
    assert (EL : LFr (S p) = S (LFr p)) by (apply LFr_consecutive; auto).
    assert (E2 : flink p = S p).
    { unfold flink. assert (LFr (S p) < n) by fm. rewrite csucc_small by lia. rewrite <- EL.
      apply (PSr_LFr T sa); auto. }
    unfold p in E2 at 1. rewrite flink_blink in E2 by auto. clearbody p. subst h.
    unfold headr, headb in Hd. unfold bw in E. destruct (Nat.eqb_spec (S p) 0); [lia|].
    replace (S p - 1) with p in Hd by lia. rewrite E, Nat.eqb_refl in Hd. discriminate.
  Qed.
End Phi.
