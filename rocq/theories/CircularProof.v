(** Circular matches in the text, and the answers of the indexes in terms of them. *)
From Coq Require Import List Arith Bool Lia Permutation.
From Verif Require Import Spec SpecCircular.
Import ListNotations.

Lemma nth_error_ext {A} : forall (x y : list A), (forall k, nth_error x k = nth_error y k) -> x = y.
Proof.
  induction x as [|a x IH]; intros [|b y] H; auto.
  - specialize (H 0). discriminate.
  - specialize (H 0). discriminate.
  - f_equal; [specialize (H 0); cbn in H; congruence|]. apply IH. intros k. apply (H (S k)).
Qed.
Lemma nth_error_skipn {A} : forall i (x : list A) k, nth_error (skipn i x) k = nth_error x (i + k).
Proof. induction i as [|i IH]; intros [|a x] k; cbn; auto. destruct k; auto. Qed.
Lemma nth_error_firstn {A} : forall m (x : list A) k, k < m -> nth_error (firstn m x) k = nth_error x k.
Proof. induction m as [|m IH]; intros [|a x] [|k] H; cbn; auto; try lia. apply IH. lia. Qed.
Lemma skipn_skipn {A} : forall a b (x : list A), skipn a (skipn b x) = skipn (b + a) x.
Proof. intros a. induction b as [|b IH]; intros [|y x]; cbn; auto. destruct a; auto. Qed.

Section Text.
  Variable w : list nat.
  Hypothesis Hw : zero_free w.
  Notation t := (terminated w).
  Notation N := (length w).

  Lemma t_length : length t = S N.
  Proof. unfold terminated. rewrite app_length. cbn. lia. Qed.
  Lemma t_low k : k < N -> nth_error t k = nth_error w k.
  Proof. intros H. unfold terminated. apply nth_error_app1. auto. Qed.
  Lemma t_last : nth_error t N = Some 0.
  Proof. unfold terminated. rewrite nth_error_app2, Nat.sub_diag by auto. auto. Qed.
  Lemma w_nz c : In c w -> c <> 0.
  Proof. intros H E. unfold zero_free in Hw. rewrite Forall_forall in Hw. apply Hw in H. lia. Qed.
  Lemma t_zero k : nth_error t k = Some 0 -> k = N.
  Proof.
    intros H. assert (k < S N) by (rewrite <- t_length; apply nth_error_Some; congruence).
    destruct (Nat.eq_dec k N); auto. rewrite t_low in H by lia. apply nth_error_In in H. apply w_nz in H. lia.
  Qed.
  Lemma searched_nth p k : nth_error (searched w p) k = option_map (fun c => if in_dec Nat.eq_dec c w then c else 0) (nth_error p k).
  Proof. unfold searched. apply nth_error_map. Qed.
  Lemma searched_in p k c : nth_error p k = Some c -> In c w -> nth_error (searched w p) k = Some c.
  Proof. intros H I. rewrite searched_nth, H. cbn. destruct (in_dec Nat.eq_dec c w); [auto|contradiction]. Qed.
  Lemma searched_out p k c : nth_error p k = Some c -> ~ In c w -> nth_error (searched w p) k = Some 0.
  Proof. intros H I. rewrite searched_nth, H. cbn. destruct (in_dec Nat.eq_dec c w); [contradiction|auto]. Qed.
  Lemma searched_some p k d : nth_error (searched w p) k = Some d -> d <> 0 -> nth_error p k = Some d.
  Proof.
    rewrite searched_nth. destruct (nth_error p k) as [c|]; cbn; [|discriminate].
    destruct (in_dec Nat.eq_dec c w); intros E; injection E as <-; congruence.
  Qed.
  Lemma searched_length p : length (searched w p) = length p.
  Proof. unfold searched. apply map_length. Qed.

  (** A pattern with an absent byte has at most one circular match. *)
  Lemma absent_one p i j : has_absent w p ->
    circular_at (searched w p) t i -> circular_at (searched w p) t j -> i = j.
  Proof.
    intros (c & I & Nc) [Hi Mi] [Hj Mj]. apply In_nth_error in I as [k Hk].
    pose proof (searched_out p k c Hk Nc) as Hz.
    apply Mi in Hz as Zi. apply Mj in Hz as Zj. apply t_zero in Zi. apply t_zero in Zj. rewrite t_length in *.
    assert (E : (i + k) mod S N = (j + k) mod S N) by congruence.
    assert (G : forall x y, x < S N -> y < S N -> x <= y -> (x + k) mod S N = (y + k) mod S N -> x = y).
    { intros x y Hx Hy Hxy F. pose proof (Nat.div_mod (x + k) (S N) ltac:(lia)). pose proof (Nat.div_mod (y + k) (S N) ltac:(lia)).
      assert (y - x = S N * ((y + k) / S N - (x + k) / S N)).
      { rewrite Nat.mul_sub_distr_l. lia. }
      destruct ((y + k) / S N - (x + k) / S N); lia. }
    destruct (Nat.le_ge_cases i j); [apply G|symmetry; apply G]; auto.
  Qed.

  Lemma circular_wraps p i : has_absent w p -> length p <= S N -> circular_at (searched w p) t i <-> wraps w p i.
  Proof.
    intros Ha Hl. split.
    - intros [Hi M]. destruct Ha as (x & I & Nx). apply In_nth_error in I as [k Hk].
      assert (Lk : k < length p) by (apply nth_error_Some; congruence).
      pose proof (M k 0 (searched_out p k x Hk Nx)) as Z. apply t_zero in Z. rewrite t_length in *.
      assert (Ek : i + k = N).
      { destruct (Nat.lt_ge_cases (i + k) (S N)) as [G|G]; [rewrite Nat.mod_small in Z; auto|].
        replace (i + k) with ((i + k - S N) + 1 * S N) in Z by lia. rewrite Nat.mod_add, Nat.mod_small in Z by lia. lia. }
      destruct (nth_error_split p k Hk) as (u & v & Ep & Lu). exists u, x, v.
      assert (Lp : length p = length u + S (length v)) by (rewrite Ep, app_length; auto).
      split; auto. split; auto. split; [exists (firstn i w)|split; [exists (skipn (length v) w)|lia]].
      + rewrite <- (firstn_skipn i w) at 1. f_equal. apply nth_error_ext. intros j. rewrite nth_error_skipn.
        destruct (Nat.lt_ge_cases j k) as [Hj|Hj].
        * assert (E : nth_error (searched w p) j = Some (nth j (searched w p) 0)) by (apply nth_error_nth'; rewrite searched_length; lia).
          pose proof (M j _ E) as F. rewrite Nat.mod_small, t_low in F by lia. rewrite F.
          apply nth_error_In in F as I. apply searched_some in E; [|apply w_nz; auto].
          rewrite <- E, Ep. apply nth_error_app1. lia.
        * rewrite (proj2 (nth_error_None u j)), (proj2 (nth_error_None w (i + j))) by lia. auto.
      + rewrite <- (firstn_skipn (length v) w) at 1. f_equal. apply nth_error_ext. intros j.
        destruct (Nat.lt_ge_cases j (length v)) as [Hj|Hj].
        * rewrite nth_error_firstn by auto.
          assert (E : nth_error (searched w p) (k + S j) = Some (nth (k + S j) (searched w p) 0)) by (apply nth_error_nth'; rewrite searched_length; lia).
          pose proof (M _ _ E) as F.
          replace (i + (k + S j)) with (j + 1 * S N) in F by lia. rewrite Nat.mod_add, Nat.mod_small, t_low in F by lia. rewrite F.
          apply nth_error_In in F as I. apply searched_some in E; [|apply w_nz; auto].
          rewrite <- E, Ep. rewrite nth_error_app2 by lia. replace (k + S j - length u) with (S j) by lia. auto.
        * rewrite (proj2 (nth_error_None v j)) by lia. apply nth_error_None. rewrite firstn_length. lia.
    - intros (u & x & v & Ep & Nx & (a & Ea) & (b & Eb) & Ei).
      assert (La : length a = i) by (rewrite Ea, app_length in Ei; lia).
      assert (Lp : length p = length u + S (length v)) by (rewrite Ep, app_length; auto).
      split; [rewrite t_length; lia|]. intros k c Hc. rewrite t_length.
      assert (Lk : k < length p) by (rewrite <- searched_length; apply nth_error_Some; congruence).
      destruct (Nat.lt_trichotomy k (length u)) as [G|[G|G]].
      + rewrite Nat.mod_small, t_low by lia. rewrite <- Hc. symmetry.
        assert (E : nth_error u k = Some (nth k u 0)) by (apply nth_error_nth'; auto).
        assert (Iw : In (nth k u 0) w) by (rewrite Ea; apply in_or_app; right; apply nth_In; auto).
        rewrite (searched_in p k (nth k u 0)); auto.
        * rewrite Ea, nth_error_app2 by lia. replace (i + k - length a) with k by lia. auto.
        * rewrite Ep, nth_error_app1 by auto. auto.
      + subst k. rewrite Nat.mod_small by lia. rewrite Ei, t_last, <- Hc. symmetry. apply (searched_out p _ x); auto.
        rewrite Ep, nth_error_app2, Nat.sub_diag by lia. auto.
      + set (j := k - length u - 1). assert (Hj : j < length v) by (unfold j; lia).
        assert (Lv : length v <= N) by (rewrite Eb, app_length; lia).
        replace (i + k) with (j + 1 * S N) by (unfold j; lia). rewrite Nat.mod_add, Nat.mod_small, t_low by lia.
        rewrite <- Hc. symmetry.
        assert (E : nth_error v j = Some (nth j v 0)) by (apply nth_error_nth'; auto).
        assert (Iw : In (nth j v 0) w) by (rewrite Eb; apply in_or_app; left; apply nth_In; auto).
        rewrite (searched_in p k (nth j v 0)); auto.
        * rewrite Eb, nth_error_app1 by auto. auto.
        * rewrite Ep, nth_error_app2 by lia. replace (k - length u) with (S j) by (unfold j; lia). auto.
  Qed.

  (** For the other patterns a circular match is an occurrence. *)
  Lemma searched_over p : (forall c, In c p -> In c w) -> searched w p = p.
  Proof.
    intros H. unfold searched. rewrite <- (map_id p) at 2. apply map_ext_in. intros c Hc.
    destruct (in_dec Nat.eq_dec c w); [auto|]. exfalso. auto.
  Qed.
  Lemma circular_occurs p i : pattern_over w p -> circular_at (searched w p) t i <-> occurs_at p w i.
  Proof.
    intros [Hne Hp]. rewrite searched_over by auto. split.
    - intros [Hi M]. rewrite t_length in *.
      assert (G : forall k, k < length p -> i + k < N).
      { induction k as [|k IH]; intros Hk.
        - assert (E : nth_error p 0 = Some (nth 0 p 0)) by (apply nth_error_nth'; auto).
          pose proof (M 0 _ E) as F. rewrite Nat.add_0_r, Nat.mod_small in F by auto. rewrite Nat.add_0_r.
          destruct (Nat.eq_dec i N) as [->|]; [|lia]. rewrite t_last in F. injection F as F.
          exfalso. apply (w_nz (nth 0 p 0)); auto. apply Hp, nth_In. auto.
        - specialize (IH ltac:(lia)).
          assert (E : nth_error p (S k) = Some (nth (S k) p 0)) by (apply nth_error_nth'; auto).
          pose proof (M (S k) _ E) as F. rewrite Nat.mod_small in F by lia.
          destruct (Nat.eq_dec (i + S k) N) as [Q|]; [|lia]. rewrite Q, t_last in F. injection F as F.
          exfalso. apply (w_nz (nth (S k) p 0)); auto. apply Hp, nth_In. auto. }
      assert (Lp : 0 < length p) by (destruct p; [congruence|cbn; lia]).
      assert (Hb : i + length p <= N) by (specialize (G (length p - 1)); lia).
      exists (firstn i w), (skipn (i + length p) w). split; [|rewrite firstn_length; lia].
      rewrite <- (firstn_skipn i w) at 1. f_equal.
      rewrite <- (firstn_skipn (length p) (skipn i w)) at 1. f_equal.
      + apply nth_error_ext. intros k. destruct (Nat.lt_ge_cases k (length p)) as [Hk|Hk].
        * rewrite nth_error_firstn, nth_error_skipn by auto.
          assert (E : nth_error p k = Some (nth k p 0)) by (apply nth_error_nth'; auto).
          pose proof (M k _ E) as F. specialize (G k Hk). rewrite Nat.mod_small, t_low in F by lia. congruence.
        * rewrite (proj2 (nth_error_None p k)) by auto. apply nth_error_None. rewrite firstn_length. lia.
      + rewrite skipn_skipn. f_equal.
    - intros (u & v & E & L). assert (Lw : N = length u + (length p + length v)) by (rewrite E, !app_length; auto).
      assert (Lp : 0 < length p) by (destruct p; [congruence|cbn; lia]).
      split; [rewrite t_length; lia|]. intros k c Hk. assert (k < length p) by (apply nth_error_Some; congruence).
      rewrite t_length, Nat.mod_small, t_low by lia. rewrite E, nth_error_app2 by lia.
      replace (i + k - length u) with k by lia. rewrite nth_error_app1 by auto. auto.
  Qed.

  Lemma short_le p : length p <= S N -> short_enough w p.
  Proof. intros H i _. auto. Qed.

  (** Consequences for a pattern with an absent byte. *)
  Lemma answers_absent sa count locate p : is_suffix_array t sa -> circular_answers w sa count locate p ->
    has_absent w p -> length p <= S N -> exists s e l, count p = Some (s, e) /\ locate p = Some l /\
      length l = e - s /\ length l <= 1 /\ forall i, In i l <-> wraps w p i.
  Proof.
    intros HSA (s & e & Ec & HI & HL) Ha Hl.
    destruct HL as (l & El & [ND Hin] & Ll); [intros ->; destruct Ha as (c & [] & _)|apply short_le; auto|].
    exists s, e, l. split; auto. split; auto. split; auto. split.
    - destruct l as [|x [|y l]]; cbn; try lia. exfalso. inversion ND as [|? ? N1 _]; subst. apply N1. left. symmetry.
      apply (absent_one p); auto; apply Hin; cbn; auto.
    - intros i. rewrite Hin. apply circular_wraps; auto.
  Qed.
End Text.
