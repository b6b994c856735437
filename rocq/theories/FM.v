(** FM-index theory: suffix array, inverse, LF mapping, backward search, phi. *)
From Coq Require Import List Arith Lia Bool Permutation ZifyBool ZifyNat.
From Verif Require Import Spec MBase Lists.
Import ListNotations.

(** Terminated text: the last symbol is 0 and is the only 0. *)
Definition text_ok (T : list nat) : Prop :=
  exists w, T = w ++ [0] /\ Forall (fun c => 0 < c) w.

Lemma lex_lt_irrefl x : ~ lex_lt x x.
Proof.
  induction x as [|a x IH]; intros H; inversion H; subst; try lia. auto.
Qed.

Lemma lex_lt_trans x y z : lex_lt x y -> lex_lt y z -> lex_lt x z.
Proof.
  intros H; revert z. induction H; intros z Hz; inversion Hz; subst.
  - constructor.
  - constructor.
  - constructor; lia.
  - constructor; lia.
  - constructor; lia.
  - apply lex_tail; auto.
Qed.

Lemma lex_lt_asym x y : lex_lt x y -> lex_lt y x -> False.
Proof. intros H1 H2. exact (lex_lt_irrefl _ (lex_lt_trans _ _ _ H1 H2)). Qed.

Section FM.
  Variable T sa : list nat.
  Hypothesis HT : text_ok T.
  Hypothesis HSA : is_suffix_array T sa.

  Definition len : nat := length T.
  Notation n := len.
  Definition SA (i : nat) : nat := nth i sa 0.
  Definition tx (a : nat) : nat := nth a T 0.
  Definition BW : list nat := bwt_of T sa.
  Definition bw (i : nat) : nat := nth i BW 0.
  Definition ISA (a : nat) : nat :=
    match select0 (Nat.eqb a) sa 0 with Some i => i | None => 0 end.

  Lemma n_pos : 0 < n.
  Proof. destruct HT as [w [E _]]. unfold len. rewrite E, app_length. cbn. lia. Qed.

  Lemma sa_length : length sa = n.
  Proof. destruct HSA as [HP _]. apply Permutation_length in HP. rewrite seq_length in HP. exact HP. Qed.

  Lemma BW_length : length BW = n.
  Proof. unfold BW, bwt_of. rewrite map_length. apply sa_length. Qed.

  Lemma tx_last : tx (n - 1) = 0.
  Proof.
    destruct HT as [w [E _]]. unfold tx, len. rewrite E, app_length. cbn.
    rewrite app_nth2 by lia. replace (length w + 1 - 1 - length w) with 0 by lia. reflexivity.
  Qed.

  Lemma tx_pos a : a < n - 1 -> 0 < tx a.
  Proof.
    destruct HT as [w [E Hw]]. unfold tx, len. rewrite E, app_length. cbn. intros H.
    rewrite app_nth1 by lia. rewrite Forall_forall in Hw. apply Hw. apply nth_In. lia.
  Qed.

  Lemma tx_zero a : a < n -> tx a = 0 -> a = n - 1.
  Proof.
    intros H H0. destruct (Nat.eq_dec a (n - 1)) as [|Hne]; auto.
    assert (0 < tx a) by (apply tx_pos; lia). lia.
  Qed.

  Lemma SA_lt i : i < n -> SA i < n.
  Proof.
    intros H. destruct HSA as [HP _].
    assert (In (SA i) sa) by (apply nth_In; rewrite sa_length; auto).
    eapply Permutation_in in H0; [|exact HP]. apply in_seq in H0. fold n in H0. lia.
  Qed.

  Lemma sa_NoDup : NoDup sa.
  Proof. destruct HSA as [HP _]. eapply Permutation_NoDup; [symmetry; exact HP|apply seq_NoDup]. Qed.

  Lemma SA_nth_error i : i < n -> nth_error sa i = Some (SA i).
  Proof. intros H. apply nth_error_nth_lt. rewrite sa_length; auto. Qed.

  Lemma SA_inj i j : i < n -> j < n -> SA i = SA j -> i = j.
  Proof.
    intros Hi Hj H. eapply NoDup_nth with (d := 0); try exact sa_NoDup; rewrite ?sa_length; auto.
  Qed.

  Lemma ISA_spec a : a < n -> ISA a < n /\ SA (ISA a) = a.
  Proof.
    intros H. destruct HSA as [HP _].
    assert (Hin : In a sa).
    { eapply Permutation_in; [symmetry; exact HP|]. apply in_seq. fold n. lia. }
    apply In_nth_error in Hin. destruct Hin as [i Hi].
    assert (Hil : i < length sa) by (eapply nth_error_Some_lt; eauto).
    assert (Hc : 0 < count (Nat.eqb a) sa).
    { rewrite <- (rankP_all _ sa (length sa)) by lia.
      pose proof (rankP_lt_step (Nat.eqb a) sa i (length sa) a Hi (Nat.eqb_refl a) Hil). lia. }
    destruct (select0_total _ _ _ Hc) as [p Hp]. unfold ISA. rewrite Hp.
    destruct (select0_spec _ _ _ _ Hp) as [[x [Hx Hxa]] _].
    apply Nat.eqb_eq in Hxa. subst x.
    split; [apply nth_error_Some_lt in Hx; rewrite sa_length in Hx; auto|].
    unfold SA. eapply nth_error_nth in Hx. exact Hx.
  Qed.

  Lemma ISA_lt a : a < n -> ISA a < n.
  Proof. intros H; apply ISA_spec; auto. Qed.
  Lemma SA_ISA a : a < n -> SA (ISA a) = a.
  Proof. intros H; apply ISA_spec; auto. Qed.
  Lemma ISA_SA i : i < n -> ISA (SA i) = i.
  Proof.
    intros H. destruct (ISA_spec (SA i) (SA_lt i H)) as [H1 H2].
    apply SA_inj; auto.
  Qed.

  Lemma suffix_cons a : a < n -> suffix T a = tx a :: suffix T (S a).
  Proof.
    intros H. unfold suffix, tx. apply skipn_cons_nth. apply nth_error_nth_lt. exact H.
  Qed.

  Lemma SA_lex i j : i < j -> j < n -> lex_lt (suffix T (SA i)) (suffix T (SA j)).
  Proof.
    intros Hij Hj. destruct HSA as [_ HL].
    apply (HL i j); auto; apply SA_nth_error; lia.
  Qed.

  (** Order of suffixes decides order of rows. *)
  Lemma ISA_lex a b : a < n -> b < n -> lex_lt (suffix T a) (suffix T b) -> ISA a < ISA b.
  Proof.
    intros Ha Hb H. destruct (lt_eq_lt_dec (ISA a) (ISA b)) as [[|E]|G]; auto; exfalso.
    - assert (a = b) by (rewrite <- (SA_ISA a), <- (SA_ISA b) by auto; congruence).
      subst. eapply lex_lt_irrefl; eauto.
    - assert (L := SA_lex _ _ G (ISA_lt a Ha)). rewrite !SA_ISA in L by auto.
      eapply lex_lt_asym; eauto.
  Qed.

  (** Circular predecessor / successor of text positions. *)
  Lemma cpred_lt a : cpred n a < n.
  Proof. unfold cpred. apply Nat.mod_upper_bound. pose proof n_pos; lia. Qed.

  Lemma cpred_S a : S a < n -> cpred n (S a) = a.
  Proof.
    intros H. unfold cpred. replace (S a + n - 1) with (a + 1 * n) by lia.
    rewrite Nat.mod_add by lia. apply Nat.mod_small; lia.
  Qed.

  Lemma cpred_0 : cpred n 0 = n - 1.
  Proof. unfold cpred. pose proof n_pos. apply Nat.mod_small; lia. Qed.

  Definition csucc (a : nat) : nat := (a + 1) mod n.

  Lemma csucc_lt a : csucc a < n.
  Proof. unfold csucc. apply Nat.mod_upper_bound. pose proof n_pos; lia. Qed.
  Lemma csucc_small a : S a < n -> csucc a = S a.
  Proof. intros H. unfold csucc. rewrite Nat.mod_small; lia. Qed.
  Lemma csucc_last : csucc (n - 1) = 0.
  Proof.
    unfold csucc. pose proof n_pos. replace (n - 1 + 1) with n by lia. apply Nat.mod_same; lia.
  Qed.

  Lemma cpred_csucc a : a < n -> cpred n (csucc a) = a.
  Proof.
    intros H. destruct (Nat.eq_dec a (n - 1)) as [->|Hne].
    - rewrite csucc_last, cpred_0. reflexivity.
    - rewrite csucc_small, cpred_S; lia.
  Qed.
  Lemma csucc_cpred a : a < n -> csucc (cpred n a) = a.
  Proof.
    intros H. destruct a as [|a].
    - rewrite cpred_0, csucc_last. reflexivity.
    - rewrite cpred_S, csucc_small; lia.
  Qed.
  Lemma cpred_inj a b : a < n -> b < n -> cpred n a = cpred n b -> a = b.
  Proof. intros Ha Hb H. rewrite <- (csucc_cpred a), <- (csucc_cpred b), H; auto. Qed.

  Lemma bw_tx i : i < n -> bw i = tx (cpred n (SA i)).
  Proof.
    intros H. unfold bw, BW, bwt_of.
    set (g := fun a => nth (cpred (length T) a) T 0).
    rewrite (nth_indep _ 0 (g 0)) by (rewrite map_length, sa_length; auto).
    rewrite map_nth. reflexivity.
  Qed.

  Lemma BW_nth_error i : i < n -> nth_error BW i = Some (bw i).
  Proof. intros H. apply nth_error_nth_lt. rewrite BW_length; auto. Qed.

  (** LF mapping on rows. *)
  Definition LFr (i : nat) : nat := ISA (cpred n (SA i)).

  Lemma LFr_lt i : LFr i < n.
  Proof. apply ISA_lt, cpred_lt. Qed.

  Lemma SA_LFr i : SA (LFr i) = cpred n (SA i).
  Proof. unfold LFr. apply SA_ISA, cpred_lt. Qed.

  Lemma LFr_inj i j : i < n -> j < n -> LFr i = LFr j -> i = j.
  Proof.
    intros Hi Hj H. apply SA_inj; auto. apply cpred_inj; try (apply SA_lt; auto).
    rewrite <- !SA_LFr. congruence.
  Qed.

  (** Psi: inverse of LF. *)
  Definition PSr (i : nat) : nat := ISA (csucc (SA i)).
  Lemma PSr_lt i : PSr i < n.
  Proof. apply ISA_lt, csucc_lt. Qed.
  Lemma LFr_PSr i : i < n -> LFr (PSr i) = i.
  Proof.
    intros H. unfold LFr, PSr. rewrite SA_ISA by apply csucc_lt.
    rewrite cpred_csucc by (apply SA_lt; auto). apply ISA_SA; auto.
  Qed.
  Lemma PSr_LFr i : i < n -> PSr (LFr i) = i.
  Proof.
    intros H. unfold LFr, PSr. rewrite SA_ISA by apply cpred_lt.
    rewrite csucc_cpred by (apply SA_lt; auto). apply ISA_SA; auto.
  Qed.
  Lemma SA_PSr i : SA (PSr i) = csucc (SA i).
  Proof. unfold PSr. apply SA_ISA, csucc_lt. Qed.

  Lemma bw_zero i : i < n -> bw i = 0 -> SA i = 0.
  Proof.
    intros H H0. rewrite bw_tx in H0 by auto. apply tx_zero in H0; [|apply cpred_lt].
    apply cpred_inj; [apply SA_lt; auto|apply n_pos|]. rewrite cpred_0; auto.
  Qed.

  Lemma bw_pos_SA i : i < n -> 0 < bw i -> 0 < SA i.
  Proof.
    intros H H0. destruct (SA i) eqn:E; [|lia].
    rewrite bw_tx, E, cpred_0, tx_last in H0 by auto. lia.
  Qed.

  Lemma LFr_mono_same i j : i < j -> j < n -> bw i = bw j -> LFr i < LFr j.
  Proof.
    intros Hij Hj E.
    assert (Hi : i < n) by lia.
    assert (P : 0 < bw i).
    { destruct (bw i) eqn:Ei; [|lia]. exfalso.
      assert (SA i = 0) by (apply bw_zero; auto).
      assert (SA j = 0) by (apply bw_zero; auto; congruence).
      assert (i = j) by (apply SA_inj; auto; congruence). lia. }
    assert (Pi := bw_pos_SA i Hi P).
    assert (Pj : 0 < SA j) by (apply bw_pos_SA; auto; congruence).
    pose proof (SA_lt i Hi) as Bi. pose proof (SA_lt j Hj) as Bj.
    rewrite !bw_tx in E by auto.
    pose proof (SA_lex i j Hij Hj) as L.
    apply ISA_lex; try apply cpred_lt.
    rewrite (suffix_cons (cpred n (SA i))), (suffix_cons (cpred n (SA j))) by apply cpred_lt.
    rewrite E. apply lex_tail.
    destruct (SA i) as [|a]; [lia|]. destruct (SA j) as [|b]; [lia|].
    rewrite !cpred_S by auto. exact L.
  Qed.

  Lemma LFr_mono_lt i j : i < n -> j < n -> bw i < bw j -> LFr i < LFr j.
  Proof.
    intros Hi Hj E. rewrite !bw_tx in E by auto.
    apply ISA_lex; try apply cpred_lt.
    rewrite (suffix_cons (cpred n (SA i))), (suffix_cons (cpred n (SA j))) by apply cpred_lt.
    apply lex_head. exact E.
  Qed.

  (** Number of BWT (= text) symbols smaller than [c]. *)
  Definition Cc (c : nat) : nat := count (fun x => x <? c) BW.
  (** Occurrences of [c] among the first [i] BWT symbols. *)
  Definition rk (c i : nat) : nat := rankP (Nat.eqb c) BW i.

  Lemma LFr_perm : Permutation (map LFr (seq 0 n)) (seq 0 n).
  Proof.
    apply NoDup_Permutation_bis.
    - apply (NoDup_nth _ 0). rewrite map_length, seq_length. intros i j Hi Hj H.
      rewrite !(nth_indep _ 0 (LFr 0)) in H by (rewrite map_length, seq_length; auto).
      rewrite !map_nth, !seq_nth in H by auto. apply LFr_inj in H; auto.
    - rewrite map_length. lia.
    - intros x Hx. apply in_map_iff in Hx. destruct Hx as [y [<- Hy]].
      apply in_seq. pose proof (LFr_lt y). lia.
  Qed.

  Lemma BW_as_map : BW = map bw (seq 0 n).
  Proof.
    apply (nth_ext _ _ 0 0).
    - rewrite map_length, seq_length, BW_length. reflexivity.
    - intros i Hi. rewrite BW_length in Hi.
      rewrite (nth_indep (map bw _) 0 (bw 0)) by (rewrite map_length, seq_length; auto).
      rewrite map_nth, seq_nth by auto. reflexivity.
  Qed.

  (** LF(i) = C[bwt[i]] + rank(bwt[i], i). *)
  Theorem LFr_formula i : i < n -> LFr i = Cc (bw i) + rk (bw i) i.
  Proof.
    intros Hi.
    assert (E : LFr i = count (fun k => k <? LFr i) (map LFr (seq 0 n))).
    { rewrite (count_perm _ _ _ LFr_perm). rewrite count_lt_seq; auto.
      pose proof (LFr_lt i). lia. }
    rewrite E, count_map.
    rewrite (count_ext_in _ (fun j => (bw j <? bw i) || ((bw i =? bw j) && (j <? i)))).
    - rewrite count_or.
      + f_equal.
        * unfold Cc. rewrite BW_as_map, count_map. reflexivity.
        * unfold rk. rewrite (rankP_seq _ BW 0) by (rewrite BW_length; lia).
          replace n with (i + (n - i)) by lia. rewrite seq_app, count_app, Nat.add_0_l.
          rewrite (count_false _ (seq i (n - i))).
          -- rewrite Nat.add_0_r. apply count_ext_in. intros j Hj. apply in_seq in Hj.
             change (nth j BW 0) with (bw j). cbv beta. lia.
          -- intros j Hj. apply in_seq in Hj.
             cbv beta. lia.
      + intros j Hj H1 H2. lia.
    - intros j Hj. apply in_seq in Hj.
      destruct (lt_eq_lt_dec (bw j) (bw i)) as [[L|Q]|G].
      + assert (LFr j < LFr i) by (apply LFr_mono_lt; auto; lia). lia.
      + destruct (lt_eq_lt_dec j i) as [[L'|Q']|G'].
        * assert (LFr j < LFr i) by (apply LFr_mono_same; auto; lia). lia.
        * subst j. lia.
        * assert (LFr i < LFr j) by (apply LFr_mono_same; auto; lia). lia.
      + assert (LFr i < LFr j) by (apply LFr_mono_lt; auto; lia). lia.
  Qed.

  (** Prefix matching of rows. *)
  Definition starts (p : list nat) (a : nat) : Prop := exists v, suffix T a = p ++ v.

  Lemma starts_nil a : starts [] a.
  Proof. exists (suffix T a). reflexivity. Qed.

  Lemma starts_cons c p a : a < n -> starts (c :: p) a <-> tx a = c /\ starts p (S a).
  Proof.
    intros Ha. unfold starts. rewrite suffix_cons by auto. split.
    - intros [v H]. cbn in H. injection H as -> H. eauto.
    - intros [-> [v ->]]. exists v. reflexivity.
  Qed.

  (** The same on the circular text. *)
  Fixpoint cstarts (p : list nat) (a : nat) : Prop :=
    match p with [] => True | c :: q => tx a = c /\ cstarts q (csucc a) end.
  Lemma cstarts_starts p : forall a, Forall (fun c => 0 < c) p -> a < n -> cstarts p a <-> starts p a.
  Proof.
    induction p as [|c p IH]; intros a Hp Ha; cbn [cstarts]; [split; auto using starts_nil|].
    inversion Hp as [|x l Hc Hp']; subst. rewrite starts_cons by auto. destruct (Nat.eq_dec a (n - 1)) as [->|Hne].
    - rewrite tx_last. split; intros [E _]; lia.
    - rewrite csucc_small by lia. rewrite (IH (S a)) by (auto; lia). tauto.
  Qed.
  Lemma cstarts_nth p : forall a, a < n ->
    cstarts p a <-> forall k c, nth_error p k = Some c -> tx ((a + k) mod n) = c.
  Proof.
    induction p as [|c p IH]; intros a Ha; cbn [cstarts].
    - split; auto. intros _ [|k] x H; discriminate.
    - rewrite (IH (csucc a)) by apply csucc_lt. split.
      + intros [E H] [|k] x Hx; cbn in Hx.
        * injection Hx as <-. rewrite Nat.add_0_r, Nat.mod_small; auto.
        * rewrite <- (H k x Hx). unfold csucc. rewrite Nat.add_mod_idemp_l by lia. f_equal. f_equal. lia.
      + intros H. split.
        * rewrite <- (H 0 c eq_refl), Nat.add_0_r, Nat.mod_small; auto.
        * intros k x Hx. rewrite <- (H (S k) x Hx). unfold csucc. rewrite Nat.add_mod_idemp_l by lia. f_equal. f_equal. lia.
  Qed.

  Definition is_range (p : list nat) (s e : nat) : Prop :=
    s <= e <= n /\ forall i, i < n -> (s <= i < e <-> cstarts p (SA i)).

  Lemma is_range_full : is_range [] 0 n.
  Proof. split; [lia|]. intros i Hi. split; intros; [exact I|lia]. Qed.

  Lemma LFr_range c i : i < n -> bw i = c -> Cc c <= LFr i.
  Proof. intros Hi <-. rewrite LFr_formula by auto. lia. Qed.

  Lemma Cc_rk_le c i : i <= n -> Cc c + rk c i <= n.
  Proof.
    intros Hi. unfold Cc, rk.
    pose proof (rankP_le_count (Nat.eqb c) BW i).
    assert (count (fun x => (x <? c) || (c =? x)) BW <= n).
    { rewrite <- BW_length. apply count_le_length. }
    rewrite count_or in H0 by (intros; lia). lia.
  Qed.

  (** One backward-search step. *)
  Theorem is_range_step c p s e : is_range p s e ->
    is_range (c :: p) (Cc c + rk c s) (Cc c + rk c e).
  Proof.
    intros [He HR]. split.
    { split; [|apply Cc_rk_le; lia]. pose proof (rankP_mono (Nat.eqb c) BW s e ltac:(lia)). unfold rk. lia. }
    intros k Hk.
    pose proof (SA_lt k Hk) as Bk. cbn [cstarts].
    split.
    - intros HI.
      destruct (select0_between (Nat.eqb c) BW s e (k - Cc c)) as [i [x [Hi [Hx [Hcx Hr]]]]].
      { rewrite BW_length; lia. }
      { fold (rk c s) (rk c e). lia. }
      apply Nat.eqb_eq in Hcx. subst x.
      assert (Hin : i < n) by lia.
      rewrite BW_nth_error in Hx by auto. injection Hx as Hx.
      assert (EL : LFr i = k).
      { rewrite LFr_formula, Hx by auto. unfold rk in *. lia. }
      rewrite <- EL, SA_LFr.
      split; [rewrite <- bw_tx; auto|].
      rewrite csucc_cpred by (apply SA_lt; auto). apply HR; auto.
    - intros [Ht HS].
      set (i := PSr k).
      assert (Hin : i < n) by apply PSr_lt.
      assert (EL : LFr i = k) by (apply LFr_PSr; auto).
      assert (Hb : bw i = c).
      { rewrite bw_tx by auto. unfold i. rewrite SA_PSr, cpred_csucc; auto. }
      rewrite <- SA_PSr in HS. fold i in HS. apply HR in HS; auto.
      rewrite <- EL, LFr_formula, Hb by auto.
      assert (rk c s <= rk c i) by (apply rankP_mono; lia).
      assert (rk c i < rk c e).
      { eapply rankP_lt_step; [apply BW_nth_error; auto| |lia]. apply Nat.eqb_eq; auto. }
      lia.
  Qed.

  (** Rows of consecutive equal symbols map to consecutive rows. *)
  Lemma LFr_consecutive i : S i < n -> bw i = bw (S i) -> LFr (S i) = S (LFr i).
  Proof.
    intros Hi E. rewrite !LFr_formula by lia. rewrite <- E.
    unfold rk. rewrite (rankP_S _ BW i (bw i)) by (apply BW_nth_error; lia).
    rewrite Nat.eqb_refl. lia.
  Qed.
End FM.
