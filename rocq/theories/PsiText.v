(** The psi array and psi core of a text. *)
From Coq Require Import List Arith Bool Lia ZifyBool ZifyNat Permutation.
From Verif Require Import Spec MBase Lists FM MRle Runs RleProof MConstruct MPhi MRIndex Util Phi ConstructProof Nav PhiProof BaseProof
  MPsi EncProof PsiSym PsiOps PsiProof PsiCore PsiSpec.
Import ListNotations.

Lemma prefix_sums_length l : forall a, length (prefix_sums a l) = S (length l).
Proof. induction l as [|x l IH]; intros a; cbn; auto. Qed.
Lemma psi_fold_ext f g n : (forall i, i < n -> f i = g i) -> forall st,
  mfold (psi_step f) (seq 0 n) st = mfold (psi_step g) (seq 0 n) st.
Proof.
  intros H. assert (G : forall l, (forall i, In i l -> i < n) -> forall st, mfold (psi_step f) l st = mfold (psi_step g) l st).
  { induction l as [|i l IH]; intros Hl st; auto. cbn [mfold].
    assert (E : psi_step f st i = psi_step g st i).
    { destruct st as [psi pos]. unfold psi_step. rewrite H by (apply Hl; left; auto). auto. }
    rewrite E. destruct (psi_step g st i); cbn [bind]; auto. apply IH. intros; apply Hl; right; auto. }
  apply G. intros i Hi. apply in_seq in Hi. lia.
Qed.
Lemma construct_psi_ext f g C n : nth_error C (length C - 1) = Some n -> (forall i, i < n -> f i = g i) ->
  construct_psi f C = construct_psi g C.
Proof. intros E H. unfold construct_psi. rewrite E. cbn [bind]. rewrite (psi_fold_ext f g n H). auto. Qed.

Lemma al_C_length : forall a l, a = construct_alphabet l -> length (al_C a) = S (al_sigma a).
Proof.
  intros a l ->. unfold construct_alphabet. destruct (alpha_loop _ 0) as [t cs]. cbn [al_C al_sigma]. apply prefix_sums_length.
Qed.

Section PsiText.
  Variables (w sa : list nat).
  Hypothesis Hw : zero_free w.
  Hypothesis HSA : is_suffix_array (terminated w) sa.
  Notation T := (ctext w sa).
  Notation n := (len T).
  Let B := BW T sa.
  Let HT : text_ok T := ctext_ok w sa Hw HSA.
  Let HC : is_suffix_array T sa := ctext_sa w sa Hw HSA.
  Variable al : alphabet.
  Hypothesis Hal : al = construct_alphabet (BW (terminated w) sa).
  Notation sigma := (al_sigma al).
  Lemma ta_C c : c < sigma -> nth_error (al_C al) c = Some (Cc T sa c).
  Proof. rewrite Hal. apply base_C; auto. Qed.
  Lemma ta_O c : c < sigma -> In c (BW T sa).
  Proof. rewrite Hal. apply base_O; auto. Qed.
  Lemma ta_N : nth_error (al_C al) sigma = Some n.
  Proof. pose proof (base_N w sa Hw HSA) as E. rewrite <- Hal in E. exact E. Qed.
  Lemma ta_comp d : In d (BW (terminated w) sa) -> comp (BW (terminated w) sa) d < sigma.
  Proof. rewrite Hal. apply (comp_sigma 256 eq_refl); auto using BW_bytes. Qed.
  Lemma ta_len : length (al_C al) = S sigma.
  Proof. apply (al_C_length _ _ Hal). Qed.
  Lemma ta_sym c : c < 256 -> al_symbol al c = Some (wcomp w sa c).
  Proof. rewrite Hal. apply base_symbol; auto. Qed.

  Lemma B_length : length B = n.
  Proof. apply (BW_length T sa HC). Qed.
  Lemma B_dense : dense B sigma.
  Proof.
    intros c. split; [apply ta_O|]. unfold B. rewrite ctext_BW by auto. rewrite in_map_iff. intros (d & <- & Hd).
    apply ta_comp. auto.
  Qed.
  Lemma al_cums : al_C al = cumulative B sigma.
  Proof.
    apply nth_ext with (d := 0) (d' := 0).
    - rewrite ta_len. unfold cumulative.
      rewrite map_length, seq_length. auto.
    - intros c Hc. rewrite ta_len in Hc.  unfold cumulative.
      rewrite (nth_map_seq (fun c => smaller c B)) by auto. cbn [Nat.add].
      apply nth_error_nth. destruct (Nat.eq_dec c sigma) as [->|N].
      + rewrite ta_N. f_equal. rewrite <- B_length.
        symmetry. apply count_true. intros x Hx. apply Nat.ltb_lt. apply B_dense. auto.
      + rewrite ta_C by lia. auto.
  Qed.
  Lemma B_lt x : In x B -> x < sigma.
  Proof. apply B_dense. Qed.
  Lemma B_nth i : i < n -> nth i B 0 = bw T sa i.
  Proof.
    intros Hi. apply nth_error_nth. apply BW_nth_error; auto.
  Qed.
  Lemma lfb_LFr i : i < n -> lfb B i = LFr T sa i.
  Proof.
    intros Hi. unfold lfb. rewrite B_nth by auto. rewrite LFr_formula by auto. auto.
  Qed.
  Lemma psis_PSr i : i < n -> nth i (psis B sigma) 0 = PSr T sa i.
  Proof.
    intros Hi. apply (LFr_inj T sa HT HC).
    - rewrite <- B_length. apply (psis_in B sigma B_lt). apply nth_In. rewrite (psis_length B sigma B_lt), B_length. auto.
    - apply PSr_lt; auto.
    - rewrite LFr_PSr by auto. rewrite <- lfb_LFr.
      + apply lfb_psis; [apply B_lt|rewrite B_length; auto].
      + rewrite <- B_length. apply (psis_in B sigma B_lt). apply nth_In. rewrite (psis_length B sigma B_lt), B_length. auto.
  Qed.
  Lemma psis_text : psis B sigma = map (PSr T sa) (seq 0 n).
  Proof.
    apply nth_ext with (d := 0) (d' := 0).
    - rewrite (psis_length B sigma B_lt), B_length, map_length, seq_length. auto.
    - intros i Hi. rewrite (psis_length B sigma B_lt), B_length in Hi. rewrite psis_PSr by auto.
      rewrite (nth_map_seq (PSr T sa)) by auto. auto.
  Qed.
  Lemma n_lt_pos : 0 < length B.
  Proof. rewrite B_length. apply n_pos. auto. Qed.

  (** What construct.h:69-92 constructPsi computes from the base items of a text. *)
  Lemma text_psi R s : rle_repr 2 (max_symbol B) R s -> expand R = B ->
    construct_psi (rle_access s) (al_C al) = Some (psis B sigma).
  Proof.
    intros HR HE. rewrite al_cums. change (psis B sigma) with (grouped B sigma). rewrite <- (ps_grouped B sigma B_dense).
    apply (construct_psi_ext _ _ _ n).
    - rewrite <- al_cums, ta_len. cbn [Nat.sub]. rewrite Nat.sub_0_r. apply ta_N.
    - intros i Hi. rewrite (repr_access _ _ _ _ HR) by (rewrite HE, B_length; auto). rewrite HE. auto.
  Qed.
  Lemma text_core h : 0 < h -> n < 2 ^ 64 ->
    pc_construct (2 * h) (al_C al) (psis B sigma) = Some (core B sigma h).
  Proof.
    intros Hh Hn. rewrite al_cums. apply (core_construct_ok B sigma); auto using B_lt, n_lt_pos.
    - apply B_dense.
    - rewrite B_length. auto.
  Qed.
End PsiText.

(** The psi file of a construction, in the vocabulary of Spec.v. *)
Theorem text_psi_values w sa data b psi : zero_free w -> is_suffix_array (terminated w) sa ->
  data = w \/ data = terminated w -> construct_base data sa = Some b ->
  construct_psi (rle_access (bi_bwt_rle b)) (al_C (bi_alpha b)) = Some psi ->
  Permutation psi (seq 0 (length sa)) /\
  forall i, i < length sa -> exists j a, nth_error psi i = Some j /\ nth_error sa i = Some a /\
    nth_error sa j = Some ((a + 1) mod length sa).
Proof.
  intros Hw HSA Hd Hb Hpsi. destruct (construct_base_ok w sa Hw HSA data Hd) as (b' & R & E & F).
  rewrite E in Hb. injection Hb as ->. destruct F as [F1 F2 F3 F4 F5 F6].
  rewrite (text_psi w sa Hw HSA (bi_alpha b) F4 R _ F5 F6) in Hpsi. injection Hpsi as <-.
  pose proof (ctext_ok w sa Hw HSA) as HT. pose proof (ctext_sa w sa Hw HSA) as HC.
  assert (En : length sa = len (ctext w sa)) by (destruct HC as [P _]; apply Permutation_length in P; rewrite seq_length in P; auto).
  split.
  - rewrite En, <- (B_length w sa Hw HSA). apply psis_perm. apply (B_lt w sa Hw HSA (bi_alpha b) F4).
  - intros i Hi. rewrite En in *. exists (PSr (ctext w sa) sa i), (SA sa i).
    split; [|split].
    + rewrite (psis_text w sa Hw HSA (bi_alpha b) F4). rewrite nth_error_map_seq by auto. auto.
    + unfold SA. apply nth_error_nth_lt. lia.
    + rewrite <- En. pose proof (SA_PSr _ sa HT HC i) as Es. unfold csucc in Es. rewrite <- En in Es. rewrite <- Es.
      unfold SA. apply nth_error_nth_lt. rewrite En. apply PSr_lt; auto.
Qed.
