(** From rows of the compacted text to the specification vocabulary. *)
From Coq Require Import List Arith Bool Lia ZifyBool ZifyNat Permutation Sorted.
From Verif Require Import Spec MBase Lists FM MRle Runs RleProof MConstruct MPhi MRIndex Util Phi ConstructProof Nav PhiProof BaseProof RIndexProof.
Import ListNotations.

Lemma sa_len T sa : is_suffix_array T sa -> length sa = len T.
Proof. intros [P _]. rewrite (Permutation_length P), seq_length. auto. Qed.

Lemma rows_map T sa s e : is_suffix_array T sa -> e <= len T -> map (SA sa) (seq s (e - s)) = rows sa s e.
Proof.
  intros HSA He. unfold rows.
  assert (L : length sa = len T) by (apply sa_len; auto).
  assert (G : forall m s, s + m <= length sa -> map (SA sa) (seq s m) = firstn m (skipn s sa)).
  { induction m as [|m IH]; intros t Ht; auto.
    cbn [seq map]. rewrite IH by lia.
    destruct (skipn t sa) as [|x r] eqn:E.
    - pose proof (skipn_length t sa). rewrite E in H. cbn in H. lia.
    - cbn [firstn]. f_equal.
      + unfold SA. rewrite <- (firstn_skipn t sa), E. rewrite app_nth2; rewrite firstn_length; [|lia].
        replace (t - Nat.min t (length sa)) with 0 by lia. auto.
      + f_equal. replace (S t) with (1 + t) by lia. rewrite <- skipn_skipn. rewrite E. auto. }
  destruct (Nat.leb_spec e s).
  - replace (e - s) with 0 by lia. auto.
  - apply G. lia.
Qed.

Section Glue.
  Variables (w sa : list nat).
  Hypothesis Hw : zero_free w.
  Hypothesis HSA : is_suffix_array (terminated w) sa.
  Let T := ctext w sa.
  Let HS : is_suffix_array T sa := ctext_sa w sa Hw HSA.

  Lemma gsa_length : length sa = len T.
  Proof. apply sa_len. exact HS. Qed.

  Lemma range_rows p st e : pattern_over w p -> is_range T sa (map (wcomp w sa) p) st e ->
    row_interval p w sa st e.
  Proof.
    intros [Hp Hin] HI. split.
    { rewrite gsa_length. apply HI. }
    intros i. split.
    - intros Hi. exists (SA sa i). pose proof (proj1 HI) as He.
      assert (i < length sa) by (rewrite gsa_length; lia). split.
      + unfold SA. apply nth_error_nth'. auto.
      + apply (range_occurs w sa Hw HSA p st e); auto. exists i. auto.
    - intros (a & Ea & Ho). pose proof (range_occurs w sa Hw HSA p st e Hp Hin HI a) as [H _].
      destruct (H Ho) as (j & Hj & Ej).
      assert (Li : i < length sa) by (apply nth_error_Some; congruence). rewrite gsa_length in Li.
      assert (i = j); [|subst; auto].
      destruct HI as [He _].
      apply (SA_inj T sa HS); [auto|lia|]. rewrite Ej. unfold SA. apply nth_error_nth; auto.
  Qed.

  Lemma range_rows_exact p st e : pattern_over w p -> is_range T sa (map (wcomp w sa) p) st e ->
    exact_answer p w (rows sa st e).
  Proof.
    intros [Hp Hin] HI. eapply range_exact; eauto. rewrite (rows_map T sa st e); auto. apply HI.
  Qed.
End Glue.

Lemma rows_length sa s e : e <= length sa -> length (rows sa s e) = e - s.
Proof. intros. unfold rows. rewrite firstn_length, skipn_length. lia. Qed.

Lemma exact_rev p w l : exact_answer p w l -> exact_answer p w (rev l).
Proof. intros [N H]. split; [apply NoDup_rev; auto|]. intros i. rewrite <- in_rev. apply H. Qed.
Lemma exact_perm p w l l' : Permutation l l' -> exact_answer p w l -> exact_answer p w l'.
Proof.
  intros P [N H]. split; [eapply Permutation_NoDup; eauto|]. intros i. rewrite <- H. split; apply Permutation_in; auto. symmetry; auto.
Qed.
Lemma exact_unique p w l l' : exact_answer p w l -> exact_answer p w l' -> Permutation l l'.
Proof. intros [N H] [N' H']. apply NoDup_Permutation; auto. intros x. rewrite H, H'. tauto. Qed.

(** A decision procedure, used to exhibit concrete suffix arrays. *)
Fixpoint lex_ltb (x y : list nat) : bool :=
  match x, y with
  | _, [] => false
  | [], _ :: _ => true
  | a :: x, b :: y => (a <? b) || ((a =? b) && lex_ltb x y)
  end.
Lemma lex_ltb_ok x : forall y, lex_ltb x y = true -> lex_lt x y.
Proof.
  induction x as [|a x IH]; intros [|b y]; cbn [lex_ltb]; try discriminate; intros.
  - constructor.
  - apply orb_prop in H. destruct H as [H|H].
    + apply lex_head. lia.
    + apply andb_prop in H. destruct H as [H1 H2]. apply Nat.eqb_eq in H1. subst. apply lex_tail. auto.
Qed.
Definition sa_check (t sa : list nat) : bool :=
  (length sa =? length t) && forallb (fun a => existsb (Nat.eqb a) sa) (seq 0 (length t)) &&
  forallb (fun j => forallb (fun i => lex_ltb (suffix t (nth i sa 0)) (suffix t (nth j sa 0))) (seq 0 j))
          (seq 0 (length sa)).
Lemma sa_check_ok t sa : sa_check t sa = true -> is_suffix_array t sa.
Proof.
  unfold sa_check. intros H. apply andb_prop in H. destruct H as [H H3]. apply andb_prop in H.
  destruct H as [H1 H2]. rewrite forallb_forall in H2, H3. split.
  - symmetry. apply NoDup_Permutation_bis; [apply seq_NoDup|rewrite seq_length; lia|].
    intros x Hx. apply H2 in Hx. apply existsb_exists in Hx. destruct Hx as (y & Hy & E).
    apply Nat.eqb_eq in E. subst; auto.
  - intros i j a b Hij Ha Hb.
    assert (j < length sa) by (apply nth_error_Some; congruence).
    specialize (H3 j). rewrite in_seq in H3. specialize (H3 ltac:(lia)). rewrite forallb_forall in H3.
    specialize (H3 i). rewrite in_seq in H3. specialize (H3 ltac:(lia)).
    erewrite !nth_error_nth in H3 by eauto. apply lex_ltb_ok; auto.
Qed.

(** C36 for arbitrary bit vectors. *)
Lemma ones_ssorted bv : ssorted (ones bv).
Proof. apply ssorted_filter_seq. Qed.
Lemma ones_lt bv m : In m (ones bv) -> m < length bv.
Proof. intros H. apply ones_In in H. apply nth_error_Some. congruence. Qed.

Lemma ones_index bv k : k < length (ones bv) ->
  count_occ Bool.bool_dec (firstn (nth k (ones bv) 0) bv) true = k.
Proof.
  intros Hk.
  assert (Hl : nth k (ones bv) 0 < length bv) by (apply ones_lt, nth_In; auto).
  assert (E : bv_rank bv (nth k (ones bv) 0) = Some k).
  { rewrite <- (bits_of_ones bv) at 1.
    rewrite bits_rank; auto using ones_lt, ones_ssorted; [|lia]. f_equal.
    set (v := nth k (ones bv) 0). set (q := count _ _).
    assert (q <= length (ones bv)) by apply count_le_length.
    destruct (Nat.lt_trichotomy q k) as [H1|[H1|H1]]; auto.
    - pose proof (ssorted_nth (ones bv) (ones_ssorted bv) q k H1 Hk) as H2.
      apply (count_lt_sorted _ (ones_ssorted bv)) in H2; [|lia]. fold v q in H2. lia.
    - assert (H2 : k < q) by lia. apply (count_lt_sorted _ (ones_ssorted bv)) in H2; auto.
      fold v in H2. lia. }
  unfold bv_rank in E. destruct (Nat.leb_spec (nth k (ones bv) 0) (length bv)); [|lia].
  injection E as E. unfold rankP in E. rewrite <- E at 2. clear.
  induction (firstn _ bv) as [|[] l IH]; cbn [count_occ filter idb length]; auto;
    destruct (Bool.bool_dec _ _); try congruence.
Qed.

Lemma circ_pred_spec bv i : In true bv -> i <= length bv ->
  exists k v, circular_predecessor bv (length bv) i = Some (k, v) /\
    nth_error bv v = Some true /\ k = count_occ Bool.bool_dec (firstn v bv) true /\
    ((v < i /\ forall m, nth_error bv m = Some true -> m < i -> m <= v) \/
     ((forall m, nth_error bv m = Some true -> i <= m) /\ forall m, nth_error bv m = Some true -> m <= v)).
Proof.
  intros Ht Hi.
  assert (Hne : ones bv <> []).
  { apply In_nth_error in Ht. destruct Ht as [m Hm]. apply ones_In in Hm. intros E. rewrite E in Hm. destruct Hm. }
  destruct (circ_pred_ok (ones bv) (length bv) (ones_ssorted bv) (ones_lt bv) Hne i Hi) as (k & Hk & E & C).
  rewrite bits_of_ones in E. exists k, (nth k (ones bv) 0). split; auto.
  split; [apply ones_In, nth_In; auto|]. split; [symmetry; apply ones_index; auto|].
  destruct C as [[C1 C2]|[C1 C2]].
  - left. split; auto. intros. apply C2; auto. apply ones_In; auto.
  - right. split; intros m Hm; apply ones_In in Hm; auto.
    apply In_nth with (d := 0) in Hm. destruct Hm as (j & Hj & <-).
    apply ssorted_nth_le; auto using ones_ssorted. lia.
Qed.
Lemma circ_succ_spec bv i : In true bv -> i <= length bv ->
  exists k v, circular_soft_successor bv (length bv) i = Some (k, v) /\
    nth_error bv v = Some true /\ k = count_occ Bool.bool_dec (firstn v bv) true /\
    ((i <= v /\ forall m, nth_error bv m = Some true -> i <= m -> v <= m) \/
     ((forall m, nth_error bv m = Some true -> m < i) /\ forall m, nth_error bv m = Some true -> v <= m)).
Proof.
  intros Ht Hi.
  assert (Hne : ones bv <> []).
  { apply In_nth_error in Ht. destruct Ht as [m Hm]. apply ones_In in Hm. intros E. rewrite E in Hm. destruct Hm. }
  destruct (circ_succ_ok (ones bv) (length bv) (ones_ssorted bv) (ones_lt bv) Hne i Hi) as (k & Hk & E & C).
  rewrite bits_of_ones in E. exists k, (nth k (ones bv) 0). split; auto.
  split; [apply ones_In, nth_In; auto|]. split; [symmetry; apply ones_index; auto|].
  destruct C as [[C1 C2]|[C1 C2]].
  - left. split; auto. intros. apply C2; auto. apply ones_In; auto.
  - right. split; intros m Hm; apply ones_In in Hm; auto.
    apply In_nth with (d := 0) in Hm. destruct Hm as (j & Hj & <-).
    apply ssorted_nth_le; auto using ones_ssorted. lia.
Qed.

(** Statements about the base items and RIndex, in the specification vocabulary. *)
Section Statements.
  Variables (w sa data : list nat).
  Hypothesis Hw : zero_free w.
  Hypothesis HSA : is_suffix_array (terminated w) sa.
  Hypothesis Hd : data = w \/ data = terminated w.

  Lemma st_rindex_construct : exists ix, construct_rindex data sa = Some ix.
  Proof. destruct (construct_rindex_ok w sa data Hw HSA Hd) as (ix & R & E & _). eauto. Qed.

  Lemma bwt_bw : BW (terminated w) sa = bwt_of (terminated w) sa.
  Proof. reflexivity. Qed.

  Lemma head_spec l i : i < length l -> headb l i = true <-> run_head l i.
  Proof.
    intros Hi. unfold headb, run_head. rewrite (nth_error_nth' l 0) by lia.
    rewrite (nth_error_nth' l 0) by auto. split.
    - intros H. split; auto. destruct (Nat.eqb_spec i 0); auto. right.
      cbn in H. intros E. injection E as E. rewrite E, Nat.eqb_refl in H. discriminate.
    - intros [_ [->|H]]; auto. destruct (Nat.eqb_spec i 0); auto. cbn.
      destruct (Nat.eqb_spec (nth (i - 1) l 0) (nth i l 0)); cbn; auto; exfalso; apply H; congruence.
  Qed.
  Lemma tail_spec l i : i < length l -> tailb l i = true <-> run_tail l i.
  Proof.
    intros Hi. unfold tailb, run_tail.
    destruct (Nat.eqb_spec i (length l - 1)) as [E|E].
    - split; auto. intros _. split; auto. rewrite (proj2 (nth_error_None l (S i))) by lia.
      rewrite (nth_error_nth' l 0) by auto. discriminate.
    - rewrite (nth_error_nth' l 0) by lia. rewrite (nth_error_nth' l 0) by auto. cbn [orb]. split.
      + intros H. split; auto. intros E'. injection E' as E'. rewrite E', Nat.eqb_refl in H. discriminate.
      + intros [_ H]. destruct (Nat.eqb_spec (nth i l 0) (nth (S i) l 0)); cbn; auto; exfalso; apply H; congruence.
  Qed.

  Lemma st_base b : construct_base data sa = Some b ->
    bi_text b = terminated w /\ bi_bwt_text b = bwt_of (terminated w) sa /\
    bi_alpha b = construct_alphabet (bwt_of (terminated w) sa).
  Proof.
    intros Hb. destruct (construct_base_ok w sa Hw HSA data Hd) as (b' & R & E & F). rewrite Hb in E.
    injection E as <-. destruct F. auto.
  Qed.

  Lemma st_runs b : construct_base data sa = Some b ->
    let f := bi_runs_files b in
    StronglySorted lt (br_first f) /\ StronglySorted lt (br_last f) /\
    (forall i, In i (br_first f) <-> run_head (bwt_of (terminated w) sa) i) /\
    (forall i, In i (br_last f) <-> run_tail (bwt_of (terminated w) sa) i) /\
    br_first_text f = map (fun i => cpred (S (length w)) (nth i sa 0)) (br_first f) /\
    br_last_text f = map (fun i => cpred (S (length w)) (nth i sa 0)) (br_last f).
  Proof.
    intros Hb. destruct (construct_base_ok w sa Hw HSA data Hd) as (b' & R & E & F). rewrite Hb in E.
    injection E as <-. cbv zeta. rewrite (bf_runs _ _ _ _ F). cbn [br_first br_last br_first_text br_last_text].
    pose proof (ctext_sa w sa Hw HSA) as HS. pose proof (ctext_ok w sa Hw HSA) as HT.
    split; [apply (rows_ssorted _ _ HS)|]. split; [apply (trows_ssorted _ _ HS)|].
    assert (L : length (bwt_of (terminated w) sa) = len (terminated w)).
    { apply (BW_length _ sa HSA). }
    split; [|split; [|split]].
    - intros i. rewrite <- (ctext_hrows w sa Hw HSA), (hrows_in _ sa HSA). split.
      + intros [H1 H2]. apply head_spec; auto. rewrite L. auto.
      + intros H. assert (i < len (terminated w)) by (rewrite <- L; apply H).
        split; auto. apply head_spec; auto. unfold BW. rewrite L; auto.
    - intros i. rewrite <- (ctext_trows w sa Hw HSA), (trows_in _ sa HSA). split.
      + intros [H1 H2]. apply tail_spec; auto. rewrite L. auto.
      + intros H. assert (i < len (terminated w)) by (rewrite <- L; apply H).
        split; auto. apply tail_spec; auto. unfold BW. rewrite L; auto.
    - unfold hmarks. apply map_ext. intros a. unfold tpos. rewrite ctext_n. auto.
    - unfold tmarks. apply map_ext. intros a. unfold tpos. rewrite ctext_n. auto.
  Qed.

  Lemma BW_Permutation t s : 0 < length t -> is_suffix_array t s -> Permutation (bwt_of t s) t.
  Proof.
    intros Hn [P _]. unfold bwt_of. set (n := length t) in *.
    apply perm_trans with (map (fun a => nth a t 0) (map (cpred n) (seq 0 n))).
    { rewrite map_map. apply Permutation_map. auto. }
    apply perm_trans with (map (fun a => nth a t 0) (seq 0 n)).
    - apply Permutation_map. replace n with (S (n - 1)) at 2 by lia. cbn [seq map].
      replace (cpred n 0) with (n - 1) by (unfold cpred; rewrite Nat.mod_small; lia).
      replace (map (cpred n) (seq 1 (n - 1))) with (seq 0 (n - 1)).
      + replace n with (S (n - 1)) at 3 by lia. rewrite seq_S. apply Permutation_cons_append.
      + rewrite <- seq_shift, map_map. rewrite <- (map_id (seq 0 (n - 1))) at 1. apply map_ext_in.
        intros a Ha. apply in_seq in Ha. unfold cpred. replace (S a + n - 1) with (a + 1 * n) by lia.
        rewrite Nat.mod_add, Nat.mod_small; lia.
    - unfold n. rewrite map_nth_self. auto.
  Qed.

  Lemma count_perm_lt (l l' : list nat) c : Permutation l l' -> smaller c l = smaller c l'.
  Proof.
    intros P. unfold smaller. induction P; cbn [filter]; auto.
    - destruct (x <? c); cbn [length]; lia.
    - destruct (x <? c), (y <? c); cbn [length]; lia.
    - lia.
  Qed.

  Lemma filter_all K (k : list nat) : (forall x, In x k -> x < K) -> filter (fun y => y <? K) k = k.
  Proof.
    induction k as [|x k IH]; intros Hk; auto. cbn [filter].
    rewrite (proj2 (Nat.ltb_lt x K)) by (apply Hk; left; auto). f_equal. apply IH. intros; apply Hk; right; auto.
  Qed.
  Lemma al_size_def al : al_size al = nth_error (al_C al) (al_sigma al).
  Proof. reflexivity. Qed.
  Lemma alphabet_facts K (HK : K = 256) l t (HB : Forall (fun c => c < K) l) (P : Permutation l t) :
    forall al, al = construct_alphabet l ->
    al_sigma al = length (nodup Nat.eq_dec t) /\
    nth_error (al_C al) (al_sigma al) = Some (length t) /\
    forall x, In x t -> exists cx, nth_error (al_char2comp al) x = Some cx /\
      cx = length (filter (fun y => y <? x) (nodup Nat.eq_dec t)) /\
      nth_error (al_C al) cx = Some (smaller x t).
  Proof.
    intros al ->.
    assert (Hin : forall c, In c l <-> In c t).
    { intros c. split; apply Permutation_in; auto. symmetry; auto. }
    assert (Hsym : forall c, symb l c = true <-> In c t).
    { intros c. rewrite <- Hin. unfold symb. rewrite Nat.ltb_lt. symmetry. apply (count_occ_In Nat.eq_dec). }
    assert (Hbt : forall c, In c t -> c < K).
    { intros c Hc. apply Hin in Hc. rewrite Forall_forall in HB. auto. }
    assert (HP : forall x, x <= K -> ncomp l x = length (filter (fun y => y <? x) (nodup Nat.eq_dec t))).
    { intros x Hx. unfold ncomp, count. apply Permutation_length. apply NoDup_Permutation.
      - apply NoDup_filter, seq_NoDup.
      - apply NoDup_filter, NoDup_nodup.
      - intros y. rewrite !filter_In, in_seq, Hsym, nodup_In, Nat.ltb_lt. split; intros; lia || tauto || (split; [split|]; try tauto; lia). }
    assert (HQ : forall x, smaller x t = count (fun y => y <? x) l).
    { intros x. change (smaller x t = smaller x l). apply count_perm_lt. symmetry. auto. }
    split; [|split].
    - rewrite (al_sigma_ok K HK l HB), HP by auto. f_equal.
      apply filter_all. intros x Hx. apply nodup_In, Hbt in Hx. auto.
    - rewrite <- al_size_def, (al_size_ok K HK l HB). f_equal.
      apply Permutation_length. auto.
    - intros x Hx. exists (comp l x).
      assert (Ex : comp l x = ncomp l x) by (unfold comp; rewrite (proj2 (Hsym x) Hx); auto).
      split; [apply (al_char2comp_ok K HK l HB); auto|]. pose proof (Hbt x Hx).
      split; [rewrite Ex; apply HP; lia|].
      rewrite Ex, (al_C_ncomp K HK l HB), HQ by lia. auto.
  Qed.
  Lemma st_alphabet b : construct_base data sa = Some b ->
    let al := bi_alpha b in let t := terminated w in
    al_sigma al = length (nodup Nat.eq_dec t) /\
    nth_error (al_C al) (al_sigma al) = Some (length t) /\
    forall x, In x t -> exists cx, nth_error (al_char2comp al) x = Some cx /\
      cx = length (filter (fun y => y <? x) (nodup Nat.eq_dec t)) /\
      nth_error (al_C al) cx = Some (smaller x t).
  Proof.
    intros Hb. destruct (st_base b Hb) as (_ & _ & Ea). cbv zeta. rewrite Ea.
    apply (alphabet_facts 256 eq_refl (bwt_of (terminated w) sa)); auto.
    - exact (BW_bytes w sa Hw HSA).
    - apply BW_Permutation; [|exact HSA]. unfold terminated. rewrite app_length. cbn. lia.
  Qed.
  Lemma alphabet_mono K (HK : K = 256) l (HB : Forall (fun c => c < K) l) x y cx cy :
    In x l -> In y l -> x < y ->
    nth_error (al_char2comp (construct_alphabet l)) x = Some cx ->
    nth_error (al_char2comp (construct_alphabet l)) y = Some cy ->
    cx < cy < al_sigma (construct_alphabet l).
  Proof.
    intros Hx Hy Hlt Ex Ey. pose proof HB as HB'. rewrite Forall_forall in HB'.
    rewrite (al_char2comp_ok K HK l HB) in Ex by auto.
    rewrite (al_char2comp_ok K HK l HB) in Ey by auto.
    injection Ex as <-. injection Ey as <-. split.
    - apply (comp_mono K HK); auto.
    - apply (comp_sigma K HK); auto.
  Qed.
  Lemma st_alphabet_mono b : construct_base data sa = Some b ->
    forall x y cx cy, In x (terminated w) -> In y (terminated w) -> x < y ->
    nth_error (al_char2comp (bi_alpha b)) x = Some cx -> nth_error (al_char2comp (bi_alpha b)) y = Some cy ->
    cx < cy < al_sigma (bi_alpha b).
  Proof.
    intros Hb x y cx cy Hx Hy Hlt Ex Ey. destruct (st_base b Hb) as (_ & _ & Ea). rewrite Ea in *.
    apply (alphabet_mono 256 eq_refl _ (BW_bytes w sa Hw HSA) x y cx cy); auto; apply (BW_in w sa Hw HSA); auto.
  Qed.

  Variable ix : rindex.
  Hypothesis Hix : construct_rindex data sa = Some ix.

  Lemma st_rindex p : pattern_over w p -> exists s e,
    rindex_count ix p = Some (s, e) /\ row_interval p w sa s e /\
    exact_answer p w (rows sa s e) /\ length (rows sa s e) = e - s /\
    rindex_locate ix p = Some (rev (rows sa s e)).
  Proof.
    intros Hp. destruct (rindex_locate_rows w sa data Hw HSA Hd ix Hix p (proj1 (proj2 (query_over w sa Hw HSA p Hp))) (query_over w sa Hw HSA p Hp)) as (st & e & HI & Ec & El).
    exists st, e. pose proof (range_rows w sa Hw HSA p st e Hp HI) as HR.
    split; auto. split; auto. split; [apply range_rows_exact; auto|].
    split; [apply rows_length; apply HR|].
    rewrite El, map_rev, (rows_map (ctext w sa)); auto using ctext_sa. apply HI.
  Qed.

  Lemma st_rindex_phi i a : nth_error sa i = Some a -> exists b,
    ri_phi (length sa) (ri_marks ix) (ri_samples ix) (links_default (ri_links ix) true)
           sample_validator_default a = Some (nth (cpred (length sa) i) sa 0, b).
  Proof.
    intros Ha. destruct (construct_rindex_ok w sa data Hw HSA Hd) as (ix' & R & E & _ & _ & _ & Es & Em & El).
    rewrite Hix in E. injection E as <-. rewrite Es, Em, El.
    pose proof (ctext_sa w sa Hw HSA) as HS. pose proof (ctext_ok w sa Hw HSA) as HT.
    rewrite (gsa_length w sa Hw HSA).
    assert (Hi : i < len (ctext w sa)) by (rewrite <- (gsa_length w sa Hw HSA); apply nth_error_Some; congruence).
    assert (Ea : a = SA sa i) by (unfold SA; symmetry; apply nth_error_nth; auto).
    destruct (phi_full_ok _ sa HT HS a) as [b Hb].
    { subst a. apply (SA_lt _ sa HS); auto. }
    exists b. rewrite Hb. subst a. unfold PHI. rewrite (ISA_SA _ sa HS) by auto. auto.
  Qed.

  (** The loop of Count after processing a suffix of the pattern. *)
  Lemma count_loop_app {Range Next} (lf : Range -> nat -> option Next) tr gs em u : forall v r,
    count_loop lf tr gs em (u ++ v) r =
    match count_loop lf tr gs em u r with Some r' => count_loop lf tr gs em v r' | None => None end.
  Proof.
    induction u as [|c u IH]; intros v r; cbn [app count_loop]; auto.
    destruct (em r) eqn:E.
    - destruct v; cbn [count_loop]; auto. rewrite E. auto.
    - unfold bind. destruct (gs c); auto. destruct (lf r n); auto.
  Qed.
  Lemma count_loop_empty {Range Next} (lf : Range -> nat -> option Next) tr gs em u r :
    em r = true -> count_loop lf tr gs em u r = Some r.
  Proof. intros E. destruct u; cbn [count_loop]; auto. rewrite E. auto. Qed.

  Lemma st_rindex_search u v : pattern_over w v -> exists s e,
    count_loop (ri_lf (ri_alpha ix) (ri_bwt ix)) range_of_lf (al_symbol (ri_alpha ix)) range_empty
      (rev v) (0, length sa) = Some (s, e) /\ row_interval v w sa s e /\
    rindex_count ix (u ++ v) =
      count_loop (ri_lf (ri_alpha ix) (ri_bwt ix)) range_of_lf (al_symbol (ri_alpha ix)) range_empty (rev u) (s, e) /\
    (s = e -> rindex_count ix (u ++ v) = Some (s, e)).
  Proof.
    intros Hv. destruct (st_rindex v Hv) as (s & e & Ec & HR & _).
    destruct (construct_rindex_ok w sa data Hw HSA Hd) as (ix' & R & E & Ea & _). rewrite Hix in E. injection E as <-.
    assert (En : al_size (ri_alpha ix) = Some (length sa)).
    { rewrite Ea, (gsa_length w sa Hw HSA). apply (base_N w sa Hw HSA). }
    unfold rindex_count in *. rewrite En in *. cbn [bind] in *. unfold engine_count in *.
    exists s, e. split; auto. split; auto.
    rewrite rev_app_distr, count_loop_app, Ec. split; auto.
    intros ->. apply count_loop_empty. unfold range_empty. cbn [fst snd]. rewrite Nat.ltb_irrefl. auto.
  Qed.

  Lemma st_rindex_empty : rindex_count ix [] = Some (0, length sa) /\ rindex_locate ix [] = None.
  Proof.
    destruct (construct_rindex_ok w sa data Hw HSA Hd) as (ix' & R & E & Ea & _). rewrite Hix in E. injection E as <-.
    assert (En : al_size (ri_alpha ix) = Some (length sa)).
    { rewrite Ea, (gsa_length w sa Hw HSA). apply (base_N w sa Hw HSA). }
    unfold rindex_count, rindex_locate. rewrite En. cbn [bind]. split; auto.
    unfold engine_locate. cbn [rev locate_loop bind]. unfold range_empty. cbn [fst snd].
    destruct (Nat.ltb_spec 0 (length sa)) as [H|H]; cbn [negb].
    - reflexivity.
    - rewrite (gsa_length w sa Hw HSA), ctext_n in H. lia.
  Qed.
End Statements.

Lemma agree_gen p w sa s e l : row_interval p w sa s e -> exact_answer p w (rows sa s e) ->
  Permutation l (rows sa s e) ->
  length l = e - s /\ ((forall i, ~ occurs_at p w i) -> l = [] /\ s = e).
Proof.
  intros [H1 _] H2 P. pose proof (rows_length sa s e ltac:(lia)) as L. split.
  - rewrite (Permutation_length P). auto.
  - intros H. assert (E : rows sa s e = []).
    { destruct (rows sa s e) as [|x r]; auto. exfalso. apply (H x), H2. left; auto. }
    rewrite E in *. cbn in L. split; [|lia]. apply Permutation_nil. symmetry. auto.
Qed.

Lemma rows_unique p w sa s1 e1 s2 e2 : row_interval p w sa s1 e1 -> row_interval p w sa s2 e2 ->
  rows sa s1 e1 = rows sa s2 e2.
Proof.
  intros [H1 H2] [H3 H4].
  assert (G : forall i, s1 <= i < e1 <-> s2 <= i < e2) by (intros i; rewrite H2, H4; reflexivity).
  destruct (Nat.eq_dec s1 e1) as [E|E]; [|].
  - assert (s2 = e2). { destruct (Nat.eq_dec s2 e2); auto. pose proof (proj2 (G s2)). lia. }
    subst. unfold rows. rewrite !Nat.sub_diag. auto.
  - pose proof (proj1 (G s1)). pose proof (proj1 (G (e1 - 1))). pose proof (proj2 (G s2)). pose proof (proj2 (G (e2 - 1))).
    assert (s1 = s2 /\ e1 = e2) as [-> ->] by lia. auto.
Qed.
