(** From a text to its compacted form: what the base items of a construction contain, and how
    row ranges of the compacted text answer occurrence queries on the data. *)
From Coq Require Import List Arith Bool Lia ZifyBool ZifyNat Permutation.
From Verif Require Import Spec MBase Lists FM MRle Runs RleProof MConstruct MPhi MRIndex Util Phi ConstructProof Nav PhiProof.
Import ListNotations.

Section Base.
  Variables (w sa : list nat).
  Hypothesis Hw : zero_free w.
  Hypothesis HSA : is_suffix_array (terminated w) sa.
  Definition wt := terminated w.
  Definition wcomp (c : nat) : nat := comp (BW (terminated w) sa) c.
  (** The compacted text. *)
  Definition ctext : list nat := map wcomp (terminated w).
  Let n := len ctext.
  Let HT : text_ok (terminated w) := terminated_ok w Hw.
  Lemma w_bytes c : In c w -> 0 < c < 256.
  Proof. pose proof Hw as H. unfold zero_free in H. rewrite Forall_forall in H. auto. Qed.

  Lemma BW_in c : In c (BW (terminated w) sa) <-> In c (terminated w).
  Proof. apply bwt_in; auto. Qed.
  Lemma wcomp_mono c d : In c (terminated w) -> In d (terminated w) -> c < d -> wcomp c < wcomp d.
  Proof. intros Hc Hd. apply (comp_mono 256 eq_refl); apply BW_in; auto. Qed.
  Lemma wcomp_0 : wcomp 0 = 0.
  Proof. apply comp_0. Qed.
  Lemma ctext_ok : text_ok ctext.
  Proof. apply text_ok_map; auto using wcomp_mono, wcomp_0. Qed.
  Lemma ctext_sa : is_suffix_array ctext sa.
  Proof. apply is_suffix_array_map; auto using wcomp_mono. Qed.
  Lemma ctext_BW : BW ctext sa = map wcomp (BW (terminated w) sa).
  Proof. apply bwt_of_map. apply wcomp_0. Qed.
  Lemma ctext_len : len ctext = len (terminated w).
  Proof. apply map_length. Qed.
  Lemma ctext_n : n = S (length w).
  Proof. unfold n. rewrite ctext_len. unfold len, terminated. rewrite app_length. cbn. lia. Qed.
  Lemma ctext_tpos i : tpos (terminated w) sa i = tpos ctext sa i.
  Proof. unfold tpos. rewrite ctext_len. auto. Qed.
  Lemma ctext_hrows : hrows (terminated w) sa = hrows ctext sa.
  Proof.
    unfold hrows, heads_of. rewrite ctext_BW, map_length. apply filter_ext_in. intros i Hi. apply in_seq in Hi.
    symmetry. apply (headb_map wcomp (terminated w)); 
      first [exact wcomp_mono | exact wcomp_0 | lia | intros c Hc; apply BW_in; auto].
  Qed.
  Lemma ctext_trows : trows (terminated w) sa = trows ctext sa.
  Proof.
    unfold trows, tails_of. rewrite ctext_BW, map_length. apply filter_ext_in. intros i Hi. apply in_seq in Hi.
    symmetry. apply (tailb_map wcomp (terminated w)); 
      first [exact wcomp_mono | exact wcomp_0 | lia | intros c Hc; apply BW_in; auto].
  Qed.
  Lemma BW_bytes : Forall (fun c => c < 256) (BW (terminated w) sa).
  Proof.
    rewrite Forall_forall. intros c Hc. apply BW_in in Hc. unfold terminated in Hc. apply in_app_or in Hc.
    destruct Hc as [Hc|[<-|[]]]; [|lia].
    apply w_bytes in Hc. lia.
  Qed.
  Let al := construct_alphabet (BW (terminated w) sa).
  Lemma base_C c : c < al_sigma al -> nth_error (al_C al) c = Some (Cc ctext sa c).
  Proof.
    intros H. unfold al. rewrite (al_C_ok 256 eq_refl) by (auto using BW_bytes).
    unfold Cc. rewrite ctext_BW. auto.
  Qed.
  Lemma base_O c : c < al_sigma al -> In c (BW ctext sa).
  Proof.
    intros H. destruct (comp_surj 256 eq_refl _ BW_bytes c H) as (d & _ & Hd & E).
    rewrite ctext_BW. apply in_map_iff. exists d. auto.
  Qed.
  Lemma base_N : al_size al = Some n.
  Proof.
    unfold al. rewrite (al_size_ok 256 eq_refl) by apply BW_bytes. f_equal.
    rewrite (BW_length _ sa HSA). symmetry. apply ctext_len.
  Qed.
  Lemma base_symbol c : c < 256 -> al_symbol al c = Some (wcomp c).
  Proof. apply (al_char2comp_ok 256 eq_refl); auto using BW_bytes. Qed.
  Lemma base_symbol_range c : In c w -> 0 < wcomp c < al_sigma al.
  Proof.
    intros H. assert (Hin : In c (BW (terminated w) sa)).
    { apply BW_in. unfold terminated. apply in_or_app; auto. }
    split.
    - apply (comp_pos 256 eq_refl); auto.
      + apply BW_in. unfold terminated. apply in_or_app. right; left; auto.
      + apply w_bytes in H. lia.
    - apply (comp_sigma 256 eq_refl); auto using BW_bytes.
  Qed.

  Record base_facts (R : list (nat * nat)) (b : base_items) : Prop := {
    bf_text : bi_text b = terminated w;
    bf_bwt : bi_bwt_text b = BW (terminated w) sa;
    bf_runs : bi_runs_files b = mk_bwt_runs (hrows ctext sa) (hmarks ctext sa) (trows ctext sa) (tmarks ctext sa);
    bf_alpha : bi_alpha b = al;
    bf_repr : rle_repr 2 (max_symbol (BW ctext sa)) R (bi_bwt_rle b);
    bf_R : expand R = BW ctext sa
  }.

  Theorem construct_base_ok data : data = w \/ data = terminated w ->
    exists b R, construct_base data sa = Some b /\ base_facts R b.
  Proof.
    intros Hd. unfold construct_base.
    assert (Et : construct_text data = Some (terminated w)).
    { destruct Hd as [-> | ->]; [apply construct_text_plain|apply construct_text_terminated]; auto. }
    rewrite Et. cbn [bind]. rewrite construct_bwt_ok by auto. cbn [bind].
    rewrite construct_bwt_runs_ok by auto. cbn [bind].
    unfold construct_bwt_rle.
    rewrite (mmap_map _ wcomp).
    2:{ intros c Hc. pose proof BW_bytes as G. rewrite Forall_forall in G. apply (base_symbol c); auto. }
    cbn [bind]. rewrite <- ctext_BW.
    destruct (rle_construct_repr 2 (BW ctext sa)) as (s & R & E1 & E2 & E3); [lia| |].
    { pose proof (n_pos _ ctext_ok) as Hn. intros E. apply (f_equal (@length nat)) in E.
      rewrite (BW_length _ _ ctext_sa) in E. cbn in E. lia. }
    rewrite E1. cbn [bind]. do 2 eexists. split; [reflexivity|].
    constructor; cbn [bi_text bi_bwt_text bi_runs_files bi_alpha bi_bwt_rle]; eauto.
    unfold hmarks, tmarks. rewrite <- ctext_hrows, <- ctext_trows.
    f_equal; apply map_ext; intros; apply ctext_tpos.
  Qed.

  (** Queries. *)
  Lemma occurs_starts p a : p <> [] -> (forall c, In c p -> In c w) ->
    occurs_at p w a <-> a < n /\ starts (terminated w) p a.
  Proof.
    intros Hp Hin. unfold occurs_at, starts, suffix, terminated. split.
    - intros (u & v & E & Hu). split.
      + rewrite ctext_n. rewrite E, app_length. lia.
      + exists (v ++ [0]). rewrite E, <- Hu, <- !app_assoc, skipn_app, skipn_all, Nat.sub_diag. reflexivity.
    - intros [Ha [v E]]. rewrite ctext_n in Ha.
      assert (Hv : exists v', v = v' ++ [0]).
      { destruct (exists_last (l := skipn a (w ++ [0]))) as (l0 & x & El).
        - intros Z. apply (f_equal (@length nat)) in Z. rewrite skipn_length, app_length in Z. cbn in Z. lia.
        - destruct (exists_last (l := v)) as (v0 & y & Ev).
          + intros ->. rewrite app_nil_r in E.
            assert (In 0 p).
            { rewrite <- E. rewrite skipn_app. apply in_or_app. right.
              replace (a - length w) with 0 by lia. left; auto. }
            apply Hin in H. apply w_bytes in H. lia.
          + exists v0. rewrite Ev in *. f_equal. f_equal.
            rewrite app_assoc in E. rewrite skipn_app in E. replace (a - length w) with 0 in E by lia. cbn [skipn] in E.
            apply app_inj_tail in E. symmetry. apply E. }
      destruct Hv as [v' ->]. rewrite skipn_app in E. replace (a - length w) with 0 in E by lia. cbn [skipn] in E.
      rewrite app_assoc in E. apply app_inj_tail in E. destruct E as [E _].
      exists (firstn a w), v'. split.
      + rewrite <- E. symmetry. apply firstn_skipn.
      + rewrite firstn_length. lia.
  Qed.

  Lemma range_occurs p st e : p <> [] -> (forall c, In c p -> In c w) ->
    is_range ctext sa (map wcomp p) st e ->
    forall a, occurs_at p w a <-> exists i, st <= i < e /\ SA sa i = a.
  Proof.
    intros Hp Hin [He HC] a. rewrite occurs_starts by auto.
    assert (HI : forall i, i < len ctext -> st <= i < e <-> starts ctext (map wcomp p) (SA sa i)).
    { intros i Hi. rewrite (HC i Hi). apply cstarts_starts; [apply ctext_ok| |apply (SA_lt _ sa ctext_sa); auto].
      rewrite Forall_map, Forall_forall. intros c Hc. apply base_symbol_range; auto. }
    split.
    - intros [Ha Hs]. exists (ISA sa a). rewrite (SA_ISA _ sa ctext_sa) by auto. split; auto.
      apply HI; [apply (ISA_lt _ sa ctext_sa); auto|]. rewrite (SA_ISA _ sa ctext_sa) by auto.
      apply starts_map; auto using wcomp_mono, wcomp_0. intros c Hc. unfold terminated. apply in_or_app; auto.
    - intros (i & Hi & <-). fold n in He. split; [apply (SA_lt _ sa ctext_sa); fold n; lia|].
      apply (starts_map wcomp (terminated w)); auto using wcomp_mono, wcomp_0.
      + intros c Hc. unfold terminated. apply in_or_app; auto.
      + apply HI; fold n; lia.
  Qed.

  Lemma range_exact p st e l : p <> [] -> (forall c, In c p -> In c w) ->
    is_range ctext sa (map wcomp p) st e -> Permutation l (map (SA sa) (seq st (e - st))) ->
    exact_answer p w l.
  Proof.
    intros Hp Hin HI P. split.
    - eapply Permutation_NoDup; [symmetry; exact P|]. apply NoDup_map_inj; [apply seq_NoDup|].
      intros x y Hx Hy. apply in_seq in Hx, Hy. destruct HI as [He _].
      apply (SA_inj _ sa ctext_sa); lia.
    - intros a. rewrite (range_occurs p st e) by auto. split.
      + intros H. apply (Permutation_in _ P) in H. apply in_map_iff in H. destruct H as (i & Ei & Hi).
        apply in_seq in Hi. exists i. split; auto; lia.
      + intros (i & Hi & Ei). apply (Permutation_in _ (Permutation_sym P)). apply in_map_iff. exists i.
        split; auto. apply in_seq. lia.
  Qed.

  (** Pattern symbols. *)
  Lemma wcomp_absent c : ~ In c w -> wcomp c = 0.
  Proof.
    intros H. destruct (Nat.eq_dec c 0) as [->|N]; [apply wcomp_0|]. unfold wcomp, comp.
    destruct (symb (BW (terminated w) sa) c) eqn:E; auto. apply symb_In, BW_in in E. unfold terminated in E.
    apply in_app_or in E. destruct E as [E|[E|[]]]; congruence.
  Qed.
  Lemma wcomp_searched p : map wcomp (searched w p) = map wcomp p.
  Proof.
    unfold searched. rewrite map_map. apply map_ext. intros c. destruct (in_dec Nat.eq_dec c w); auto.
    rewrite wcomp_0, wcomp_absent; auto.
  Qed.
  Lemma sigma_pos : 0 < al_sigma al.
  Proof.
    rewrite <- wcomp_0. apply (comp_sigma 256 eq_refl); auto using BW_bytes. apply BW_in. unfold terminated. apply in_or_app.
    right; left; auto.
  Qed.
  Lemma wcomp_sigma c : wcomp c < al_sigma al.
  Proof.
    destruct (in_dec Nat.eq_dec c w) as [H|H]; [apply base_symbol_range; auto|]. rewrite wcomp_absent by auto. apply sigma_pos.
  Qed.
  Lemma pattern_symbols p : (forall c, In c p -> c < 256) ->
    Forall2 (fun ch c => al_symbol al ch = Some c /\ c < al_sigma al) (rev p) (rev (map wcomp p)).
  Proof.
    intros Hin. rewrite <- map_rev.
    assert (Hr : forall c, In c (rev p) -> c < 256) by (intros c Hc; apply Hin, in_rev; auto).
    induction (rev p) as [|a t IH]; cbn; constructor.
    - split; [|apply wcomp_sigma]. apply base_symbol. apply Hr. left; auto.
    - apply IH. intros c Hc. apply Hr. right; auto.
  Qed.

  Lemma circular_cstarts p a : a < n -> circular_at (searched w p) (terminated w) a <-> cstarts ctext (map wcomp p) a.
  Proof.
    intros Ha. rewrite <- wcomp_searched.
    assert (Hs : forall c, In c (searched w p) -> In c (terminated w)).
    { intros c Hc. unfold searched in Hc. apply in_map_iff in Hc. destruct Hc as (d & E & Hd). unfold terminated. apply in_or_app.
      destruct (in_dec Nat.eq_dec d w); [left; congruence|right; left; auto]. }
    assert (L : len ctext = length (terminated w)) by apply ctext_len. unfold n in Ha. rewrite L in Ha.
    unfold ctext. rewrite (cstarts_map wcomp (terminated w)) by (auto using wcomp_mono, wcomp_0).
    rewrite (cstarts_nth _ (terminated_ok w Hw)) by exact Ha. unfold circular_at, len. split.
    - intros [_ H] k c Hk. apply H in Hk. unfold tx. apply nth_error_nth. auto.
    - intros H. split; [auto|]. intros k c Hk. rewrite <- (H k c Hk). unfold tx. apply nth_error_nth'.
      apply Nat.mod_upper_bound. lia.
  Qed.
  Lemma range_circular p st e : is_range ctext sa (map wcomp p) st e ->
    forall a, circular_at (searched w p) (terminated w) a <-> exists i, st <= i < e /\ SA sa i = a.
  Proof.
    intros [He HI] a. split.
    - intros H. assert (Ha : a < n). { destruct H as [H _]. unfold n. rewrite ctext_len. exact H. }
      exists (ISA sa a). rewrite (SA_ISA _ sa ctext_sa) by auto. split; auto.
      apply HI; [apply (ISA_lt _ sa ctext_sa); auto|]. rewrite (SA_ISA _ sa ctext_sa) by auto. apply circular_cstarts; auto.
    - intros (i & Hi & <-). fold n in He. apply circular_cstarts; [apply (SA_lt _ sa ctext_sa); fold n; lia|].
      apply HI; fold n; lia.
  Qed.
  (** What the rows of a range answer. *)
  Lemma range_circular_exact p st e l : is_range ctext sa (map wcomp p) st e -> Permutation l (map (SA sa) (seq st (e - st))) ->
    NoDup l /\ forall a, In a l <-> circular_at (searched w p) (terminated w) a.
  Proof.
    intros HI P. split.
    - eapply Permutation_NoDup; [symmetry; exact P|]. apply NoDup_map_inj; [apply seq_NoDup|].
      intros x y Hx Hy. apply in_seq in Hx, Hy. destruct HI as [He _].
      apply (SA_inj _ sa ctext_sa); lia.
    - intros a. rewrite (range_circular p st e) by auto. split.
      + intros H. apply (Permutation_in _ P) in H. apply in_map_iff in H. destruct H as (i & Ei & Hi).
        apply in_seq in Hi. exists i. split; auto; lia.
      + intros (i & Hi & Ei). apply (Permutation_in _ (Permutation_sym P)). apply in_map_iff. exists i.
        split; auto. apply in_seq. lia.
  Qed.

  Lemma pattern_short p st e : p <> [] -> (forall c, In c p -> In c w) ->
    is_range ctext sa (map wcomp p) st e -> st < e -> length p < n.
  Proof.
    intros Hp Hin HI Hlt.
    assert (Ho : occurs_at p w (SA sa st)) by (apply (range_occurs p st e); auto; exists st; split; auto; lia).
    destruct Ho as (u & v & E & _). rewrite ctext_n, E, !app_length. lia.
  Qed.

  (** The queries that the indexes answer: bytes, and no longer than the text if there is a match. *)
  Definition query (p : list nat) : Prop := p <> [] /\ (forall c, In c p -> c < 256) /\
    forall st e, is_range ctext sa (map wcomp p) st e -> st < e -> length p <= n.
  Lemma query_over p : pattern_over w p -> query p.
  Proof.
    intros [Hp Hin]. split; [auto|]. split; [intros c Hc; apply Hin, w_bytes in Hc; lia|].
    intros st e HI Hlt. apply Nat.lt_le_incl. eapply pattern_short; eauto.
  Qed.
  Lemma query_short p : p <> [] -> (forall c, In c p -> c < 256) -> length p <= S (length w) -> query p.
  Proof. intros Hp Hb Hl. split; [auto|]. split; [auto|]. intros st e _ _. rewrite ctext_n. auto. Qed.
End Base.
