(** Backward search over the run-length BWT of a compacted text: LF, toehold, engine. *)
From Coq Require Import List Arith Bool Lia ZifyBool ZifyNat Permutation.
From Verif Require Import Spec MBase Lists FM MRle Runs RleProof MConstruct MPhi MRIndex Util Phi ConstructProof.
Import ListNotations.

Lemma umod_ok a b : 0 < b -> umod a b = Some (a mod b).
Proof. intros H. unfold umod. destruct (Nat.eqb_spec b 0); [lia|auto]. Qed.
Lemma sub64_ok a b : b <= a -> sub64 a b = a - b.
Proof. intros H. unfold sub64. rewrite (proj2 (Nat.leb_le _ _)) by auto. auto. Qed.
Lemma mod_sub_once a n : 0 < n -> n <= a -> a < 2 * n -> a mod n = a - n.
Proof. intros. replace a with ((a - n) + 1 * n) at 1 by lia. rewrite Nat.mod_add, Nat.mod_small; lia. Qed.

(** [m] steps back from [m] steps ahead, as the toeholds compute it. *)
Lemma circular_back a m n : a < n -> m <= n -> ((a + (m - 0)) mod n + 1 + n - m - 1) mod n = a.
Proof.
  intros Ha Hm. replace ((a + (m - 0)) mod n + 1 + n - m - 1) with ((a + m) mod n + (n - m)) by (rewrite Nat.sub_0_r; lia).
  rewrite Nat.add_mod_idemp_l by lia. replace (a + m + (n - m)) with (a + 1 * n) by lia.
  rewrite Nat.mod_add by lia. apply Nat.mod_small; auto.
Qed.

Lemma skipn_skipn {A} (l : list A) : forall a b, skipn a (skipn b l) = skipn (a + b) l.
Proof.
  induction l as [|x l IH]; intros a b; [rewrite !skipn_nil; auto|].
  destruct b; [rewrite Nat.add_0_r; auto|]. rewrite Nat.add_succ_r. cbn. apply IH.
Qed.

(** Count runs the same loop as Locate. *)
Lemma locate_count_loop {Range Next Data} (lf : Range -> nat -> option Next) to_range update get_symbol empty :
  forall rp range i (d : Data),
  count_loop lf to_range get_symbol empty rp range =
  option_map fst (locate_loop lf to_range update get_symbol empty rp range i d).
Proof.
  induction rp as [|ch rp IH]; intros range i d; cbn; auto.
  destruct (empty range); auto. destruct (get_symbol ch) as [c|]; cbn; auto.
  destruct (lf range c) as [nx|]; cbn; auto.
Qed.

(** The step of the toehold is at most that of the first symbol. *)
Lemma locate_loop_step {Range Next RunData} (lf : Range -> nat -> option Next) to_range trivial create get_symbol empty :
  (forall r c nx k, sd_step (create r c nx k : step_data RunData) = k) ->
  forall rp range i d r' d',
  locate_loop lf to_range (compute_step_data trivial create) get_symbol empty rp range i d = Some (r', d') ->
  sd_step d' <= Nat.max (sd_step d) i.
Proof.
  intros HC. induction rp as [|ch rp IH]; intros range i d r' d' E; cbn in E; [injection E as _ <-; lia|].
  destruct (empty range); [injection E as _ <-; lia|]. destruct (get_symbol ch) as [c|]; cbn in E; [|discriminate].
  destruct (lf range c) as [nx|]; cbn in E; [|discriminate]. apply IH in E. unfold compute_step_data in E.
  destruct (_ || _); [rewrite HC in E|]; lia.
Qed.

(** * The query engine *)
Section Engine.
  Variables (T sa : list nat).
  Hypothesis HT : text_ok T.
  Hypothesis HSA : is_suffix_array T sa.
  Let n := len T.
  Variable sigma : nat.
    Lemma is_range_empty q st e u : is_range T sa q st e -> e <= st -> is_range T sa (u ++ q) st e.
    Proof.
      intros [He HI] Hse. split; auto. intros i Hi. split; [lia|]. intros Hst. exfalso.
      assert (G : forall a, a < len T -> ~ cstarts T q a).
      { intros a Ha HC. pose proof (HI (ISA sa a) (ISA_lt T sa HSA _ Ha)) as G.
        rewrite (SA_ISA T sa HSA) in G by auto. apply G in HC. lia. }
      assert (F : forall u a, a < len T -> ~ cstarts T (u ++ q) a).
      { induction u0 as [|c u0 IH]; intros a Ha; [apply G; auto|]. intros [_ HC].
        apply (IH (csucc T a)); auto. apply (csucc_lt T HT). }
      exact (F u (SA sa i) (SA_lt T sa HSA i Hi) Hst).
    Qed.

    Context {Next : Type}.
    Variables (lf : range -> nat -> option Next) (to_range : Next -> range)
              (get_symbol : nat -> option nat).
    Hypothesis Hlf : forall c st e, c < sigma -> st < e -> e <= n ->
      exists nx, lf (st, e) c = Some nx /\ to_range nx = (Cc T sa c + rk T sa c st, Cc T sa c + rk T sa c e).
    Lemma count_loop_ok : forall rp rq st e q,
      Forall2 (fun ch c => get_symbol ch = Some c /\ c < sigma) rp rq -> is_range T sa q st e ->
      exists st' e', count_loop lf to_range get_symbol range_empty rp (st, e) = Some (st', e') /\
        is_range T sa (rev rq ++ q) st' e' .
    Proof.
      induction rp as [|ch rp IH]; intros rq st e q HF HI.
      - inversion HF; subst. cbn. eauto.
      - inversion HF as [|? c ? rq' [Hg Hc] HF']; subst. cbn [count_loop].
        unfold range_empty at 1. cbn [fst snd].
        destruct (Nat.ltb_spec st e) as [Hse|Hse]; cbn [negb].
        + rewrite Hg. cbn [bind].
          destruct (Hlf c st e Hc Hse (proj2 (proj1 HI))) as (nx & El & Er). rewrite El. cbn [bind]. rewrite Er.
          destruct (IH rq' _ _ (c :: q) HF' (is_range_step T sa HT HSA c q st e HI)) as (s2 & e2 & G1 & G2).
          exists s2, e2. split; auto. cbn [rev]. rewrite <- app_assoc. auto.
        + exists st, e. split; auto. apply is_range_empty; auto.
    Qed.
    Context {Data : Type}.
    Variables (update : range -> Next -> nat -> nat -> Data -> Data) (init : Data).
    (** [DI k st e d]: [d] is good for the range with [k] symbols left. *)
    Variable DI : nat -> nat -> nat -> Data -> Prop.
    Hypothesis Hfirst : forall k c nx st' e', c < sigma -> lf (0, n) c = Some nx -> to_range nx = (st', e') ->
      st' < e' -> DI k st' e' (update (0, n) nx c k init).
    Hypothesis Hstep : forall k q c nx st e st' e' d, c < sigma -> st < e -> is_range T sa q st e -> q <> [] ->
      lf (st, e) c = Some nx -> to_range nx = (st', e') ->
      st' < e' -> DI (S k) st e d -> DI k st' e' (update (st, e) nx c k d).

    Lemma locate_loop_ok : forall rp rq st e q d,
      Forall2 (fun ch c => get_symbol ch = Some c /\ c < sigma) rp rq ->
      is_range T sa q st e -> (q = [] -> st = 0 /\ e = n /\ d = init) ->
      (q <> [] -> st < e -> DI (length rp) st e d) ->
      exists st' e' d', locate_loop lf to_range update get_symbol range_empty rp (st, e) (length rp - 1) d
           = Some ((st', e'), d') /\ is_range T sa (rev rq ++ q) st' e' /\
           (rev rq ++ q <> [] -> st' < e' -> DI 0 st' e' d').
    Proof.
      induction rp as [|ch rp IH]; intros rq st e q d HF HI Hd0 Hd.
      - inversion HF; subst. cbn. exists st, e, d. auto.
      - inversion HF as [|? c ? rq' [Hg Hc] HF']; subst. cbn [locate_loop].
        unfold range_empty at 1. cbn [fst snd].
        destruct (Nat.ltb_spec st e) as [Hse|Hse]; cbn [negb].
        + rewrite Hg. cbn [bind].
          destruct (Hlf c st e Hc Hse (proj2 (proj1 HI))) as (nx & El & Er). rewrite El. cbn [bind]. rewrite Er.
          cbn [length]. replace (S (length rp) - 1) with (length rp) by lia.
          set (st' := Cc T sa c + rk T sa c st) in *. set (e' := Cc T sa c + rk T sa c e) in *.
          destruct (IH rq' st' e' (c :: q) (update (st, e) nx c (length rp) d)) as (s2 & e2 & d2 & G1 & G2 & G3); auto.
          * apply is_range_step; auto.
          * intros; discriminate.
          * intros _ Hlt. destruct q as [|c0 q].
            -- destruct (Hd0 eq_refl) as (-> & -> & ->). eapply Hfirst; eauto.
            -- eapply Hstep with (q := c0 :: q); eauto; try congruence. apply Hd; auto. congruence.
          * exists s2, e2, d2. split; auto. cbn [rev]. rewrite <- app_assoc. cbn [app].
            split; auto.
        + exists st, e, d. split; auto. split.
          * apply is_range_empty; auto.
          * lia.
    Qed.

End Engine.

Section Nav.
  Variables (T sa : list nat).
  Hypothesis HT : text_ok T.
  Hypothesis HSA : is_suffix_array T sa.
  Let n := len T.
  Variables (al : alphabet) (s : rlestr) (M : nat) (R : list (nat * nat)).
  Hypothesis HS : rle_repr 2 M R s.
  Hypothesis HR : expand R = BW T sa.
  Let sigma := al_sigma al.
  Hypothesis HC : forall c, c < sigma -> nth_error (al_C al) c = Some (Cc T sa c).
  Hypothesis HO : forall c, c < sigma -> In c (BW T sa).
  Hypothesis HN : al_size al = Some n.

  Lemma expand_len : length (expand R) = n.
  Proof. rewrite HR. apply (BW_length T sa HSA). Qed.
  Lemma nav_rle_size : rle_size s = n.
  Proof. rewrite (repr_size _ _ _ _ HS). apply expand_len. Qed.
  Lemma nav_M c : c < sigma -> c <= M.
  Proof.
    intros H. apply HO in H. rewrite <- HR in H. apply (rp_M _ _ _ _ HS).
    unfold expand in H. apply in_flat_map in H. destruct H as ([d k] & Hin & Hc). cbn in Hc.
    apply repeat_spec in Hc. subst. change d with (fst (d, k)). apply in_map; auto.
  Qed.
  Lemma nav_count c : c < sigma -> 0 < count (Nat.eqb c) (BW T sa).
  Proof.
    intros H. apply HO in H. unfold count. destruct (filter (Nat.eqb c) (BW T sa)) eqn:E; cbn; [|lia].
    exfalso. assert (In c []) by (rewrite <- E; apply filter_In; split; auto; apply Nat.eqb_refl). auto.
  Qed.
  Lemma rstart_n j : rstart R j <= n.
  Proof. rewrite <- expand_len. apply rstart_le. Qed.
  Lemma nav_run i : i < n -> exists j c k, nth_error R j = Some (c, k) /\ rstart R j <= i < rstart R (S j) /\ bw T sa i = c.
  Proof.
    intros Hi. destruct (run_at R i) as (j & c & k & E & Hj); [rewrite expand_len; auto|].
    exists j, c, k. split; auto. split; auto. unfold bw. rewrite <- HR. eapply expand_nth_d; eauto.
  Qed.
  Lemma nav_bw j c k i : nth_error R j = Some (c, k) -> rstart R j <= i < rstart R (S j) -> bw T sa i = c.
  Proof. intros. unfold bw. rewrite <- HR. eapply expand_nth_d; eauto. Qed.

  Lemma nav_rank_report c i j d k : c < sigma -> nth_error R j = Some (d, k) -> rstart R j <= i < rstart R (S j) ->
    ri_bwt_rank s c i = Some (mk_data_lf (rk T sa c i) (cruns c R (S j)) (c =? d)).
  Proof.
    intros Hc Hj Hi. unfold ri_bwt_rank.
    rewrite (repr_rank_report_c _ _ _ _ HS i j d k c); auto using nav_M.
    - cbn [bind]. rewrite HR. reflexivity.
    - rewrite HR. apply nav_count; auto.
  Qed.

  (** LF on a non-empty range. *)
  Theorem ri_lf_ok c st e j d k : c < sigma -> st < e -> e <= n ->
    nth_error R j = Some (d, k) -> rstart R j <= e - 1 < rstart R (S j) ->
    exists x, ri_lf al s (st, e) c =
      Some (x, mk_data_lf (Cc T sa c + rk T sa c e) (cruns c R (S j)) (c =? d)) /\
      dl_value x = Cc T sa c + rk T sa c st.
  Proof.
    intros Hc Hse He Hj Hi. unfold ri_lf. cbn [fst snd].
    destruct (nav_run st ltac:(lia)) as (j0 & d0 & k0 & E0 & Hj0 & _).
    rewrite (nav_rank_report c st j0 d0 k0) by auto. cbn [bind].
    rewrite (nav_rank_report c (e - 1) j d k) by auto. cbn [bind].
    rewrite HC by auto. cbn [bind dl_value dl_rank dl_cover].
    eexists (mk_data_lf (rk T sa c st + Cc T sa c) _ _). split; [|cbn [dl_value]; lia].
    do 3 f_equal. unfold rk. replace e with (S (e - 1)) at 2 by lia.
    rewrite (rankP_S _ (BW T sa) (e - 1) (bw T sa (e - 1))) by (apply (BW_nth_error T sa HSA); fold n; lia).
    rewrite (nav_bw j d k) by auto. destruct (c =? d); lia.
  Qed.

  (** The last run of [c] that starts at or before the run of [e - 1]. *)
  Lemma last_run c e j d k st : nth_error R j = Some (d, k) -> rstart R j <= e - 1 < rstart R (S j) ->
    e <= n -> st < e -> rk T sa c st < rk T sa c e ->
    exists j', j' <= j /\ rle_select_on_runs s (cruns c R (S j)) c = Some j' /\ (exists k', nth_error R j' = Some (c, k')) /\
      (c = d -> j' = j) /\
      (c <> d -> let t := rstart R (S j') - 1 in st <= t < e /\ bw T sa t = c /\ rk T sa c (S t) = rk T sa c e).
  Proof.
    intros Hj Hi He Hse Hr.
    assert (Hpos : cruns c R (S j) <> 0).
    { intros Z. assert (rk T sa c e = 0); [|lia].
      assert (G : csum c R (S j) = 0).
      { rewrite <- csum_psum, Z. reflexivity. }
      pose proof (csum_S R c j d k Hj) as G2.
      unfold rk. rewrite <- HR. rewrite (expand_rank c R j d k e); auto; [|lia].
      rewrite G in G2.
      destruct (c =? d) eqn:Ecd; [|lia].
      rewrite (rstart_S R j d k Hj) in Hi. lia. }
    destruct (cruns c R (S j)) as [|q] eqn:Eq; [congruence|].
    unfold cruns in Eq.
    destruct (select0_total (Nat.eqb c) (map fst R) q) as [j' Hj'].
    { pose proof (rankP_le_count (Nat.eqb c) (map fst R) (S j)). lia. }
    pose proof (select0_spec _ _ _ _ Hj') as [(x & Hx & Hcx) Hrk]. apply Nat.eqb_eq in Hcx. subst x.
    rewrite nth_error_map in Hx. destruct (nth_error R j') as [[c' k']|] eqn:Er; cbn in Hx; [|discriminate].
    injection Hx as ->.
    assert (Hle : j' <= j).
    { destruct (Nat.le_gt_cases j' j); auto. exfalso.
      pose proof (rankP_mono (Nat.eqb c) (map fst R) (S j) j' ltac:(lia)). lia. }
    exists j'. split; auto. split.
    { rewrite <- (repr_select_on_runs _ _ _ _ HS j' c k' Er). f_equal. unfold cruns. lia. }
    split; [eauto|]. split.
    - intros ->. destruct (Nat.eq_dec j' j); auto. exfalso.
      assert (cruns d R (S j) = S (cruns d R j)) by (rewrite (cruns_S R j d d k Hj), Nat.eqb_refl; lia).
      pose proof (rankP_mono (Nat.eqb d) (map fst R) (S j') j ltac:(lia)).
      assert (cruns d R (S j') = S (cruns d R j')) by (rewrite (cruns_S R j' d d k' Er), Nat.eqb_refl; lia).
      unfold cruns in *. lia.
    - intros Hcd t.
      assert (Hlt : j' < j).
      { destruct (Nat.eq_dec j' j); [|lia]. subst. congruence. }
      assert (Hrt : rstart R j' < rstart R (S j')).
      { rewrite (rstart_S R j' c k' Er). pose proof (rp_wf _ _ _ _ HS) as HW.
        pose proof (rstart_lt R HW j') as G. apply nth_error_Some_lt in Er as L. specialize (G L).
        rewrite (rstart_S R j' c k' Er) in G. lia. }
      pose proof (rstart_mono R (S j') j ltac:(lia)) as Hm.
      assert (Eb : bw T sa t = c) by (apply (nav_bw j' c k'); auto; unfold t; lia).
      assert (Ek : rk T sa c (S t) = rk T sa c e).
      { unfold rk. rewrite <- HR.
        rewrite (expand_rank c R j d k e); auto; [|lia].
        rewrite (expand_rank c R j' c k' (S t)); auto; [|unfold t; lia].
        rewrite Nat.eqb_refl. destruct (Nat.eqb_spec c d); [congruence|].
        rewrite Nat.add_0_r. unfold t. replace (S (rstart R (S j') - 1)) with (rstart R (S j')) by lia.
        rewrite (rstart_S R j' c k' Er).
        pose proof (csum_S R c j' c k' Er) as G1. rewrite Nat.eqb_refl in G1.
        rewrite <- (csum_psum c R j).
        assert (Z : cruns c R j = cruns c R (S j')).
        { rewrite (cruns_S R j' c c k' Er), Nat.eqb_refl.
          assert (E2 : cruns c R (S j) = cruns c R j).
          { rewrite (cruns_S R j c d k Hj). destruct (Nat.eqb_spec c d); [congruence|lia]. }
          unfold cruns in *. lia. }
        rewrite Z, csum_psum. lia. }
      split; [|auto]. split; [|unfold t; lia].
      destruct (Nat.le_gt_cases st t); auto. exfalso.
      pose proof (rankP_mono (Nat.eqb c) (BW T sa) (S t) st ltac:(lia)). unfold rk in *. lia.
  Qed.

  Lemma tail_row j : j < length R -> tailr T sa (rstart R (S j) - 1) = true.
  Proof.
    intros Hj. unfold tailr. rewrite <- HR.
    pose proof (rstart_lt R (rp_wf _ _ _ _ HS) j Hj).
    rewrite (tailb_expand R j) by (auto using (rp_wf _ _ _ _ HS); lia).
    apply Nat.eqb_eq. lia.
  Qed.

  (** Tail row [t] of a run, in text terms: its sample is the position of the row LF t. *)
  Lemma LFr_at c t e : t < n -> bw T sa t = c -> rk T sa c (S t) = rk T sa c e ->
    LFr T sa t = Cc T sa c + rk T sa c e - 1.
  Proof.
    intros Ht Hb Hr. rewrite (LFr_formula T sa HT HSA) by auto. rewrite Hb, <- Hr.
    unfold rk. rewrite (rankP_S _ (BW T sa) t (bw T sa t)) by (apply (BW_nth_error T sa HSA); auto).
    rewrite Hb, Nat.eqb_refl. lia.
  Qed.

  (** Last row of the range after a step, and the row with the sample (r-index side). *)
  Definition toe_row (d : run_data) (t : nat) : Prop :=
    exists j k, rle_select_on_runs s (rn_last d) (rn_c d) = Some j /\ nth_error R j = Some (rn_c d, k) /\
              t = rstart R (S j) - 1.
  Definition toe_inv (k st e : nat) (d : step_data run_data) : Prop :=
    k <= sd_step d /\ exists t, t < n /\ toe_row (sd_run d) t /\ tpos T sa t = (SA sa (e - 1) + (sd_step d - k)) mod n.

  Lemma SA_pred c e : e <= n -> 0 < e -> bw T sa (e - 1) = c ->
    SA sa (e - 1) = csucc T (SA sa (Cc T sa c + rk T sa c e - 1)).
  Proof.
    intros He H0 Hb.
    assert (E : LFr T sa (e - 1) = Cc T sa c + rk T sa c e - 1).
    { apply LFr_at; auto; [lia|]. replace (S (e - 1)) with e by lia. auto. }
    rewrite <- E, (SA_LFr T sa HT HSA), (csucc_cpred T); auto. apply (SA_lt T sa HSA). fold n. lia.
  Qed.

  Lemma ri_lf_range c st e : c < sigma -> st < e -> e <= n ->
    exists nx, ri_lf al s (st, e) c = Some nx /\
      range_of_lf nx = (Cc T sa c + rk T sa c st, Cc T sa c + rk T sa c e).
  Proof.
    intros Hc Hse He. destruct (nav_run (e - 1) ltac:(lia)) as (j & d & k & E & Hj & _).
    destruct (ri_lf_ok c st e j d k) as (x & Ex & Hx); auto. eexists. split; [eauto|].
    unfold range_of_lf. cbn [fst snd dl_value]. rewrite Hx. auto.
  Qed.

  (** The data created at a step names the tail row whose LF is the last row of the new range. *)
  Lemma create_ok k c st e nx : c < sigma -> st < e -> e <= n ->
    ri_lf al s (st, e) c = Some nx -> Cc T sa c + rk T sa c st < Cc T sa c + rk T sa c e ->
    (dl_cover (snd nx) = true -> tailr T sa (e - 1) = true) ->
    toe_inv k (Cc T sa c + rk T sa c st) (Cc T sa c + rk T sa c e) (ri_create_data (st, e) c nx k).
  Proof.
    intros Hc Hse He El Hlt Hcov.
    destruct (nav_run (e - 1) ltac:(lia)) as (j & d & k0 & E & Hj & Hb).
    destruct (ri_lf_ok c st e j d k0) as (x & Ex & Hx); auto. rewrite El in Ex. injection Ex as ->.
    cbn [snd dl_cover] in Hcov.
    destruct (last_run c e j d k0 st) as (j' & Hle & Hsel & (k' & Hk') & Hcd & Hnc); auto; [lia|].
    unfold toe_inv, ri_create_data. cbn [sd_step sd_run snd dl_rank]. split; auto.
    exists (rstart R (S j') - 1).
    assert (Hb' : rstart R (S j') - 1 < n /\ bw T sa (rstart R (S j') - 1) = c /\
                  rk T sa c (S (rstart R (S j') - 1)) = rk T sa c e).
    { destruct (Nat.eq_dec c d) as [->|N].
      - rewrite (Hcd eq_refl) in *. rewrite Nat.eqb_refl in Hcov.
        assert (Ee : rstart R (S j) - 1 = e - 1).
        { specialize (Hcov eq_refl). unfold tailr in Hcov. rewrite <- HR in Hcov.
          rewrite (tailb_expand R j) in Hcov; auto.
          - apply Nat.eqb_eq in Hcov. lia.
          - apply (rp_wf _ _ _ _ HS).
          - apply nth_error_Some_lt in E; auto. }
        rewrite Ee. replace (S (e - 1)) with e by lia. split; [lia|auto].
      - specialize (Hnc N). cbv zeta in Hnc. destruct Hnc as (? & ? & ?). split; [lia|auto]. }
    destruct Hb' as (Ht & Hbt & Hrt). split; auto. split.
    - unfold toe_row. cbn [rn_last rn_c]. exists j', k'. auto.
    - rewrite (tpos_LFr T sa HT HSA), (LFr_at c _ e) by auto. rewrite Nat.sub_diag, Nat.add_0_r. symmetry. apply Nat.mod_small.
      apply (SA_lt T sa HSA). destruct (is_range_step T sa HT HSA c [] 0 n (is_range_full T sa)) as [[_ G] _].
      pose proof (rankP_mono (Nat.eqb c) (BW T sa) e n He) as G2. fold n in G, G2. unfold rk in *. lia.
  Qed.

  Lemma toe_first k c nx st' e' : c < sigma -> ri_lf al s (0, n) c = Some nx -> range_of_lf nx = (st', e') ->
    st' < e' -> toe_inv k st' e' (compute_step_data ri_lf_trivial ri_create_data (0, n) nx c k
                                    (mk_step_data 0 (mk_run_data 0 0))).
  Proof.
    intros Hc El Er Hlt. unfold compute_step_data. cbn [sd_step]. rewrite Nat.eqb_refl. cbn [orb].
    pose proof (n_pos T HT). fold n in H.
    destruct (ri_lf_range c 0 n Hc ltac:(lia) ltac:(lia)) as (nx' & E1 & E2).
    rewrite El in E1. injection E1 as <-. rewrite Er in E2. injection E2 as -> ->.
    apply create_ok; auto. intros _. apply (tailr_last T sa HSA).
  Qed.

  Lemma toe_step k q c nx st e st' e' d : c < sigma -> st < e -> is_range T sa q st e -> q <> [] ->
    ri_lf al s (st, e) c = Some nx -> range_of_lf nx = (st', e') -> st' < e' -> toe_inv (S k) st e d ->
    toe_inv k st' e' (compute_step_data ri_lf_trivial ri_create_data (st, e) nx c k d).
  Proof.
    intros Hc Hse [[_ He] _] _ El Er Hlt (Hk & t & Ht & Htr & Etp). unfold compute_step_data.
    destruct (ri_lf_range c st e Hc Hse He) as (nx' & E1 & E2).
    rewrite El in E1. injection E1 as <-. rewrite Er in E2. injection E2 as -> ->.
    destruct (Nat.eqb_spec (sd_step d) 0); [lia|]. cbn [orb].
    destruct (ri_lf_trivial (st, e) c nx) eqn:Etr; cbn [negb].
    - unfold ri_lf_trivial in Etr.
      unfold range_of_lf in Er. injection Er as E3 E4. rewrite E3, E4 in Etr.
      destruct (Nat.ltb_spec (Cc T sa c + rk T sa c st) (Cc T sa c + rk T sa c e)); [|lia].
      cbn [negb orb] in Etr.
      split; [lia|]. exists t. split; auto. split; auto. rewrite Etp.
      destruct (nav_run (e - 1) ltac:(lia)) as (j & d0 & k0 & E & Hj & Hb).
      destruct (ri_lf_ok c st e j d0 k0) as (x & Ex & Hx); auto. rewrite El in Ex. injection Ex as ->.
      cbn [snd dl_cover] in Etr. apply Nat.eqb_eq in Etr. subst d0.
      rewrite (SA_pred c e) by (auto; lia). unfold csucc. fold n. rewrite Nat.add_mod_idemp_l by lia. f_equal. lia.
    - apply create_ok; auto. intros Hcov. unfold ri_lf_trivial in Etr. rewrite Hcov, orb_true_r in Etr. discriminate.
  Qed.

  Lemma toe_value st e d samples : e <= n -> 0 < e -> sd_step d <= n -> samples = map (tpos T sa) (trows T sa) -> toe_inv 0 st e d ->
    compute_toehold (fun d => run <- rle_select_on_runs s (rn_last d) (rn_c d) ;;
                            sample <- nth_error samples run ;; Some (sample + 1)) (rle_size s) d
    = Some (SA sa (e - 1)).
  Proof.
    intros He H0 Hd -> (Hk & t & Ht & (j & k & Hsel & Hj & Et) & Etp).
    unfold compute_toehold. rewrite Hsel. cbn [bind].
    assert (Etr : trows T sa = map (fun k => rstart R (S k) - 1) (seq 0 (length R))).
    { unfold trows. rewrite <- HR. apply tails_of_expand, (rp_wf _ _ _ _ HS). }
    apply nth_error_Some_lt in Hj as Lj.
    rewrite Etr, nth_error_map, nth_error_map_seq by auto. cbn [option_map bind]. rewrite <- Et, Etp.
    rewrite nav_rle_size. rewrite (sub64_ok (_ + n) (sd_step d)) by lia. rewrite sub64_ok by lia. rewrite umod_ok by lia. f_equal.
    pose proof (SA_lt T sa HSA (e - 1) ltac:(fold n; lia)) as Hs. fold n in Hs.
    apply circular_back; auto.
  Qed.
End Nav.
