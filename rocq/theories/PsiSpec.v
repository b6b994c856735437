(** The psi cores in the vocabulary of Spec.v. *)
From Coq Require Import List Arith Bool Lia ZifyBool ZifyNat Permutation Sorted.
From Verif Require Import Spec MBase Lists MConstruct MPsi Util Runs RleSpec EncProof PsiSym PsiOps PsiProof PsiCore.
Import ListNotations.

Lemma count_below_nth ms k : ssorted ms -> k < length ms -> count (fun m => m <? nth k ms 0) ms = k.
Proof.
  intros Hs Hk. destruct (Nat.lt_trichotomy (count (fun m => m <? nth k ms 0) ms) k) as [E|[E|E]]; auto; exfalso.
  - set (c := count (fun m => m <? nth k ms 0) ms) in *. pose proof (ssorted_nth ms Hs c k E Hk) as Hc.
    apply count_lt_sorted in Hc; auto; [|lia]. fold c in Hc. lia.
  - apply count_lt_sorted in E; auto. lia.
Qed.

(** A PsiCoreRLE built by the two construction steps from a sequence [b]. *)
Definition psi_rle_of (b : list nat) (sigma dens : nat) (pc : psi_core) : Prop :=
  exists psi, construct_psi (nth_error b) (cumulative b sigma) = Some psi /\
              pc_construct dens (cumulative b sigma) psi = Some pc.
Definition psi_bv_of (b : list nat) (sigma : nat) (pv : psi_bv) : Prop :=
  exists psi, construct_psi (nth_error b) (cumulative b sigma) = Some psi /\
              pv_construct (cumulative b sigma) psi = Some pv.
(** A reported interval lies inside a maximal run, with the symbol, the index of that run among
    the runs of the symbol, and whether the interval starts the run. *)
Definition inside_run (b : list nat) (p : run_piece) : Prop :=
  exists s e, maximal_run b s e (pi_c p) /\ s <= pi_first p /\ pi_first p < pi_last p /\ pi_last p <= e /\
    pi_run p = runs_of_before (pi_c p) b s /\ (pi_is_first p = true <-> pi_first p = s).
(** A reported interval is the part of a maximal run that lies in [first, last). *)
Definition run_cut (b : list nat) (first last : nat) (p : run_piece) : Prop :=
  exists s e, maximal_run b s e (pi_c p) /\ pi_first p = Nat.max first s /\ pi_last p = Nat.min last e /\
    pi_first p < pi_last p /\
    pi_run p = runs_of_before (pi_c p) b s /\ (pi_is_first p = true <-> pi_first p = s).
(** The values of a reported interval. *)
Definition interval (p : run_piece) : list nat := seq (pi_first p) (pi_last p - pi_first p).

Section PsiSpec.
  Variables (b : list nat) (sigma h : nat) (pc : psi_core).
  Hypothesis Hd : dense b sigma.
  Hypothesis Hn0 : 0 < length b.
  Hypothesis Hn : length b < 2 ^ 64.
  Hypothesis Hh : 0 < h.
  Hypothesis Hpc : psi_rle_of b sigma (2 * h) pc.
  Let n := length b.
  Let R := rle b.
  Let hs := map fst R.
  Let r := length R.
  Notation sym k := (nth k hs 0).
  Notation hrk c k := (rankP (Nat.eqb c) hs k).
  Notation rs k := (rstart R k).
  Let HR : wf_runs R := rle_wf b.

  Lemma d_lt x : In x b -> x < sigma.
  Proof. apply Hd. Qed.
  Lemma d_occ c : c < sigma -> In c b.
  Proof. apply Hd. Qed.
  Lemma pc_core : pc = core b sigma h.
  Proof.
    destruct Hpc as (psi & E1 & E2). change (cumulative b sigma) with (cums b sigma) in *.
    rewrite (construct_psi_ok b sigma d_lt) in E1. injection E1 as <-.
    rewrite (core_construct_ok b sigma d_lt d_occ Hn0 h Hh Hn) in E2. injection E2 as <-. auto.
  Qed.
  Lemma sp_run k : k < r -> maximal_run b (rs k) (rs (S k)) (sym k).
  Proof.
    intros Hk. assert (E : nth_error R k = Some (sym k, snd (nth k R (0, 0)))).
    { rewrite (nth_error_nth_lt R k (0, 0)) by auto. unfold hs, R. rewrite sym_fst. destruct (nth k (rle b) (0, 0)); auto. }
    pose proof (expand_maximal_run R k _ _ HR E) as H. unfold R in H at 1. rewrite expand_rle in H. auto.
  Qed.
  Lemma sp_run_inv s e c : maximal_run b s e c -> exists k, k < r /\ s = rs k /\ e = rs (S k) /\ sym k = c.
  Proof.
    intros H. rewrite <- (expand_rle b) in H. apply maximal_run_expand in H; auto. destruct H as (k & l & E & -> & ->).
    exists k. split; [apply nth_error_Some; fold R in E; congruence|]. split; auto. split; auto.
    apply nth_error_nth. unfold hs. rewrite nth_error_map. fold R in E. rewrite E. auto.
  Qed.
  Lemma sp_idx c k : k <= r -> runs_of_before c b (rs k) = hrk c k.
  Proof. intros Hk. pose proof (runs_of_before_expand c R k HR Hk) as H. unfold R in H at 1. rewrite expand_rle in H. auto. Qed.

  Theorem ps_size : pc_n pc = n.
  Proof. rewrite pc_core. auto. Qed.
  Theorem ps_first : nth_error b 0 = Some (pc_first pc).
  Proof. rewrite pc_core. exact (nth_error_nth_lt b 0 0 Hn0). Qed.
  Theorem ps_select c k : 1 <= k <= occ c b n -> exists p, pc_select pc c k = Some p /\ nth_error b p = Some c /\ occ c b p = k - 1.
  Proof.
    rewrite occ_rankP, rankP_all by auto. rewrite <- occs_length. intros Hk. rewrite pc_core.
    assert (Hc : c < sigma).
    { pose proof (nth_In (occs b c) 0 (n := 0) ltac:(lia)) as Hin. apply occs_in in Hin. destruct Hin as [G <-]. apply d_lt, nth_In, G. }
    destruct k as [|k]; [lia|]. exists (nth k (occs b c) 0). split; [apply core_select; auto using d_lt, d_occ; lia|].
    pose proof (nth_In (occs b c) 0 (n := k) ltac:(lia)) as Hin. apply occs_in in Hin. destruct Hin as [G Es].
    split; [rewrite (nth_error_nth_lt b _ 0) by auto; congruence|]. rewrite occ_rankP.
    rewrite <- occs_rank by lia. pose proof (occs_sorted b c) as Hs.
    rewrite count_below_nth by (auto; lia). lia.
  Qed.
  Theorem ps_rank c v : c < sigma -> v <= n -> pc_rank pc c v = Some (occ c b v).
  Proof. intros Hc Hv. rewrite pc_core, occ_rankP. apply core_rank; auto using d_lt, d_occ. Qed.
  Theorem ps_exist c v : c < sigma -> v < n -> exists x, pc_exist pc c v = Some x /\ (x = true <-> nth_error b v = Some c).
  Proof.
    intros Hc Hv. rewrite pc_core. eexists. split; [apply core_exist; auto using d_lt, d_occ; unfold n in Hv; lia|].
    rewrite (nth_error_nth_lt b v 0) by auto. fold n. destruct (Nat.ltb_spec v n); [|lia]. cbn [andb].
    destruct (Nat.eqb_spec (nth v b 0) c); split; intros; congruence.
  Qed.
  Theorem ps_exist_end c : c < sigma -> pc_exist pc c n = Some false.
  Proof.
    intros Hc. rewrite pc_core, core_exist; auto using d_lt, d_occ. fold n. rewrite Nat.ltb_irrefl. auto.
  Qed.
  (** The run holding a value, or the first run of the symbol after it. *)
  Theorem ps_rank_report c v : c < sigma -> v <= n ->
    (exists s e, maximal_run b s e c /\ Nat.min v (n - 1) < e /\
       (forall s' e', maximal_run b s' e' c -> Nat.min v (n - 1) < e' -> s <= s') /\
       pc_rank_report pc c v = Some (occ c b v, s, e, runs_of_before c b s)) \/
    ((forall s' e', maximal_run b s' e' c -> e' <= Nat.min v (n - 1)) /\
       pc_rank_report pc c v = Some (occ c b v, n, n, runs_of_before c b n)).
  Proof.
    intros Hc Hv. rewrite pc_core, occ_rankP.
    destruct (core_rank_report b sigma h d_lt d_occ Hh Hn Hn0 c Hc v Hv) as (k & Hk & Hs & Hb & He & ->).
    fold n in Hb, He. fold R in Hk, Hs, Hb, He |- *. fold r in Hk, Hs. fold hs in Hs, Hb |- *.
    destruct (Nat.eq_dec k r) as [Q|Q].
    - right. split.
      + intros s' e' H. destruct (sp_run_inv _ _ _ H) as (k' & Hk' & -> & -> & E). apply Hb; auto. lia.
      + rewrite Q. unfold R, r, R. rewrite rs_r, rs_over by lia. fold R. fold r. fold n. rewrite <- sp_idx by auto.
        unfold r, R. rewrite rs_r. auto.
    - left. exists (rs k), (rs (S k)). rewrite <- (Hs ltac:(lia)) at 1. split; [apply sp_run; lia|]. split; auto. split.
      + intros s' e' H He'. destruct (sp_run_inv _ _ _ H) as (k' & Hk' & -> & -> & E).
        destruct (Nat.lt_ge_cases k' k) as [G|G]; [specialize (Hb k' G E); lia|apply rstart_mono; auto].
      + rewrite sp_idx by auto. auto.
  Qed.
  Theorem ps_select_report c k : 1 <= k <= occ c b n -> exists p s e, maximal_run b s e c /\ s <= p < e /\ occ c b p = k - 1 /\
    pc_select_report pc c k = Some (p, s, e, runs_of_before c b s).
  Proof.
    intros Hk. destruct (ps_select c k Hk) as (p & E1 & E2 & E3). revert Hk E1.
    rewrite occ_rankP, rankP_all by auto. rewrite <- occs_length. intros Hk. rewrite pc_core. intros E1.
    assert (Hc : c < sigma) by (apply d_lt; eapply nth_error_In; eauto).
    destruct k as [|k]; [lia|]. rewrite core_select in E1; auto using d_lt, d_occ; [|lia]. injection E1 as E1.
    destruct (core_select_report b sigma h d_lt d_occ Hh Hn Hn0 c Hc k ltac:(lia)) as (q & Hq & Hs & Hp & E). rewrite E1 in *.
    exists p, (rs q), (rs (S q)). fold R in Hs, Hp. fold hs in Hs. rewrite <- Hs at 1. split; [apply sp_run; auto|]. split; auto. split; auto.
    rewrite E. rewrite sp_idx by (fold R in Hq; fold r in Hq; lia). auto.
  Qed.

  (** Runs *)
  Lemma heads_all i : i <= n -> filter (headb b) (seq 0 i) = map (rstart R) (filter (fun k => rs k <? i) (seq 0 r)).
  Proof.
    intros Hi. assert (E : filter (headb b) (seq 0 n) = map (rstart R) (seq 0 r)).
    { pose proof (heads_upto R r HR (Nat.le_refl _)) as H. replace (expand R) with b in H by (symmetry; apply expand_rle).
      pose proof (rs_r b) as Hrs. fold R in Hrs. fold r n in Hrs. rewrite Hrs in H. auto. }
    transitivity (filter (fun x => x <? i) (filter (headb b) (seq 0 n))).
    - replace n with (i + (n - i)) by lia. rewrite seq_app, filter_app, filter_app.
      rewrite (filter_none _ (filter (headb b) (seq (0 + i) (n - i)))).
      + rewrite app_nil_r. rewrite filter_filter. apply filter_ext_in. intros x Hx. apply in_seq in Hx. destruct (headb b x); cbn [andb]; lia.
      + intros x Hx. apply filter_In in Hx. destruct Hx as [Hx _]. apply in_seq in Hx. lia.
    - rewrite E, filter_map_swap. auto.
  Qed.
  Theorem ps_rank_run v : v <= n -> pc_rank_run pc v = Some (runs_before b v).
  Proof.
    intros Hv. rewrite pc_core, core_rank_run; auto using d_lt, d_occ. f_equal.
    rewrite runs_before_headb. unfold count at 2. rewrite heads_all by auto. rewrite map_length. auto.
  Qed.
  Theorem ps_count_runs c : c < sigma -> pc_count_runs pc c = Some (runs_of_before c b n).
  Proof.
    intros Hc. rewrite pc_core, core_count_runs; auto using d_lt, d_occ. f_equal.
    replace n with (rs r) by (apply rs_r). rewrite sp_idx by auto. rewrite occs_length. unfold r. rewrite <- (map_length fst R). fold hs.
    rewrite rankP_all; auto.
  Qed.
  Lemma head_sym (P : nat -> bool) : count (fun k => P (nth k b 0) && headb b k) (seq 0 n) = count P hs.
  Proof.
    transitivity (count (fun k => P (nth k b 0)) (filter (headb b) (seq 0 n))).
    - unfold count. rewrite filter_filter. f_equal. apply filter_ext. intros k. apply andb_comm.
    - rewrite heads_all by auto. rewrite count_map.
      assert (E : filter (fun k => rs k <? n) (seq 0 r) = seq 0 r).
      { transitivity (filter (fun _ => true) (seq 0 r)); [|clear; induction (seq 0 r); cbn; congruence].
        apply filter_ext_in. intros k Hk. apply in_seq in Hk. pose proof (rs_lt_n b k ltac:(fold R; fold r; lia)). fold R n in H. lia. }
      rewrite E. transitivity (count P (map (fun k => sym k) (seq 0 (length hs)))); [|f_equal; apply map_nth_self].
      rewrite count_map. replace (length hs) with r by (symmetry; apply map_length).
      apply count_ext_in. intros k Hk. apply in_seq in Hk. rewrite (sym_row b k (rs k)); auto; [fold R; fold r; lia|].
      pose proof (rs_lt b k ltac:(fold R; fold r; lia)). fold R in H |- *. lia.
  Qed.
  Theorem ps_rank_char_run c : c <= sigma -> pc_rank_char_run pc c = Some (runs_below c b).
  Proof.
    intros Hc. rewrite pc_core, core_rank_char_run; auto using d_lt, d_occ. f_equal. symmetry.
    apply (head_sym (fun x => x <? c)).
  Qed.
  Theorem ps_soft c v : c < sigma -> v < n -> exists x,
    pc_rank_soft_run_c pc c v = Some (runs_of_before c b (S v), x) /\
    (forall s e, maximal_run b s e c -> s <= v < e -> x = s) /\ (nth_error b v <> Some c -> x = n).
  Proof.
    intros Hc Hv. rewrite pc_core. destruct (core_soft b sigma h d_lt d_occ Hh Hn Hn0 c Hc v ltac:(unfold n in Hv; lia)) as (x & E & H1 & H2).
    exists x. fold R hs n in E, H1, H2. split; [|split].
    - rewrite E. f_equal. f_equal. rewrite runs_of_before_filter, heads_all, count_map by auto.
      unfold occs, count. rewrite !filter_filter. replace (length hs) with r by (symmetry; apply map_length). f_equal. apply filter_ext_in.
      intros k Hk. apply in_seq in Hk. rewrite (sym_row b k (rs k)) by (fold R; fold r; try lia; pose proof (rs_lt b k ltac:(fold R; fold r; lia)) as Hlt'; fold R in Hlt'; lia).
      fold R hs. destruct (nth k hs 0 =? c); lia.
    - intros s e Hm Hse. destruct (sp_run_inv _ _ _ Hm) as (k & Hk & -> & -> & Ek). apply H1; auto.
    - intros Hne. apply H2. intros k Hk Hs Hkv. apply Hne. rewrite (nth_error_nth_lt b v 0) by auto.
      rewrite (sym_row b k v); auto.
  Qed.
  Theorem ps_traverse c : c < sigma -> exists l, pc_traverse pc c = Some l /\
    StronglySorted (fun x y => snd x <= fst y) l /\ (forall s e, In (s, e) l <-> maximal_run b s e c).
  Proof.
    intros Hc. rewrite pc_core. eexists. split; [apply core_traverse; auto using d_lt, d_occ|]. fold R hs. split.
    - pose proof (occs_sorted hs c) as Hs. induction Hs as [|k l Hs IH Hf]; cbn [map]; constructor; auto.
      apply Forall_forall. intros x Hx. apply in_map_iff in Hx. destruct Hx as (k' & <- & Hk'). cbn [fst snd].
      rewrite Forall_forall in Hf. specialize (Hf k' Hk'). apply rstart_mono. auto.
    - intros s e. rewrite in_map_iff. split.
      + intros (k & E & Hk). injection E as <- <-. apply occs_in in Hk. destruct Hk as [Hk <-]. apply sp_run.
        unfold hs in Hk. rewrite map_length in Hk. auto.
      + intros H. destruct (sp_run_inv _ _ _ H) as (k & Hk & -> & -> & Ek). exists k. split; auto. apply occs_in.
        replace (length hs) with r by (symmetry; apply map_length). auto.
  Qed.

  (** Pieces *)
  Lemma piece_spec p : piece_ok b p -> inside_run b p.
  Proof.
    intros (k & Hk & Hs & H1 & H2 & H3 & H4 & H5). fold R in Hk, Hs, H1, H3, H4, H5. fold r in Hk. fold hs in Hs, H4. exists (rs k), (rs (S k)). rewrite <- Hs at 1. split; [apply sp_run; auto|].
    split; auto. split; auto. split; auto. rewrite H4, sp_idx by lia. split; auto. rewrite H5. apply Nat.eqb_eq.
  Qed.
  Lemma cut_spec first last p : In p (split_pieces b first last) -> run_cut b first last p.
  Proof.
    intros Hp. unfold split_pieces in Hp. apply in_map_iff in Hp. destruct Hp as (k & <- & Hk). apply filter_In in Hk.
    destruct Hk as [Hk Hm]. apply in_seq in Hk. fold R in Hk. fold r in Hk. unfold meets in Hm. fold R in Hm.
    exists (rs k), (rs (S k)). unfold mk_piece_of. cbn [pi_first pi_last pi_c pi_run pi_is_first]. fold R hs.
    split; [apply sp_run; lia|]. split; auto. split; auto. split; [lia|]. rewrite sp_idx by lia. split; auto. lia.
  Qed.
  Theorem ps_split_sorted first last : first < n -> last <= n -> exists ps,
    pc_split_in_sorted_runs pc first last = Some ps /\
    flat_map interval ps = seq first (last - first) /\ Forall (run_cut b first last) ps.
  Proof.
    intros H1 H2. rewrite pc_core. eexists. split; [apply core_split_sorted; auto using d_lt, d_occ|]. split.
    - apply (split_rows b sigma h d_lt d_occ Hh Hn Hn0). auto.
    - apply Forall_forall. intros p. apply cut_spec.
  Qed.
  Theorem ps_split first last : first < n -> last <= n -> exists ps ps',
    pc_split_in_runs pc first last = Some ps /\ Permutation ps ps' /\
    flat_map interval ps' = seq first (last - first) /\ Forall (run_cut b first last) ps'.
  Proof.
    intros H1 H2. rewrite pc_core. destruct (core_split b sigma h d_lt d_occ Hh Hn Hn0 first last H1 H2) as (ps & E & HP).
    exists ps, (split_pieces b first last). split; auto. split; auto. split.
    - apply (split_rows b sigma h d_lt d_occ Hh Hn Hn0). auto.
    - apply Forall_forall. intros p. apply cut_spec.
  Qed.
  Lemma pieces_apart c ps : forall x y, rank_pieces n c (runs_of b c) ps x y ->
    StronglySorted (fun p q => pi_last p < pi_first q) ps /\
    (forall j, j <= length (runs_of b c) -> before (runs_of b c) j <= x -> Forall (fun p => fst (nth j (runs_of b c) (n, n)) <= pi_first p) ps).
  Proof.
    induction ps as [|p ps IH]; intros x y H; cbn [rank_pieces] in H; [split; constructor|].
    destruct H as (j & e & Hj & H1 & H2 & H3 & H4 & -> & H5 & H6). destruct (IH _ _ H6) as [I1 I2].
    pose proof (runs_of_run b c j Hj) as Hr. fold n in Hr. pose proof (before_S n (runs_of b c) j Hj) as HS.
    assert (M : forall i j, i <= j -> j <= length (runs_of b c) -> fst (nth i (runs_of b c) (n, n)) <= fst (nth j (runs_of b c) (n, n))).
    { clear -HR. intros i j Hij. induction Hij as [|j Hij IH]; intros Hj; auto. rewrite IH by lia.
      destruct (Nat.eq_dec (S j) (length (runs_of b c))) as [Q|Q].
      - rewrite (nth_overflow _ (n, n) (n := S j)) by lia. cbn [fst]. pose proof (runs_of_run b c j ltac:(lia)) as G. fold n in G. lia.
      - pose proof (runs_of_run b c j ltac:(lia)) as G. pose proof (runs_of_gap b c j ltac:(lia)) as G'. fold n in G, G'. lia. }
    split.
    - constructor; auto. destruct H5 as [-> | ->]; [constructor|].
      assert (Hsj : S j < length (runs_of b c) \/ ps = []).
      { destruct ps as [|q ps]; auto. left. cbn [rank_pieces] in H6. destruct H6 as (j' & e' & A1 & A2 & A3 & A4 & A5 & _).
        destruct (Nat.lt_ge_cases j j') as [G|G]; [lia|]. pose proof (before_mono n (runs_of b c) ltac:(lia) (runs_of_run b c) (runs_of_gap b c) (S j') (S j) ltac:(lia) ltac:(lia)). lia. }
      destruct Hsj as [Hsj| ->]; [|constructor].
      specialize (I2 (S j) ltac:(lia) (Nat.le_refl _)). eapply Forall_impl; [|exact I2]. cbn [pi_last]. intros q Hq.
      pose proof (runs_of_gap b c j Hsj) as G. fold n in G. cbn beta in Hq. lia.
    - intros i Hi Hix. constructor.
      + cbn [pi_first]. assert (i <= j).
        { destruct (Nat.le_gt_cases i j); auto. pose proof (before_mono n (runs_of b c) ltac:(lia) (runs_of_run b c) (runs_of_gap b c) (S j) i ltac:(lia) ltac:(lia)). lia. }
        specialize (M i j ltac:(lia) ltac:(lia)). lia.
      + apply I2; auto. lia.
  Qed.
  Theorem ps_forward c x y : x < y -> y <= occ c b n -> exists ps,
    pc_forward_runs pc c (S x) (S y) = Some ps /\
    flat_map interval ps = firstn (y - x) (skipn x (positions c b)) /\
    Forall (inside_run b) ps /\ Forall (fun p => pi_c p = c) ps /\
    StronglySorted (fun p q => pi_last p < pi_first q) ps.
  Proof.
    rewrite occ_rankP, rankP_all by auto. rewrite <- occs_length. intros Hx Hy. rewrite pc_core.
    assert (Hc : c < sigma).
    { pose proof (nth_In (occs b c) 0 (n := 0) ltac:(lia)) as Hin. apply occs_in in Hin. destruct Hin as [G <-]. apply d_lt, nth_In, G. }
    destruct (core_forward b sigma h d_lt d_occ Hh Hn c Hc x y Hx Hy) as (ps & E & HP). exists ps. split; auto.
    destruct (rank_pieces_ok b sigma h d_lt d_occ Hh Hn Hn0 c Hc ps x y HP Hy) as (_ & P1 & P2 & P3).
    split; auto. split; [|split; auto].
    - eapply Forall_impl; [|exact P1]. apply piece_spec.
    - apply (pieces_apart c ps x y HP).
  Qed.

  (** Psi and LF through the functors *)
  Theorem ps_psi_lf i : i < n -> exists c cc k, nth_error b i = Some c /\ nth_error (cumulative b sigma) c = Some cc /\
    pc_rank pc c i = Some k /\ psi_fn (pc_select pc) (cumulative b sigma) (cc + k) = Some i.
  Proof.
    intros Hi. exists (nth i b 0), (smaller (nth i b 0) b), (occ (nth i b 0) b i).
    split; [apply nth_error_nth_lt; auto|]. pose proof (d_lt _ (nth_In b 0 Hi)) as Hc.
    split; [apply (cums_nth b sigma); lia|]. split; [apply ps_rank; auto; unfold n in *; lia|].
    rewrite pc_core, occ_rankP. change (cumulative b sigma) with (cums b sigma).
    change (smaller (nth i b 0) b + rankP (Nat.eqb (nth i b 0)) b i) with (lfb b i).
    rewrite core_psi; auto using d_lt, d_occ; [|apply (lfb_lt b sigma); auto using d_lt].
    apply psis_lfb; auto using d_lt.
  Qed.
  Theorem ps_lf_psi i : i < n -> exists p c cc k, psi_fn (pc_select pc) (cumulative b sigma) i = Some p /\
    compute_c (cumulative b sigma) i = Some c /\ nth_error b p = Some c /\
    nth_error (cumulative b sigma) c = Some cc /\ pc_rank pc c p = Some k /\ cc + k = i.
  Proof.
    intros Hi. change (cumulative b sigma) with (cums b sigma).
    set (p := nth i (psis b sigma) 0).
    assert (Hpn : p < n).
    { apply (psis_in b sigma d_lt). apply nth_In. rewrite (psis_length b sigma d_lt). auto. }
    exists p, (nth p b 0), (smaller (nth p b 0) b), (occ (nth p b 0) b p).
    pose proof (d_lt _ (nth_In b 0 Hpn)) as Hc. pose proof (lfb_psis b sigma d_lt i Hi) as El. fold p in El.
    split; [|split; [|split; [|split; [|split]]]].
    - rewrite pc_core, core_psi; auto using d_lt, d_occ. apply nth_error_nth_lt. rewrite (psis_length b sigma d_lt). auto.
    - rewrite <- El. unfold lfb. apply (compute_c_ok b sigma d_lt d_occ); auto. apply rk_lt. auto.
    - apply nth_error_nth_lt. auto.
    - apply (cums_nth b sigma). lia.
    - apply ps_rank; auto. unfold n in *. lia.
    - rewrite occ_rankP. exact El.
  Qed.
End PsiSpec.

Theorem ps_grouped b sigma : dense b sigma -> construct_psi (nth_error b) (cumulative b sigma) = Some (grouped b sigma).
Proof. intros Hd. apply (construct_psi_ok b sigma). apply Hd. Qed.
Theorem ps_total b sigma h : dense b sigma -> 0 < length b < 2 ^ 64 -> 0 < h -> exists pc, psi_rle_of b sigma (2 * h) pc.
Proof.
  intros Hd Hn Hh. eexists. eexists. split; [apply ps_grouped; auto|].
  apply (core_construct_ok b sigma); try apply Hd; try tauto.
Qed.

Section BvSpec.
  Variables (b : list nat) (sigma : nat) (pv : psi_bv).
  Hypothesis Hd : dense b sigma.
  Hypothesis Hn0 : 0 < length b.
  Hypothesis Hpv : psi_bv_of b sigma pv.
  Lemma pv_bits c : c < sigma -> nth_error (pv_partial pv) c = Some (bits_of (occs b c) (length b)).
  Proof.
    intros Hc. destruct Hpv as (psi & E1 & E2). rewrite ps_grouped in E1 by auto. injection E1 as <-.
    change (grouped b sigma) with (psis b sigma) in E2. change (cumulative b sigma) with (cums b sigma) in E2.
    rewrite (bv_construct_ok b sigma) in E2; try apply Hd; auto. injection E2 as <-. cbn [pv_partial].
    rewrite nth_error_map_seq by auto. auto.
  Qed.
  Lemma pv_occs_lt c m : In m (occs b c) -> m < length b.
  Proof. intros H. apply occs_in in H. tauto. Qed.
  Theorem pv_select_ok c k : 1 <= k <= occ c b (length b) -> exists p, pv_select pv c k = Some p /\ nth_error b p = Some c /\ occ c b p = k - 1.
  Proof.
    rewrite occ_rankP, rankP_all by auto. rewrite <- occs_length. intros Hk.
    destruct k as [|k]; [lia|].
    pose proof (nth_In (occs b c) 0 (n := k) ltac:(lia)) as Hin. apply occs_in in Hin. destruct Hin as [G Es].
    assert (Hc : c < sigma) by (apply Hd; rewrite <- Es; apply nth_In; auto).
    exists (nth k (occs b c) 0). unfold pv_select. rewrite (pv_bits c Hc). cbn [bind]. split.
    - apply bits_select; [apply occs_sorted|apply pv_occs_lt|lia].
    - split; [rewrite (nth_error_nth_lt b _ 0) by auto; congruence|]. rewrite occ_rankP.
      rewrite <- occs_rank by lia. pose proof (occs_sorted b c) as Hs. rewrite count_below_nth by (auto; lia). lia.
  Qed.
  Theorem pv_rank_ok c v : c < sigma -> v <= length b -> pv_rank pv c v = Some (occ c b v).
  Proof.
    intros Hc Hv. unfold pv_rank. rewrite (pv_bits c Hc). cbn [bind].
    rewrite bits_rank by (first [apply occs_sorted | apply pv_occs_lt | auto]). rewrite occ_rankP. f_equal. apply occs_rank. auto.
  Qed.
  Theorem pv_exist_ok c v : c < sigma -> v < length b -> exists x, pv_exist pv c v = Some x /\ (x = true <-> nth_error b v = Some c).
  Proof.
    intros Hc Hv. unfold pv_exist. rewrite (pv_bits c Hc). cbn [bind]. unfold bits_of. rewrite nth_error_map_seq by auto.
    eexists. split; [eauto|]. cbn [Nat.add]. rewrite memb_In, occs_in, (nth_error_nth_lt b v 0) by auto.
    split; [intros [_ ->]; auto|]. intros E. injection E as E. auto.
  Qed.
End BvSpec.
Theorem pv_total b sigma : dense b sigma -> 0 < length b -> exists pv, psi_bv_of b sigma pv.
Proof.
  intros Hd Hn. eexists. eexists. split; [apply ps_grouped; auto|]. apply (bv_construct_ok b sigma); auto; apply Hd.
Qed.
