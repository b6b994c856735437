(** constructPsi and the constructors of PsiCoreRLE and PsiCoreBV, for a sequence over a compact alphabet. *)
From Coq Require Import List Arith Bool Lia ZifyBool ZifyNat Permutation Sorted.
From Verif Require Import MBase Lists MConstruct MPsi Util Runs EncProof PsiSym PsiOps.
Import ListNotations.

Lemma div_mono_ns h m ns : 0 < h -> 0 < m -> (forall k, k < ns <-> k * h < m) -> ns - 1 = (m - 1) / h.
Proof.
  intros Hh Hm H. set (d := (m - 1) / h).
  assert (H1 : d * h < m). { pose proof (Nat.mul_div_le (m - 1) h ltac:(lia)). fold d in H0. lia. }
  assert (H2 : ~ (S d * h < m)). { pose proof (Nat.mul_succ_div_gt (m - 1) h ltac:(lia)). fold d in H0. lia. }
  apply H in H1. rewrite <- H in H2. lia.
Qed.

(** One symbol of the constructor: the slice of psi from [sp] lists the values of the runs [L]. *)
Section Ctor.
  Variables (n h sp : nat) (psi : list nat) (L : list (nat * nat)).
  Let m := length L.
  Notation S_ j := (fst (nth j L (n, n))).
  Notation E_ j := (snd (nth j L (n, n))).
  Hypothesis Hne : 0 < m.
  Hypothesis Hrun : forall j, j < m -> S_ j < E_ j /\ E_ j <= n.
  Hypothesis Hgap : forall j, S j < m -> E_ j < S_ (S j).
  Let ep := sp + length (vals L).
  Hypothesis Hpsi : forall k, k < length (vals L) -> nth_error psi (sp + k) = Some (nth k (vals L) 0).
  Hypothesis Hh : 0 < h.

  Lemma ctor_run_end j : j < m -> forall fuel t value, t < E_ j - S_ j -> E_ j - S_ j - t <= fuel ->
    exists v', pc_run_end fuel psi ep (sp + before L j + t) value (S_ j + t + 1) = Some (sp + before L (S j), v', E_ j) /\
      (S j < m -> v' = S_ (S j)).
  Proof.
    intros Hj. induction fuel as [|fuel IH]; intros t value Ht Hf; [lia|]. cbn [pc_run_end].
    pose proof (before_S n L j Hj) as HbS. destruct (Hrun j Hj) as [H1 H2].
    pose proof (before_all L) as Hall. pose proof (before_mono n L Hne Hrun Hgap (S j) (length L) ltac:(fold m; lia) ltac:(lia)) as Hmo.
    fold m in Hall, Hmo.
    destruct (Nat.ltb_spec (S (sp + before L j + t)) ep) as [Hl|Hl].
    - assert (Hk : before L j + S t < length (vals L)) by (unfold ep in Hl; lia).
      replace (S (sp + before L j + t)) with (sp + (before L j + S t)) by lia. rewrite (Hpsi _ Hk). cbn [bind].
      destruct (Nat.eq_dec (S t) (E_ j - S_ j)) as [E|N].
      + assert (Hsj : S j < m).
        { destruct (Nat.lt_ge_cases (S j) m) as [G|G]; auto. exfalso. replace (S j) with m in * by lia. lia. }
        pose proof (before_lt n L Hne Hrun Hgap (S j) Hsj) as HbSS.
        rewrite (nth_vals n L (S j)) by (auto; lia). replace (before L j + S t - before L (S j)) with 0 by lia.
        rewrite Nat.add_0_r. pose proof (Hgap j Hsj) as Hg. destruct (Nat.eqb_spec (S_ j + t + 1) (S_ (S j))) as [Q|Q]; [lia|].
        eexists. split; [|intros _; reflexivity]. f_equal. f_equal; [f_equal|]; lia.
      + rewrite (nth_vals n L j) by (auto; lia). replace (before L j + S t - before L j) with (S t) by lia.
        destruct (Nat.eqb_spec (S_ j + t + 1) (S_ j + S t)) as [Q|Q]; [|lia].
        destruct (IH (S t) (S_ j + S t) ltac:(lia) ltac:(lia)) as (v' & E' & Hv').
        exists v'. split; auto. rewrite <- E'. f_equal; lia.
    - assert (Hl' : before L j + S t = length (vals L)) by (unfold ep in Hl; lia).
      assert (E : S t = E_ j - S_ j) by lia.
      eexists. split.
      + f_equal. f_equal; [f_equal|]; lia.
      + intros Hsj. exfalso. pose proof (before_strict n L Hne Hrun Hgap (S j) m Hsj ltac:(lia)). lia.
  Qed.

  Definition ranks_upto (j : nat) : list nat := map (fun k => before L (k * h)) (seq 1 (Nat.min j (m - 1) / h)).
  Lemma ranks_step j : j < m ->
    (if (2 * S j mod (2 * h) =? 0) && (S j <? m) then ranks_upto j ++ [before L (S j)] else ranks_upto j) = ranks_upto (S j).
  Proof.
    intros Hj. rewrite Nat.mul_mod_distr_l by lia. unfold ranks_upto.
    destruct (Nat.ltb_spec (S j) m) as [H|H].
    - rewrite andb_true_r. rewrite !Nat.min_l by lia.
      pose proof (Nat.div_mod_eq (S j) h) as D1. pose proof (Nat.div_mod_eq j h) as D2.
      pose proof (Nat.mod_upper_bound (S j) h ltac:(lia)) as B1. pose proof (Nat.mod_upper_bound j h ltac:(lia)) as B2.
      set (a := S j / h) in *. set (b := j / h) in *. set (x := S j mod h) in *. set (y := j mod h) in *. clearbody a b x y.
      destruct (Nat.eqb_spec (2 * x) 0) as [Q|Q].
      + assert (a = S b) by nia. subst a. rewrite seq_S, map_app. cbn [map]. do 3 f_equal. lia.
      + assert (a = b) by nia. subst a. auto.
    - rewrite andb_false_r. replace (Nat.min j (m - 1)) with (Nat.min (S j) (m - 1)) by lia. auto.
  Qed.
  Lemma ctor_runs : forall fuel j value, m - j < fuel -> j <= m -> (j < m -> value = S_ j) ->
    n - 0 <= ep + n ->
    pc_runs fuel (2 * h) psi sp ep (sp + before L j) value (flat (firstn j L)) (ranks_upto j) = Some (flat L, ranks_upto m).
  Proof.
    induction fuel as [|fuel IH]; intros j value Hf Hj Hv Hn; [lia|].
    pose proof (before_all L) as Hall. fold m in Hall.
    cbn [pc_runs]. destruct (Nat.ltb_spec (sp + before L j) ep) as [Hl|Hl].
    - assert (Hjm : j < m).
      { destruct (Nat.eq_dec j m) as [->|]; [|lia]. unfold ep in Hl. lia. }
      destruct (Hrun j Hjm) as [H1 H2]. rewrite (Hv Hjm).
      pose proof (before_S n L j Hjm) as HbS.
      pose proof (before_mono n L Hne Hrun Hgap (S j) (length L) ltac:(fold m; lia) ltac:(lia)) as Hmo. fold m in Hmo.
      destruct (ctor_run_end j Hjm (S ep) 0 (S_ j) ltac:(lia)) as (v' & E & Hv').
      { unfold ep. lia. }
      rewrite !Nat.add_0_r in E. rewrite E. cbn [bind].
      assert (EF : flat (firstn j L) ++ [S_ j; E_ j] = flat (firstn (S j) L)).
      { replace (firstn (S j) L) with (firstn j L ++ [nth j L (n, n)]).
        - rewrite flat_app. reflexivity.
        - fold m in Hjm. clear -Hjm. revert j Hjm. unfold m. induction L as [|p t IH]; intros [|j] H; cbn in *; try lia; auto.
          f_equal. apply IH. lia. }
      rewrite EF, flat_length, firstn_length. fold m. rewrite (Nat.min_l (S j) m) by lia.
      assert (EL : (sp + before L (S j) <? ep) = (S j <? m)).
      { destruct (Nat.ltb_spec (S j) m) as [G|G].
        - pose proof (before_strict n L Hne Hrun Hgap (S j) m G ltac:(lia)). apply Nat.ltb_lt. unfold ep. lia.
        - replace (S j) with m by lia. apply Nat.ltb_ge. unfold ep. lia. }
      rewrite EL. replace (sp + before L (S j) - sp) with (before L (S j)) by lia.
      rewrite (ranks_step j Hjm). apply IH; auto; lia.
    - assert (j = m).
      { destruct (Nat.eq_dec j m) as [|Hne']; auto. pose proof (before_strict n L Hne Hrun Hgap j m ltac:(lia) ltac:(lia)). unfold ep in Hl. lia. }
      subst j. unfold m at 1. rewrite firstn_all. auto.
  Qed.
  Lemma ranks_final : n < 2 ^ 64 -> ranks_upto m = rank_samples h L.
  Proof.
    intros Hn. unfold ranks_upto, rank_samples. do 2 f_equal. rewrite Nat.min_r by lia. symmetry.
    apply div_mono_ns; auto. intros k. apply (ns_lt n L Hne Hrun Hgap h Hh Hn).
  Qed.
  Lemma ctor_symbol : n < 2 ^ 64 ->
    pc_runs (S ep) (2 * h) psi sp ep sp (S_ 0) [] [] = Some (flat L, rank_samples h L).
  Proof.
    intros Hn. rewrite <- ranks_final by auto.
    assert (Hm : m <= length (vals L)).
    { pose proof (before_all L) as Hall. fold m in Hall. rewrite <- Hall.
      assert (G : forall j, j <= m -> j <= before L j).
      { induction j as [|j IHj]; intros G; [lia|]. pose proof (before_lt n L Hne Hrun Hgap j ltac:(fold m; lia)). specialize (IHj ltac:(lia)). lia. }
      apply G. lia. }
    rewrite <- (ctor_runs (S ep) 0 (S_ 0)); [|unfold ep; lia|lia|auto|lia].
    rewrite before_0, Nat.add_0_r. unfold ranks_upto. cbn [Nat.min]. rewrite Nat.div_0_l by lia. auto.
  Qed.
End Ctor.

(** * A sequence over the alphabet 0..sigma-1 in which every symbol occurs *)
Definition occs (b : list nat) (c : nat) : list nat := filter (fun i => nth i b 0 =? c) (seq 0 (length b)).
Definition cums (b : list nat) (sigma : nat) : list nat := map (fun c => count (fun x => x <? c) b) (seq 0 (S sigma)).
Definition psis (b : list nat) (sigma : nat) : list nat := flat_map (occs b) (seq 0 sigma).
Definition sym_runs (b : list nat) (c : nat) : list nat := filter (fun k => fst (nth k (rle b) (0, 0)) =? c) (seq 0 (length (rle b))).
Definition runs_of (b : list nat) (c : nat) : list (nat * nat) :=
  map (fun k => (rstart (rle b) k, rstart (rle b) (S k))) (sym_runs b c).

Lemma count_lt_S l c : count (fun x => x <? S c) l = count (fun x => x <? c) l + count (Nat.eqb c) l.
Proof.
  induction l as [|x t IH]; auto. unfold count in *. cbn [filter].
  destruct (Nat.ltb_spec x (S c)), (Nat.ltb_spec x c), (Nat.eqb_spec c x); cbn [length]; lia.
Qed.

Section Seq.
  Variables (b : list nat) (sigma : nat).
  Let n := length b.
  Notation cc c := (count (fun x => x <? c) b).
  Notation rk c i := (rankP (Nat.eqb c) b i).

  Lemma occs_in c i : In i (occs b c) <-> i < n /\ nth i b 0 = c.
  Proof. unfold occs. rewrite filter_In, in_seq. fold n. rewrite Nat.eqb_eq. lia. Qed.
  Lemma occs_sorted c : ssorted (occs b c).
  Proof. apply ssorted_filter_seq. Qed.
  Lemma occs_rank c i : i <= n -> count (fun x => x <? i) (occs b c) = rk c i.
  Proof.
    intros Hi. rewrite (rankP_seq _ b 0 i Hi). unfold occs. fold n. replace n with (i + (n - i)) by lia.
    rewrite seq_app, filter_app, count_app. rewrite count_true, count_false, Nat.add_0_r.
    - unfold count. f_equal. apply filter_ext. intros x. apply Nat.eqb_sym.
    - intros x Hx. apply filter_In in Hx. destruct Hx as [Hx _]. apply in_seq in Hx. lia.
    - intros x Hx. apply filter_In in Hx. destruct Hx as [Hx _]. apply in_seq in Hx. lia.
  Qed.
  Lemma occs_length c : length (occs b c) = count (Nat.eqb c) b.
  Proof.
    transitivity (count (fun x => x <? n) (occs b c)).
    - symmetry. apply count_true. intros x Hx. apply occs_in in Hx. lia.
    - rewrite occs_rank by lia. apply rankP_all. auto.
  Qed.
  Lemma occs_nth i : i < n -> nth (rk (nth i b 0) i) (occs b (nth i b 0)) 0 = i.
  Proof.
    intros Hi. set (c := nth i b 0). rewrite (rankP_seq _ b 0 i) by lia. unfold occs. fold n.
    replace n with (i + S (n - S i)) by lia. rewrite seq_app, filter_app. cbn [seq filter Nat.add]. fold c. rewrite Nat.eqb_refl.
    replace (count (fun k => c =? nth k b 0) (seq 0 i)) with (length (filter (fun k => nth k b 0 =? c) (seq 0 i))).
    - rewrite app_nth2, Nat.sub_diag by lia. auto.
    - unfold count. f_equal. apply filter_ext. intros x. apply Nat.eqb_sym.
  Qed.
  Lemma rk_lt i : i < n -> rk (nth i b 0) i < length (occs b (nth i b 0)).
  Proof.
    intros Hi. rewrite occs_length. pose proof (rankP_S (Nat.eqb (nth i b 0)) b i (nth i b 0) (nth_error_nth_lt b i 0 Hi)) as H.
    rewrite Nat.eqb_refl in H. pose proof (rankP_le_count (Nat.eqb (nth i b 0)) b (S i)). lia.
  Qed.
  Lemma cc_S c : cc (S c) = cc c + length (occs b c).
  Proof. rewrite occs_length. apply count_lt_S. Qed.
  Lemma cc_0 : cc 0 = 0.
  Proof. apply count_false. auto. Qed.
  Lemma cc_mono c d : c <= d -> cc c <= cc d.
  Proof. induction 1; auto. rewrite cc_S. lia. Qed.
  Lemma cums_length : length (cums b sigma) = S sigma.
  Proof. unfold cums. rewrite map_length, seq_length. auto. Qed.
  Lemma cums_nth c : c <= sigma -> nth_error (cums b sigma) c = Some (cc c).
  Proof. intros H. unfold cums. rewrite nth_error_map_seq by lia. auto. Qed.
  Lemma psis_prefix c : length (flat_map (occs b) (seq 0 c)) = cc c.
  Proof.
    induction c as [|c IH]; [rewrite cc_0; auto|].
    rewrite seq_S, flat_map_app, app_length, IH, cc_S. cbn [flat_map Nat.add]. rewrite app_nil_r. auto.
  Qed.
  Lemma psis_nth c k : c < sigma -> k < length (occs b c) -> nth_error (psis b sigma) (cc c + k) = Some (nth k (occs b c) 0).
  Proof.
    intros Hc Hk. unfold psis. replace sigma with (c + S (sigma - S c)) by lia. rewrite seq_app, flat_map_app. cbn [seq flat_map Nat.add].
    rewrite nth_error_app2 by (rewrite psis_prefix; lia). rewrite psis_prefix.
    replace (cc c + k - cc c) with k by lia. rewrite nth_error_app1 by lia. apply nth_error_nth_lt. auto.
  Qed.
  Lemma psis_NoDup : NoDup (psis b sigma).
  Proof.
    unfold psis. assert (G : forall k s, NoDup (flat_map (occs b) (seq s k)) /\ forall x, In x (flat_map (occs b) (seq s k)) -> s <= nth x b 0).
    { induction k as [|k IH]; intros s; [split; [constructor|intros x []]|]. cbn [seq flat_map]. destruct (IH (S s)) as [I1 I2]. split.
      - assert (D : NoDup (occs b s)) by (apply ssorted_NoDup, occs_sorted).
        assert (F : forall x, In x (occs b s) -> ~ In x (flat_map (occs b) (seq (S s) k))).
        { intros x Hx Hy. apply I2 in Hy. apply occs_in in Hx. lia. }
        clear -D F I1. induction (occs b s) as [|a t IHt]; auto. cbn [app]. inversion D; subst. constructor.
        + rewrite in_app_iff. intros [G|G]; auto. apply (F a); auto. left; auto.
        + apply IHt; auto. intros x Hx. apply F. right; auto.
      - intros x Hx. apply in_app_or in Hx. destruct Hx as [Hx|Hx]; [apply occs_in in Hx; lia|apply I2 in Hx; lia]. }
    apply G.
  Qed.
  Definition lfb (i : nat) : nat := cc (nth i b 0) + rk (nth i b 0) i.
  Let R := rle b.
  Let HR : wf_runs R := rle_wf b.
  Lemma R_exp : expand R = b.
  Proof. apply expand_rle. Qed.
  Lemma R_n : rstart R (length R) = n.
  Proof. rewrite rstart_all, R_exp. auto. Qed.
  Lemma R_sym k i : k < length R -> rstart R k <= i < rstart R (S k) -> nth i b 0 = fst (nth k R (0, 0)).
  Proof.
    intros Hk Hi. rewrite <- R_exp. destruct (nth k R (0, 0)) as [c l] eqn:E.
    apply (expand_nth_d R k c l); auto. rewrite <- E. apply nth_error_nth_lt. auto.
  Qed.
  Lemma R_diff k : S k < length R -> fst (nth k R (0, 0)) <> fst (nth (S k) R (0, 0)).
  Proof.
    intros H. destruct HR as [_ G]. apply (G k); apply nth_error_nth_lt; lia.
  Qed.
  Lemma seq_runs j : j <= length R ->
    seq 0 (rstart R j) = flat_map (fun k => seq (rstart R k) (rstart R (S k) - rstart R k)) (seq 0 j).
  Proof.
    induction j as [|j IH]; intros Hj; auto. rewrite seq_rstart_step, IH by (auto; lia).
    rewrite seq_S, flat_map_app. cbn [flat_map Nat.add]. rewrite app_nil_r. auto.
  Qed.
  Lemma vals_runs c : vals (runs_of b c) = occs b c.
  Proof.
    unfold occs. fold n. rewrite <- R_n, seq_runs by lia. unfold runs_of, sym_runs. fold R.
    assert (G : forall l, (forall k, In k l -> k < length R) ->
      vals (map (fun k => (rstart R k, rstart R (S k))) (filter (fun k => fst (nth k R (0, 0)) =? c) l)) =
      filter (fun i => nth i b 0 =? c) (flat_map (fun k => seq (rstart R k) (rstart R (S k) - rstart R k)) l)).
    { induction l as [|k l IH]; intros Hl; auto. cbn [filter flat_map]. rewrite filter_app, <- IH by (intros; apply Hl; right; auto).
      assert (Hk : k < length R) by (apply Hl; left; auto).
      destruct (Nat.eqb_spec (fst (nth k R (0, 0))) c) as [E|N].
      - cbn [map vals flat_map fst snd]. f_equal.
        transitivity (filter (fun _ : nat => true) (seq (rstart R k) (rstart R (S k) - rstart R k))).
        + clear. induction (seq _ _) as [|x l IH]; auto. cbn. f_equal. auto.
        + apply filter_ext_in. intros i Hi. apply in_seq in Hi. rewrite (R_sym k) by (auto; lia). symmetry. apply Nat.eqb_eq. auto.
      - replace (filter (fun i => nth i b 0 =? c) (seq (rstart R k) (rstart R (S k) - rstart R k))) with (@nil nat); auto.
        symmetry. transitivity (filter (fun _ : nat => false) (seq (rstart R k) (rstart R (S k) - rstart R k))).
        + apply filter_ext_in. intros i Hi. apply in_seq in Hi. rewrite (R_sym k) by (auto; lia). apply Nat.eqb_neq. auto.
        + clear. induction (seq _ _); auto. }
    apply G. intros k Hk. apply in_seq in Hk. lia.
  Qed.
  Lemma sym_runs_in c k : In k (sym_runs b c) <-> k < length R /\ fst (nth k R (0, 0)) = c.
  Proof. unfold sym_runs. fold R. rewrite filter_In, in_seq, Nat.eqb_eq. lia. Qed.
  Lemma runs_of_length c : length (runs_of b c) = length (sym_runs b c).
  Proof. unfold runs_of. apply map_length. Qed.
  Lemma runs_of_nth c j d : j < length (sym_runs b c) -> exists k, k < length R /\ fst (nth k R (0, 0)) = c /\
    k = nth j (sym_runs b c) 0 /\ nth j (runs_of b c) d = (rstart R k, rstart R (S k)).
  Proof.
    intros H. exists (nth j (sym_runs b c) 0). pose proof (nth_In (sym_runs b c) 0 H) as Hin. apply sym_runs_in in Hin.
    split; [tauto|]. split; [tauto|]. split; auto. unfold runs_of. rewrite (nth_map_lt _ _ _ 0) by auto. auto.
  Qed.
  Lemma runs_of_run c : forall j, j < length (runs_of b c) ->
    fst (nth j (runs_of b c) (n, n)) < snd (nth j (runs_of b c) (n, n)) /\ snd (nth j (runs_of b c) (n, n)) <= n.
  Proof.
    intros j Hj. rewrite runs_of_length in Hj. destruct (runs_of_nth c j (n, n) Hj) as (k & Hk & _ & _ & ->). cbn [fst snd].
    pose proof (rstart_lt R HR k Hk). pose proof (rstart_le R (S k)) as G. rewrite R_exp in G. fold n in G. lia.
  Qed.
  Lemma runs_of_gap c : forall j, S j < length (runs_of b c) ->
    snd (nth j (runs_of b c) (n, n)) < fst (nth (S j) (runs_of b c) (n, n)).
  Proof.
    intros j Hj. rewrite runs_of_length in Hj.
    destruct (runs_of_nth c j (n, n) ltac:(lia)) as (k & Hk & Hs & Ek & ->).
    destruct (runs_of_nth c (S j) (n, n) Hj) as (k' & Hk' & Hs' & Ek' & ->). cbn [fst snd].
    assert (Hlt' : k < k').
    { rewrite Ek, Ek'. apply ssorted_nth; auto. apply ssorted_filter_seq. }
    assert (k' <> S k). { intros ->. apply (R_diff k Hk'). congruence. }
    apply rstart_strict; auto; lia.
  Qed.


  Hypothesis Hlt : forall x, In x b -> x < sigma.
  Lemma cc_sigma : cc sigma = n.
  Proof. apply count_true. intros x Hx. apply Nat.ltb_lt. auto. Qed.
  Lemma psis_length : length (psis b sigma) = n.
  Proof. unfold psis. rewrite psis_prefix. apply cc_sigma. Qed.
  Lemma psis_in i : In i (psis b sigma) <-> i < n.
  Proof.
    unfold psis. rewrite in_flat_map. split.
    - intros (c & _ & H). apply occs_in in H. lia.
    - intros H. exists (nth i b 0). split; [apply in_seq; split; [lia|apply Hlt, nth_In; auto]|]. apply occs_in. auto.
  Qed.
  Lemma psis_perm : Permutation (psis b sigma) (seq 0 n).
  Proof.
    apply NoDup_Permutation; [apply psis_NoDup|apply seq_NoDup|]. intros x. rewrite psis_in, in_seq. lia.
  Qed.

  Lemma sym_lt i : i < n -> nth i b 0 < sigma.
  Proof. intros H. apply Hlt, nth_In. auto. Qed.
  Lemma lfb_lt i : i < n -> lfb i < n.
  Proof.
    intros H. unfold lfb. pose proof (rk_lt i H). pose proof (cc_S (nth i b 0)).
    pose proof (cc_mono (S (nth i b 0)) sigma (sym_lt i H)). rewrite cc_sigma in H2. lia.
  Qed.
  Lemma psis_lfb i : i < n -> nth_error (psis b sigma) (lfb i) = Some i.
  Proof.
    intros H. unfold lfb. rewrite psis_nth by (auto using sym_lt, rk_lt). rewrite occs_nth; auto.
  Qed.
  Lemma lfb_psis q : q < n -> lfb (nth q (psis b sigma) 0) = q.
  Proof.
    intros H. set (i := nth q (psis b sigma) 0).
    assert (Hi : i < n) by (apply psis_in; apply nth_In; rewrite psis_length; auto).
    pose proof (psis_lfb i Hi) as E.
    apply (proj1 (NoDup_nth (psis b sigma) 0) psis_NoDup); rewrite ?psis_length; auto using lfb_lt.
    apply nth_error_nth with (d := 0) in E. rewrite E. auto.
  Qed.

  (** constructPsi *)
  Lemma psi_fold k : k <= n ->
    mfold (psi_step (nth_error b)) (seq 0 k) (repeat 0 n, cums b sigma) =
    Some (map (fun q => let v := nth q (psis b sigma) 0 in if v <? k then v else 0) (seq 0 n),
          map (fun c => cc c + (if c <? sigma then rk c k else 0)) (seq 0 (S sigma))).
  Proof.
    induction k as [|k IH]; intros Hk.
    - cbn [seq mfold]. f_equal. f_equal; [rewrite repeat_map; auto|]. unfold cums. apply map_ext. intros c.
      rewrite rankP_0. destruct (c <? sigma); lia.
    - rewrite seq_S, mfold_app, IH by lia. cbn [bind mfold Nat.add psi_step].
      rewrite (nth_error_nth_lt b k 0) by lia. cbn [bind]. set (c := nth k b 0).
      assert (Hc : c < sigma) by (apply sym_lt; lia).
      rewrite nth_error_map_seq by lia. cbn [bind]. destruct (Nat.ltb_spec c sigma) as [_|]; [|lia].
      change (cc c + rk c k) with (lfb k). rewrite list_set_map by (apply lfb_lt; lia). cbn [bind].
      rewrite list_set_map by lia. cbn [bind]. f_equal. f_equal.
      + apply map_ext_in. intros q Hq. apply in_seq in Hq. set (v := nth q (psis b sigma) 0).
        destruct (Nat.eqb_spec q (lfb k)) as [Q|Q].
        * assert (v = k). { unfold v. rewrite Q. apply nth_error_nth. apply psis_lfb. lia. }
          cbn zeta. destruct (Nat.ltb_spec v (S k)); lia.
        * assert (v <> k). { intros G. apply Q. rewrite <- G. symmetry. apply lfb_psis. lia. }
          cbn zeta. destruct (Nat.ltb_spec v (S k)), (Nat.ltb_spec v k); lia.
      + apply map_ext_in. intros d Hd. apply in_seq in Hd.
        rewrite (rankP_S (Nat.eqb d) b k c) by (apply nth_error_nth_lt; lia).
        destruct (Nat.eqb_spec d c) as [->|G].
        * unfold lfb. fold c. destruct (Nat.ltb_spec c sigma); lia.
        * rewrite Nat.add_0_r. auto.
  Qed.
  Theorem construct_psi_ok : construct_psi (nth_error b) (cums b sigma) = Some (psis b sigma).
  Proof.
    unfold construct_psi. rewrite cums_length, Nat.sub_succ, Nat.sub_0_r, cums_nth, cc_sigma by lia. cbn [bind].
    fold n. rewrite psi_fold by lia. cbn [bind]. f_equal.
    transitivity (map (fun q => nth q (psis b sigma) 0) (seq 0 n)); [|rewrite <- psis_length; apply map_nth_self]. apply map_ext_in. intros q Hq. apply in_seq in Hq. cbn zeta.
    assert (H : nth q (psis b sigma) 0 < n) by (apply psis_in; apply nth_In; rewrite psis_length; lia).
    destruct (Nat.ltb_spec (nth q (psis b sigma) 0) n); [|lia]. auto.
  Qed.

  Lemma R_sym_lt k : k < length R -> fst (nth k R (0, 0)) < sigma.
  Proof.
    intros H. pose proof (rstart_lt R HR k H). rewrite <- (R_sym k (rstart R k)) by (auto; lia). apply sym_lt.
    pose proof (rstart_le R (S k)). rewrite R_exp in H1. fold n in H1. lia.
  Qed.
  Lemma row_symbol q : q < n -> exists c k, c < sigma /\ k < length (occs b c) /\ q = cc c + k.
  Proof.
    intros H. set (i := nth q (psis b sigma) 0).
    assert (Hi : i < n) by (apply psis_in; apply nth_In; rewrite psis_length; auto).
    exists (nth i b 0), (rk (nth i b 0) i). split; [apply sym_lt; auto|]. split; [apply rk_lt; auto|].
    symmetry. apply lfb_psis. auto.
  Qed.
  Hypothesis Hocc : forall c, c < sigma -> In c b.
  Lemma occs_pos c : c < sigma -> 0 < length (occs b c).
  Proof.
    intros H. apply Hocc in H. apply In_nth with (d := 0) in H. destruct H as (i & Hi & E).
    assert (In i (occs b c)) by (apply occs_in; auto). destruct (occs b c); [destruct H|cbn; lia].
  Qed.
  Lemma cc_strict c : c < sigma -> cc c < cc (S c).
  Proof. intros H. rewrite cc_S. pose proof (occs_pos c H). lia. Qed.
  (** The runs of a symbol. *)
  Lemma runs_of_pos c : c < sigma -> 0 < length (runs_of b c).
  Proof.
    intros H. pose proof (occs_pos c H) as G. rewrite <- vals_runs in G. destruct (runs_of b c); cbn in *; lia.
  Qed.
  (** The symbol of a row and psi through the functor *)
  Lemma compute_c_ok c k : c < sigma -> k < length (occs b c) -> compute_c (cums b sigma) (cc c + k) = Some c.
  Proof.
    intros Hc Hk. unfold compute_c. destruct (upper_bound_spec (cums b sigma) (cc c + k)) as (H1 & H2 & H3).
    set (u := upper_bound _ _) in *. rewrite cums_length in *. pose proof (cc_S c) as Hs.
    assert (NT : forall i, i <= sigma -> nth i (cums b sigma) 0 = cc i) by (intros i Hi; apply nth_error_nth, cums_nth; auto).
    assert (u = S c); [|rewrite H; auto].
    destruct (Nat.lt_trichotomy u (S c)) as [G|[G|G]]; auto; exfalso.
    - specialize (H3 ltac:(lia)). rewrite NT in H3 by lia. pose proof (cc_mono u c ltac:(lia)). lia.
    - specialize (H2 (S c) G). rewrite NT in H2 by lia. lia.
  Qed.

  Hypothesis Hn0 : 0 < n.
  (** PsiCoreBV *)
  Lemma bv_mark_ok c : c < sigma -> pv_mark n (psis b sigma) (cc c) (cc (S c)) = Some (bits_of (occs b c) n).
  Proof.
    intros Hc. unfold pv_mark. rewrite cc_S, Nat.add_comm, Nat.add_sub.
    rewrite <- (construct_bits (occs b c) n) by (intros v Hv; apply occs_in in Hv; lia).
    unfold construct_bit_vector. cbn [negb].
    assert (G : forall k bv, k <= length (occs b c) ->
      mfold (fun bv j => v <- nth_error (psis b sigma) j;; list_set bv v true) (seq (cc c + (length (occs b c) - k)) k) bv =
      mfold (fun bv item => list_set bv item true) (skipn (length (occs b c) - k) (occs b c)) bv).
    { induction k as [|k IH]; intros bv Hk.
      - rewrite skipn_all2 by lia. auto.
      - set (a := length (occs b c) - S k).
        rewrite (skipn_cons_nth (occs b c) a (nth a (occs b c) 0)) by (apply nth_error_nth_lt; unfold a; lia).
        cbn [seq mfold]. rewrite psis_nth by (auto; unfold a; lia). cbn [bind]. destruct (list_set bv _ true); auto. cbn [bind].
        replace (S a) with (length (occs b c) - k) by (unfold a; lia).
        replace (S (cc c + a)) with (cc c + (length (occs b c) - k)) by (unfold a; lia). apply IH. lia. }
    specialize (G (length (occs b c)) (repeat false n) (Nat.le_refl _)). rewrite Nat.sub_diag, Nat.add_0_r in G. exact G.
  Qed.
  Lemma bv_fold k : k <= sigma -> exists f,
    mfold (pv_symbol n (cums b sigma) (psis b sigma)) (seq 1 k) (0, []) = Some (f, map (fun c => bits_of (occs b c) n) (seq 0 k)) /\
    (nth 0 b 0 < k -> f = nth 0 b 0).
  Proof.
    induction k as [|k IH]; intros Hk; [exists 0; split; auto; lia|].
    destruct (IH ltac:(lia)) as (f & E & Hf). rewrite seq_S, mfold_app, E. cbn [bind mfold pv_symbol].
    replace (1 + k - 1) with k by lia. replace (1 + k) with (S k) by lia. rewrite !cums_nth by lia. cbn [bind].
    pose proof (occs_pos k Hk) as Hp.
    pose proof (psis_nth k 0 Hk Hp) as E0. rewrite Nat.add_0_r in E0. rewrite E0. cbn [bind].
    rewrite bv_mark_ok by auto. cbn [bind]. eexists. split; [rewrite seq_S, map_app; reflexivity|].
    intros Hb. destruct (Nat.eqb_spec (nth 0 (occs b k) 0) 0) as [Q|Q].
    - assert (G : In 0 (occs b k)) by (rewrite <- Q at 1; apply nth_In; auto). apply occs_in in G. lia.
    - apply Hf. assert (nth 0 b 0 <> k); [|lia]. intros G. apply Q.
      pose proof (occs_nth 0 Hn0) as Z. rewrite rankP_0, G in Z. auto.
  Qed.
  Theorem bv_construct_ok : pv_construct (cums b sigma) (psis b sigma) =
    Some (mk_psi_bv n (nth 0 b 0) (map (fun c => bits_of (occs b c) n) (seq 0 sigma))).
  Proof.
    unfold pv_construct. rewrite cums_length, Nat.sub_succ, Nat.sub_0_r, cums_nth, cc_sigma by lia. cbn [bind].
    destruct (bv_fold sigma (Nat.le_refl _)) as (f & -> & Hf). cbn [bind]. rewrite Hf; auto. apply sym_lt. auto.
  Qed.
  (** PsiCoreRLE *)
  Variable h : nat.
  Hypothesis Hh : 0 < h.
  Hypothesis Hn : n < 2 ^ 64.
  Definition core_partial (k : nat) : list (encv * list nat) :=
    map (fun c => (ev_construct (2 * h) (flat (runs_of b c)), rank_samples h (runs_of b c))) (seq 0 k).
  Lemma first_occ c : c < sigma -> nth 0 (occs b c) 0 = fst (nth 0 (runs_of b c) (n, n)).
  Proof.
    intros H. rewrite <- vals_runs. pose proof (runs_of_pos c H) as G.
    pose proof (before_lt n (runs_of b c) G (runs_of_run c) (runs_of_gap c) 0 G).
    rewrite (nth_vals n (runs_of b c) 0 0 G) by (rewrite before_0 in *; lia). rewrite before_0. lia.
  Qed.
  Lemma core_fold k : k <= sigma -> exists f,
    mfold (pc_symbol (2 * h) (cums b sigma) (psis b sigma)) (seq 0 k) (0, []) = Some (f, core_partial k) /\
    (nth 0 b 0 < k -> f = nth 0 b 0).
  Proof.
    induction k as [|k IH]; intros Hk; [exists 0; split; auto; lia|].
    destruct (IH ltac:(lia)) as (f & E & Hf). rewrite seq_S, mfold_app, E. cbn [bind mfold Nat.add pc_symbol].
    rewrite !cums_nth by lia. cbn [bind]. pose proof (occs_pos k Hk) as Hp.
    pose proof (psis_nth k 0 Hk Hp) as E0. rewrite Nat.add_0_r in E0. rewrite E0. cbn [bind].
    rewrite (first_occ k Hk), (cc_S k), <- vals_runs.
    rewrite (ctor_symbol n h (cc k) (psis b sigma) (runs_of b k)); auto using runs_of_pos, runs_of_run, runs_of_gap.
    - cbn [bind]. eexists. split.
      + f_equal. f_equal. unfold core_partial. rewrite seq_S, map_app. reflexivity.
      + rewrite <- (first_occ k Hk). intros Hb. destruct (Nat.eqb_spec (nth 0 (occs b k) 0) 0) as [Q|Q].
        * assert (G : In 0 (occs b k)) by (rewrite <- Q at 1; apply nth_In; auto). apply occs_in in G. lia.
        * apply Hf. assert (nth 0 b 0 <> k); [|lia]. intros G. apply Q.
          pose proof (occs_nth 0 Hn0) as Z. rewrite rankP_0, G in Z. auto.
    - intros j Hj. rewrite vals_runs in *. apply psis_nth; auto.
  Qed.
  Theorem core_construct_ok :
    pc_construct (2 * h) (cums b sigma) (psis b sigma) = Some (mk_psi_core n (2 * h) (nth 0 b 0) (core_partial sigma)).
  Proof.
    unfold pc_construct. rewrite cums_length, Nat.sub_succ, Nat.sub_0_r, cums_nth, cc_sigma by lia. cbn [bind].
    destruct (core_fold sigma (Nat.le_refl _)) as (f & -> & Hf). cbn [bind]. rewrite Hf; auto. apply sym_lt. auto.
  Qed.
  Lemma core_part c : c < sigma -> nth_error (core_partial sigma) c =
    Some (ev_construct (2 * h) (flat (runs_of b c)), rank_samples h (runs_of b c)).
  Proof. intros H. unfold core_partial. rewrite nth_error_map_seq by auto. auto. Qed.

End Seq.
