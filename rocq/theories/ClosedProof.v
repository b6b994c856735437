(** The toolkit on inclusive ranges over an rle_string BWT. *)
From Coq Require Import List Arith Bool Lia ZifyBool ZifyNat Permutation.
From Verif Require Import Spec MBase Lists FM MRle Runs RleProof MConstruct MPhi MRIndex MSrIndex MOldRle OldRle MBwt MClosed Util Phi
  ConstructProof Nav PhiProof SamplingProof BackRange SubsProof SrRuns.
Import ListNotations.

Lemma rankP_map_inj (g : nat -> nat) c : forall l i, (forall d, In d l -> g d = g c -> d = c) ->
  rankP (Nat.eqb (g c)) (map g l) i = rankP (Nat.eqb c) l i.
Proof.
  induction l as [|x l IH]; intros i H; [unfold rankP; cbn; rewrite !firstn_nil; reflexivity|]. destruct i; [reflexivity|]. cbn [map].
  rewrite !rankP_cons, IH by (intros d Hd; apply H; right; auto). f_equal.
  destruct (Nat.eqb_spec c x) as [->|N]; [rewrite Nat.eqb_refl; auto|].
  destruct (Nat.eqb_spec (g c) (g x)) as [E|]; auto. exfalso. apply N. symmetry. apply H; [left|]; auto.
Qed.
Lemma tailb_inj (g : nat -> nat) l i : (forall c d, In c l -> In d l -> g c = g d -> c = d) -> i < length l ->
  tailb (map g l) i = tailb l i.
Proof.
  intros H Hi. unfold tailb. rewrite map_length. destruct (Nat.eqb_spec i (length l - 1)); auto.
  cbn [orb]. f_equal. rewrite !(nth_map_lt g l _ 0) by lia.
  destruct (Nat.eqb_spec (nth i l 0) (nth (S i) l 0)) as [->|N]; [apply Nat.eqb_refl|].
  apply Nat.eqb_neq. intros E. apply N. apply H; auto; apply nth_In; lia.
Qed.

Section Closed.
  Variables (T sa : list nat).
  Hypothesis HT : text_ok T.
  Hypothesis HSA : is_suffix_array T sa.
  Let n := len T.
  (** The rle_string: its symbols stand for the symbols of the BWT through [dec]. *)
  Variables (bsz : nat) (R : list (nat * nat)) (bwt : oldrle).
  Hypothesis HS : old_repr bsz 255 R bwt.
  Variable dec : nat -> nat.
  Hypothesis HD : BW T sa = map dec (expand R).
  Hypothesis HI : forall c d, In c (expand R) -> In d (expand R) -> dec c = dec d -> c = d.
  (** The F table. *)
  Variable f : list nat.
  Variable good : nat -> Prop.
  Hypothesis Hgin : forall c, good c -> In c (expand R) /\ c < 255 /\ 0 < dec c.
  Hypothesis Hgood : forall c, In c (expand R) -> 0 < dec c -> good c.
  Hypothesis Hgf : forall c, good c -> nth_error f c = Some (Cc T sa (dec c)) /\
    exists y, nth_error f (c + 1) = Some y /\ Cc T sa (dec c) < y.
  Hypothesis Hbad : forall c, c < 256 -> ~ good c -> exists x, nth_error f c = Some x /\
    ((c = length f - 1 /\ x = n) \/ exists y, nth_error f (c + 1) = Some y /\ (y <= x \/ ~ In c (expand R))).
  Hypothesis Hflen : length f = 256.
  Let r := length (hrows T sa).
  Notation trow k := (nth k (trows T sa) 0).
  Notation tp := (tpos T sa).
  Notation bx i := (nth i (expand R) 0).

  Lemma bx_len : length (expand R) = n.
  Proof. rewrite <- (map_length dec), <- HD. apply (BW_length T sa HSA). Qed.
  Lemma bx_size : old_size bwt = n.
  Proof. unfold old_size. rewrite (ol_n _ _ _ _ HS). apply bx_len. Qed.
  Lemma bw_bx i : i < n -> bw T sa i = dec (bx i).
  Proof. intros H. unfold bw. rewrite HD. apply nth_map_lt. rewrite bx_len. auto. Qed.
  Lemma bx_in i : i < n -> In (bx i) (expand R).
  Proof. intros H. apply nth_In. rewrite bx_len. auto. Qed.
  Lemma bx_M c : In c (expand R) -> c <= 255.
  Proof.
    intros H. apply (ol_M _ _ _ _ HS). unfold expand in H. apply in_flat_map in H.
    destruct H as ([d k] & H1 & H2). cbn in H2. apply repeat_spec in H2. subst c.
    change d with (fst (d, k)). apply in_map; auto.
  Qed.
  Lemma bx_rank c i : In c (expand R) -> i <= n -> old_rank bwt i c = Some (rk T sa (dec c) i).
  Proof.
    intros Hc Hi. rewrite (old_rank_ok bsz 255 R bwt HS) by (auto using bx_M; rewrite bx_len; auto).
    f_equal. unfold rk. rewrite HD. symmetry. apply rankP_map_inj. intros d Hd E. apply HI; auto.
  Qed.
  Lemma bx_access i : i < n -> old_access bwt i = Some (bx i).
  Proof.
    intros Hi. rewrite (old_access_ok bsz 255 R bwt HS) by (rewrite bx_len; auto).
    apply nth_error_nth_lt. rewrite bx_len. auto.
  Qed.
  Lemma bx_tail i : i < n -> tailr T sa i = tailb (expand R) i.
  Proof. intros H. unfold tailr. rewrite HD. apply tailb_inj; auto. rewrite bx_len. auto. Qed.
  Lemma HWR : wf_runs R.
  Proof. apply (ol_wf _ _ _ _ HS). Qed.
  Lemma bx_rstart j : rstart R j <= n.
  Proof. rewrite <- bx_len. apply rstart_le. Qed.
  Lemma bx_run i : i < n -> exists j c k, nth_error R j = Some (c, k) /\ rstart R j <= i < rstart R (S j) /\ bx i = c.
  Proof.
    intros Hi. destruct (run_at R i) as (j & c & k & E & Hj); [rewrite bx_len; auto|].
    exists j, c, k. split; auto. split; auto. eapply expand_nth_d; eauto.
  Qed.
  Lemma bx_run_in j c k : nth_error R j = Some (c, k) -> In c (expand R).
  Proof. intros E. apply expand_in; [apply HWR|]. change c with (fst (c, k)). apply in_map. eapply nth_error_In; eauto. Qed.
  Lemma bx_rows : length R = r /\ forall j, j < length R -> trow j = rstart R (S j) - 1.
  Proof.
    assert (E : trows T sa = map (fun k => rstart R (S k) - 1) (seq 0 (length R))).
    { rewrite <- (tails_of_expand R HWR). unfold trows, tails_of. rewrite HD, map_length.
      apply filter_ext_in. intros i Hi. apply in_seq in Hi. apply tailb_inj; auto. lia. }
    split.
    - unfold r. rewrite <- (PhiProof.rows_length T sa HT HSA), E, map_length, seq_length. auto.
    - intros j Hj. rewrite E, nth_map_seq by auto. auto.
  Qed.
  Lemma bx_tail_run j c k i : nth_error R j = Some (c, k) -> rstart R j <= i < rstart R (S j) ->
    tailr T sa i = (i =? rstart R (S j) - 1).
  Proof.
    intros E Hi. pose proof (bx_rstart (S j)). rewrite bx_tail by lia. apply nth_error_Some_lt in E as L.
    rewrite (tailb_expand R j) by (auto using HWR).
    destruct (Nat.eqb_spec i (rstart R (S j) - 1)), (Nat.eqb_spec (S i) (rstart R (S j))); auto; lia.
  Qed.

  (** ** LF *)
  Definition clf : nat * nat -> nat -> option (nat * nat) := lf_on_bwt (old_rank bwt) (nth_error f) n (length f - 1).
  Lemma clf_good c a b : good c -> a < b -> b <= n ->
    clf (a, b - 1) c = Some (if Cc T sa (dec c) + rk T sa (dec c) a <? Cc T sa (dec c) + rk T sa (dec c) b
                             then (Cc T sa (dec c) + rk T sa (dec c) a, Cc T sa (dec c) + rk T sa (dec c) b - 1) else (1, 0)).
  Proof.
    intros Hc Ha Hb. destruct (Hgin c Hc) as (H1 & H2 & H3). destruct (Hgf c Hc) as (E1 & y & E2 & Hy).
    unfold clf, lf_on_bwt, compute_lf. rewrite E1. cbn [bind fst snd].
    replace (c =? length f - 1) with false by (symmetry; apply Nat.eqb_neq; lia). cbn [andb].
    rewrite E2. cbn [bind]. rewrite (proj2 (Nat.leb_gt _ _)) by auto.
    rewrite bx_rank by (auto; lia). cbn [bind]. rewrite bx_rank by (auto; lia). cbn [bind].
    replace (b - 1 + 1) with b by lia.
    pose proof (rankP_mono (Nat.eqb (dec c)) (BW T sa) a b ltac:(lia)) as G. fold (rk T sa (dec c) a) (rk T sa (dec c) b) in G.
    rewrite sub64_ok by auto.
    destruct (Nat.ltb_spec (Cc T sa (dec c) + rk T sa (dec c) a) (Cc T sa (dec c) + rk T sa (dec c) b)).
    - destruct (Nat.eqb_spec (rk T sa (dec c) b - rk T sa (dec c) a) 0); [lia|]. do 2 f_equal. lia.
    - destruct (Nat.eqb_spec (rk T sa (dec c) b - rk T sa (dec c) a) 0); [auto|lia].
  Qed.
  Lemma clf_bad c a b : c < 256 -> ~ good c -> a < b -> b <= n -> clf (a, b - 1) c = Some (1, 0).
  Proof.
    intros Hc Hb Hab Hbn. destruct (Hbad c Hc Hb) as (x & Ex & Hx). unfold clf, lf_on_bwt, compute_lf. rewrite Ex. cbn [bind].
    destruct Hx as [[E1 E2]|(y & Ey & Hy)].
    - rewrite <- E1, E2, !Nat.eqb_refl. reflexivity.
    - destruct ((c =? length f - 1) && (x =? n)); [reflexivity|]. rewrite Ey. cbn [bind].
      destruct (Nat.leb_spec y x) as [G|G]; [reflexivity|]. destruct Hy as [Hy|Hy]; [lia|]. cbn [fst snd].
      assert (Hz : forall i, i <= n -> old_rank bwt i c = Some 0).
      { intros i Hi. rewrite (old_rank_ok bsz 255 R bwt HS) by (try rewrite bx_len; lia). f_equal. unfold rankP.
        apply (count_false (Nat.eqb c)). intros z Hz. apply Nat.eqb_neq. intros <-. apply Hy.
        rewrite <- (firstn_skipn i (expand R)). apply in_or_app; auto. }
      rewrite !Hz by lia. reflexivity.
  Qed.
  (** LF of rows of one run whose symbol is not the terminator. *)
  Lemma clf_run c a b : good c -> a < b -> b <= n -> (forall i, a <= i < b -> bx i = c) ->
    clf (a, b - 1) c = Some (LFr T sa a, LFr T sa a + (b - a) - 1) /\ 1 <= LFr T sa a /\
    forall i, i < b - a -> LFr T sa (a + i) = LFr T sa a + i.
  Proof.
    intros Hc Ha Hb Hr.
    assert (Hw : forall i, i < b - a -> bw T sa (a + i) = dec c) by (intros i Hi; rewrite bw_bx, Hr by lia; auto).
    pose proof (rank_run T sa HSA a (b - a) (dec c) Hw ltac:(fold n; lia)) as G. replace (a + (b - a)) with b in G by lia.
    assert (Ea : LFr T sa a = Cc T sa (dec c) + rk T sa (dec c) a).
    { rewrite (LFr_formula T sa HT HSA) by (fold n; lia). pose proof (Hw 0 ltac:(lia)) as H0. rewrite Nat.add_0_r in H0. rewrite H0. auto. }
    split.
    - rewrite clf_good by auto. rewrite G, Ea. rewrite (proj2 (Nat.ltb_lt _ _)) by lia. do 2 f_equal. lia.
    - split.
      + destruct (Hgin c Hc) as (_ & _ & H3). rewrite Ea.
        assert (0 < Cc T sa (dec c)); [|lia]. unfold Cc, count.
        assert (Hin : In 0 (filter (fun x => x <? dec c) (BW T sa))).
        { apply filter_In. split; [|apply Nat.ltb_lt; auto]. rewrite <- (row_of_zero T sa HT HSA).
          unfold bw. apply nth_In. rewrite (BW_length T sa HSA). apply (ISA_lt T sa HSA). fold n. apply (n_pos T HT). }
        destruct (filter _ _); [destruct Hin|cbn; lia].
      + apply (same_rows T sa HT HSA a (b - a) (dec c)); auto. fold n. lia.
  Qed.

  (** ** Runs of a range *)
  Definition CR (g : bool) (x : string_run) (a b : nat) : Prop :=
    sr_range x = (a, b - 1) /\ 1 <= a /\ a <= b /\
    exists k, nth_error R (sr_run x) = Some (sr_c x, k) /\ rstart R (sr_run x) <= a /\
      b <= rstart R (S (sr_run x)) /\ (g = false -> b < rstart R (S (sr_run x))).
  Definition CN (x : string_run) (a b : nat) : Prop := sr_range x = (a, b - 1) /\ 1 <= a.

  Lemma clip_chain first b : 1 <= first -> forall m q a jl, q + m = jl -> jl < length R -> a = Nat.max (rstart R q) first ->
    a < rstart R (S q) -> first < rstart R (S q) -> a < b -> rstart R jl < b -> b <= rstart R (S jl) ->
    chain CR (map (clip R first (b - 1)) (seq q (S m))) a b.
  Proof.
    intros Hf1. induction m as [|m IH]; intros q a jl Hq Hjl Ha Haq Hfq Hab H1 H2.
    - rewrite Nat.add_0_r in Hq. subst jl. cbn [seq map chain]. exists b. split; auto. split; auto. split; auto.
      destruct (run_some R q Hjl) as (c & k & E). unfold CR, clip. cbn [sr_range sr_run sr_c].
      split; [f_equal; lia|]. split; [lia|]. split; [lia|]. exists k. rewrite (nth_error_nth _ _ _ E). cbn [fst].
      split; auto. split; [lia|]. split; [lia|discriminate].
    - change (seq q (S (S m))) with (q :: seq (S q) (S m)). cbn [map chain]. exists (rstart R (S q)).
      pose proof (rstart_mono R (S q) jl ltac:(lia)). pose proof (rstart_lt R HWR (S q) ltac:(lia)).
      split; [lia|]. split; [lia|]. split.
      + destruct (run_some R q ltac:(lia)) as (c & k & E). unfold CR, clip. cbn [sr_range sr_run sr_c].
        split; [f_equal; lia|]. split; [lia|]. split; [lia|]. exists k. rewrite (nth_error_nth _ _ _ E). cbn [fst].
        split; auto. split; [lia|]. split; [lia|discriminate].
      + apply (IH (S q) (rstart R (S q)) jl); auto; lia.
  Qed.
  Lemma csplit_ok a b : 1 <= a -> a < b -> b <= n ->
    exists rs, old_break_in_runs bwt (a, b - 1) = Some rs /\ chain CR rs a b.
  Proof.
    intros H1 Hab Hb. destruct (bx_run a ltac:(lia)) as (j & c & k & E & Hj & _).
    destruct (bx_run (b - 1) ltac:(lia)) as (jl & c' & k' & E' & Hl & _).
    apply nth_error_Some_lt in E, E'.
    assert (j <= jl). { destruct (le_dec j jl); auto. pose proof (rstart_mono R (S jl) j ltac:(lia)). lia. }
    rewrite (old_break_in_runs_ok bsz 255 R bwt HS a (b - 1) j jl); auto; [|lia|rewrite bx_len; lia].
    eexists. split; [reflexivity|]. replace (S jl - j) with (S (jl - j)) by lia.
    apply (clip_chain a b H1 (jl - j) j a jl); auto; lia.
  Qed.
  Lemma csplit_one a b j : 1 <= a -> a < b -> b <= n -> j < length R -> rstart R j <= a -> b <= rstart R (S j) ->
    exists r, old_break_in_runs bwt (a, b - 1) = Some [r] /\ CR true r a b.
  Proof.
    intros H1 Hab Hb Hj Ha Hr.
    rewrite (old_break_in_runs_ok bsz 255 R bwt HS a (b - 1) j j); auto; [|lia|rewrite bx_len; lia|lia|lia].
    replace (S j - j) with (S 0) by lia.
    pose proof (clip_chain a b H1 0 j a j ltac:(lia) Hj ltac:(lia) ltac:(lia) ltac:(lia) Hab ltac:(lia) Hr) as G.
    cbn [seq map] in *. eexists. split; [reflexivity|]. cbn [chain] in G. destruct G as (m & _ & _ & G & <-). auto.
  Qed.

  Lemma CR_n g x a b : CR g x a b -> b <= n.
  Proof. intros (_ & _ & _ & k & _ & _ & H & _). pose proof (bx_rstart (S (sr_run x))). lia. Qed.
  Lemma CR_update g x a b : CR g x a b -> a < b -> CR false (simple_update x) a (b - 1).
  Proof.
    intros (H1 & H2 & H3 & k & H4 & H5 & H6 & H7) Hab. unfold CR, simple_update. cbn [sr_range sr_run sr_c].
    rewrite H1. cbn [fst snd]. rewrite sub64_ok by lia. split; auto. split; auto. split; [lia|].
    exists k. split; auto. split; auto. split; lia.
  Qed.
  Lemma CN_update x a b : CN x a b -> a < b -> CN (simple_update x) a (b - 1).
  Proof.
    intros [H1 H2] Hab. unfold CN, simple_update. cbn [sr_range]. rewrite H1. cbn [fst snd]. rewrite sub64_ok by lia. auto.
  Qed.
  Lemma closed_empty_ok a b : 1 <= a -> closed_empty (a, b - 1) = negb (a <? b).
  Proof. intros H. unfold closed_empty. cbn [fst snd]. destruct (Nat.ltb_spec (b - 1) a), (Nat.ltb_spec a b); cbn; auto; lia. Qed.
  Lemma CR_empty g x a b : CR g x a b -> closed_empty (sr_range x) = negb (a <? b).
  Proof. intros (-> & H & _). apply closed_empty_ok; auto. Qed.
  Lemma CN_empty x a b : CN x a b -> closed_empty (sr_range x) = negb (a <? b).
  Proof. intros (-> & H). apply closed_empty_ok; auto. Qed.
  Lemma CR_rows g x a b : CR g x a b -> a < b -> In (sr_c x) (expand R) /\ forall i, a <= i < b -> bx i = sr_c x.
  Proof.
    intros (_ & _ & _ & k & H1 & H2 & H3 & _) Hab. split; [eapply bx_run_in; eauto|].
    intros i Hi. eapply expand_nth_d; eauto. lia.
  Qed.

  (** ** Backward search *)
  Lemma Cc_pos c : 0 < c -> 0 < Cc T sa c.
  Proof.
    intros Hc. unfold Cc, count.
    assert (Hin : In 0 (filter (fun x => x <? c) (BW T sa))).
    { apply filter_In. split; [|apply Nat.ltb_lt; auto]. rewrite <- (row_of_zero T sa HT HSA).
      unfold bw. apply nth_In. rewrite (BW_length T sa HSA). apply (ISA_lt T sa HSA). fold n. apply (n_pos T HT). }
    destruct (filter _ _); [destruct Hin|cbn; lia].
  Qed.
  Lemma crank_eq c i : In c (expand R) -> rankP (Nat.eqb c) (expand R) i = rk T sa (dec c) i.
  Proof. intros Hc. unfold rk. rewrite HD. symmetry. apply rankP_map_inj. intros d Hd E. apply HI; auto. Qed.
  (** Row [t] is the last one with symbol [c] among the rows up to [en], and ends its run. *)
  Definition toe (t c en : nat) : Prop :=
    t <= en /\ en < n /\ good c /\ bx t = c /\ rk T sa (dec c) (S t) = rk T sa (dec c) (S en) /\ tailr T sa t = true.
  Lemma rk_step_ne c i : i < n -> good c -> bx i <> c -> rk T sa (dec c) (S i) = rk T sa (dec c) i.
  Proof.
    intros Hi Hc Hne. unfold rk. rewrite (rankP_S _ (BW T sa) i (bw T sa i)) by (apply (BW_nth_error T sa HSA); auto).
    destruct (Nat.eqb_spec (dec c) (bw T sa i)) as [E|]; [|lia]. exfalso. apply Hne. rewrite bw_bx in E by auto.
    apply HI; auto using bx_in. apply Hgin; auto.
  Qed.
  Lemma toe_ex c st e : good c -> st < e -> e <= n -> rk T sa (dec c) st < rk T sa (dec c) e ->
    (bx (e - 1) = c -> tailr T sa (e - 1) = true) -> exists t, st <= t /\ toe t c (e - 1).
  Proof.
    intros Hc Hse He Hlt Htl. destruct (Hgin c Hc) as (Hin & _).
    assert (G : forall m, st + m <= e -> rk T sa (dec c) st < rk T sa (dec c) (st + m) ->
      exists t, st <= t < st + m /\ bx t = c /\ rk T sa (dec c) (S t) = rk T sa (dec c) (st + m) /\ (S t < st + m -> bx (S t) <> c)).
    { induction m as [|m IH]; intros Hm Hr; [rewrite Nat.add_0_r in Hr; lia|].
      destruct (Nat.eq_dec (bx (st + m)) c) as [E|E].
      - exists (st + m). replace (S (st + m)) with (st + S m) by lia. split; [lia|]. split; auto. split; auto. lia.
      - rewrite Nat.add_succ_r in Hr. rewrite (rk_step_ne c (st + m)) in Hr by (auto; lia).
        destruct (IH ltac:(lia) Hr) as (t & H1 & H2 & H3 & H4). exists t. split; [lia|]. split; auto.
        rewrite Nat.add_succ_r, (rk_step_ne c (st + m)) by (auto; lia). split; auto.
        intros H. destruct (Nat.eq_dec (S t) (st + m)) as [->|]; auto. apply H4. lia. }
    destruct (G (e - st) ltac:(lia) ltac:(replace (st + (e - st)) with e by lia; auto)) as (t & H1 & H2 & H3 & H4).
    replace (st + (e - st)) with e in * by lia.
    exists t. split; [lia|]. unfold toe. replace (S (e - 1)) with e by lia. split; [lia|]. split; [lia|]. split; auto. split; auto. split; auto.
    destruct (Nat.eq_dec (S t) e) as [E|E].
    - replace t with (e - 1) in * by lia. auto.
    - specialize (H4 ltac:(lia)). rewrite bx_tail by lia. unfold tailb. rewrite bx_len, H2.
      destruct (Nat.eqb_spec c (bx (S t))); [congruence|]. apply orb_true_r.
  Qed.
  Lemma toe_LFr t c en : toe t c en -> tp t = SA sa (Cc T sa (dec c) + rk T sa (dec c) (S en) - 1).
  Proof.
    intros (H1 & H2 & Hc & Hb & Hr & _). rewrite (tpos_LFr T sa HT HSA). f_equal.
    rewrite (LFr_formula T sa HT HSA) by (fold n; lia). rewrite bw_bx by lia. rewrite Hb, <- Hr.
    unfold rk. rewrite (rankP_S _ (BW T sa) t (bw T sa t)) by (apply (BW_nth_error T sa HSA); fold n; lia).
    rewrite bw_bx, Hb, Nat.eqb_refl by lia. lia.
  Qed.
  Lemma toe_select t c en : toe t c en -> 0 < rk T sa (dec c) (S en) /\
    old_select bwt (rk T sa (dec c) (S en) - 1) c = Some t.
  Proof.
    intros (H1 & H2 & Hc & Hb & Hr & _). destruct (Hgin c Hc) as (Hin & _).
    assert (Ht : nth_error (expand R) t = Some c) by (rewrite <- Hb; apply nth_error_nth_lt; rewrite bx_len; lia).
    rewrite <- Hr, <- !crank_eq by auto. rewrite (rankP_S _ _ _ _ Ht), Nat.eqb_refl. split; [lia|].
    replace (rankP (Nat.eqb c) (expand R) t + 1 - 1) with (rankP (Nat.eqb c) (expand R) t) by lia.
    rewrite (old_select_ok bsz 255 R bwt HS).
    - apply (select0_complete _ _ t c Ht). apply Nat.eqb_refl.
    - apply bx_M; auto.
    - rewrite <- (rankP_all _ _ (length (expand R))) by lia. eapply rankP_lt_step; eauto; [apply Nat.eqb_refl|].
      rewrite bx_len. lia.
  Qed.
  (** A row inside a range whose last row has symbol [c]. *)
  Lemma SA_step c e : good c -> 0 < e -> e <= n -> bx (e - 1) = c ->
    0 < SA sa (e - 1) /\ SA sa (Cc T sa (dec c) + rk T sa (dec c) e - 1) = SA sa (e - 1) - 1.
  Proof.
    intros Hc H0 He Hb.
    assert (E : LFr T sa (e - 1) = Cc T sa (dec c) + rk T sa (dec c) e - 1).
    { rewrite (LFr_formula T sa HT HSA) by (fold n; lia). rewrite bw_bx, Hb by lia.
      assert (Er : rk T sa (dec c) (S (e - 1)) = rk T sa (dec c) (e - 1) + 1).
      { unfold rk. rewrite (rankP_S _ (BW T sa) (e - 1) (bw T sa (e - 1))) by (apply (BW_nth_error T sa HSA); fold n; lia).
        rewrite bw_bx, Hb, Nat.eqb_refl by lia. auto. }
      replace (S (e - 1)) with e in Er by lia. lia. }
    assert (Hp : 0 < SA sa (e - 1)).
    { destruct (Nat.eq_dec (SA sa (e - 1)) 0) as [E0|]; [|lia]. exfalso.
      assert (E1 : e - 1 = ISA sa 0).
      { pose proof (n_pos T HT). apply (SA_inj T sa HSA); [fold n; lia|apply (ISA_lt T sa HSA); auto|].
        rewrite (SA_ISA T sa HSA) by auto. auto. }
      pose proof (row_of_zero T sa HT HSA) as G. rewrite <- E1, bw_bx, Hb in G by lia. destruct (Hgin c Hc) as (_ & _ & G2). lia. }
    split; auto. rewrite <- E, (SA_LFr T sa HT HSA).
    pose proof (SA_lt T sa HSA (e - 1) ltac:(fold n; lia)). replace (SA sa (e - 1)) with (S (SA sa (e - 1) - 1)) at 1 by lia.
    apply (cpred_S T). lia.
  Qed.
  Lemma is_range_none q st u : is_range T sa q st st -> exists st', is_range T sa (u ++ q) st' st'.
  Proof.
    intros H. induction u as [|c u (st' & IH)]; [eauto|]. cbn [app].
    exists (Cc T sa c + rk T sa c st'). apply (is_range_step T sa HT HSA); auto.
  Qed.
  (** What the range of the search stands for. *)
  Definition found (q : list nat) (rng : nat * nat) : Prop :=
    Forall good q /\ exists st e, rng = (st, e - 1) /\ 1 <= st /\ st < e /\ is_range T sa (map dec q) st e.
  Definition missing (q : list nat) (rng : nat * nat) : Prop :=
    rng = (1, 0) /\ (Forall good q -> exists st, is_range T sa (map dec q) st st).
  Lemma clf_search c q st e : c < 256 -> Forall good q -> st < e -> is_range T sa (map dec q) st e ->
    (good c /\ Cc T sa (dec c) + rk T sa (dec c) st < Cc T sa (dec c) + rk T sa (dec c) e /\
       clf (st, e - 1) c = Some (Cc T sa (dec c) + rk T sa (dec c) st, Cc T sa (dec c) + rk T sa (dec c) e - 1) /\
       found (c :: q) (Cc T sa (dec c) + rk T sa (dec c) st, Cc T sa (dec c) + rk T sa (dec c) e - 1)) \/
    (clf (st, e - 1) c = Some (1, 0) /\ missing (c :: q) (1, 0)).
  Proof.
    intros Hc Hq Hse HI'. pose proof (proj1 HI') as He. fold n in He.
    pose proof (is_range_step T sa HT HSA (dec c) (map dec q) st e HI') as HI2.
    destruct (in_dec Nat.eq_dec c (expand R)) as [Hin|Hin].
    2:{ right. assert (Hb : ~ good c) by (intros G; apply Hin, Hgin; auto). split; [apply clf_bad; auto; lia|].
        split; auto. intros G. inversion G; subst; contradiction. }
    destruct (Nat.eq_dec (dec c) 0) as [E0|E0].
    { right. assert (Hb : ~ good c) by (intros G; destruct (Hgin c G) as (_ & _ & G2); lia). split; [apply clf_bad; auto; lia|].
      split; auto. intros G. inversion G; subst; contradiction. }
    assert (Hg : good c) by (apply Hgood; auto; lia). rewrite (clf_good c st e) by (auto; lia).
    destruct (Nat.ltb_spec (Cc T sa (dec c) + rk T sa (dec c) st) (Cc T sa (dec c) + rk T sa (dec c) e)) as [H|H].
    - left. split; auto. split; auto. split; auto. split; [constructor; auto|].
      eexists _, _. split; [reflexivity|]. pose proof (Cc_pos (dec c) ltac:(lia)). split; [lia|]. split; auto.
    - right. split; auto. split; auto. intros _. exists (Cc T sa (dec c) + rk T sa (dec c) st). cbn [map].
      pose proof (proj1 HI2). replace (Cc T sa (dec c) + rk T sa (dec c) e) with (Cc T sa (dec c) + rk T sa (dec c) st) in HI2 by lia. auto.
  Qed.
  Lemma missing_app u q rng : missing q rng -> missing (u ++ q) rng.
  Proof.
    intros [E H]. split; auto. intros G. apply Forall_app in G. destruct G as [_ G]. destruct (H G) as (st & Hst).
    destruct (is_range_none _ _ (map dec u) Hst) as (st' & H'). exists st'. rewrite map_app. auto.
  Qed.
  Lemma found_nonempty q rng : found q rng -> closed_empty rng = false.
  Proof. intros (_ & st & e & -> & H1 & H2 & _). rewrite closed_empty_ok by auto. rewrite (proj2 (Nat.ltb_lt _ _)); auto. Qed.

  Section Loop.
    Context {Data : Type}.
    Variable update : nat * nat -> nat * nat -> nat -> nat -> Data -> Data.
    (** [Inv k st e d]: the data after a step, with [k] symbols to go. *)
    Variable Inv : nat -> nat -> nat -> Data -> Prop.
    Hypothesis Hstep : forall k c q st e d, Forall good q -> q <> [] -> is_range T sa (map dec q) st e -> 1 <= st -> st < e ->
      good c -> Cc T sa (dec c) + rk T sa (dec c) st < Cc T sa (dec c) + rk T sa (dec c) e ->
      Inv (S k) st e d ->
      Inv k (Cc T sa (dec c) + rk T sa (dec c) st) (Cc T sa (dec c) + rk T sa (dec c) e)
        (update (st, e - 1) (Cc T sa (dec c) + rk T sa (dec c) st, Cc T sa (dec c) + rk T sa (dec c) e - 1) c k d).
    Lemma closed_loop : forall rp q st e d, Forall (fun c => c < 256) rp -> Forall good q -> q <> [] ->
      is_range T sa (map dec q) st e -> 1 <= st -> st < e -> Inv (length rp) st e d ->
      exists rng d', locate_loop clf (fun r => r) update (fun c => Some c) closed_empty rp (st, e - 1) (length rp - 1) d = Some (rng, d') /\
        ((Forall good (rev rp ++ q) /\ exists st' e', rng = (st', e' - 1) /\ 1 <= st' /\ st' < e' /\
            is_range T sa (map dec (rev rp ++ q)) st' e' /\ Inv 0 st' e' d') \/ missing (rev rp ++ q) rng).
    Proof.
      induction rp as [|c rp IH]; intros q st e d Hp Hq Hne HI' H1 Hse Hd.
      - cbn. eexists _, _. split; [reflexivity|]. left. split; auto. exists st, e. auto.
      - inversion Hp as [|? ? Hc Hp']; subst. cbn [locate_loop]. rewrite closed_empty_ok, (proj2 (Nat.ltb_lt _ _)) by auto.
        cbn [negb bind].
        replace (length (c :: rp) - 1) with (length rp) by (cbn [length]; lia).
        destruct (clf_search c q st e Hc Hq Hse HI') as [(Hg & Hlt & El & Hf')|(El & Hm)]; rewrite El; cbn [bind].
        + destruct Hf' as (Hq' & st1 & e1 & E1 & Hs1 & Hlt1 & HI1).
          cbn [length] in Hd. pose proof (Hstep (length rp) c q st e d Hq Hne HI' H1 Hse Hg Hlt Hd) as Hd'.
          pose proof (is_range_step T sa HT HSA (dec c) (map dec q) st e HI') as HI2.
          pose proof (Cc_pos (dec c) (proj2 (proj2 (Hgin c Hg)))).
          destruct (IH (c :: q) (Cc T sa (dec c) + rk T sa (dec c) st) (Cc T sa (dec c) + rk T sa (dec c) e)
                     _ Hp' Hq' ltac:(discriminate) HI2 ltac:(lia) Hlt Hd') as (rng & d' & E & C).
          exists rng, d'. split; auto. cbn [rev]. rewrite <- app_assoc. auto.
        + apply (missing_app (rev rp)) in Hm as Hm'. cbn [rev]. rewrite <- app_assoc.
          destruct rp; cbn [locate_loop]; eexists _, _; (split; [reflexivity|]); auto.
    Qed.
    (** The whole search. *)
    Variable init : Data.
    Variable plen : nat.
    Hypothesis Hfirst : forall c, good c -> Cc T sa (dec c) + rk T sa (dec c) 0 < Cc T sa (dec c) + rk T sa (dec c) n ->
      Inv plen (Cc T sa (dec c) + rk T sa (dec c) 0) (Cc T sa (dec c) + rk T sa (dec c) n)
        (update (0, n - 1) (Cc T sa (dec c) + rk T sa (dec c) 0, Cc T sa (dec c) + rk T sa (dec c) n - 1) c plen init).
    Lemma closed_search p : Forall (fun c => c < 256) p -> length p = S plen ->
      exists rng d', locate_loop clf (fun r => r) update (fun c => Some c) closed_empty (rev p) (closed_full n) (length p - 1) init = Some (rng, d') /\
        ((Forall good p /\ exists st' e', rng = (st', e' - 1) /\ 1 <= st' /\ st' < e' /\
            is_range T sa (map dec p) st' e' /\ Inv 0 st' e' d') \/ missing p rng).
    Proof.
      intros Hp Hl. pose proof (n_pos T HT) as Hn. fold n in Hn.
      assert (Hr : Forall (fun c => c < 256) (rev p)) by (apply Forall_rev; auto).
      pose proof (rev_length p) as Lr. pose proof (rev_involutive p) as Ep.
      destruct (rev p) as [|c rp]; [cbn in Lr; lia|]. cbn [length] in Lr. pose proof (Forall_inv Hr) as Hc. pose proof (Forall_inv_tail Hr) as Hr'. cbn beta in Hc.
      cbn [locate_loop]. unfold closed_full. rewrite sub64_ok by lia. unfold closed_empty at 1. cbn [fst snd].
      rewrite (proj2 (Nat.ltb_ge (n - 1) 0)) by lia. cbn [bind].
      cbn [rev] in Ep.
      destruct (clf_search c [] 0 n Hc ltac:(constructor) Hn (is_range_full T sa)) as [(Hg & Hlt & El & Hf')|(El & Hm)]; rewrite El; cbn [bind].
      - destruct Hf' as (Hq' & st1 & e1 & E1 & Hs1 & Hlt1 & HI1).
        pose proof (Hfirst c Hg Hlt) as Hd'.
        pose proof (is_range_step T sa HT HSA (dec c) [] 0 n (is_range_full T sa)) as HI2.
        pose proof (Cc_pos (dec c) (proj2 (proj2 (Hgin c Hg)))).
        assert (Epl : plen = length rp) by lia. replace (length p - 1) with plen by lia.
        rewrite Epl in Hd' at 1.
        destruct (closed_loop rp [c] (Cc T sa (dec c) + rk T sa (dec c) 0) (Cc T sa (dec c) + rk T sa (dec c) n)
                   _ Hr' Hq' ltac:(discriminate) HI2 ltac:(lia) Hlt Hd') as (rng & d' & E & C).
        exists rng, d'. replace (plen - 1) with (length rp - 1) by lia. rewrite Ep in C. auto.
      - apply (missing_app (rev rp)) in Hm as Hm'. rewrite Ep in Hm'.
        destruct rp; cbn [locate_loop]; eexists _, _; (split; [reflexivity|]); auto.
    Qed.
  End Loop.

  (** ** Samples *)
  Section Samples.
    Variables (s : nat) (ks : list nat).
    Hypothesis HF : subs_facts T sa s ks.
    Variable x : cix.
    Hypothesis Hbwt : cx_bwt x = bwt.
    Hypothesis Hf : cx_f x = f.
    Hypothesis Hrate : cx_rate x = s.
    Hypothesis Hsamples : cx_samples x = map (fun k => tp (trow k)) ks.
    Hypothesis Hidx : cx_idx x = bits_of ks r.
    Let kept := keptb T sa ks.

    Lemma cx_size_ok : cx_size x = n.
    Proof. unfold cx_size. rewrite Hbwt. apply bx_size. Qed.
    Lemma cx_lf_ok : cx_lf x = clf.
    Proof. unfold cx_lf, clf. rewrite Hbwt, Hf, cx_size_ok. auto. Qed.

    Lemma ckept_tail i : kept i = true -> i < n /\ tailr T sa i = true.
    Proof. apply (keptb_tail T sa HT HSA s ks HF). Qed.
    (** The row of the terminator is sampled. *)
    Lemma ckept_zero : kept (ISA sa 0) = true.
    Proof.
      pose proof (n_pos T HT) as Hn. fold n in Hn. pose proof (ISA_lt T sa HSA 0 Hn) as Hi.
      destruct (trow_ex T sa HT HSA _ Hi (ISA_0_tail T sa HT HSA)) as (k & Hk & E).
      apply (keptb_spec T sa HT HSA s ks HF). exists k. split; auto. destruct (in_dec Nat.eq_dec k ks) as [G|G]; auto. exfalso.
      destruct (sf_cover _ _ _ _ HF k Hk G) as (j & q & _ & _ & _ & H1 & _).
      rewrite E, (tpos_ISA_0 T sa HT HSA) in H1. pose proof (tpos_lt T sa HT (trow q)). lia.
    Qed.
    Lemma unkept_good i : i < n -> kept i = false -> good (bx i).
    Proof.
      intros Hi Hk. apply Hgood; [apply bx_in; auto|]. rewrite <- bw_bx by auto.
      destruct (Nat.eq_dec (bw T sa i) 0) as [E|]; [|lia].
      apply (bw_zero_row T sa HT HSA) in E; auto. subst i. rewrite ckept_zero in Hk. discriminate.
    Qed.
    Lemma csample_ok i : i < n -> cx_sample_at x i = Some (if kept i then Some (tp i) else None).
    Proof.
      intros Hi. destruct (bx_run i Hi) as (j & c & k & E & Hj & _). apply nth_error_Some_lt in E as L.
      unfold cx_sample_at, sample_for_sa_position. rewrite Hbwt, (old_run_of_ok bsz 255 R bwt HS i j) by auto. cbn [bind].
      pose proof (bx_tail_run j c k i E Hj) as Et. destruct bx_rows as [Lr Hrow].
      destruct (Nat.eqb_spec i (rstart R (S j) - 1)) as [Ei|Ei]; cbn [negb].
      - assert (Ei' : trow j = i) by (rewrite Hrow; auto). assert (Hjr : j < r) by lia.
        unfold sample_for_bwt_run. rewrite Hidx. unfold bits_of at 1.
        rewrite nth_error_map_seq by auto. cbn [bind]. unfold kept. rewrite <- Ei', (keptb_k T sa HT HSA s ks HF j Hjr).
        destruct (memb ks j) eqn:Em; cbn [negb]; auto.
        rewrite (bits_rank ks r (sf_sorted _ _ _ _ HF) (sf_lt _ _ _ _ HF)) by lia. cbn [bind].
        apply memb_In in Em. destruct (In_nth _ _ 0 Em) as (q & Hq & Eq). subst j.
        rewrite count_lt_pos by (auto using (sf_sorted _ _ _ _ HF)).
        rewrite Hsamples, nth_error_map, (nth_error_nth_lt _ _ 0) by auto. cbn [option_map bind]. auto.
      - destruct (kept i) eqn:Ek; auto. apply ckept_tail in Ek. destruct Ek. congruence.
    Qed.

    Lemma ckept_run j c k i : nth_error R j = Some (c, k) -> rstart R j <= i < rstart R (S j) ->
      kept i = true -> S i = rstart R (S j).
    Proof.
      intros E Hi Hk. apply ckept_tail in Hk. destruct Hk as [_ Hk]. rewrite (bx_tail_run j c k) in Hk by auto.
      apply Nat.eqb_eq in Hk. lia.
    Qed.
    Lemma CR_sample g y a b : CR g y a b -> a < b ->
      cx_sample_at x (snd (sr_range y)) = Some (if kept (b - 1) then Some (tp (b - 1)) else None).
    Proof. intros H Hab. pose proof (CR_n _ _ _ _ H). destruct H as (-> & _). apply csample_ok. lia. Qed.
    Lemma CR_inner g y a b i : CR g y a b -> a <= i -> S i < b -> kept i = false.
    Proof.
      intros (_ & _ & _ & k & H3 & H4 & H5 & _) Ha Hb. destruct (kept i) eqn:E; auto.
      apply (ckept_run _ _ _ _ H3) in E; lia.
    Qed.
    Lemma CR_cut y a b : CR false y a b -> a < b -> kept (b - 1) = false.
    Proof.
      intros (_ & _ & _ & k & H3 & H4 & H5 & H7) Hab. specialize (H7 eq_refl).
      destruct (kept (b - 1)) eqn:E; auto. apply (ckept_run _ _ _ _ H3) in E; lia.
    Qed.
    Lemma CR_lf g y a b : CR g y a b -> a < b -> kept (b - 1) = false ->
      clf (sr_range y) (sr_c y) = Some (LFr T sa a, LFr T sa a + (b - a) - 1) /\ 1 <= LFr T sa a /\
      forall i, i < b - a -> LFr T sa (a + i) = LFr T sa a + i.
    Proof.
      intros H Hab Hk. pose proof (CR_n _ _ _ _ H) as Hb. destruct (CR_rows _ _ _ _ H Hab) as [_ Hr].
      destruct H as (-> & _). apply clf_run; auto. rewrite <- (Hr (b - 1)) by lia. apply unkept_good; auto. lia.
    Qed.
    Lemma CR_nav g y a b : CR g y a b -> a < b -> kept (b - 1) = false ->
      exists y', simple_navigate clf y = Some y' /\ CN y' (LFr T sa a) (LFr T sa a + (b - a)) /\
        forall i, i < b - a -> LFr T sa (a + i) = LFr T sa a + i.
    Proof.
      intros H Hab Hk. destruct (CR_lf _ _ _ _ H Hab Hk) as (E & H1 & H2). unfold simple_navigate. rewrite E. cbn [bind].
      eexists. split; [reflexivity|]. split; auto. split; auto.
    Qed.

    (** ** The simple engine *)
    Theorem closed_simple_range phi a b : 1 <= a -> a <= b -> b < n ->
      (forall y, S y < n -> (forall l, l < s -> kept (lfi T sa l y) = false) ->
         exists bb, phi (SA sa (S y)) = Some (SA sa y, bb)) ->
      phi_for_range_simple phi (old_break_in_runs bwt) clf (cx_sample_at x) s n (a, b - 1) (SA sa b)
      = Some (down sa a (b - a)).
    Proof.
      intros Ha Hab Hb Hphi. unfold phi_for_range_simple.
      assert (Hrs : exists rs, a < b -> old_break_in_runs bwt (a, b - 1) = Some rs /\ chain CR rs a b).
      { destruct (Nat.eq_dec a b) as [->|N]; [exists []; lia|].
        destruct (csplit_ok a b Ha ltac:(lia) ltac:(lia)) as (rs & Hrs). eauto. }
      destruct Hrs as (rs & Hrs).
      apply (pb_range_ok T sa HT HSA (fun y => cx_sample_at x (snd (sr_range y))) (old_break_in_runs bwt)
               (fun y => old_break_in_runs bwt (sr_range y)) (simple_navigate clf) s closed_empty
               simple_update (fun y => closed_empty (sr_range y)) (n + 2) CR CN kept) with (rs := rs); auto.
      - exact CR_n.
      - exact CR_sample.
      - exact CR_inner.
      - exact CR_cut.
      - exact CR_update.
      - exact CN_update.
      - exact CR_empty.
      - exact CN_empty.
      - exact CR_nav.
      - intros y a0 b0 [-> H0] H1 H2. apply csplit_ok; auto.
      - intros y Hy Hl. destruct (Hphi y Hy Hl) as (bb & ->). auto.
      - apply closed_empty_ok; auto.
    Qed.

    (** ** The original engine *)
    Notation origin := (orig T sa kept).
    Lemma origin_sub L a m z k q : origin L a m z -> k + q <= m -> origin L (a + k) q (z + k).
    Proof.
      intros [H1 H2] H. split; [lia|]. intros i Hi. destruct (H2 (k + i) ltac:(lia)) as [E1 E2].
      rewrite <- !Nat.add_assoc. split; auto.
    Qed.
    Lemma origin_next L g y a b z : CR g y a b -> a < b -> origin L a (b - a) z -> kept (b - 1) = false ->
      (forall i, i < b - a -> LFr T sa (a + i) = LFr T sa a + i) -> origin (S L) (LFr T sa a) (b - a) z.
    Proof.
      intros Hr Hab [H1 H2] Hk HL. split; auto. intros i Hi. destruct (H2 i Hi) as [E1 E2]. split.
      - change (lfi T sa (S L) (z + i)) with (LFr T sa (lfi T sa L (z + i))). rewrite E1. auto.
      - intros l Hl. destruct (Nat.eq_dec l L) as [->|Hne]; [|apply E2; lia]. rewrite E1.
        destruct (Nat.eq_dec (S (a + i)) b) as [E|E].
        + replace (a + i) with (b - 1) by lia. auto.
        + eapply CR_inner; eauto; lia.
    Qed.
    Lemma origin_lt L a m z i : origin L a m z -> i < m -> a + i < n.
    Proof. intros [H1 H2] Hi. destruct (H2 i Hi) as [<- _]. apply (lfi_lt T sa HT HSA). lia. Qed.

    Section Validity.
      Variable phiv : nat -> option (nat * bool).
      Hypothesis Htotal : forall z, z < n -> exists vv, phiv (SA sa z) = Some vv.
      Hypothesis Htrue : forall y w, S y < n -> phiv (SA sa (S y)) = Some (w, true) -> w = SA sa y.
      Hypothesis Hphi : forall y, S y < n -> (forall l, l < s -> kept (lfi T sa l y) = false) ->
        exists b, phiv (SA sa (S y)) = Some (SA sa y, b).
      Notation cnd := (cand sa phiv).

      Lemma cnd_phi z : z < n -> exists vv, phiv (SA sa z) = Some vv /\ cnd z vv.
      Proof.
        intros Hz. destruct (Htotal z Hz) as [[w b] E]. exists (w, b). split; auto. split; cbn [fst snd]; intros Hb.
        - intros H0. apply Htrue; [lia|]. replace (S (z - 1)) with z by lia. congruence.
        - auto.
      Qed.

      Lemma po_valid_ok : forall m fuel a z vv, 1 <= a -> m <= fuel -> z + m < n -> cnd (z + m) vv ->
        exists k vv', k <= m /\
          po_valid_loop phiv fuel a (a + m - 1) vv = Some ((a + (m - k) - 1, vv'), down sa (z + (m - k)) k) /\
          cnd (z + (m - k)) vv' /\ (k = m \/ snd vv' = false) /\ (snd vv = true -> 0 < m -> 0 < k).
      Proof.
        induction m as [|m IH]; intros fuel a z vv Ha Hfu Hz Hc.
        - exists 0, vv. split; auto.
          assert (E : po_valid_loop phiv fuel a (a + 0 - 1) vv = Some ((a + 0 - 1, vv), [])).
          { destruct fuel; cbn [po_valid_loop]; rewrite (proj2 (Nat.leb_gt a _)) by lia; auto. }
          rewrite E. cbn [Nat.sub]. split; [auto|]. split; [auto|]. split; [auto|]. lia.
        - destruct (snd vv) eqn:Ev.
          + destruct fuel as [|fuel]; [lia|]. cbn [po_valid_loop]. rewrite Ev.
            rewrite (proj2 (Nat.leb_le a _)) by lia. cbn [andb].
            destruct Hc as [Hc _]. specialize (Hc Ev ltac:(lia)).
            replace (z + S m - 1) with (z + m) in Hc by lia. rewrite Hc.
            destruct (cnd_phi (z + m) ltac:(lia)) as (vv1 & E1 & Hc1). rewrite E1. cbn [bind].
            rewrite sub64_ok by lia. replace (a + S m - 1 - 1) with (a + m - 1) by lia.
            destruct (IH fuel a z vv1 Ha ltac:(lia) ltac:(lia) Hc1) as (k & vv' & Hk & E & Hc' & Hd & _).
            rewrite E. cbn [bind]. exists (S k), vv'. split; [lia|].
            replace (S m - S k) with (m - k) by lia. split.
            { rewrite down_S. do 3 f_equal. f_equal. lia. }
            split; auto. split; [intuition lia|lia].
          + exists 0, vv. split; [lia|].
            assert (E : po_valid_loop phiv fuel a (a + S m - 1) vv = Some ((a + S m - 1, vv), [])).
            { destruct fuel; cbn [po_valid_loop]; rewrite Ev, andb_false_r; auto. }
            rewrite E, Nat.sub_0_r. split; auto. split; auto. split; auto. discriminate.
      Qed.

      Lemma po_do_ok LF a : 1 <= a -> n <= LF -> forall F m L z (vv : nat * bool), (if snd vv then m else S m) < F ->
        0 < m -> origin L a m z -> cnd (z + m) vv ->
        exists q vv', q <= m /\
          po_do_loop phiv (cx_sample_at x) n LF F a (a + m - 1) L vv = Some ((a + q - 1, vv'), down sa (z + q) (m - q)) /\
          cnd (z + q) vv' /\ (0 < q -> snd vv' = false /\ kept (a + q - 1) = false).
      Proof.
        intros Ha HL. induction F as [|F IH]; intros m L z vv HF' Hm Ho Hc; [lia|]. cbn [po_do_loop].
        pose proof (proj1 Ho) as Hz. fold n in Hz.
        destruct (po_valid_ok m LF a z vv Ha ltac:(lia) Hz Hc) as (k & vv1 & Hk & E1 & Hc1 & Hd1 & Hpos).
        rewrite E1. cbn [bind].
        assert (HD1 : down sa z m = down sa (z + (m - k)) k ++ down sa z (m - k)).
        { replace m with (m - k + k) at 1 by lia. apply down_app. }
        destruct (Nat.ltb_spec (a + (m - k) - 1) a) as [Hlt|Hge].
        { exists (m - k), vv1. split; [lia|]. replace (m - (m - k)) with k by lia. split; auto. split; auto. lia. }
        assert (Hinv : snd vv1 = false) by (destruct Hd1; [lia|auto]).
        assert (Hlast : a + (m - k) - 1 < n).
        { replace (a + (m - k) - 1) with (a + (m - k - 1)) by lia. eapply origin_lt; eauto. lia. }
        rewrite csample_ok by auto. cbn [bind].
        destruct (kept (a + (m - k) - 1)) eqn:Ek.
        - pose proof (n_pos T HT) as Hn. fold n in Hn. rewrite umod_ok by auto. cbn [bind snd].
          assert (Ev : (tp (a + (m - k) - 1) + 1 + L) mod n = SA sa (z + (m - k) - 1)).
          { replace (a + (m - k) - 1) with (a + (m - k - 1)) by lia.
            destruct (proj2 Ho (m - k - 1) ltac:(lia)) as [<- _].
            rewrite (lfi_sample T sa HT HSA) by (fold n; lia). f_equal. lia. }
          rewrite Ev.
          assert (Ho2 : origin L a (m - k) z).
          { pose proof (origin_sub L a m z 0 (m - k) Ho ltac:(lia)) as G. rewrite !Nat.add_0_r in G. auto. }
          assert (Hc2 : cnd (z + (m - k)) (SA sa (z + (m - k) - 1), true)) by (split; cbn [fst snd]; [auto|discriminate]).
          assert (Hm' : m - k < F).
          { destruct (snd vv); [specialize (Hpos eq_refl Hm); lia|lia]. }
          destruct (IH (m - k) L z (SA sa (z + (m - k) - 1), true) Hm' ltac:(lia) Ho2 Hc2) as (q & vv2 & Hq & E2 & Hc3 & Hp).
          rewrite E2. cbn [bind]. exists q, vv2. split; [lia|]. split; auto. f_equal. f_equal.
          replace (m - q) with ((m - k - q) + k) by lia. rewrite down_app. f_equal.
          replace (z + q + (m - k - q)) with (z + (m - k)) by lia. auto.
        - cbn [bind]. rewrite Hinv. exists (m - k), vv1. split; [lia|]. replace (m - (m - k)) with k by lia. auto.
      Qed.

      Lemma po_phi_ok : forall m fuel a z v, 1 <= a -> 0 < m -> m <= fuel -> z + m < n ->
        (forall i, i < m -> forall l, l < s -> kept (lfi T sa l (z + i)) = false) -> v = SA sa (z + m - 1) ->
        exists vv', po_phi_loop phiv fuel a (a + m - 1) v = Some (vv', down sa z m) /\ cnd z vv'.
      Proof.
        induction m as [|m IH]; intros fuel a z v Ha Hm Hfu Hb Hk ->; [lia|].
        destruct fuel as [|fuel]; [lia|]. cbn [po_phi_loop]. replace (z + S m - 1) with (z + m) by lia.
        rewrite sub64_ok by lia. replace (a + S m - 1 - 1) with (a + m - 1) by lia.
        destruct m as [|m].
        - rewrite Nat.add_0_r in *. destruct (cnd_phi z ltac:(lia)) as (vv' & E & Hc). rewrite E. cbn [bind].
          rewrite (proj2 (Nat.leb_gt a _)) by lia. exists vv'. rewrite down_S, Nat.add_0_r. auto.
        - rewrite Nat.add_succ_r.
          destruct (Hphi (z + m)) as [bb E]; [lia|apply Hk; lia|]. rewrite E. cbn [bind fst].
          rewrite (proj2 (Nat.leb_le a _)) by lia.
          destruct (IH fuel a z (SA sa (z + m))) as (vv' & E' & Hc'); auto; try lia.
          { f_equal. lia. }
          rewrite E'. cbn [bind]. exists vv'. split; auto. rewrite (down_S _ _ (S m)).
          replace (S (z + m)) with (z + S m) by lia. reflexivity.
      Qed.

      (** The rows a..a+m-1 lie in one run. *)
      Definition one_run (a m : nat) : Prop := exists j, j < length R /\ rstart R j <= a /\ a + m <= rstart R (S j).

      Lemma po_compute_ok LF : n + 2 <= LF -> forall fuel L a m z vv, 1 <= a -> 0 < m -> L <= s -> 0 < fuel ->
        2 * (s - L) < fuel \/ (2 * (s - L) <= fuel /\ one_run a m) -> origin L a m z -> cnd (z + m) vv ->
        exists vv', po_compute phiv (old_break_in_runs bwt) clf (cx_sample_at x) s n LF fuel (a, a + m - 1) vv L
                    = Some (vv', down sa z m) /\ cnd z vv'.
      Proof.
        intros HL. induction fuel as [|fuel IH]; intros L a m z vv Ha Hm HLs Hfp Hfu Ho Hc; [lia|].
        cbn [po_compute]. rewrite (proj2 (Nat.ltb_ge (a + m - 1) a)) by lia.
        pose proof (proj1 Ho) as Hz. fold n in Hz.
        destruct (Nat.leb_spec s L) as [Hs|Hs].
        - (* phi only *)
          assert (Hkz : forall i, i < m -> forall l, l < s -> kept (lfi T sa l (z + i)) = false).
          { intros i Hi l Hl. apply (proj2 Ho i Hi). lia. }
          apply po_phi_ok; auto; [lia|]. destruct (snd vv) eqn:Ev.
          + destruct Hc as [Hc _]. apply Hc; auto; lia.
          + destruct Hc as [_ Hc]. specialize (Hc Ev). destruct (Hphi (z + m - 1)) as [bb Eb]; [lia| |].
            * intros l Hl. replace (z + m - 1) with (z + (m - 1)) by lia. apply Hkz; lia.
            * replace (S (z + m - 1)) with (z + m) in Eb by lia. rewrite Hc in Eb. injection Eb as ->. auto.
        - assert (HF' : (if snd vv then m else S m) < LF) by (destruct (snd vv); lia).
          destruct (po_do_ok LF a Ha ltac:(lia) LF m L z vv HF' Hm Ho Hc) as (q & vv1 & Hq & E1 & Hc1 & Hp).
          rewrite E1. cbn [bind].
          assert (HDq : down sa z m = down sa (z + q) (m - q) ++ down sa z q).
          { replace m with (q + (m - q)) at 1 by lia. apply down_app. }
          destruct (Nat.ltb_spec (a + q - 1) a) as [Hlt|Hge].
          { assert (q = 0) by lia. subst q. rewrite Nat.add_0_r, Nat.sub_0_r in *. exists vv1. split; auto. }
          assert (Hq0 : 0 < q) by lia. destruct (Hp Hq0) as [Hinv Hk].
          assert (Haq : a + q <= n).
          { pose proof (origin_lt L a m z (q - 1) Ho ltac:(lia)). lia. }
          assert (Hoq : origin L a q z).
          { pose proof (origin_sub L a m z 0 q Ho ltac:(lia)) as G. rewrite !Nat.add_0_r in G. auto. }
          (* the runs of the rows left, from the last one *)
          assert (HR : exists rs rc rest mm, old_break_in_runs bwt (a, a + q - 1) = Some rs /\ rev rs = rc :: rest /\
                     a <= mm < a + q /\ CR true rc mm (a + q) /\ rchain CR rest a mm /\ (one_run a m -> rest = [])).
          { destruct Hfu as [Hfu|[Hfu Hone]].
            - destruct (csplit_ok a (a + q) Ha ltac:(lia) Haq) as (rs & Es & Hch). apply chain_rev in Hch as Hr.
              destruct (rev rs) as [|rc rest] eqn:Er; [cbn in Hr; lia|]. destruct Hr as (mm & H1 & H2 & H3 & H4).
              exists rs, rc, rest, mm. split; auto. split; auto. split; auto. split; auto. split; auto.
              intros (j & Hj & Hj1 & Hj2). destruct (csplit_one a (a + q) j Ha ltac:(lia) Haq Hj Hj1 ltac:(lia)) as (r1 & Er1 & _).
              rewrite Es in Er1. injection Er1 as ->. cbn in Er. congruence.
            - destruct Hone as (j & Hj & Hj1 & Hj2).
              destruct (csplit_one a (a + q) j Ha ltac:(lia) Haq Hj Hj1 ltac:(lia)) as (r1 & Er1 & Hr1).
              exists [r1], r1, [], a. split; auto. split; auto. split; [lia|]. split; auto. split; [reflexivity|]. auto. }
          destruct HR as (rs & rc & rest & mm & Es & Er & Hmm & Hrc & Hch & Hrest). rewrite Es. cbn [bind]. rewrite Er.
          destruct (CR_lf _ _ _ _ Hrc ltac:(lia) Hk) as (El & Hl1 & Hl2). rewrite El. cbn [bind].
          set (z1 := z + (mm - a)).
          assert (Hor : origin L mm (a + q - mm) z1).
          { pose proof (origin_sub L a q z (mm - a) (a + q - mm) Hoq ltac:(lia)) as G.
            replace (a + (mm - a)) with mm in G by lia. auto. }
          pose proof (origin_next L true rc mm (a + q) z1 Hrc ltac:(lia) Hor Hk Hl2) as Hon.
          destruct (IH (S L) (LFr T sa mm) (a + q - mm) z1 vv1) as (vv2 & E2 & Hc2); auto; try lia.
          { replace (z1 + (a + q - mm)) with (z + q) by (unfold z1; lia). auto. }
          rewrite E2. cbn [bind].
          assert (GO : forall rest b v, rest = [] \/ 2 * (s - L) <= fuel -> a <= b -> b <= a + q -> rchain CR rest a b ->
            cnd (z + (b - a)) v -> exists v',
            (fix go (rest : list string_run) (vv : nat * bool) : out (nat * bool) :=
               match rest with
               | [] => Some (vv, [])
               | r :: rest => '(vv, o1) <- po_compute phiv (old_break_in_runs bwt) clf (cx_sample_at x) s n LF fuel (sr_range r) vv L ;;
                              '(vv, o2) <- go rest vv ;; Some (vv, o1 ++ o2)
               end) rest v = Some (v', down sa z (b - a)) /\ cnd z v').
          { clear rest Hch Hrest Er E2 Hc2 vv2.
            induction rest as [|y rest IHr]; intros b v Hfu' Hab Hbq Hch Hv.
            - cbn in Hch. subst b. rewrite Nat.sub_diag, Nat.add_0_r in *. exists v. auto.
            - destruct Hch as (m2 & H1 & H2 & H3 & H4). pose proof H3 as H3'. destruct H3' as (Ey & Hy1 & Hy2 & k & Hy3 & Hy4 & Hy5 & _).
              rewrite Ey. replace (b - 1) with (m2 + (b - m2) - 1) by lia.
              destruct Hfu' as [Hfu'|Hfu']; [discriminate|].
              destruct (IH L m2 (b - m2) (z + (m2 - a)) v) as (v1 & Ev1 & Hv1); auto; try lia.
              { right. split; auto. exists (sr_run y). split; [apply nth_error_Some_lt in Hy3; auto|]. split; lia. }
              { pose proof (origin_sub L a q z (m2 - a) (b - m2) Hoq ltac:(lia)) as G.
                replace (a + (m2 - a)) with m2 in G by lia. auto. }
              { replace (z + (m2 - a) + (b - m2)) with (z + (b - a)) by lia. auto. }
              rewrite Ev1. cbn [bind].
              destruct (IHr m2 v1) as (v2 & Ev2 & Hv2); auto; try lia.
              rewrite Ev2. cbn [bind]. exists v2. split; auto. do 2 f_equal.
              replace (b - a) with ((m2 - a) + (b - m2)) by lia. rewrite down_app. auto. }
          destruct (GO rest mm vv2) as (vv3 & E3 & Hc3); auto; try lia.
          { destruct Hfu as [Hfu|[_ Hone]]; [right; lia|left; auto]. }
          rewrite E3. cbn [bind]. exists vv3. split; auto. do 2 f_equal. rewrite HDq. f_equal.
          replace q with ((mm - a) + (a + q - mm)) by lia. rewrite down_app.
          replace (mm - a + (a + q - mm)) with q by lia. auto.
      Qed.
      Theorem closed_original_range a b : 1 <= a -> a <= b -> b < n ->
        phi_for_range_original phiv (old_break_in_runs bwt) clf (cx_sample_at x) s n (n + 2) (2 * s + 1) (a, b - 1) (SA sa b)
        = Some (down sa a (b - a)).
      Proof.
        intros Ha Hab Hb. unfold phi_for_range_original. destruct (cnd_phi b Hb) as (vv & -> & Hc). cbn [bind].
        destruct (Nat.eq_dec a b) as [->|N].
        - replace (2 * s + 1) with (S (2 * s)) by lia. cbn [po_compute]. rewrite (proj2 (Nat.ltb_lt (b - 1) b)) by lia.
          cbn [bind]. rewrite Nat.sub_diag. auto.
        - destruct (po_compute_ok (n + 2) ltac:(lia) (2 * s + 1) 0 a (b - a) a vv) as (vv' & E & _); auto; try lia.
          + split; [fold n; lia|]. intros i Hi. split; auto. intros; lia.
          + replace (a + (b - a)) with b by lia. auto.
          + replace (a + (b - a) - 1) with (b - 1) in E by lia. rewrite E. auto.
      Qed.
    End Validity.

    (** ** Toehold *)
    Lemma cbasic_lf_ok i : i < n -> kept i = false -> cx_basic_lf x i = Some (LFr T sa i).
    Proof.
      intros Hi Hk. pose proof (unkept_good i Hi Hk) as Hg. destruct (Hgf _ Hg) as [E _].
      unfold cx_basic_lf, basic_lf. rewrite Hbwt, Hf, bx_access by auto. cbn [bind]. rewrite E. cbn [bind].
      rewrite bx_rank by (try apply bx_in; auto; lia). cbn [bind]. rewrite (LFr_formula T sa HT HSA i Hi), bw_bx; auto.
    Qed.
    Lemma csa_value_ok t : t < n -> forall fuel l0, (exists l, l0 <= l /\ l <= l0 + fuel /\ kept (lfi T sa l t) = true) ->
      compute_sa_value fuel (cx_sample_at x) (cx_basic_lf x) n true l0 (lfi T sa l0 t) = Some (SA sa t).
    Proof.
      intros Ht. pose proof (n_pos T HT) as Hn. fold n in Hn.
      assert (V : forall l0, umod (tp (lfi T sa l0 t) + 1 + n + l0) n = Some (SA sa t)).
      { intros l0. rewrite umod_ok by auto. f_equal. rewrite <- (lfi_sample T sa HT HSA l0 t) by auto. fold n.
        replace (tp (lfi T sa l0 t) + 1 + n + l0) with (tp (lfi T sa l0 t) + 1 + l0 + 1 * n) by lia. apply Nat.mod_add. lia. }
      induction fuel as [|fuel IH]; intros l0 (l & H1 & H2 & Hk);
        pose proof (lfi_lt T sa HT HSA l0 t Ht) as Hlt; fold n in Hlt;
        cbn [compute_sa_value]; rewrite csample_ok by auto; cbn [bind].
      - assert (l = l0) by lia. subst l. rewrite Hk. apply V.
      - destruct (kept (lfi T sa l0 t)) eqn:Ek; [apply V|].
        rewrite cbasic_lf_ok by auto. cbn [bind]. apply (IH (S l0)). exists l. split; [|split; auto; lia].
        destruct (Nat.eq_dec l l0); [|lia]. subst. congruence.
    Qed.
    Lemma ctoehold_run t c en : toe t c en ->
      (rnk <- old_rank bwt (en + 1) c ;; _ <- guard (0 <? rnk) ;; j <- old_select bwt (rnk - 1) c ;;
       _ <- guard (j <=? en) ;; closed_get_sa_value x j) = Some (SA sa t).
    Proof.
      intros Ht. destruct (toe_select _ _ _ Ht) as [H0 Es]. destruct Ht as (H1 & H2 & Hc & Hb & Hr & Htl).
      rewrite Nat.add_1_r, bx_rank by (auto; apply Hgin; auto). cbn [bind].
      rewrite (proj2 (Nat.ltb_lt _ _)) by auto. cbn [guard bind]. rewrite Es. cbn [bind].
      rewrite (proj2 (Nat.leb_le _ _)) by auto. cbn [guard bind]. unfold closed_get_sa_value. rewrite Hrate, cx_size_ok.
      apply (csa_value_ok t ltac:(lia) s 0). destruct (kept_reach T sa HT HSA s ks HF t ltac:(fold n; lia) Htl) as (l & H3 & H4).
      exists l. split; [lia|]. auto.
    Qed.

    (** The data of the toehold after a step with [k] symbols to go; [M] bounds its step. *)
    Variable M : nat.
    Definition CI (k st e : nat) (d : option (step_data (nat * nat))) : Prop :=
      exists d0, d = Some d0 /\ k <= sd_step d0 <= M /\ exists t, toe t (fst (sd_run d0)) (snd (sd_run d0)) /\
        tp t = (SA sa (e - 1) + (sd_step d0 - k)) mod n.
    Lemma CI_create k c st e : k <= M -> good c -> st < e -> e <= n -> rk T sa (dec c) st < rk T sa (dec c) e ->
      (bx (e - 1) = c -> tailr T sa (e - 1) = true) ->
      CI k (Cc T sa (dec c) + rk T sa (dec c) st) (Cc T sa (dec c) + rk T sa (dec c) e) (Some (mk_step_data k (c, e - 1))).
    Proof.
      intros HkM Hc Hse He Hlt Htl. eexists. split; [reflexivity|]. cbn [sd_step sd_run fst snd]. split; [lia|].
      destruct (toe_ex c st e Hc Hse He Hlt Htl) as (t & _ & Ht). exists t. split; auto.
      rewrite (toe_LFr _ _ _ Ht). replace (S (e - 1)) with e by lia. rewrite Nat.sub_diag, Nat.add_0_r.
      symmetry. apply Nat.mod_small. apply (SA_lt T sa HSA). pose proof (Cc_rk_le T sa HSA (dec c) e He). lia.
    Qed.
    Notation cupd := (closed_step_data (old_access bwt)).
    Lemma CI_step k c q st e d : k <= M -> Forall good q -> q <> [] -> is_range T sa (map dec q) st e -> 1 <= st -> st < e ->
      good c -> Cc T sa (dec c) + rk T sa (dec c) st < Cc T sa (dec c) + rk T sa (dec c) e ->
      CI (S k) st e d ->
      CI k (Cc T sa (dec c) + rk T sa (dec c) st) (Cc T sa (dec c) + rk T sa (dec c) e)
        (cupd (st, e - 1) (Cc T sa (dec c) + rk T sa (dec c) st, Cc T sa (dec c) + rk T sa (dec c) e - 1) c k d).
    Proof.
      intros HkM _ _ HI' H1 Hse Hg Hlt (d0 & -> & Hk & t & Ht & Et). pose proof (proj1 HI') as He. fold n in He.
      unfold closed_step_data. cbn [bind]. destruct (Nat.eqb_spec (sd_step d0) 0); [lia|].
      unfold closed_lf_trivial. pose proof (Cc_pos (dec c) (proj2 (proj2 (Hgin c Hg)))).
      rewrite closed_empty_ok, (proj2 (Nat.ltb_lt _ _)) by (auto; lia). cbn [negb fst snd].
      rewrite bx_access by lia. cbn [bind]. unfold compute_step_data.
      destruct (Nat.eqb_spec (sd_step d0) 0); [lia|]. cbn [orb].
      destruct (Nat.eqb_spec (bx (e - 1)) c) as [E|E]; cbn [negb].
      - exists d0. split; auto. split; [lia|]. exists t. split; auto. rewrite Et.
        destruct (SA_step c e Hg ltac:(lia) ltac:(lia) E) as [G1 G2]. rewrite G2. f_equal. lia.
      - unfold closed_create_data. cbn [snd]. apply CI_create; auto; try lia.
    Qed.
    Lemma CI_first c : good c -> Cc T sa (dec c) + rk T sa (dec c) 0 < Cc T sa (dec c) + rk T sa (dec c) n ->
      CI M (Cc T sa (dec c) + rk T sa (dec c) 0) (Cc T sa (dec c) + rk T sa (dec c) n)
        (cupd (0, n - 1) (Cc T sa (dec c) + rk T sa (dec c) 0, Cc T sa (dec c) + rk T sa (dec c) n - 1) c M
           (Some (closed_initial (bx (n - 1)) (n - 1) M))).
    Proof.
      intros Hg Hlt. pose proof (n_pos T HT) as Hn. fold n in Hn.
      assert (Hm : CI M (Cc T sa (dec c) + rk T sa (dec c) 0) (Cc T sa (dec c) + rk T sa (dec c) n) (Some (mk_step_data M (c, n - 1)))).
      { apply CI_create; auto; try lia. intros _. apply (tailr_last T sa HSA). }
      unfold closed_step_data, closed_initial. cbn [bind sd_step]. destruct (Nat.eqb_spec M 0); [exact Hm|].
      unfold closed_lf_trivial. pose proof (Cc_pos (dec c) (proj2 (proj2 (Hgin c Hg)))).
      rewrite closed_empty_ok, (proj2 (Nat.ltb_lt _ _)) by (auto; lia). cbn [negb fst snd].
      rewrite bx_access by lia. cbn [bind]. unfold compute_step_data. cbn [sd_step].
      destruct (Nat.eqb_spec M 0); [lia|]. cbn [orb].
      destruct (Nat.eqb_spec (bx (n - 1)) c) as [E|E]; cbn [negb]; [rewrite E|]; exact Hm.
    Qed.
    Lemma ctoehold_ok st e d : 0 < e -> e <= n -> M < n -> CI 0 st e d -> exists d0, d = Some d0 /\
      closed_toehold (cx_bwt x) (closed_get_sa_value x) d0 = Some (SA sa (e - 1)).
    Proof.
      intros H0 He HM (d0 & -> & Hk & t & Ht & Et). exists d0. split; auto.
      unfold closed_toehold, compute_toehold. rewrite Hbwt. destruct d0 as [k [c en]]. cbn [sd_run sd_step fst snd] in *.
      rewrite (ctoehold_run _ _ _ Ht). cbn [bind]. rewrite bx_size. rewrite Nat.sub_0_r in Et.
      assert (Htn : t < n) by (destruct Ht as (? & ? & _); lia).
      pose proof (csucc_tpos T sa HT HSA t Htn) as G. unfold csucc in G. fold n in G.
      rewrite (sub64_ok (SA sa t + n)) by lia. rewrite sub64_ok by lia. rewrite umod_ok by lia. f_equal.
      pose proof (SA_lt T sa HSA (e - 1) ltac:(fold n; lia)) as G4. fold n in G4.
      rewrite <- G, Et, Nat.add_mod_idemp_l by lia.
      replace (SA sa (e - 1) + k + 1) with (SA sa (e - 1) + (S k - 0)) by lia.
      set (y := (SA sa (e - 1) + (S k - 0)) mod n). replace (y + n - k - 1) with (y + 1 + n - S k - 1) by lia.
      apply circular_back; lia.
    Qed.
    Theorem closed_locate_ok phi_range p : p <> [] -> Forall (fun c => c < 256) p -> M = length p - 1 ->
      (forall st e, Forall good p -> is_range T sa (map dec p) st e -> st < e -> length p <= n) ->
      (forall a b, 1 <= a -> a <= b -> b < n -> phi_range (a, b - 1) (SA sa b) = Some (down sa a (b - a))) ->
      exists rng, closed_count x p = Some rng /\
        ((Forall good p /\ exists st e, rng = (st, e - 1) /\ 1 <= st /\ st < e /\ is_range T sa (map dec p) st e /\
            closed_locate x phi_range p = Some (down sa st (e - st))) \/
         (missing p rng /\ closed_locate x phi_range p = Some [])).
    Proof.
      intros Hp HB EM Hl Hphi. pose proof (n_pos T HT) as Hn. fold n in Hn.
      assert (Lp : length p = S M) by (destruct p; [congruence|cbn in *; lia]).
      destruct (closed_search (closed_step_data (old_access bwt)) CI) with (init := Some (closed_initial (bx (n - 1)) (n - 1) M))
        (plen := M) (p := p) as (rng & d & E & H); auto.
      { intros k c q st e d H1 H2 H3 H4 H5 H6 H7 H8. apply CI_step with (q := q); auto.
        destruct H8 as (d0 & _ & H8 & _). lia. }
      { apply CI_first. }
      exists rng. split.
      { unfold closed_count, engine_count. rewrite cx_lf_ok, cx_size_ok.
        rewrite (locate_count_loop _ _ (closed_step_data (old_access bwt)) _ _ _ _
                   (length p - 1) (Some (closed_initial (bx (n - 1)) (n - 1) M))).
        rewrite E. reflexivity. }
      unfold closed_locate, engine_locate. rewrite cx_lf_ok, cx_size_ok, Hbwt, bx_access by lia. cbn [bind].
      rewrite (sub64_ok (length p)) by lia. rewrite EM in E. rewrite E. cbn [bind].
      destruct H as [(H1 & st & e & -> & H2 & H3 & H4 & H5)|H].
      - left. split; auto. exists st, e. do 4 (split; [auto; fail|]).
        rewrite closed_empty_ok, (proj2 (Nat.ltb_lt _ _)) by auto. cbn [negb].
        assert (He : e <= n) by (destruct H4; lia).
        specialize (Hl st e H1 H4 H3).
        destruct (ctoehold_ok st e d ltac:(lia) He ltac:(lia) H5) as (d0 & -> & Et).
        unfold closed_compute_all, compute_all_values. cbn [bind]. rewrite Et. cbn [bind].
        unfold closed_update_range. cbn [fst snd]. rewrite sub64_ok by lia.
        rewrite Hphi by lia. cbn [bind]. f_equal. unfold down. replace (e - st) with (S (e - 1 - st)) by lia.
        rewrite seq_S, rev_app_distr. cbn [rev app map].
        replace (st + (e - 1 - st)) with (e - 1) by lia. auto.
      - right. split; auto. destruct H as [-> _]. reflexivity.
    Qed.
  End Samples.

  (** ** All samples *)
  Section Classic.
    Variable x : cri.
    Hypothesis Hbwt : cr_bwt x = bwt.
    Hypothesis Hf : cr_f x = f.
    Hypothesis Hsamples : cr_samples x = tmarks T sa.

    Lemma all_sample_ok i : i < n -> all_sample_at bwt (cr_samples x) i = Some (if tailr T sa i then Some (tp i) else None).
    Proof.
      intros Hi. destruct (bx_run i Hi) as (j & c & k & E & Hj & _). apply nth_error_Some_lt in E as L.
      unfold all_sample_at, sample_for_sa_position. rewrite (old_run_of_ok bsz 255 R bwt HS i j) by auto. cbn [bind].
      rewrite (bx_tail_run j c k i E Hj). destruct bx_rows as [Lr Hrow].
      destruct (Nat.eqb_spec i (rstart R (S j) - 1)) as [Ei|Ei]; cbn [negb]; auto. cbn [bind].
      rewrite Hsamples, (nth_error_tmarks T sa HT HSA) by (fold r; lia). rewrite Hrow by auto. cbn [bind]. rewrite <- Ei. auto.
    Qed.
    (** GetLastValue on a step of the search. *)
    Lemma last_value_ok c st e v : good c -> st < e -> e <= n ->
      Cc T sa (dec c) + rk T sa (dec c) st < Cc T sa (dec c) + rk T sa (dec c) e -> 0 < v \/ v = SA sa (e - 1) ->
      cr_last_value x (st, e - 1) (Cc T sa (dec c) + rk T sa (dec c) st, Cc T sa (dec c) + rk T sa (dec c) e - 1) c (Some v)
      = Some (Some (if bx (e - 1) =? c then v - 1 else SA sa (Cc T sa (dec c) + rk T sa (dec c) e - 1))) /\
      (bx (e - 1) = c -> SA sa (Cc T sa (dec c) + rk T sa (dec c) e - 1) = SA sa (e - 1) - 1).
    Proof.
      intros Hg Hse He Hlt Hv. unfold cr_last_value, get_last_value. rewrite Hbwt.
      pose proof (Cc_pos (dec c) (proj2 (proj2 (Hgin c Hg)))) as H0.
      rewrite closed_empty_ok, (proj2 (Nat.ltb_lt _ _)) by (auto; lia). cbn [negb fst snd].
      rewrite bx_access by lia. cbn [bind]. destruct (Nat.eqb_spec (bx (e - 1)) c) as [E|E].
      - destruct (SA_step c e Hg ltac:(lia) He E) as [G1 G2]. split; [|auto].
        unfold guard. rewrite (proj2 (Nat.ltb_lt 0 v)) by lia. auto.
      - split; [|congruence]. destruct (toe_ex c st e Hg Hse He ltac:(lia) ltac:(congruence)) as (t & Ht & Htoe).
        destruct (toe_select _ _ _ Htoe) as [G1 G2]. pose proof (toe_LFr _ _ _ Htoe) as G3.
        destruct Htoe as (K1 & K2 & _ & K4 & _ & K6). destruct (Hgin c Hg) as (Hin & _).
        rewrite bx_rank by (auto; lia). cbn [bind].
        assert (Er : rk T sa (dec c) (S (e - 1)) = rk T sa (dec c) (e - 1)) by (apply rk_step_ne; auto; lia).
        replace (S (e - 1)) with e in * by lia. rewrite <- Er. unfold guard at 1. rewrite (proj2 (Nat.ltb_lt _ _)) by lia. cbn [bind].
        rewrite G2. cbn [bind]. assert (t <> e - 1) by congruence.
        unfold guard. rewrite (proj2 (Nat.leb_le _ _)), (proj2 (Nat.ltb_lt _ _)) by lia. cbn [andb bind].
        rewrite all_sample_ok, K6 by lia. rewrite G3. auto.
    Qed.

    Lemma cr_size_ok : old_size (cr_bwt x) = n.
    Proof. rewrite Hbwt. apply bx_size. Qed.
    Lemma cr_lf_ok : cr_lf x = clf.
    Proof. unfold cr_lf, clf. rewrite cr_size_ok, Hbwt, Hf. auto. Qed.
    Lemma cr_initial_ok : cr_initial x = Some (tp (n - 1) + 1).
    Proof.
      pose proof (n_pos T HT) as Hn. fold n in Hn. unfold cr_initial. rewrite Hsamples, (tmarks_length T sa HT HSA).
      destruct bx_rows as [Lr Hrow]. destruct (bx_run (n - 1) ltac:(lia)) as (j & c & k & E & Hj & _).
      apply nth_error_Some_lt in E as L. fold r. rewrite (nth_error_tmarks T sa HT HSA) by (fold r; lia).
      rewrite Hrow by lia. replace (S (r - 1)) with (length R) by lia. rewrite rstart_all, bx_len. auto.
    Qed.
    Hypothesis Hphi : forall y, S y < n -> exists b, cr_phi x (SA sa (S y)) = Some (SA sa y, b).
    Hypothesis Hphi0 : 2 <= n -> exists b, cr_phi x (tp (n - 1) + 1) = Some (SA sa (n - 2), b).

    Lemma report_ok : forall m j, m <= j -> j < n -> report_with_phi (cr_phi x) m (SA sa j) = Some (down sa (j + 1 - m) m).
    Proof.
      induction m as [|m IH]; intros j Hm Hj; auto. cbn [report_with_phi]. destruct j as [|j]; [lia|].
      destruct (Hphi j Hj) as (b & ->). cbn [bind]. rewrite IH by lia. cbn [bind]. f_equal.
      unfold down. rewrite (seq_S m). rewrite rev_app_distr. cbn [rev app map].
      replace (S j + 1 - S m + m) with (S j) by lia. replace (S j + 1 - S m) with (j + 1 - m) by lia. auto.
    Qed.
    Lemma report_first m : 0 < m -> m < n ->
      report_with_phi (cr_phi x) m (tp (n - 1) + 1) = Some ((tp (n - 1) + 1) :: down sa (n - m) (m - 1)).
    Proof.
      intros H0 Hm. destruct m as [|m]; [lia|]. cbn [report_with_phi]. destruct (Hphi0 ltac:(lia)) as (b & ->). cbn [bind].
      rewrite report_ok by lia. cbn [bind]. do 3 f_equal; lia.
    Qed.
    Theorem cr_locate_ok p : p <> [] -> Forall (fun c => c < 256) p ->
      exists rng, cr_count x p = Some rng /\
        ((Forall good p /\ exists st e, rng = (st, e - 1) /\ 1 <= st /\ st < e /\ is_range T sa (map dec p) st e /\
            cr_locate x p = Some ((tp (n - 1) + 1) :: down sa (n - (e - st)) (e - st - 1))) \/
         (missing p rng /\ cr_locate x p = Some [])).
    Proof.
      intros Hp HB. pose proof (n_pos T HT) as Hn. fold n in Hn.
      assert (Lp : length p = S (length p - 1)) by (destruct p; [congruence|cbn in *; lia]).
      set (upd := fun (range next : nat * nat) (c : nat) (_ : nat) '(k, fine) =>
        (k, fine && match cr_last_value x range next c k with Some _ => true | None => false end)).
      destruct (closed_search upd (fun _ _ _ d => d = (Some (tp (n - 1) + 1), true))) with
        (init := (Some (tp (n - 1) + 1), true)) (plen := length p - 1) (p := p) as (rng & d & E & H); auto.
      { intros k c q st e d H1 H2 H3 H4 H5 H6 H7 ->. unfold upd.
        assert (He : e <= n) by (destruct H3; lia).
        rewrite (proj1 (last_value_ok c st e (tp (n - 1) + 1) H6 H5 He H7 ltac:(lia))). auto. }
      { intros c Hc Hlt. unfold upd. rewrite (proj1 (last_value_ok c 0 n (tp (n - 1) + 1) Hc Hn (le_n _) Hlt ltac:(lia))). auto. }
      exists rng. split.
      { unfold cr_count, engine_count. rewrite cr_lf_ok, cr_size_ok.
        rewrite (locate_count_loop _ _ upd _ _ _ _ (length p - 1) (Some (tp (n - 1) + 1), true)).
        rewrite E. reflexivity. }
      unfold cr_locate, engine_locate. rewrite cr_lf_ok, cr_size_ok, cr_initial_ok. fold upd. rewrite E. cbn [bind].
      destruct H as [(H1 & st & e & -> & H2 & H3 & H4 & ->)|H].
      - left. split; auto. exists st, e. do 4 (split; [auto; fail|]).
        rewrite closed_empty_ok, (proj2 (Nat.ltb_lt _ _)) by auto. cbn [negb].
        assert (He : e <= n) by (destruct H4; lia).
        unfold guard. cbn [bind]. unfold compute_all_with_phi. cbn [bind fst snd].
        replace (e - 1 + 1 - st) with (e - st) by lia. apply report_first; lia.
      - right. split; auto. destruct H as [-> _]. reflexivity.
    Qed.
  End Classic.
End Closed.
