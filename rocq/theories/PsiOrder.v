(** Runs in Psi order: by symbol, then by position.  The LF images of the runs tile the rows in this order. *)
From Coq Require Import List Arith Bool Lia ZifyBool ZifyNat Permutation Sorted.
From Verif Require Import Spec MBase Lists FM MRle Runs RleProof MConstruct MPhi MRIndex Util Phi ConstructProof Nav PhiProof
  MPsi EncProof PsiSym PsiOps PsiProof PsiCore MCsa CsaPhi.
Import ListNotations.

Lemma ssorted_app2 l1 l2 : ssorted l1 -> ssorted l2 -> (forall x y, In x l1 -> In y l2 -> x < y) -> ssorted (l1 ++ l2).
Proof.
  induction 1 as [|a l Hs IH Hf]; intros H2 H12; cbn; auto. constructor.
  - apply IH; auto. intros; apply H12; auto. right; auto.
  - rewrite Forall_forall in *. intros x Hx. apply in_app_or in Hx. destruct Hx as [Hx|Hx]; [apply Hf; auto|].
    apply H12; auto. left; auto.
Qed.

Section Order.
  Variables (T sa : list nat).
  Hypothesis HT : text_ok T.
  Hypothesis HSA : is_suffix_array T sa.
  Notation n := (len T).
  Notation B := (BW T sa).
  Notation R := (rle (BW T sa)).
  Notation r := (length (rle (BW T sa))).
  Notation rs k := (rstart (rle (BW T sa)) k).
  Notation hs := (map fst (rle (BW T sa))).
  Notation sym k := (nth k (map fst (rle (BW T sa))) 0).
  Notation hrk c k := (rankP (Nat.eqb c) (map fst (rle (BW T sa))) k).
  Lemma o_n : length B = n.
  Proof. apply (BW_length T sa HSA). Qed.
  Lemma o_rs_lt_n k : k < r -> rs k < n.
  Proof. rewrite <- o_n. apply rs_lt_n. Qed.
  Lemma o_tl k : k < r -> rs k <= rs (S k) - 1 /\ rs (S k) - 1 < rs (S k) /\ rs (S k) - 1 < n.
  Proof. intros H. pose proof (rs_lt B k H). pose proof (rs_n B (S k)). rewrite o_n in H1. lia. Qed.
  Lemma o_bw k i : k < r -> rs k <= i < rs (S k) -> bw T sa i = sym k.
  Proof. intros. unfold bw. apply sym_row; auto. Qed.
  Lemma hrows_runs : hrows T sa = map (fun k => rs k) (seq 0 r).
  Proof. unfold hrows. rewrite <- (expand_rle B) at 1. rewrite heads_of_expand by apply rle_wf. auto. Qed.
  Lemma trows_runs : trows T sa = map (fun k => rs (S k) - 1) (seq 0 r).
  Proof. unfold trows. rewrite <- (expand_rle B) at 1. rewrite tails_of_expand by apply rle_wf. auto. Qed.
  Lemma hrows_nth k : k < r -> nth k (hrows T sa) 0 = rs k.
  Proof. intros H. rewrite hrows_runs. rewrite (nth_map_seq (fun k => rs k)) by auto. auto. Qed.
  Lemma trows_nth k : k < r -> nth k (trows T sa) 0 = rs (S k) - 1.
  Proof. intros H. rewrite trows_runs. rewrite (nth_map_seq (fun k => rs (S k) - 1)) by auto. auto. Qed.
  Lemma hrows_r : length (hrows T sa) = r.
  Proof. rewrite hrows_runs, map_length, seq_length. auto. Qed.

  Notation key k := (LFr T sa (rs k)).
  (** LF inside a run. *)
  Lemma LFr_run k : k < r -> forall d, rs k + d < rs (S k) -> LFr T sa (rs k + d) = key k + d.
  Proof.
    intros Hk. pose proof (rs_n B (S k)) as Hr. rewrite o_n in Hr.
    induction d as [|d IH]; intros Hd; [rewrite !Nat.add_0_r; auto|].
    replace (rs k + S d) with (S (rs k + d)) by lia. rewrite (LFr_consecutive T sa HT HSA).
    - rewrite IH by lia. lia.
    - lia.
    - rewrite !(o_bw k) by (auto; lia). auto.
  Qed.
  Lemma LFr_tail k : k < r -> LFr T sa (rs (S k) - 1) = key k + (rs (S k) - 1 - rs k).
  Proof. intros H. destruct (o_tl k H). rewrite <- (LFr_run k H) by lia. f_equal. lia. Qed.

  Lemma head_run i : i < n -> headr T sa i = true -> exists k, k < r /\ i = rs k.
  Proof.
    intros Hi Hh. assert (G : In i (hrows T sa)) by (apply (hrows_in T sa HSA); auto).
    rewrite hrows_runs in G. apply in_map_iff in G. destruct G as (k & <- & G). apply in_seq in G. exists k. split; auto; lia.
  Qed.
  Lemma tail_row k : k < r -> tailr T sa (rs (S k) - 1) = true.
  Proof.
    intros H. apply (trows_in T sa HSA). rewrite trows_runs. apply in_map_iff. exists k. split; auto. apply in_seq. lia.
  Qed.
  Lemma head_row k : k < r -> headr T sa (rs k) = true.
  Proof.
    intros H. apply (hrows_in T sa HSA). rewrite hrows_runs. apply in_map_iff. exists k. split; auto. apply in_seq. lia.
  Qed.
  Lemma r_gt0 : 0 < r.
  Proof. pose proof (rows_pos T sa HT HSA) as H. rewrite hrows_r in H. auto. Qed.

  Variable sigma : nat.
  Hypothesis Hlt : forall x, In x B -> x < sigma.

  (** Run numbers in Psi order. *)
  Definition po : list nat := psis hs sigma.

  Lemma hs_lt c : In c hs -> c < sigma.
  Proof.
    intros H. destruct (In_nth _ _ 0 H) as (k & Hk & <-). rewrite map_length in Hk.
    rewrite <- (o_bw k (rs k)) by (auto; pose proof (rs_lt B k Hk); lia). apply Hlt. unfold bw. apply nth_In.
    rewrite o_n. apply o_rs_lt_n. auto.
  Qed.
  Lemma hs_len : length hs = r.
  Proof. apply map_length. Qed.
  Lemma po_length : length po = r.
  Proof. unfold po. rewrite psis_length by apply hs_lt. apply hs_len. Qed.
  Lemma po_in k : In k po <-> k < r.
  Proof. unfold po. rewrite psis_in by apply hs_lt. rewrite hs_len. tauto. Qed.
  Lemma po_NoDup : NoDup po.
  Proof. apply psis_NoDup. Qed.
  Lemma po_nth_lt q : q < r -> nth q po 0 < r.
  Proof. intros H. apply po_in, nth_In. rewrite po_length. auto. Qed.

  (** Rows of the heads and tails in Psi order. *)
  Definition phrows : list nat := map (fun k => rs k) po.
  Definition ptrows : list nat := map (fun k => rs (S k) - 1) po.
  Lemma phrows_length : length phrows = r.
  Proof. unfold phrows. rewrite map_length. apply po_length. Qed.
  Lemma ptrows_length : length ptrows = r.
  Proof. unfold ptrows. rewrite map_length. apply po_length. Qed.
  Lemma phrows_nth q : q < r -> nth q phrows 0 = rs (nth q po 0).
  Proof. intros H. unfold phrows. rewrite (nth_map_lt _ _ _ 0) by (rewrite po_length; auto). auto. Qed.
  Lemma ptrows_nth q : q < r -> nth q ptrows 0 = rs (S (nth q po 0)) - 1.
  Proof. intros H. unfold ptrows. rewrite (nth_map_lt _ _ _ 0) by (rewrite po_length; auto). auto. Qed.
  Lemma phrows_in i : In i phrows <-> In i (hrows T sa).
  Proof.
    unfold phrows. rewrite hrows_runs, !in_map_iff. setoid_rewrite in_seq. setoid_rewrite po_in.
    split; intros (k & E & H); exists k; split; auto; lia.
  Qed.
  Lemma ptrows_in i : In i ptrows <-> In i (trows T sa).
  Proof.
    unfold ptrows. rewrite trows_runs, !in_map_iff. setoid_rewrite in_seq. setoid_rewrite po_in.
    split; intros (k & E & H); exists k; split; auto; lia.
  Qed.
  Lemma ptrows_NoDup : NoDup ptrows.
  Proof.
    apply NoDup_map_inj; [apply po_NoDup|]. intros x y Hx Hy E. apply po_in in Hx, Hy.
    destruct (o_tl x Hx), (o_tl y Hy). destruct (lt_eq_lt_dec x y) as [[G|G]|G]; auto; exfalso.
    - pose proof (rstart_mono R (S x) y ltac:(lia)). lia.
    - pose proof (rstart_mono R (S y) x ltac:(lia)). lia.
  Qed.
  Lemma phrows_NoDup : NoDup phrows.
  Proof.
    apply NoDup_map_inj; [apply po_NoDup|]. intros x y Hx Hy E. apply po_in in Hx, Hy.
    pose proof (rs_lt B x Hx). pose proof (rs_lt B y Hy). destruct (lt_eq_lt_dec x y) as [[G|G]|G]; auto; exfalso.
    - pose proof (rstart_mono R (S x) y ltac:(lia)). lia.
    - pose proof (rstart_mono R (S y) x ltac:(lia)). lia.
  Qed.

  (** LF of the heads increases along the order. *)
  Lemma po_sorted : ssorted (map (fun k => key k) po).
  Proof.
    unfold po, psis. generalize 0 as s. generalize sigma as m.
    induction m as [|m IH]; intros s; [constructor|]. cbn [seq flat_map]. rewrite map_app. apply ssorted_app2; auto.
    - assert (G : forall l, ssorted l -> (forall x, In x l -> x < r /\ sym x = s) -> ssorted (map (fun k => key k) l)).
      { induction 1 as [|a l Hs IHl Hf]; intros Hl; cbn; constructor.
        - apply IHl. intros; apply Hl; right; auto.
        - rewrite Forall_map, Forall_forall in *. intros x Hx. specialize (Hf x Hx). cbn in Hf.
          destruct (Hl a ltac:(left; auto)) as [A1 A2]. destruct (Hl x ltac:(right; auto)) as [X1 X2].
          pose proof (rs_lt B a A1). pose proof (rs_lt B x X1). pose proof (rstart_mono R (S a) x Hf).
          apply (LFr_mono_same T sa HT HSA); [lia|apply o_rs_lt_n; auto|].
          rewrite (o_bw a), (o_bw x) by (auto; lia). congruence. }
      apply G; [apply occs_sorted|]. intros x Hx. apply occs_in in Hx. rewrite hs_len in Hx. auto.
    - intros x y Hx Hy. apply in_map_iff in Hx, Hy. destruct Hx as (a & <- & Ha), Hy as (b & <- & Hb).
      apply occs_in in Ha. rewrite hs_len in Ha. apply in_flat_map in Hb. destruct Hb as (c & Hc & Hb).
      apply in_seq in Hc. apply occs_in in Hb. rewrite hs_len in Hb.
      pose proof (rs_lt B a ltac:(tauto)). pose proof (rs_lt B b ltac:(tauto)).
      apply (LFr_mono_lt T sa HT HSA); [apply o_rs_lt_n; tauto|apply o_rs_lt_n; tauto|].
      rewrite (o_bw a), (o_bw b) by (try tauto; lia). lia.
  Qed.
  Lemma key_mono q q' : q < q' -> q' < r -> key (nth q po 0) < key (nth q' po 0).
  Proof.
    intros H1 H2. pose proof (ssorted_nth _ po_sorted q q' H1) as G. rewrite map_length, po_length in G.
    specialize (G H2). rewrite !(nth_map_lt _ _ _ 0) in G by (rewrite po_length; lia). auto.
  Qed.

  (** The sample linked to the tail of a run is the head of the next run in Psi order, circularly. *)
  Theorem flink_next q : q < r -> flink T sa (nth q ptrows 0) = nth ((q + 1) mod r) phrows 0.
  Proof.
    intros Hq. pose proof r_gt0 as Hr0. pose proof (po_nth_lt q Hq) as Hk. set (k := nth q po 0) in *.
    rewrite ptrows_nth by auto. fold k. rewrite phrows_nth by (apply Nat.mod_upper_bound; lia).
    destruct (o_tl k Hk) as (T1 & T2 & T3). set (t := rs (S k) - 1) in *.
    assert (Hf : flink T sa t < n) by (apply flink_lt; auto).
    destruct (head_run (flink T sa t) Hf) as (k' & Hk' & Ek'); [apply (flink_head T sa HT HSA); auto; apply tail_row; auto|].
    assert (EL : key k' = csucc T (LFr T sa t)).
    { rewrite <- Ek'. unfold flink. apply (LFr_PSr T sa HT HSA). unfold csucc. apply Nat.mod_upper_bound. pose proof (n_pos T HT). lia. }
    rewrite Ek'. f_equal.
    assert (Hin : In k' po) by (apply po_in; auto). destruct (In_nth _ _ 0 Hin) as (q' & Hq' & Eq'). rewrite po_length in Hq'.
    rewrite <- Eq'. f_equal.
    assert (Hlt_t : LFr T sa t < n) by (apply LFr_lt; auto).
    pose proof (LFr_tail k Hk) as ET. fold t in ET.
    assert (Nokey : forall j, j < r -> key k < key j -> LFr T sa t < key j).
    { intros j Hj Hkj. destruct (Nat.lt_ge_cases (LFr T sa t) (key j)) as [|G]; auto. exfalso.
      assert (E : LFr T sa (rs k + (key j - key k)) = key j) by (rewrite LFr_run by (auto; lia); lia).
      apply (LFr_inj T sa HT HSA) in E; [|lia|apply o_rs_lt_n; auto].
      pose proof (head_row j Hj) as Hd. rewrite <- E in Hd. unfold headr, headb in Hd.
      destruct (Nat.eqb_spec (rs k + (key j - key k)) 0); [lia|]. rewrite orb_false_l in Hd. apply negb_true_iff, Nat.eqb_neq in Hd. apply Hd.
      pose proof (o_bw k (rs k + (key j - key k)) Hk ltac:(lia)) as G1. pose proof (o_bw k (rs k + (key j - key k) - 1) Hk ltac:(lia)) as G2.
      unfold bw in G1, G2. congruence. }
    destruct (Nat.eq_dec (q + 1) r) as [E|E].
    - rewrite E, Nat.mod_same by lia.
      assert (Hlast : LFr T sa t = n - 1).
      { destruct (Nat.eq_dec (LFr T sa t) (n - 1)); auto. exfalso. rewrite csucc_small in EL by (auto; lia).
        assert (key k < key k') by lia.
        destruct (Nat.lt_ge_cases q q'); [lia|]. destruct (Nat.eq_dec q' q) as [G|G].
        - subst q'. fold k in Eq'. rewrite Eq' in H. lia.
        - pose proof (key_mono q' q ltac:(lia) Hq) as M. fold k in M. rewrite Eq' in M. lia. }
      rewrite Hlast, csucc_last in EL by auto.
      destruct (Nat.eq_dec q' 0) as [|G]; auto. pose proof (key_mono 0 q' ltac:(lia) Hq') as M. rewrite Eq' in M. lia.
    - rewrite Nat.mod_small by lia.
      pose proof (key_mono q (q + 1) ltac:(lia) ltac:(lia)) as M. fold k in M.
      pose proof (Nokey (nth (q + 1) po 0) (po_nth_lt (q + 1) ltac:(lia)) M) as M2.
      assert (key (nth (q + 1) po 0) < n) by (apply LFr_lt; auto).
      rewrite csucc_small in EL by (auto; lia).
      destruct (lt_eq_lt_dec q' (q + 1)) as [[G|G]|G]; auto; exfalso.
      + destruct (Nat.eq_dec q' q) as [G1|G1].
        * subst q'. fold k in Eq'. rewrite <- Eq' in EL. lia.
        * pose proof (key_mono q' q ltac:(lia) Hq) as M3. fold k in M3. rewrite Eq' in M3. lia.
      + pose proof (key_mono (q + 1) q' G Hq') as M3. rewrite Eq' in M3. lia.
  Qed.

  (** The index of a run in the order: number of runs of smaller symbols plus the rank among its symbol. *)
  Lemma po_index k : k < r -> count (fun x => x <? sym k) hs + hrk (sym k) k < r /\
    nth (count (fun x => x <? sym k) hs + hrk (sym k) k) po 0 = k.
  Proof.
    intros Hk. pose proof (psis_lfb hs sigma hs_lt k ltac:(rewrite hs_len; auto)) as E. unfold lfb in E.
    pose proof (nth_error_Some_lt _ _ _ E) as L. fold po in L, E. rewrite po_length in L. split; auto.
    apply nth_error_nth. auto.
  Qed.

  (** * construct_psi_runs *)
  Lemma buckets_ok s pos text : (forall i, i < n -> rle_access s i = nth_error B i) -> length pos = r -> length text = r ->
    (forall k, k < r -> rs k <= nth k pos 0 < rs (S k)) ->
    construct_psi_runs sigma s pos text = Some (map (fun k => nth k text 0) po).
  Proof.
    intros HR Hp Htx Hpos. unfold construct_psi_runs. rewrite Hp.
    set (bk := fun m => map (fun c => map (fun k => nth k text 0) (filter (fun k => sym k =? c) (seq 0 m))) (seq 0 sigma)).
    assert (G : forall m, m <= r -> mfold (bucket_step s pos text) (seq 0 m) (repeat [] sigma) = Some (bk m)).
    { induction m as [|m IH]; intros Hm.
      - cbn [seq mfold]. rewrite repeat_map. reflexivity.
      - rewrite seq_S, mfold_app, IH by lia. cbn [bind mfold Nat.add]. unfold bucket_step.
        rewrite (nth_error_nth_lt pos m 0) by lia. cbn [bind].
        specialize (Hpos m ltac:(lia)). pose proof (o_tl m ltac:(lia)) as Ht.
        rewrite HR by lia.
        rewrite (nth_error_nth_lt B _ 0) by (rewrite o_n; lia). cbn [bind].
        rewrite (nth_error_nth_lt text m 0) by lia. cbn [bind].
        fold (bw T sa (nth m pos 0)). rewrite (o_bw m) by lia.
        assert (Hs : sym m < sigma) by (apply hs_lt, nth_In; rewrite hs_len; lia).
        unfold bk at 1. rewrite nth_error_map_seq by auto. cbn [bind].
        unfold bk at 1. rewrite list_set_map by auto. cbn [bind]. f_equal. unfold bk.
        apply map_ext_in. intros c Hc. rewrite seq_S, filter_app. cbn [Nat.add filter].
        destruct (Nat.eqb_spec c (sym m)) as [E|E].
        + subst c. rewrite Nat.eqb_refl, map_app. auto.
        + destruct (Nat.eqb_spec (sym m) c); [congruence|]. rewrite app_nil_r. auto. }
    rewrite G by lia. cbn [bind]. f_equal. unfold bk, po, psis, occs. rewrite hs_len.
    rewrite flat_map_concat_map, concat_map, map_map. auto.
  Qed.
End Order.
