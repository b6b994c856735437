(** One symbol of PsiCoreRLE: the run operations over the encoded runs of a symbol. *)
From Coq Require Import List Arith Bool Lia ZifyBool ZifyNat.
From Verif Require Import MBase Lists MConstruct MPsi Util EncProof.
Import ListNotations.

Lemma upper_bound_spec l v : let u := upper_bound l v in
  u <= length l /\ (forall i, i < u -> nth i l 0 <= v) /\ (u < length l -> v < nth u l 0).
Proof.
  induction l as [|x t IH]; cbn [upper_bound length]; [cbn; split; [lia|split; intros; lia]|]. cbn zeta in *. destruct IH as (H1 & H2 & H3).
  destruct (Nat.ltb_spec v x) as [H|H].
  - split; [lia|split; cbn [nth]; intros; lia].
  - split; [lia|]. split.
    + intros [|i] Hi; auto. apply H2. lia.
    + intros Hu. apply H3. lia.
Qed.
Lemma lower_bound_spec l v : let u := lower_bound l v in
  u <= length l /\ (forall i, i < u -> nth i l 0 < v) /\ (u < length l -> v <= nth u l 0).
Proof.
  induction l as [|x t IH]; cbn [lower_bound length]; [cbn; split; [lia|split; intros; lia]|]. cbn zeta in *. destruct IH as (H1 & H2 & H3).
  destruct (Nat.ltb_spec x v) as [H|H].
  - split; [lia|]. split.
    + intros [|i] Hi; auto. apply H2. lia.
    + intros Hu. apply H3. lia.
  - split; [lia|split; cbn [nth]; intros; lia].
Qed.

(** The runs [start, end) of a symbol, their borders in order, and the positions they cover. *)
Definition flat (L : list (nat * nat)) : list nat := flat_map (fun p => [fst p; snd p]) L.
Definition vals (L : list (nat * nat)) : list nat := flat_map (fun p => seq (fst p) (snd p - fst p)) L.
Definition widths (L : list (nat * nat)) : list nat := map (fun p => snd p - fst p) L.
Definition before (L : list (nat * nat)) (j : nat) : nat := list_sum (firstn j (widths L)).

Lemma flat_length L : length (flat L) = 2 * length L.
Proof. induction L as [|p L IH]; auto. cbn [flat flat_map app length]. fold (flat L). lia. Qed.
Lemma vals_length L : length (vals L) = list_sum (widths L).
Proof.
  induction L as [|p L IH]; auto. cbn [vals flat_map widths map]. fold (vals L). rewrite app_length, seq_length, IH. auto.
Qed.
Lemma flat_app L1 L2 : flat (L1 ++ L2) = flat L1 ++ flat L2.
Proof. apply flat_map_app. Qed.
Lemma vals_app L1 L2 : vals (L1 ++ L2) = vals L1 ++ vals L2.
Proof. apply flat_map_app. Qed.

Lemma before_cons p L j : before (p :: L) (S j) = (snd p - fst p) + before L j.
Proof. reflexivity. Qed.

Section Sym.
  Variables (n : nat) (L : list (nat * nat)).
  Let m := length L.
  Notation S_ j := (fst (nth j L (n, n))).
  Notation E_ j := (snd (nth j L (n, n))).
  Hypothesis Hne : 0 < m.
  Hypothesis Hrun : forall j, j < m -> S_ j < E_ j /\ E_ j <= n.
  Hypothesis Hgap : forall j, S j < m -> E_ j < S_ (S j).

  Lemma S_out j : m <= j -> S_ j = n.
  Proof. intros H. rewrite nth_overflow; auto. Qed.
  Lemma E_out j : m <= j -> E_ j = n.
  Proof. intros H. rewrite nth_overflow; auto. Qed.
  Lemma S_lt j : j < m -> S_ j < n.
  Proof. intros H. destruct (Hrun j H). lia. Qed.
  Lemma SE_le j : S_ j <= E_ j.
  Proof. destruct (Nat.lt_ge_cases j m) as [H|H]; [destruct (Hrun j H); lia|]. rewrite S_out, E_out by auto. auto. Qed.
  Lemma E_le j : E_ j <= n.
  Proof. destruct (Nat.lt_ge_cases j m) as [H|H]; [destruct (Hrun j H); lia|]. rewrite E_out by auto. auto. Qed.
  Lemma ES_le j : E_ j <= S_ (S j).
  Proof.
    destruct (Nat.lt_ge_cases (S j) m) as [H|H]; [pose proof (Hgap j H); lia|]. rewrite (S_out (S j)) by auto. apply E_le.
  Qed.
  Lemma S_mono i j : i <= j -> S_ i <= S_ j.
  Proof.
    intros H. induction H as [|j H IH]; auto. pose proof (SE_le j). pose proof (ES_le j). lia.
  Qed.
  Lemma E_mono i j : i <= j -> E_ i <= E_ j.
  Proof.
    intros H. induction H as [|j H IH]; auto. pose proof (SE_le (S j)). pose proof (ES_le j). lia.
  Qed.
  Lemma ES_lt i j : i < j -> j < m -> E_ i < S_ j.
  Proof.
    intros H1 H2. pose proof (Hgap i ltac:(lia)). pose proof (S_mono (S i) j H1). lia.
  Qed.
  Lemma S_strict i j : i < j -> i < m -> S_ i < S_ j.
  Proof.
    intros H1 H2. destruct (Hrun i H2). pose proof (ES_le i). pose proof (S_mono (S i) j H1). lia.
  Qed.

  Lemma nth_flat_S j : j < m -> nth (2 * j) (flat L) 0 = S_ j.
  Proof.
    unfold m. clear. revert j. induction L as [|p L' IH]; intros j Hj; cbn [length] in Hj; [lia|].
    destruct j as [|j]; auto. replace (2 * S j) with (S (S (2 * j))) by lia. cbn [flat flat_map app nth]. apply IH. lia.
  Qed.
  Lemma nth_flat_E j : j < m -> nth (2 * j + 1) (flat L) 0 = E_ j.
  Proof.
    unfold m. clear. revert j. induction L as [|p L' IH]; intros j Hj; cbn [length] in Hj; [lia|].
    destruct j as [|j]; auto. replace (2 * S j + 1) with (S (S (2 * j + 1))) by lia. cbn [flat flat_map app nth]. apply IH. lia.
  Qed.
  Lemma flat_mono i : S i < length (flat L) -> nth i (flat L) 0 <= nth (S i) (flat L) 0.
  Proof.
    rewrite flat_length. fold m. intros H. destruct (Nat.Even_or_Odd i) as [[j E]|[j E]]; subst i.
    - rewrite nth_flat_S by lia. replace (S (2 * j)) with (2 * j + 1) by lia. rewrite nth_flat_E by lia. apply SE_le.
    - rewrite nth_flat_E by lia. replace (S (2 * j + 1)) with (2 * S j) by lia. rewrite nth_flat_S by lia. apply ES_le.
  Qed.
  Lemma flat_le i : i < length (flat L) -> nth i (flat L) 0 <= n.
  Proof.
    rewrite flat_length. fold m. intros H. destruct (Nat.Even_or_Odd i) as [[j E]|[j E]]; subst i.
    - rewrite nth_flat_S by lia. pose proof (S_lt j). lia.
    - rewrite nth_flat_E by lia. apply E_le.
  Qed.

  Lemma before_0 : before L 0 = 0.
  Proof. auto. Qed.
  Lemma before_S j : j < m -> before L (S j) = before L j + (E_ j - S_ j).
  Proof.
    unfold m. clear. revert j. induction L as [|p L' IH]; intros j Hj; cbn [length] in Hj; [lia|].
    rewrite before_cons. destruct j as [|j]; cbn [nth].
    - cbn. lia.
    - rewrite before_cons, IH by lia. lia.
  Qed.
  Lemma before_lt j : j < m -> before L j < before L (S j).
  Proof. intros H. rewrite before_S by auto. destruct (Hrun j H). lia. Qed.
  Lemma before_strict i j : i < j -> j <= m -> before L i < before L j.
  Proof.
    intros H. induction H as [|j H IH]; intros Hj; [apply before_lt; lia|].
    pose proof (IH ltac:(lia)). pose proof (before_lt j ltac:(lia)). lia.
  Qed.
  Lemma before_mono i j : i <= j -> j <= m -> before L i <= before L j.
  Proof. intros H Hj. destruct (Nat.eq_dec i j) as [->|Hne']; auto. pose proof (before_strict i j). lia. Qed.
  Lemma before_all : before L m = length (vals L).
  Proof. rewrite vals_length. unfold before. f_equal. apply firstn_all2. unfold widths. rewrite map_length. auto. Qed.
  Lemma before_find k : k < length (vals L) -> exists j, j < m /\ before L j <= k < before L (S j).
  Proof.
    intros Hk. rewrite <- before_all in Hk.
    assert (G : forall q, q <= m -> k < before L q -> exists j, j < m /\ before L j <= k < before L (S j)).
    { induction q as [|q IH]; intros Hq Hb; [cbn in Hb; lia|].
      destruct (Nat.lt_ge_cases k (before L q)) as [H|H]; [apply IH; auto; lia|]. exists q. split; [lia|auto]. }
    apply (G m); auto.
  Qed.
  Lemma before_unique k j j' : j < m -> j' < m -> before L j <= k < before L (S j) -> before L j' <= k < before L (S j') -> j = j'.
  Proof.
    intros H1 H2 H3 H4. destruct (Nat.lt_trichotomy j j') as [H|[H|H]]; auto; exfalso.
    - pose proof (before_mono (S j) j' H ltac:(lia)). lia.
    - pose proof (before_mono (S j') j H ltac:(lia)). lia.
  Qed.
  Lemma nth_vals j k : j < m -> before L j <= k < before L (S j) -> nth k (vals L) 0 = S_ j + (k - before L j).
  Proof.
    unfold m. clear. revert j k.
    induction L as [|p L' IH]; intros j k Hj Hk; cbn [length] in Hj; [lia|].
    cbn [vals flat_map]. fold (vals L'). rewrite before_cons in Hk. set (w := snd p - fst p) in *.
    destruct j as [|j].
    - change (before L' 0) with 0 in Hk. rewrite app_nth1 by (rewrite seq_length; fold w; lia).
      rewrite seq_nth by (fold w; lia). cbn [nth]. change (before (p :: L') 0) with 0. lia.
    - rewrite before_cons in *. fold w in Hk |- *.
      rewrite app_nth2 by (rewrite seq_length; fold w; lia). rewrite seq_length. fold w.
      rewrite (IH j (k - w)) by lia. cbn [nth]. lia.
  Qed.
  Lemma vals_in x : In x (vals L) <-> exists j, j < m /\ S_ j <= x < E_ j.
  Proof.
    unfold vals. rewrite in_flat_map. split.
    - intros ([s e] & Hin & Hx). apply in_seq in Hx. cbn [fst snd] in Hx.
      destruct (In_nth _ _ (n, n) Hin) as (j & Hj & E). exists j. split; auto. rewrite E. cbn [fst snd]. lia.
    - intros (j & Hj & Hx). exists (nth j L (n, n)). split; [apply nth_In; auto|]. apply in_seq. lia.
  Qed.
  Lemma vals_lt x : In x (vals L) -> x < n.
  Proof. rewrite vals_in. intros (j & Hj & Hx). destruct (Hrun j Hj). lia. Qed.

  (** Occurrences below a position. *)
  Lemma count_vals_firstn v j : j <= m -> (forall i, i < j -> E_ i <= v) ->
    count (fun x => x <? v) (vals (firstn j L)) = before L j.
  Proof.
    intros Hj HE. induction j as [|j IH]; auto.
    assert (E : firstn (S j) L = firstn j L ++ [nth j L (n, n)]).
    { clear -Hj. unfold m in Hj. revert j Hj. induction L as [|p L' IH]; intros j Hj; cbn [length] in Hj; [lia|].
      destruct j as [|j]; auto. rewrite !firstn_cons. cbn [nth app]. f_equal. apply IH. lia. }
    rewrite E, vals_app, count_app, IH by (auto; lia). rewrite before_S by lia. f_equal.
    cbn [vals flat_map]. rewrite app_nil_r. rewrite count_true, seq_length; auto.
    intros x Hx. apply in_seq in Hx. pose proof (HE j ltac:(lia)). lia.
  Qed.
  Lemma count_vals_skipn v j : (forall i, j <= i -> i < m -> v <= S_ i) ->
    count (fun x => x <? v) (vals (skipn j L)) = 0.
  Proof.
    intros HS. apply count_false. intros x Hx. unfold vals in Hx. apply in_flat_map in Hx. destruct Hx as ([s e] & Hin & Hx).
    apply in_seq in Hx. cbn [fst snd] in Hx. destruct (In_nth _ _ (n, n) Hin) as (i & Hi & E).
    rewrite skipn_length in Hi. fold m in Hi.
    assert (E2 : nth i (skipn j L) (n, n) = nth (j + i) L (n, n)).
    { rewrite <- (firstn_skipn j L) at 2. rewrite app_nth2; rewrite firstn_length; [f_equal; fold m; lia|fold m; lia]. }
    rewrite E2 in E. pose proof (HS (j + i) ltac:(lia) ltac:(lia)) as G. rewrite E in G. cbn [fst] in G. lia.
  Qed.
  Lemma cnt_before v j : j <= m -> (forall i, i < j -> E_ i <= v) -> v <= S_ j ->
    count (fun x => x <? v) (vals L) = before L j.
  Proof.
    intros Hj HE HS. rewrite <- (firstn_skipn j L), vals_app, count_app.
    rewrite count_vals_firstn by auto. rewrite count_vals_skipn; [rewrite firstn_skipn; lia|].
    intros i Hi Hm. pose proof (S_mono j i Hi). lia.
  Qed.
  Lemma cnt_in v j : j < m -> S_ j <= v <= E_ j -> count (fun x => x <? v) (vals L) = before L j + (v - S_ j).
  Proof.
    intros Hj Hv. assert (E : L = firstn j L ++ nth j L (n, n) :: skipn (S j) L).
    { rewrite <- (firstn_skipn j L) at 1. f_equal. apply skipn_cons_nth. apply nth_error_nth_lt. auto. }
    rewrite E at 1. rewrite vals_app, count_app. rewrite count_vals_firstn.
    2: lia. 2:{ intros i Hi. pose proof (ES_le i). pose proof (S_mono (S i) j Hi). lia. }
    f_equal. cbn [vals flat_map]. fold (vals (skipn (S j) L)). rewrite count_app.
    rewrite count_vals_skipn.
    2:{ intros i Hi Hm. pose proof (ES_le j). pose proof (S_mono (S j) i Hi). lia. }
    rewrite Nat.add_0_r. set (s := S_ j) in *. set (e := E_ j) in *.
    replace (e - s) with ((v - s) + (e - v)) by lia. rewrite seq_app, count_app.
    rewrite count_true, count_false, seq_length; auto.
    - intros x Hx. apply in_seq in Hx. lia.
    - intros x Hx. apply in_seq in Hx. lia.
  Qed.

  (** * The encoded runs *)
  Variable h : nat.
  Hypothesis Hh : 0 < h.
  Hypothesis Hn : n < 2 ^ 64.
  Let dens := 2 * h.
  Let ev := ev_construct dens (flat L).
  Let z := ev_z ev.
  Definition dp (j : nat) : nat := dpos dens (flat L) (hd 0 (flat L)) (2 * j).
  Definition dm (j : nat) : nat := dpos dens (flat L) (hd 0 (flat L)) (2 * j + 1).

  Lemma ev_eq : ev = mk_encv (deltas dens 0 (hd 0 (flat L)) (flat L)) (sps dens (fun z => [0; S z]) 0 (hd 0 (flat L)) 0 (flat L)) (length (flat L)).
  Proof.
    apply ev_construct_eq; [unfold dens; lia|]. intros E. pose proof (flat_length L) as F. rewrite E in F. cbn in F. fold m in F. lia.
  Qed.
  Lemma ev_sz : ev_size ev = 2 * m.
  Proof. rewrite ev_eq. cbn [ev_size]. rewrite flat_length. auto. Qed.
  Lemma log_bound i : i < length (flat L) -> Nat.log2 (nth i (flat L) 0 - nth (i - 1) (flat L) 0) < 64.
  Proof. intros H. apply log2_delta. apply Nat.le_lt_trans with n; auto. apply flat_le. auto. Qed.
  Lemma even_mod j : (2 * j) mod dens = 2 * (j mod h).
  Proof. unfold dens. rewrite Nat.mul_mod_distr_l by lia. auto. Qed.
  Lemma odd_mod j : (2 * j + 1) mod dens <> 0.
  Proof.
    unfold dens. intros E. apply Nat.mod_divides in E; [|lia]. destruct E as [q E].
    replace (2 * h * q) with (2 * (h * q)) in E by lia. lia.
  Qed.
  Lemma dec_end j : j < m -> ed_decode z (dm j) = Some (E_ j - S_ j, dp (S j)).
  Proof.
    intros H. unfold z, dm, dp. rewrite ev_eq. cbn [ev_z].
    pose proof (flat_length L) as F. fold m in F.
    rewrite (deltas_decode dens ltac:(unfold dens; lia) (flat L) (hd 0 (flat L)) (2 * j + 1)).
    - rewrite nth_flat_E by auto. replace (2 * j + 1 - 1) with (2 * j) by lia. rewrite nth_flat_S by auto.
      f_equal. f_equal. f_equal. lia.
    - lia.
    - apply odd_mod.
    - apply log_bound. lia.
  Qed.
  Lemma dec_start j : j < m -> j mod h <> 0 -> ed_decode z (dp j) = Some (S_ j - E_ (j - 1), dm j).
  Proof.
    intros H Hm. assert (0 < j) by (destruct j; [rewrite Nat.mod_0_l in Hm; lia|lia]).
    unfold z, dm, dp. rewrite ev_eq. cbn [ev_z].
    pose proof (flat_length L) as F. fold m in F.
    rewrite (deltas_decode dens ltac:(unfold dens; lia) (flat L) (hd 0 (flat L)) (2 * j)).
    - rewrite nth_flat_S by auto. replace (2 * j - 1) with (2 * (j - 1) + 1) by lia. rewrite nth_flat_E by lia.
      f_equal. f_equal. f_equal. lia.
    - lia.
    - rewrite even_mod. lia.
    - apply log_bound. lia.
  Qed.
  Lemma dm_sample k : k * h < m -> dm (k * h) = dp (k * h).
  Proof.
    intros H. unfold dm, dp. pose proof (flat_length L) as F. fold m in F.
    pose proof (dpos_sample dens ltac:(unfold dens; lia) (flat L) (hd 0 (flat L)) k) as G.
    assert (E : dens * k = 2 * (k * h)) by (unfold dens; lia). rewrite E in G.
    replace (2 * (k * h) + 1) with (S (2 * (k * h))) by lia. apply G. lia.
  Qed.
  Lemma sp_ok k : k * h < m -> nth_error (ev_sp ev) (2 * k) = Some (S_ (k * h)) /\
    nth_error (ev_sp ev) (2 * k + 1) = Some (dp (k * h)).
  Proof.
    intros H. pose proof (flat_length L) as F. fold m in F. rewrite ev_eq. cbn [ev_sp].
    assert (E : dens * k = 2 * (k * h)) by (unfold dens; lia).
    destruct (sps_nth dens ltac:(unfold dens; lia) (flat L) (hd 0 (flat L)) (fun z => [0; S z]) k ltac:(lia)) as [-> ->].
    rewrite E, nth_flat_S by lia. auto.
  Qed.
  Lemma ns_lt k : k < pc_n_samples dens ev <-> k * h < m.
  Proof.
    unfold pc_n_samples. rewrite ev_sz. unfold dens. split; intros H.
    - assert (k <= (2 * m - 1) / (2 * h)) by lia.
      assert (2 * h * k <= 2 * m - 1) by (etransitivity; [apply Nat.mul_le_mono_l; eassumption|apply Nat.mul_div_le; lia]). lia.
    - assert (k <= (2 * m - 1) / (2 * h)) by (apply Nat.div_le_lower_bound; lia). lia.
  Qed.

  (** Before reading run [j] / after reading the start of run [j]. *)
  Definition ro_at (ro : run_ops) (j : nat) : Prop :=
    j <= m /\ ro_ptr ro = dp j /\ j <= ro_idx ro * h /\ ro_left ro = Nat.min (ro_idx ro * h) m - j /\
    (0 < ro_left ro -> S (ro_rank ro) = j /\ (ro_idx ro - 1) * h < j).
  Definition ro_mid (ro : run_ops) (j : nat) : Prop :=
    j <= m /\ ro_rank ro = j /\
    (j < m -> ro_ptr ro = dm j /\ j < ro_idx ro * h /\ ro_left ro = Nat.min (ro_idx ro * h) m - S j /\ (ro_idx ro - 1) * h <= j) /\
    (j = m -> ro_at ro m).

  Lemma start_ok k : k * h < m -> exists ro, ro_start ev k = Some ro /\ ro_at ro (k * h) /\ ro_left ro = 0.
  Proof.
    intros H. unfold ro_start. destruct (sp_ok k H) as [_ ->]. cbn [bind]. eexists. split; [eauto|].
    split; [|auto]. split; [lia|]. cbn [ro_ptr ro_idx ro_left ro_rank]. split; [auto|]. split; [auto|]. split; [lia|lia].
  Qed.
  Lemma not_sample k j : (k - 1) * h < j -> j < k * h -> j mod h <> 0.
  Proof.
    intros H1 H2 E. apply Nat.mod_divides in E; [|lia]. destruct E as [q ->].
    destruct k as [|k]; [lia|]. rewrite Nat.sub_succ, Nat.sub_0_r in H1.
    assert (k < q) by (apply (Nat.mul_lt_mono_pos_l h); lia). assert (q < S k) by (apply (Nat.mul_lt_mono_pos_l h); lia). lia.
  Qed.
  Lemma next_start_ok ro j re : ro_at ro j -> (ro_left ro = 0 \/ re = E_ (j - 1)) ->
    exists ro', ro_next_start n dens ev ro re = Some (S_ j, ro') /\ ro_mid ro' j.
  Proof.
    intros (Hj & Hp & Hi & Hl & Hr) Hre. unfold ro_next_start.
    destruct (Nat.ltb_spec 0 (ro_left ro)) as [H|H].
    - destruct (Hr H) as [Hr1 Hr2]. rewrite Hp. fold z. rewrite dec_start; [|lia|apply (not_sample (ro_idx ro)); lia].
      cbn [bind]. eexists. split.
      + f_equal. f_equal. destruct Hre as [Hre| ->]; [lia|]. pose proof (Hgap (j - 1) ltac:(lia)) as G.
        replace (S (j - 1)) with j in G by lia. lia.
      + split; [auto|]. cbn [ro_ptr ro_idx ro_left ro_rank]. split; [auto|]. split; [|lia]. intros Hjm.
        split; [auto|]. split; [lia|]. split; lia.
    - destruct (Nat.ltb_spec (ro_idx ro) (pc_n_samples dens ev)) as [H2|H2].
      + apply ns_lt in H2. assert (Ej : j = ro_idx ro * h) by lia.
        destruct (sp_ok (ro_idx ro) H2) as [-> _]. cbn [bind]. eexists. split; [rewrite <- Ej; eauto|].
        split; [auto|]. cbn [ro_ptr ro_idx ro_left ro_rank].
        assert (E1 : ro_idx ro * dens / 2 = j).
        { unfold dens. replace (ro_idx ro * (2 * h)) with (ro_idx ro * h * 2) by lia. rewrite Nat.div_mul by lia. auto. }
        split; [auto|]. split; [|intros; lia]. intros Hjm.
        split; [rewrite Hp, Ej; symmetry; apply dm_sample; lia|].
        rewrite ev_sz. split; [lia|]. split.
        * unfold dens. replace (2 * m - ro_idx ro * (2 * h)) with (2 * (m - j)) by lia.
          replace (Nat.min (2 * h) (2 * (m - j))) with (Nat.min h (m - j) * 2) by lia. rewrite Nat.div_mul by lia. lia.
        * rewrite Nat.sub_succ, Nat.sub_0_r. lia.
      + assert (H3 : m <= ro_idx ro * h).
        { destruct (Nat.lt_ge_cases (ro_idx ro * h) m) as [G|G]; auto. apply ns_lt in G. lia. }
        assert (Ej : j = m) by lia. eexists. split; [rewrite S_out by lia; eauto|].
        split; [auto|]. cbn [ro_ptr ro_idx ro_left ro_rank]. rewrite ev_sz. rewrite Nat.mul_comm, Nat.div_mul by lia.
        split; [auto|]. split; [lia|]. intros _. split; [auto|]. cbn [ro_ptr ro_idx ro_left ro_rank].
        split; [rewrite Hp, Ej; auto|]. split; [auto|]. split; [lia|lia].
  Qed.
  Lemma next_end_ok ro j : ro_mid ro j ->
    exists ro', ro_next_end n ev ro (S_ j) = Some (E_ j, ro') /\ ro_at ro' (Nat.min (S j) m) /\ ro_rank ro' = j.
  Proof.
    intros (Hj & Hr & H1 & H2). unfold ro_next_end. destruct (Nat.eq_dec j m) as [E|E].
    - rewrite S_out, E_out by lia. rewrite Nat.eqb_refl. cbn [negb]. exists ro. split; [auto|].
      replace (Nat.min (S j) m) with m by lia. auto.
    - destruct (H1 ltac:(lia)) as (Hp & Hi & Hl & Hc). destruct (Nat.eqb_spec (S_ j) n) as [G|G]; [pose proof (S_lt j); lia|].
      cbn [negb]. rewrite Hp. fold z. rewrite dec_end by lia. cbn [bind]. eexists. split.
      + f_equal. f_equal. destruct (Hrun j ltac:(lia)). lia.
      + replace (Nat.min (S j) m) with (S j) by lia. cbn [ro_rank]. split; auto.
        split; [lia|]. cbn [ro_ptr ro_idx ro_left ro_rank]. split; [auto|]. split; [lia|]. split; [lia|]. intros _. lia.
  Qed.
End Sym.
