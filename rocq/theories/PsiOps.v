(** The operations of PsiCoreRLE on one symbol, over its runs. *)
From Coq Require Import List Arith Bool Lia ZifyBool ZifyNat.
From Verif Require Import MBase Lists MConstruct MPsi Util EncProof PsiSym.
Import ListNotations.

Definition rank_samples (h : nat) (L : list (nat * nat)) : list nat :=
  map (fun k => before L (k * h)) (seq 1 (pc_n_samples (2 * h) (ev_construct (2 * h) (flat L)) - 1)).

(** The pieces of the runs of a symbol inside rows [first, last). *)
Definition row_piece (n c : nat) (L : list (nat * nat)) (first last j : nat) : run_piece :=
  mk_piece (Nat.max first (fst (nth j L (n, n)))) (Nat.min last (snd (nth j L (n, n)))) c j (first <=? fst (nth j L (n, n))).
Definition row_inside (n : nat) (L : list (nat * nat)) (first last j : nat) : bool :=
  Nat.max first (fst (nth j L (n, n))) <? Nat.min last (snd (nth j L (n, n))).
Definition row_pieces (n c : nat) (L : list (nat * nat)) (first last : nat) : list run_piece :=
  map (row_piece n c L first last) (filter (row_inside n L first last) (seq 0 (length L))).

(** The pieces of the runs of a symbol that hold its occurrences of ranks a..b-1 (from 0). *)
Fixpoint rank_pieces (n c : nat) (L : list (nat * nat)) (ps : list run_piece) (a b : nat) : Prop :=
  match ps with
  | [] => a = b
  | p :: t => exists j e, j < length L /\ a < e /\ e <= b /\ before L j <= a /\ e <= before L (S j) /\
      p = mk_piece (fst (nth j L (n, n)) + (a - before L j)) (fst (nth j L (n, n)) + (e - before L j)) c j (a =? before L j) /\
      (t = [] \/ e = before L (S j)) /\ rank_pieces n c L t e b
  end.

Section Ops.
  Variables (pc : psi_core) (c h : nat) (L : list (nat * nat)).
  Let n := pc_n pc.
  Let m := length L.
  Notation S_ j := (fst (nth j L (n, n))).
  Notation E_ j := (snd (nth j L (n, n))).
  Hypothesis Hne : 0 < m.
  Hypothesis Hrun : forall j, j < m -> S_ j < E_ j /\ E_ j <= n.
  Hypothesis Hgap : forall j, S j < m -> E_ j < S_ (S j).
  Hypothesis Hh : 0 < h.
  Hypothesis Hn : n < 2 ^ 64.
  Let dens := 2 * h.
  Let ev := ev_construct dens (flat L).
  Hypothesis Hdens : pc_dens pc = dens.
  Hypothesis Hpart : nth_error (pc_partial pc) c = Some (ev, rank_samples h L).
  Notation at_ := (ro_at L h).
  Notation mid := (ro_mid L h).
  Notation cnt v := (count (fun x => x <? v) (vals L)).

  Lemma NS ro j re : at_ ro j -> ro_left ro = 0 \/ re = E_ (j - 1) ->
    exists ro', ro_next_start n dens ev ro re = Some (S_ j, ro') /\ mid ro' j.
  Proof. exact (next_start_ok n L Hne Hrun Hgap h Hh Hn ro j re). Qed.
  Lemma NE ro j : mid ro j ->
    exists ro', ro_next_end n ev ro (S_ j) = Some (E_ j, ro') /\ at_ ro' (Nat.min (S j) m) /\ ro_rank ro' = j.
  Proof. exact (next_end_ok n L Hne Hrun Hgap h Hh Hn ro j). Qed.
  Lemma ST k : k * h < m -> exists ro, ro_start ev k = Some ro /\ at_ ro (k * h) /\ ro_left ro = 0.
  Proof. exact (start_ok n L Hne Hrun Hgap h Hh Hn k). Qed.
  Lemma NSL k : k < pc_n_samples dens ev <-> k * h < m.
  Proof. exact (ns_lt n L Hne Hrun Hgap h Hh Hn k). Qed.
  Lemma SPK k : k * h < m -> nth_error (ev_sp ev) (2 * k) = Some (S_ (k * h)) /\
    nth_error (ev_sp ev) (2 * k + 1) = Some (dp L h (k * h)).
  Proof. exact (sp_ok n L Hne Hrun Hgap h Hh Hn k). Qed.
  Lemma DEE j : j < m -> ed_decode (ev_z ev) (dm L h j) = Some (E_ j - S_ j, dp L h (S j)).
  Proof. exact (dec_end n L Hne Hrun Hgap h Hh Hn j). Qed.
  Lemma DES j : j < m -> j mod h <> 0 -> ed_decode (ev_z ev) (dp L h j) = Some (S_ j - E_ (j - 1), dm L h j).
  Proof. exact (dec_start n L Hne Hrun Hgap h Hh Hn j). Qed.

  Lemma o_ranks idx : idx * h < m ->
    (if idx =? 0 then Some 0 else nth_error (rank_samples h L) (idx - 1)) = Some (before L (idx * h)).
  Proof.
    intros H. destruct (Nat.eqb_spec idx 0) as [->|G]; auto. unfold rank_samples.
    rewrite nth_error_map, nth_error_seq.
    - cbn [option_map]. f_equal. f_equal. f_equal. lia.
    - fold dens. fold ev. pose proof (proj2 (NSL idx) H). fold dens in H0. fold ev in H0. lia.
  Qed.
  Lemma o_ns_pos : 0 < pc_n_samples dens ev.
  Proof. apply NSL. fold m. lia. Qed.
  Lemma o_rank_idx k : k < length (vals L) -> let idx := upper_bound (rank_samples h L) k in
    idx * h < m /\ before L (idx * h) <= k.
  Proof.
    intros Hk idx. destruct (upper_bound_spec (rank_samples h L) k) as (H1 & H2 & H3). fold idx in H1, H2, H3.
    assert (HL : length (rank_samples h L) = pc_n_samples dens ev - 1) by (unfold rank_samples; rewrite map_length, seq_length; auto).
    pose proof o_ns_pos as Hp.
    assert (Hi : idx * h < m) by (apply NSL; fold dens; fold ev; lia). split; auto.
    destruct (Nat.eq_dec idx 0) as [->|G]; [cbn; lia|].
    pose proof (H2 (idx - 1) ltac:(lia)) as H4. pose proof (o_ranks idx Hi) as H5.
    destruct (Nat.eqb_spec idx 0); [lia|]. rewrite (nth_error_nth_lt _ _ 0) in H5 by lia. congruence.
  Qed.
  Lemma o_ub v : exists u, pc_upper_bound dens ev v = Some u /\ (forall k, k < u -> k * h < m /\ S_ (k * h) <= v) /\
    (u * h < m -> v < S_ (u * h)).
  Proof.
    unfold pc_upper_bound. set (ns := pc_n_samples dens ev).
    assert (E : mmap (ev_sample ev) (seq 0 ns) = Some (map (fun k => S_ (k * h)) (seq 0 ns))).
    { apply mmap_map. intros k Hk. apply in_seq in Hk. unfold ev_sample.
      apply SPK. apply NSL. fold dens. fold ev. fold ns. lia. }
    rewrite E. cbn [bind]. eexists. split; [eauto|].
    destruct (upper_bound_spec (map (fun k => S_ (k * h)) (seq 0 ns)) v) as (H1 & H2 & H3).
    set (u := upper_bound _ v) in *. rewrite map_length, seq_length in *. split.
    - intros k Hk. split; [apply NSL; fold dens; fold ev; fold ns; lia|].
      specialize (H2 k Hk). rewrite nth_map_seq in H2 by lia. auto.
    - intros H. apply NSL in H. fold dens in H. fold ev in H. fold ns in H. specialize (H3 H).
      rewrite nth_map_seq in H3 by lia. auto.
  Qed.
  Lemma o_size : ev_size ev = 2 * m.
  Proof. apply (ev_sz n L Hne Hrun Hgap h Hh Hn). Qed.

  (** select *)
  Lemma o_select_loop k : k < length (vals L) -> forall fuel ro re j, m - j < fuel -> j < m -> at_ ro j ->
    (ro_left ro = 0 \/ re = E_ (j - 1)) -> before L j <= k ->
    exists q ro', q < m /\ before L q <= k < before L (S q) /\ at_ ro' (S q) /\ ro_rank ro' = q /\
      pc_select_loop pc fuel ev ro re (before L j) k = Some (mk_run_select (S_ q) (E_ q) (before L (S q)), ro').
  Proof.
    intros Hk. induction fuel as [|fuel IH]; intros ro re j Hf Hj Ha Hre Hb; [lia|].
    cbn [pc_select_loop]. rewrite Hdens. fold n. destruct (NS ro j re Ha Hre) as (ro1 & E1 & Hm1).
    rewrite E1. cbn [bind]. destruct (NE ro1 j Hm1) as (ro2 & E2 & Ha2 & Hr2).
    rewrite E2. cbn [bind]. fold m in Ha2. replace (Nat.min (S j) m) with (S j) in Ha2 by lia.
    rewrite <- (before_S n L j Hj). destruct (Nat.leb_spec (before L (S j)) k) as [H|H].
    - assert (S j < m).
      { destruct (Nat.lt_ge_cases (S j) m) as [G|G]; auto. exfalso. replace (S j) with m in H by lia.
        unfold m in H. rewrite before_all in H. lia. }
      apply (IH ro2 (E_ j) (S j)); auto; [lia|]. right. f_equal. f_equal. lia.
    - exists j, ro2. split; [auto|]. split; [lia|]. split; [auto|]. split; [auto|]. auto.
  Qed.
  Lemma o_select_core k : k < length (vals L) ->
    exists q ro', q < m /\ before L q <= k < before L (S q) /\ at_ ro' (S q) /\ ro_rank ro' = q /\
      pc_select_core pc (S k) ev (rank_samples h L) = Some (mk_run_select (S_ q) (E_ q) (before L (S q)), ro').
  Proof.
    intros Hk. destruct (o_rank_idx k Hk) as [H1 H2]. set (idx := upper_bound (rank_samples h L) k) in *.
    unfold pc_select_core. fold idx. rewrite (o_ranks idx H1). cbn [bind].
    destruct (ST idx H1) as (ro & E & Ha & Hl). rewrite E. cbn [bind].
    apply (o_select_loop k Hk); auto. rewrite o_size. lia.
  Qed.
  Lemma o_value q k : q < m -> before L q <= k < before L (S q) ->
    E_ q - 1 - (before L (S q) - S k) = S_ q + (k - before L q) /\ S_ q + (k - before L q) = nth k (vals L) 0.
  Proof.
    intros Hq Hk. split; [|symmetry; apply nth_vals; auto].
    pose proof (before_S n L q Hq). destruct (Hrun q Hq). lia.
  Qed.
  Theorem o_select k : k < length (vals L) -> pc_select pc c (S k) = Some (nth k (vals L) 0).
  Proof.
    intros Hk. unfold pc_select. rewrite Hpart. cbn [bind].
    destruct (o_select_core k Hk) as (q & ro & Hq & Hb & _ & _ & E). rewrite E. cbn [bind rs_end rs_rank_end].
    destruct (o_value q k Hq Hb) as [-> ->]. auto.
  Qed.
  Theorem o_select_report k : k < length (vals L) -> exists q, q < m /\ before L q <= k < before L (S q) /\
    pc_select_report pc c (S k) = Some (nth k (vals L) 0, S_ q, E_ q, q).
  Proof.
    intros Hk. unfold pc_select_report. rewrite Hpart. cbn [bind].
    destruct (o_select_core k Hk) as (q & ro & Hq & Hb & _ & Hr & E). rewrite E. cbn [bind rs_end rs_rank_end rs_start].
    exists q. split; auto. split; auto. destruct (o_value q k Hq Hb) as [-> ->]. rewrite Hr. auto.
  Qed.

  (** rank *)
  Lemma o_rank_loop v : v <= n -> forall fuel ro j, m - j < fuel -> j < m -> mid ro j -> S_ j <= v ->
    pc_rank_loop pc fuel ev ro (S_ j) (before L j) v = Some (cnt v).
  Proof.
    intros Hv. induction fuel as [|fuel IH]; intros ro j Hf Hj Hm Hs; [lia|].
    cbn [pc_rank_loop]. rewrite Hdens. fold n. destruct (NE ro j Hm) as (ro2 & E2 & Ha2 & Hr2).
    rewrite E2. cbn [bind]. fold m in Ha2. replace (Nat.min (S j) m) with (S j) in Ha2 by lia.
    rewrite <- (before_S n L j Hj).
    pose proof (before_S n L j Hj) as HbS. destruct (Hrun j Hj) as [HSE HEn].
    assert (FIN : E_ j <= v -> v <= S_ (S j) -> before L (S j) = cnt v).
    { intros G1 G2. symmetry. apply (cnt_before n L Hne Hrun Hgap v (S j)); auto.
      intros i Hi. pose proof (E_mono n L Hne Hrun Hgap i j ltac:(lia)). lia. }
    destruct (Nat.ltb_spec (E_ j) v) as [H|H].
    - destruct (NS ro2 (S j) (E_ j) Ha2) as (ro3 & E3 & Hm3).
      { right. f_equal. f_equal. lia. }
      rewrite E3. cbn [bind]. destruct (Nat.ltb_spec (S_ (S j)) v) as [H2|H2].
      + assert (S j < m).
        { destruct (Nat.lt_ge_cases (S j) m) as [G|G]; auto. rewrite (S_out n L (S j)) in H2 by auto. lia. }
        apply IH; auto; lia.
      + destruct (Nat.ltb_spec v (E_ j)) as [H3|H3]; [lia|]. rewrite FIN by lia. auto.
    - destruct (Nat.ltb_spec v (E_ j)) as [H3|H3].
      + rewrite (cnt_in n L Hne Hrun Hgap v j Hj) by lia. f_equal. lia.
      + rewrite FIN; auto. pose proof (ES_le n L Hne Hrun Hgap j). lia.
  Qed.
  Theorem o_rank v : v <= n -> pc_rank pc c v = Some (cnt v).
  Proof.
    intros Hv. unfold pc_rank. rewrite Hpart. cbn [bind]. rewrite Hdens.
    destruct (o_ub v) as (u & E & Hu1 & Hu2). rewrite E. cbn [bind].
    destruct (Nat.eqb_spec u 0) as [->|Hu].
    - rewrite (cnt_before n L Hne Hrun Hgap v 0); auto; [lia|intros; lia|]. specialize (Hu2 Hne). cbn in Hu2. lia.
    - destruct (Hu1 (u - 1) ltac:(lia)) as [G1 G2]. rewrite (o_ranks (u - 1) G1). cbn [bind].
      destruct (ST (u - 1) G1) as (ro & E1 & Ha & Hl). rewrite E1. cbn [bind].
      destruct (NS ro _ 0 Ha (or_introl Hl)) as (ro2 & E2 & Hm2). fold n. rewrite E2. cbn [bind].
      apply o_rank_loop; auto. rewrite o_size. pose proof (Nat.le_sub_l m ((u - 1) * h)). lia.
  Qed.

  (** rank with report *)
  Lemma o_report_loop v : v < n -> forall fuel ro j, m - j < fuel -> j <= m -> at_ ro (Nat.min (S j) m) -> ro_rank ro = j ->
    (forall i, i < j -> E_ i <= v) ->
    exists q ro', q <= m /\ (forall i, i < q -> E_ i <= v) /\ v < E_ q /\ ro_rank ro' = q /\
      pc_report_loop pc fuel ev ro (S_ j) (E_ j) (before L j) v = Some (ro', S_ q, E_ q, before L q).
  Proof.
    intros Hv. induction fuel as [|fuel IH]; intros ro j Hf Hj Ha Hr He; [lia|].
    cbn [pc_report_loop]. rewrite Hdens. fold n. destruct (Nat.leb_spec (E_ j) v) as [H|H].
    - assert (Hjm : j < m).
      { destruct (Nat.lt_ge_cases j m) as [G|G]; auto. rewrite (E_out n L j) in H by auto. lia. }
      replace (Nat.min (S j) m) with (S j) in Ha by lia.
      destruct (NS ro (S j) (E_ j) Ha) as (ro2 & E2 & Hm2). { right. f_equal. f_equal. lia. }
      rewrite E2. cbn [bind]. destruct (NE ro2 (S j) Hm2) as (ro3 & E3 & Ha3 & Hr3). rewrite E3. cbn [bind].
      rewrite <- (before_S n L j Hjm). apply IH; auto; [lia|].
      intros i Hi. destruct (Nat.eq_dec i j) as [->|G]; auto. apply He. lia.
    - exists j, ro. auto.
  Qed.
  Theorem o_rank_report v : 0 < n -> v <= n -> exists q, q <= m /\
    (forall i, i < q -> E_ i <= Nat.min v (n - 1)) /\ Nat.min v (n - 1) < E_ q /\
    pc_rank_report pc c v = Some (cnt v, S_ q, E_ q, q).
  Proof.
    intros H0 Hv. unfold pc_rank_report. rewrite Hpart. cbn [bind]. rewrite Hdens. fold n.
    set (v' := if v =? n then v - 1 else v).
    assert (Ev' : v' = Nat.min v (n - 1)) by (unfold v'; destruct (Nat.eqb_spec v n); lia).
    rewrite <- Ev'. destruct (o_ub v') as (u & E & Hu1 & Hu2). rewrite E. cbn [bind].
    set (idx := if u =? 0 then 0 else u - 1).
    assert (G1 : idx * h < m).
    { unfold idx. destruct (Nat.eqb_spec u 0); [fold m in Hne; lia|]. apply Hu1. lia. }
    assert (G2 : forall i, i < idx * h -> E_ i <= v').
    { intros i Hi. unfold idx in *. destruct (Nat.eqb_spec u 0) as [->|Hu]; [lia|].
      destruct (Hu1 (u - 1) ltac:(lia)) as [G3 G4]. pose proof (ES_lt n L Hne Hrun Hgap i ((u - 1) * h) Hi G3). lia. }
    rewrite (o_ranks idx G1). cbn [bind].
    destruct (ST idx G1) as (ro & E1 & Ha & Hl). rewrite E1. cbn [bind].
    destruct (NS ro _ 0 Ha (or_introl Hl)) as (ro2 & E2 & Hm2). rewrite E2. cbn [bind].
    destruct (NE ro2 _ Hm2) as (ro3 & E3 & Ha3 & Hr3). rewrite E3. cbn [bind].
    destruct (o_report_loop v' ltac:(lia) (ev_size ev + 2) ro3 (idx * h)) as (q & ro4 & Hq & He & Hv4 & Hr4 & E4); auto.
    { rewrite o_size. lia. } { lia. }
    rewrite E4. cbn [bind]. exists q. split; [auto|]. split; [auto|]. split; [auto|]. rewrite Hr4. f_equal. f_equal. f_equal. f_equal.
    destruct (Nat.ltb_spec (S_ q) v) as [H|H].
    - assert (q < m).
      { destruct (Nat.lt_ge_cases q m) as [G|G]; auto. rewrite (S_out n L q) in H by auto. lia. }
      symmetry. apply (cnt_in n L Hne Hrun Hgap); auto. destruct (Hrun q H1). lia.
    - symmetry. apply (cnt_before n L Hne Hrun Hgap); auto. intros i Hi. specialize (He i Hi). lia.
  Qed.

  (** rankSoftRun *)
  Notation below v := (count (fun j => S_ j <=? v) (seq 0 m)).
  Lemma below_at v j : j <= m -> (forall i, i < j -> S_ i <= v) -> (j < m -> v < S_ j) -> below v = j.
  Proof.
    intros Hj H1 H2. replace m with (j + (m - j)) by lia. rewrite seq_app, count_app.
    rewrite count_true, count_false, seq_length; [lia| |].
    - intros x Hx. apply in_seq in Hx. pose proof (S_mono n L Hne Hrun Hgap j x ltac:(lia)). specialize (H2 ltac:(lia)). lia.
    - intros x Hx. apply in_seq in Hx. specialize (H1 x ltac:(lia)). lia.
  Qed.
  Lemma o_soft_loop v : v <= n -> forall rem j k, j + S rem = Nat.min (k * h) m -> (k - 1) * h <= j -> j < k * h -> S_ j <= v ->
    (k * h < m -> v < S_ (k * h)) ->
    exists q, q < m /\ S_ q <= v /\ (S q < m -> v < S_ (S q)) /\
      pc_soft_loop ev rem (dp L h (S j)) (S_ j) (E_ j) (S j) v = Some (S q, S_ q, E_ q).
  Proof.
    intros Hv. induction rem as [|rem IH]; intros j k Hr Hk1 Hk2 Hs Hu; cbn [pc_soft_loop].
    - exists j. split; [lia|]. split; auto. split; auto. intros H. replace (S j) with (k * h) in * by lia. auto.
    - assert (Hsj : S j < m) by lia. pose proof (Hgap j Hsj) as Hg.
      destruct (Nat.ltb_spec (E_ j) v) as [H|H].
      + rewrite (DES (S j)) by (auto; apply (not_sample n L Hne Hrun Hgap h Hh Hn k); lia). cbn [bind].
        rewrite Nat.sub_succ, Nat.sub_0_r. replace (E_ j + (S_ (S j) - E_ j)) with (S_ (S j)) by lia.
        destruct (Nat.leb_spec (S_ (S j)) v) as [H2|H2].
        * rewrite (DEE (S j)) by auto. cbn [bind].
          destruct (Hrun (S j) Hsj) as [H3 H4]. replace (S_ (S j) + (E_ (S j) - S_ (S j))) with (E_ (S j)) by lia.
          apply (IH (S j) k); auto; lia.
        * exists j. split; [lia|]. split; auto.
      + exists j. split; [lia|]. split; auto. split; [|auto]. intros _. lia.
  Qed.
  Theorem o_soft v : v <= n -> exists x, pc_rank_soft_run_c pc c v = Some (below v, x) /\
    (forall j, j < m -> S_ j <= v < E_ j -> x = S_ j) /\ ((forall j, j < m -> ~ (S_ j <= v < E_ j)) -> x = n).
  Proof.
    intros Hv. unfold pc_rank_soft_run_c. rewrite Hpart. cbn [bind]. rewrite Hdens. fold n.
    destruct (o_ub v) as (u & E & Hu1 & Hu2). rewrite E. cbn [bind].
    destruct (Nat.eqb_spec u 0) as [->|Hu].
    - exists n. specialize (Hu2 Hne). cbn [Nat.mul] in Hu2. split.
      + f_equal. f_equal. symmetry. apply below_at; auto; lia.
      + split; auto. intros j Hj Hx. pose proof (S_mono n L Hne Hrun Hgap 0 j ltac:(lia)). lia.
    - destruct (Hu1 (u - 1) ltac:(lia)) as [G1 G2]. set (idx := u - 1) in *.
      destruct (SPK idx G1) as [P1 P2]. fold dens in P1, P2. fold ev in P1, P2. rewrite P1. cbn [bind].
      assert (Hd2 : idx * dens / 2 = idx * h).
      { unfold dens. replace (idx * (2 * h)) with (idx * h * 2) by lia. apply Nat.div_mul. lia. }
      rewrite Hd2.
      assert (Hlt : forall i, i < idx * h -> S_ i <= v).
      { intros i Hi. pose proof (S_mono n L Hne Hrun Hgap i (idx * h) ltac:(lia)). lia. }
      assert (FIN : forall q, q < m -> S_ q <= v -> (S q < m -> v < S_ (S q)) -> below v = S q).
      { intros q Hq1 Hq2 Hq3. apply below_at; auto. intros i Hi. pose proof (S_mono n L Hne Hrun Hgap i q ltac:(lia)). lia. }
      assert (UNI : forall q, q < m -> S_ q <= v -> (S q < m -> v < S_ (S q)) ->
        let x := if v <? E_ q then S_ q else n in
        (forall j, j < m -> S_ j <= v < E_ j -> x = S_ j) /\ ((forall j, j < m -> ~ (S_ j <= v < E_ j)) -> x = n)).
      { intros q Hq1 Hq2 Hq3 x. unfold x. split.
        - intros j Hj Hx. assert (j = q).
          { destruct (Nat.lt_trichotomy j q) as [G|[G|G]]; auto; exfalso.
            - pose proof (ES_lt n L Hne Hrun Hgap j q G Hq1). lia.
            - specialize (Hq3 ltac:(lia)). pose proof (S_mono n L Hne Hrun Hgap (S q) j G). lia. }
          subst j. destruct (Nat.ltb_spec v (E_ q)); [auto|lia].
        - intros Hx. destruct (Nat.ltb_spec v (E_ q)); auto. exfalso. apply (Hx q); auto. }
      destruct (Nat.eqb_spec (S_ (idx * h)) v) as [Eq|Nq].
      + exists (S_ (idx * h)). destruct (Hrun _ G1) as [HSE HEn].
        assert (Q3 : S (idx * h) < m -> v < S_ (S (idx * h))) by (intros G; pose proof (Hgap _ G); lia).
        rewrite Nat.add_1_r. split; [rewrite (FIN (idx * h)); auto|].
        pose proof (UNI (idx * h) G1 G2 Q3) as U. cbv zeta in U. destruct (Nat.ltb_spec v (E_ (idx * h))); [auto|lia].
      + rewrite P2. cbn [bind]. rewrite <- (dm_sample n L Hne Hrun Hgap h Hh Hn idx G1).
        pose proof (DEE (idx * h) G1) as DE. fold dens in DE. fold ev in DE. rewrite DE. cbn [bind].
        destruct (Hrun _ G1) as [HSE HEn]. replace (S_ (idx * h) + (E_ (idx * h) - S_ (idx * h))) with (E_ (idx * h)) by lia.
        rewrite o_size.
        assert (Hrem : Nat.min dens (2 * m - idx * dens) / 2 - 1 = Nat.min (u * h) m - S (idx * h)).
        { unfold dens. replace (2 * m - idx * (2 * h)) with (2 * (m - idx * h)) by lia.
          replace (Nat.min (2 * h) (2 * (m - idx * h))) with (Nat.min h (m - idx * h) * 2) by lia.
          rewrite Nat.div_mul by lia. replace (u * h) with (idx * h + h) by (unfold idx; nia). lia. }
        rewrite Hrem, Nat.add_1_r.
        assert (Huh : u * h = idx * h + h) by (unfold idx; nia).
        destruct (o_soft_loop v Hv (Nat.min (u * h) m - S (idx * h)) (idx * h) u) as (q & Q1 & Q2 & Q3 & Q4); auto; try lia.
        rewrite Q4. cbn [bind]. eexists. split; [rewrite (FIN q); auto|]. apply (UNI q); auto.
  Qed.

  (** splitInRuns *)
  Lemma o_skip_loop v : v < n -> forall fuel ro j, m - j < fuel -> j <= m -> mid ro (Nat.min (S j) m) ->
    (forall i, i < j -> E_ i <= v) ->
    exists q ro', q <= m /\ (forall i, i < q -> E_ i <= v) /\ v < E_ q /\ mid ro' (Nat.min (S q) m) /\
      pc_skip_loop pc fuel ev ro (S_ j) (E_ j) (S_ (Nat.min (S j) m)) v = Some (ro', S_ q, E_ q, S_ (Nat.min (S q) m)).
  Proof.
    intros Hv. induction fuel as [|fuel IH]; intros ro j Hf Hj Ha He; [lia|].
    cbn [pc_skip_loop]. rewrite Hdens. fold n. destruct (Nat.leb_spec (E_ j) v) as [H|H].
    - assert (Hjm : j < m).
      { destruct (Nat.lt_ge_cases j m) as [G|G]; auto. rewrite (E_out n L j) in H by auto. lia. }
      replace (Nat.min (S j) m) with (S j) in * by lia.
      destruct (NE ro (S j) Ha) as (ro2 & E2 & Ha2 & Hr2). rewrite E2. cbn [bind].
      fold m in Ha2.
      destruct (NS ro2 (Nat.min (S (S j)) m) (E_ (S j)) Ha2) as (ro3 & E3 & Hm3).
      { destruct (Nat.lt_ge_cases (S j) m) as [G|G].
        - right. f_equal. f_equal. lia.
        - left. destruct Ha2 as (_ & _ & _ & -> & _). lia. }
      rewrite E3. cbn [bind]. apply IH; auto; [lia|].
      intros i Hi. destruct (Nat.eq_dec i j) as [->|G]; auto. apply He. lia.
    - exists j, ro. auto.
  Qed.
  Lemma mid_rank ro j : mid ro j -> ro_rank ro = j.
  Proof. intros (_ & H & _). auto. Qed.
  Lemma o_split_loop first last : first < n -> last <= n -> forall fuel ro j, m - j < fuel -> j <= m -> mid ro (Nat.min (S j) m) ->
    first < E_ j ->
    pc_split_loop pc fuel ev c ro (Nat.max first (S_ j)) (S_ j) (E_ j) (S_ (Nat.min (S j) m)) last =
      Some (map (row_piece n c L first last) (filter (row_inside n L first last) (seq j (m - j)))).
  Proof.
    intros Hf Hl. induction fuel as [|fuel IH]; intros ro j Hfu Hj Hm He; [lia|].
    cbn [pc_split_loop]. rewrite Hdens. fold n.
    assert (Eeq : (Nat.max first (S_ j) =? S_ j) = (first <=? S_ j)) by lia.
    rewrite Eeq, (mid_rank _ _ Hm).
    destruct (Nat.ltb_spec (S_ (Nat.min (S j) m)) last) as [H|H].
    - assert (Hsj : S j < m).
      { destruct (Nat.lt_ge_cases (S j) m) as [G|G]; auto. rewrite (S_out n L) in H by (fold m; lia). lia. }
      replace (Nat.min (S j) m) with (S j) in * by lia.
      destruct (NE ro (S j) Hm) as (ro2 & E2 & Ha2 & Hr2). rewrite E2. cbn [bind]. fold m in Ha2.
      destruct (NS ro2 (Nat.min (S (S j)) m) (E_ (S j)) Ha2) as (ro3 & E3 & Hm3).
      { destruct (Nat.lt_ge_cases (S (S j)) m) as [G|G].
        - right. f_equal. f_equal. lia.
        - left. destruct Ha2 as (_ & _ & _ & -> & _). lia. }
      rewrite E3. cbn [bind]. pose proof (Hgap j Hsj) as Hg. destruct (Hrun (S j) Hsj) as [Hr3 Hr4].
      pose proof (IH ro3 (S j) ltac:(lia) ltac:(lia) Hm3 ltac:(lia)) as G.
      rewrite Nat.max_r in G by lia. rewrite G. cbn [bind].
      replace (m - j) with (S (m - S j)) by lia. cbn [seq filter].
      destruct (Hrun j ltac:(lia)) as [Hr1 Hr2'].
      assert (EI : row_inside n L first last j = true) by (unfold row_inside; lia).
      rewrite EI. cbn [map]. f_equal. f_equal. unfold row_piece. f_equal; lia.
    - destruct (Nat.eq_dec j m) as [Ejm|Njm].
      + replace (m - j) with 0 by lia. cbn [seq filter map]. rewrite (S_out n L j), (E_out n L j) by (fold m; lia).
        destruct (Nat.ltb_spec (Nat.max first n) (Nat.min last n)); [lia|auto].
      + replace (m - j) with (S (m - S j)) by lia. cbn [seq filter].
        assert (EN : filter (row_inside n L first last) (seq (S j) (m - S j)) = []).
        { destruct (filter _ _) as [|x l] eqn:Ef; auto. exfalso.
          assert (Hx : In x (filter (row_inside n L first last) (seq (S j) (m - S j)))) by (rewrite Ef; left; auto).
          apply filter_In in Hx. destruct Hx as [Hx1 Hx2]. apply in_seq in Hx1. unfold row_inside in Hx2.
          pose proof (S_mono n L Hne Hrun Hgap (S j) x ltac:(lia)) as G. replace (Nat.min (S j) m) with (S j) in H by lia. lia. }
        rewrite EN. replace (Nat.min (S j) m - 1) with j by lia.
        unfold row_inside, row_piece. destruct (Nat.max first (S_ j) <? Nat.min last (E_ j)); auto.
  Qed.
  Theorem o_split first last : first < n -> last <= n ->
    pc_split_in_runs_c pc c first last = Some (row_pieces n c L first last).
  Proof.
    intros Hf Hl. unfold pc_split_in_runs_c. rewrite Hpart. cbn [bind]. rewrite Hdens. fold n.
    destruct (o_ub first) as (u & E & Hu1 & Hu2). rewrite E. cbn [bind].
    set (idx := if u =? 0 then 0 else u - 1).
    assert (G1 : idx * h < m).
    { unfold idx. destruct (Nat.eqb_spec u 0); [fold m in Hne; lia|]. apply Hu1. lia. }
    assert (G2 : forall i, i < idx * h -> E_ i <= first).
    { intros i Hi. unfold idx in *. destruct (Nat.eqb_spec u 0) as [->|Hu]; [lia|].
      destruct (Hu1 (u - 1) ltac:(lia)) as [G3 G4]. pose proof (ES_lt n L Hne Hrun Hgap i ((u - 1) * h) Hi G3). lia. }
    destruct (ST idx G1) as (ro & E1 & Ha & Hl0). rewrite E1. cbn [bind].
    destruct (NS ro _ 0 Ha (or_introl Hl0)) as (ro2 & E2 & Hm2). rewrite E2. cbn [bind].
    destruct (NE ro2 _ Hm2) as (ro3 & E3 & Ha3 & Hr3). rewrite E3. cbn [bind]. fold m in Ha3.
    destruct (NS ro3 _ (E_ (idx * h)) Ha3) as (ro4 & E4 & Hm4).
    { right. f_equal. f_equal. lia. }
    rewrite E4. cbn [bind].
    destruct (o_skip_loop first Hf (ev_size ev + 2) ro4 (idx * h)) as (q & ro5 & Hq & He & Hv & Hm5 & E5); auto.
    { rewrite o_size. lia. } { lia. }
    rewrite E5. cbn [bind]. rewrite (o_split_loop first last Hf Hl) by (auto; rewrite o_size; lia).
    unfold row_pieces. fold m. do 2 f_equal. replace m with (q + (m - q)) at 2 by lia. rewrite seq_app, filter_app.
    replace (filter _ (seq 0 q)) with (@nil nat); auto.
    symmetry. destruct (filter _ (seq 0 q)) as [|x l] eqn:Ef; auto. exfalso.
    assert (Hx : In x (filter (row_inside n L first last) (seq 0 q))) by (rewrite Ef; left; auto).
    apply filter_In in Hx. destruct Hx as [Hx1 Hx2]. apply in_seq in Hx1. unfold row_inside in Hx2.
    specialize (He x ltac:(lia)). lia.
  Qed.

  (** computeForwardRuns *)
  Lemma o_forward_loop b : b <= length (vals L) -> forall fuel ro j a, m - j < fuel -> j < m -> at_ ro (S j) -> ro_rank ro = j ->
    before L j <= a < before L (S j) -> a < b ->
    exists ps, pc_forward_loop pc fuel ev c ro (S_ j + (a - before L j)) (S_ j) (E_ j) (before L (S j)) b = Some ps /\
      rank_pieces n c L ps a b.
  Proof.
    intros Hb. induction fuel as [|fuel IH]; intros ro j a Hf Hj Ha Hr Hk Hab; [lia|].
    cbn [pc_forward_loop]. rewrite Hdens. fold n. pose proof (before_S n L j Hj) as HbS. destruct (Hrun j Hj) as [HSE HEn].
    assert (Eq : (S_ j + (a - before L j) =? S_ j) = (a =? before L j)) by lia. rewrite Eq.
    destruct (Nat.ltb_spec (before L (S j)) b) as [H|H].
    - assert (Hsj : S j < m).
      { destruct (Nat.lt_ge_cases (S j) m) as [G|G]; auto. exfalso. replace (S j) with m in H by lia.
        unfold m in H. rewrite before_all in H. lia. }
      destruct (NS ro (S j) (E_ j) Ha) as (ro2 & E2 & Hm2). { right. f_equal. f_equal. lia. }
      rewrite E2. cbn [bind]. destruct (NE ro2 (S j) Hm2) as (ro3 & E3 & Ha3 & Hr3). rewrite E3. cbn [bind].
      fold m in Ha3. replace (Nat.min (S (S j)) m) with (S (S j)) in Ha3 by lia.
      rewrite <- (before_S n L (S j) Hsj).
      pose proof (before_lt n L Hne Hrun Hgap (S j) Hsj) as Hlt.
      destruct (IH ro3 (S j) (before L (S j)) ltac:(lia) Hsj Ha3 Hr3 ltac:(lia) H) as (ps & E4 & Hps).
      rewrite Nat.sub_diag, Nat.add_0_r in E4. rewrite E4. cbn [bind]. eexists. split; [eauto|].
      cbn [rank_pieces]. exists j, (before L (S j)). rewrite Hr. repeat split; auto; try lia.
      f_equal. lia.
    - eexists. split; [eauto|]. cbn [rank_pieces]. exists j, b. rewrite Hr. repeat split; auto; try lia.
      f_equal. lia.
  Qed.
  Theorem o_forward a b : a < b -> b <= length (vals L) ->
    exists ps, pc_forward_runs pc c (S a) (S b) = Some ps /\ rank_pieces n c L ps a b.
  Proof.
    intros Hab Hb. unfold pc_forward_runs. rewrite Hpart. cbn [bind].
    destruct (o_select_core a ltac:(lia)) as (q & ro & Hq & Hk & Ha & Hr & E). rewrite E.
    cbn [bind rs_end rs_rank_end rs_start]. destruct (o_value q a Hq Hk) as [-> _].
    rewrite Nat.sub_succ, Nat.sub_0_r. apply o_forward_loop; auto. rewrite o_size. lia.
  Qed.

  (** traverse *)
  Lemma o_traverse_loop : forall fuel ro j, m - j < fuel -> j <= m -> at_ ro (Nat.min (S j) m) ->
    pc_traverse_loop pc fuel ev ro (S_ j) (E_ j) = Some (map (fun i => (S_ i, E_ i)) (seq j (m - j))).
  Proof.
    induction fuel as [|fuel IH]; intros ro j Hf Hj Ha; [lia|].
    cbn [pc_traverse_loop]. rewrite Hdens. fold n. destruct (Nat.ltb_spec (S_ j) n) as [H|H].
    - assert (Hjm : j < m).
      { destruct (Nat.lt_ge_cases j m) as [G|G]; auto. rewrite (S_out n L j) in H by auto. lia. }
      replace (Nat.min (S j) m) with (S j) in Ha by lia.
      destruct (NS ro (S j) (E_ j) Ha) as (ro2 & E2 & Hm2). { right. f_equal. f_equal. lia. }
      rewrite E2. cbn [bind]. destruct (NE ro2 (S j) Hm2) as (ro3 & E3 & Ha3 & Hr3). rewrite E3. cbn [bind].
      fold m in Ha3. rewrite IH by (auto; lia). cbn [bind]. replace (m - j) with (S (m - S j)) by lia. auto.
    - assert (j = m).
      { destruct (Nat.eq_dec j m); auto. pose proof (S_lt n L Hne Hrun Hgap j ltac:(lia)). lia. }
      replace (m - j) with 0 by lia. auto.
  Qed.
  Theorem o_traverse : pc_traverse pc c = Some L.
  Proof.
    unfold pc_traverse. rewrite Hpart. cbn [bind]. rewrite Hdens. fold n.
    destruct (ST 0 ltac:(fold m; lia)) as (ro & E1 & Ha & Hl0). rewrite E1. cbn [bind].
    destruct (NS ro _ 0 Ha (or_introl Hl0)) as (ro2 & E2 & Hm2). rewrite E2. cbn [bind].
    destruct (NE ro2 _ Hm2) as (ro3 & E3 & Ha3 & Hr3). rewrite E3. cbn [bind].
    cbn [Nat.mul] in *. fold m in Ha3. rewrite o_traverse_loop by (auto; try rewrite o_size; lia). f_equal.
    rewrite Nat.sub_0_r. unfold m. clear. induction L as [|p L' IH]; auto.
    cbn [length seq map]. f_equal; [destruct p; auto|]. rewrite <- seq_shift, map_map. exact IH.
  Qed.
  Lemma o_count_runs : pc_count_runs pc c = Some m.
  Proof. unfold pc_count_runs. rewrite Hpart. cbn [bind]. rewrite o_size, Nat.mul_comm, Nat.div_mul by lia. auto. Qed.
End Ops.
