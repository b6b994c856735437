(** PhiBackwardForRange and its validity variant over an abstract run type: they report the
    values of the rows below a row, from the top down. *)
From Coq Require Import List Arith Bool Lia ZifyBool ZifyNat.
From Verif Require Import Spec MBase Lists FM MPhi MRIndex Phi Util Nav.
Import ListNotations.

(** Rows a..b-1 from the last to the first. *)
Definition down (sa : list nat) (a m : nat) : list nat := map (SA sa) (rev (seq a m)).
Lemma down_S sa a m : down sa a (S m) = SA sa (a + m) :: down sa a m.
Proof. unfold down. rewrite seq_S, rev_app_distr. reflexivity. Qed.
Lemma down_app sa a m k : down sa a (m + k) = down sa (a + m) k ++ down sa a m.
Proof. unfold down. rewrite seq_app, rev_app_distr, map_app. reflexivity. Qed.
Lemma down_length sa a m : length (down sa a m) = m.
Proof. unfold down. rewrite map_length, rev_length, seq_length. auto. Qed.

Section Iter.
  Variables (T sa : list nat).
  Hypothesis HT : text_ok T.
  Hypothesis HSA : is_suffix_array T sa.
  Let n := len T.
  Definition lfi (l i : nat) : nat := Nat.iter l (LFr T sa) i.
  Lemma lfi_S l i : lfi (S l) i = lfi l (LFr T sa i).
  Proof. induction l as [|l IH]; auto. change (LFr T sa (lfi (S l) i) = LFr T sa (lfi l (LFr T sa i))). congruence. Qed.
  Lemma lfi_lt l i : i < n -> lfi l i < n.
  Proof. intros H. destruct l; cbn; auto. apply (LFr_lt T sa HT HSA). Qed.
  Lemma lfi_SA l : forall i, i < n -> (SA sa (lfi l i) + l) mod n = SA sa i.
  Proof.
    induction l as [|l IH]; intros i Hi.
    - cbn. rewrite Nat.add_0_r, Nat.mod_small; auto. apply (SA_lt T sa HSA); auto.
    - change (lfi (S l) i) with (LFr T sa (lfi l i)). pose proof (n_pos T HT) as Hn. fold n in Hn.
      rewrite (SA_LFr T sa HT HSA). rewrite <- (IH i Hi).
      rewrite <- (csucc_cpred T HT (SA sa (lfi l i))) at 2 by (apply (SA_lt T sa HSA), lfi_lt; auto).
      unfold csucc. fold n. rewrite Nat.add_mod_idemp_l by lia. f_equal. lia.
  Qed.
  Lemma lfi_SA_sub l : forall i, i < n -> l <= SA sa i -> SA sa (lfi l i) = SA sa i - l.
  Proof.
    induction l as [|l IH]; intros i Hi Hl.
    - cbn. lia.
    - change (lfi (S l) i) with (LFr T sa (lfi l i)).
      rewrite (SA_LFr T sa HT HSA), IH by (auto; lia).
      pose proof (SA_lt T sa HSA i Hi). replace (SA sa i - l) with (S (SA sa i - S l)) by lia.
      apply (cpred_S T). lia.
  Qed.
  Lemma lfi_sample l i : i < n -> (tpos T sa (lfi l i) + 1 + l) mod n = SA sa i.
  Proof.
    intros Hi. rewrite <- (lfi_SA l i Hi).
    rewrite <- (csucc_tpos T sa HT HSA (lfi l i)) by (apply lfi_lt; auto).
    unfold csucc. fold n. pose proof (n_pos T HT). fold n in H. rewrite Nat.add_mod_idemp_l by lia. auto.
  Qed.
  Lemma same_rows a m c : (forall i, i < m -> bw T sa (a + i) = c) -> a + m <= n ->
    forall i, i < m -> LFr T sa (a + i) = LFr T sa a + i.
  Proof.
    intros Hb Hn. induction i as [|i IH]; intros Hi; [rewrite !Nat.add_0_r; auto|].
    rewrite !Nat.add_succ_r. rewrite (LFr_consecutive T sa HT HSA), IH; auto; try (fold n; lia).
    rewrite <- Nat.add_succ_r, !Hb by lia. auto.
  Qed.
  Lemma rank_run a m c : (forall i, i < m -> bw T sa (a + i) = c) -> a + m <= n ->
    rk T sa c (a + m) = rk T sa c a + m.
  Proof.
    intros Hb Hn. induction m as [|m IH]; [rewrite !Nat.add_0_r; auto|].
    rewrite Nat.add_succ_r. unfold rk in *.
    rewrite (rankP_S _ (BW T sa) (a + m) (bw T sa (a + m))) by (apply (BW_nth_error T sa HSA); fold n; lia).
    rewrite IH by (intros; try apply Hb; lia). rewrite Hb, Nat.eqb_refl by lia. lia.
  Qed.
End Iter.

Section Back.
  Variables (T sa : list nat).
  Hypothesis HT : text_ok T.
  Hypothesis HSA : is_suffix_array T sa.
  Let n := len T.
  Notation SA := (SA sa).
  Notation LFr := (LFr T sa).

  Context {Range Run : Type}.
  Variable get_sample : Run -> option (option nat).
  Variable split_range : Range -> option (list Run).
  Variable split_run : Run -> option (list Run).
  Variable navigate : Run -> option Run.
  Variable s : nat.
  Variable is_range_empty : Range -> bool.
  Variable update_run : Run -> Run.
  Variable is_run_empty : Run -> bool.
  Variable loop_fuel : nat.

  (** [Rr fresh r a b]: [r] stands for the rows a..b-1, all in one run of the BWT; [fresh] when
      its last row has not been cut.  [Nv r a b]: rows after a navigation. *)
  Variable Rr : bool -> Run -> nat -> nat -> Prop.
  Variable Nv : Run -> nat -> nat -> Prop.
  Variable kept : nat -> bool.

  Fixpoint chain (rs : list Run) (a b : nat) : Prop :=
    match rs with
    | [] => a = b
    | r :: rs' => exists m, a < m /\ m <= b /\ Rr true r a m /\ chain rs' m b
    end.
  Fixpoint rchain (rs : list Run) (a b : nat) : Prop :=
    match rs with
    | [] => a = b
    | r :: rs' => exists m, a <= m /\ m < b /\ Rr true r m b /\ rchain rs' a m
    end.
  Lemma chain_le rs : forall a b, chain rs a b -> a <= b.
  Proof using Rr. clear -Rr. induction rs as [|r rs IH]; cbn; intros a b H; [lia|]. destruct H as (m & ? & ? & _). lia. Qed.
  Lemma rchain_le rs : forall a b, rchain rs a b -> a <= b.
  Proof using Rr. clear -Rr. induction rs as [|r rs IH]; cbn; intros a b H; [lia|]. destruct H as (m & ? & ? & _). lia. Qed.
  Lemma rchain_snoc rs : forall a m b r, rchain rs m b -> a < m -> Rr true r a m -> rchain (rs ++ [r]) a b.
  Proof using Rr.
    clear -Rr.
    induction rs as [|x rs IH]; intros a m b r H Hl Hr.
    - cbn in H. subst. cbn. exists a. split; [lia|]. split; [lia|]. auto.
    - cbn [rchain app] in *. destruct H as (k & H1 & H2 & H3 & H4). exists k.
      split; [lia|]. split; [auto|]. split; auto. eapply IH; eauto.
  Qed.
  Lemma chain_rev rs : forall a b, chain rs a b -> rchain (rev rs) a b.
  Proof using Rr.
    clear -Rr.
    induction rs as [|r rs IH]; intros a b H; cbn in *; auto.
    destruct H as (m & H1 & H2 & H3 & H4). eapply rchain_snoc; eauto.
  Qed.

  Hypothesis HRn : forall f r a b, Rr f r a b -> b <= n.
  Hypothesis Hsample : forall f r a b, Rr f r a b -> a < b ->
    get_sample r = Some (if kept (b - 1) then Some (tpos T sa (b - 1)) else None).
  Hypothesis Hinner : forall f r a b i, Rr f r a b -> a <= i -> S i < b -> kept i = false.
  Hypothesis Hcut : forall r a b, Rr false r a b -> a < b -> kept (b - 1) = false.
  Hypothesis Hupdate : forall f r a b, Rr f r a b -> a < b -> Rr false (update_run r) a (b - 1).
  Hypothesis HupdateN : forall r a b, Nv r a b -> a < b -> Nv (update_run r) a (b - 1).
  Hypothesis Hempty : forall f r a b, Rr f r a b -> is_run_empty r = negb (a <? b).
  Hypothesis HemptyN : forall r a b, Nv r a b -> is_run_empty r = negb (a <? b).
  Hypothesis Hnav : forall f r a b, Rr f r a b -> a < b -> kept (b - 1) = false ->
    exists r', navigate r = Some r' /\ Nv r' (LFr a) (LFr a + (b - a)) /\
      forall i, i < b - a -> LFr (a + i) = LFr a + i.
  Hypothesis Hsplit : forall r a b, Nv r a b -> a < b -> b <= n ->
    exists rs, split_run r = Some rs /\ chain rs a b.
  Hypothesis Hfuel : n + 2 <= loop_fuel.

  (** Rows a..b-1 are reached from rows a0.. after [L] steps without meeting a kept row. *)
  Definition orig (L a m a0 : nat) : Prop :=
    a0 + m < n /\ forall i, i < m -> lfi T sa L (a0 + i) = a + i /\
      forall l, l < L -> kept (lfi T sa l (a0 + i)) = false.

  Lemma orig_sub L a m a0 k q : orig L a m a0 -> k + q <= m -> orig L (a + k) q (a0 + k).
  Proof.
    intros [H1 H2] H. split; [lia|]. intros i Hi. destruct (H2 (k + i) ltac:(lia)) as [E1 E2].
    rewrite <- !Nat.add_assoc. split; auto.
  Qed.
  Lemma orig_next L f r a b a0 : Rr f r a b -> a < b -> orig L a (b - a) a0 -> kept (b - 1) = false ->
    (forall i, i < b - a -> LFr (a + i) = LFr a + i) ->
    orig (S L) (LFr a) (b - a) a0.
  Proof.
    intros Hr Hab [H1 H2] Hk HL. split; auto. intros i Hi. destruct (H2 i Hi) as [E1 E2]. split.
    - change (lfi T sa (S L) (a0 + i)) with (LFr (lfi T sa L (a0 + i))). rewrite E1. auto.
    - intros l Hl. destruct (Nat.eq_dec l L) as [->|Hne]; [|apply E2; lia]. rewrite E1.
      destruct (Nat.eq_dec (S (a + i)) b) as [E|E].
      + replace (a + i) with (b - 1) by lia. auto.
      + eapply Hinner; eauto; lia.
  Qed.
  Lemma orig_sample L a m a0 i : orig L a m a0 -> i < m -> (tpos T sa (a + i) + 1 + L) mod n = SA (a0 + i).
  Proof.
    intros [H1 H2] Hi. destruct (H2 i Hi) as [E _]. rewrite <- E.
    apply (lfi_sample T sa HT HSA). fold n. lia.
  Qed.
  Lemma LFr_bound a m : a + m <= n -> 0 < m -> (forall i, i < m -> LFr (a + i) = LFr a + i) -> LFr a + m <= n.
  Proof.
    intros H Hm HL. pose proof (LFr_lt T sa HT HSA (a + (m - 1))). rewrite HL in H0 by lia. fold n in H0. lia.
  Qed.

  Section Plain.
    Variable phi : nat -> option nat.
    Hypothesis Hphi : forall y, S y < n -> (forall l, l < s -> kept (lfi T sa l y) = false) ->
      phi (SA (S y)) = Some (SA y).

    Lemma phi_loop_ok : forall m fuel r a a0, 0 < m -> m <= fuel -> Nv r a (a + m) ->
      a0 + m < n -> (forall i, i < m -> forall l, l < s -> kept (lfi T sa l (a0 + i)) = false) ->
      pb_phi_loop phi update_run is_run_empty fuel r (SA (a0 + m)) = Some (SA a0, down sa a0 m).
    Proof.
      induction m as [|m IH]; intros fuel r a a0 Hm Hf Hr Hb Hk; [lia|].
      destruct fuel as [|fuel]; [lia|]. cbn [pb_phi_loop].
      rewrite Nat.add_succ_r. rewrite Hphi by (try lia; apply Hk; lia). cbn [bind].
      pose proof (HupdateN _ _ _ Hr ltac:(lia)) as Hu. replace (a + S m - 1) with (a + m) in Hu by lia.
      rewrite (HemptyN _ _ _ Hu), negb_involutive. destruct (Nat.ltb_spec a (a + m)) as [H|H].
      - rewrite (IH fuel (update_run r) a a0) by (auto; try lia). cbn [bind]. rewrite down_S. auto.
      - replace m with 0 by lia. rewrite Nat.add_0_r. auto.
    Qed.

    Lemma pb_runs_ok : forall f L rs a b a0, L + f >= S s -> L <= s -> rchain rs a b -> orig L a (b - a) a0 ->
      pb_runs phi get_sample split_run navigate s n update_run is_run_empty loop_fuel f rs (SA (a0 + (b - a))) L
      = Some (SA a0, down sa a0 (b - a)).
    Proof.
      induction f as [|f IHf]; intros L rs a b a0 HL HLs; [lia|].
      revert b. cbn [pb_runs].
      match goal with |- forall b, _ -> _ -> ?g rs _ = _ => set (go := g) end.
      induction rs as [|r rs IHrs]; intros b Hc Ho.
      - cbn in Hc. subst b. cbn. rewrite Nat.sub_diag, Nat.add_0_r. auto.
      - destruct Hc as (m & Ham & Hmb & Hr & Hc).
        assert (Ho1 : orig L m (b - m) (a0 + (m - a))).
        { pose proof (orig_sub L a (b - a) a0 (m - a) (b - m) Ho ltac:(lia)) as G.
          replace (a + (m - a)) with m in G by lia. auto. }
        assert (Ho2 : orig L a (m - a) a0).
        { pose proof (orig_sub L a (b - a) a0 0 (m - a) Ho ltac:(lia)) as G. rewrite !Nat.add_0_r in G. auto. }
        specialize (IHrs m Hc Ho2).
        set (z0 := a0 + (m - a)) in *.
        replace (a0 + (b - a)) with (z0 + (b - m)) by (unfold z0; lia).
        assert (HD : down sa a0 (b - a) = down sa z0 (b - m) ++ down sa a0 (m - a)).
        { replace (b - a) with ((m - a) + (b - m)) by lia. apply down_app. }
        (* the part below the sample *)
        assert (STEP : forall g r' q, Rr g r' m (m + q) -> 0 < q -> q <= b - m -> kept (m + q - 1) = false ->
          exists r'', navigate r' = Some r'' /\
          (if s <=? S L then pb_phi_loop phi update_run is_run_empty loop_fuel r'' (SA (z0 + q))
           else runs' <- split_run r'' ;;
                pb_runs phi get_sample split_run navigate s n update_run is_run_empty loop_fuel f (rev runs')
                  (SA (z0 + q)) (S L)) = Some (SA z0, down sa z0 q)).
        { intros g r' q Hr' Hq Hqm Hk. destruct (Hnav g r' m (m + q) Hr' ltac:(lia) Hk) as (r'' & E & HN & HLF).
          exists r''. split; auto. replace (m + q - m) with q in * by lia.
          pose proof (HRn _ _ _ _ Hr') as Hmq.
          pose proof (LFr_bound m q Hmq Hq HLF) as HB.
          assert (Ho' : orig (S L) (LFr m) q z0).
          { assert (G : orig L m q z0).
            { pose proof (orig_sub L m (b - m) z0 0 q Ho1 ltac:(lia)) as G. rewrite !Nat.add_0_r in G. auto. }
            pose proof (orig_next L g r' m (m + q) z0 Hr' ltac:(lia)) as G2.
            replace (m + q - m) with q in G2 by lia. auto. }
          destruct (Nat.leb_spec s (S L)) as [Hs|Hs].
          - apply phi_loop_ok with (a := LFr m); auto.
            + destruct Ho' as [? _]. lia.
            + apply Ho'.
            + intros i Hi l Hl. apply Ho'; lia.
          - destruct (Hsplit r'' _ _ HN ltac:(lia) HB) as (rs' & -> & Hch). cbn [bind].
            pose proof (IHf (S L) (rev rs') (LFr m) (LFr m + q) z0 ltac:(lia) ltac:(lia) (chain_rev _ _ _ Hch)) as G.
            replace (LFr m + q - LFr m) with q in G by lia. auto. }
        unfold go; cbn fix beta iota; fold go.
        rewrite (Hsample true r m b Hr Hmb). cbn [bind]. destruct (kept (b - 1)) eqn:Ek.
        + assert (Ev : (tpos T sa (b - 1) + 1 + L) mod n = SA (z0 + (b - m - 1))).
          { pose proof (orig_sample L m (b - m) z0 (b - m - 1) Ho1 ltac:(lia)) as G.
            replace (m + (b - m - 1)) with (b - 1) in G by lia. auto. }
          pose proof (n_pos T HT). fold n in H. rewrite umod_ok by auto. cbn [bind]. rewrite Ev.
          pose proof (Hupdate true r m b Hr Hmb) as Hu. rewrite (Hempty _ _ _ _ Hu).
          destruct (Nat.ltb_spec m (b - 1)) as [Hlt|Hge]; cbn [negb].
          * destruct (STEP false (update_run r) (b - m - 1)) as (r'' & En & Ep).
            { replace (m + (b - m - 1)) with (b - 1) by lia. auto. }
            { lia. } { lia. }
            { replace (m + (b - m - 1)) with (b - 1) by lia. eapply Hcut; eauto. }
            rewrite En. cbn [bind].
 match goal with |- bind ?X ?F = _ => rewrite (Ep : X = Some _) end. cbn [bind]. fold z0 in IHrs. rewrite IHrs. cbn [bind]. f_equal. f_equal. rewrite HD.
            replace (b - m) with (S (b - m - 1)) by lia. rewrite down_S. replace (S (b - m - 1) - 1) with (b - m - 1) by lia. reflexivity.
          * replace (b - m - 1) with 0 by lia. rewrite Nat.add_0_r, IHrs. cbn [bind]. f_equal. f_equal.
            rewrite HD. replace (b - m) with 1 by lia. rewrite down_S, Nat.add_0_r. reflexivity.
        + cbn [bind]. rewrite (Hempty _ _ _ _ Hr). destruct (Nat.ltb_spec m b); [|lia]. cbn [negb].
          destruct (STEP true r (b - m)) as (r'' & En & Ep); auto.
          { replace (m + (b - m)) with b by lia. auto. } { lia. }
          { replace (m + (b - m)) with b by lia. auto. }
          rewrite En. cbn [bind]. match goal with |- bind ?X ?F = _ => rewrite (Ep : X = Some _) end. cbn [bind]. rewrite IHrs. cbn [bind app]. f_equal. f_equal. auto.
    Qed.
    Theorem pb_range_ok range a b rs : is_range_empty range = negb (a <? b) ->
      (a < b -> split_range range = Some rs /\ chain rs a b) -> b < n ->
      pb_range phi get_sample split_range split_run navigate s n is_range_empty update_run is_run_empty
        loop_fuel (S s) range (SA b) = Some (down sa a (b - a)).
    Proof.
      intros He Hs Hb. unfold pb_range. rewrite He. destruct (Nat.ltb_spec a b) as [H|H]; cbn [negb].
      - destruct (Hs H) as [-> Hc]. cbn [bind].
        pose proof (pb_runs_ok (S s) 0 (rev rs) a b a ltac:(lia) ltac:(lia) (chain_rev _ _ _ Hc)) as G.
        replace (a + (b - a)) with b in G by lia. rewrite G; auto.
        split; [lia|]. intros i Hi. split; auto. intros; lia.
      - replace (b - a) with 0 by lia. auto.
    Qed.
  End Plain.

  Section Valid.
    Variable phiv : nat -> option (nat * bool).
    Hypothesis Htotal : forall z, z < n -> exists vv, phiv (SA z) = Some vv.
    Hypothesis Htrue : forall y w, S y < n -> phiv (SA (S y)) = Some (w, true) -> w = SA y.
    Hypothesis Hphi : forall y, S y < n -> (forall l, l < s -> kept (lfi T sa l y) = false) ->
      exists b, phiv (SA (S y)) = Some (SA y, b).

    (** [vv] is the candidate for the value of the row before [z]. *)
    Definition cand (z : nat) (vv : nat * bool) : Prop :=
      (snd vv = true -> 0 < z -> fst vv = SA (z - 1)) /\ (snd vv = false -> phiv (SA z) = Some vv).
    Lemma cand_phi z : z < n -> exists vv, phiv (SA z) = Some vv /\ cand z vv.
    Proof.
      intros Hz. destruct (Htotal z Hz) as [[w b] E]. exists (w, b). split; auto. split; cbn [fst snd]; intros Hb.
      - intros H0. apply Htrue; [lia|]. replace (S (z - 1)) with z by lia. congruence.
      - auto.
    Qed.

    Lemma pbv_valid_ok : forall m fuel f r a z vv, m <= fuel -> Rr f r a (a + m) -> z + m < n -> cand (z + m) vv ->
      exists k r' vv', k <= m /\
        pbv_valid_loop update_run is_run_empty phiv fuel r vv = Some ((r', vv'), down sa (z + (m - k)) k) /\
        Rr (f && (k =? 0)) r' a (a + (m - k)) /\ cand (z + (m - k)) vv' /\
        (k = m \/ snd vv' = false) /\ (k = 0 -> vv' = vv /\ r' = r) /\ (snd vv = true -> 0 < m -> 0 < k).
    Proof.
      induction m as [|m IH]; intros fuel f r a z vv Hf Hr Hz Hc.
      - exists 0, r, vv. split; auto.
        assert (E : pbv_valid_loop update_run is_run_empty phiv fuel r vv = Some ((r, vv), [])).
        { destruct fuel; cbn [pbv_valid_loop]; rewrite (Hempty _ _ _ _ Hr), Nat.add_0_r, Nat.ltb_irrefl; auto. }
        rewrite E. cbn [Nat.sub]. rewrite andb_true_r. split; [auto|]. split; [auto|]. split; [auto|]. split; [auto|]. split; [auto|lia].

      - destruct (snd vv) eqn:Ev.
        + destruct fuel as [|fuel]; [lia|]. cbn [pbv_valid_loop]. rewrite Ev, (Hempty _ _ _ _ Hr).
          destruct (Nat.ltb_spec a (a + S m)); [|lia]. cbn [negb andb].
          destruct Hc as [Hc _]. specialize (Hc Ev ltac:(lia)).
          replace (z + S m - 1) with (z + m) in Hc by lia. rewrite Hc.
          destruct (cand_phi (z + m) ltac:(lia)) as (vv1 & E1 & Hc1). rewrite E1. cbn [bind].
          pose proof (Hupdate _ _ _ _ Hr ltac:(lia)) as Hu. replace (a + S m - 1) with (a + m) in Hu by lia.
          destruct (IH fuel false (update_run r) a z vv1 ltac:(lia) Hu ltac:(lia) Hc1)
            as (k & r' & vv' & Hk & E & Hr' & Hc' & Hd & _).
          rewrite E. cbn [bind]. exists (S k), r', vv'. split; [lia|].
          replace (S m - S k) with (m - k) by lia. split.
          { rewrite down_S. do 3 f_equal. f_equal. lia. }
          cbn [Nat.eqb]. rewrite andb_false_r. split; auto. split; auto. split; [intuition lia|].
          split; [lia|lia].
        + exists 0, r, vv. split; [lia|].
          assert (E : pbv_valid_loop update_run is_run_empty phiv fuel r vv = Some ((r, vv), [])).
          { destruct fuel; cbn [pbv_valid_loop]; rewrite Ev, andb_false_r; auto. }
          rewrite E. rewrite Nat.sub_0_r, andb_true_r. split; auto. split; auto. split; auto.
          split; auto. split; auto. congruence.
    Qed.

    (** The loop leaves rows that are not kept and an invalid candidate, or nothing. *)
    Lemma pbv_do_ok F L r a b z vv : 2 <= F -> a < b -> Rr true r a b -> orig L a (b - a) z -> cand (z + (b - a)) vv ->
      exists m r' vv' f, m <= b - a /\
        pbv_do_loop get_sample n update_run is_run_empty loop_fuel phiv F L r vv
          = Some ((r', vv'), down sa (z + m) (b - a - m)) /\
        Rr f r' a (a + m) /\ cand (z + m) vv' /\ (0 < m -> snd vv' = false /\ kept (a + m - 1) = false).
    Proof.
      intros HF Hab Hr Ho Hc. assert (Hz : z + (b - a) < n) by apply Ho.
      destruct F as [|F]; [lia|]. destruct F as [|F]; [lia|]. cbn [pbv_do_loop].
      assert (Hr0 : Rr true r a (a + (b - a))) by (replace (a + (b - a)) with b by lia; auto).
      destruct (pbv_valid_ok (b - a) loop_fuel true r a z vv ltac:(lia) Hr0 Hz Hc)
        as (k & r1 & vv1 & Hk & E1 & Hr1 & Hc1 & Hd1 & Hk0 & Hpos).
      rewrite E1. cbn [bind]. rewrite (Hempty _ _ _ _ Hr1).
      destruct (Nat.ltb_spec a (a + (b - a - k))) as [Hlt|Hge]; cbn [negb].
      2:{ exists (b - a - k), r1, vv1, (true && (k =? 0)). split; [lia|].
          replace (b - a - (b - a - k)) with k by lia. split; auto. split; auto. split; auto. lia. }
      assert (Hinv : snd vv1 = false) by (destruct Hd1; [lia|auto]).
      rewrite (Hsample _ _ _ _ Hr1 Hlt). cbn [bind].
      destruct (kept (a + (b - a - k) - 1)) eqn:Ek.
      - (* sampled: nothing was cut *)
        assert (k = 0).
        { destruct (Nat.eq_dec k 0); auto. exfalso. destruct (Nat.eqb_spec k 0); [lia|]. cbn [andb] in Hr1.
          rewrite (Hcut _ _ _ Hr1 Hlt) in Ek. discriminate. }
        subst k. destruct (Hk0 eq_refl) as [-> ->]. rewrite Nat.sub_0_r in *.
        replace (a + (b - a) - 1) with (b - 1) in * by lia.
        pose proof (n_pos T HT). fold n in H. rewrite umod_ok by auto. cbn [bind snd].
        assert (Ev : (tpos T sa (b - 1) + 1 + L) mod n = SA (z + (b - a) - 1)).
        { pose proof (orig_sample L a (b - a) z (b - a - 1) Ho ltac:(lia)) as G.
          replace (a + (b - a - 1)) with (b - 1) in G by lia. rewrite G. f_equal. lia. }
        rewrite Ev.
        assert (Hc2 : cand (z + (b - a)) (SA (z + (b - a) - 1), true)).
        { split; cbn [fst snd]; [auto|discriminate]. }
        destruct (pbv_valid_ok (b - a) loop_fuel true r a z _ ltac:(lia) Hr0 Hz Hc2)
          as (k & r2 & vv2 & Hk2 & E2 & Hr2 & Hc3 & Hd2 & Hk02 & Hpos2).
        rewrite E2. cbn [bind]. rewrite (Hempty _ _ _ _ Hr2).
        specialize (Hpos2 eq_refl ltac:(lia)).
        destruct (Nat.eqb_spec k 0); [lia|]. cbn [andb] in Hr2.
        exists (b - a - k), r2. replace (b - a - (b - a - k)) with k by lia.
        destruct (Nat.ltb_spec a (a + (b - a - k))) as [Hlt2|Hge2]; cbn [negb].
        2:{ exists vv2, false. split; [lia|]. cbn [app]. split; auto. split; auto. split; auto. lia. }
        assert (Hinv2 : snd vv2 = false) by (destruct Hd2; [lia|auto]).
        rewrite (Hsample _ _ _ _ Hr2 Hlt2). rewrite (Hcut _ _ _ Hr2 Hlt2). cbn [bind]. rewrite Hinv2. cbn [bind app].
        exists vv2, false. split; [lia|]. split; [auto|]. split; [auto|]. split; [auto|]. intros _. split; [auto|].
        auto.
      - cbn [bind]. rewrite Hinv. exists (b - a - k), r1, vv1, (true && (k =? 0)). split; [lia|].
        replace (b - a - (b - a - k)) with k by lia. split; auto.
    Qed.

    Lemma pbv_phi_ok : forall m fuel r a a0 (vv : nat * bool), 0 < m -> m <= fuel -> Nv r a (a + m) ->
      a0 + m < n -> (forall i, i < m -> forall l, l < s -> kept (lfi T sa l (a0 + i)) = false) ->
      fst vv = SA (a0 + m - 1) ->
      exists vv', pbv_phi_loop update_run is_run_empty phiv fuel r (fst vv) = Some (vv', down sa a0 m) /\ cand a0 vv'.
    Proof.
      induction m as [|m IH]; intros fuel r a a0 vv Hm Hf Hr Hb Hk Ev; [lia|].
      destruct fuel as [|fuel]; [lia|]. cbn [pbv_phi_loop]. rewrite Ev.
      replace (a0 + S m - 1) with (a0 + m) in * by lia.
      pose proof (HupdateN _ _ _ Hr ltac:(lia)) as Hu. replace (a + S m - 1) with (a + m) in Hu by lia.
      destruct m as [|m].
      - rewrite Nat.add_0_r in *. destruct (cand_phi a0 ltac:(lia)) as (vv' & E & Hc). rewrite E. cbn [bind].
        rewrite (HemptyN _ _ _ Hu), Nat.ltb_irrefl. cbn [negb]. exists vv'. rewrite down_S, Nat.add_0_r. auto.
      - rewrite Nat.add_succ_r.
        destruct (Hphi (a0 + m)) as [bb E]; [lia|apply Hk; lia|]. rewrite E. cbn [bind fst].
        rewrite (HemptyN _ _ _ Hu). destruct (Nat.ltb_spec a (a + S m)); [|lia]. cbn [negb].
        destruct (IH fuel (update_run r) a a0 (SA (a0 + m), bb)) as (vv' & E' & Hc'); auto; try lia.
        { cbn [fst]. f_equal. lia. }
        cbn [fst] in E'. rewrite E'. cbn [bind]. exists vv'. split; auto. rewrite (down_S _ _ (S m)).
        replace (S (a0 + m)) with (a0 + S m) by lia. reflexivity.
    Qed.

    Lemma pbv_runs_ok : forall f L rs a b a0 vv, L + f >= S s -> L <= s -> rchain rs a b -> orig L a (b - a) a0 ->
      cand (a0 + (b - a)) vv ->
      exists vv', pbv_runs get_sample split_run navigate s n update_run is_run_empty loop_fuel phiv f rs vv L
      = Some (vv', down sa a0 (b - a)) /\ cand a0 vv'.
    Proof.
      induction f as [|f IHf]; intros L rs a b a0 vv HL HLs; [lia|].
      revert b vv. cbn [pbv_runs].
      match goal with |- forall b vv, _ -> _ -> _ -> exists vv', ?g rs _ = _ /\ _ => set (go := g) end.
      induction rs as [|r rs IHrs]; intros b vv Hc Ho Hv.
      - cbn in Hc. subst b. cbn. rewrite Nat.sub_diag, Nat.add_0_r in *. eauto.
      - destruct Hc as (m & Ham & Hmb & Hr & Hc).
        assert (Ho1 : orig L m (b - m) (a0 + (m - a))).
        { pose proof (orig_sub L a (b - a) a0 (m - a) (b - m) Ho ltac:(lia)) as G.
          replace (a + (m - a)) with m in G by lia. auto. }
        assert (Ho2 : orig L a (m - a) a0).
        { pose proof (orig_sub L a (b - a) a0 0 (m - a) Ho ltac:(lia)) as G. rewrite !Nat.add_0_r in G. auto. }
        set (z0 := a0 + (m - a)) in *.
        replace (a0 + (b - a)) with (z0 + (b - m)) in Hv by (unfold z0; lia).
        assert (HD : down sa a0 (b - a) = down sa z0 (b - m) ++ down sa a0 (m - a)).
        { replace (b - a) with ((m - a) + (b - m)) by lia. apply down_app. }
        unfold go; cbn fix beta iota; fold go.
        destruct (pbv_do_ok loop_fuel L r m b z0 vv ltac:(lia) Hmb Hr Ho1 Hv) as (q & r1 & vv1 & g & Hq & E1 & Hr1 & Hc1 & Hi1).
        rewrite E1. cbn [bind]. rewrite (Hempty _ _ _ _ Hr1), negb_involutive.
        assert (HD2 : down sa z0 (b - m) = down sa (z0 + q) (b - m - q) ++ down sa z0 q).
        { replace (b - m) with (q + (b - m - q)) at 1 by lia. apply down_app. }
        destruct (Nat.ltb_spec m (m + q)) as [Hlt|Hge].
        + destruct (Hi1 ltac:(lia)) as [Hinv Hk].
          destruct (Hnav g r1 m (m + q) Hr1 Hlt Hk) as (r'' & -> & HN & HLF). cbn [bind].
          replace (m + q - m) with q in * by lia.
          pose proof (HRn _ _ _ _ Hr1) as Hmq.
          pose proof (LFr_bound m q Hmq ltac:(lia) HLF) as HB.
          assert (Ho' : orig (S L) (LFr m) q z0).
          { assert (G : orig L m q z0).
            { pose proof (orig_sub L m (b - m) z0 0 q Ho1 ltac:(lia)) as G. rewrite !Nat.add_0_r in G. auto. }
            pose proof (orig_next L g r1 m (m + q) z0 Hr1 Hlt) as G2.
            replace (m + q - m) with q in G2 by lia. auto. }
          assert (STEP : exists vv2,
            (if s <=? S L then pbv_phi_loop update_run is_run_empty phiv loop_fuel r'' (fst vv1)
             else runs' <- split_run r'' ;;
                pbv_runs get_sample split_run navigate s n update_run is_run_empty loop_fuel phiv f (rev runs')
                  vv1 (S L)) = Some (vv2, down sa z0 q) /\ cand z0 vv2).
          { destruct (Nat.leb_spec s (S L)) as [Hs|Hs].
            - pose proof (proj1 Ho') as Hzq. apply pbv_phi_ok with (a := LFr m); [lia|lia|auto|auto| |].
              + intros i Hi l Hl. apply Ho'; lia.
              + destruct Hc1 as [_ Hc1]. specialize (Hc1 Hinv).
                destruct (Hphi (z0 + q - 1)) as [bb Eb].
                * destruct Ho' as [? _]. lia.
                * intros l Hl. replace (z0 + q - 1) with (z0 + (q - 1)) by lia. apply Ho'; lia.
                * replace (S (z0 + q - 1)) with (z0 + q) in Eb by lia. rewrite Hc1 in Eb. injection Eb as ->. auto.
            - destruct (Hsplit r'' _ _ HN ltac:(lia) HB) as (rs' & -> & Hch). cbn [bind].
              pose proof (IHf (S L) (rev rs') (LFr m) (LFr m + q) z0 vv1 ltac:(lia) ltac:(lia) (chain_rev _ _ _ Hch)) as G.
              replace (LFr m + q - LFr m) with q in G by lia. auto. }
          destruct STEP as (vv2 & Ep & Hc2).
          match goal with |- exists v, bind ?X ?F = _ /\ _ => rewrite (Ep : X = Some _) end. cbn [bind].
          destruct (IHrs m vv2 Hc Ho2 Hc2) as (vv3 & E3 & Hc3). rewrite E3. cbn [bind]. exists vv3. split; auto.
          rewrite HD, HD2, <- app_assoc. auto.
        + assert (q = 0) by lia. subst q. rewrite Nat.add_0_r in Hc1.
          destruct (IHrs m vv1 Hc Ho2 Hc1) as (vv3 & E3 & Hc3). rewrite E3. cbn [bind]. exists vv3. split; auto.
          rewrite HD, HD2. cbn [down]. unfold down at 4. cbn [seq rev map]. rewrite app_nil_r. auto.
    Qed.
    Theorem pbv_range_ok range a b rs : is_range_empty range = negb (a <? b) ->
      (a < b -> split_range range = Some rs /\ chain rs a b) -> b < n ->
      pbv_range get_sample split_range split_run navigate s n is_range_empty update_run is_run_empty
        loop_fuel phiv (S s) range (SA b) = Some (down sa a (b - a)).
    Proof.
      intros He Hs Hb. unfold pbv_range. rewrite He. destruct (Nat.ltb_spec a b) as [H|H]; cbn [negb].
      - destruct (cand_phi b Hb) as (vv & -> & Hc0). cbn [bind].
        destruct (Hs H) as [-> Hc]. cbn [bind].
        destruct (pbv_runs_ok (S s) 0 (rev rs) a b a vv ltac:(lia) ltac:(lia) (chain_rev _ _ _ Hc)) as (vv' & E & _).
        + split; [lia|]. intros i Hi. split; auto. intros; lia.
        + replace (a + (b - a)) with b by lia. auto.
        + rewrite E. auto.
      - replace (b - a) with 0 by lia. auto.
    Qed.
  End Valid.
End Back.
