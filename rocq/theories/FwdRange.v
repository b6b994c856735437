(** PhiForwardForRange and its validity variant over an abstract run type: they report the values
    of the rows of a range in order. *)
From Coq Require Import List Arith Bool Lia ZifyBool ZifyNat.
From Verif Require Import Spec MBase Lists FM MPhi MRIndex Phi Util Nav MSrCsa.
Import ListNotations.

Definition up (sa : list nat) (a m : nat) : list nat := map (SA sa) (seq a m).
Lemma up_S sa a m : up sa a (S m) = SA sa a :: up sa (S a) m.
Proof. reflexivity. Qed.
Lemma up_app sa a m k : up sa a (m + k) = up sa a m ++ up sa (a + m) k.
Proof. unfold up. rewrite seq_app, map_app. reflexivity. Qed.

Section Iter.
  Variables (T sa : list nat).
  Hypothesis HT : text_ok T.
  Hypothesis HSA : is_suffix_array T sa.
  Let n := len T.
  Definition psi_it (l i : nat) : nat := Nat.iter l (PSr T sa) i.
  Lemma psi_it_S l i : psi_it (S l) i = psi_it l (PSr T sa i).
  Proof. induction l as [|l IH]; auto. change (PSr T sa (psi_it (S l) i) = PSr T sa (psi_it l (PSr T sa i))). congruence. Qed.
  Lemma psi_it_add l k i : psi_it (l + k) i = psi_it l (psi_it k i).
  Proof.
    induction l as [|l IH]; auto. change (PSr T sa (psi_it (l + k) i) = PSr T sa (psi_it l (psi_it k i))).
    congruence.
  Qed.
  Lemma psi_it_lt l i : i < n -> psi_it l i < n.
  Proof. intros H. destruct l; cbn; auto. apply (PSr_lt T sa HT HSA). Qed.
  Lemma tpos_PSr i : i < n -> tpos T sa (PSr T sa i) = SA sa i.
  Proof.
    intros Hi. unfold tpos. rewrite (SA_PSr T sa HT HSA). apply (cpred_csucc T HT).
    apply (SA_lt T sa HSA); auto.
  Qed.
  (** One step raises the text position of a row, except at the row of the last position. *)
  Lemma tpos_step i : i < n -> i <> ISA sa 0 -> tpos T sa (PSr T sa i) = S (tpos T sa i) /\ S (tpos T sa i) < n.
  Proof.
    intros Hi Hne. rewrite tpos_PSr by auto. pose proof (csucc_tpos T sa HT HSA i Hi) as E.
    pose proof (tpos_lt T sa HT i) as Hl. fold n in Hl.
    assert (S (tpos T sa i) <> n).
    { intros E'. apply Hne. apply (tpos_inj T sa HT HSA); auto.
      - apply (ISA_lt T sa HSA). apply (n_pos T HT).
      - rewrite (tpos_ISA_0 T sa HT HSA). fold n. lia. }
    unfold csucc in E. fold n in E. rewrite Nat.mod_small in E by lia. lia.
  Qed.
  Lemma psi_it_tpos L : forall i, i < n -> (forall l, l < L -> psi_it l i <> ISA sa 0) ->
    tpos T sa (psi_it L i) = tpos T sa i + L.
  Proof.
    induction L as [|L IH]; intros i Hi H; [cbn; lia|].
    change (psi_it (S L) i) with (PSr T sa (psi_it L i)).
    destruct (tpos_step (psi_it L i)) as [E _]; [apply psi_it_lt; auto|apply H; lia|].
    rewrite E, IH by (auto; intros; apply H; lia). lia.
  Qed.
  Lemma psi_it_sample L i : i < n -> (forall l, l < L -> psi_it l i <> ISA sa 0) ->
    sample_value n (tpos T sa (psi_it L i)) (S L) = Some (SA sa i).
  Proof.
    intros Hi H. unfold sample_value. rewrite psi_it_tpos by auto.
    pose proof (n_pos T HT) as Hn. fold n in Hn.
    rewrite sub64_ok by lia. rewrite umod_ok by auto. f_equal.
    rewrite <- (csucc_tpos T sa HT HSA i Hi). unfold csucc. fold n.
    replace (tpos T sa i + L + 1 + n - S L + 1) with (tpos T sa i + 1 + 1 * n) by lia.
    apply Nat.mod_add. lia.
  Qed.
End Iter.

Section Fwd.
  Variables (T sa : list nat).
  Hypothesis HT : text_ok T.
  Hypothesis HSA : is_suffix_array T sa.
  Let n := len T.
  Notation SA := (SA sa).
  Notation PSr := (PSr T sa).
  Notation psi_it := (psi_it T sa).

  Context {Range Run : Type}.
  Variable get_sample : Run -> option (option nat).
  Variable split_range : Range -> option (list Run).
  Variable split_run : Run -> option (list Run).
  Variable s : nat.
  Variable is_range_empty : Range -> bool.
  Variable update_run : Run -> Run.
  Variable is_run_empty : Run -> bool.
  Variable loop_fuel : nat.

  (** [Rr fresh r a b]: [r] stands for the rows a..b-1; only row a may be kept, and not even that
      one when [fresh] is false. *)
  Variable Rr : bool -> Run -> nat -> nat -> Prop.
  Variable kept : nat -> bool.

  (** The runs cover the images by [g] of x..y-1, in order. *)
  Fixpoint fchain (g : nat -> nat) (rs : list Run) (x y : nat) : Prop :=
    match rs with
    | [] => x = y
    | r :: rs' => exists m b, 0 < m /\ x + m <= y /\ Rr true r b (b + m) /\
                    (forall i, i < m -> g (x + i) = b + i) /\ fchain g rs' (x + m) y
    end.
  Lemma fchain_le g rs : forall x y, fchain g rs x y -> x <= y.
  Proof. induction rs as [|r rs IH]; cbn; intros x y H; [lia|]. destruct H as (m & b & ? & ? & _). lia. Qed.

  Lemma out_fold_ok {A} (F : Run -> A -> out A) (C : nat -> A -> Prop) g rs : forall x m z v,
    fchain g rs x (x + m) -> C z v ->
    (forall r b o k v, Rr true r b (b + k) -> 0 < k -> o + k <= m -> (forall i, i < k -> g (x + o + i) = b + i) ->
       C (z + o) v -> exists v', F r v = Some (v', up sa (z + o) k) /\ C (z + o + k) v') ->
    exists v', out_fold F rs v = Some (v', up sa z m) /\ C (z + m) v'.
  Proof.
    induction rs as [|r rs IH]; intros x m z v Hc Hv HF.
    - cbn in Hc. assert (m = 0) by lia. subst m. exists v. rewrite Nat.add_0_r. auto.
    - destruct Hc as (k & b & Hk & Hle & Hr & Hg & Hc).
      destruct (HF r b 0 k v Hr Hk ltac:(lia)) as (v1 & E1 & Hv1).
      + intros i Hi. rewrite Nat.add_0_r. auto.
      + rewrite Nat.add_0_r. auto.
      + rewrite Nat.add_0_r in E1, Hv1. cbn [out_fold]. rewrite E1. cbn [bind].
        destruct (IH (x + k) (m - k) (z + k) v1) as (v2 & E2 & Hv2); auto.
        * replace (x + k + (m - k)) with (x + m) by lia. auto.
        * intros r' b' o k' v' Hr' Hk' Ho Hg' Hv'. rewrite <- Nat.add_assoc in Hv' |- *.
          destruct (HF r' b' (k + o) k' v' Hr' Hk' ltac:(lia)) as (v'' & E'' & Hv''); auto.
          { intros i Hi. rewrite <- Hg' by auto. f_equal. lia. }
          eauto.
        * rewrite E2. cbn [bind]. exists v2. replace (z + k + (m - k)) with (z + m) in Hv2 by lia. split; auto.
          rewrite <- up_app. do 3 f_equal. lia.
  Qed.

  Hypothesis HRn : forall f r a b, Rr f r a b -> b <= n.
  Hypothesis Hsample : forall f r a b, Rr f r a b -> a < b ->
    get_sample r = Some (if kept a then Some (tpos T sa a) else None).
  Hypothesis Hinner : forall f r a b i, Rr f r a b -> a < i -> i < b -> kept i = false.
  Hypothesis Hcut : forall r a b, Rr false r a b -> a < b -> kept a = false.
  Hypothesis Hupdate : forall f r a b, Rr f r a b -> a < b -> Rr false (update_run r) (S a) b.
  Hypothesis Hempty : forall f r a b, Rr f r a b -> is_run_empty r = negb (a <? b).
  Hypothesis Hsplit : forall f r a b, Rr f r a b -> a < b ->
    exists rs, split_run r = Some rs /\ fchain PSr rs a b.
  Hypothesis Hfuel : n + 2 <= loop_fuel.
  Hypothesis Hzero : kept (ISA sa 0) = true.

  (** Rows a..a+m-1 are reached from rows a0.. after [L] steps without meeting a kept row. *)
  Definition orig (L a m a0 : nat) : Prop :=
    1 <= a0 /\ a0 + m <= n /\ forall i, i < m -> psi_it L (a0 + i) = a + i /\
      forall l, l < L -> kept (psi_it l (a0 + i)) = false.

  Lemma orig_sub L a m a0 k q : orig L a m a0 -> k + q <= m -> orig L (a + k) q (a0 + k).
  Proof.
    intros (H0 & H1 & H2) H. split; [lia|]. split; [lia|]. intros i Hi. destruct (H2 (k + i) ltac:(lia)) as [E1 E2].
    rewrite <- !Nat.add_assoc. split; auto.
  Qed.
  Lemma orig_next L f r a m a0 o k b : Rr f r a (a + m) -> orig L a m a0 -> kept a = false ->
    o + k <= m -> (forall i, i < k -> PSr (a + o + i) = b + i) -> orig (S L) b k (a0 + o).
  Proof.
    intros Hr (H0 & H1 & H2) Hk Hok HP. split; [lia|]. split; [lia|]. intros i Hi.
    rewrite <- Nat.add_assoc. destruct (H2 (o + i) ltac:(lia)) as [E1 E2]. split.
    - change (psi_it (S L) (a0 + (o + i))) with (PSr (psi_it L (a0 + (o + i)))). rewrite E1, Nat.add_assoc. auto.
    - intros l Hl. destruct (Nat.eq_dec l L) as [->|Hne]; [|apply E2; lia]. rewrite E1.
      destruct (Nat.eq_dec (o + i) 0) as [E|E].
      + rewrite E, Nat.add_0_r. auto.
      + eapply Hinner; eauto; lia.
  Qed.
  Lemma orig_sample L a m a0 : orig L a m a0 -> 0 < m -> sample_value n (tpos T sa a) (S L) = Some (SA a0).
  Proof.
    intros (H0 & H1 & H2) Hm. destruct (H2 0 Hm) as [E E2]. rewrite !Nat.add_0_r in *. rewrite <- E.
    apply (psi_it_sample T sa HT HSA); [fold n; lia|]. intros l Hl E'. specialize (E2 l Hl). congruence.
  Qed.

  Section Plain.
    Variable phi : nat -> option nat.
    Hypothesis Hphi : forall y, S y < n -> (forall l, l < s -> kept (psi_it l (S y)) = false) ->
      phi (SA y) = Some (SA (S y)).

    Definition before (z v : nat) : Prop := v = SA (z - 1).

    Lemma pf_loop_ok : forall m fuel f r a z, 0 < m -> m <= fuel -> Rr f r a (a + m) -> 1 <= z ->
      z + m <= n -> (forall i, i < m -> forall l, l < s -> kept (psi_it l (z + i)) = false) ->
      pf_phi_loop phi update_run is_run_empty fuel r (SA (z - 1)) = Some (SA (z + m - 1), up sa z m).
    Proof.
      induction m as [|m IH]; intros fuel f r a z Hm Hf Hr Hz Hb Hk; [lia|].
      destruct fuel as [|fuel]; [lia|]. cbn [pf_phi_loop].
      rewrite Hphi.
      2:{ lia. } 2:{ intros l Hl. replace (S (z - 1)) with (z + 0) by lia. apply Hk; lia. }
      cbn [bind]. replace (S (z - 1)) with z by lia.
      pose proof (Hupdate _ _ _ _ Hr ltac:(lia)) as Hu. replace (a + S m) with (S a + m) in Hu by lia.
      rewrite (Hempty _ _ _ _ Hu), negb_involutive. destruct (Nat.ltb_spec (S a) (S a + m)) as [H|H].
      - pose proof (IH fuel false (update_run r) (S a) (S z) ltac:(lia) ltac:(lia) Hu ltac:(lia) ltac:(lia)) as G.
        replace (S z - 1) with z in G by lia. rewrite G.
        + cbn [bind]. rewrite up_S. do 2 f_equal. f_equal. lia.
        + intros i Hi l Hl. replace (S z + i) with (z + S i) by lia. apply Hk; lia.
      - assert (m = 0) by lia. subst m. replace (z + 1 - 1) with z by lia. auto.
    Qed.

    Lemma pf_compute_ok : forall f L r a m z v, L + f >= S s -> L <= s -> Rr true r a (a + m) -> 0 < m ->
      orig L a m z -> before z v ->
      exists v', pf_compute phi get_sample split_run s n update_run is_run_empty loop_fuel f r v (S L)
      = Some (v', up sa z m) /\ before (z + m) v'.
    Proof.
      induction f as [|f IHf]; intros L r a m z v HL HLs Hr Hm Ho Hv; [lia|].
      cbn [pf_compute]. destruct (Nat.ltb_spec s (S L)) as [Hs|Hs].
      - exists (SA (z + m - 1)). split; [|red; auto]. red in Hv. subst v. pose proof (HRn _ _ _ _ Hr).
        apply pf_loop_ok with (f := true) (a := a); auto; try lia; try apply Ho.
        intros i Hi l Hl. apply Ho; lia.
      - rewrite (Hsample _ _ _ _ Hr) by lia.
        (* the rows without a sample *)
        assert (STEP : forall g r' o v', Rr g r' (a + o) (a + m) -> o < m -> kept (a + o) = false -> before (z + o) v' ->
          exists runs v'', split_run r' = Some runs /\
          out_fold (fun run v => pf_compute phi get_sample split_run s n update_run is_run_empty loop_fuel f run v (S (S L)))
            runs v' = Some (v'', up sa (z + o) (m - o)) /\ before (z + m) v'').
        { intros g r' o v' Hr' Ho' Hk Hv'. destruct (Hsplit _ _ _ _ Hr' ltac:(lia)) as (runs & Er & Hc).
          exists runs. replace (a + m) with (a + o + (m - o)) in Hr', Hc by lia.
          destruct (out_fold_ok
            (fun run v => pf_compute phi get_sample split_run s n update_run is_run_empty loop_fuel f run v (S (S L)))
            before PSr runs (a + o) (m - o) (z + o) v' Hc Hv') as (v'' & Ef & Hv'').
          - intros r1 b1 o1 k1 v1 Hr1 Hk1 Ho1 Hg1 Hv1. apply IHf with (a := b1); auto; try lia.
            apply orig_next with (f := g) (r := r') (a := a + o) (m := m - o); auto.
            apply (orig_sub L a m z o (m - o) Ho). lia.
          - exists v''. split; auto. split; auto. replace (z + m) with (z + o + (m - o)) by lia. auto. }
        destruct (kept a) eqn:Ek; cbn [bind].
        + rewrite (orig_sample L a m z Ho Hm). cbn [bind].
          pose proof (Hupdate _ _ _ _ Hr ltac:(lia)) as Hu. rewrite (Hempty _ _ _ _ Hu).
          assert (Hb1 : before (z + 1) (SA z)) by (red; f_equal; lia).
          destruct (Nat.ltb_spec (S a) (a + m)) as [Hlt|Hge]; cbn [negb].
          * destruct (STEP false (update_run r) 1 (SA z)) as (runs & v'' & Er & Ef & Hv''); auto.
            { rewrite Nat.add_1_r. auto. } { lia. }
            { rewrite Nat.add_1_r. eapply Hcut; eauto. }
            rewrite Er. cbn [bind]. rewrite Ef. cbn [bind]. exists v''. split; auto.
            replace m with (1 + (m - 1)) at 2 by lia. rewrite up_app. auto.
          * assert (m = 1) by lia. subst m. exists (SA z). auto.
        + rewrite (Hempty _ _ _ _ Hr). destruct (Nat.ltb_spec a (a + m)); [|lia]. cbn [negb].
          destruct (STEP true r 0 v) as (runs & v'' & Er & Ef & Hv''); try rewrite Nat.add_0_r; auto.
          rewrite Er. cbn [bind]. rewrite Ef. cbn [bind app]. exists v''. rewrite Nat.add_0_r, Nat.sub_0_r. auto.
    Qed.

    Theorem pf_range_ok range a b rs : is_range_empty range = negb (a <? b) ->
      (a < b -> split_range range = Some rs /\ fchain (fun i => i) rs a b) -> 1 <= a -> b <= n ->
      pf_range phi get_sample split_range split_run s n is_range_empty update_run is_run_empty
        loop_fuel (S s) range (SA (a - 1)) = Some (up sa a (b - a)).
    Proof.
      intros He Hs Ha Hb. unfold pf_range. rewrite He. destruct (Nat.ltb_spec a b) as [H|H]; cbn [negb].
      - destruct (Hs H) as [-> Hc]. cbn [bind]. replace b with (a + (b - a)) in Hc by lia.
        destruct (out_fold_ok (fun run v => pf_compute phi get_sample split_run s n update_run is_run_empty loop_fuel (S s) run v 1)
          before (fun i => i) rs a (b - a) a (SA (a - 1)) Hc eq_refl) as (v' & E & _).
        + intros r1 b1 o1 k1 v1 Hr1 Hk1 Ho1 Hg1 Hv1. apply pf_compute_ok with (a := b1); auto; try lia.
          split; [lia|]. split; [lia|]. intros i Hi. split; [cbn; auto|intros; lia].
        + rewrite E. auto.
      - replace (b - a) with 0 by lia. auto.
    Qed.
  End Plain.

  Section Valid.
    Variable phiv : nat -> option (nat * bool).
    Hypothesis Htotal : forall z, z < n -> exists vv, phiv (SA z) = Some vv.
    Hypothesis Htrue : forall y w, S y < n -> phiv (SA y) = Some (w, true) -> w = SA (S y).
    Hypothesis Hphi : forall y, S y < n -> (forall l, l < s -> kept (psi_it l (S y)) = false) ->
      exists b, phiv (SA y) = Some (SA (S y), b).

    (** [vv] is the candidate for the value of row [z]. *)
    Definition cand (z : nat) (vv : nat * bool) : Prop :=
      1 <= z /\ (snd vv = true -> z < n -> fst vv = SA z) /\ (snd vv = false -> phiv (SA (z - 1)) = Some vv).
    Lemma cand_phi z : 1 <= z -> z <= n -> exists vv, phiv (SA (z - 1)) = Some vv /\ cand z vv.
    Proof.
      intros H1 Hz. destruct (Htotal (z - 1) ltac:(lia)) as [[w b] E]. exists (w, b). split; auto.
      split; auto. split; cbn [fst snd]; intros Hb; [|auto].
      intros H0. replace z with (S (z - 1)) by lia. apply Htrue; [lia|]. congruence.
    Qed.
    Lemma cand_value z vv : cand z vv -> z < n -> (forall l, l < s -> kept (psi_it l z) = false) -> fst vv = SA z.
    Proof.
      intros (H1 & H2 & H3) Hz Hk. destruct (snd vv) eqn:Ev; [auto|].
      destruct (Hphi (z - 1)) as [bb E]; replace (S (z - 1)) with z in * by lia; auto.
      rewrite (H3 eq_refl) in E. injection E as ->. auto.
    Qed.
    Lemma phiv_next z : z < n -> exists vv, phiv (SA z) = Some vv /\ cand (S z) vv.
    Proof.
      intros Hz. destruct (cand_phi (S z)) as (vv & E & Hc); [lia|lia|].
      exists vv. replace (S z - 1) with z in E by lia. auto.
    Qed.

    Lemma pfv_valid_ok : forall m fuel f r a z vv, m <= fuel -> Rr f r a (a + m) -> z + m <= n -> cand z vv ->
      exists k r' vv', k <= m /\
        pfv_valid_loop update_run is_run_empty phiv fuel r vv = Some ((r', vv'), up sa z k) /\
        Rr (f && (k =? 0)) r' (a + k) (a + m) /\ cand (z + k) vv' /\
        (k = m \/ snd vv' = false) /\ (k = 0 -> vv' = vv /\ r' = r) /\ (snd vv = true -> 0 < m -> 0 < k).
    Proof.
      induction m as [|m IH]; intros fuel f r a z vv Hf Hr Hz Hc.
      - exists 0, r, vv. split; auto.
        assert (E : pfv_valid_loop update_run is_run_empty phiv fuel r vv = Some ((r, vv), [])).
        { destruct fuel; cbn [pfv_valid_loop]; rewrite (Hempty _ _ _ _ Hr), Nat.add_0_r, Nat.ltb_irrefl; auto. }
        rewrite E, !Nat.add_0_r in *. rewrite andb_true_r.
        split; [auto|]. split; [auto|]. split; [auto|]. split; [auto|]. split; [auto|lia].
      - destruct (snd vv) eqn:Ev.
        + destruct fuel as [|fuel]; [lia|]. cbn [pfv_valid_loop]. rewrite Ev, (Hempty _ _ _ _ Hr).
          destruct (Nat.ltb_spec a (a + S m)); [|lia]. cbn [negb andb].
          destruct Hc as (H1 & Hc & _). specialize (Hc Ev ltac:(lia)). rewrite Hc.
          destruct (phiv_next z ltac:(lia)) as (vv1 & E1 & Hc1). rewrite E1. cbn [bind].
          pose proof (Hupdate _ _ _ _ Hr ltac:(lia)) as Hu. replace (a + S m) with (S a + m) in Hu by lia.
          destruct (IH fuel false (update_run r) (S a) (S z) vv1 ltac:(lia) Hu ltac:(lia) Hc1)
            as (k & r' & vv' & Hk & E & Hr' & Hc' & Hd & _).
          rewrite E. cbn [bind]. exists (S k), r', vv'. split; [lia|]. split; [auto|].
          cbn [Nat.eqb]. rewrite andb_false_r. replace (a + S k) with (S a + k) by lia.
          replace (a + S m) with (S a + m) by lia. replace (z + S k) with (S z + k) by lia.
          split; auto. split; auto. split; [intuition lia|]. split; [lia|lia].
        + exists 0, r, vv. split; [lia|].
          assert (E : pfv_valid_loop update_run is_run_empty phiv fuel r vv = Some ((r, vv), [])).
          { destruct fuel; cbn [pfv_valid_loop]; rewrite Ev, andb_false_r; auto. }
          rewrite E. rewrite !Nat.add_0_r, andb_true_r. split; auto. split; auto. split; auto.
          split; auto. split; auto. congruence.
    Qed.

    (** The loop leaves rows that are not kept and an invalid candidate, or nothing. *)
    Lemma pfv_do_ok F L r a m z vv : 2 <= F -> 0 < m -> Rr true r a (a + m) -> orig L a m z -> cand z vv ->
      exists k r' vv' f, k <= m /\
        pfv_do_loop get_sample n update_run is_run_empty loop_fuel phiv F (S L) r vv
          = Some ((r', vv'), up sa z k) /\
        Rr f r' (a + k) (a + m) /\ cand (z + k) vv' /\ (k < m -> snd vv' = false /\ kept (a + k) = false).
    Proof.
      intros HF Hm Hr Ho Hc. pose proof Ho as (Hz1 & Hz & _). pose proof (HRn _ _ _ _ Hr) as Hrn.
      destruct F as [|F]; [lia|]. destruct F as [|F]; [lia|]. cbn [pfv_do_loop].
      destruct (pfv_valid_ok m loop_fuel true r a z vv ltac:(lia) Hr Hz Hc)
        as (k & r1 & vv1 & Hk & E1 & Hr1 & Hc1 & Hd1 & Hk0 & Hpos).
      rewrite E1. cbn [bind]. rewrite (Hempty _ _ _ _ Hr1).
      destruct (Nat.ltb_spec (a + k) (a + m)) as [Hlt|Hge]; cbn [negb].
      2:{ exists k, r1, vv1, (true && (k =? 0)). split; [lia|]. split; auto. split; auto. split; auto. lia. }
      assert (Hinv : snd vv1 = false) by (destruct Hd1; [lia|auto]).
      rewrite (Hsample _ _ _ _ Hr1 Hlt). cbn [bind].
      destruct (kept (a + k)) eqn:Ek.
      - (* sampled: nothing was cut *)
        assert (k = 0).
        { destruct (Nat.eq_dec k 0); auto. exfalso. destruct (Nat.eqb_spec k 0); [lia|]. cbn [andb] in Hr1.
          rewrite (Hcut _ _ _ Hr1 Hlt) in Ek. discriminate. }
        subst k. destruct (Hk0 eq_refl) as [-> ->]. rewrite !Nat.add_0_r in *.
        rewrite (orig_sample L a m z Ho Hm). cbn [bind snd].
        assert (Hc2 : cand z (SA z, true)).
        { split; [auto|]. split; cbn [fst snd]; [auto|discriminate]. }
        destruct (pfv_valid_ok m loop_fuel true r a z _ ltac:(lia) Hr Hz Hc2)
          as (k & r2 & vv2 & Hk2 & E2 & Hr2 & Hc3 & Hd2 & Hk02 & Hpos2).
        rewrite E2. cbn [bind]. rewrite (Hempty _ _ _ _ Hr2).
        specialize (Hpos2 eq_refl ltac:(lia)).
        destruct (Nat.eqb_spec k 0); [lia|]. cbn [andb] in Hr2.
        exists k, r2.
        destruct (Nat.ltb_spec (a + k) (a + m)) as [Hlt2|Hge2]; cbn [negb].
        2:{ exists vv2, false. split; [lia|]. cbn [app]. split; auto. split; auto. split; auto. lia. }
        assert (Hinv2 : snd vv2 = false) by (destruct Hd2; [lia|auto]).
        rewrite (Hsample _ _ _ _ Hr2 Hlt2). rewrite (Hcut _ _ _ Hr2 Hlt2). cbn [bind]. rewrite Hinv2. cbn [bind app].
        exists vv2, false. split; [lia|]. split; [auto|]. split; [auto|]. split; [auto|]. intros _. split; [auto|].
        reflexivity.
      - cbn [bind]. rewrite Hinv. exists k, r1, vv1, (true && (k =? 0)). split; [lia|]. split; auto.
    Qed.

    Lemma pfv_phi_ok : forall m fuel f r a z v, 0 < m -> m <= fuel -> Rr f r a (a + m) -> 1 <= z ->
      z + m <= n -> (forall i, i < m -> forall l, l < s -> kept (psi_it l (z + i)) = false) ->
      v = SA z ->
      exists vv', pfv_phi_loop update_run is_run_empty phiv fuel r v = Some (vv', up sa z m) /\ cand (z + m) vv'.
    Proof.
      induction m as [|m IH]; intros fuel f r a z v Hm Hf Hr Hz Hb Hk ->; [lia|].
      destruct fuel as [|fuel]; [lia|]. cbn [pfv_phi_loop].
      pose proof (Hupdate _ _ _ _ Hr ltac:(lia)) as Hu. replace (a + S m) with (S a + m) in Hu by lia.
      destruct (phiv_next z ltac:(lia)) as (vv' & E & Hc). rewrite E. cbn [bind].
      rewrite (Hempty _ _ _ _ Hu), negb_involutive. destruct (Nat.ltb_spec (S a) (S a + m)) as [H|H].
      - destruct (IH fuel false (update_run r) (S a) (S z) (fst vv')) as (vv2 & E2 & Hc2); auto; try lia.
        + intros i Hi l Hl. replace (S z + i) with (z + S i) by lia. apply Hk; lia.
        + apply cand_value; auto; [lia|]. intros l Hl. replace (S z) with (z + 1) by lia. apply Hk; lia.
        + rewrite E2. cbn [bind]. exists vv2. rewrite up_S. replace (z + S m) with (S z + m) by lia. auto.
      - assert (m = 0) by lia. subst m. exists vv'. rewrite Nat.add_1_r. auto.
    Qed.

    Lemma pfv_compute_ok : forall f L r a m z vv, L + f >= S s -> L <= s -> Rr true r a (a + m) -> 0 < m ->
      orig L a m z -> cand z vv ->
      exists vv', pfv_compute get_sample split_run s n update_run is_run_empty loop_fuel phiv f r vv (S L)
      = Some (vv', up sa z m) /\ cand (z + m) vv'.
    Proof.
      induction f as [|f IHf]; intros L r a m z vv HL HLs Hr Hm Ho Hv; [lia|].
      cbn [pfv_compute]. pose proof Ho as (Hz1 & Hz & _). pose proof (HRn _ _ _ _ Hr) as Hrn.
      destruct (Nat.ltb_spec s (S L)) as [Hs|Hs].
      - apply pfv_phi_ok with (f := true) (a := a); auto; try lia.
        + intros i Hi l Hl. apply Ho; lia.
        + apply cand_value; auto; [lia|]. intros l Hl. rewrite <- (Nat.add_0_r z). apply Ho; lia.
      - destruct (pfv_do_ok loop_fuel L r a m z vv ltac:(lia) Hm Hr Ho Hv) as (k & r1 & vv1 & g & Hk & E1 & Hr1 & Hc1 & Hi1).
        rewrite E1. cbn [bind]. rewrite (Hempty _ _ _ _ Hr1).
        destruct (Nat.ltb_spec (a + k) (a + m)) as [Hlt|Hge]; cbn [negb].
        2:{ assert (k = m) by lia. subst k. eauto. }
        destruct (Hi1 ltac:(lia)) as [Hinv Hkk].
        destruct (Hsplit _ _ _ _ Hr1 Hlt) as (runs & -> & Hc). cbn [bind].
        replace (a + m) with (a + k + (m - k)) in Hr1, Hc by lia.
        destruct (out_fold_ok
          (fun run v => pfv_compute get_sample split_run s n update_run is_run_empty loop_fuel phiv f run v (S (S L)))
          cand PSr runs (a + k) (m - k) (z + k) vv1 Hc Hc1) as (vv2 & E2 & Hc2).
        + intros r2 b2 o2 k2 v2 Hr2 Hk2 Ho2 Hg2 Hv2. apply IHf with (a := b2); auto; try lia.
          apply orig_next with (f := g) (r := r1) (a := a + k) (m := m - k); auto.
          apply (orig_sub L a m z k (m - k) Ho). lia.
        + rewrite E2. cbn [bind]. exists vv2. rewrite <- up_app.
          replace (k + (m - k)) with m by lia. replace (z + k + (m - k)) with (z + m) in Hc2 by lia. auto.
    Qed.
    Theorem pfv_range_ok range a b rs : is_range_empty range = negb (a <? b) ->
      (a < b -> split_range range = Some rs /\ fchain (fun i => i) rs a b) -> 1 <= a -> b <= n ->
      pfv_range get_sample split_range split_run s n is_range_empty update_run is_run_empty
        loop_fuel phiv (S s) range (SA (a - 1)) = Some (up sa a (b - a)).
    Proof.
      intros He Hs Ha Hb. unfold pfv_range. rewrite He. destruct (Nat.ltb_spec a b) as [H|H]; cbn [negb].
      - destruct (cand_phi a Ha ltac:(lia)) as (vv & -> & Hc0). cbn [bind].
        destruct (Hs H) as [-> Hc]. cbn [bind]. replace b with (a + (b - a)) in Hc by lia.
        destruct (out_fold_ok (fun run v => pfv_compute get_sample split_run s n update_run is_run_empty loop_fuel phiv (S s) run v 1)
          cand (fun i => i) rs a (b - a) a vv Hc Hc0) as (v' & E & _).
        + intros r1 b1 o1 k1 v1 Hr1 Hk1 Ho1 Hg1 Hv1. apply pfv_compute_ok with (a := b1); auto; try lia.
          split; [lia|]. split; [lia|]. intros i Hi. split; [cbn; auto|intros; lia].
        + rewrite E. auto.
      - replace (b - a) with 0 by lia. auto.
    Qed.
  End Valid.
End Fwd.
