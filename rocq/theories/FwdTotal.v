(** PhiForwardForRange and its validity variant from any value below the length: they report one value below
    the length for every row of the range.  Used for Locate of the empty pattern, whose initial toehold is not
    the value of the first row. *)
From Coq Require Import List Arith Bool Lia ZifyBool ZifyNat Permutation.
From Verif Require Import Spec MBase Lists FM MRle Runs RleProof MConstruct MPhi MRIndex MSrIndex Util Phi
  ConstructProof Nav PhiProof BaseProof Glue MPsi EncProof PsiSym PsiOps PsiProof PsiCore PsiSpec PsiText
  MCsa CsaNav CsaPhi PsiOrder CsaProof CsaGlue MSrCsa FwdRange FwdSubs FwdValid FwdRuns FwdQuery FwdBuild SrCsaGlue.
Import ListNotations.

Lemma umod_total a b : 0 < b -> exists x, umod a b = Some x /\ x < b.
Proof.
  intros H. unfold umod. destruct (Nat.eqb_spec b 0) as [E|E]; [lia|]. eexists. split; eauto. apply Nat.mod_upper_bound. auto.
Qed.

Section Total.
  Variables (n : nat) (step : nat -> nat).
  Hypothesis Hn0 : 0 < n.
  Context {Range Run : Type}.
  Variable get_sample : Run -> option (option nat).
  Variable split_range : Range -> option (list Run).
  Variable split_run : Run -> option (list Run).
  Variable s : nat.
  Variable is_range_empty : Range -> bool.
  Variable update_run : Run -> Run.
  Variable is_run_empty : Run -> bool.
  Variable loop_fuel : nat.
  Variable Rr : bool -> Run -> nat -> nat -> Prop.
  Variable kept : nat -> bool.
  Variable tp : nat -> nat.
  Hypothesis HRn : forall f r a b, Rr f r a b -> b <= n.
  Hypothesis Hsample : forall f r a b, Rr f r a b -> a < b -> get_sample r = Some (if kept a then Some (tp a) else None).
  Hypothesis Hcut : forall r a b, Rr false r a b -> a < b -> kept a = false.
  Hypothesis Hupdate : forall f r a b, Rr f r a b -> a < b -> Rr false (update_run r) (S a) b.
  Hypothesis Hempty : forall f r a b, Rr f r a b -> is_run_empty r = negb (a <? b).
  Hypothesis Hsplit : forall f r a b, Rr f r a b -> a < b -> exists rs, split_run r = Some rs /\ fchain Rr step rs a b.
  Hypothesis Hfuel : n + 2 <= loop_fuel.

  Definition outs (l : list nat) (m : nat) : Prop := length l = m /\ Forall (fun v => v < n) l.
  Lemma outs_app l1 l2 a b : outs l1 a -> outs l2 b -> outs (l1 ++ l2) (a + b).
  Proof. intros [A1 A2] [B1 B2]. split; [rewrite app_length; lia|apply Forall_app; auto]. Qed.
  Lemma outs_one v : v < n -> outs [v] 1.
  Proof. split; auto. Qed.
  Lemma outs_cons v l m : v < n -> outs l m -> outs (v :: l) (S m).
  Proof. intros H1 [H2 H3]. split; [cbn; lia|constructor; auto]. Qed.
  Lemma outs_nil : outs [] 0.
  Proof. split; auto. Qed.

  Lemma fold_total {A} (F : Run -> A -> out A) (C : A -> Prop) g rs : forall x m v,
    fchain Rr g rs x (x + m) -> C v ->
    (forall r b k v, Rr true r b (b + k) -> 0 < k -> C v -> exists v' l, F r v = Some (v', l) /\ C v' /\ outs l k) ->
    exists v' l, out_fold F rs v = Some (v', l) /\ C v' /\ outs l m.
  Proof.
    induction rs as [|r rs IH]; intros x m v Hc Hv HF.
    - cbn in Hc. assert (m = 0) by lia. subst m. exists v, []. split; auto. split; auto. apply outs_nil.
    - destruct Hc as (k & b & Hk & Hle & Hr & Hg & Hc).
      destruct (HF r b k v Hr Hk Hv) as (v1 & l1 & E1 & Hv1 & O1). cbn [out_fold]. rewrite E1. cbn [bind].
      replace (x + m) with (x + k + (m - k)) in Hc by lia.
      destruct (IH (x + k) (m - k) v1 Hc Hv1 HF) as (v2 & l2 & E2 & Hv2 & O2). rewrite E2. cbn [bind].
      exists v2, (l1 ++ l2). split; auto. split; auto. replace m with (k + (m - k)) by lia. apply outs_app; auto.
  Qed.
  Lemma sample_total x level : exists v, sample_value n x level = Some v /\ v < n.
  Proof. apply umod_total. auto. Qed.

  Section Plain.
    Variable phi : nat -> option nat.
    Hypothesis Hphi : forall v, v < n -> exists x, phi v = Some x /\ x < n.
    Lemma pf_loop_total : forall m fuel f r a v, 0 < m -> m <= fuel -> Rr f r a (a + m) -> v < n ->
      exists v' l, pf_phi_loop phi update_run is_run_empty fuel r v = Some (v', l) /\ v' < n /\ outs l m.
    Proof.
      induction m as [|m IH]; intros fuel f r a v Hm Hf Hr Hv; [lia|].
      destruct fuel as [|fuel]; [lia|]. cbn [pf_phi_loop]. destruct (Hphi v Hv) as (x & -> & Hx). cbn [bind].
      pose proof (Hupdate _ _ _ _ Hr ltac:(lia)) as Hu. replace (a + S m) with (S a + m) in Hu by lia.
      rewrite (Hempty _ _ _ _ Hu), negb_involutive. destruct (Nat.ltb_spec (S a) (S a + m)) as [H|H].
      - destruct (IH fuel false (update_run r) (S a) x ltac:(lia) ltac:(lia) Hu Hx) as (v' & l & -> & Hv' & O). cbn [bind].
        exists v', (x :: l). split; auto. split; auto. apply outs_cons; auto.
      - assert (m = 0) by lia. subst m. exists x, [x]. split; auto. split; auto. apply outs_one; auto.
    Qed.
    Lemma pf_compute_total : forall f L r a m v, L + f >= S s -> L <= s -> Rr true r a (a + m) -> 0 < m -> v < n ->
      exists v' l, pf_compute phi get_sample split_run s n update_run is_run_empty loop_fuel f r v (S L) = Some (v', l) /\
        v' < n /\ outs l m.
    Proof.
      induction f as [|f IHf]; intros L r a m v HL HLs Hr Hm Hv; [lia|].
      cbn [pf_compute]. pose proof (HRn _ _ _ _ Hr) as Hrn. destruct (Nat.ltb_spec s (S L)) as [Hs|Hs].
      - apply pf_loop_total with (f := true) (a := a); auto; lia.
      - rewrite (Hsample _ _ _ _ Hr) by lia.
        assert (STEP : forall g r' a' m' v', Rr g r' a' (a' + m') -> 0 < m' -> v' < n ->
          exists runs v'' l, split_run r' = Some runs /\
          out_fold (fun run v => pf_compute phi get_sample split_run s n update_run is_run_empty loop_fuel f run v (S (S L)))
            runs v' = Some (v'', l) /\ v'' < n /\ outs l m').
        { intros g r' a' m' v' Hr' Hm' Hv'. destruct (Hsplit _ _ _ _ Hr' ltac:(lia)) as (runs & Er & Hc). exists runs.
          destruct (fold_total
            (fun run v => pf_compute phi get_sample split_run s n update_run is_run_empty loop_fuel f run v (S (S L)))
            (fun v => v < n) step runs a' m' v' Hc Hv') as (v'' & l & Ef & Hv'' & O).
          - intros r1 b1 k1 v1 Hr1 Hk1 Hv1. apply IHf with (a := b1); auto; lia.
          - exists v'', l. auto. }
        destruct (kept a); cbn [bind].
        + destruct (sample_total (tp a) (S L)) as (x & -> & Hx). cbn [bind].
          pose proof (Hupdate _ _ _ _ Hr ltac:(lia)) as Hu. rewrite (Hempty _ _ _ _ Hu).
          destruct (Nat.ltb_spec (S a) (a + m)) as [H|H]; cbn [negb].
          * replace (a + m) with (S a + (m - 1)) in Hu by lia.
            destruct (STEP _ _ _ _ x Hu ltac:(lia) Hx) as (runs & v'' & l & -> & Ef & Hv'' & O). cbn [bind]. rewrite Ef. cbn [bind].
            exists v'', ([x] ++ l). split; auto. split; auto. replace m with (1 + (m - 1)) by lia. apply outs_app; auto. apply outs_one; auto.
          * assert (m = 1) by lia. subst m. exists x, [x]. split; auto. split; auto. apply outs_one; auto.
        + rewrite (Hempty _ _ _ _ Hr). destruct (Nat.ltb_spec a (a + m)); [|lia]. cbn [negb].
          destruct (STEP _ _ _ _ v Hr ltac:(lia) Hv) as (runs & v'' & l & -> & Ef & Hv'' & O). cbn [bind]. rewrite Ef. cbn [bind app].
          exists v'', l. auto.
    Qed.
    Lemma pf_range_total range a b rs v : is_range_empty range = negb (a <? b) ->
      (a < b -> split_range range = Some rs /\ fchain Rr (fun i => i) rs a b) -> v < n ->
      exists l, pf_range phi get_sample split_range split_run s n is_range_empty update_run is_run_empty
        loop_fuel (S s) range v = Some l /\ outs l (b - a).
    Proof.
      intros He Hs Hv. unfold pf_range. rewrite He. destruct (Nat.ltb_spec a b) as [H|H]; cbn [negb].
      - destruct (Hs H) as [-> Hc]. cbn [bind]. replace b with (a + (b - a)) in Hc by lia.
        destruct (fold_total (fun run v => pf_compute phi get_sample split_run s n update_run is_run_empty loop_fuel (S s) run v 1)
          (fun v => v < n) (fun i => i) rs a (b - a) v Hc Hv) as (v' & l & E & _ & O).
        + intros r1 b1 k1 v1 Hr1 Hk1 Hv1. apply pf_compute_total with (a := b1); auto; lia.
        + rewrite E. cbn [bind]. eauto.
      - exists []. replace (b - a) with 0 by lia. split; auto. apply outs_nil.
    Qed.
  End Plain.

  Section Valid.
    Variable phiv : nat -> option (nat * bool).
    Hypothesis Hphi : forall v, v < n -> exists x b, phiv v = Some (x, b) /\ x < n.
    Lemma pfv_phi_total : forall m fuel f r a v, 0 < m -> m <= fuel -> Rr f r a (a + m) -> v < n ->
      exists vv l, pfv_phi_loop update_run is_run_empty phiv fuel r v = Some (vv, l) /\ fst vv < n /\ outs l m.
    Proof.
      induction m as [|m IH]; intros fuel f r a v Hm Hf Hr Hv; [lia|].
      destruct fuel as [|fuel]; [lia|]. cbn [pfv_phi_loop]. destruct (Hphi v Hv) as (x & b & -> & Hx). cbn [bind fst].
      pose proof (Hupdate _ _ _ _ Hr ltac:(lia)) as Hu. replace (a + S m) with (S a + m) in Hu by lia.
      rewrite (Hempty _ _ _ _ Hu), negb_involutive. destruct (Nat.ltb_spec (S a) (S a + m)) as [H|H].
      - destruct (IH fuel false (update_run r) (S a) x ltac:(lia) ltac:(lia) Hu Hx) as (vv & l & -> & Hv' & O). cbn [bind].
        exists vv, (v :: l). split; auto. split; auto. apply outs_cons; auto.
      - assert (m = 0) by lia. subst m. exists (x, b), [v]. split; auto. split; auto. apply outs_one; auto.
    Qed.
    Lemma pfv_valid_total : forall m fuel f r a vv, m <= fuel -> Rr f r a (a + m) -> fst vv < n ->
      exists k r' vv' l, k <= m /\ pfv_valid_loop update_run is_run_empty phiv fuel r vv = Some ((r', vv'), l) /\
        outs l k /\ Rr (f && (k =? 0)) r' (a + k) (a + m) /\ fst vv' < n /\ (k = m \/ snd vv' = false) /\
        (snd vv = true -> 0 < m -> 0 < k).
    Proof.
      induction m as [|m IH]; intros fuel f r a vv Hf Hr Hv.
      - exists 0, r, vv, []. split; auto.
        assert (E : pfv_valid_loop update_run is_run_empty phiv fuel r vv = Some ((r, vv), [])).
        { destruct fuel; cbn [pfv_valid_loop]; rewrite (Hempty _ _ _ _ Hr), Nat.add_0_r, Nat.ltb_irrefl; auto. }
        rewrite E, !Nat.add_0_r in *. rewrite andb_true_r. split; auto. split; [apply outs_nil|].
        split; auto; lia.
      - destruct (snd vv) eqn:Ev.
        + destruct fuel as [|fuel]; [lia|]. cbn [pfv_valid_loop]. rewrite Ev, (Hempty _ _ _ _ Hr).
          destruct (Nat.ltb_spec a (a + S m)); [|lia]. cbn [negb andb].
          destruct (Hphi (fst vv) Hv) as (x & b & -> & Hx). cbn [bind].
          pose proof (Hupdate _ _ _ _ Hr ltac:(lia)) as Hu. replace (a + S m) with (S a + m) in Hu by lia.
          destruct (IH fuel false (update_run r) (S a) (x, b) ltac:(lia) Hu Hx)
            as (k & r' & vv' & l & Hk & E & O & Hr' & Hv' & Hd & _).
          rewrite E. cbn [bind]. exists (S k), r', vv', (fst vv :: l). split; [lia|]. split; [auto|]. split; [apply outs_cons; auto|].
          cbn [Nat.eqb]. rewrite andb_false_r. replace (a + S k) with (S a + k) by lia.
          replace (a + S m) with (S a + m) by lia. split; auto. split; auto. split; [intuition lia|]. lia.
        + exists 0, r, vv, []. split; [lia|].
          assert (E : pfv_valid_loop update_run is_run_empty phiv fuel r vv = Some ((r, vv), [])).
          { destruct fuel; cbn [pfv_valid_loop]; rewrite Ev, andb_false_r; auto. }
          rewrite E. rewrite !Nat.add_0_r, andb_true_r. split; auto. split; [apply outs_nil|]. split; auto. split; auto. split; auto. congruence.
    Qed.
    Lemma pfv_do_total F L r a m vv : 2 <= F -> Rr true r a (a + m) -> fst vv < n ->
      exists k r' vv' f l, k <= m /\
        pfv_do_loop get_sample n update_run is_run_empty loop_fuel phiv F L r vv = Some ((r', vv'), l) /\
        outs l k /\ Rr f r' (a + k) (a + m) /\ fst vv' < n.
    Proof.
      intros HF Hr Hv. pose proof (HRn _ _ _ _ Hr) as Hrn.
      destruct F as [|F]; [lia|]. destruct F as [|F]; [lia|]. cbn [pfv_do_loop].
      destruct (pfv_valid_total m loop_fuel true r a vv ltac:(lia) Hr Hv)
        as (k & r1 & vv1 & l1 & Hk & E1 & O1 & Hr1 & Hv1 & Hd1 & _).
      rewrite E1. cbn [bind]. rewrite (Hempty _ _ _ _ Hr1).
      destruct (Nat.ltb_spec (a + k) (a + m)) as [Hlt|Hge]; cbn [negb].
      2:{ exists k, r1, vv1, (true && (k =? 0)), l1. split; [lia|]. split; auto. }
      assert (Hinv : snd vv1 = false) by (destruct Hd1; [lia|auto]).
      rewrite (Hsample _ _ _ _ Hr1 Hlt). cbn [bind].
      destruct (kept (a + k)) eqn:Ek.
      - destruct (sample_total (tp (a + k)) L) as (x & -> & Hx). cbn [bind snd].
        replace (a + m) with (a + k + (m - k)) in Hr1 by lia.
        destruct (pfv_valid_total (m - k) loop_fuel _ r1 (a + k) (x, true) ltac:(lia) Hr1 Hx)
          as (k2 & r2 & vv2 & l2 & Hk2 & E2 & O2 & Hr2 & Hv2 & Hd2 & Hpos).
        rewrite E2. cbn [bind]. rewrite (Hempty _ _ _ _ Hr2).
        specialize (Hpos eq_refl ltac:(lia)). destruct (Nat.eqb_spec k2 0); [lia|]. rewrite andb_false_r in Hr2.
        exists (k + k2), r2. replace (a + (k + k2)) with (a + k + k2) by lia. replace (a + m) with (a + k + (m - k)) by lia.
        destruct (Nat.ltb_spec (a + k + k2) (a + k + (m - k))) as [Hlt2|Hge2]; cbn [negb].
        2:{ exists vv2, false, (l1 ++ l2). split; [lia|]. split; auto. split; [apply outs_app; auto|]. auto. }
        assert (Hinv2 : snd vv2 = false) by (destruct Hd2; [lia|auto]).
        rewrite (Hsample _ _ _ _ Hr2 Hlt2). rewrite (Hcut _ _ _ Hr2 Hlt2). cbn [bind]. rewrite Hinv2. cbn [bind].
        exists vv2, false, (l1 ++ l2). split; [lia|]. split; auto. split; [apply outs_app; auto|]. auto.
      - cbn [bind]. rewrite Hinv. exists k, r1, vv1, (true && (k =? 0)), l1. split; [lia|]. split; auto.
    Qed.
    Lemma pfv_compute_total : forall f L r a m vv, L + f >= S s -> L <= s -> Rr true r a (a + m) -> 0 < m -> fst vv < n ->
      exists vv' l, pfv_compute get_sample split_run s n update_run is_run_empty loop_fuel phiv f r vv (S L) = Some (vv', l) /\
        fst vv' < n /\ outs l m.
    Proof.
      induction f as [|f IHf]; intros L r a m vv HL HLs Hr Hm Hv; [lia|].
      cbn [pfv_compute]. pose proof (HRn _ _ _ _ Hr) as Hrn.
      destruct (Nat.ltb_spec s (S L)) as [Hs|Hs].
      - apply pfv_phi_total with (f := true) (a := a); auto; lia.
      - destruct (pfv_do_total loop_fuel (S L) r a m vv ltac:(lia) Hr Hv) as (k & r1 & vv1 & g & l1 & Hk & E1 & O1 & Hr1 & Hv1).
        rewrite E1. cbn [bind]. rewrite (Hempty _ _ _ _ Hr1).
        destruct (Nat.ltb_spec (a + k) (a + m)) as [Hlt|Hge]; cbn [negb].
        2:{ assert (k = m) by lia. subst k. eauto. }
        destruct (Hsplit _ _ _ _ Hr1 Hlt) as (runs & -> & Hc). cbn [bind].
        replace (a + m) with (a + k + (m - k)) in Hr1, Hc by lia.
        destruct (fold_total
          (fun run v => pfv_compute get_sample split_run s n update_run is_run_empty loop_fuel phiv f run v (S (S L)))
          (fun vv => fst vv < n) step runs (a + k) (m - k) vv1 Hc Hv1) as (vv2 & l2 & E2 & Hv2 & O2).
        + intros r2 b2 k2 v2 Hr2 Hk2 Hv2. apply IHf with (a := b2); auto; lia.
        + rewrite E2. cbn [bind]. exists vv2, (l1 ++ l2). split; auto. split; auto. replace m with (k + (m - k)) by lia. apply outs_app; auto.
    Qed.
    Lemma pfv_range_total range a b rs v : is_range_empty range = negb (a <? b) ->
      (a < b -> split_range range = Some rs /\ fchain Rr (fun i => i) rs a b) -> v < n ->
      exists l, pfv_range get_sample split_range split_run s n is_range_empty update_run is_run_empty
        loop_fuel phiv (S s) range v = Some l /\ outs l (b - a).
    Proof.
      intros He Hs Hv. unfold pfv_range. rewrite He. destruct (Nat.ltb_spec a b) as [H|H]; cbn [negb].
      - destruct (Hphi v Hv) as (x & bb & -> & Hx). cbn [bind].
        destruct (Hs H) as [-> Hc]. cbn [bind]. replace b with (a + (b - a)) in Hc by lia.
        destruct (fold_total (fun run v => pfv_compute get_sample split_run s n update_run is_run_empty loop_fuel phiv (S s) run v 1)
          (fun vv => fst vv < n) (fun i => i) rs a (b - a) (x, bb) Hc Hx) as (v' & l & E & _ & O).
        + intros r1 b1 k1 v1 Hr1 Hk1 Hv1. apply pfv_compute_total with (a := b1); auto; lia.
        + rewrite E. cbn [bind]. eauto.
      - exists []. replace (b - a) with 0 by lia. split; auto. apply outs_nil.
    Qed.
  End Valid.

End Total.

Lemma csa_phi_lt n marks samples lk sv v x b : csa_phi n marks samples lk sv v = Some (x, b) -> x < n.
Proof.
  unfold csa_phi, phi_forward, phi_fn. intros E.
  repeat match type of E with
  | context [bind ?m _] => destruct m as [?|] eqn:?; cbn [bind] in E; [|discriminate E]
  | context [let '(_, _) := ?p in _] => destruct p
  end.
  all: try match goal with H : umod _ _ = Some _ |- _ => unfold umod in H end.
  all: destruct (Nat.eqb_spec n 0); [discriminate|].
  all: repeat match goal with H : Some _ = Some _ |- _ => injection H as ?; subst end.
  all: apply Nat.mod_upper_bound; auto.
Qed.

Section Empty.
  Variables (w sa data : list nat).
  Hypothesis Hw : zero_free w.
  Hypothesis HSA : is_suffix_array (terminated w) sa.
  Hypothesis Hd : data = w \/ data = terminated w.
  Variable h : nat.
  Hypothesis Hh : 0 < h.
  Hypothesis Hn : S (length w) < 2 ^ 64.
  Variable s : nat.
  Notation T := (ctext w sa).
  Notation n := (len T).
  Notation B := (BW T sa).
  Notation tp := (tpos T sa).
  Let HT : text_ok T := ctext_ok w sa Hw HSA.
  Let HS : is_suffix_array T sa := ctext_sa w sa Hw HSA.
  Let Hn' : n < 2 ^ 64 := g_n w sa Hn.
  Let H0 : 0 < n := n_pos T HT.
  Variables (al : alphabet) (K : list nat) (ix : srcsa).
  Hypothesis Hal : al = construct_alphabet (BW (terminated w) sa).
  Hypothesis HF : fwd_kept T sa s K.
  Hypothesis HX : ix_common w sa al h s K ix.
  Notation kept := (memb K).
  Let Hzero : kept (ISA sa 0) = true := kept_zero T sa s K HF.

  Lemma good_closed phi : phi_good w sa s K (phi ix n) ->
    phi = phi_plain \/ phi = phi_valid_mark \/ phi = phi_valid_area ->
    forall v, v < n -> exists x b, phi ix n v = Some (x, b) /\ x < n.
  Proof.
    intros G Hphi v Hv.
    assert (Hi : ISA sa v < n) by (apply (ISA_lt T sa HS); auto).
    destruct (pg_total _ _ _ _ _ G (ISA sa v) Hi) as ([x b] & E).
    rewrite (SA_ISA T sa HS) in E by auto. exists x, b. split; auto.
    destruct Hphi as [->|[-> | ->]]; exact (csa_phi_lt _ _ _ _ _ _ _ _ E).
  Qed.

  Section Engine.
    Context {Run D : Type}.
    Variables (get_sample : Run -> option (option nat)) (split_range : range -> option (list Run))
      (split_run : Run -> option (list Run)) (update_run : Run -> Run) (is_run_empty : Run -> bool).
    Variable Rr : bool -> Run -> nat -> nat -> Prop.
    Hypothesis HRn : forall f r a b, Rr f r a b -> b <= n.
    Hypothesis Hsample : forall f r a b, Rr f r a b -> a < b -> get_sample r = Some (if kept a then Some (tp a) else None).
    Hypothesis Hcut : forall r a b, Rr false r a b -> a < b -> kept a = false.
    Hypothesis Hupdate : forall f r a b, Rr f r a b -> a < b -> Rr false (update_run r) (S a) b.
    Hypothesis Hempty : forall f r a b, Rr f r a b -> is_run_empty r = negb (a <? b).
    Hypothesis Hsplit : forall f r a b, Rr f r a b -> a < b ->
      exists rs, split_run r = Some rs /\ fchain Rr (PSr T sa) rs a b.
    Hypothesis Hsr : forall a b, a < b -> b <= n -> exists rs, split_range (a, b) = Some rs /\ fchain Rr (fun i => i) rs a b.
    Lemma all_total valid phi toe (d : step_data D) v :
      (forall v, v < n -> exists x b, phi v = Some (x, b) /\ x < n) -> toe d = Some v -> v < n ->
      exists l, compute_all_values (fwd_range valid get_sample split_range split_run s n update_run is_run_empty phi) toe
        csa_update_range (0, n) d = Some (v :: l) /\ length (v :: l) = n /\ Forall (fun x => x < n) (v :: l).
    Proof.
      intros Hphi Ht Hv. unfold compute_all_values. rewrite Ht. cbn [bind]. unfold csa_update_range. cbn [fst snd].
      assert (Hex : exists rs, 1 < n -> split_range (1, n) = Some rs /\ fchain Rr (fun i => i) rs 1 n).
      { destruct (Nat.lt_ge_cases 1 n) as [H|H]; [|exists []; lia]. destruct (Hsr 1 n H ltac:(lia)) as (l & El). eauto. }
      destruct Hex as (rs & Hrs).
      assert (G : exists l, fwd_range valid get_sample split_range split_run s n update_run is_run_empty phi (1, n) v = Some l /\
        outs n l (n - 1)).
      { unfold fwd_range. destruct valid.
        - eapply pfv_range_total with (Rr := Rr) (kept := kept) (tp := tp) (step := PSr T sa) (rs := rs); eauto.
        - eapply pf_range_total with (Rr := Rr) (kept := kept) (tp := tp) (step := PSr T sa) (rs := rs); eauto.
          intros z Hz. destruct (Hphi z Hz) as (x & b & -> & Hx). cbn [bind]. eauto. }
      destruct G as (l & E & L1 & L2). rewrite E. cbn [bind]. exists l. split; auto. split; [cbn; lia|]. constructor; auto.
    Qed.
  End Engine.

  (** The initial toehold: the position before the one of row 0. *)
  Lemma first_toehold {D} value (d : D) : value d = Some (SA sa 0) ->
    exists v, compute_toehold value n (mk_step_data 0 d) = Some v /\ v < n /\ v = (n + n - 2) mod n.
  Proof.
    intros E. unfold compute_toehold. cbn [sd_run sd_step]. rewrite E. cbn [bind]. rewrite (SA_0 T sa HT HS).
    rewrite (sub64_ok _ 0) by lia. rewrite sub64_ok by lia. destruct (umod_total (n - 1 + n - 0 - 1) n H0) as (v & E1 & Hv).
    exists v. split; auto. split; auto. unfold umod in E1. destruct (Nat.eqb_spec n 0); [lia|]. injection E1 as <-. f_equal. lia.
  Qed.
  Definition empty_total (loc : list nat -> option (list nat)) : Prop :=
    exists l, loc [] = Some ((n + n - 2) mod n :: l) /\ length ((n + n - 2) mod n :: l) = n /\
      Forall (fun x => x < n) ((n + n - 2) mod n :: l).

  Theorem row_empty valid phi ms : ix_rows w sa K ix ms ->
    phi_good w sa s K (phi ix n) -> phi = phi_plain \/ phi = phi_valid_mark \/ phi = phi_valid_area ->
    empty_total (srcsa_locate_with valid phi ix).
  Proof.
    intros HM G Hphi. pose proof (good_closed phi G Hphi) as Hcl. unfold empty_total, srcsa_locate_with.
    destruct (st_empty w sa Hw HSA h Hh Hn (sc_alpha ix) (sc_psi ix) bwt_create 0
      (fun n => compute_all_values
        (fwd_range valid (fun r : range => srcsa_get_sample ix (fst r)) (srcsa_split_range (sc_idx ix))
          (srcsa_split_run ix) (sc_rate ix) n csa_update_range range_empty (phi ix n))
        (srcsa_toehold ix n) csa_update_range)) as [_ ->]; [rewrite (xc_alpha _ _ _ _ _ _ _ HX); auto|].
    rewrite (xc_rate _ _ _ _ _ _ _ HX).
    destruct (first_toehold (compute_sa_value (sc_rate ix) (srcsa_get_sample ix) (srcsa_psi ix) n false 0) 0) as (v & Et & Hv & Ev).
    { destruct (reach T sa HT HS s K HF 0 H0 eq_refl) as (l & Hl & Hls).
      apply (jumps_ok T sa HT HS kept Hzero) with (Dr := fun pos y => pos = y) (L := l); auto; try lia.
      - intros pos y -> Hy. apply (row_sample w sa s K HF ix ms HM); auto.
      - intros pos y -> Hy. exists (PSr T sa y). split; auto. unfold srcsa_psi.
        rewrite (xc_alpha _ _ _ _ _ _ _ HX), (xc_psi _ _ _ _ _ _ _ HX). apply (core_psi_ok w sa Hw HSA al h Hal Hh Hn'); auto.
      - rewrite (xc_rate _ _ _ _ _ _ _ HX). lia. }
    rewrite <- Ev.
    apply all_total with (Rr := row_run w sa K); auto.
    - intros f rg a b (_ & H & _). auto.
    - intros f rg a b (-> & H & _) Hab. cbn [fst]. apply (row_sample w sa s K HF ix ms HM); auto. lia.
    - intros rg a b (_ & _ & _ & H). auto.
    - intros f rg a b (-> & H1 & H2 & _) Hab. split; auto. split; auto. split; auto. intros i Hi1 Hi2. apply H2; lia.
    - intros f rg a b (-> & _). auto.
    - intros f rg a b. apply (row_split w sa Hw HSA al h Hal Hh Hn' s K HF ix HX).
    - intros a b. apply (row_split_range w sa s K HF ix ms HM).
  Qed.
  Theorem run_empty valid phi qs : ix_runs w sa al K ix qs ->
    phi_good w sa s K (phi ix n) -> phi = phi_plain \/ phi = phi_valid_mark \/ phi = phi_valid_area ->
    empty_total (slim_locate_with valid phi ix).
  Proof.
    intros HQ G Hphi. pose proof (good_closed phi G Hphi) as Hcl. unfold empty_total, slim_locate_with.
    destruct (st_empty w sa Hw HSA h Hh Hn (sc_alpha ix) (sc_psi ix) slim_create (mk_psi_data 0 0 0 false)
      (fun n => compute_all_values
        (fwd_range valid (fun p => slim_get_sample ix (pi_c p) (pi_run p) (pi_is_first p))
          (fun r : range => pc_split_in_sorted_runs (sc_psi ix) (fst r) (snd r))
          (fun p => csa_split_run (al_C (sc_alpha ix)) (sc_psi ix) (pi_first p) (pi_last p))
          (sc_rate ix) n piece_update piece_empty (phi ix n))
        (slim_toehold ix n) csa_update_range)) as [_ ->]; [rewrite (xc_alpha _ _ _ _ _ _ _ HX); auto|].
    rewrite (xc_rate _ _ _ _ _ _ _ HX).
    destruct (first_toehold (compute_sa_value (Nat.max 1 (sc_rate ix))
                     (fun d => slim_get_sample ix (pd_c d) (pd_rank d) (pd_start d)) (slim_psi ix) n false 0)
                     (mk_psi_data 0 0 0 false)) as (v & Et & Hv & Ev).
    { rewrite (xc_rate _ _ _ _ _ _ _ HX). destruct (Nat.max 1 s) as [|f] eqn:Em; [lia|].
      cbn [compute_sa_value]. unfold slim_get_sample at 1. cbn [pd_start negb bind].
      destruct (data_psi w sa Hw HSA al h Hal Hh Hn' s K HF ix HX (mk_psi_data 0 0 0 false) 0 eq_refl H0) as (d' & -> & Hd'). cbn [bind].
      assert (Ek : kept (PSr T sa 0) = true) by (rewrite (PSr_first w sa Hw HSA); auto).
      assert (G' : forall f, compute_sa_value f (fun d => slim_get_sample ix (pd_c d) (pd_rank d) (pd_start d)) (slim_psi ix) n false 1 d' =
                  umod (sub64 (tp (PSr T sa 0) + 1 + n) 1) n).
      { intros [|f']; cbn [compute_sa_value]; rewrite (data_sample w sa Hw HSA al h Hal Hh Hn' s K HF ix qs HQ d' _ Hd'); rewrite Ek; reflexivity. }
      rewrite G', (tpos_PSr T sa HT HS) by auto. pose proof (SA_lt T sa HS 0 H0).
      rewrite sub64_ok by lia. rewrite umod_ok by auto. f_equal.
      replace (SA sa 0 + 1 + n - 1) with (SA sa 0 + 1 * n) by lia. rewrite Nat.mod_add by lia. apply Nat.mod_small; auto. }
    rewrite <- Ev.
    apply all_total with (Rr := piece_run w sa); auto.
    - intros f p' a b (_ & _ & H & _). auto.
    - intros f p' a b (E1 & E2 & _ & _ & H) Hab. destruct (H Hab) as (k & Hk & K1 & K2 & -> & -> & -> & _).
      apply (run_sample_at w sa Hw HSA al h Hal Hh Hn' s K HF ix qs HQ); auto. lia.
    - intros p' a b (E1 & E2 & _ & _ & H) Hab. destruct (H Hab) as (k & Hk & K1 & K2 & _ & _ & _ & K3).
      specialize (K3 eq_refl). destruct (kept a) eqn:E; auto. apply (kept_run w sa Hw HSA al h Hal Hh Hn' s K HF k) in E; auto; lia.
    - intros f p' a b (E1 & E2 & Hb & _ & H) Hab. unfold piece_update. split; [cbn; lia|]. split; [cbn; lia|]. split; auto.
      split; [discriminate|]. intros Hab'. destruct (H Hab) as (k & Hk & K1 & K2 & K3 & K4 & _).
      exists k. cbn [pi_c pi_run pi_is_first]. do 5 (split; [auto; lia|]). split; [lia|]. intros _. lia.
    - intros f p' a b (E1 & E2 & _). unfold piece_empty. rewrite E1, E2. auto.
    - intros f p a b. apply (piece_split w sa Hw HSA al h Hal Hh Hn' s K HF ix HX).
    - intros a b. apply (piece_split_range w sa Hw HSA al h Hal Hh Hn' s K HF ix HX).
  Qed.
End Empty.

Section Glue.
  Variables (w sa data : list nat).
  Hypothesis Hw : zero_free w.
  Hypothesis HSA : is_suffix_array (terminated w) sa.
  Hypothesis Hd : data = w \/ data = terminated w.
  Variable h : nat.
  Hypothesis Hh : 0 < h.
  Hypothesis Hn : S (length w) < 2 ^ 64.
  Variable s : nat.
  Lemma st_srcsa_locate_empty f valid v phi ix : build sa data h s f valid = Some ix ->
    phi = phi_plain \/ valid = true /\ (phi = phi_valid_mark \/ phi = phi_valid_area) ->
    exists l, locate_of f v phi ix [] = Some l /\ length l = S (length w) /\ (forall x, In x l -> x <= length w) /\
      hd_error l = Some (length w - 1).
  Proof.
    intros E Hphi. destruct (build_good w sa data Hw HSA Hd h Hh Hn s f valid ix E) as (al & Hal & K & HF & HX & HR & HV).
    assert (G : phi_good w sa s K (phi ix (len (ctext w sa)))).
    { destruct Hphi as [->|[Hv [-> | ->]]].
      - eapply plain_good; eauto.
      - eapply valid_mark_good; eauto.
      - eapply valid_area_good; eauto. }
    assert (Hphi' : phi = phi_plain \/ phi = phi_valid_mark \/ phi = phi_valid_area) by tauto.
    assert (R : empty_total w sa (locate_of f v phi ix)).
    { destruct f; destruct HR as [ms HR]; cbn [locate_of].
      - apply (row_empty w sa Hw HSA h Hh Hn s al K ix Hal HF HX v phi ms); auto.
      - apply (run_empty w sa Hw HSA h Hh Hn s al K ix Hal HF HX v phi ms); auto.
      - apply (run_empty w sa Hw HSA h Hh Hn s al K ix Hal HF HX v phi ms); auto. }
    destruct R as (l & E1 & E2 & E3). eexists. split; [exact E1|]. rewrite ctext_n in *. split; auto. split.
    - intros x Hx. rewrite Forall_forall in E3. specialize (E3 x Hx). cbn beta in E3. lia.
    - cbn [hd_error]. f_equal. destruct (length w) as [|m]; [reflexivity|].
      replace (S (S m) + S (S m) - 2) with (m + 1 * S (S m)) by lia. rewrite Nat.mod_add by lia. rewrite Nat.mod_small by lia. lia.
  Qed.
End Glue.
