(** Backward search over a Psi core: LF, the toehold at the start of the range, the engine. *)
From Coq Require Import List Arith Bool Lia ZifyBool ZifyNat Permutation.
From Verif Require Import Spec MBase Lists FM MRle Runs RleProof MConstruct MPhi MRIndex Util Phi ConstructProof Nav PhiProof BaseProof
  MPsi EncProof PsiSym PsiOps PsiProof PsiCore PsiSpec PsiText MCsa.
Import ListNotations.

Section Nav.
  Variables (T sa : list nat).
  Hypothesis HT : text_ok T.
  Hypothesis HSA : is_suffix_array T sa.
  Notation n := (len T).
  Notation B := (BW T sa).
  Notation R := (rle (BW T sa)).
  Notation r := (length (rle (BW T sa))).
  Notation rs k := (rstart (rle (BW T sa)) k).
  Notation sym k := (nth k (map fst (rle (BW T sa))) 0).
  Notation hrk c k := (rankP (Nat.eqb c) (map fst (rle (BW T sa))) k).
  Variables (al : alphabet) (h : nat).
  Notation sigma := (al_sigma al).
  Hypothesis Hlt : forall x, In x B -> x < sigma.
  Hypothesis Hocc : forall c, c < sigma -> In c B.
  Hypothesis Hh : 0 < h.
  Hypothesis Hn : n < 2 ^ 64.
  Hypothesis HC : forall c, c < sigma -> nth_error (al_C al) c = Some (Cc T sa c).
  Hypothesis HN : al_size al = Some n.
  Notation pc := (core B sigma h).

  Lemma Bn : length B = n.
  Proof. apply (BW_length T sa HSA). Qed.
  Lemma HBn : length B < 2 ^ 64.
  Proof. rewrite Bn. auto. Qed.
  Lemma HB0 : 0 < length B.
  Proof. rewrite Bn. apply n_pos; auto. Qed.
  Lemma rs_bw k i : k < r -> rs k <= i < rs (S k) -> bw T sa i = sym k.
  Proof. intros. unfold bw. apply sym_row; auto. Qed.
  Lemma rs_le_n k : rs k <= n.
  Proof. rewrite <- Bn. apply rs_n. Qed.
  Lemma rs_lt_n' k : k < r -> rs k < n.
  Proof. rewrite <- Bn. apply rs_lt_n. Qed.

  Lemma csa_lf_ok c st e : c < sigma -> st < e -> e <= n ->
    exists k y, k <= r /\ (k < r -> sym k = c) /\
      (forall k', k' < k -> sym k' = c -> rs (S k') <= st) /\ st < rs (S k) /\
      csa_lf al pc (st, e) c = Some (mk_data_psi (Cc T sa c + rk T sa c st) (rs k) (rs (S k)) (hrk c k), y) /\
      dp_value y = Cc T sa c + rk T sa c e.
  Proof.
    intros Hc Hse He.
    destruct (core_rank_report B sigma h Hlt Hocc Hh HBn HB0 c Hc st) as (k & K1 & K2 & K3 & K4 & K5); [rewrite Bn; lia|].
    destruct (core_rank_report B sigma h Hlt Hocc Hh HBn HB0 c Hc e) as (k2 & _ & _ & _ & _ & E5); [rewrite Bn; lia|].
    rewrite Bn in K3, K4. replace (Nat.min st (n - 1)) with st in K3, K4 by lia.
    exists k. eexists. do 4 (split; [auto|]).
    unfold csa_lf, csa_psi_rank. cbn [fst snd]. rewrite K5, E5. cbn [bind]. rewrite HC by auto. cbn [bind dp_value dp_start dp_end dp_rank].
    rewrite (Nat.add_comm _ (Cc T sa c)). split; [reflexivity|]. cbn [dp_value]. unfold rk. lia.
  Qed.

  Lemma csa_lf_range c st e : c < sigma -> st < e -> e <= n ->
    exists nx, csa_lf al pc (st, e) c = Some nx /\
      range_of_psi nx = (Cc T sa c + rk T sa c st, Cc T sa c + rk T sa c e).
  Proof.
    intros Hc Hse He. destruct (csa_lf_ok c st e) as (k & y & _ & _ & _ & _ & E & Ey); auto.
    eexists. split; [eauto|]. unfold range_of_psi. cbn [fst snd dp_value]. rewrite Ey. auto.
  Qed.

  (** No symbol [c] between rows whose ranks agree. *)
  Lemma rk_same c a : forall m, a + m <= n -> (forall i, a <= i < a + m -> bw T sa i <> c) -> rk T sa c (a + m) = rk T sa c a.
  Proof.
    induction m as [|m IH]; intros Hm Hi; [rewrite Nat.add_0_r; auto|]. rewrite Nat.add_succ_r. unfold rk in *.
    rewrite (rankP_S _ B (a + m) (bw T sa (a + m))) by (apply (BW_nth_error T sa HSA); lia).
    destruct (Nat.eqb_spec c (bw T sa (a + m))) as [E|E]; [exfalso; eapply (Hi (a + m)); [lia|auto]|].
    rewrite IH by (auto; try lia; intros; apply Hi; lia). lia.
  Qed.
  (** The run reported at [st] is the first run of [c] that ends after [st]. *)
  Lemma first_run c st e k : k <= r -> (k < r -> sym k = c) -> (forall k', k' < k -> sym k' = c -> rs (S k') <= st) ->
    st < rs (S k) -> st < e -> e <= n -> rk T sa c st < rk T sa c e ->
    k < r /\ rk T sa c (Nat.max st (rs k)) = rk T sa c st /\ bw T sa (Nat.max st (rs k)) = c.
  Proof.
    intros K1 K2 K3 K4 Hse He Hrk.
    assert (Hno : forall i, st <= i < rs k -> bw T sa i <> c).
    { intros i Hi Hb. assert (Hin : i < length B) by (rewrite Bn; pose proof (rs_le_n k); lia).
      destruct (row_run B i Hin) as (k' & Hk' & Hi').
      rewrite (rs_bw k' i) in Hb by auto.
      assert (k' < k). { destruct (Nat.le_gt_cases k k'); auto. exfalso. pose proof (rstart_mono R k k' ltac:(lia)). lia. }
      specialize (K3 k' ltac:(auto) Hb). lia. }
    assert (Kr : k < r).
    { destruct (Nat.le_gt_cases r k) as [G|]; auto. exfalso.
      assert (rs k = n) by (rewrite rs_over, Bn by auto; auto).
      assert (rk T sa c e = rk T sa c st); [|lia]. replace e with (st + (e - st)) by lia. apply rk_same; [lia|].
      intros i Hi. apply Hno. lia. }
    split; auto. pose proof (rs_lt B k Kr) as Hl. pose proof (rs_lt_n' k Kr).
    split.
    - destruct (Nat.le_gt_cases (rs k) st); [rewrite Nat.max_l by auto; auto|]. rewrite Nat.max_r by lia.
      replace (rs k) with (st + (rs k - st)) by lia. apply rk_same; [lia|]. intros i Hi. apply Hno. lia.
    - rewrite (rs_bw k) by (auto; lia). auto.
  Qed.
  Lemma LFr_first c t st : t < n -> bw T sa t = c -> rk T sa c t = rk T sa c st -> LFr T sa t = Cc T sa c + rk T sa c st.
  Proof. intros Ht Hb Hr. rewrite (LFr_formula T sa HT HSA) by auto. rewrite Hb, Hr. auto. Qed.

  (** * Toehold *)
  Context {D : Type}.
  Variables (create : range -> nat -> range_psi -> D) (init : D).
  (** [good d k]: the run data [d] denotes BWT run [k]. *)
  Variable good : D -> nat -> Prop.
  Hypothesis Hgood : forall rg c nx k, k < r -> sym k = c -> dp_start (fst nx) = rs k -> dp_rank (fst nx) = hrk c k ->
    (fst rg = rs k -> rs k = 0) -> good (create rg c nx) k.
  Notation step_create := (fun rg c nx step => mk_step_data step (create rg c nx)).

  Definition ctoe_inv (k st e : nat) (d : step_data D) : Prop :=
    k <= sd_step d /\ exists j, j < r /\ good (sd_run d) j /\ tpos T sa (rs j) = (SA sa st + (sd_step d - k)) mod n.

  Lemma ccreate_ok k c st e nx : c < sigma -> st < e -> e <= n ->
    csa_lf al pc (st, e) c = Some nx -> Cc T sa c + rk T sa c st < Cc T sa c + rk T sa c e ->
    (dp_start (fst nx) <= st -> st < dp_end (fst nx) -> st = 0) ->
    ctoe_inv k (Cc T sa c + rk T sa c st) (Cc T sa c + rk T sa c e) (step_create (st, e) c nx k).
  Proof.
    intros Hc Hse He El Hr Hcov.
    destruct (csa_lf_ok c st e) as (j & y & K1 & K2 & K3 & K4 & E & Ey); auto. rewrite El in E. injection E as ->.
    cbn [fst dp_start dp_end] in Hcov.
    destruct (first_run c st e j) as (Kr & F1 & F2); auto; [lia|].
    assert (Et : Nat.max st (rs j) = rs j) by lia. assert (Ez : st = rs j -> rs j = 0) by lia. rewrite Et in *.
    split; auto. cbn [sd_step]. exists j. split; auto. cbn [sd_run]. split.
    - apply Hgood; auto.
    - rewrite (tpos_LFr T sa HT HSA), (LFr_first c (rs j) st) by (auto using rs_lt_n').
      rewrite Nat.sub_diag, Nat.add_0_r. symmetry. apply Nat.mod_small, (SA_lt T sa HSA). pose proof (Cc_rk_le T sa HSA c e He). lia.
  Qed.

  Lemma ctoe_first k c nx st' e' : c < sigma -> csa_lf al pc (0, n) c = Some nx -> range_of_psi nx = (st', e') ->
    st' < e' -> ctoe_inv k st' e' (compute_step_data csa_lf_trivial step_create (0, n) nx c k (mk_step_data 0 init)).
  Proof.
    intros Hc El Er Hl. unfold compute_step_data. cbn [sd_step]. rewrite Nat.eqb_refl. cbn [orb].
    pose proof (n_pos T HT).
    destruct (csa_lf_range c 0 n Hc ltac:(lia) ltac:(lia)) as (nx' & E1 & E2).
    rewrite El in E1. injection E1 as <-. rewrite Er in E2. injection E2 as -> ->.
    apply ccreate_ok; auto.
  Qed.

  Lemma ctoe_step k q c nx st e st' e' d : c < sigma -> st < e -> is_range T sa q st e -> q <> [] ->
    csa_lf al pc (st, e) c = Some nx -> range_of_psi nx = (st', e') -> st' < e' -> ctoe_inv (S k) st e d ->
    ctoe_inv k st' e' (compute_step_data csa_lf_trivial step_create (st, e) nx c k d).
  Proof.
    intros Hc Hse [[_ He] _] _ El Er Hl (Hk & j & Hj & Hg & Etp). unfold compute_step_data.
    destruct (csa_lf_range c st e Hc Hse He) as (nx' & E1 & E2).
    rewrite El in E1. injection E1 as <-. rewrite Er in E2. injection E2 as -> ->.
    destruct (Nat.eqb_spec (sd_step d) 0); [lia|]. cbn [orb].
    destruct (csa_lf_trivial (st, e) c nx) eqn:Etr; cbn [negb].
    - unfold csa_lf_trivial in Etr. cbn [fst] in Etr.
      unfold range_of_psi in Er. injection Er as E3 E4. rewrite E3, E4 in Etr.
      destruct (csa_lf_ok c st e) as (i & y & K1 & K2 & K3 & K4 & E & Ey); auto. rewrite El in E. injection E as ->.
      cbn [fst dp_start dp_end] in Etr.
      destruct (first_run c st e i) as (Kr & F1 & F2); auto; [lia|].
      assert (Em : Nat.max st (rs i) = st) by lia. rewrite Em in F2.
      split; [lia|]. exists j. split; auto. split; auto. rewrite Etp.
      assert (E : LFr T sa st = Cc T sa c + rk T sa c st) by (apply LFr_first; auto; lia).
      rewrite <- E, (SA_LFr T sa HT HSA).
      rewrite <- (csucc_cpred T HT (SA sa st)) at 1 by (apply (SA_lt T sa HSA); lia).
      unfold csucc. rewrite Nat.add_mod_idemp_l by lia. f_equal. lia.
    - apply ccreate_ok; auto. intros A1 A2. exfalso.
      unfold csa_lf_trivial in Etr. cbn [fst] in Etr. apply orb_false_elim in Etr. destruct Etr as [_ Etr]. lia.
  Qed.

  (** The value of the toehold; [v] is the suffix array value of the run start. *)
  Lemma ctoe_value st e d get_sa : st < n -> sd_step d < n -> ctoe_inv 0 st e d ->
    (forall j, j < r -> good (sd_run d) j -> exists v, get_sa (sd_run d) = Some v /\ v <= n /\ v mod n = SA sa (rs j)) ->
    compute_toehold get_sa n d = Some (SA sa st).
  Proof.
    intros Hst Hsd HI Hv. clear - HT HSA Hst Hsd HI Hv. destruct HI as (_ & j & Hj & Hg & Etp). destruct (Hv j Hj Hg) as (v & Ev & Lv & Mv).
    pose proof (tpos_lt T sa HT (rs j)) as Ht. rewrite Nat.sub_0_r in Etp.
    assert (Hrn : rs j < n) by (rewrite <- (BW_length T sa HSA); apply rs_lt_n; auto). pose proof (csucc_tpos T sa HT HSA (rs j) Hrn) as Ec. unfold csucc in Ec.
    pose proof (SA_lt T sa HSA st Hst) as Hs.
    unfold compute_toehold. rewrite Ev. cbn [bind].
    rewrite (sub64_ok (v + n) (sd_step d)) by lia. rewrite sub64_ok by lia. rewrite umod_ok by lia. f_equal.
    rewrite Etp, Nat.add_mod_idemp_l in Ec by lia.
    replace (v + n - sd_step d - 1) with (v + (n - S (sd_step d))) by lia.
    rewrite <- Nat.add_mod_idemp_l, Mv, <- Ec by lia.
    replace (SA sa st + sd_step d + 1) with (SA sa st + (S (sd_step d) - 0)) by lia.
    set (x := (SA sa st + (S (sd_step d) - 0)) mod n).
    replace (x + (n - S (sd_step d))) with (x + 1 + n - S (sd_step d) - 1) by lia.
    apply circular_back; lia.
  Qed.
End Nav.

Section Engine.
  Variables (w sa : list nat).
  Hypothesis Hw : zero_free w.
  Hypothesis HSA : is_suffix_array (terminated w) sa.
  Notation T := (ctext w sa).
  Notation n := (len T).
  Notation B := (BW T sa).
  Let HT : text_ok T := ctext_ok w sa Hw HSA.
  Let HS : is_suffix_array T sa := ctext_sa w sa Hw HSA.
  Variables (al : alphabet) (h : nat).
  Hypothesis Hal : al = construct_alphabet (BW (terminated w) sa).
  Hypothesis Hh : 0 < h.
  Hypothesis Hn : n < 2 ^ 64.
  Notation sigma := (al_sigma al).
  Notation pc := (core B sigma h).
  Let Hlt := B_lt w sa Hw HSA al Hal.
  Let Hocc := ta_O w sa Hw HSA al Hal.
  Let HC := ta_C w sa Hw HSA al Hal.
  Let HN := ta_N w sa Hw HSA al Hal.

  Lemma csa_symbols p : (forall c, In c p -> c < 256) ->
    Forall2 (fun ch c => al_symbol al ch = Some c /\ c < sigma) (rev p) (rev (map (wcomp w sa) p)).
  Proof. intros Hp. pose proof (pattern_symbols w sa Hw HSA p Hp) as E. rewrite <- Hal in E. exact E. Qed.

  (** Locate over a Psi core reports the rows of the pattern in increasing order. *)
  Theorem csa_locate_rows {D} (create : range -> nat -> range_psi -> D) (init : D) (good : D -> nat -> Prop)
    (compute_all : nat -> range -> step_data D -> option (list nat)) (p : list nat) :
    (forall rg c nx k, k < length (rle B) -> nth k (map fst (rle B)) 0 = c -> dp_start (fst nx) = rstart (rle B) k ->
       dp_rank (fst nx) = rankP (Nat.eqb c) (map fst (rle B)) k ->
       (fst rg = rstart (rle B) k -> rstart (rle B) k = 0) -> good (create rg c nx) k) ->
    (forall st e d, st < e -> e <= n -> sd_step d < n -> ctoe_inv T sa good 0 st e d ->
       compute_all n (st, e) d = Some (map (SA sa) (seq st (e - st)))) ->
    query w sa p ->
    exists st e, is_range T sa (map (wcomp w sa) p) st e /\ csa_count al pc p = Some (st, e) /\
      csa_locate al pc create init compute_all p = Some (map (SA sa) (seq st (e - st))).
  Proof.
    intros Hgood Hall (Hne & Hin & Hl). unfold csa_locate, csa_count, al_size. rewrite HN. cbn [bind]. unfold engine_locate, engine_count.
    set (upd := compute_step_data csa_lf_trivial (fun rg c nx step => mk_step_data step (create rg c nx))).
    destruct (locate_loop_ok T sa HT HS sigma (csa_lf al pc) range_of_psi (al_symbol al)) with
      (update := upd) (init := mk_step_data 0 init)
      (DI := ctoe_inv T sa good) (rp := rev p) (rq := rev (map (wcomp w sa) p)) (st := 0) (e := n)
      (q := @nil nat) (d := mk_step_data 0 init)
      as (st & e & d & G1 & G2 & G3).
    - intros c st e Hc Hse He. apply (csa_lf_range T sa HT HS al h Hlt Hocc Hh Hn HC c st e); auto.
    - intros. eapply (ctoe_first T sa HT HS al h Hlt Hocc Hh Hn HC); eauto.
    - intros. eapply (ctoe_step T sa HT HS al h Hlt Hocc Hh Hn HC); eauto.
    - apply csa_symbols; auto.
    - apply is_range_full.
    - auto.
    - congruence.
    - rewrite rev_involutive, app_nil_r in G2, G3. rewrite rev_length in G1.
      rewrite (locate_count_loop _ _ upd _ _ _ _ (length p - 1) (mk_step_data 0 init)).
      rewrite G1. cbn [bind option_map fst].
      exists st, e. split; auto. split; auto.
      unfold range_empty. cbn [fst snd]. destruct (Nat.ltb_spec st e) as [Hse|Hse]; cbn [negb].
      + apply Hall; auto; [apply G2| |].
        { apply locate_loop_step in G1; [|auto]. cbn [sd_step] in G1. specialize (Hl st e G2 Hse). pose proof (n_pos T HT). lia. }
        apply G3; auto. destruct p; [congruence|discriminate].
      + replace (e - st) with 0 by lia. auto.
  Qed.
End Engine.
