(** The bounds of TraceProof.v for the indexes that construction gives. *)
From Coq Require Import List Arith Bool Lia ZifyBool ZifyNat.
From Verif Require Import Spec MBase Lists FM MRle Runs RleProof MConstruct MPhi MRIndex MSrIndex Util Phi
  ConstructProof Nav PhiProof BaseProof Glue SamplingProof BackRange SubsProof SrRuns SrProof SrGlue
  MPsi EncProof PsiSym PsiOps PsiProof PsiCore PsiSpec PsiText MCsa CsaNav CsaPhi PsiOrder CsaProof CsaGlue MSrCsa
  FwdRange FwdSubs FwdValid FwdRuns FwdQuery FwdBuild SrCsaGlue MTrace SpecTrace TraceProof.
Import ListNotations.

(** Search, toehold and range together. *)
Lemma cheap_sum s m t1 t2 t3 v :
  steps t1 <= m -> reports t1 = [] -> samples t1 = 0 -> moves t1 = 0 -> phis t1 = 0 -> pieces t1 = 0 ->
  reports t2 = [] -> samples t2 <= S (Nat.max 1 s) -> moves t2 <= Nat.max 1 s -> phis t2 = 0 -> pieces t2 = 0 -> steps t2 = 0 ->
  phis t3 <= S (rp t3) -> samples t3 <= S (Nat.max 1 s) * rp t3 -> moves t3 <= Nat.max 1 s * rp t3 ->
  pieces t3 <= S (Nat.max 1 s) * rp t3 -> steps t3 = 0 ->
  cheap s m (t1 ++ t2 ++ Report v :: t3).
Proof.
  intros. unfold cheap. change (length (reports (t1 ++ t2 ++ Report v :: t3))) with (rp (t1 ++ t2 ++ Report v :: t3)).
  assert (rp t1 = 0) by (unfold rp; rewrite H0; auto). assert (rp t2 = 0) by (unfold rp; rewrite H5; auto).
  cnt. rewrite H16, H17. set (q := Nat.max 1 s) in *. set (k := rp t3) in *. repeat split; nia.
Qed.
Lemma cheap_search s m t1 : steps t1 <= m -> reports t1 = [] -> samples t1 = 0 -> moves t1 = 0 -> phis t1 = 0 -> pieces t1 = 0 ->
  cheap s m t1.
Proof. intros. unfold cheap. lia. Qed.

(** ** Without the calls, for every index *)
Lemma sr_calls_er valid ix phi p :
  erl (t_sr_locate valid ix phi p) =
  sr_locate ix (fun n => if valid then sr_phi_for_range_valid ix n (phi n) else sr_phi_for_range ix n (phi n)) p.
Proof.
  unfold t_sr_locate, sr_locate. destruct (al_size (sr_alpha ix)) as [n|]; [cbn [bind]|reflexivity].
  apply t_engine_er. intros r d. apply t_all_er.
  - intros r' v. unfold t_sr_range. destruct valid; [apply tbv_range_er|apply tb_range_er].
  - intros d'. apply t_toehold_er. intros x. destruct (rle_select_on_runs _ _ _) as [run|]; cbn [bind]; [|reflexivity].
    apply t_sa_value_er.
  - intros v t E. unfold t_sr_toehold, t_toehold in E. destruct (rle_select_on_runs _ _ _) as [run|]; cbn [bind] in E; [|discriminate].
    destruct (t_sa_value _ _ _ _ _ _ _) as [[v1 t1]|] eqn:E1; cbn [bind] in E; [|discriminate].
    destruct (umod _ _); cbn [bind] in E; [|discriminate]. injection E as <- <-. apply t_sa_value_cost in E1. apply E1.
Qed.
Lemma fwd_range_er {Run} valid gs srg srn rate n upd emp phi r v :
  erl (@t_fwd_range Run valid gs srg srn rate n upd emp phi r v) = fwd_range valid gs srg srn rate n upd emp phi r v.
Proof. unfold t_fwd_range, fwd_range. destruct valid; [apply tfv_range_er|apply tf_range_er]. Qed.
Lemma toehold_reports {D} f (gs : D -> option (option nat)) nav n bw n' d v t :
  t_toehold (t_sa_value f gs nav n bw 0) n' d = Some (v, t) ->
  reports t = [] /\ samples t <= S f /\ moves t <= f /\ phis t = 0 /\ pieces t = 0 /\ steps t = 0.
Proof.
  unfold t_toehold. intros E. destruct (t_sa_value _ _ _ _ _ _ _) as [[v1 t1]|] eqn:E1; cbn [bind] in E; [|discriminate].
  destruct (umod _ _); cbn [bind] in E; [|discriminate]. injection E as <- <-. eapply t_sa_value_cost; eauto.
Qed.
Lemma srcsa_calls_er valid phi ix p : erl (srcsa_calls_with valid phi ix p) = srcsa_locate_with valid phi ix p.
Proof.
  unfold srcsa_calls_with, srcsa_locate_with, t_csa_locate, csa_locate. destruct (al_size (sc_alpha ix)) as [n|]; [cbn [bind]|reflexivity].
  apply t_engine_er. intros r d. apply t_all_er.
  - intros. apply fwd_range_er.
  - intros. apply t_toehold_er. intros. apply t_sa_value_er.
  - intros v t E. apply toehold_reports in E. apply E.
Qed.
Lemma slim_calls_er valid phi ix p : erl (slim_calls_with valid phi ix p) = slim_locate_with valid phi ix p.
Proof.
  unfold slim_calls_with, slim_locate_with, t_csa_locate, csa_locate. destruct (al_size (sc_alpha ix)) as [n|]; [cbn [bind]|reflexivity].
  apply t_engine_er. intros r d. apply t_all_er.
  - intros. apply fwd_range_er.
  - intros. apply t_toehold_er. intros. apply t_sa_value_er.
  - intros v t E. apply toehold_reports in E. apply E.
Qed.

(** ** SrIndex *)
Section Sr.
  Variables (w sa data : list nat).
  Hypothesis Hw : zero_free w.
  Hypothesis HSA : is_suffix_array (terminated w) sa.
  Hypothesis Hd : data = w \/ data = terminated w.
  Variable s : nat.
  Notation T := (ctext w sa).
  Notation n := (len T).
  Let HT : text_ok T := ctext_ok w sa Hw HSA.
  Let HS : is_suffix_array T sa := ctext_sa w sa Hw HSA.

  Section Index.
  Variables (ks : list nat) (R : list (nat * nat)) (ix : sri).
  Hypothesis F : sri_facts w sa s ks R ix.
  Let al := construct_alphabet (BW (terminated w) sa).
  Definition brun (x : srun) : Prop := exists f a b, SrRuns.Rr R f x a b /\ a < b.
  Definition nrun (x : srun) : Prop := exists a b, SrRuns.Nv x a b /\ a < b /\ b <= n.
  Lemma chain_runs rs : forall a b, chain (SrRuns.Rr R) rs a b -> Forall brun rs.
  Proof.
    induction rs as [|x rs IH]; intros a b H; [constructor|]. destruct H as (m & H1 & H2 & H3 & H4).
    constructor; eauto. exists true, a, m. auto.
  Qed.
  Lemma sr_range_cost valid phi r v t : snd r <= n -> t_sr_range valid ix n phi r v = Some t ->
    phis t <= S (rp t) /\ samples t <= S (Nat.max 1 s) * rp t /\ moves t <= Nat.max 1 s * rp t /\
    pieces t <= S (Nat.max 1 s) * rp t /\ steps t = 0.
  Proof.
    intros Hr E.
    pose proof (base_C w sa Hw HSA) as HC. pose proof (base_O w sa Hw HSA) as HO. pose proof (base_B w sa Hw HSA) as HB.
    pose proof (sx_repr _ _ _ _ _ _ F) as Er. pose proof (sx_R _ _ _ _ _ _ F) as ER.
    assert (HPe : forall x, brun x -> srun_empty x = false).
    { intros x (f & a & b & H1 & H2). rewrite (SrRuns.Rr_empty R f x a b H1). destruct (Nat.ltb_spec a b); auto; lia. }
    assert (HPu : forall x, brun x -> srun_empty (srun_update x) = false -> brun (srun_update x)).
    { intros x (f & a & b & H1 & H2) He. pose proof (SrRuns.Rr_update T sa al R HC HO HB f x a b H1 H2) as H3.
      rewrite (SrRuns.Rr_empty R _ _ _ _ H3) in He. exists false, a, (b - 1). split; auto.
      destruct (Nat.ltb_spec a (b - 1)); auto; discriminate. }
    assert (Hnav : forall x x', brun x -> sr_lf_for_phi (sr_alpha ix) (sr_bwt ix) x = Some x' -> nrun x').
    { intros x x' (f & a & b & H1 & H2) En. rewrite (sx_alpha _ _ _ _ _ _ F) in En.
      destruct (SrRuns.Rr_nav T sa HT HS al (sr_bwt ix) _ R Er ER HC HO HB f x a b H1 H2)
        as (x1 & E1 & N1 & N2). unfold al in E1. rewrite E1 in En. injection En as <-.
      exists (LFr T sa a), (LFr T sa a + (b - a)). split; auto. split; [lia|].
      pose proof (SrRuns.Rr_n T sa HS al R ER HC HO HB f x a b H1).
      pose proof (LFr_lt T sa HT HS (a + (b - a - 1))) as G. rewrite N2 in G by lia. lia. }
    assert (Hsplit : forall x rs, nrun x -> sr_split (sr_bwt ix) (su_start x) (su_end x) = Some rs -> rs <> [] /\ Forall brun rs).
    { intros x rs (a & b & [<- <-] & H2 & H3) Es.
      destruct (SrRuns.sr_split_ok T sa HS al (sr_bwt ix) _ R Er ER HC HO HB (su_start x) (su_end x) H2 H3) as (rs' & Es' & Hc).
      rewrite Es in Es'. injection Es' as <-. split; [|eapply chain_runs; eauto].
      intros ->. cbn in Hc. lia. }
    assert (Hrange : forall rs, range_empty r = false -> sr_split (sr_bwt ix) (fst r) (snd r) = Some rs -> Forall brun rs).
    { intros rs He Es. assert (Hlt : fst r < snd r).
      { unfold range_empty in He. destruct (Nat.ltb_spec (fst r) (snd r)); auto; discriminate. }
      destruct (SrRuns.sr_split_ok T sa HS al (sr_bwt ix) _ R Er ER HC HO HB (fst r) (snd r) Hlt Hr) as (rs' & Es' & Hc).
      rewrite Es in Es'. injection Es' as <-. eapply chain_runs; eauto. }
    unfold t_sr_range in E. destruct valid; rewrite (sx_rate _ _ _ _ _ _ F) in E.
    - apply (tbv_range_cost _ _ _ _ _ _ _ _ _ _ _ brun nrun HPe HPu Hnav Hsplit) in E; [|exact Hrange].
      replace (S (s - 1)) with (Nat.max 1 s) in E by lia. destruct E as (H1 & H2 & H3 & H4 & H5). repeat split; auto; nia.
    - apply (tb_range_cost _ _ _ _ _ _ _ _ _ _ _ brun nrun HPe HPu Hnav Hsplit) in E; [|exact Hrange].
      replace (S (s - 1)) with (Nat.max 1 s) in E by lia. destruct E as (H1 & H2 & H3 & H4 & H5). repeat split; auto; nia.
  Qed.
  Lemma sr_calls_cheap valid phi p t st e : sr_count ix p = Some (st, e) -> e <= n ->
    t_sr_locate valid ix phi p = Some t -> cheap s (length p) t.
  Proof.
    intros Ec He E. unfold t_sr_locate in E. unfold sr_count in Ec.
    assert (En : al_size (sr_alpha ix) = Some n) by (rewrite (sx_alpha _ _ _ _ _ _ F); apply (base_N w sa Hw HSA)).
    rewrite En in E, Ec. cbn [bind] in E, Ec. unfold engine_count in Ec.
    apply t_engine_cost in E. destruct E as (r & d & t1 & El & Q1 & Q2 & Q3 & Q4 & Q5 & Q6 & E).
    rewrite (locate_count_loop _ _ (compute_step_data ri_lf_trivial sr_create_data) _ _ _ _ (length p - 1)
               (mk_step_data 0 (mk_run_data_ext 0 0 false 0))) in Ec.
    rewrite El in Ec. cbn [option_map fst] in Ec. injection Ec as ->.
    destruct E as [[_ ->]|[_ (t2 & E & ->)]]; [apply cheap_search; auto|].
    unfold t_all_values in E. destruct (t_sr_toehold ix n d) as [[k t3]|] eqn:Et; cbn [bind] in E; [|discriminate].
    destruct (t_sr_range valid ix n (phi n) (ri_update_range (st, e)) k) as [t4|] eqn:E4; cbn [bind] in E; [|discriminate].
    injection E as <-.
    apply sr_range_cost in E4; [|cbn; lia]. destruct E4 as (H1 & H2 & H3 & H4 & H5).
    unfold t_sr_toehold, t_toehold in Et.
    destruct (rle_select_on_runs _ _ _) as [run|]; cbn [bind] in Et; [|discriminate].
    destruct (t_sa_value _ _ _ _ _ _ _) as [[v1 t5]|] eqn:E5; cbn [bind] in Et; [|discriminate].
    destruct (umod _ _); cbn [bind] in Et; [|discriminate]. injection Et as <- <-.
    apply t_sa_value_cost in E5. rewrite (sx_rate _ _ _ _ _ _ F) in E5. destruct E5 as (K1 & K2 & K3 & K4 & K5 & K6).
    apply cheap_sum; auto; lia.
  Qed.
  End Index.

  Lemma st_sr_calls valid phi loc ix p : construct_sri s data sa = Some ix \/ construct_sri_valid s data sa = Some ix ->
    answers w sa (sr_count ix) loc p -> erl (t_sr_locate valid ix phi p) = loc p ->
    exists t, t_sr_locate valid ix phi p = Some t /\ loc p = Some (reports t) /\ exact_answer p w (reports t) /\ cheap s (length p) t.
  Proof.
    intros H HA Her. destruct (facts_any w sa data Hw HSA Hd s ix H) as (R & ks & F).
    destruct (answers_exact w sa _ _ _ HA) as (l & El & Hex).
    destruct HA as (st & e & Ec & HI & _). rewrite El in Her.
    destruct (t_sr_locate valid ix phi p) as [t|] eqn:E; [|discriminate]. cbn [erl option_map] in Her. injection Her as Her.
    exists t. rewrite Her. split; auto. split; auto. split; auto.
    apply (sr_calls_cheap ks R ix F valid phi p t st e); auto.
    destruct HI as [HI _]. rewrite (gsa_length w sa Hw HSA) in HI. lia.
  Qed.
End Sr.

(** ** The indexes over Psi *)
Section Fwd.
  Variables (w sa data : list nat).
  Hypothesis Hw : zero_free w.
  Hypothesis HSA : is_suffix_array (terminated w) sa.
  Hypothesis Hd : data = w \/ data = terminated w.
  Variable h : nat.
  Hypothesis Hh : 0 < h.
  Hypothesis Hn : S (length w) < 2 ^ 64.
  Variable s : nat.
  Notation T := (ctext w sa).
  Notation n := (len T).
  Let HT : text_ok T := ctext_ok w sa Hw HSA.
  Let HS : is_suffix_array T sa := ctext_sa w sa Hw HSA.
  Let Hn' : n < 2 ^ 64 := g_n w sa Hn.

  Section Engine.
    Context {Run D : Type}.
    Variables (get_sample : Run -> option (option nat)) (split_range : range -> option (list Run))
      (split_run : Run -> option (list Run)) (update_run : Run -> Run) (is_run_empty : Run -> bool).
    Variable Rr : bool -> Run -> nat -> nat -> Prop.
    Hypothesis Hupdate : forall f r a b, Rr f r a b -> a < b -> Rr false (update_run r) (S a) b.
    Hypothesis Hempty : forall f r a b, Rr f r a b -> is_run_empty r = negb (a <? b).
    Hypothesis Hsplit : forall f r a b, Rr f r a b -> a < b ->
      exists rs, split_run r = Some rs /\ fchain Rr (PSr T sa) rs a b.
    Hypothesis Hsr : forall a b, a < b -> b <= n -> exists rs, split_range (a, b) = Some rs /\ fchain Rr (fun i => i) rs a b.
    Definition prun (x : Run) : Prop := exists f a b, Rr f x a b /\ a < b.
    Lemma fchain_runs g rs : forall x y, fchain Rr g rs x y -> Forall prun rs.
    Proof.
      clear Hupdate Hempty Hsplit Hsr. induction rs as [|r rs IH]; intros x y H; [constructor|].
      destruct H as (m & b & H1 & H2 & H3 & H4 & H5). constructor; eauto. exists true, b, (b + m). split; auto. lia.
    Qed.
    Lemma fwd_range_cost valid phi a b v t : b <= n ->
      t_fwd_range valid get_sample split_range split_run s n update_run is_run_empty phi (a, b) v = Some t ->
      phis t <= S (rp t) /\ samples t <= S (Nat.max 1 s) * rp t /\ moves t <= Nat.max 1 s * rp t /\
      pieces t <= S (Nat.max 1 s) * rp t /\ steps t = 0.
    Proof.
      intros Hb E.
      assert (HPe : forall x, prun x -> is_run_empty x = false).
      { intros x (f & a' & b' & H1 & H2). rewrite (Hempty f x a' b' H1). destruct (Nat.ltb_spec a' b'); auto; lia. }
      assert (HPu : forall x, prun x -> is_run_empty (update_run x) = false -> prun (update_run x)).
      { intros x (f & a' & b' & H1 & H2) He. pose proof (Hupdate f x a' b' H1 H2) as H3.
        rewrite (Hempty _ _ _ _ H3) in He. exists false, (S a'), b'. split; auto.
        destruct (Nat.ltb_spec (S a') b'); auto; discriminate. }
      assert (HSp : forall x rs, prun x -> split_run x = Some rs -> rs <> [] /\ Forall prun rs).
      { intros x rs (f & a' & b' & H1 & H2) Es. destruct (Hsplit f x a' b' H1 H2) as (rs' & Es' & Hc).
        rewrite Es in Es'. injection Es' as <-. split; [|eapply fchain_runs; eauto]. intros ->. cbn in Hc. lia. }
      assert (Hrange : forall rs, range_empty (a, b) = false -> split_range (a, b) = Some rs -> Forall prun rs).
      { intros rs He Es. assert (Hlt : a < b).
        { unfold range_empty in He. cbn [fst snd] in He. destruct (Nat.ltb_spec a b); auto; discriminate. }
        destruct (Hsr a b Hlt Hb) as (rs' & Es' & Hc). rewrite Es in Es'. injection Es' as <-. eapply fchain_runs; eauto. }
      unfold t_fwd_range in E. destruct valid.
      - apply (tfv_range_cost _ _ _ _ _ _ _ _ _ _ prun HPe HPu HSp) in E; [|exact Hrange].
        destruct E as (H1 & H2 & H3 & H4 & H5). repeat split; auto; nia.
      - apply (tf_range_cost _ _ _ _ _ _ _ _ _ _ prun HPe HPu HSp) in E; [|exact Hrange].
        destruct E as (H1 & H2 & H3 & H4 & H5). repeat split; auto; nia.
    Qed.
    Lemma fwd_calls_cheap al pc create (init : D) valid phi f gs nav p t st e : f <= Nat.max 1 s ->
      al_size al = Some n -> csa_count al pc p = Some (st, e) -> e <= n ->
      t_csa_locate al pc create init (fun n' => t_all_values
        (t_fwd_range valid get_sample split_range split_run s n' update_run is_run_empty (phi n'))
        (t_toehold (t_sa_value f gs nav n' false 0) n') csa_update_range) p = Some t ->
      cheap s (length p) t.
    Proof.
      intros Hf En Ec He E. unfold t_csa_locate in E. unfold csa_count in Ec. rewrite En in E, Ec. cbn [bind] in E, Ec.
      unfold engine_count in Ec. apply t_engine_cost in E. destruct E as (r & d & t1 & El & Q1 & Q2 & Q3 & Q4 & Q5 & Q6 & E).
      rewrite (locate_count_loop _ _ (compute_step_data csa_lf_trivial (fun r c next step => mk_step_data step (create r c next)))
                 _ _ _ _ (length p - 1) (mk_step_data 0 init)) in Ec.
      rewrite El in Ec. cbn [option_map fst] in Ec. injection Ec as ->.
      destruct E as [[_ ->]|[_ (t2 & E & ->)]]; [apply cheap_search; auto|].
      unfold t_all_values in E. match type of E with bind ?m _ = _ => destruct m as [[k t3]|] eqn:Et end; cbn [bind] in E; [|discriminate].
      match type of E with bind ?m _ = _ => destruct m as [t4|] eqn:E4 end; cbn [bind] in E; [|discriminate].
      injection E as <-. unfold csa_update_range in E4. cbn [fst snd] in E4.
      apply fwd_range_cost in E4; [|auto]. destruct E4 as (H1 & H2 & H3 & H4 & H5).
      apply toehold_reports in Et. destruct Et as (K1 & K2 & K3 & K4 & K5 & K6).
      apply cheap_sum; auto; lia.
    Qed.
  End Engine.

  Lemma row_calls_cheap al K ms ix valid phi p t st e : al = construct_alphabet (BW (terminated w) sa) ->
    fwd_kept T sa s K -> ix_common w sa al h s K ix -> ix_rows w sa K ix ms ->
    srcsa_count ix p = Some (st, e) -> e <= n -> srcsa_calls_with valid phi ix p = Some t -> cheap s (length p) t.
  Proof.
    intros Hal HF HX HM Ec He E. unfold srcsa_calls_with in E. rewrite (xc_rate _ _ _ _ _ _ _ HX) in E.
    assert (En : al_size (sc_alpha ix) = Some n).
    { rewrite (xc_alpha _ _ _ _ _ _ _ HX), Hal. apply (base_N w sa Hw HSA). }
    unfold t_srcsa_toehold in E. rewrite (xc_rate _ _ _ _ _ _ _ HX) in E.
    eapply (fwd_calls_cheap _ _ _ _ _ (row_run w sa K)) in E; eauto; try lia.
    - intros f rg a b (-> & H1 & H2 & _) Hab. split; auto. split; auto. split; auto. intros i Hi1 Hi2. apply H2; lia.
    - intros f rg a b (-> & _). auto.
    - eapply row_split; eauto.
    - eapply row_split_range; eauto.
  Qed.
  Lemma run_calls_cheap al K qs ix valid phi p t st e : al = construct_alphabet (BW (terminated w) sa) ->
    fwd_kept T sa s K -> ix_common w sa al h s K ix -> ix_runs w sa al K ix qs ->
    srcsa_count ix p = Some (st, e) -> e <= n -> slim_calls_with valid phi ix p = Some t -> cheap s (length p) t.
  Proof.
    intros Hal HF HX HM Ec He E. unfold slim_calls_with in E. rewrite (xc_rate _ _ _ _ _ _ _ HX) in E.
    assert (En : al_size (sc_alpha ix) = Some n).
    { rewrite (xc_alpha _ _ _ _ _ _ _ HX), Hal. apply (base_N w sa Hw HSA). }
    unfold t_slim_toehold in E. rewrite (xc_rate _ _ _ _ _ _ _ HX) in E.
    eapply (fwd_calls_cheap _ _ _ _ _ (piece_run w sa)) in E; eauto; try lia.
    - intros f p' a b (E1 & E2 & Hb & _ & H) Hab. unfold piece_update. split; [cbn; lia|]. split; [cbn; lia|]. split; auto.
      split; [discriminate|]. intros Hab'. destruct (H Hab) as (k & Hk & K1 & K2 & K3 & K4 & _).
      exists k. cbn [pi_c pi_run pi_is_first]. do 5 (split; [auto; lia|]). split; [lia|]. intros _. lia.
    - intros f p' a b (E1 & E2 & _). unfold piece_empty. rewrite E1, E2. auto.
    - eapply piece_split; eauto.
    - eapply piece_split_range; eauto.
  Qed.

  Definition calls_of (f : family) (valid : bool) (phi : srcsa -> nat -> nat -> option (nat * bool)) : srcsa -> list nat -> option (list call) :=
    match f with FRows => srcsa_calls_with valid phi | _ => slim_calls_with valid phi end.
  Lemma calls_of_er f valid phi ix p : erl (calls_of f valid phi ix p) = locate_of f valid phi ix p.
  Proof. destruct f; [apply srcsa_calls_er|apply slim_calls_er|apply slim_calls_er]. Qed.
  Lemma st_fwd_calls f valid v phi ix p : build sa data h s f valid = Some ix -> pattern_over w p ->
    phi = phi_plain \/ valid = true /\ (phi = phi_valid_mark \/ phi = phi_valid_area) ->
    exists t, calls_of f v phi ix p = Some t /\ locate_of f v phi ix p = Some (reports t) /\
      exact_answer p w (reports t) /\ cheap s (length p) t.
  Proof.
    intros E Hp Hphi.
    pose proof (st_answers w sa data Hw HSA Hd h Hh Hn s f valid v phi ix p E Hp Hphi) as HA.
    destruct (fwd_exact _ _ _ _ _ HA) as (l & El & Hex). destruct HA as (st & e & Ec & HI & _).
    assert (He : e <= n) by (destruct HI as [HI _]; rewrite (gsa_length w sa Hw HSA) in HI; lia).
    pose proof (calls_of_er f v phi ix p) as Her. rewrite El in Her.
    destruct (calls_of f v phi ix p) as [t|] eqn:Et; [|discriminate]. cbn [erl option_map] in Her. injection Her as Her.
    exists t. rewrite Her. split; auto. split; auto. split; auto.
    destruct (build_good w sa data Hw HSA Hd h Hh Hn s f valid ix E) as (al & Hal & K & HF & HX & HR & HV).
    destruct f; destruct HR as [ms HR]; cbn [calls_of] in Et.
    - eapply row_calls_cheap; eauto.
    - eapply run_calls_cheap; eauto.
    - eapply run_calls_cheap; eauto.
  Qed.
End Fwd.

(** ** The indexes without subsampling, for every index *)
Lemma t_phi_iter_er phi : forall k v, erl (t_phi_iter phi k v) = phi_iter phi k v.
Proof.
  induction k as [|k IH]; intros v; [reflexivity|]. cbn [t_phi_iter phi_iter].
  destruct (phi v) as [[x b]|]; cbn [bind]; [|reflexivity]. rewrite <- IH.
  destruct (t_phi_iter phi k x); cbn [bind erl option_map]; auto.
Qed.
Lemma t_phi_iter_cost phi : forall k v t, t_phi_iter phi k v = Some t ->
  rp t = k /\ phis t = k /\ samples t = 0 /\ moves t = 0 /\ pieces t = 0 /\ steps t = 0.
Proof.
  induction k as [|k IH]; intros v t E; cbn [t_phi_iter] in E; [injection E as <-; repeat split|].
  destruct (phi v) as [[x b]|]; cbn [bind] in E; [|discriminate].
  destruct (t_phi_iter phi k x) as [t'|] eqn:E'; cbn [bind] in E; [|discriminate]. injection E as <-.
  apply IH in E'. destruct E' as (H1 & H2 & H3 & H4 & H5 & H6). cnt. repeat split; lia.
Qed.
Lemma direct_all {Range D : Type} (pr : Range -> nat -> option (list call)) (f : D -> option nat) upd r d t :
  (forall r v t, pr r v = Some t -> phis t = rp t /\ samples t = 0 /\ moves t = 0 /\ pieces t = 0 /\ steps t = 0) ->
  t_all_values pr (t_one_sample f) upd r d = Some t ->
  phis t = rp t - 1 /\ samples t = 1 /\ moves t = 0 /\ pieces t = 0 /\ steps t = 0 /\ 1 <= rp t.
Proof.
  intros H E. unfold t_all_values, t_one_sample in E. destruct (f d) as [k|]; cbn [bind] in E; [|discriminate].
  destruct (pr (upd r) k) as [t2|] eqn:E2; cbn [bind] in E; [|discriminate]. injection E as <-.
  apply H in E2. destruct E2 as (H1 & H2 & H3 & H4 & H5). cbn [app]. cnt. repeat split; lia.
Qed.
Lemma direct_er {Range D : Type} (pr : Range -> nat -> option (list call)) qr (f : D -> option nat) upd r d :
  (forall r v, erl (pr r v) = qr r v) ->
  erl (t_all_values pr (t_one_sample f) upd r d) = compute_all_values qr f upd r d.
Proof.
  intros H. apply t_all_er; auto.
  - intros d'. unfold t_one_sample. destruct (f d'); reflexivity.
  - intros v t E. unfold t_one_sample in E. destruct (f d); cbn [bind] in E; [|discriminate]. injection E as <- <-. reflexivity.
Qed.
Lemma direct_engine {Range Next Data : Type} (lf : Range -> nat -> option Next) to_range upd tall size (init : Data) sym full empty p t :
  (forall r d t, tall r d = Some t ->
     phis t = rp t - 1 /\ samples t = 1 /\ moves t = 0 /\ pieces t = 0 /\ steps t = 0 /\ 1 <= rp t) ->
  t_engine lf to_range upd tall size init sym full empty p = Some t -> direct (length p) t.
Proof.
  intros H E. apply t_engine_cost in E. destruct E as (r & d & t1 & El & Q1 & Q2 & Q3 & Q4 & Q5 & Q6 & E).
  unfold direct. destruct E as [[_ ->]|[_ (t2 & E & ->)]].
  - rewrite Q2. cbn [length]. repeat split; lia.
  - apply H in E. destruct E as (H1 & H2 & H3 & H4 & H5 & H6). 
    change (length (reports (t1 ++ t2))) with (rp (t1 ++ t2)). assert (rp t1 = 0) by (unfold rp; rewrite Q2; auto).
    cnt. repeat split; lia.
Qed.
Lemma rindex_calls_er ix p : erl (rindex_calls ix p) = rindex_locate ix p.
Proof.
  unfold rindex_calls, rindex_locate. destruct (al_size (ri_alpha ix)) as [n|]; cbn [bind]; [|reflexivity].
  apply t_engine_er. intros r d. apply direct_er. intros r' v. apply t_phi_iter_er.
Qed.
Lemma rindex_calls_direct ix p t : rindex_calls ix p = Some t -> direct (length p) t.
Proof.
  unfold rindex_calls. destruct (al_size (ri_alpha ix)) as [n|]; cbn [bind]; [|discriminate].
  apply direct_engine. intros r d t'. apply direct_all. intros r' v t2 E. apply t_phi_iter_cost in E.
  destruct E as (H1 & H2 & H3). rewrite H1, H2. auto.
Qed.
Lemma csa_calls_er {D} al pc create (init : D) ix f p :
  erl (t_csa_locate al pc create init (fun n => t_all_values (t_csa_range ix n) (t_one_sample f) csa_update_range) p) =
  csa_locate al pc create init (fun n => compute_all_values (csa_phi_for_range ix n) f csa_update_range) p.
Proof.
  unfold t_csa_locate, csa_locate. destruct (al_size al) as [n|]; cbn [bind]; [|reflexivity].
  apply t_engine_er. intros r d. apply direct_er. intros r' v. apply t_phi_iter_er.
Qed.
Lemma csa_calls_direct {D} al pc create (init : D) ix f p t :
  t_csa_locate al pc create init (fun n => t_all_values (t_csa_range ix n) (t_one_sample f) csa_update_range) p = Some t ->
  direct (length p) t.
Proof.
  unfold t_csa_locate. destruct (al_size al) as [n|]; cbn [bind]; [|discriminate].
  apply direct_engine. intros r d t'. apply direct_all. intros r' v t2 E. apply t_phi_iter_cost in E.
  destruct E as (H1 & H2 & H3). rewrite H1, H2. auto.
Qed.
