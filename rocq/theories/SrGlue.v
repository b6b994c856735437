(** Statements about the SrIndex family in the specification vocabulary. *)
From Coq Require Import List Arith Bool Lia ZifyBool ZifyNat Permutation.
From Verif Require Import Spec MBase Lists FM MRle Runs RleProof RleSpec MConstruct MPhi MRIndex MSrIndex Util Phi
  ConstructProof Nav PhiProof BaseProof Glue SamplingProof BackRange SubsProof ValidProof SrValid SrRuns SrProof.
Import ListNotations.

(** More jumps than the fuel give [None]. *)
Lemma sa_value_fuel {D} (gs : D -> option (option nat)) nav n bw : forall fuel k d v,
  compute_sa_value fuel gs nav n bw k d = Some v ->
  exists m d' x, m <= fuel /\ Nat.iter m (fun o => match o with Some y => nav y | None => None end) (Some d) = Some d' /\
    gs d' = Some (Some x).
Proof.
  induction fuel as [|fuel IH]; intros k d v E; cbn [compute_sa_value] in E;
    destruct (gs d) as [[x|]|] eqn:G; cbn [bind] in E; try discriminate.
  - exists 0, d, x. auto.
  - exists 0, d, x. split; [lia|auto].
  - destruct (nav d) as [d1|] eqn:Nd; cbn [bind] in E; [|discriminate].
    destruct (IH _ _ _ E) as (m & d' & x & H1 & H2 & H3). exists (S m), d', x. split; [lia|]. split; auto.
    clear - H2 Nd. revert d1 d' Nd H2. assert (G : forall m o, 
      Nat.iter (S m) (fun o => match o with Some y => nav y | None => None end) o =
      Nat.iter m (fun o => match o with Some y => nav y | None => None end) (match o with Some y => nav y | None => None end)).
    { clear. induction m as [|m IH]; intros o; auto. 
      change (match Nat.iter (S m) (fun o => match o with Some y => nav y | None => None end) o with Some y => nav y | None => None end =
              match Nat.iter m (fun o => match o with Some y => nav y | None => None end)
                      (match o with Some y => nav y | None => None end) with Some y => nav y | None => None end).
      rewrite IH. auto. }
    intros d1 d' Nd H2. rewrite G. cbv beta iota. rewrite Nd. auto.
Qed.

Section SrStatements.
  Variables (w sa data : list nat).
  Hypothesis Hw : zero_free w.
  Hypothesis HSA : is_suffix_array (terminated w) sa.
  Hypothesis Hd : data = w \/ data = terminated w.
  Variable s : nat.
  Let T := ctext w sa.
  Let n := len T.
  Let HT : text_ok T := ctext_ok w sa Hw HSA.
  Let HS : is_suffix_array T sa := ctext_sa w sa Hw HSA.

  Lemma st_sri_construct : exists ix, construct_sri s data sa = Some ix.
  Proof. destruct (construct_sri_ok w sa data Hw HSA Hd s) as (ix & _ & _ & E & _). eauto. Qed.
  Lemma st_sri_valid_construct : exists ix, construct_sri_valid s data sa = Some ix.
  Proof. destruct (construct_sri_valid_ok w sa data Hw HSA Hd s) as (ix & _ & _ & E & _). eauto. Qed.

  (** What all the variants answer. *)
  Definition answers (count : list nat -> option range) (locate : list nat -> option (list nat)) (p : list nat) : Prop :=
    exists st e, count p = Some (st, e) /\ row_interval p w sa st e /\
      exact_answer p w (rows sa st e) /\ length (rows sa st e) = e - st /\
      locate p = Some (rev (rows sa st e)).
  Lemma answers_rows count locate p : pattern_over w p ->
    (exists st e, is_range T sa (map (wcomp w sa) p) st e /\ count p = Some (st, e) /\
       locate p = Some (map (SA sa) (rev (seq st (e - st))))) -> answers count locate p.
  Proof.
    intros Hp (st & e & HI & Ec & El).
    exists st, e. pose proof (range_rows w sa Hw HSA p st e Hp HI) as HR.
    split; auto. split; auto. split; [apply range_rows_exact; auto|].
    split; [apply Glue.rows_length; apply HR|].
    rewrite El, map_rev, (rows_map (ctext w sa)); auto using ctext_sa. apply HI.
  Qed.
  Lemma st_sri ix p : construct_sri s data sa = Some ix -> pattern_over w p ->
    answers (sr_count ix) (srindex_locate ix) p.
  Proof. intros H Hp. apply answers_rows; auto. apply (srindex_rows w sa data Hw HSA Hd s); auto using query_over. Qed.
  Lemma st_sri_vm ix p : construct_sri_valid s data sa = Some ix -> pattern_over w p ->
    answers (sr_count ix) (srindex_vm_locate ix) p.
  Proof. intros H Hp. apply answers_rows; auto. apply (srindex_vm_rows w sa data Hw HSA Hd s); auto using query_over. Qed.
  Lemma st_sri_va ix p : construct_sri_valid s data sa = Some ix -> pattern_over w p ->
    answers (sr_count ix) (srindex_va_locate ix) p.
  Proof. intros H Hp. apply answers_rows; auto. apply (srindex_va_rows w sa data Hw HSA Hd s); auto using query_over. Qed.

  Lemma answers_exact count locate p : answers count locate p -> exists l, locate p = Some l /\ exact_answer p w l.
  Proof. intros (st & e & H1 & H2 & H3 & H4 & H5). eexists. split; [exact H5|]. apply exact_rev; auto. Qed.
  Lemma answers_agree count locate p : answers count locate p ->
    exists l st e, locate p = Some l /\ count p = Some (st, e) /\ length l = e - st /\
      ((forall i, ~ occurs_at p w i) -> l = [] /\ st = e).
  Proof.
    intros (st & e & H1 & H2 & H3 & H4 & H5). exists (rev (rows sa st e)), st, e. split; auto. split; auto.
    apply agree_gen with (p := p) (sa := sa); auto. symmetry. apply Permutation_rev.
  Qed.

  Lemma facts_any ix : construct_sri s data sa = Some ix \/ construct_sri_valid s data sa = Some ix ->
    exists R ks, sri_facts w sa s ks R ix.
  Proof.
    intros [E|E].
    - destruct (construct_sri_ok w sa data Hw HSA Hd s) as (ix' & R & ks & E' & F). rewrite E in E'. injection E' as <-. eauto.
    - destruct (construct_sri_valid_ok w sa data Hw HSA Hd s) as (ix' & R & ks & E' & F & _). rewrite E in E'. injection E' as <-. eauto.
  Qed.
  Lemma st_sri_size ix : construct_sri s data sa = Some ix \/ construct_sri_valid s data sa = Some ix ->
    length (sr_samples ix) <= 2 * (length w / (s + 1)) + 4.
  Proof.
    intros H. destruct (facts_any ix H) as (R & ks & F). rewrite (sx_samples _ _ _ _ _ _ F), map_length.
    pose proof (sf_size _ _ _ _ (sx_subs _ _ _ _ _ _ F)) as G.
    replace (len (ctext w sa)) with (S (length w)) in G by (symmetry; apply ctext_n).
    cbn [Nat.sub] in G. rewrite Nat.sub_0_r in G. rewrite Nat.add_1_r. auto.
  Qed.
  Lemma st_sri_search ix u v : construct_sri s data sa = Some ix \/ construct_sri_valid s data sa = Some ix ->
    pattern_over w v -> exists st e,
    count_loop (ri_lf (sr_alpha ix) (sr_bwt ix)) range_of_lf (al_symbol (sr_alpha ix)) range_empty
      (rev v) (0, length sa) = Some (st, e) /\ row_interval v w sa st e /\
    sr_count ix (u ++ v) =
      count_loop (ri_lf (sr_alpha ix) (sr_bwt ix)) range_of_lf (al_symbol (sr_alpha ix)) range_empty (rev u) (st, e) /\
    (st = e -> sr_count ix (u ++ v) = Some (st, e)).
  Proof.
    intros H Hv.
    assert (G : exists loc, answers (sr_count ix) loc v).
    { destruct H as [H|H]; eexists; [apply st_sri|apply st_sri_vm]; eauto. }
    destruct G as (loc & st & e & Ec & HR & _).
    destruct (facts_any ix H) as (R & ks & F).
    assert (En : al_size (sr_alpha ix) = Some (length sa)).
    { rewrite (sx_alpha _ _ _ _ _ _ F), (gsa_length w sa Hw HSA). apply (base_N w sa Hw HSA). }
    unfold sr_count in *. rewrite En in *. cbn [bind] in *. unfold engine_count in *.
    exists st, e. split; auto. split; auto.
    rewrite rev_app_distr, count_loop_app, Ec. split; auto.
    intros ->. apply count_loop_empty. unfold range_empty. cbn [fst snd]. rewrite Nat.ltb_irrefl. auto.
  Qed.
  Lemma st_sri_empty ix pr : construct_sri s data sa = Some ix \/ construct_sri_valid s data sa = Some ix ->
    sr_count ix [] = Some (0, length sa) /\ sr_locate ix pr [] = None.
  Proof.
    intros H. destruct (facts_any ix H) as (R & ks & F).
    assert (En : al_size (sr_alpha ix) = Some (length sa)).
    { rewrite (sx_alpha _ _ _ _ _ _ F), (gsa_length w sa Hw HSA). apply (base_N w sa Hw HSA). }
    unfold sr_count, sr_locate. rewrite En. cbn [bind]. split; auto.
    unfold engine_locate. cbn [rev locate_loop bind]. unfold range_empty. cbn [fst snd].
    destruct (Nat.ltb_spec 0 (length sa)) as [G|G]; cbn [negb].
    - reflexivity.
    - rewrite (gsa_length w sa Hw HSA), ctext_n in G. lia.
  Qed.

  (** Navigation bound. *)
  Let L := bwt_of (terminated w) sa.
  Definition sampled_row (ix : sri) (j x : nat) : Prop :=
    run_tail L j /\ sr_get_sample ix (runs_before L (S j) - 1) = Some (Some x) /\ (x + 1) mod S (length w) = nth j sa 0.
  Lemma L_length : length L = n.
  Proof. unfold L, n, T. rewrite ctext_len. apply (BW_length _ sa HSA). Qed.
  Lemma runs_before_ctext i : i <= n -> runs_before L i = runs_before (BW T sa) i.
  Proof.
    intros Hi. rewrite !runs_before_headb. unfold count. f_equal. apply filter_ext_in. intros j Hj. apply in_seq in Hj.
    unfold T. rewrite ctext_BW. symmetry. apply (headb_map (wcomp w sa) (terminated w)).
    - apply wcomp_mono; auto.
    - apply wcomp_0; auto.
    - intros c Hc. eapply (BW_in w sa Hw HSA); eauto.
    - change (length (BW (terminated w) sa)) with (length L). rewrite L_length. lia.
  Qed.
  Lemma kept_sampled ks R ix j : sri_facts w sa s ks R ix -> keptb T sa ks j = true ->
    exists x, sampled_row ix j x.
  Proof.
    intros F Hk. pose proof (sx_subs _ _ _ _ _ _ F) as HF. fold T in HF.
    destruct (keptb_tail T sa HT HS s ks HF j Hk) as [Hj Ht].
    assert (Hk0 := Hk). apply (keptb_spec T sa HT HS s ks HF) in Hk. destruct Hk as (k & Hk & Ek).
    pose proof (sf_lt _ _ _ _ HF k Hk) as Hr.
    pose proof (sx_repr _ _ _ _ _ _ F) as Er. pose proof (sx_R _ _ _ _ _ _ F) as ER. fold T in Er, ER.
    pose proof (R_r T sa HT HS (sr_bwt ix) _ R Er ER) as LR.
    pose proof (trow_R T sa (sr_bwt ix) _ R Er ER k ltac:(lia)) as Etr.
    pose proof (rstart_lt R (rp_wf _ _ _ _ Er) k ltac:(lia)) as Hlt.
    exists (tpos T sa j). split; [|split].
    - apply (tail_spec L j); [rewrite L_length; auto|].
      assert (G : In j (trows (terminated w) sa)).
      { rewrite (ctext_trows w sa Hw HSA). apply (trows_in T sa HS). auto. }
      apply (trows_in _ sa HSA) in G. apply G.
    - rewrite runs_before_ctext by (fold n in Hj; lia). rewrite <- ER.
      replace (S j) with (rstart R (S k)) by lia.
      rewrite runs_before_expand by (try apply (rp_wf _ _ _ _ Er); lia).
      cbn [Nat.sub]. rewrite Nat.sub_0_r.
      rewrite (get_sample_ok T sa HT HS s ks HF ix (sx_rate _ _ _ _ _ _ F) (sx_samples _ _ _ _ _ _ F) (sx_idx _ _ _ _ _ _ F) k Hr).
      rewrite Ek, Hk0. auto.
    - replace (S (length w)) with n by apply ctext_n. exact (csucc_tpos T sa HT HS j Hj).
  Qed.
  Lemma st_sri_toehold_bound ix t : construct_sri s data sa = Some ix \/ construct_sri_valid s data sa = Some ix ->
    run_tail L t -> exists l j x, l <= s /\ sampled_row ix j x /\ (nth j sa 0 + l) mod S (length w) = nth t sa 0.
  Proof.
    intros H Ht. destruct (facts_any ix H) as (R & ks & F).
    assert (Hn : t < n) by (rewrite <- L_length; apply Ht).
    assert (Htl : tailr T sa t = true).
    { apply (tail_spec L t) in Ht; [|rewrite L_length; auto].
      assert (G : In t (trows (terminated w) sa)) by (apply (trows_in _ sa HSA); split; auto; unfold n, T in Hn; rewrite ctext_len in Hn; auto).
      rewrite (ctext_trows w sa Hw HSA) in G. apply (trows_in T sa HS) in G. apply G. }
    destruct (kept_reach T sa HT HS s ks (sx_subs _ _ _ _ _ _ F) t Hn Htl) as (l & Hl & Hk).
    destruct (kept_sampled _ _ _ _ F Hk) as (x & Hx).
    exists l, (lfi T sa l t), x. split; auto. split; auto.
    replace (S (length w)) with n by apply ctext_n. exact (lfi_SA T sa HT HS l t Hn).
  Qed.
  Lemma st_sri_range_bound ix i : construct_sri s data sa = Some ix -> S i < length sa ->
    (exists l j x, l < s /\ sampled_row ix j x /\ (nth j sa 0 + l) mod S (length w) = nth i sa 0) \/
    exists b, ri_phi (length sa) (sr_marks ix) (sr_samples ix) (links_default (sr_links ix) true)
                sample_validator_default (nth (S i) sa 0) = Some (nth i sa 0, b).
  Proof.
    intros H Hi. destruct (construct_sri_ok w sa data Hw HSA Hd s) as (ix' & R & ks & E & F).
    rewrite H in E. injection E as <-. rewrite (gsa_length w sa Hw HSA) in *.
    destruct (existsb (fun l => keptb T sa ks (lfi T sa l i)) (seq 0 s)) eqn:Ex.
    - left. apply existsb_exists in Ex. destruct Ex as (l & Hl & Hk). apply in_seq in Hl.
      destruct (kept_sampled _ _ _ _ F Hk) as (x & Hx). exists l, (lfi T sa l i), x.
      split; [lia|]. split; auto. replace (S (length w)) with n by apply ctext_n. apply (lfi_SA T sa HT HS). fold T n in Hi. lia.
    - right. apply (sri_phi w sa Hw HSA s ks R ix i F Hi). intros l Hl.
      destruct (keptb _ sa ks _) eqn:Ek; auto.
      assert (existsb (fun l => keptb T sa ks (lfi T sa l i)) (seq 0 s) = true).
      { apply existsb_exists. exists l. split; [apply in_seq; lia|]. auto. }
      congruence.
  Qed.
End SrStatements.
