(** SrIndex, SrIndexValidMark and SrIndexValidArea answer queries exactly. *)
From Coq Require Import List Arith Bool Lia ZifyBool ZifyNat Permutation.
From Verif Require Import Spec MBase Lists FM MRle Runs RleProof MConstruct MPhi MRIndex MSrIndex Util Phi
  ConstructProof Nav PhiProof BaseProof SamplingProof BackRange SubsProof ValidProof SrValid SrRuns.
Import ListNotations.

Section SR.
  Variables (w sa data : list nat).
  Hypothesis Hw : zero_free w.
  Hypothesis HSA : is_suffix_array (terminated w) sa.
  Hypothesis Hd : data = w \/ data = terminated w.
  Variable s : nat.
  Let T := ctext w sa.
  Let n := len T.
  Let HT : text_ok T := ctext_ok w sa Hw HSA.
  Let HS : is_suffix_array T sa := ctext_sa w sa Hw HSA.
  Let al := construct_alphabet (BW (terminated w) sa).
  Let HC := base_C w sa Hw HSA.
  Let HO := base_O w sa Hw HSA.
  Let HN := base_N w sa Hw HSA.
  Let r := length (hrows T sa).
  Notation trow k := (nth k (trows T sa) 0).
  Notation tp := (tpos T sa).
  Notation smarks ks := (map (fun k => tp (csucc T (trow k))) ks).
  Notation ssamples ks := (map (fun k => tp (trow k)) ks).

  Lemma base_B c : In c (BW T sa) -> c < al_sigma al.
  Proof.
    intros H. unfold T in H. rewrite ctext_BW in H. apply in_map_iff in H. destruct H as (d & <- & H).
    apply (comp_sigma 256 eq_refl); auto. apply BW_bytes; auto.
  Qed.

  (** Common facts of the constructed items. *)
  Record sri_facts (ks : list nat) (R : list (nat * nat)) (ix : sri) : Prop := {
    sx_subs : subs_facts T sa s ks;
    sx_alpha : sr_alpha ix = al;
    sx_repr : rle_repr 2 (max_symbol (BW T sa)) R (sr_bwt ix);
    sx_R : expand R = BW T sa;
    sx_rate : sr_rate ix = s;
    sx_samples : sr_samples ix = ssamples ks;
    sx_marks : sr_marks ix = bits_of (smarks ks) n;
    sx_links : sr_links ix = sort_indices (smarks ks);
    sx_idx : sr_samples_idx ix = bits_of ks r
  }.

  Lemma construct_common : exists b R ks f,
    construct_base data sa = Some b /\ base_facts w sa R b /\ subs_facts T sa s ks /\
    construct_sri_files_of s b = Some (f, sort_indices (hmarks T sa)) /\
    f = mk_sri_files ks (ssamples ks) (smarks ks) (sort_indices (smarks ks)) /\
    construct_bit_vector (sf_idx f) (length (br_last (bi_runs_files b))) false = Some (bits_of ks r) /\
    construct_bit_vector (sf_marks f) (length (bi_bwt_text b)) false = Some (bits_of (smarks ks) n).
  Proof.
    destruct (construct_base_ok w sa Hw HSA data Hd) as (b & R & Eb & F).
    destruct (construct_subsamples_ok T sa HT HS s) as (ks & E1 & HF).
    pose proof (construct_submarks_ok T sa HT HS s ks HF) as E2.
    exists b, R, ks. eexists. split; auto. split; auto. split; auto.
    unfold construct_sri_files_of. rewrite (bf_runs _ _ _ _ F). cbn [br_first_text br_last_text br_first br_last].
    fold T. rewrite (construct_links_backward_ok T sa HT HS). cbn [bind].
    unfold construct_sri_files. cbn [br_first_text br_last_text br_first br_last]. rewrite E1. cbn [bind].
    rewrite E2. cbn [bind]. split; [reflexivity|]. split; [reflexivity|]. cbn [sf_idx sf_marks]. split.
    - rewrite construct_bits.
      + rewrite (PhiProof.rows_length T sa HT HS). auto.
      + intros k Hk. rewrite (PhiProof.rows_length T sa HT HS). apply (sf_lt _ _ _ _ HF); auto.
    - rewrite (bf_bwt _ _ _ _ F), (BW_length _ sa HSA), <- (ctext_len w sa).
      apply construct_bits. intros m Hm. eapply (smarks_lt T sa HT HS s ks HF); eauto.
  Qed.

  Theorem construct_sri_ok : exists ix R ks, construct_sri s data sa = Some ix /\ sri_facts ks R ix.
  Proof.
    destruct construct_common as (b & R & ks & f & Eb & F & HF & Ef & -> & E1 & E2).
    unfold construct_sri. rewrite Eb. cbn [bind]. rewrite Ef. cbn [bind]. rewrite E1. cbn [bind].
    rewrite E2. cbn [bind]. exists (mk_sri (bi_alpha b) (bi_bwt_rle b) s (ssamples ks) (bits_of (smarks ks) n)
      (sort_indices (smarks ks)) (bits_of ks r) [] []), R, ks. split; [reflexivity|].
    constructor; auto.
    - apply (bf_alpha _ _ _ _ F).
    - apply (bf_repr _ _ _ _ F).
    - apply (bf_R _ _ _ _ F).
  Qed.
  Theorem construct_sri_valid_ok : exists ix R ks, construct_sri_valid s data sa = Some ix /\ sri_facts ks R ix /\
    sr_valid_marks ix = vbits T sa ks /\ sr_valid_areas ix = map (varea T sa ks) (vinvs T sa ks).
  Proof.
    destruct construct_common as (b & R & ks & f & Eb & F & HF & Ef & -> & E1 & E2).
    unfold construct_sri_valid. rewrite Eb. cbn [bind]. rewrite Ef. cbn [bind]. rewrite E1. cbn [bind].
    rewrite E2. cbn [bind]. rewrite (bf_runs _ _ _ _ F). cbn [br_first_text sf_marks sf_samples]. fold T.
    rewrite (construct_validity_ok T sa HT HS s ks HF). cbn [bind]. rewrite map_length.
    rewrite construct_vbits. cbn [bind].
    exists (mk_sri (bi_alpha b) (bi_bwt_rle b) s (ssamples ks) (bits_of (smarks ks) n)
      (sort_indices (smarks ks)) (bits_of ks r) (vbits T sa ks) (map (varea T sa ks) (vinvs T sa ks))), R, ks.
    split; [reflexivity|]. split; [|auto].
    constructor; auto.
    - apply (bf_alpha _ _ _ _ F).
    - apply (bf_repr _ _ _ _ F).
    - apply (bf_R _ _ _ _ F).
  Qed.

  Section Query.
    Variables (ks : list nat) (R : list (nat * nat)) (ix : sri).
    Hypothesis F : sri_facts ks R ix.
    Variable p : list nat.
    Hypothesis Hp : query w sa p.
    Variable phi_range : nat -> range -> nat -> option (list nat).
    Hypothesis Hphi : forall a b, a <= b -> b < n -> phi_range n (a, b) (SA sa b) = Some (down sa a (b - a)).

    Theorem sr_locate_rows : exists st e, is_range T sa (map (wcomp w sa) p) st e /\
      sr_count ix p = Some (st, e) /\ sr_locate ix phi_range p = Some (map (SA sa) (rev (seq st (e - st)))).
    Proof.
      pose proof (sx_repr _ _ _ F) as Er. pose proof (sx_R _ _ _ F) as ER.
      destruct Hp as (Hne & Hin & Hl).
      unfold sr_locate. rewrite (sx_alpha _ _ _ F). unfold al at 1. rewrite HN. cbn [bind]. unfold engine_locate.
      destruct (locate_loop_ok T sa HT HS (al_sigma al) (ri_lf al (sr_bwt ix)) range_of_lf (al_symbol al)) with
        (update := compute_step_data ri_lf_trivial sr_create_data) (init := mk_step_data 0 (mk_run_data_ext 0 0 false 0))
        (DI := sr_inv T sa (sr_bwt ix) R) (rp := rev p) (rq := rev (map (wcomp w sa) p)) (st := 0) (e := n)
        (q := @nil nat) (d := mk_step_data 0 (mk_run_data_ext 0 0 false 0))
        as (st & e & d & G1 & G2 & G3).
      - intros c st e Hc Hse He. apply (ri_lf_range T sa HS al (sr_bwt ix) _ R Er ER HC HO c st e); auto.
      - intros. eapply (sr_first T sa HT HS al (sr_bwt ix) _ R Er ER HC HO base_B s ks ix); eauto. apply F.
      - intros. eapply (sr_step T sa HT HS al (sr_bwt ix) _ R Er ER HC HO base_B s ks ix); eauto. apply F.
      - apply pattern_symbols; auto.
      - apply is_range_full.
      - auto.
      - congruence.
      - rewrite rev_involutive, app_nil_r in G2, G3. rewrite rev_length in G1.
        change (len (ctext w sa)) with n. rewrite G1. cbn [bind].
        exists st, e. split; auto. split.
        { unfold sr_count. rewrite (sx_alpha _ _ _ F). unfold al at 1. rewrite HN. cbn [bind]. unfold engine_count.
          change (len (ctext w sa)) with n.
          rewrite (locate_count_loop _ _ (compute_step_data ri_lf_trivial sr_create_data) _ _ _ _
                     (length p - 1) (mk_step_data 0 (mk_run_data_ext 0 0 false 0))).
          rewrite G1. auto. }
        unfold range_empty. cbn [fst snd]. destruct (Nat.ltb_spec st e) as [Hse|Hse]; cbn [negb].
        + assert (Hd0 : sr_inv T sa (sr_bwt ix) R 0 st e d).
          { apply G3; auto. destruct p; [congruence|discriminate]. }
          assert (Hen : e <= n) by (destruct G2; lia).
          unfold compute_all_values.
          assert (Hsd : sd_step d < n).
          { apply locate_loop_step in G1; [|auto]. cbn [sd_step] in G1. specialize (Hl st e G2 Hse). fold T n in Hl.
            pose proof (n_pos T HT). fold n in H. lia. }
          pose proof (sr_toehold_ok T sa HT HS al (sr_bwt ix) _ R Er ER HC HO base_B s ks (sx_subs _ _ _ F) ix
                     (sx_alpha _ _ _ F) eq_refl (sx_rate _ _ _ F) (sx_samples _ _ _ F) (sx_idx _ _ _ F) st e d
                     Hen ltac:(lia) Hsd Hd0) as Et.
          change (len T) with n in Et. rewrite Et.
          cbn [bind]. unfold ri_update_range. cbn [fst snd].
          rewrite Hphi by lia.
          cbn [bind]. f_equal. replace (e - st) with (S (e - 1 - st)) by lia.
          rewrite seq_S, rev_app_distr. cbn [rev app map].
          replace (st + (e - 1 - st)) with (e - 1) by lia. auto.
        + replace (e - st) with 0 by lia. auto.
    Qed.
  End Query.

  Lemma sri_phi ks R ix y : sri_facts ks R ix -> S y < n ->
    (forall l, l < s -> keptb T sa ks (lfi T sa l y) = false) ->
    exists b, ri_phi n (sr_marks ix) (sr_samples ix) (links_default (sr_links ix) true) sample_validator_default
                (SA sa (S y)) = Some (SA sa y, b).
  Proof.
    intros F Hy Hl. rewrite (sx_marks _ _ _ F), (sx_samples _ _ _ F), (sx_links _ _ _ F).
    set (v := SA sa (S y)). assert (Hv : v < n) by (apply (SA_lt T sa HS); auto).
    pose proof (sx_subs _ _ _ F) as HF.
    destruct (sub_pred T sa HT HS s ks HF v Hv) as (k0 & h & i & E1 & Hk0 & Em & Hh & Hkept & El & Es & Hc).
    destruct (phi_sub_value T sa HT HS ks sample_validator_default (links_default (sort_indices (smarks ks)) true)
                (fun _ => true)) with (v := v) (k0 := k0) (h := h) (i := i) (b := true) as (x & Ex & Hx); auto.
    - intros k j E. unfold links_default. rewrite E. auto.
    - destruct Hc as [Hc|Hc]; [left|right]; apply Hc.
    - exists true. etransitivity; [exact Ex|]. rewrite Hx.
      + f_equal. f_equal. apply (PHI_SA T sa HS); auto.
      + eapply (sub_gap T sa HT HS s ks HF y k0 h i); eauto.
  Qed.

  Theorem srindex_rows ix p : construct_sri s data sa = Some ix -> query w sa p ->
    exists st e, is_range T sa (map (wcomp w sa) p) st e /\
      sr_count ix p = Some (st, e) /\ srindex_locate ix p = Some (map (SA sa) (rev (seq st (e - st)))).
  Proof.
    intros Hix Hp. destruct construct_sri_ok as (ix' & R & ks & E & F). rewrite Hix in E. injection E as <-.
    unfold srindex_locate. apply sr_locate_rows with (ks := ks) (R := R); auto.
    intros a b Hab Hb.
    apply (sr_phi_range T sa HT HS al (sr_bwt ix) _ R (sx_repr _ _ _ F) (sx_R _ _ _ F) HC HO base_B s ks
             (sx_subs _ _ _ F) ix (sx_alpha _ _ _ F) eq_refl (sx_rate _ _ _ F) (sx_samples _ _ _ F) (sx_idx _ _ _ F)); auto.
    intros y Hy Hl. eapply sri_phi; eauto.
  Qed.

  Lemma valid_rows ix p validator R ks : sri_facts ks R ix -> sr_valid_marks ix = vbits T sa ks -> query w sa p ->
    (forall k0 h v, v < n -> k0 < length ks -> nth k0 (sorted_values (smarks ks)) 0 = tp h ->
      (tp h < v \/ (tp h = n - 1 /\ k0 = length ks - 1)) ->
      exists b, validator k0 (if tp h <? v then v - tp h else v + 1) (vbit T sa ks k0) = Some b /\
        (b = true -> vbit T sa ks k0 = true \/ (tp h < v -> v - tp h <= varea T sa ks k0))) ->
    exists st e, is_range T sa (map (wcomp w sa) p) st e /\
      sr_count ix p = Some (st, e) /\
      sr_locate ix (fun n => sr_phi_for_range_valid ix n
        (ri_phi n (sr_marks ix) (sr_samples ix) (links_validity (sr_links ix) (sr_valid_marks ix)) validator)) p
      = Some (map (SA sa) (rev (seq st (e - st)))).
  Proof.
    intros F Ev Hp Hval. apply sr_locate_rows with (ks := ks) (R := R); auto.
    intros a b Hab Hb. rewrite Ev, (sx_marks _ _ _ F), (sx_samples _ _ _ F), (sx_links _ _ _ F).
    apply (sr_phi_range_valid T sa HT HS al (sr_bwt ix) _ R (sx_repr _ _ _ F) (sx_R _ _ _ F) HC HO base_B s ks
             (sx_subs _ _ _ F) ix (sx_alpha _ _ _ F) eq_refl (sx_rate _ _ _ F) (sx_samples _ _ _ F) (sx_idx _ _ _ F)); auto.
    - exact (phiv_total T sa HT HS s ks (sx_subs _ _ _ F) validator Hval).
    - exact (phiv_true T sa HT HS s ks (sx_subs _ _ _ F) validator Hval).
    - exact (phiv_reach T sa HT HS s ks (sx_subs _ _ _ F) validator Hval).
  Qed.
  Theorem srindex_vm_rows ix p : construct_sri_valid s data sa = Some ix -> query w sa p ->
    exists st e, is_range T sa (map (wcomp w sa) p) st e /\
      sr_count ix p = Some (st, e) /\ srindex_vm_locate ix p = Some (map (SA sa) (rev (seq st (e - st)))).
  Proof.
    intros Hix Hp. destruct construct_sri_valid_ok as (ix' & R & ks & E & F & E1 & E2). rewrite Hix in E. injection E as <-.
    unfold srindex_vm_locate. eapply valid_rows; eauto. apply default_val.
  Qed.
  Theorem srindex_va_rows ix p : construct_sri_valid s data sa = Some ix -> query w sa p ->
    exists st e, is_range T sa (map (wcomp w sa) p) st e /\
      sr_count ix p = Some (st, e) /\ srindex_va_locate ix p = Some (map (SA sa) (rev (seq st (e - st)))).
  Proof.
    intros Hix Hp. destruct construct_sri_valid_ok as (ix' & R & ks & E & F & E1 & E2). rewrite Hix in E. injection E as <-.
    unfold srindex_va_locate. eapply valid_rows; eauto. rewrite E1, E2. apply area_val.
  Qed.
End SR.
