(** RIndex answers queries exactly. *)
From Coq Require Import List Arith Bool Lia ZifyBool ZifyNat Permutation.
From Verif Require Import Spec MBase Lists FM MRle Runs RleProof MConstruct MPhi MRIndex Util Phi ConstructProof Nav PhiProof BaseProof.
Import ListNotations.

Section RI.
  Variables (w sa data : list nat).
  Hypothesis Hw : zero_free w.
  Hypothesis HSA : is_suffix_array (terminated w) sa.
  Hypothesis Hd : data = w \/ data = terminated w.
  Let T := ctext w sa.
  Let n := len T.
  Let HT : text_ok T := ctext_ok w sa Hw HSA.
  Let HS : is_suffix_array T sa := ctext_sa w sa Hw HSA.
  Let al := construct_alphabet (BW (terminated w) sa).

  Theorem construct_rindex_ok : exists ix R, construct_rindex data sa = Some ix /\
    ri_alpha ix = al /\ rle_repr 2 (max_symbol (BW T sa)) R (ri_bwt ix) /\ expand R = BW T sa /\
    ri_samples ix = tmarks T sa /\ ri_marks ix = bits_of (hmarks T sa) n /\ ri_links ix = blinks T sa.
  Proof.
    destruct (construct_base_ok w sa Hw HSA data Hd) as (b & R & Eb & F).
    unfold construct_rindex. rewrite Eb. cbn [bind].
    rewrite (bf_runs _ _ _ _ F). cbn [br_first_text br_last_text].
    rewrite construct_links_backward_ok by auto. cbn [bind].
    rewrite (bf_bwt _ _ _ _ F), (BW_length _ sa HSA), <- (ctext_len w sa).
    rewrite construct_bits.
    - cbn [bind]. do 2 eexists. split; [reflexivity|].
      cbn [ri_alpha ri_bwt ri_samples ri_marks ri_links].
      split; [apply (bf_alpha _ _ _ _ F)|]. split; [apply (bf_repr _ _ _ _ F)|].
      split; [apply (bf_R _ _ _ _ F)|]. auto.
    - intros m Hm. apply (hmarks_in _ _ HT HS) in Hm. apply (is_hmark_lt _ _ HT) in Hm. auto.
  Qed.

  Variable ix : rindex.
  Hypothesis Hix : construct_rindex data sa = Some ix.
  Variable p : list nat.
  Hypothesis Hb : forall c, In c p -> c < 256.

  Let HC := base_C w sa Hw HSA.
  Let HO := base_O w sa Hw HSA.
  Let HN := base_N w sa Hw HSA.

  Theorem rindex_count_ok : exists st e, rindex_count ix p = Some (st, e) /\
    is_range T sa (map (wcomp w sa) p) st e.
  Proof.
    destruct construct_rindex_ok as (ix' & R & E & Ea & Er & ER & _). rewrite Hix in E. injection E as <-.
    unfold rindex_count. rewrite Ea. unfold al at 1. rewrite HN. cbn [bind]. unfold engine_count.
    destruct (count_loop_ok T sa HT HS (al_sigma al) (ri_lf al (ri_bwt ix)) range_of_lf (al_symbol al)) with
      (rp := rev p) (rq := rev (map (wcomp w sa) p)) (st := 0) (e := n) (q := @nil nat)
      as (st & e & G1 & G2).
    - intros c st e Hc Hse He. apply (ri_lf_range T sa HS al (ri_bwt ix) _ R Er ER HC HO c st e); auto.
    - apply pattern_symbols; auto.
    - apply is_range_full.
    - exists st, e. split; auto. rewrite rev_involutive, app_nil_r in G2. auto.
  Qed.

  Hypothesis Hq : query w sa p.
  Theorem rindex_locate_rows : exists st e, is_range T sa (map (wcomp w sa) p) st e /\
    rindex_count ix p = Some (st, e) /\ rindex_locate ix p = Some (map (SA sa) (rev (seq st (e - st)))).
  Proof.
    pose proof rindex_count_ok as HCt.
    destruct construct_rindex_ok as (ix' & R & E & Ea & Er & ER & Es & Em & El). rewrite Hix in E. injection E as <-.
    destruct Hq as (Hne & _ & Hl).
    unfold rindex_locate. rewrite Ea. unfold al at 1. rewrite HN. cbn [bind]. unfold engine_locate.
    destruct (locate_loop_ok T sa HT HS (al_sigma al) (ri_lf al (ri_bwt ix)) range_of_lf (al_symbol al)) with
      (update := compute_step_data ri_lf_trivial ri_create_data) (init := mk_step_data 0 (mk_run_data 0 0))
      (DI := toe_inv T sa (ri_bwt ix) R) (rp := rev p) (rq := rev (map (wcomp w sa) p)) (st := 0) (e := n)
      (q := @nil nat) (d := mk_step_data 0 (mk_run_data 0 0))
      as (st & e & d & G1 & G2 & G3).
    - intros c st e Hc Hse He. apply (ri_lf_range T sa HS al (ri_bwt ix) _ R Er ER HC HO c st e); auto.
    - intros. eapply (toe_first T sa HT HS al (ri_bwt ix) _ R Er ER HC HO); eauto.
    - intros. eapply (toe_step T sa HT HS al (ri_bwt ix) _ R Er ER HC HO); eauto.
    - apply pattern_symbols; auto.
    - apply is_range_full.
    - auto.
    - congruence.
    - rewrite rev_involutive, app_nil_r in G2, G3. rewrite rev_length in G1.
      change (len (ctext w sa)) with n. rewrite G1. cbn [bind].
      exists st, e. split; auto. split.
      { unfold rindex_count. rewrite Ea. unfold al at 1. rewrite HN. cbn [bind]. unfold engine_count.
        change (len (ctext w sa)) with n.
        rewrite (locate_count_loop _ _ (compute_step_data ri_lf_trivial ri_create_data) _ _ _ _
                   (length p - 1) (mk_step_data 0 (mk_run_data 0 0))).
        rewrite G1. auto. }
      unfold range_empty. cbn [fst snd]. destruct (Nat.ltb_spec st e) as [Hse|Hse]; cbn [negb].
      + assert (Hd0 : toe_inv T sa (ri_bwt ix) R 0 st e d).
        { apply G3; auto. destruct p; [congruence|discriminate]. }
        unfold compute_all_values. unfold ri_toehold.
        rewrite (toe_value T sa HS al (ri_bwt ix) _ R Er ER HC HO st e d (ri_samples ix)); auto; [|apply G2|lia|].
        2:{ apply locate_loop_step in G1; [|auto]. cbn [sd_step] in G1. specialize (Hl st e G2 Hse). fold T n in Hl. lia. }
        cbn [bind]. rewrite Em, Es, El. unfold ri_phi_for_range, ri_update_range. cbn [fst snd].
        rewrite (phi_iter_ok T sa HS _ (phi_full_ok T sa HT HS)); [|lia|destruct G2; lia].
        cbn [bind]. f_equal. replace (e - st) with (S (e - 1 - st)) by lia.
        rewrite seq_S, rev_app_distr. cbn [rev app map].
        replace (e - 1 - (e - 1 - st)) with st by lia. replace (st + (e - 1 - st)) with (e - 1) by lia. auto.
      + replace (e - st) with 0 by lia. auto.
  Qed.

  Theorem rindex_locate_exact : pattern_over w p -> exists l, rindex_locate ix p = Some l /\ exact_answer p w l.
  Proof.
    intros Hp. destruct rindex_locate_rows as (st & e & HI & _ & E). eexists. split; [exact E|].
    destruct Hp. eapply range_exact; eauto. apply Permutation_map. symmetry. apply Permutation_rev.
  Qed.
End RI.
