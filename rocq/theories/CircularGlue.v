(** The answers of every index class for patterns of any bytes. *)
From Coq Require Import List Arith Bool Lia Permutation.
From Verif Require Import Spec SpecCircular MBase MRle MConstruct MPhi MRIndex MSrIndex MPsi MCsa MSrCsa.
From Verif Require Import FM ConstructProof Nav BaseProof RIndexProof SrRuns SrProof PsiCore PsiText CsaNav CsaProof FwdQuery Glue SrGlue CsaGlue SrCsaGlue CircularProof.
Import ListNotations.

Section Circ.
  Variables (w sa data : list nat).
  Hypothesis Hw : zero_free w.
  Hypothesis HSA : is_suffix_array (terminated w) sa.
  Hypothesis Hd : data = w \/ data = terminated w.
  Notation T := (ctext w sa).
  Notation n := (len T).
  Let HT : text_ok T := ctext_ok w sa Hw HSA.
  Let HS : is_suffix_array T sa := ctext_sa w sa Hw HSA.

  Lemma circ_interval p st e : is_range T sa (map (wcomp w sa) p) st e ->
    circular_interval (searched w p) (terminated w) sa st e.
  Proof.
    intros HI. pose proof (range_circular w sa Hw HSA p st e HI) as G. pose proof (gsa_length w sa Hw HSA) as L.
    destruct (proj1 HI) as [H1 H2]. split; [rewrite L; lia|]. intros i. split.
    - intros Hi. exists (SA sa i). split; [unfold SA; apply nth_error_nth'; lia|]. apply G. eauto.
    - intros (a & Ea & Ha). apply G in Ha as (j & Hj & Ej).
      assert (Hi : i < n) by (rewrite <- L; apply nth_error_Some; congruence).
      assert (i = j); [|subst; auto]. apply (SA_inj T sa HS); [auto|lia|]. rewrite Ej. unfold SA. apply nth_error_nth; auto.
  Qed.
  Lemma query_circ p : p <> [] -> bytes p -> short_enough w p -> query w sa p.
  Proof.
    intros Hp Hb Hs. split; auto. split; auto. intros st e HI Hlt. rewrite ctext_n.
    apply (Hs (SA sa st)). apply (range_circular w sa Hw HSA p st e HI). exists st. split; auto.
  Qed.
  (** [ord] is the order of the report. *)
  Lemma circ_answers (count : list nat -> option range) locate p :
    (exists st e, count p = Some (st, e) /\ is_range T sa (map (wcomp w sa) p) st e) ->
    (query w sa p -> exists st e l, is_range T sa (map (wcomp w sa) p) st e /\ count p = Some (st, e) /\ locate p = Some l /\
       Permutation l (map (SA sa) (seq st (e - st)))) ->
    bytes p -> circular_answers w sa count locate p.
  Proof.
    intros (st & e & Ec & HI) HL Hb. exists st, e. split; auto. split; [apply circ_interval; auto|].
    intros Hne Hs. destruct (HL (query_circ p Hne Hb Hs)) as (st' & e' & l & _ & Ec' & El & P).
    rewrite Ec in Ec'. injection Ec' as <- <-. exists l. split; auto. split.
    - apply (range_circular_exact w sa Hw HSA p st e l HI P).
    - rewrite (Permutation_length P), map_length, seq_length. auto.
  Qed.
  Lemma back_perm st e : Permutation (map (SA sa) (rev (seq st (e - st)))) (map (SA sa) (seq st (e - st))).
  Proof. apply Permutation_map. symmetry. apply Permutation_rev. Qed.

  Lemma circ_rindex ix p : construct_rindex data sa = Some ix -> bytes p ->
    circular_answers w sa (rindex_count ix) (rindex_locate ix) p.
  Proof.
    intros Hix Hb. apply circ_answers; auto.
    - apply (rindex_count_ok w sa data Hw HSA Hd ix Hix p Hb).
    - intros Hq. destruct (rindex_locate_rows w sa data Hw HSA Hd ix Hix p Hb Hq) as (st & e & H1 & H2 & H3).
      exists st, e. eexists. split; eauto. split; eauto. split; eauto. apply back_perm.
  Qed.

  (** SrIndex *)
  Variable s : nat.
  Let al := construct_alphabet (BW (terminated w) sa).
  Lemma sr_count_ok ks R ix p : sri_facts w sa s ks R ix -> bytes p ->
    exists st e, sr_count ix p = Some (st, e) /\ is_range T sa (map (wcomp w sa) p) st e.
  Proof.
    intros F Hb. pose proof (sx_repr _ _ _ _ _ _ F) as Er. pose proof (sx_R _ _ _ _ _ _ F) as ER.
    unfold sr_count. rewrite (sx_alpha _ _ _ _ _ _ F), (base_N w sa Hw HSA). cbn [bind]. unfold engine_count.
    destruct (count_loop_ok T sa HT HS (al_sigma al) (ri_lf al (sr_bwt ix)) range_of_lf (al_symbol al)) with
      (rp := rev p) (rq := rev (map (wcomp w sa) p)) (st := 0) (e := n) (q := @nil nat) as (st & e & G1 & G2).
    - intros c st e Hc Hse He.
      apply (ri_lf_range T sa HS al (sr_bwt ix) _ R Er ER (base_C w sa Hw HSA) (base_O w sa Hw HSA) c st e); auto.
    - apply pattern_symbols; auto.
    - apply is_range_full.
    - exists st, e. split; auto. rewrite rev_involutive, app_nil_r in G2. auto.
  Qed.
  Lemma circ_sr ix locate p : construct_sri s data sa = Some ix \/ construct_sri_valid s data sa = Some ix ->
    (query w sa p -> exists st e, is_range T sa (map (wcomp w sa) p) st e /\ sr_count ix p = Some (st, e) /\
      locate p = Some (map (SA sa) (rev (seq st (e - st))))) ->
    bytes p -> circular_answers w sa (sr_count ix) locate p.
  Proof.
    intros Hix HL Hb. destruct (facts_any w sa data Hw HSA Hd s ix Hix) as (R & ks & F). apply circ_answers; auto.
    - eapply sr_count_ok; eauto.
    - intros Hq. destruct (HL Hq) as (st & e & H1 & H2 & H3).
      exists st, e. eexists. split; eauto. split; eauto. split; eauto. apply back_perm.
  Qed.
  Lemma circ_sri ix p : construct_sri s data sa = Some ix -> bytes p ->
    circular_answers w sa (sr_count ix) (srindex_locate ix) p.
  Proof. intros H Hb. apply circ_sr; auto. apply (srindex_rows w sa data Hw HSA Hd s); auto. Qed.
  Lemma circ_sri_vm ix p : construct_sri_valid s data sa = Some ix -> bytes p ->
    circular_answers w sa (sr_count ix) (srindex_vm_locate ix) p.
  Proof. intros H Hb. apply circ_sr; auto. apply (srindex_vm_rows w sa data Hw HSA Hd s); auto. Qed.
  Lemma circ_sri_va ix p : construct_sri_valid s data sa = Some ix -> bytes p ->
    circular_answers w sa (sr_count ix) (srindex_va_locate ix) p.
  Proof. intros H Hb. apply circ_sr; auto. apply (srindex_va_rows w sa data Hw HSA Hd s); auto. Qed.

  (** The CSA family *)
  Variable h : nat.
  Hypothesis Hh : 0 < h.
  Hypothesis Hn : S (length w) < 2 ^ 64.
  Let Hn' : n < 2 ^ 64 := g_n w sa Hn.
  Lemma csa_count_ok a p : a = construct_alphabet (BW (terminated w) sa) -> bytes p ->
    exists st e, csa_count a (core (BW T sa) (al_sigma a) h) p = Some (st, e) /\ is_range T sa (map (wcomp w sa) p) st e.
  Proof.
    intros Ha Hb. unfold csa_count, al_size. rewrite (ta_N w sa Hw HSA a Ha). cbn [bind]. unfold engine_count.
    destruct (count_loop_ok T sa HT HS (al_sigma a) (csa_lf a (core (BW T sa) (al_sigma a) h)) range_of_psi (al_symbol a)) with
      (rp := rev p) (rq := rev (map (wcomp w sa) p)) (st := 0) (e := n) (q := @nil nat) as (st & e & G1 & G2).
    - intros c st e Hc Hse He.
      apply (csa_lf_range T sa HT HS a h (B_lt w sa Hw HSA a Ha) (ta_O w sa Hw HSA a Ha) Hh Hn' (ta_C w sa Hw HSA a Ha) c st e); auto.
    - apply csa_symbols; auto.
    - apply is_range_full.
    - exists st, e. split; auto. rewrite rev_involutive, app_nil_r in G2. auto.
  Qed.
  Lemma circ_csa (count : list nat -> option range) locate p :
    (exists st e, count p = Some (st, e) /\ is_range T sa (map (wcomp w sa) p) st e) ->
    (query w sa p -> csa_answer w sa count locate p) -> bytes p -> circular_answers w sa count locate p.
  Proof.
    intros HC HL Hb. apply circ_answers; auto. intros Hq. destruct (HL Hq) as (st & e & H1 & H2 & H3).
    exists st, e. eexists. split; eauto.
  Qed.
  Lemma circ_bwt ix p : construct_rcsa_bwt (2 * h) data sa = Some ix -> bytes p ->
    circular_answers w sa (rcsa_bwt_count ix) (rcsa_bwt_locate ix) p.
  Proof.
    intros Hix Hb. destruct (st_bwt_val w sa data Hw HSA Hd h Hh Hn) as (a & Ha & E). rewrite Hix in E. injection E as ->.
    apply circ_csa; auto; [apply csa_count_ok; auto|]. apply (rcsa_bwt_rows w sa Hw HSA a h Ha Hh Hn').
  Qed.
  Lemma circ_psi ix p : construct_rcsa_psi (2 * h) data sa = Some ix -> bytes p ->
    circular_answers w sa (rcsa_psi_count ix) (rcsa_psi_locate ix) p.
  Proof.
    intros Hix Hb. destruct (st_psi_val w sa data Hw HSA Hd h Hh Hn) as (a & Ha & E). rewrite Hix in E. injection E as ->.
    apply circ_csa; auto; [apply csa_count_ok; auto|]. apply (rcsa_psi_rows w sa Hw HSA a h Ha Hh Hn').
  Qed.
  Lemma circ_raw ix p : construct_csa_raw (2 * h) data sa = Some ix -> bytes p ->
    circular_answers w sa (csa_raw_count ix) (csa_raw_locate ix) p.
  Proof.
    intros Hix Hb. destruct (st_raw_val w sa data Hw HSA Hd h Hh Hn) as (a & Ha & E). rewrite Hix in E. injection E as ->.
    apply circ_csa; auto; [apply csa_count_ok; auto|]. apply (csa_raw_rows w sa Hw HSA a h Ha Hh Hn').
  Qed.
  Lemma circ_srcsa f valid v phi ix p : build sa data h s f valid = Some ix -> bytes p ->
    phi = phi_plain \/ valid = true /\ (phi = phi_valid_mark \/ phi = phi_valid_area) ->
    circular_answers w sa (srcsa_count ix) (locate_of f v phi ix) p.
  Proof.
    intros E Hb Hphi. destruct (build_good w sa data Hw HSA Hd h Hh Hn s f valid ix E) as (a & Ha & K & HF & HX & HR & HV).
    apply circ_csa; auto.
    - unfold srcsa_count. rewrite (xc_alpha _ _ _ _ _ _ _ HX), (xc_psi _ _ _ _ _ _ _ HX). apply csa_count_ok; auto.
    - intros Hq. eapply st_rows; eauto.
  Qed.
End Circ.
