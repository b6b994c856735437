(** The number of samples that the sub-sampled classes keep. *)
From Coq Require Import List Arith Bool Lia ZifyBool ZifyNat Permutation.
From Verif Require Import Spec MBase Lists FM MRle Runs RleProof MConstruct MPhi MRIndex MSrIndex Util Phi
  ConstructProof Nav PhiProof BaseProof Glue MPsi EncProof PsiSym PsiOps PsiProof PsiCore PsiSpec PsiText
  MCsa CsaNav CsaPhi PsiOrder CsaProof CsaGlue MSrCsa FwdRange FwdSubs FwdValid FwdRuns FwdQuery FwdBuild.
Import ListNotations.

Section Slim.
  Variables (w sa data : list nat).
  Hypothesis Hw : zero_free w.
  Hypothesis HSA : is_suffix_array (terminated w) sa.
  Hypothesis Hd : data = w \/ data = terminated w.
  Variable h : nat.
  Hypothesis Hh : 0 < h.
  Hypothesis Hn : S (length w) < 2 ^ 64.
  Variable s : nat.
  Notation T := (ctext w sa).
  Notation n := (len T).
  Notation B := (BW T sa).
  Notation tp := (tpos T sa).
  Let HT : text_ok T := ctext_ok w sa Hw HSA.
  Let HS : is_suffix_array T sa := ctext_sa w sa Hw HSA.
  Let Hn' : n < 2 ^ 64 := g_n w sa Hn.

  Lemma runs_count al K ix qs : al = construct_alphabet (BW (terminated w) sa) -> fwd_kept T sa s K -> NoDup K ->
    ix_runs w sa al K ix qs -> length (sc_samples ix) = length K.
  Proof.
    intros Hal HF ND HQ. pose proof (B_lt w sa Hw HSA al Hal) as Hlt.
    rewrite (xs_samples _ _ _ _ _ _ HQ), map_length. rewrite <- (map_length (fun q => nth q (phrows T sa (al_sigma al)) 0) qs).
    apply Permutation_length, NoDup_Permutation; [|exact ND|].
    - apply NoDup_map_inj; [apply ssorted_NoDup, (xs_sorted _ _ _ _ _ _ HQ)|].
      intros x y Hx Hy. apply (xs_lt _ _ _ _ _ _ HQ) in Hx, Hy.
      apply (proj1 (NoDup_nth _ 0) (phrows_NoDup T sa HS (al_sigma al) Hlt)); rewrite (phrows_length T sa HS (al_sigma al) Hlt); auto.
    - intros i. rewrite in_map_iff. split.
      + intros (q & <- & Hq). apply (xs_in _ _ _ _ _ _ HQ); auto. apply (xs_lt _ _ _ _ _ _ HQ); auto.
      + intros Hi. destruct (fk_head _ _ _ _ HF i Hi) as [H1 H2].
        assert (Hin : In i (phrows T sa (al_sigma al))).
        { apply (phrows_in T sa HS (al_sigma al) Hlt). apply (hrows_in T sa HS). auto. }
        destruct (In_nth _ _ 0 Hin) as (q & Hq & Eq). rewrite (phrows_length T sa HS (al_sigma al) Hlt) in Hq.
        exists q. rewrite Eq. split; auto. apply (xs_in _ _ _ _ _ _ HQ); auto. rewrite Eq. auto.
  Qed.
  Lemma slim_count c ix : construct_srcsa_commons s (2 * h) data sa = Some c -> construct_srcsa_slim_of s c = Some ix ->
    length (sc_samples ix) = length (sf_idx (snd (fst (fst c)))).
  Proof.
    intros EC EI. destruct (al_exists w sa) as [al Hal].
    destruct (commons_ok w sa Hw HSA al h Hal Hh Hn' s data Hd) as (b & ks & Ec & F & Sks & Hks & HF).
    destruct (slim_of_ok w sa Hw HSA al h Hal Hh Hn' s b ks (sort_indices (tmarks T sa)) F Sks Hks HF) as (ix' & qs & Ei & _ & H2).
    rewrite Ec in EC. injection EC as <-. rewrite Ei in EI. injection EI as <-. cbn [fst snd sf_idx].
    assert (ND : NoDup (map (fun k => nth k (hrows T sa) 0) ks)).
    { apply NoDup_map_inj; [apply ssorted_NoDup; exact Sks|]. intros x y Hx Hy.
      apply (proj1 (NoDup_nth (hrows T sa) 0) (ssorted_NoDup _ (rows_ssorted T sa HS))); rewrite (hrows_r T sa); auto. }
    rewrite (runs_count al _ ix' qs Hal HF ND H2). apply map_length.
  Qed.
End Slim.
