(** Statements about the subsampled Psi indexes in the specification vocabulary. *)
From Coq Require Import List Arith Bool Lia ZifyBool ZifyNat Permutation.
From Verif Require Import Spec MBase Lists FM MRle Runs RleProof MConstruct MPhi MRIndex MSrIndex Util Phi
  ConstructProof Nav PhiProof BaseProof Glue MPsi EncProof PsiSym PsiOps PsiProof PsiCore PsiSpec PsiText
  MCsa CsaNav CsaPhi PsiOrder CsaProof CsaGlue MSrCsa FwdRange FwdSubs FwdValid FwdRuns FwdQuery FwdBuild.
Import ListNotations.

Section Statements.
  Variables (w sa data : list nat).
  Hypothesis Hw : zero_free w.
  Hypothesis HSA : is_suffix_array (terminated w) sa.
  Hypothesis Hd : data = w \/ data = terminated w.
  Variable h : nat.
  Hypothesis Hh : 0 < h.
  Hypothesis Hn : S (length w) < 2 ^ 64.
  Variable s : nat.
  Notation T := (ctext w sa).
  Notation n := (len T).
  Notation B := (BW T sa).
  Notation tp := (tpos T sa).
  Let HT : text_ok T := ctext_ok w sa Hw HSA.
  Let HS : is_suffix_array T sa := ctext_sa w sa Hw HSA.
  Let Hn' : n < 2 ^ 64 := g_n w sa Hn.

  (** The nine classes. *)
  Inductive family := FRows | FRuns | FPsi.
  Definition build (f : family) (valid : bool) : option srcsa :=
    match f, valid with
    | FRows, false => construct_srcsa s (2 * h) data sa
    | FRows, true => construct_srcsa_valid s (2 * h) data sa
    | FRuns, false => construct_srcsa_slim s (2 * h) data sa
    | FRuns, true => construct_srcsa_slim_valid s (2 * h) data sa
    | FPsi, false => construct_srcsa_psi s (2 * h) data sa
    | FPsi, true => construct_srcsa_psi_valid s (2 * h) data sa
    end.
  Definition built (ix : srcsa) : Prop := exists f valid, build f valid = Some ix.
  Definition good (f : family) (valid : bool) (al : alphabet) (ix : srcsa) : Prop :=
    exists K, fwd_kept T sa s K /\ ix_common w sa al h s K ix /\
      match f with FRows => exists ms, ix_rows w sa K ix ms | _ => exists qs, ix_runs w sa al K ix qs end /\
      (valid = true -> ix_valid w sa K ix).
  Lemma build_ok f valid : exists al ix, al = construct_alphabet (BW (terminated w) sa) /\
    build f valid = Some ix /\ good f valid al ix.
  Proof.
    destruct (al_exists w sa) as [al Hal]. exists al. destruct f, valid; cbn [build].
    - destruct (construct_valid_ok w sa Hw HSA al h Hal Hh Hn' s data Hd) as (ix & E & K & ms & H1 & H2 & H3 & H4).
      exists ix. repeat split; auto. exists K. eauto.
    - destruct (construct_srcsa_ok w sa Hw HSA al h Hal Hh Hn' s data Hd) as (ix & E & K & ms & H1 & H2 & H3).
      exists ix. repeat split; auto. exists K. split; auto. split; auto. split; eauto. discriminate.
    - destruct (construct_slim_valid_ok w sa Hw HSA al h Hal Hh Hn' s data Hd) as (ix & E & K & ms & H1 & H2 & H3 & H4).
      exists ix. repeat split; auto. exists K. eauto.
    - destruct (construct_slim_ok w sa Hw HSA al h Hal Hh Hn' s data Hd) as (ix & E & K & ms & H1 & H2 & H3).
      exists ix. repeat split; auto. exists K. split; auto. split; auto. split; eauto. discriminate.
    - destruct (construct_psi_valid_ok w sa Hw HSA al h Hal Hh Hn' s data Hd) as (ix & E & K & ms & H1 & H2 & H3 & H4).
      exists ix. repeat split; auto. exists K. eauto.
    - destruct (construct_psi_ok w sa Hw HSA al h Hal Hh Hn' s data Hd) as (ix & E & K & ms & H1 & H2 & H3).
      exists ix. repeat split; auto. exists K. split; auto. split; auto. split; eauto. discriminate.
  Qed.
  Lemma build_total f valid : exists ix, build f valid = Some ix.
  Proof. destruct (build_ok f valid) as (al & ix & _ & E & _). eauto. Qed.
  Lemma build_good f valid ix : build f valid = Some ix ->
    exists al, al = construct_alphabet (BW (terminated w) sa) /\ good f valid al ix.
  Proof. intros E. destruct (build_ok f valid) as (al & ix' & Hal & E' & G). rewrite E in E'. injection E' as <-. eauto. Qed.

  Definition locate_of (f : family) (valid : bool) (phi : srcsa -> nat -> nat -> option (nat * bool)) : srcsa -> list nat -> option (list nat) :=
    match f with FRows => srcsa_locate_with valid phi | _ => slim_locate_with valid phi end.
  Lemma st_rows f valid v phi ix p : build f valid = Some ix -> query w sa p ->
    phi = phi_plain \/ valid = true /\ (phi = phi_valid_mark \/ phi = phi_valid_area) ->
    csa_answer w sa (srcsa_count ix) (locate_of f v phi ix) p.
  Proof.
    intros E Hp Hphi. destruct (build_good f valid ix E) as (al & Hal & K & HF & HX & HR & HV).
    assert (G : phi_good w sa s K (phi ix n)).
    { destruct Hphi as [->|[Hv [-> | ->]]].
      - eapply plain_good; eauto.
      - eapply valid_mark_good; eauto.
      - eapply valid_area_good; eauto. }
    unfold locate_of. destruct f; destruct HR as [ms HR].
    - eapply row_answers; eauto.
    - eapply run_answers; eauto.
    - eapply run_answers; eauto.
  Qed.
  Lemma st_answers f valid v phi ix p : build f valid = Some ix -> pattern_over w p ->
    phi = phi_plain \/ valid = true /\ (phi = phi_valid_mark \/ phi = phi_valid_area) ->
    fwd_answers w sa (srcsa_count ix) (locate_of f v phi ix) p.
  Proof. intros E Hp Hphi. apply fwd_rows; auto. eapply st_rows; eauto. apply query_over; auto. Qed.
  Lemma st_srcsa_search ix u v : built ix -> pattern_over w v ->
    exists st e, csa_search (sc_alpha ix) (sc_psi ix) (rev v) (0, length sa) = Some (st, e) /\ row_interval v w sa st e /\
      srcsa_count ix (u ++ v) = csa_search (sc_alpha ix) (sc_psi ix) (rev u) (st, e) /\
      (st = e -> srcsa_count ix (u ++ v) = Some (st, e)).
  Proof.
    intros (f & b & E) Hp. destruct (build_good f b ix E) as (al & Hal & K & HF & HX & HR & HV).
    pose proof (st_answers f b false phi_plain ix v E Hp (or_introl eq_refl)) as HA.
    pose proof (xc_alpha _ _ _ _ _ _ _ HX) as Ea.
    apply st_search with (loc := locate_of f false phi_plain ix); auto. rewrite Ea. auto.
  Qed.
  Lemma st_srcsa_count_empty ix : built ix -> srcsa_count ix [] = Some (0, length sa).
  Proof.
    intros (f & b & E). destruct (build_good f b ix E) as (al & Hal & K & HF & HX & HR & HV).
    pose proof (xc_alpha _ _ _ _ _ _ _ HX) as Ea.
    apply (st_empty w sa Hw HSA h Hh Hn (sc_alpha ix) (sc_psi ix) bwt_create 0 (fun _ _ _ => None)). rewrite Ea. auto.
  Qed.

  (** Samples are text positions of run heads. *)
  Lemma good_samples f b al ix : al = construct_alphabet (BW (terminated w) sa) -> good f b al ix ->
    exists K, fwd_kept T sa s K /\ ix_common w sa al h s K ix /\ (forall x, In x (sc_samples ix) <-> exists i, In i K /\ x = tp i) /\
      length (sc_samples ix) <= length K.
  Proof.
    intros Hal (K & HF & HX & HR & _). exists K. split; auto. split; auto.
    pose proof (B_lt w sa Hw HSA al Hal) as Hlt.
    assert (Hruns : (exists qs, ix_runs w sa al K ix qs) -> (forall x, In x (sc_samples ix) <-> exists i, In i K /\ x = tp i) /\
      length (sc_samples ix) <= length K).
    { intros [qs HQ]. rewrite (xs_samples _ _ _ _ _ _ HQ). split.
      - intros x. rewrite in_map_iff. split.
        + intros (q & <- & Hq). exists (nth q (phrows T sa (al_sigma al)) 0). split; auto.
          apply (xs_in _ _ _ _ _ _ HQ); auto. apply (xs_lt _ _ _ _ _ _ HQ); auto.
        + intros (i & Hi & ->). destruct (fk_head _ _ _ _ HF i Hi) as [H1 H2].
          assert (Hin : In i (phrows T sa (al_sigma al))).
          { apply (phrows_in T sa HS (al_sigma al) Hlt). apply (hrows_in T sa HS). auto. }
          destruct (In_nth _ _ 0 Hin) as (q & Hq & Eq). rewrite (phrows_length T sa HS (al_sigma al) Hlt) in Hq.
          exists q. rewrite Eq. split; auto. apply (xs_in _ _ _ _ _ _ HQ); auto. rewrite Eq. auto.
      - rewrite map_length. rewrite <- (map_length (fun q => nth q (phrows T sa (al_sigma al)) 0) qs).
        apply NoDup_incl_length.
        + apply NoDup_map_inj; [apply ssorted_NoDup, (xs_sorted _ _ _ _ _ _ HQ)|].
          intros x y Hx Hy. apply (xs_lt _ _ _ _ _ _ HQ) in Hx, Hy.
          apply (proj1 (NoDup_nth _ 0) (phrows_NoDup T sa HS (al_sigma al) Hlt)); rewrite (phrows_length T sa HS (al_sigma al) Hlt); auto.
        + intros x Hx. apply in_map_iff in Hx. destruct Hx as (q & <- & Hq).
          apply (xs_in _ _ _ _ _ _ HQ); auto. apply (xs_lt _ _ _ _ _ _ HQ); auto. }
    destruct f; auto. destruct HR as [ms HM]. rewrite (xr_samples _ _ _ _ _ HM). split.
    - intros x. rewrite in_map_iff. split; intros (i & H1 & H2); exists i.
      + split; auto. apply (xr_in _ _ _ _ _ HM); auto.
      + split; auto. apply (xr_in _ _ _ _ _ HM); auto.
    - rewrite map_length. apply NoDup_incl_length; [apply ssorted_NoDup, (xr_sorted _ _ _ _ _ HM)|].
      intros x Hx. apply (xr_in _ _ _ _ _ HM); auto.
  Qed.
  Lemma st_srcsa_size ix : built ix -> length (sc_samples ix) <= 2 * (length w / (s + 1)) + 4.
  Proof.
    intros (f & b & E). destruct (build_good f b ix E) as (al & Hal & G).
    destruct (good_samples f b al ix Hal G) as (K & HF & _ & _ & HL).
    pose proof (fk_size _ _ _ _ HF) as HZ. replace n with (S (length w)) in HZ by (symmetry; apply ctext_n).
    cbn [Nat.sub] in HZ. rewrite Nat.sub_0_r in HZ. rewrite Nat.add_1_r. lia.
  Qed.

  (** Bounded navigation. *)
  Notation L := (bwt_of (terminated w) sa).
  Lemma L_len : length L = n.
  Proof. rewrite ctext_len. apply (BW_length _ sa HSA). Qed.
  Lemma head_is i : run_head L i <-> i < n /\ headr T sa i = true.
  Proof.
    rewrite <- (hrows_in T sa HS). rewrite <- (ctext_hrows w sa Hw HSA), (hrows_in _ sa HSA). rewrite <- (ctext_len w sa), <- L_len. split.
    - intros H. assert (i < length L) by apply H. split; auto. apply head_spec; auto.
    - intros [H1 H2]. apply head_spec; auto.
  Qed.
  Lemma psi_it_SA l i : i < n -> SA sa (psi_it T sa l i) = (SA sa i + l) mod n.
  Proof.
    pose proof (n_pos T HT) as H0. revert i. induction l as [|l IH]; intros i Hi.
    - cbn [psi_it Nat.iter]. rewrite Nat.add_0_r, Nat.mod_small; auto. apply (SA_lt T sa HS); auto.
    - rewrite psi_it_S. rewrite IH by (apply PSr_lt; auto).
      unfold PSr at 1. rewrite (SA_ISA T sa HS) by (apply csucc_lt; auto). unfold csucc.
      rewrite Nat.add_mod_idemp_l by lia. f_equal. lia.
  Qed.
  (** Row [j] is sampled: its sample is the position before it. *)
  Definition sampled (ix : srcsa) (j : nat) : Prop :=
    run_head L j /\ exists x, In x (sc_samples ix) /\ (x + 1) mod S (length w) = nth j sa 0.
  Lemma kept_is_sampled f b al ix K : al = construct_alphabet (BW (terminated w) sa) -> good f b al ix ->
    fwd_kept T sa s K -> (forall x, In x (sc_samples ix) <-> exists i, In i K /\ x = tp i) -> forall j, In j K -> sampled ix j.
  Proof.
    intros Hal G HF HI j Hj. destruct (fk_head _ _ _ _ HF j Hj) as [H1 H2]. split; [apply head_is; auto|].
    exists (tp j). split; [apply HI; eauto|]. replace (S (length w)) with n by apply ctext_n. exact (csucc_tpos T sa HT HS j H1).
  Qed.
  Lemma st_srcsa_toehold_bound ix i : built ix -> run_head L i ->
    exists l j, (l = 0 \/ l < s) /\ nth j sa 0 = (nth i sa 0 + l) mod S (length w) /\ sampled ix j.
  Proof.
    intros (f & b & E) Hi. apply head_is in Hi. destruct Hi as [H1 H2]. destruct (build_good f b ix E) as (al & Hal & G).
    destruct (good_samples f b al ix Hal G) as (K & HF & _ & HI & _).
    destruct (reach T sa HT HS s K HF i H1 H2) as (l & Hk & Hl). exists l, (psi_it T sa l i). split; auto.
    split; [replace (S (length w)) with n by apply ctext_n; apply psi_it_SA; auto|].
    eapply kept_is_sampled; eauto. apply memb_In; auto.
  Qed.
  Lemma st_srcsa_range_bound ix i : built ix -> S i < length sa ->
    (exists l j, l < s /\ nth j sa 0 = (nth (S i) sa 0 + l) mod S (length w) /\ sampled ix j) \/
    exists b, phi_plain ix (length sa) (nth i sa 0) = Some (nth (S i) sa 0, b).
  Proof.
    intros (f & b & E) Hi. rewrite (gsa_length w sa Hw HSA) in *. destruct (build_good f b ix E) as (al & Hal & G).
    destruct (good_samples f b al ix Hal G) as (K & HF & HX & HI & _).
    destruct (existsb (fun l => memb K (psi_it T sa l (S i))) (seq 0 s)) eqn:Ex.
    - left. apply existsb_exists in Ex. destruct Ex as (l & Hl & Hk). apply in_seq in Hl. exists l, (psi_it T sa l (S i)).
      split; [lia|]. split; [replace (S (length w)) with n by apply ctext_n; apply psi_it_SA; auto|].
      eapply kept_is_sampled; eauto. apply memb_In; auto.
    - right. apply (pg_reach _ _ _ _ _ (plain_good w sa Hw HSA al h s K HF ix HX) i Hi). intros l Hl.
      destruct (memb K _) eqn:Ek; auto.
      assert (existsb (fun l => memb K (psi_it T sa l (S i))) (seq 0 s) = true).
      { apply existsb_exists. exists l. split; [apply in_seq; lia|]. auto. }
      congruence.
  Qed.
End Statements.
