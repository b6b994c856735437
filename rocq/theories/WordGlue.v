(** The indexes that construction gives fit in words of 64 bits when the text is short enough. *)
From Coq Require Import List Arith Bool Lia ZifyBool ZifyNat.
From Verif Require Import Spec MBase Lists FM MRle Runs RleProof MConstruct MPhi MRIndex MSrIndex Util Phi
  ConstructProof Nav PhiProof BaseProof Glue RIndexProof SamplingProof BackRange SubsProof SrRuns SrProof SrGlue
  MPsi EncProof PsiSym PsiOps PsiProof PsiCore PsiSpec PsiText MCsa CsaNav CsaPhi PsiOrder CsaProof CsaGlue MSrCsa
  FwdRange FwdSubs FwdValid FwdRuns FwdQuery FwdBuild SrCsaGlue MWord WordProof.
Import ListNotations.

Section Statements.
  Variables (w sa data : list nat).
  Hypothesis Hw : zero_free w.
  Hypothesis HSA : is_suffix_array (terminated w) sa.
  Hypothesis Hd : data = w \/ data = terminated w.
  Notation T := (ctext w sa).
  Notation n := (len T).
  Let HT : text_ok T := ctext_ok w sa Hw HSA.
  Let HS : is_suffix_array T sa := ctext_sa w sa Hw HSA.
  Lemma tps_lt (l : list nat) : Forall (fun x => x < n) (map (tpos T sa) l).
  Proof. apply Forall_forall. intros x Hx. apply in_map_iff in Hx. destruct Hx as (i & <- & _). apply tpos_lt; auto. Qed.
  Lemma tps_lt' (f : nat -> nat) (l : list nat) : Forall (fun x => x < n) (map (fun k => tpos T sa (f k)) l).
  Proof. apply Forall_forall. intros x Hx. apply in_map_iff in Hx. destruct Hx as (i & <- & _). apply tpos_lt; auto. Qed.
  Lemma bits_len l m : length (bits_of l m) = m.
  Proof. unfold bits_of. rewrite map_length, seq_length. auto. Qed.
  Lemma word_n k : 2 * S (length w) + k + 3 <= word -> 2 * n + k + 3 <= word.
  Proof. intros H. rewrite (ctext_n w sa). auto. Qed.

  Lemma st_w_rindex ix p : construct_rindex data sa = Some ix -> 2 * S (length w) + 3 <= word -> length p < word ->
    w_rindex_locate ix p = rindex_locate ix p.
  Proof.
    intros Hix Hb Hp. destruct (construct_rindex_ok w sa data Hw HSA Hd) as (ix' & R & E & Ea & Er & ER & Es & Em & El).
    rewrite Hix in E. injection E as <-. apply (w_rindex_same ix n); auto.
    - rewrite Ea. apply (base_N w sa Hw HSA).
    - rewrite (repr_size _ _ _ _ Er), ER. apply (BW_length _ _ HS).
    - split; [rewrite Em, bits_len; auto|]. rewrite Es. apply tps_lt.
    - rewrite (ctext_n w sa). auto.
  Qed.
  Lemma st_w_sr valid s ix links validator p :
    construct_sri s data sa = Some ix \/ construct_sri_valid s data sa = Some ix ->
    2 * S (length w) + s + 3 <= word -> length p < word ->
    w_sr_locate valid ix (fun n => w_ri_phi n (sr_marks ix) (sr_samples ix) links validator) p =
    sr_locate ix (fun n => if valid then sr_phi_for_range_valid ix n (ri_phi n (sr_marks ix) (sr_samples ix) links validator)
                           else sr_phi_for_range ix n (ri_phi n (sr_marks ix) (sr_samples ix) links validator)) p.
  Proof.
    intros H Hb Hp. destruct (facts_any w sa data Hw HSA Hd s ix H) as (R & ks & F). apply word_n in Hb.
    assert (HSm : Forall (fun x => x < n) (sr_samples ix)) by (rewrite (sx_samples _ _ _ _ _ _ F); apply tps_lt').
    apply (w_sr_same valid ix n (fun n => ri_phi n (sr_marks ix) (sr_samples ix) links validator)
             (fun n => w_ri_phi n (sr_marks ix) (sr_samples ix) links validator)); auto.
    - rewrite (sx_alpha _ _ _ _ _ _ F). apply (base_N w sa Hw HSA).
    - rewrite (repr_size _ _ _ _ (sx_repr _ _ _ _ _ _ F)), (sx_R _ _ _ _ _ _ F). apply (BW_length _ _ HS).
    - intros v Hv. apply w_ri_phi_keeps; auto; [lia|]. rewrite (sx_marks _ _ _ _ _ _ F), bits_len. auto.
    - rewrite (sx_rate _ _ _ _ _ _ F). auto.
  Qed.

  Variable h : nat.
  Hypothesis Hh : 0 < h.
  Lemma st_w_bwt ix p : construct_rcsa_bwt (2 * h) data sa = Some ix -> 2 * S (length w) + 3 <= word -> length p < word ->
    w_rcsa_bwt_locate ix p = rcsa_bwt_locate ix p.
  Proof.
    intros Hix Hb Hp. assert (Hn : S (length w) < 2 ^ 64) by (rewrite <- word_eq; lia).
    destruct (st_bwt_val w sa data Hw HSA Hd h Hh Hn) as (al & Hal & E). rewrite Hix in E. injection E as ->.
    apply (w_rcsa_bwt_same _ n); auto.
    - cbn [rcsa_bwt_val ca_alpha]. rewrite Hal. apply (base_N w sa Hw HSA).
    - cbn [rcsa_bwt_val ca_psi]. apply (BW_length _ _ HS).
    - cbn [rcsa_bwt_val ca_marks ca_samples]. split; [rewrite bits_len; auto|]. apply tps_lt.
    - rewrite (ctext_n w sa). auto.
  Qed.
  Lemma st_w_psi ix p : construct_rcsa_psi (2 * h) data sa = Some ix -> 2 * S (length w) + 3 <= word -> length p < word ->
    w_rcsa_psi_locate ix p = rcsa_psi_locate ix p.
  Proof.
    intros Hix Hb Hp. assert (Hn : S (length w) < 2 ^ 64) by (rewrite <- word_eq; lia).
    destruct (st_psi_val w sa data Hw HSA Hd h Hh Hn) as (al & Hal & E). rewrite Hix in E. injection E as ->.
    apply (w_rcsa_psi_same _ n); auto.
    - cbn [rcsa_psi_val ca_alpha]. rewrite Hal. apply (base_N w sa Hw HSA).
    - cbn [rcsa_psi_val ca_psi]. apply (BW_length _ _ HS).
    - cbn [rcsa_psi_val ca_marks ca_samples]. split; [rewrite bits_len; auto|]. apply tps_lt.
    - rewrite (ctext_n w sa). auto.
  Qed.
  Definition w_phi_of (k : nat) : srcsa -> nat -> nat -> option (nat * bool) :=
    match k with 0 => w_phi_plain | 1 => w_phi_valid_mark | _ => w_phi_valid_area end.
  Definition phi_of (k : nat) : srcsa -> nat -> nat -> option (nat * bool) :=
    match k with 0 => phi_plain | 1 => phi_valid_mark | _ => phi_valid_area end.
  Definition w_locate_of (f : family) (valid : bool) (k : nat) : srcsa -> list nat -> option (list nat) :=
    match f with FRows => w_srcsa_locate_with valid (w_phi_of k) | _ => w_slim_locate_with valid (w_phi_of k) end.
  Lemma st_w_fwd s f b valid k ix p : build sa data h s f b = Some ix ->
    2 * S (length w) + s + 3 <= word -> s <= length w + 2 -> length p < word ->
    w_locate_of f valid k ix p = locate_of f valid (phi_of k) ix p.
  Proof.
    intros E Hb Hs Hp. assert (Hn : S (length w) < 2 ^ 64) by (rewrite <- word_eq; lia). apply word_n in Hb.
    destruct (build_good w sa data Hw HSA Hd h Hh Hn s f b ix E) as (al & Hal & G).
    destruct (good_samples w sa Hw HSA h s f b al ix Hal G) as (K & HF & HX & HSs & _).
    assert (HSm : Forall (fun x => x < n) (sc_samples ix)).
    { apply Forall_forall. intros x Hx. apply HSs in Hx. destruct Hx as (i & _ & ->). apply tpos_lt; auto. }
    assert (En : al_size (sc_alpha ix) = Some n) by (rewrite (xc_alpha _ _ _ _ _ _ _ HX), Hal; apply (base_N w sa Hw HSA)).
    assert (Hmk : length (sc_marks ix) <= n) by (rewrite (xc_marks _ _ _ _ _ _ _ HX), bits_len; auto).
    rewrite <- (xc_rate _ _ _ _ _ _ _ HX) in Hb, Hs.
    assert (Hs' : sc_rate ix <= S n) by (rewrite (ctext_n w sa); lia).
    assert (Hphi : forall v, v < n -> keeps (fun y => fst y < n) (w_phi_of k ix n v) (phi_of k ix n v)).
    { intros v Hv. destruct k as [|[|k]]; apply w_csa_phi_keeps; auto; lia. }
    unfold w_locate_of, locate_of. destruct f; [apply (w_srcsa_same ix n)|apply (w_slim_same ix n)|apply (w_slim_same ix n)]; auto.
  Qed.
End Statements.
