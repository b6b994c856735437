(** Queries of the subsampled Psi indexes, from the contents of a loaded index. *)
From Coq Require Import List Arith Bool Lia ZifyBool ZifyNat Permutation.
From Verif Require Import Spec MBase Lists FM MRle Runs RleProof MConstruct MPhi MRIndex MSrIndex Util Phi
  ConstructProof Nav PhiProof BaseProof MPsi EncProof PsiSym PsiOps PsiProof PsiCore PsiSpec PsiText
  MCsa CsaNav CsaPhi PsiOrder CsaProof MSrCsa FwdRange FwdSubs FwdValid FwdRuns.
Import ListNotations.

Lemma sample_at (f : nat -> nat) ms size k : ssorted ms -> (forall m, In m ms -> m < size) -> In k ms ->
  exists i, bv_rank (bits_of ms size) k = Some i /\ nth_error (map f ms) i = Some (f k).
Proof.
  intros Hs Hlt Hk. pose proof (Hlt k Hk). exists (count (fun m => m <? k) ms). split; [apply bits_rank; auto; lia|].
  destruct (In_nth _ _ 0 Hk) as (i & Hi & <-).
  assert (E : count (fun m => m <? nth i ms 0) ms = i).
  { destruct (Nat.lt_trichotomy (count (fun m => m <? nth i ms 0) ms) i) as [G|[G|G]]; auto; exfalso.
    - pose proof (ssorted_nth ms Hs _ i G Hi) as Q. pose proof (count_lt_sorted ms Hs (nth i ms 0) (count (fun m => m <? nth i ms 0) ms) ltac:(lia)). lia.
    - apply (count_lt_sorted ms Hs) in G; auto. lia. }
  rewrite E. rewrite nth_error_map, (nth_error_nth_lt _ _ 0) by auto. auto.
Qed.

Section Query.
  Variables (w sa : list nat).
  Hypothesis Hw : zero_free w.
  Hypothesis HSA : is_suffix_array (terminated w) sa.
  Notation T := (ctext w sa).
  Notation n := (len T).
  Notation B := (BW T sa).
  Notation tp := (tpos T sa).
  Let HT : text_ok T := ctext_ok w sa Hw HSA.
  Let HS : is_suffix_array T sa := ctext_sa w sa Hw HSA.
  Variables (al : alphabet) (h : nat).
  Hypothesis Hal : al = construct_alphabet (BW (terminated w) sa).
  Hypothesis Hh : 0 < h.
  Hypothesis Hn : n < 2 ^ 64.
  Notation sigma := (al_sigma al).
  Notation pc := (core B sigma h).
  Notation r := (length (rle B)).
  Notation rs k := (rstart (rle B) k).
  Notation hs := (map fst (rle B)).
  Notation sym k := (nth k hs 0).
  Notation hrk c k := (rankP (Nat.eqb c) hs k).
  Let Hlt := B_lt w sa Hw HSA al Hal.
  Let Hocc := ta_O w sa Hw HSA al Hal.
  Let HBn : length B < 2 ^ 64 := c_hn w sa Hw HSA Hn.
  Let HB0 : 0 < length B := c_n0 w sa Hw HSA.
  Let HBl : length B = n := c_n w sa Hw HSA.
  Notation phr := (phrows T sa sigma).
  Notation fm := (sorted_values (tmarks T sa)).

  Variables (s : nat) (K : list nat).
  Hypothesis HF : fwd_kept T sa s K.
  Notation kept := (memb K).
  Notation smarks := (map (fun i => tp (blink T sa i)) K).
  Variable ix : srcsa.

  (** Contents shared by all the classes. *)
  Record ix_common : Prop := {
    xc_alpha : sc_alpha ix = al;
    xc_psi : sc_psi ix = pc;
    xc_rate : sc_rate ix = s;
    xc_marks : sc_marks ix = bits_of smarks n;
    xc_links : forall k t, k < length K -> t < n -> tp t = nth k (sorted_values smarks) 0 ->
      exists i, nth_error (sc_links ix) k = Some i /\ nth_error (sc_samples ix) i = Some (tp (flink T sa t))
  }.
  Record ix_valid : Prop := {
    xv_valid : sc_valid ix = fbits T sa K fm;
    xv_areas : sc_areas ix = map (farea T sa K fm) (finvs T sa K fm)
  }.
  Record ix_rows (ms : list nat) : Prop := {
    xr_sorted : ssorted ms;
    xr_in : forall i, In i ms <-> In i K;
    xr_idx : sc_idx ix = bits_of ms n;
    xr_samples : sc_samples ix = map tp ms
  }.
  Record ix_runs (qs : list nat) : Prop := {
    xs_sorted : ssorted qs;
    xs_lt : forall q, In q qs -> q < r;
    xs_in : forall q, q < r -> In q qs <-> In (nth q phr 0) K;
    xs_idx : sc_idx ix = bits_of qs r;
    xs_samples : sc_samples ix = map (fun q => tp (nth q phr 0)) qs;
    xs_cum : forall c, 0 < c < sigma -> nth_error (sc_cum ix) (c - 1) = Some (count (fun x => x <? c) hs)
  }.
  Hypothesis HX : ix_common.

  (** What the range engines need of phi. *)
  Record phi_good (phi : nat -> option (nat * bool)) : Prop := {
    pg_total : forall z, z < n -> exists vv, phi (SA sa z) = Some vv;
    pg_true : forall y x, S y < n -> phi (SA sa y) = Some (x, true) -> x = SA sa (S y);
    pg_reach : forall y, S y < n -> (forall l, l < s -> kept (psi_it T sa l (S y)) = false) ->
      exists b, phi (SA sa y) = Some (SA sa (S y), b)
  }.
  Let Hfs : ssorted fm := sorted_values_sorted _ (tmarks_NoDup T sa HT HS).
  Lemma fm_in m : In m fm <-> is_tmark T sa m.
  Proof. rewrite sorted_values_in. apply (tmarks_in T sa HT HS). Qed.
  Lemma plain_good : phi_good (phi_plain ix n).
  Proof.
    unfold phi_plain. rewrite (xc_marks HX).
    assert (Hg : forall k t, k < length K -> t < n -> tp t = nth k (sorted_values smarks) 0 ->
      exists i, links_default (sc_links ix) false k = Some (i, (fun _ => false) k) /\ nth_error (sc_samples ix) i = Some (tp (flink T sa t))).
    { intros k t Hk Ht E. destruct (xc_links HX k t Hk Ht E) as (i & E1 & E2). exists i. unfold links_default. rewrite E1. auto. }
    pose proof (fplain_val T sa K fm) as Hv.
    constructor.
    - apply (fphi_total T sa HT HS s K HF fm Hfs fm_in _ _ _ _ Hg Hv).
    - apply (fphi_true T sa HT HS s K HF fm Hfs fm_in _ _ _ _ Hg Hv).
    - apply (fphi_reach T sa HT HS s K HF fm Hfs fm_in _ _ _ _ Hg Hv).
  Qed.
  Section Valid.
    Hypothesis HV : ix_valid.
    Lemma validity_links k t : k < length K -> t < n -> tp t = nth k (sorted_values smarks) 0 ->
      exists i, links_validity (sc_links ix) (sc_valid ix) k = Some (i, fbit T sa K fm k) /\
        nth_error (sc_samples ix) i = Some (tp (flink T sa t)).
    Proof.
      intros Hk Ht E. destruct (xc_links HX k t Hk Ht E) as (i & E1 & E2). exists i. unfold links_validity. rewrite E1. cbn [bind].
      rewrite (xv_valid HV). unfold fbits. rewrite nth_error_map_seq by auto. auto.
    Qed.
    Lemma valid_mark_good : phi_good (phi_valid_mark ix n).
    Proof.
      unfold phi_valid_mark. rewrite (xc_marks HX). pose proof (fdefault_val T sa K fm) as Hv.
      constructor.
      - apply (fphi_total T sa HT HS s K HF fm Hfs fm_in _ _ _ _ validity_links Hv).
      - apply (fphi_true T sa HT HS s K HF fm Hfs fm_in _ _ _ _ validity_links Hv).
      - apply (fphi_reach T sa HT HS s K HF fm Hfs fm_in _ _ _ _ validity_links Hv).
    Qed.
    Lemma valid_area_good : phi_good (phi_valid_area ix n).
    Proof.
      unfold phi_valid_area. rewrite (xc_marks HX). pose proof (farea_val T sa K fm fm_in) as Hv.
      rewrite <- (xv_valid HV), <- (xv_areas HV) in Hv.
      constructor.
      - apply (fphi_total T sa HT HS s K HF fm Hfs fm_in _ _ _ _ validity_links Hv).
      - apply (fphi_true T sa HT HS s K HF fm Hfs fm_in _ _ _ _ validity_links Hv).
      - apply (fphi_reach T sa HT HS s K HF fm Hfs fm_in _ _ _ _ validity_links Hv).
    Qed.
  End Valid.

  Let Hzero : kept (ISA sa 0) = true := kept_zero T sa s K HF.

  (** Enumeration of a range, with or without validity. *)
  Section Engine.
    Context {Run : Type}.
    Variables (get_sample : Run -> option (option nat)) (split_range : range -> option (list Run))
      (split_run : Run -> option (list Run)) (update_run : Run -> Run) (is_run_empty : Run -> bool).
    Variable Rr : bool -> Run -> nat -> nat -> Prop.
    Hypothesis HRn : forall f r a b, Rr f r a b -> b <= n.
    Hypothesis Hsample : forall f r a b, Rr f r a b -> a < b -> get_sample r = Some (if kept a then Some (tp a) else None).
    Hypothesis Hinner : forall f r a b i, Rr f r a b -> a < i -> i < b -> kept i = false.
    Hypothesis Hcut : forall r a b, Rr false r a b -> a < b -> kept a = false.
    Hypothesis Hupdate : forall f r a b, Rr f r a b -> a < b -> Rr false (update_run r) (S a) b.
    Hypothesis Hempty : forall f r a b, Rr f r a b -> is_run_empty r = negb (a <? b).
    Hypothesis Hsplit : forall f r a b, Rr f r a b -> a < b ->
      exists rs, split_run r = Some rs /\ fchain Rr (PSr T sa) rs a b.
    Hypothesis Hsr : forall a b, a < b -> b <= n -> exists rs, split_range (a, b) = Some rs /\ fchain Rr (fun i => i) rs a b.
    Lemma fwd_range_ok valid phi a b : phi_good phi -> 1 <= a -> b <= n ->
      fwd_range valid get_sample split_range split_run s n update_run is_run_empty phi (a, b) (SA sa (a - 1)) =
      Some (up sa a (b - a)).
    Proof.
      intros [G1 G2 G3] Ha Hb.
      assert (Hex : exists rs, a < b -> split_range (a, b) = Some rs /\ fchain Rr (fun i => i) rs a b).
      { destruct (Nat.lt_ge_cases a b) as [H|H]; [|exists []; lia]. destruct (Hsr a b H Hb) as (l & El). eauto. }
      destruct Hex as (l & El).
      unfold fwd_range. destruct valid.
      - apply (pfv_range_ok T sa HT HS) with (Rr := Rr) (kept := kept) (rs := l); auto.
      - apply (pf_range_ok T sa HT HS) with (Rr := Rr) (kept := kept) (rs := l); auto.
        intros y Hy Hl. destruct (G3 y Hy Hl) as (b' & ->). auto.
    Qed.
    Lemma all_forward {D} valid phi toe (st e : nat) (d : step_data D) : phi_good phi -> st < e -> e <= n ->
      toe d = Some (SA sa st) ->
      compute_all_values (fwd_range valid get_sample split_range split_run s n update_run is_run_empty phi) toe csa_update_range
        (st, e) d = Some (map (SA sa) (seq st (e - st))).
    Proof.
      intros Hg Hse He Ht. unfold compute_all_values. rewrite Ht. cbn [bind]. unfold csa_update_range. cbn [fst snd].
      pose proof (fwd_range_ok valid phi (S st) e Hg ltac:(lia) He) as E. replace (S st - 1) with st in E by lia.
      rewrite E. cbn [bind]. replace (e - st) with (S (e - S st)) by lia. auto.
    Qed.
  End Engine.

  (** Split of a run through Psi. *)
  Lemma split_pieces_psi a b : a < b -> b <= n -> exists ps,
    csa_split_run (al_C al) pc a b = Some ps /\ Forall (piece_ok B) ps /\
    flat_map piece_rows ps = map (PSr T sa) (seq a (b - a)).
  Proof.
    intros Hab Hb. destruct (csa_split_run_ok B sigma h Hlt Hocc Hh HBn HB0 a b Hab ltac:(lia)) as (ps & E & P1 & P2).
    exists ps. rewrite (al_cums w sa Hw HSA al Hal). split; [exact E|]. split; auto. rewrite P2.
    apply map_ext_in. intros q Hq. apply in_seq in Hq. rewrite (psis_text w sa Hw HSA al Hal).
    rewrite (nth_map_seq (PSr T sa)) by lia. auto.
  Qed.
  Lemma kept_run k i : k < r -> rs k <= i < rs (S k) -> kept i = true -> i = rs k.
  Proof.
    intros Hk Hi Hkept. apply memb_In in Hkept. destruct (fk_head _ _ _ _ HF i Hkept) as [H1 H2].
    destruct (head_run T sa HS i H1 H2) as (k' & Hk' & ->).
    assert (k' = k); [|subst; auto]. pose proof (rs_lt B k' Hk').
    destruct (Nat.lt_trichotomy k' k) as [G|[G|G]]; auto; exfalso.
    - pose proof (rstart_mono (rle B) (S k') k ltac:(lia)). lia.
    - pose proof (rstart_mono (rle B) (S k) k' ltac:(lia)). lia.
  Qed.

  (** ** Rows: SrCSA *)
  Section Rows.
    Variable ms : list nat.
    Hypothesis HM : ix_rows ms.
    Lemma ms_lt m : In m ms -> m < n.
    Proof. intros H. apply (xr_in ms HM) in H. apply (fk_head _ _ _ _ HF) in H. apply H. Qed.
    Lemma ms_kept i : memb ms i = kept i.
    Proof.
      destruct (memb ms i) eqn:E1, (kept i) eqn:E2; auto; exfalso.
      - apply memb_In, (xr_in ms HM), memb_In in E1. congruence.
      - apply memb_In, (xr_in ms HM), memb_In in E2. congruence.
    Qed.
    Lemma row_sample i : i < n -> srcsa_get_sample ix i = Some (if kept i then Some (tp i) else None).
    Proof.
      intros Hi. unfold srcsa_get_sample. rewrite (xr_idx ms HM). unfold bits_of at 1. rewrite nth_error_map_seq by auto.
      cbn [bind]. rewrite ms_kept. destruct (kept i) eqn:E; auto.
      assert (Hin : In i ms) by (apply (xr_in ms HM), memb_In; auto).
      destruct (sample_at tp ms n i (xr_sorted ms HM) ms_lt Hin) as (k & E1 & E2). rewrite E1. cbn [bind].
      rewrite (xr_samples ms HM), E2. auto.
    Qed.
    Definition row_run (f : bool) (rg : range) (a b : nat) : Prop :=
      rg = (a, b) /\ b <= n /\ (forall i, a < i -> i < b -> kept i = false) /\ (f = false -> a < b -> kept a = false).
    Lemma row_split f rg a b : row_run f rg a b -> a < b ->
      exists l, srcsa_split_run ix rg = Some l /\ fchain row_run (PSr T sa) l a b.
    Proof.
      intros (-> & Hb & _) Hab. unfold srcsa_split_run. cbn [fst snd]. rewrite (xc_alpha HX), (xc_psi HX).
      destruct (split_pieces_psi a b Hab Hb) as (ps & E & P1 & P2). rewrite E. cbn [bind]. eexists. split; [reflexivity|].
      apply pieces_fchain with (P := piece_ok B); auto; [|lia].
      intros p (k & Hk & Hs & H1 & H2 & H3 & _). split; auto. split; auto. split; [|split; [|discriminate]].
      - pose proof (rs_n B (S k)). lia.
      - intros i Hi1 Hi2. destruct (kept i) eqn:Ek; auto. apply (kept_run k) in Ek; auto; lia.
    Qed.
    Lemma row_split_range a b : a < b -> b <= n ->
      exists l, srcsa_split_range (sc_idx ix) (a, b) = Some l /\ fchain row_run (fun i => i) l a b.
    Proof.
      intros Hab Hb. rewrite (xr_idx ms HM). apply (srcsa_split_range_ok ms n (xr_sorted ms HM) ms_lt); auto.
      intros a' b' H1 H2 H3. split; auto. split; auto. split; [|discriminate]. intros. rewrite <- ms_kept. auto.
    Qed.
    Lemma row_toehold st e d : st < n -> sd_step d < n -> ctoe_inv T sa (fun pos j => pos = rs j) 0 st e d ->
      srcsa_toehold ix n d = Some (SA sa st).
    Proof.
      intros Hst Hsd HI. unfold srcsa_toehold. apply (ctoe_value T sa HT HS (fun pos j => pos = rs j) st e d); auto.
      intros j Hj Ej. assert (Hrn : rs j < n) by (apply (o_rs_lt_n T sa HS); auto).
      destruct (reach T sa HT HS s K HF (rs j) Hrn (head_row T sa HS j Hj)) as (l & Hl & Hls).
      exists (SA sa (rs j)). pose proof (SA_lt T sa HS (rs j) Hrn). split; [|split; [lia|apply Nat.mod_small; auto]].
      apply (jumps_ok T sa HT HS kept Hzero) with (Dr := fun pos y => pos = y) (L := l); auto; try lia.
      - intros pos y -> Hy. apply row_sample; auto.
      - intros pos y -> Hy. exists (PSr T sa y). split; auto. unfold srcsa_psi. rewrite (xc_alpha HX), (xc_psi HX).
        apply (core_psi_ok w sa Hw HSA al h Hal Hh Hn); auto.
      - rewrite (xc_rate HX). lia.
    Qed.
    Theorem row_answers valid phi p : phi_good (phi ix n) -> query w sa p ->
      csa_answer w sa (srcsa_count ix) (srcsa_locate_with valid phi ix) p.
    Proof.
      intros Hg Hp. unfold srcsa_locate_with, srcsa_count. rewrite (xc_alpha HX), (xc_psi HX).
      apply (csa_locate_rows w sa Hw HSA al h Hal Hh Hn bwt_create 0 (fun pos j => pos = rs j)); auto.
      intros st e d Hse He Hsd Hinv. rewrite (xc_rate HX). apply all_forward with (Rr := row_run); auto.
      - intros f rg a b (_ & H & _). auto.
      - intros f rg a b (-> & H & _) Hab. cbn [fst]. apply row_sample. lia.
      - intros f rg a b i (_ & _ & H & _). auto.
      - intros rg a b (_ & _ & _ & H). auto.
      - intros f rg a b (-> & H1 & H2 & _) Hab. split; auto. split; auto. split; auto. intros i Hi1 Hi2. apply H2; lia.
      - intros f rg a b (-> & _). auto.
      - apply row_split.
      - apply row_split_range.
      - apply (row_toehold st e); auto. lia.
    Qed.
  End Rows.

  (** ** Runs: SrCSASlim and the indexes over Psi runs *)
  Section Runs.
    Variable qs : list nat.
    Hypothesis HQ : ix_runs qs.
    Lemma run_sample k : k < r -> slim_get_sample ix (sym k) (hrk (sym k) k) true =
      Some (if kept (rs k) then Some (tp (rs k)) else None).
    Proof.
      intros Hk. unfold slim_get_sample. cbn [negb].
      assert (Hs : sym k < sigma) by (apply (hs_lt T sa HS sigma Hlt), nth_In; rewrite map_length; auto).
      assert (E0 : (if 0 <? sym k then nth_error (sc_cum ix) (sym k - 1) else Some 0) = Some (count (fun x => x <? sym k) hs)).
      { destruct (Nat.ltb_spec 0 (sym k)) as [H|H]; [apply (xs_cum qs HQ); lia|].
        replace (sym k) with 0 by lia. rewrite count_false; auto. }
      rewrite E0. cbn [bind]. destruct (po_index T sa HS sigma Hlt k Hk) as [I1 I2].
      set (q := count (fun x => x <? sym k) hs + hrk (sym k) k) in *.
      assert (Eq : nth q phr 0 = rs k) by (rewrite (phrows_nth T sa HS sigma Hlt) by auto; rewrite I2; auto).
      rewrite (xs_idx qs HQ). unfold bits_of at 1. rewrite nth_error_map_seq by auto. cbn [bind].
      destruct (memb qs q) eqn:E1.
      - apply memb_In in E1. assert (E2 : kept (rs k) = true) by (apply memb_In; rewrite <- Eq; apply (xs_in qs HQ); auto).
        rewrite E2. destruct (sample_at (fun q => tp (nth q phr 0)) qs r q (xs_sorted qs HQ) (xs_lt qs HQ) E1) as (i & F1 & F2).
        rewrite F1. cbn [bind]. rewrite (xs_samples qs HQ), F2, Eq. auto.
      - destruct (kept (rs k)) eqn:E2; auto. exfalso. apply memb_In in E2. rewrite <- Eq in E2.
        apply (xs_in qs HQ) in E2; auto. apply memb_In in E2. congruence.
    Qed.
    Lemma run_sample_at k y : k < r -> rs k <= y < rs (S k) ->
      slim_get_sample ix (sym k) (hrk (sym k) k) (y =? rs k) = Some (if kept y then Some (tp y) else None).
    Proof.
      intros Hk Hy. destruct (Nat.eqb_spec y (rs k)) as [->|Hne]; [apply run_sample; auto|].
      destruct (kept y) eqn:E; [apply (kept_run k) in E; auto; lia|]. auto.
    Qed.
    Definition piece_run (f : bool) (p : run_piece) (a b : nat) : Prop :=
      pi_first p = a /\ pi_last p = b /\ b <= n /\ (f = true -> a < b) /\
      (a < b -> exists k, k < r /\ rs k <= a /\ b <= rs (S k) /\ pi_c p = sym k /\ pi_run p = hrk (sym k) k /\
        pi_is_first p = (a =? rs k) /\ (f = false -> rs k < a)).
    Lemma piece_fresh p : piece_ok B p -> pi_first p < pi_last p /\ piece_run true p (pi_first p) (pi_last p).
    Proof.
      intros (k & Hk & Hs & H1 & H2 & H3 & H4 & H5). split; auto. split; auto. split; auto.
      split; [pose proof (rs_n B (S k)); lia|]. split; auto. intros _. exists k. rewrite Hs. repeat split; auto. discriminate.
    Qed.
    Lemma piece_split f p a b : piece_run f p a b -> a < b ->
      exists l, csa_split_run (al_C (sc_alpha ix)) (sc_psi ix) (pi_first p) (pi_last p) = Some l /\
        fchain piece_run (PSr T sa) l a b.
    Proof.
      intros (-> & -> & Hb & _) Hab. rewrite (xc_alpha HX), (xc_psi HX).
      destruct (split_pieces_psi a b Hab Hb) as (ps & E & P1 & P2). exists ps. split; auto.
      rewrite <- (map_id ps). apply pieces_fchain with (P := piece_ok B); auto; [|lia]. apply piece_fresh.
    Qed.
    Lemma piece_split_range a b : a < b -> b <= n ->
      exists l, pc_split_in_sorted_runs (sc_psi ix) a b = Some l /\ fchain piece_run (fun i => i) l a b.
    Proof.
      intros Hab Hb. rewrite (xc_psi HX).
      rewrite (core_split_sorted B sigma h Hlt Hocc Hh HBn HB0 a b) by lia. eexists. split; [reflexivity|].
      rewrite <- (map_id (split_pieces B a b)). apply pieces_fchain with (P := piece_ok B).
      - apply piece_fresh.
      - lia.
      - apply (split_pieces_ok B sigma h Hlt Hocc Hh HBn HB0).
      - rewrite (split_rows B sigma h Hlt Hocc Hh HBn HB0 a b) by lia. rewrite map_id. auto.
    Qed.
    (** The run data of a row. *)
    Definition data_at (d : psi_data) (y : nat) : Prop :=
      pd_pos d = y /\ exists k, k < r /\ rs k <= y < rs (S k) /\ pd_c d = sym k /\ pd_rank d = hrk (sym k) k /\
        pd_start d = (y =? rs k).
    Lemma data_sample d y : data_at d y -> slim_get_sample ix (pd_c d) (pd_rank d) (pd_start d) =
      Some (if kept y then Some (tp y) else None).
    Proof. intros (_ & k & Hk & Hy & -> & -> & ->). apply run_sample_at; auto. Qed.
    Lemma data_psi d y : pd_pos d = y -> y < n -> exists d', slim_psi ix d = Some d' /\ data_at d' (PSr T sa y).
    Proof.
      intros Ed Hy. unfold slim_psi, psi_fn. rewrite Ed, (xc_alpha HX), (xc_psi HX), (al_cums w sa Hw HSA al Hal).
      destruct (core_psi_report B sigma h Hlt Hocc Hh HBn HB0 y ltac:(lia)) as (c & k & Ec & Hk & Hs & Hp & E).
      unfold psi_fn in E. change (cumulative B sigma) with (cums B sigma).
      rewrite Ec in E |- *. cbn [bind] in E |- *.
      destruct (nth_error (cums B sigma) c) as [cc|]; [|discriminate]. cbn [bind] in E |- *. rewrite E. cbn [bind].
      rewrite (psis_text w sa Hw HSA al Hal) in Hp |- *. rewrite (nth_map_seq (PSr T sa)) in Hp |- * by lia.
      eexists. split; [reflexivity|]. split; auto. exists k. cbn [pd_c pd_rank pd_start]. rewrite Hs. repeat split; auto; lia.
    Qed.
    Definition slim_good (d : psi_data) (k : nat) : Prop :=
      pd_pos d = rs k /\ pd_c d = sym k /\ pd_rank d = hrk (sym k) k /\ (pd_start d = true \/ rs k = 0).
    Lemma PSr_first : PSr T sa 0 = ISA sa 0.
    Proof. unfold PSr. f_equal. rewrite (SA_0 T sa HT HS). apply csucc_last. auto. Qed.
    Lemma run_toehold st e d : st < n -> sd_step d < n -> ctoe_inv T sa slim_good 0 st e d -> slim_toehold ix n d = Some (SA sa st).
    Proof.
      intros Hst Hsd HI. unfold slim_toehold. apply (ctoe_value T sa HT HS slim_good st e d); auto.
      intros j Hj (G1 & G2 & G3 & G4). assert (Hrn : rs j < n) by (apply (o_rs_lt_n T sa HS); auto).
      exists (SA sa (rs j)). pose proof (SA_lt T sa HS (rs j) Hrn). split; [|split; [lia|apply Nat.mod_small; auto]].
      pose proof (rs_lt B j Hj) as Hl1. pose proof (rs_n B (S j)) as Hl2.
      assert (Hget : forall d y, data_at d y -> y < n -> slim_get_sample ix (pd_c d) (pd_rank d) (pd_start d) =
        Some (if kept y then Some (tp y) else None)) by (intros; apply data_sample; auto).
      assert (Hnav : forall d y, data_at d y -> y < n -> exists d', slim_psi ix d = Some d' /\ data_at d' (PSr T sa y)).
      { intros d' y Hd Hy. apply data_psi; auto. apply Hd. }
      rewrite (xc_rate HX).
      destruct (pd_start (sd_run d)) eqn:Est.
      - destruct (reach T sa HT HS s K HF (rs j) Hrn (head_row T sa HS j Hj)) as (l & Hl & Hls).
        apply (jumps_ok T sa HT HS kept Hzero) with (Dr := data_at) (L := l); auto; try lia.
        split; auto. exists j. rewrite Est. change (psi_it T sa 0 (rs j)) with (rs j). rewrite Nat.eqb_refl. repeat split; auto; lia.
      - destruct G4 as [|Ez]; [discriminate|]. destruct (Nat.max 1 s) as [|f] eqn:Em; [lia|].
        cbn [compute_sa_value]. unfold slim_get_sample at 1. rewrite Est. cbn [negb bind].
        destruct (data_psi (sd_run d) (rs j) G1 Hrn) as (d' & -> & Hd'). cbn [bind].
        assert (Ek : kept (psi_it T sa 1 (rs j)) = true).
        { change (psi_it T sa 1 (rs j)) with (PSr T sa (rs j)). rewrite Ez, PSr_first. auto. }
        assert (G : forall f, compute_sa_value f (fun d => slim_get_sample ix (pd_c d) (pd_rank d) (pd_start d)) (slim_psi ix) n false 1 d' =
                  umod (sub64 (tp (PSr T sa (rs j)) + 1 + n) 1) n).
        { intros [|f']; cbn [compute_sa_value]; rewrite (data_sample d' _ Hd');
            change (PSr T sa (rs j)) with (psi_it T sa 1 (rs j)); rewrite Ek; reflexivity. }
        rewrite G, (tpos_PSr T sa HT HS) by auto. pose proof (n_pos T HT).
        rewrite sub64_ok by lia. rewrite umod_ok by auto. f_equal.
        replace (SA sa (rs j) + 1 + n - 1) with (SA sa (rs j) + 1 * n) by lia. rewrite Nat.mod_add by lia. apply Nat.mod_small; auto.
    Qed.
    Theorem run_answers valid phi p : phi_good (phi ix n) -> query w sa p ->
      csa_answer w sa (srcsa_count ix) (slim_locate_with valid phi ix) p.
    Proof.
      intros Hg Hp. unfold slim_locate_with, srcsa_count. rewrite (xc_alpha HX), (xc_psi HX).
      apply (csa_locate_rows w sa Hw HSA al h Hal Hh Hn slim_create (mk_psi_data 0 0 0 false) slim_good); auto.
      { intros rg c nx k Hk Hs Est Er Hz. unfold slim_create, slim_good. cbn [pd_pos pd_c pd_rank pd_start]. subst c.
        split; auto. split; auto. split; auto. rewrite Est. destruct (Nat.eqb_spec (fst rg) (rs k)); auto. }
      intros st e d Hse He Hsd Hinv. rewrite (xc_rate HX).
      pose proof (piece_split) as Hps. rewrite (xc_alpha HX), (xc_psi HX) in Hps.
      pose proof (piece_split_range) as Hpr. rewrite (xc_psi HX) in Hpr.
      apply all_forward with (Rr := piece_run); auto.
      - intros f p' a b (_ & _ & H & _). auto.
      - intros f p' a b (E1 & E2 & _ & _ & H) Hab. destruct (H Hab) as (k & Hk & K1 & K2 & -> & -> & -> & _).
        apply run_sample_at; auto. lia.
      - intros f p' a b i (E1 & E2 & _ & _ & H) Hi1 Hi2. destruct (H ltac:(lia)) as (k & Hk & K1 & K2 & _).
        destruct (kept i) eqn:E; auto. apply (kept_run k) in E; auto; lia.
      - intros p' a b (E1 & E2 & _ & _ & H) Hab. destruct (H Hab) as (k & Hk & K1 & K2 & _ & _ & _ & K3).
        specialize (K3 eq_refl). destruct (kept a) eqn:E; auto. apply (kept_run k) in E; auto; lia.
      - intros f p' a b (E1 & E2 & Hb & _ & H) Hab. unfold piece_update. split; [cbn; lia|]. split; [cbn; lia|]. split; auto.
        split; [discriminate|]. intros Hab'. destruct (H Hab) as (k & Hk & K1 & K2 & K3 & K4 & _).
        exists k. cbn [pi_c pi_run pi_is_first]. do 5 (split; [auto; lia|]). split; [lia|]. intros _. lia.
      - intros f p' a b (E1 & E2 & _). unfold piece_empty. rewrite E1, E2. auto.
      - apply (run_toehold st e); auto. lia.
    Qed.
  End Runs.
End Query.
