(** Construction and queries of RCSAWithBWTRun, RCSAWithPsiRun and CSARaw. *)
From Coq Require Import List Arith Bool Lia ZifyBool ZifyNat Permutation.
From Verif Require Import Spec MBase Lists FM MRle Runs RleProof MConstruct MPhi MRIndex Util Phi ConstructProof Nav PhiProof BaseProof
  MPsi EncProof PsiSym PsiOps PsiProof PsiCore PsiSpec PsiText MCsa CsaNav CsaPhi PsiOrder.
Import ListNotations.

Section Csa.
  Variables (w sa : list nat).
  Hypothesis Hw : zero_free w.
  Hypothesis HSA : is_suffix_array (terminated w) sa.
  Notation T := (ctext w sa).
  Notation n := (len T).
  Notation B := (BW T sa).
  Let HT : text_ok T := ctext_ok w sa Hw HSA.
  Let HS : is_suffix_array T sa := ctext_sa w sa Hw HSA.
  Variables (al : alphabet) (h : nat).
  Hypothesis Hal : al = construct_alphabet (BW (terminated w) sa).
  Hypothesis Hh : 0 < h.
  Hypothesis Hn : n < 2 ^ 64.
  Notation sigma := (al_sigma al).
  Notation pc := (core B sigma h).
  Notation r := (length (rle B)).
  Notation rs k := (rstart (rle B) k).
  Let Hlt := B_lt w sa Hw HSA al Hal.
  Let Hocc := ta_O w sa Hw HSA al Hal.
  Let HC := ta_C w sa Hw HSA al Hal.
  Let HN := ta_N w sa Hw HSA al Hal.
  Lemma c_n : length B = n.
  Proof. apply (BW_length T sa HS). Qed.
  Lemma c_hn : length B < 2 ^ 64.
  Proof. rewrite c_n. auto. Qed.
  Lemma c_n0 : 0 < length B.
  Proof. rewrite c_n. apply n_pos; auto. Qed.

  (** Facts of a base construction in terms of [al]. *)
  Record cbase (b : base_items) : Prop := {
    cb_runs : bi_runs_files b = mk_bwt_runs (hrows T sa) (hmarks T sa) (trows T sa) (tmarks T sa);
    cb_alpha : bi_alpha b = al;
    cb_access : forall i, i < n -> rle_access (bi_bwt_rle b) i = nth_error B i;
    cb_rank : forall i c, i <= n -> c < sigma -> rle_rank (bi_bwt_rle b) i c = Some (rankP (Nat.eqb c) B i);
    cb_len : length (bi_bwt_text b) = n;
    cb_core : construct_psi_core (2 * h) b = Some pc
  }.
  Lemma cbase_ok data : data = w \/ data = terminated w -> exists b, construct_base data sa = Some b /\ cbase b.
  Proof.
    intros Hd. destruct (construct_base_ok w sa Hw HSA data Hd) as (b & R & Eb & F). exists b. split; auto.
    destruct F as [F1 F2 F3 F4 F5 F6]. rewrite <- Hal in F4.
    assert (Lb : length (expand R) = n) by (rewrite F6; apply c_n).
    constructor; auto.
    - intros i Hi. rewrite (repr_access _ _ _ _ F5) by lia. rewrite F6. auto.
    - intros i c Hi Hc. rewrite (repr_rank _ _ _ _ F5) by (try lia; apply max_symbol_ge, Hocc; auto). rewrite F6. auto.
    - rewrite F2, (BW_length _ sa HSA). symmetry. apply ctext_len.
    - unfold construct_psi_core. rewrite F4. rewrite (text_psi w sa Hw HSA al Hal R _ F5 F6). cbn [bind].
      apply (text_core w sa Hw HSA al Hal h Hh Hn).
  Qed.

  (** LF and Psi as used by the link construction. *)
  Lemma basic_lf_ok b i : cbase b -> i < n -> basic_lf al (bi_bwt_rle b) i = Some (LFr T sa i).
  Proof.
    intros F Hi. unfold basic_lf. rewrite (cb_access b F) by auto. rewrite (nth_error_nth_lt B i 0) by (rewrite c_n; auto).
    cbn [bind]. fold (bw T sa i).
    assert (Hc : bw T sa i < sigma) by (apply Hlt, nth_In; rewrite c_n; auto).
    rewrite HC by auto. cbn [bind]. rewrite (cb_rank b F) by (auto; lia). cbn [bind]. f_equal.
    symmetry. apply (LFr_formula T sa HT HS). auto.
  Qed.
  Lemma core_psi_ok i : i < n -> core_psi_fn al pc i = Some (PSr T sa i).
  Proof.
    intros Hi. unfold core_psi_fn. rewrite (al_cums w sa Hw HSA al Hal).
    pose proof (core_psi B sigma h Hlt Hocc Hh c_hn c_n0 i) as E.
    change (cums B sigma) with (cumulative B sigma) in E. rewrite E by (rewrite c_n; auto).
    rewrite (psis_text w sa Hw HSA al Hal). rewrite nth_error_map_seq by auto. auto.
  Qed.
  Lemma link_to_sample_ok b rank i : cbase b -> i < n ->
    link_to_sample (basic_lf al (bi_bwt_rle b)) (core_psi_fn al pc) rank n i = Some (rank (flink T sa i)).
  Proof.
    intros F Hi. unfold link_to_sample. rewrite (basic_lf_ok b i F Hi). cbn [bind]. pose proof (n_pos T HT).
    rewrite umod_ok by lia. cbn [bind]. fold (csucc T (LFr T sa i)). rewrite core_psi_ok by (apply Nat.mod_upper_bound; lia).
    auto.
  Qed.
  Lemma link_to_mark_ok b rank i : cbase b -> i < n ->
    link_to_mark (basic_lf al (bi_bwt_rle b)) (core_psi_fn al pc) rank n i = Some (rank (blink T sa i)).
  Proof.
    intros F Hi. unfold link_to_mark. rewrite (basic_lf_ok b i F Hi). cbn [bind]. pose proof (n_pos T HT).
    rewrite umod_ok by lia. cbn [bind]. fold (cpred n (LFr T sa i)). rewrite core_psi_ok by (apply Nat.mod_upper_bound; lia).
    auto.
  Qed.

  (** Links in BWT order. *)
  Definition flink_bwt (i : nat) : nat := lower_bound (hrows T sa) (flink T sa (nth i (trows T sa) 0)).
  Lemma flink_bwt_ok i : i < length (trows T sa) -> flink_bwt i < length (hrows T sa) /\
    nth (flink_bwt i) (hrows T sa) 0 = flink T sa (nth i (trows T sa) 0).
  Proof.
    intros Hi. apply lower_bound_in; [apply (rows_ssorted T sa HS)|]. apply (hrows_in T sa HS).
    assert (Ht : In (nth i (trows T sa) 0) (trows T sa)) by (apply nth_In; auto). apply (trows_in T sa HS) in Ht.
    split; [apply flink_lt; auto|apply (flink_head T sa HT HS); apply Ht].
  Qed.
  Lemma links_bwt_ok b : cbase b ->
    construct_links_forward_bwt b pc = Some (sort_indices (tmarks T sa), map flink_bwt (sort_indices (tmarks T sa))).
  Proof.
    intros F. unfold construct_links_forward_bwt, al_size. rewrite (cb_alpha b F), (cb_runs b F). rewrite HN. cbn [bind br_first br_last br_last_text].
    unfold construct_links. rewrite (mmap_map _ flink_bwt); [reflexivity|].
    intros i Hi. apply sort_indices_lt in Hi. unfold tmarks in Hi. rewrite map_length in Hi.
    rewrite (nth_error_nth_lt (trows T sa) i 0) by auto. cbn [bind].
    apply link_to_sample_ok; auto. apply (trows_in T sa HS), nth_In. auto.
  Qed.
  Lemma marks_bits l : (forall x, In x l <-> In x (trows T sa)) ->
    construct_bit_vector (map (tpos T sa) l) n false = Some (bits_of (map (tpos T sa) l) n).
  Proof.
    intros Hl. apply construct_bits. intros v Hv. apply in_map_iff in Hv. destruct Hv as (i & <- & _). apply tpos_lt; auto.
  Qed.
  Definition rcsa_bwt_val : csa :=
    mk_csa al pc (hmarks T sa) (bits_of (tmarks T sa) n) (map flink_bwt (sort_indices (tmarks T sa))).
  Theorem construct_rcsa_bwt_ok data : data = w \/ data = terminated w ->
    construct_rcsa_bwt (2 * h) data sa = Some rcsa_bwt_val.
  Proof.
    intros Hd. destruct (cbase_ok data Hd) as (b & Eb & F). unfold construct_rcsa_bwt. rewrite Eb. cbn [bind].
    rewrite (cb_core b F). cbn [bind]. rewrite (links_bwt_ok b F). cbn [bind]. rewrite (cb_runs b F), (cb_len b F).
    cbn [br_last_text br_first_text]. unfold tmarks at 1. rewrite marks_bits by tauto. cbn [bind]. rewrite (cb_alpha b F). auto.
  Qed.
  Theorem construct_csa_raw_ok data : data = w \/ data = terminated w ->
    construct_csa_raw (2 * h) data sa = Some (mk_csa_raw al pc sa).
  Proof.
    intros Hd. destruct (cbase_ok data Hd) as (b & Eb & F). unfold construct_csa_raw. rewrite Eb. cbn [bind].
    rewrite (cb_core b F). cbn [bind]. rewrite (links_bwt_ok b F). cbn [bind]. rewrite (cb_runs b F), (cb_len b F).
    cbn [br_last_text br_first_text]. unfold tmarks at 1. rewrite marks_bits by tauto. cbn [bind]. rewrite (cb_alpha b F). auto.
  Qed.

  (** Psi order. *)
  Notation phr := (phrows T sa sigma).
  Notation ptr := (ptrows T sa sigma).
  Lemma psi_files_ok b : cbase b -> construct_psi_run_files b = Some (map (tpos T sa) phr, map (tpos T sa) ptr).
  Proof.
    intros F. unfold construct_psi_run_files. rewrite (cb_alpha b F), (cb_runs b F). cbn [br_first br_first_text br_last br_last_text].
    pose proof (hrows_r T sa) as Lr.
    assert (Lt : length (trows T sa) = r) by (rewrite (rows_length T sa HT HS); auto).
    rewrite (buckets_ok T sa HS sigma Hlt); auto.
    - cbn [bind]. rewrite (buckets_ok T sa HS sigma Hlt); auto.
      + cbn [bind]. do 2 f_equal.
        * unfold phrows. rewrite map_map. apply map_ext_in. intros k Hk. apply (po_in T sa HS sigma Hlt) in Hk.
          unfold hmarks. rewrite (nth_map_lt _ _ _ 0) by lia. rewrite hrows_nth; auto.
        * unfold ptrows. rewrite map_map. apply map_ext_in. intros k Hk. apply (po_in T sa HS sigma Hlt) in Hk.
          unfold tmarks. rewrite (nth_map_lt _ _ _ 0) by lia. rewrite trows_nth; auto.
      + apply (cb_access b F).
      + unfold tmarks. rewrite map_length. auto.
      + intros k Hk. rewrite trows_nth by auto. destruct (o_tl T sa HS k Hk). lia.
    - apply (cb_access b F).
    - unfold hmarks. rewrite map_length. auto.
    - intros k Hk. rewrite hrows_nth by auto. pose proof (rs_lt B k Hk). lia.
  Qed.
  Lemma links_psi_ok : construct_links_forward_psi (map (tpos T sa) ptr) =
    Some (sort_indices (map (tpos T sa) ptr), map (fun q => (q + 1) mod r) (sort_indices (map (tpos T sa) ptr))).
  Proof.
    unfold construct_links_forward_psi, construct_links. rewrite map_length, (ptrows_length T sa HS sigma Hlt).
    rewrite (mmap_map _ (fun q => (q + 1) mod r)); [reflexivity|]. intros q _. apply umod_ok. apply (r_gt0 T sa HT HS).
  Qed.
  Definition rcsa_psi_val : csa :=
    mk_csa al pc (map (tpos T sa) phr) (bits_of (map (tpos T sa) ptr) n)
           (map (fun q => (q + 1) mod r) (sort_indices (map (tpos T sa) ptr))).
  Theorem construct_rcsa_psi_ok data : data = w \/ data = terminated w ->
    construct_rcsa_psi (2 * h) data sa = Some rcsa_psi_val.
  Proof.
    intros Hd. destruct (cbase_ok data Hd) as (b & Eb & F). unfold construct_rcsa_psi. rewrite Eb. cbn [bind].
    rewrite (cb_core b F). cbn [bind]. rewrite (psi_files_ok b F). cbn [bind]. rewrite (cb_len b F).
    rewrite marks_bits by apply (ptrows_in T sa HS sigma Hlt). cbn [bind]. rewrite links_psi_ok. cbn [bind]. rewrite (cb_alpha b F). auto.
  Qed.

  (** Phi of both. *)
  Lemma phi_bwt_ok v : v < n -> exists b, csa_phi n (ca_marks rcsa_bwt_val) (ca_samples rcsa_bwt_val)
    (links_default (ca_links rcsa_bwt_val) true) sample_validator_default v = Some (PHIF T sa v, b).
  Proof.
    intros Hv. cbn [rcsa_bwt_val ca_marks ca_samples ca_links]. unfold hmarks, tmarks.
    apply (links_phi T sa HT HS); auto.
    - intros i Hi. apply (trows_in T sa HS) in Hi. apply Hi.
    - apply ssorted_NoDup, (trows_ssorted T sa HS).
    - apply flink_bwt_ok.
    - intros m. apply (tmarks_in T sa HT HS).
  Qed.
  Lemma phi_psi_ok v : v < n -> exists b, csa_phi n (ca_marks rcsa_psi_val) (ca_samples rcsa_psi_val)
    (links_default (ca_links rcsa_psi_val) true) sample_validator_default v = Some (PHIF T sa v, b).
  Proof.
    intros Hv. cbn [rcsa_psi_val ca_marks ca_samples ca_links].
    apply (links_phi T sa HT HS); auto.
    - intros i Hi. apply (ptrows_in T sa HS sigma Hlt), (trows_in T sa HS) in Hi. apply Hi.
    - apply (ptrows_NoDup T sa HS sigma Hlt).
    - intros q Hq. rewrite (ptrows_length T sa HS sigma Hlt) in Hq. rewrite (phrows_length T sa HS sigma Hlt).
      split; [apply Nat.mod_upper_bound; lia|]. symmetry. apply (flink_next T sa HT HS sigma Hlt); auto.
    - intros m. rewrite <- (tmarks_in T sa HT HS). unfold tmarks. rewrite !in_map_iff.
      split; intros (i & E & Hi); exists i; split; auto; apply (ptrows_in T sa HS sigma Hlt); auto.
  Qed.

  (** Values of the range. *)
  Lemma all_values_ok {D} phi toe (st e : nat) (d : step_data D) :
    (forall v, v < n -> exists b, phi v = Some (PHIF T sa v, b)) -> st < e -> e <= n -> toe d = Some (SA sa st) ->
    compute_all_values (ri_phi_for_range phi) toe csa_update_range (st, e) d = Some (map (SA sa) (seq st (e - st))).
  Proof.
    intros Hphi Hse He Ht. unfold compute_all_values. rewrite Ht. cbn [bind]. unfold ri_phi_for_range, csa_update_range. cbn [fst snd].
    rewrite (phi_fiter_ok T sa HS phi Hphi) by lia. cbn [bind]. replace (e - st) with (S (e - S st)) by lia. auto.
  Qed.
  Lemma toe_sample j : j < r -> tpos T sa (rs j) + 1 <= n /\ (tpos T sa (rs j) + 1) mod n = SA sa (rs j).
  Proof.
    intros Hj. pose proof (tpos_lt T sa HT (rs j)). split; [lia|].
    apply (csucc_tpos T sa HT HS). apply (o_rs_lt_n T sa HS); auto.
  Qed.

  Definition csa_answer (count : list nat -> option range) (locate : list nat -> option (list nat)) (p : list nat) : Prop :=
    exists st e, is_range T sa (map (wcomp w sa) p) st e /\ count p = Some (st, e) /\
      locate p = Some (map (SA sa) (seq st (e - st))).

  Theorem rcsa_bwt_rows p : query w sa p -> csa_answer (rcsa_bwt_count rcsa_bwt_val) (rcsa_bwt_locate rcsa_bwt_val) p.
  Proof.
    intros Hp. unfold rcsa_bwt_locate, rcsa_bwt_count.
    apply (csa_locate_rows w sa Hw HSA al h Hal Hh Hn bwt_create 0 (fun pos j => pos = rs j)); auto.
    intros st e d Hse He Hsd Hinv. unfold csa_phi_for_range. apply all_values_ok; auto.
    - intros v Hv. apply phi_bwt_ok; auto.
    - unfold rcsa_bwt_toehold. cbn [rcsa_bwt_val ca_psi ca_samples]. change (pc_n pc) with (length B). rewrite c_n.
      apply (ctoe_value T sa HT HS (fun pos j => pos = rs j) st e d); auto; [lia|].
      intros j Hj ->. rewrite (core_rank_run_head B sigma h Hlt Hocc Hh c_hn c_n0 j Hj). cbn [bind].
      rewrite (nth_error_hmarks T sa) by (rewrite hrows_r; auto). cbn [bind]. rewrite hrows_nth by auto.
      eexists. split; [reflexivity|]. apply toe_sample; auto.
  Qed.
  Theorem rcsa_psi_rows p : query w sa p -> csa_answer (rcsa_psi_count rcsa_psi_val) (rcsa_psi_locate rcsa_psi_val) p.
  Proof.
    intros Hp. unfold rcsa_psi_locate, rcsa_psi_count.
    set (good := fun (d : nat * nat) j => fst d = nth j (map fst (rle B)) 0 /\ snd d = rankP (Nat.eqb (fst d)) (map fst (rle B)) j).
    apply (csa_locate_rows w sa Hw HSA al h Hal Hh Hn psi_create (0, 0) good); auto.
    { intros rg c nx k Hk Hs _ Hr _. split; cbn; auto. }
    intros st e d Hse He Hsd Hinv. unfold csa_phi_for_range. apply all_values_ok; auto.
    - intros v Hv. apply phi_psi_ok; auto.
    - unfold rcsa_psi_toehold. cbn [rcsa_psi_val ca_psi ca_samples]. change (pc_n pc) with (length B). rewrite c_n.
      apply (ctoe_value T sa HT HS good st e d); auto; [lia|].
      intros j Hj [G1 G2]. destruct (sd_run d) as [c k]. cbn [fst snd] in G1, G2. subst c k.
      assert (Hc : nth j (map fst (rle B)) 0 < sigma) by (apply (hs_lt T sa HS sigma Hlt), nth_In; rewrite map_length; auto).
      rewrite (core_rank_char_run B sigma h Hlt Hocc Hh c_hn c_n0) by lia. cbn [bind].
      destruct (po_index T sa HS sigma Hlt j Hj) as [I1 I2].
      rewrite nth_error_map, (nth_error_nth_lt _ _ 0) by (rewrite (phrows_length T sa HS sigma Hlt); auto).
      rewrite (phrows_nth T sa HS sigma Hlt) by auto. rewrite I2. cbn [option_map bind].
      eexists. split; [reflexivity|]. apply toe_sample; auto.
  Qed.
  Theorem csa_raw_rows p : query w sa p ->
    csa_answer (csa_raw_count (mk_csa_raw al pc sa)) (csa_raw_locate (mk_csa_raw al pc sa)) p.
  Proof.
    intros Hp. unfold csa_raw_locate, csa_raw_count.
    apply (csa_locate_rows w sa Hw HSA al h Hal Hh Hn bwt_create 0 (fun _ _ => True)); auto.
    intros st e d Hse He Hsd Hinv. cbn [cr_sa]. unfold csa_raw_values. cbn [fst snd].
    apply mmap_map. intros i Hi. apply in_seq in Hi. unfold SA. apply nth_error_nth_lt.
    destruct HS as [P _]. apply Permutation_length in P. rewrite seq_length in P. unfold len in *. lia.
  Qed.
End Csa.
