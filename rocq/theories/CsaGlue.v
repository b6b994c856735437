(** Statements about RCSAWithBWTRun, RCSAWithPsiRun and CSARaw in the specification vocabulary. *)
From Coq Require Import List Arith Bool Lia ZifyBool ZifyNat Permutation.
From Verif Require Import Spec MBase Lists FM MRle Runs RleProof MConstruct MPhi MRIndex Util Phi ConstructProof Nav PhiProof BaseProof
  Glue MPsi EncProof PsiSym PsiOps PsiProof PsiCore PsiSpec PsiText MCsa CsaNav CsaPhi PsiOrder CsaProof RIndexProof.
Import ListNotations.

(** Count and Locate of a forward index: the rows of the pattern, in increasing order. *)
Definition fwd_answers (w sa : list nat) (count : list nat -> option range) (locate : list nat -> option (list nat))
  (p : list nat) : Prop :=
  exists st e, count p = Some (st, e) /\ row_interval p w sa st e /\
    exact_answer p w (rows sa st e) /\ length (rows sa st e) = e - st /\ locate p = Some (rows sa st e).

(** The search loop of Count, for an index whose Count is [csa_count]. *)
Definition csa_search (al : alphabet) (pc : psi_core) : list nat -> range -> option range :=
  count_loop (csa_lf al pc) range_of_psi (al_symbol al) range_empty.

Lemma fwd_exact w sa count locate p : fwd_answers w sa count locate p -> exists l, locate p = Some l /\ exact_answer p w l.
Proof. intros (st & e & H1 & H2 & H3 & H4 & H5). eauto. Qed.
Lemma fwd_count w sa count locate p : fwd_answers w sa count locate p ->
  exists st e, count p = Some (st, e) /\ row_interval p w sa st e /\ exists l, exact_answer p w l /\ length l = e - st.
Proof. intros (st & e & H1 & H2 & H3 & H4 & H5). eauto 10. Qed.
Lemma fwd_agree w sa count locate p : fwd_answers w sa count locate p ->
  exists l st e, locate p = Some l /\ count p = Some (st, e) /\ length l = e - st /\
    ((forall i, ~ occurs_at p w i) -> l = [] /\ st = e).
Proof.
  intros (st & e & H1 & H2 & H3 & H4 & H5). exists (rows sa st e), st, e. split; auto. split; auto.
  apply agree_gen with (p := p) (sa := sa); auto.
Qed.

(** Rotations of the rows. *)
Lemma phi_cycle T sa phi : text_ok T -> is_suffix_array T sa ->
  (forall v, v < len T -> exists b, phi v = Some (PHIF T sa v, b)) ->
  forall m i, i < len T -> phi_iter phi m (SA sa i) = Some (map (fun k => SA sa ((i + S k) mod len T)) (seq 0 m)).
Proof.
  intros HT HSA Hphi. induction m as [|m IH]; intros i Hi; auto. cbn [phi_iter].
  pose proof (n_pos T HT) as Hn.
  destruct (Hphi (SA sa i)) as [b Hb]; [apply (SA_lt T sa HSA); auto|]. rewrite Hb. cbn [bind].
  unfold PHIF. rewrite (ISA_SA T sa HSA) by auto. change (csucc T i) with ((i + 1) mod len T).
  rewrite IH by (apply Nat.mod_upper_bound; lia). cbn [bind seq map]. do 2 f_equal.
  rewrite <- seq_shift, map_map. apply map_ext. intros k. f_equal.
  rewrite Nat.add_mod_idemp_l by lia. f_equal. lia.
Qed.
Lemma rotation_perm n i : i < n -> Permutation (map (fun k => (i + k) mod n) (seq 0 n)) (seq 0 n).
Proof.
  intros Hi. apply NoDup_Permutation_bis.
  - apply NoDup_map_inj; [apply seq_NoDup|]. intros x y Hx Hy E. apply in_seq in Hx, Hy.
    destruct (Nat.lt_ge_cases (i + x) n), (Nat.lt_ge_cases (i + y) n); 
      rewrite ?(Nat.mod_small (i + x)), ?(Nat.mod_small (i + y)), ?(mod_sub_once (i + x)), ?(mod_sub_once (i + y)) in E by lia; lia.
  - rewrite map_length. auto.
  - intros x Hx. apply in_map_iff in Hx. destruct Hx as (k & <- & _). apply in_seq.
    pose proof (Nat.mod_upper_bound (i + k) n ltac:(lia)). lia.
Qed.
Lemma seq_cons_map n : 0 < n -> seq 0 n = 0 :: map S (seq 0 (n - 1)).
Proof. intros H. rewrite seq_shift. destruct n; [lia|]. cbn [seq Nat.sub]. rewrite Nat.sub_0_r. auto. Qed.

Section Statements.
  Variables (w sa data : list nat).
  Hypothesis Hw : zero_free w.
  Hypothesis HSA : is_suffix_array (terminated w) sa.
  Hypothesis Hd : data = w \/ data = terminated w.
  Variable h : nat.
  Hypothesis Hh : 0 < h.
  Hypothesis Hn : S (length w) < 2 ^ 64.
  Notation T := (ctext w sa).
  Notation n := (len T).
  Notation B := (BW T sa).
  Let HT : text_ok T := ctext_ok w sa Hw HSA.
  Let HS : is_suffix_array T sa := ctext_sa w sa Hw HSA.
  Lemma g_n : n < 2 ^ 64.
  Proof. rewrite ctext_n. auto. Qed.

  Lemma fwd_rows count locate p : pattern_over w p -> csa_answer w sa count locate p -> fwd_answers w sa count locate p.
  Proof.
    intros Hp (st & e & HI & Ec & El).
    exists st, e. pose proof (range_rows w sa Hw HSA p st e Hp HI) as HR.
    split; auto. split; auto. split; [apply range_rows_exact; auto|].
    split; [apply Glue.rows_length; apply HR|].
    rewrite El, (rows_map T); auto. apply HI.
  Qed.
  Lemma st_search al pc u v loc : al = construct_alphabet (BW (terminated w) sa) -> fwd_answers w sa (csa_count al pc) loc v ->
    exists st e, csa_search al pc (rev v) (0, length sa) = Some (st, e) /\ row_interval v w sa st e /\
      csa_count al pc (u ++ v) = csa_search al pc (rev u) (st, e) /\
      (st = e -> csa_count al pc (u ++ v) = Some (st, e)).
  Proof.
    intros Hal (st & e & Ec & HR & _).
    assert (En : al_size al = Some (length sa)).
    { rewrite (gsa_length w sa Hw HSA). apply (ta_N w sa Hw HSA al Hal). }
    unfold csa_search. unfold csa_count in *. rewrite En in *. cbn [bind] in *. unfold engine_count in *.
    exists st, e. split; auto. split; auto.
    rewrite rev_app_distr, count_loop_app, Ec. split; auto.
    intros ->. apply count_loop_empty. unfold range_empty. cbn [fst snd]. rewrite Nat.ltb_irrefl. auto.
  Qed.
  (** Count of the empty pattern, and Locate in terms of the initial toehold. *)
  Lemma st_empty {D} al pc create (init : D) call : al = construct_alphabet (BW (terminated w) sa) ->
    csa_count al pc [] = Some (0, length sa) /\
    csa_locate al pc create init call [] = call n (0, n) (mk_step_data 0 init).
  Proof.
    intros Hal.
    assert (En : al_size al = Some n) by apply (ta_N w sa Hw HSA al Hal).
    unfold csa_count, csa_locate. rewrite En. cbn [bind]. rewrite (gsa_length w sa Hw HSA). split; auto.
    unfold engine_locate. cbn [rev locate_loop bind]. unfold range_empty. cbn [fst snd].
    pose proof (n_pos T HT). destruct (Nat.ltb_spec 0 n) as [H0|H0]; cbn [negb]; auto. lia.
  Qed.

  Lemma al_exists : exists al, al = construct_alphabet (BW (terminated w) sa).
  Proof. eauto. Qed.

  (** * RCSAWithBWTRun *)
  Lemma st_bwt_val : exists al, al = construct_alphabet (BW (terminated w) sa) /\
    construct_rcsa_bwt (2 * h) data sa = Some (rcsa_bwt_val w sa al h).
  Proof.
    destruct al_exists as [al Hal]. exists al. split; auto. apply (construct_rcsa_bwt_ok w sa Hw HSA al h Hal Hh g_n); auto.
  Qed.
  Lemma st_bwt_construct : exists ix, construct_rcsa_bwt (2 * h) data sa = Some ix.
  Proof. destruct st_bwt_val as (al & _ & E). eauto. Qed.
  Lemma st_bwt ix p : construct_rcsa_bwt (2 * h) data sa = Some ix -> pattern_over w p ->
    fwd_answers w sa (rcsa_bwt_count ix) (rcsa_bwt_locate ix) p.
  Proof.
    intros Hix Hp. destruct st_bwt_val as (al & Hal & E). rewrite Hix in E. injection E as ->.
    apply fwd_rows; auto. apply (rcsa_bwt_rows w sa Hw HSA al h Hal Hh g_n); auto using query_over.
  Qed.
  Lemma st_bwt_search ix u v : construct_rcsa_bwt (2 * h) data sa = Some ix -> pattern_over w v ->
    exists st e, csa_search (ca_alpha ix) (ca_psi ix) (rev v) (0, length sa) = Some (st, e) /\ row_interval v w sa st e /\
      rcsa_bwt_count ix (u ++ v) = csa_search (ca_alpha ix) (ca_psi ix) (rev u) (st, e) /\
      (st = e -> rcsa_bwt_count ix (u ++ v) = Some (st, e)).
  Proof.
    intros Hix Hp. pose proof (st_bwt ix v Hix Hp) as HA. destruct st_bwt_val as (al & Hal & E). rewrite Hix in E. injection E as ->.
    eapply (st_search al _ u v); eauto.
  Qed.
  Lemma phi_row phi i a : (forall v, v < n -> exists b : bool, phi v = Some (PHIF T sa v, b)) -> nth_error sa i = Some a ->
    exists b, phi a = Some (nth ((i + 1) mod n) sa 0, b).
  Proof.
    intros Hphi Ha. assert (Hi : i < n) by (rewrite <- (gsa_length w sa Hw HSA); apply nth_error_Some; congruence).
    assert (Ea : a = SA sa i) by (unfold SA; symmetry; apply nth_error_nth; auto).
    destruct (Hphi a) as [b Hb]; [subst a; apply (SA_lt T sa HS); auto|]. exists b. rewrite Hb, Ea.
    unfold PHIF. rewrite (ISA_SA T sa HS) by auto. auto.
  Qed.
  Lemma st_bwt_phi ix i a : construct_rcsa_bwt (2 * h) data sa = Some ix -> nth_error sa i = Some a ->
    exists b, csa_phi (length sa) (ca_marks ix) (ca_samples ix) (links_default (ca_links ix) true) sample_validator_default a
      = Some (nth ((i + 1) mod length sa) sa 0, b).
  Proof.
    intros Hix Ha. destruct st_bwt_val as (al & Hal & E). rewrite Hix in E. injection E as ->.
    rewrite (gsa_length w sa Hw HSA). apply phi_row; auto. apply (phi_bwt_ok w sa Hw HSA al h).
  Qed.
  (** Locate("") of RCSAWithBWTRun: every text position, from SA[0] - 1 on and around the rows. *)
  Lemma st_bwt_empty ix : construct_rcsa_bwt (2 * h) data sa = Some ix ->
    rcsa_bwt_count ix [] = Some (0, length sa) /\
    exists l, rcsa_bwt_locate ix [] = Some l /\ Permutation l (seq 0 (S (length w))).
  Proof.
    intros Hix. destruct st_bwt_val as (al & Hal & E). rewrite Hix in E. injection E as ->.
    unfold rcsa_bwt_count, rcsa_bwt_locate. destruct (st_empty al (ca_psi (rcsa_bwt_val w sa al h)) bwt_create 0
      (fun n => compute_all_values (csa_phi_for_range (rcsa_bwt_val w sa al h) n) (rcsa_bwt_toehold (rcsa_bwt_val w sa al h)) csa_update_range) Hal) as [E1 E2].
    split; auto. change (ca_alpha (rcsa_bwt_val w sa al h)) with al. rewrite E2.
    pose proof (n_pos T HT) as H0.
    assert (r0 : 0 < length (rle B)) by apply (r_gt0 T sa HT HS).
    assert (Et : rcsa_bwt_toehold (rcsa_bwt_val w sa al h) (mk_step_data 0 0) = Some (SA sa (LFr T sa 0))).
    { unfold rcsa_bwt_toehold. cbn [rcsa_bwt_val ca_psi ca_samples]. change (pc_n (core B (al_sigma al) h)) with (length B).
      rewrite (c_n w sa Hw HSA). unfold compute_toehold. cbn [sd_run sd_step].
      pose proof (core_rank_run_head B (al_sigma al) h (B_lt w sa Hw HSA al Hal) (ta_O w sa Hw HSA al Hal) Hh
        (c_hn w sa Hw HSA g_n) (c_n0 w sa Hw HSA) 0 r0) as G.
      unfold rstart in G. rewrite psum_0 in G. rewrite G. cbn [bind].
      rewrite (nth_error_hmarks T sa) by (rewrite hrows_r; auto). cbn [bind]. rewrite hrows_nth by auto.
      unfold rstart. rewrite psum_0. rewrite <- (tpos_LFr T sa HT HS). pose proof (tpos_lt T sa HT 0).
      rewrite (sub64_ok _ 0) by lia. rewrite sub64_ok by lia. rewrite umod_ok by lia. f_equal. rewrite mod_sub_once; lia. }
    unfold compute_all_values. rewrite Et. cbn [bind]. unfold csa_phi_for_range, ri_phi_for_range, csa_update_range. cbn [fst snd].
    assert (HL : LFr T sa 0 < n) by (apply LFr_lt; auto).
    rewrite (phi_cycle T sa _ HT HS (phi_bwt_ok w sa Hw HSA al h)) by auto. cbn [bind]. eexists. split; [reflexivity|].
    rewrite <- ctext_n with (sa := sa). set (i := LFr T sa 0) in *.
    replace (SA sa i :: _) with (map (SA sa) (map (fun k => (i + k) mod n) (seq 0 n))).
    - rewrite rotation_perm by auto. destruct HS as [P _].
      replace (map (SA sa) (seq 0 n)) with sa; auto.
      transitivity (map (fun i => nth i sa 0) (seq 0 (length sa))); [symmetry; apply map_nth_self|].
      rewrite (gsa_length w sa Hw HSA). auto.
    - rewrite (seq_cons_map n) by auto. cbn [map]. rewrite Nat.add_0_r, Nat.mod_small by auto. f_equal.
      rewrite !map_map. replace (n - 1) with (n - 1) by auto. auto.
  Qed.

  (** * RCSAWithPsiRun *)
  Lemma st_psi_val : exists al, al = construct_alphabet (BW (terminated w) sa) /\
    construct_rcsa_psi (2 * h) data sa = Some (rcsa_psi_val w sa al h).
  Proof.
    destruct al_exists as [al Hal]. exists al. split; auto. apply (construct_rcsa_psi_ok w sa Hw HSA al h Hal Hh g_n); auto.
  Qed.
  Lemma st_psi_construct : exists ix, construct_rcsa_psi (2 * h) data sa = Some ix.
  Proof. destruct st_psi_val as (al & _ & E). eauto. Qed.
  Lemma st_psi ix p : construct_rcsa_psi (2 * h) data sa = Some ix -> pattern_over w p ->
    fwd_answers w sa (rcsa_psi_count ix) (rcsa_psi_locate ix) p.
  Proof.
    intros Hix Hp. destruct st_psi_val as (al & Hal & E). rewrite Hix in E. injection E as ->.
    apply fwd_rows; auto. apply (rcsa_psi_rows w sa Hw HSA al h Hal Hh g_n); auto using query_over.
  Qed.
  Lemma st_psi_search ix u v : construct_rcsa_psi (2 * h) data sa = Some ix -> pattern_over w v ->
    exists st e, csa_search (ca_alpha ix) (ca_psi ix) (rev v) (0, length sa) = Some (st, e) /\ row_interval v w sa st e /\
      rcsa_psi_count ix (u ++ v) = csa_search (ca_alpha ix) (ca_psi ix) (rev u) (st, e) /\
      (st = e -> rcsa_psi_count ix (u ++ v) = Some (st, e)).
  Proof.
    intros Hix Hp. pose proof (st_psi ix v Hix Hp) as HA. destruct st_psi_val as (al & Hal & E). rewrite Hix in E. injection E as ->.
    eapply (st_search al _ u v); eauto.
  Qed.
  Lemma st_psi_phi ix i a : construct_rcsa_psi (2 * h) data sa = Some ix -> nth_error sa i = Some a ->
    exists b, csa_phi (length sa) (ca_marks ix) (ca_samples ix) (links_default (ca_links ix) true) sample_validator_default a
      = Some (nth ((i + 1) mod length sa) sa 0, b).
  Proof.
    intros Hix Ha. destruct st_psi_val as (al & Hal & E). rewrite Hix in E. injection E as ->.
    rewrite (gsa_length w sa Hw HSA). apply phi_row; auto. apply (phi_psi_ok w sa Hw HSA al h Hal Hh g_n).
  Qed.
  Lemma sa_rows : map (SA sa) (seq 0 n) = sa.
  Proof.
    transitivity (map (fun i => nth i sa 0) (seq 0 (length sa))); [|apply map_nth_self].
    rewrite (gsa_length w sa Hw HSA). auto.
  Qed.
  (** The first run in Psi order starts at row 0 of F. *)
  Lemma po_first sigma : (forall x, In x B -> x < sigma) -> LFr T sa (rstart (rle B) (nth 0 (po T sa sigma) 0)) = 0.
  Proof.
    intros Hlt. pose proof (r_gt0 T sa HT HS) as r0.
    pose proof (flink_next T sa HT HS sigma Hlt (length (rle B) - 1) ltac:(lia)) as E.
    replace (length (rle B) - 1 + 1) with (length (rle B)) in E by lia. rewrite Nat.mod_same in E by lia.
    rewrite (phrows_nth T sa HS sigma Hlt) in E by auto.
    destruct (head_run T sa HS (PSr T sa 0)) as (k & Hk & Ek).
    - apply PSr_lt; auto.
    - (* row Psi(0) starts a run: its LF image is the first row *)
      pose proof (n_pos T HT) as H0. assert (Hp : PSr T sa 0 < n) by (apply PSr_lt; auto).
      destruct (headr T sa (PSr T sa 0)) eqn:G; auto. exfalso. apply (headr_false T sa) in G; auto. destruct G as [G1 G2].
      assert (EL : LFr T sa (PSr T sa 0) = S (LFr T sa (PSr T sa 0 - 1))).
      { replace (PSr T sa 0) with (S (PSr T sa 0 - 1)) at 1 by lia. apply (LFr_consecutive T sa HT HS); [lia|]. rewrite G2. f_equal. lia. }
      rewrite (LFr_PSr T sa HT HS) in EL by auto. lia.
    - assert (Hin : In k (po T sa sigma)) by (apply (po_in T sa HS sigma Hlt); auto).
      destruct (In_nth _ _ 0 Hin) as (q & Hq & Eq). rewrite (po_length T sa HS sigma Hlt) in Hq.
      assert (E0 : LFr T sa (rstart (rle B) k) = 0) by (rewrite <- Ek; apply (LFr_PSr T sa HT HS); apply n_pos; auto).
      destruct q as [|q]; [rewrite Eq; auto|].
      pose proof (key_mono T sa HT HS sigma Hlt 0 (S q) ltac:(lia) Hq) as M. rewrite Eq in M. lia.
  Qed.
  Lemma st_psi_empty ix : construct_rcsa_psi (2 * h) data sa = Some ix ->
    rcsa_psi_count ix [] = Some (0, length sa) /\ rcsa_psi_locate ix [] = Some sa.
  Proof.
    intros Hix. destruct st_psi_val as (al & Hal & E). rewrite Hix in E. injection E as ->.
    unfold rcsa_psi_count, rcsa_psi_locate. destruct (st_empty al (ca_psi (rcsa_psi_val w sa al h)) psi_create (0, 0)
      (fun n => compute_all_values (csa_phi_for_range (rcsa_psi_val w sa al h) n) (rcsa_psi_toehold (rcsa_psi_val w sa al h)) csa_update_range) Hal) as [E1 E2].
    split; auto. change (ca_alpha (rcsa_psi_val w sa al h)) with al. rewrite E2.
    pose proof (n_pos T HT) as H0. pose proof (B_lt w sa Hw HSA al Hal) as Hlt.
    unfold csa_phi_for_range. rewrite (all_values_ok w sa Hw HSA al h Hal Hh g_n).
    - rewrite Nat.sub_0_r, sa_rows. auto.
    - apply (phi_psi_ok w sa Hw HSA al h Hal Hh g_n).
    - auto.
    - auto.
    - unfold rcsa_psi_toehold. cbn [rcsa_psi_val ca_psi ca_samples]. change (pc_n (core B (al_sigma al) h)) with (length B).
      rewrite (c_n w sa Hw HSA). unfold compute_toehold. cbn [sd_run sd_step].
      rewrite (core_rank_char_run B (al_sigma al) h Hlt (ta_O w sa Hw HSA al Hal) Hh
        (c_hn w sa Hw HSA g_n) (c_n0 w sa Hw HSA) 0) by lia. cbn [bind].
      rewrite (count_false _ (map fst (rle B))) by auto. cbn [Nat.add].
      pose proof (r_gt0 T sa HT HS) as r0.
      rewrite nth_error_map, (nth_error_nth_lt _ _ 0) by (rewrite (phrows_length T sa HS _ Hlt); auto).
      rewrite (phrows_nth T sa HS _ Hlt) by auto. cbn [option_map bind].
      rewrite (tpos_LFr T sa HT HS), (po_first _ Hlt). pose proof (SA_lt T sa HS 0 H0).
      rewrite (sub64_ok _ 0) by lia. rewrite sub64_ok by lia. rewrite umod_ok by lia. f_equal. rewrite mod_sub_once; lia.
  Qed.

  (** * CSARaw *)
  Lemma st_raw_val : exists al, al = construct_alphabet (BW (terminated w) sa) /\
    construct_csa_raw (2 * h) data sa = Some (mk_csa_raw al (core B (al_sigma al) h) sa).
  Proof.
    destruct al_exists as [al Hal]. exists al. split; auto. apply (construct_csa_raw_ok w sa Hw HSA al h Hal Hh g_n); auto.
  Qed.
  Lemma st_raw_construct : exists ix, construct_csa_raw (2 * h) data sa = Some ix.
  Proof. destruct st_raw_val as (al & _ & E). eauto. Qed.
  Lemma st_raw ix p : construct_csa_raw (2 * h) data sa = Some ix -> pattern_over w p ->
    fwd_answers w sa (csa_raw_count ix) (csa_raw_locate ix) p.
  Proof.
    intros Hix Hp. destruct st_raw_val as (al & Hal & E). rewrite Hix in E. injection E as ->.
    apply fwd_rows; auto. apply (csa_raw_rows w sa Hw HSA al h Hal Hh g_n); auto using query_over.
  Qed.
  Lemma st_raw_search ix u v : construct_csa_raw (2 * h) data sa = Some ix -> pattern_over w v ->
    exists st e, csa_search (cr_alpha ix) (cr_psi ix) (rev v) (0, length sa) = Some (st, e) /\ row_interval v w sa st e /\
      csa_raw_count ix (u ++ v) = csa_search (cr_alpha ix) (cr_psi ix) (rev u) (st, e) /\
      (st = e -> csa_raw_count ix (u ++ v) = Some (st, e)).
  Proof.
    intros Hix Hp. pose proof (st_raw ix v Hix Hp) as HA. destruct st_raw_val as (al & Hal & E). rewrite Hix in E. injection E as ->.
    eapply (st_search al _ u v); eauto.
  Qed.
  Lemma st_raw_empty ix : construct_csa_raw (2 * h) data sa = Some ix ->
    csa_raw_count ix [] = Some (0, length sa) /\ csa_raw_locate ix [] = Some sa.
  Proof.
    intros Hix. destruct st_raw_val as (al & Hal & E). rewrite Hix in E. injection E as ->.
    unfold csa_raw_count, csa_raw_locate. cbn [cr_alpha cr_psi cr_sa].
    destruct (st_empty al (core B (al_sigma al) h) bwt_create 0 (fun (_ : nat) r _ => csa_raw_values sa r) Hal) as [E1 E2].
    split; auto. rewrite E2. unfold csa_raw_values. cbn [fst snd]. rewrite Nat.sub_0_r. transitivity (Some (map (SA sa) (seq 0 n))); [|rewrite sa_rows; auto].
    apply mmap_map. intros i Hi. apply in_seq in Hi. unfold SA. apply nth_error_nth_lt. rewrite (gsa_length w sa Hw HSA). lia.
  Qed.
End Statements.

(** Links between marks and samples. *)
Section LinkStatements.
  Variables (w sa data : list nat).
  Hypothesis Hw : zero_free w.
  Hypothesis HSA : is_suffix_array (terminated w) sa.
  Hypothesis Hd : data = w \/ data = terminated w.
  Variable h : nat.
  Hypothesis Hh : 0 < h.
  Hypothesis Hn : S (length w) < 2 ^ 64.
  Notation T := (ctext w sa).
  Notation n := (len T).
  Notation B := (BW T sa).
  Let HT : text_ok T := ctext_ok w sa Hw HSA.
  Let HS : is_suffix_array T sa := ctext_sa w sa Hw HSA.

  (** Text positions [m] and [x] are suffix array neighbours, circularly. *)
  Definition sa_next (m x : nat) : Prop := exists i, nth_error sa i = Some m /\ nth_error sa ((i + 1) mod length sa) = Some x.
  Lemma flink_next_sa t : t < n -> sa_next (tpos T sa t) (tpos T sa (flink T sa t)).
  Proof.
    intros Ht. pose proof (n_pos T HT) as H0. pose proof (gsa_length w sa Hw HSA) as L. exists (LFr T sa t).
    assert (HL : LFr T sa t < n) by (apply LFr_lt; auto).
    assert (HM : (LFr T sa t + 1) mod n < n) by (apply Nat.mod_upper_bound; lia).
    rewrite (nth_error_nth_lt sa _ 0) by lia. rewrite L. rewrite (nth_error_nth_lt sa _ 0) by lia. split.
    - rewrite (tpos_LFr T sa HT HS). auto.
    - rewrite (tpos_LFr T sa HT HS). unfold flink. rewrite (LFr_PSr T sa HT HS) by auto. auto.
  Qed.

  Lemma st_base_core : exists b al, construct_base data sa = Some b /\ al = construct_alphabet (BW (terminated w) sa) /\ cbase w sa al h b.
  Proof.
    destruct (al_exists w sa) as [al Hal].
    destruct (cbase_ok w sa Hw HSA al h Hal Hh (g_n w sa Hn) data Hd) as (b & E & F). eauto.
  Qed.
  Lemma st_links_bwt b pc : construct_base data sa = Some b -> construct_psi_core (2 * h) b = Some pc ->
    let f := bi_runs_files b in
    let lf := basic_lf (bi_alpha b) (bi_bwt_rle b) in let psi := core_psi_fn (bi_alpha b) pc in
    (forall k t, nth_error (br_last f) k = Some t -> exists j x m y,
       link_to_sample lf psi (lower_bound (br_first f)) (length sa) t = Some j /\ nth_error (br_first f) j = Some x /\
       link_to_mark lf psi (lower_bound (br_last f)) (length sa) x = Some k /\
       nth_error (br_last_text f) k = Some m /\ nth_error (br_first_text f) j = Some y /\ sa_next m y) /\
    (forall j x, nth_error (br_first f) j = Some x -> exists k t,
       link_to_mark lf psi (lower_bound (br_last f)) (length sa) x = Some k /\ nth_error (br_last f) k = Some t /\
       link_to_sample lf psi (lower_bound (br_first f)) (length sa) t = Some j).
  Proof.
    intros Hb Hpc. destruct st_base_core as (b' & al & E & Hal & F). rewrite Hb in E. injection E as <-.
    rewrite (cb_core w sa al h b F) in Hpc. injection Hpc as <-. rewrite (cb_runs w sa al h b F), (cb_alpha w sa al h b F).
    cbn [br_first br_last br_first_text br_last_text]. cbn zeta. rewrite (gsa_length w sa Hw HSA).
    pose proof (rows_ssorted T sa HS) as Sh. pose proof (trows_ssorted T sa HS) as St. split.
    - intros k t Hk. pose proof (nth_error_Some_lt _ _ _ Hk) as Lk.
      assert (Et : nth k (trows T sa) 0 = t) by (apply nth_error_nth; auto).
      assert (Ht : In t (trows T sa)) by (rewrite <- Et; apply nth_In; auto). apply (trows_in T sa HS) in Ht. destruct Ht as [Ht1 Ht2].
      assert (Hf : In (flink T sa t) (hrows T sa)) by (apply (hrows_in T sa HS); split; [apply flink_lt|apply (flink_head T sa HT HS)]; auto).
      destruct (lower_bound_in _ _ Sh Hf) as [L1 L2].
      exists (lower_bound (hrows T sa) (flink T sa t)), (flink T sa t), (tpos T sa t), (tpos T sa (flink T sa t)).
      split; [apply (link_to_sample_ok w sa Hw HSA al h Hal Hh (g_n w sa Hn) b _ t F Ht1)|].
      split; [rewrite <- L2 at 2; apply nth_error_nth_lt; auto|].
      split.
      + rewrite (link_to_mark_ok w sa Hw HSA al h Hal Hh (g_n w sa Hn) b _ _ F) by (apply flink_lt; auto).
        f_equal. rewrite (blink_flink T sa HT HS) by auto. rewrite <- Et. apply lower_bound_nth; auto.
      + split; [unfold tmarks; rewrite nth_error_map, Hk; auto|].
        split; [unfold hmarks; rewrite nth_error_map, (nth_error_nth_lt _ _ 0), L2 by auto; auto|].
        apply flink_next_sa; auto.
    - intros j x Hj. pose proof (nth_error_Some_lt _ _ _ Hj) as Lj.
      assert (Ex : nth j (hrows T sa) 0 = x) by (apply nth_error_nth; auto).
      assert (Hx : In x (hrows T sa)) by (rewrite <- Ex; apply nth_In; auto). apply (hrows_in T sa HS) in Hx. destruct Hx as [Hx1 Hx2].
      assert (Hf : In (blink T sa x) (trows T sa)) by (apply (trows_in T sa HS); split; [apply blink_lt|apply (blink_tail T sa HT HS)]; auto).
      destruct (lower_bound_in _ _ St Hf) as [L1 L2].
      exists (lower_bound (trows T sa) (blink T sa x)), (blink T sa x).
      split; [apply (link_to_mark_ok w sa Hw HSA al h Hal Hh (g_n w sa Hn) b _ x F Hx1)|].
      split; [rewrite <- L2 at 2; apply nth_error_nth_lt; auto|].
      rewrite (link_to_sample_ok w sa Hw HSA al h Hal Hh (g_n w sa Hn) b _ _ F) by (apply blink_lt; auto).
      f_equal. rewrite (flink_blink T sa HT HS) by auto. rewrite <- Ex. apply lower_bound_nth; auto.
  Qed.
  (** The link table of a constructed index: link [q] of the q-th smallest mark gives its sample. *)
  Lemma links_table rowsh rowst link : 
    (forall i, In i rowst -> i < n) -> NoDup rowst -> length rowsh = length rowst ->
    (forall i, i < length rowst -> link i < length rowsh /\ nth (link i) rowsh 0 = flink T sa (nth i rowst 0)) ->
    NoDup rowsh ->
    let marks := map (tpos T sa) rowst in let links := map link (sort_indices marks) in
    NoDup links /\ length links = length rowst /\
    forall q l, nth_error links q = Some l -> exists x,
      nth_error (map (tpos T sa) rowsh) l = Some x /\ sa_next (nth q (sorted_values marks) 0) x.
  Proof.
    intros Ht Hnd Hlen Hlink Hh2 marks links.
    assert (LL : length links = length rowst) by (unfold links, marks; rewrite map_length, sort_indices_length, map_length; auto).
    split; [|split; auto].
    - unfold links. apply NoDup_map_inj.
      + apply (Permutation_NoDup (Permutation_sym (sort_indices_perm marks))). apply seq_NoDup.
      + intros x y Hx Hy E. apply sort_indices_lt in Hx, Hy. unfold marks in Hx, Hy. rewrite map_length in Hx, Hy.
        destruct (Hlink x Hx) as [_ X2], (Hlink y Hy) as [_ Y2]. rewrite E in X2. rewrite X2 in Y2.
        apply (f_equal (blink T sa)) in Y2. rewrite !(blink_flink T sa HT HS) in Y2 by (apply Ht, nth_In; auto).
        apply (proj1 (NoDup_nth rowst 0) Hnd); auto.
    - intros q l Hq. pose proof (nth_error_Some_lt _ _ _ Hq) as Lq. rewrite LL in Lq.
      unfold links in Hq. rewrite nth_error_map, (nth_error_nth_lt _ _ 0) in Hq by (unfold marks; rewrite sort_indices_length, map_length; auto).
      injection Hq as <-. set (i := nth q (sort_indices marks) 0).
      assert (Hi : i < length rowst).
      { unfold i. rewrite <- (map_length (tpos T sa) rowst). apply sort_indices_lt. apply nth_In. rewrite sort_indices_length. unfold marks. rewrite map_length. auto. }
      destruct (Hlink i Hi) as [L1 L2]. exists (tpos T sa (flink T sa (nth i rowst 0))).
      rewrite nth_error_map, (nth_error_nth_lt _ _ 0), L2 by auto. split; auto.
      rewrite sorted_values_nth by (unfold marks; rewrite map_length; auto). fold i. unfold marks. rewrite (nth_map_lt _ _ _ 0) by auto.
      apply flink_next_sa. apply Ht, nth_In; auto.
  Qed.
  (** Position of the q-th set bit of the marks, through select. *)
  Lemma marks_select rowst q : (forall i, In i rowst -> i < n) -> NoDup rowst -> q < length rowst ->
    bv_select (bits_of (map (tpos T sa) rowst) n) (S q) = Some (nth q (sorted_values (map (tpos T sa) rowst)) 0).
  Proof.
    intros Ht Hnd Hq. rewrite (bits_of_ext _ (sorted_values (map (tpos T sa) rowst))) by (intros x; symmetry; apply sorted_values_in).
    apply bits_select.
    - apply sorted_values_sorted. apply (marks_NoDup T sa HT HS); auto.
    - intros m Hm. rewrite sorted_values_in in Hm. apply in_map_iff in Hm. destruct Hm as (i & <- & _). apply tpos_lt; auto.
    - rewrite sorted_values_length, map_length. auto.
  Qed.
  Lemma st_bwt_links ix : construct_rcsa_bwt (2 * h) data sa = Some ix ->
    NoDup (ca_links ix) /\ length (ca_links ix) = length (ca_samples ix) /\
    forall q l, nth_error (ca_links ix) q = Some l -> exists m x,
      bv_select (ca_marks ix) (S q) = Some m /\ nth_error (ca_samples ix) l = Some x /\ sa_next m x.
  Proof.
    intros Hix. destruct (st_bwt_val w sa data Hw HSA Hd h Hh Hn) as (al & Hal & E). rewrite Hix in E. injection E as ->.
    cbn [rcsa_bwt_val ca_links ca_samples ca_marks]. unfold hmarks, tmarks.
    assert (Ht : forall i, In i (trows T sa) -> i < n) by (intros i Hi; apply (trows_in T sa HS) in Hi; apply Hi).
    pose proof (ssorted_NoDup _ (trows_ssorted T sa HS)) as N1. pose proof (ssorted_NoDup _ (rows_ssorted T sa HS)) as N2.
    pose proof (PhiProof.rows_length T sa HT HS) as HL.
    destruct (links_table (hrows T sa) (trows T sa) (flink_bwt w sa) Ht N1 (eq_sym HL) (flink_bwt_ok w sa Hw HSA) N2) as (A1 & A2 & A3).
    split; auto. split; [rewrite A2, map_length; auto|].
    intros q l Hq. pose proof (nth_error_Some_lt _ _ _ Hq) as Lq. rewrite A2 in Lq.
    destruct (A3 q l Hq) as (x & X1 & X2). eexists. exists x. split; [apply marks_select; auto|]. auto.
  Qed.
  Lemma st_psi_links ix : construct_rcsa_psi (2 * h) data sa = Some ix ->
    NoDup (ca_links ix) /\ length (ca_links ix) = length (ca_samples ix) /\
    forall q l, nth_error (ca_links ix) q = Some l -> exists m x,
      bv_select (ca_marks ix) (S q) = Some m /\ nth_error (ca_samples ix) l = Some x /\ sa_next m x.
  Proof.
    intros Hix. destruct (st_psi_val w sa data Hw HSA Hd h Hh Hn) as (al & Hal & E). rewrite Hix in E. injection E as ->.
    pose proof (B_lt w sa Hw HSA al Hal) as Hlt.
    cbn [rcsa_psi_val ca_links ca_samples ca_marks].
    assert (Ht : forall i, In i (ptrows T sa (al_sigma al)) -> i < n)
      by (intros i Hi; apply (ptrows_in T sa HS _ Hlt), (trows_in T sa HS) in Hi; apply Hi).
    pose proof (ptrows_NoDup T sa HS _ Hlt) as N1. pose proof (phrows_NoDup T sa HS _ Hlt) as N2.
    pose proof (ptrows_length T sa HS _ Hlt) as LT. pose proof (phrows_length T sa HS _ Hlt) as LH.
    destruct (links_table (phrows T sa (al_sigma al)) (ptrows T sa (al_sigma al)) (fun q => (q + 1) mod length (rle B)) Ht N1) as (A1 & A2 & A3); auto.
    { congruence. }
    { intros q Hq. rewrite LT in Hq. rewrite LH. split; [apply Nat.mod_upper_bound; lia|]. symmetry. apply (flink_next T sa HT HS _ Hlt); auto. }
    split; auto. split; [rewrite A2, map_length; congruence|].
    intros q l Hq. pose proof (nth_error_Some_lt _ _ _ Hq) as Lq. rewrite A2 in Lq.
    destruct (A3 q l Hq) as (x & X1 & X2). eexists. exists x. split; [apply marks_select; auto|]. auto.
  Qed.
End LinkStatements.

(** Backward links of RIndex: mark and sample are the text positions before two neighbour rows. *)
Section BackLinks.
  Variables (w sa data : list nat).
  Hypothesis Hw : zero_free w.
  Hypothesis HSA : is_suffix_array (terminated w) sa.
  Hypothesis Hd : data = w \/ data = terminated w.
  Notation T := (ctext w sa).
  Notation n := (len T).
  Let HT : text_ok T := ctext_ok w sa Hw HSA.
  Let HS : is_suffix_array T sa := ctext_sa w sa Hw HSA.
  Lemma st_ri_links ix : construct_rindex data sa = Some ix ->
    NoDup (ri_links ix) /\ length (ri_links ix) = length (ri_samples ix) /\
    forall q l, nth_error (ri_links ix) q = Some l -> exists m x,
      bv_select (ri_marks ix) (S q) = Some m /\ nth_error (ri_samples ix) l = Some x /\
      exists i a b, nth_error sa i = Some a /\ nth_error sa (cpred (length sa) i) = Some b /\
        m = cpred (length sa) a /\ x = cpred (length sa) b.
  Proof.
    intros Hix. destruct (construct_rindex_ok w sa data Hw HSA Hd) as (ix' & R & E & _ & _ & _ & Es & Em & El).
    rewrite Hix in E. injection E as <-. rewrite Es, Em, El. clear Hix Es Em El.
    pose proof (rows_pos T sa HT HS) as Hr0. set (r := length (hrows T sa)) in *.
    pose proof (hmarks_length T sa) as HL. fold r in HL.
    assert (BL : length (blinks T sa) = r) by (unfold blinks; rewrite map_length, sort_indices_length; auto).
    split; [|split; [rewrite (tmarks_length T sa HT HS); auto|]].
    - unfold blinks. fold r. apply NoDup_map_inj.
      + apply (Permutation_NoDup (Permutation_sym (sort_indices_perm _))). apply seq_NoDup.
      + intros x y Hx Hy E. apply sort_indices_lt in Hx, Hy. rewrite HL in Hx, Hy.
        destruct (Nat.eq_dec x 0) as [->|], (Nat.eq_dec y 0) as [->|]; auto.
        * rewrite (Nat.mod_small (0 + r - 1)) in E by lia. replace (y + r - 1) with (y - 1 + 1 * r) in E by lia.
          rewrite Nat.mod_add, Nat.mod_small in E by lia. lia.
        * rewrite (Nat.mod_small (0 + r - 1)) in E by lia. replace (x + r - 1) with (x - 1 + 1 * r) in E by lia.
          rewrite Nat.mod_add, Nat.mod_small in E by lia. lia.
        * replace (x + r - 1) with (x - 1 + 1 * r) in E by lia. replace (y + r - 1) with (y - 1 + 1 * r) in E by lia.
          rewrite !Nat.mod_add, !Nat.mod_small in E by lia. lia.
    - intros q l Hq. pose proof (nth_error_Some_lt _ _ _ Hq) as Lq. rewrite BL in Lq.
      assert (Hi : nth q (sort_indices (hmarks T sa)) 0 < r).
      { rewrite <- HL. apply sort_indices_lt, nth_In. rewrite sort_indices_length, HL. auto. }
      set (i := nth q (sort_indices (hmarks T sa)) 0) in *.
      assert (Eq : nth q (sorted_values (hmarks T sa)) 0 = tpos T sa (nth i (hrows T sa) 0)).
      { rewrite sorted_values_nth by (rewrite HL; auto). fold i. apply (nth_hmarks T sa); auto. }
      assert (Hhi : nth i (hrows T sa) 0 < n) by (apply (rows_lt T sa HS); auto).
      destruct (blinks_ok T sa HT HS q _ Lq Hhi (eq_sym Eq)) as (l' & E1 & _ & E3 & _). rewrite Hq in E1. injection E1 as <-.
      exists (tpos T sa (nth i (hrows T sa) 0)), (tpos T sa (cpred n (nth i (hrows T sa) 0))).
      split; [|split; auto].
      + rewrite (bits_of_ext _ (sorted_values (hmarks T sa))) by (intros x; symmetry; apply sorted_values_in).
        rewrite <- Eq. apply bits_select.
        * apply sorted_values_sorted, (hmarks_NoDup T sa HT HS).
        * intros m Hm. rewrite sorted_values_in in Hm. apply (hmarks_in T sa HT HS), (is_hmark_lt T sa HT) in Hm. auto.
        * rewrite sorted_values_length, HL. auto.
      + pose proof (gsa_length w sa Hw HSA) as L. rewrite L. pose proof (cpred_lt T HT (nth i (hrows T sa) 0)) as Hc.
        exists (nth i (hrows T sa) 0), (SA sa (nth i (hrows T sa) 0)), (SA sa (cpred n (nth i (hrows T sa) 0))).
        unfold SA at 1 2. rewrite !(nth_error_nth_lt sa _ 0) by lia. auto.
  Qed.
End BackLinks.

Lemma run_links_inverse r i : i < r -> exists j,
  j < r /\ umod (i + r - 1) r = Some j /\ umod (j + 1) r = Some i /\
  exists k, k < r /\ umod (i + 1) r = Some k /\ umod (k + r - 1) r = Some i.
Proof.
  intros Hi. exists ((i + r - 1) mod r). rewrite !umod_ok by lia.
  split; [apply Nat.mod_upper_bound; lia|]. split; auto. split.
  - f_equal. destruct (Nat.eq_dec i 0) as [->|].
    + rewrite (Nat.mod_small (0 + r - 1)) by lia. replace (0 + r - 1 + 1) with r by lia. apply Nat.mod_same. lia.
    + replace (i + r - 1) with (i - 1 + 1 * r) by lia. rewrite Nat.mod_add, (Nat.mod_small (i - 1)) by lia.
      replace (i - 1 + 1) with i by lia. apply Nat.mod_small. auto.
  - exists ((i + 1) mod r). rewrite umod_ok by lia. split; [apply Nat.mod_upper_bound; lia|]. split; auto. f_equal.
    destruct (Nat.eq_dec (i + 1) r) as [E|].
    + rewrite E, Nat.mod_same by lia. rewrite Nat.mod_small by lia. lia.
    + rewrite (Nat.mod_small (i + 1)) by lia. replace (i + 1 + r - 1) with (i + 1 * r) by lia.
      rewrite Nat.mod_add by lia. apply Nat.mod_small. auto.
Qed.
