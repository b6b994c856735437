(** Circular predecessor / soft successor on bit vectors and phi on (sub)marks. *)
From Coq Require Import List Arith Bool Lia ZifyBool ZifyNat Permutation.
From Verif Require Import Spec MBase Lists FM MRle Runs RleProof MConstruct MPhi MRIndex Util Phi ConstructProof Nav.
Import ListNotations.

Section Circ.
  Variables (ms : list nat) (n : nat).
  Hypothesis Hs : ssorted ms.
  Hypothesis Hlt : forall m, In m ms -> m < n.
  Hypothesis Hne : ms <> [].
  Let r := length ms.

  Lemma r_pos : 0 < r.
  Proof. unfold r. destruct ms; [congruence|cbn; lia]. Qed.

  Lemma circ_pred_ok v : v <= n -> exists k, k < r /\
    circular_predecessor (bits_of ms n) n v = Some (k, nth k ms 0) /\
    ((nth k ms 0 < v /\ forall m, In m ms -> m < v -> m <= nth k ms 0) \/
     ((forall m, In m ms -> v <= m) /\ k = r - 1)).
  Proof.
    intros Hv. pose proof r_pos as Hr. unfold circular_predecessor.
    rewrite bits_ones by auto. cbn [bind]. rewrite bits_rank by auto. cbn [bind]. fold r.
    rewrite umod_ok by auto. cbn [bind].
    set (q := count (fun m => m <? v) ms).
    assert (Hq : q <= r) by apply count_le_length.
    destruct (Nat.eq_dec q 0) as [E|E].
    - exists (r - 1). rewrite E, Nat.add_0_l, Nat.mod_small by lia.
      rewrite Nat.add_1_r, bits_select by (auto; fold r; lia). cbn [bind]. split; [lia|]. split; auto.
      right. split; auto. intros m Hm. destruct (Nat.le_gt_cases v m); auto. exfalso.
      destruct (In_nth _ _ 0 Hm) as (i & Hi & Ei). rewrite <- Ei in H.
      apply (count_lt_sorted ms Hs) in H; auto. fold q in H. lia.
    - exists (q - 1). rewrite mod_sub_once by lia. replace (q + r - 1 - r) with (q - 1) by lia.
      rewrite Nat.add_1_r, bits_select by (auto; fold r; lia). cbn [bind]. split; [lia|]. split; auto.
      left. split.
      + apply (count_lt_sorted ms Hs); [fold r; lia|]. fold q. lia.
      + intros m Hm Hmv. destruct (In_nth _ _ 0 Hm) as (i & Hi & Ei). rewrite <- Ei in *.
        apply (count_lt_sorted ms Hs) in Hmv; auto. fold q in Hmv. apply ssorted_nth_le; auto; fold r; lia.
  Qed.

  Lemma circ_succ_ok v : v <= n -> exists k, k < r /\
    circular_soft_successor (bits_of ms n) n v = Some (k, nth k ms 0) /\
    ((v <= nth k ms 0 /\ forall m, In m ms -> v <= m -> nth k ms 0 <= m) \/
     ((forall m, In m ms -> m < v) /\ k = 0)).
  Proof.
    intros Hv. pose proof r_pos as Hr. unfold circular_soft_successor.
    rewrite bits_ones by auto. cbn [bind]. rewrite bits_rank by auto. cbn [bind]. fold r.
    rewrite umod_ok by auto. cbn [bind].
    set (q := count (fun m => m <? v) ms).
    assert (Hq : q <= r) by apply count_le_length.
    destruct (Nat.eq_dec q r) as [E|E].
    - exists 0. rewrite E, Nat.mod_same by lia.
      rewrite Nat.add_1_r, bits_select by (auto; fold r; lia). cbn [bind]. split; [lia|]. split; auto.
      right. split; auto. intros m Hm. destruct (In_nth _ _ 0 Hm) as (i & Hi & Ei). rewrite <- Ei.
      apply (count_lt_sorted ms Hs); auto. fold q. fold r in Hi. lia.
    - exists q. rewrite Nat.mod_small by lia.
      rewrite Nat.add_1_r, bits_select by (auto; fold r; lia). cbn [bind]. split; [lia|]. split; auto.
      left. split.
      + destruct (Nat.le_gt_cases v (nth q ms 0)); auto. exfalso.
        apply (count_lt_sorted ms Hs) in H; [|fold r; lia]. fold q in H. lia.
      + intros m Hm Hmv. destruct (In_nth _ _ 0 Hm) as (i & Hi & Ei). rewrite <- Ei in *.
        apply ssorted_nth_le; auto. destruct (Nat.le_gt_cases q i); auto. exfalso.
        assert (i < q) by auto. unfold q in H0. apply (count_lt_sorted ms Hs) in H0; auto. lia.
  Qed.
End Circ.

(** Positions of the set bits of any bit vector. *)
Definition ones (bv : list bool) : list nat := filter (fun i => nth i bv false) (seq 0 (length bv)).
Lemma ones_In bv i : In i (ones bv) <-> nth_error bv i = Some true.
Proof.
  unfold ones. rewrite filter_In, in_seq. split.
  - intros [H E]. rewrite (nth_error_nth_lt _ _ false) by lia. congruence.
  - intros H. pose proof (nth_error_Some_lt _ _ _ H). split; [lia|].
    rewrite (nth_error_nth_lt _ _ false) in H by lia. congruence.
Qed.
Lemma bits_of_ones bv : bits_of (ones bv) (length bv) = bv.
Proof.
  apply nth_ext with (d := false) (d' := false).
  - apply bits_length.
  - intros i Hi. unfold bits_of in *. rewrite map_length, seq_length in Hi. rewrite nth_map_seq by auto.
    destruct (memb (ones bv) i) eqn:E.
    + apply memb_In, ones_In in E. symmetry. apply nth_error_nth. auto.
    + destruct (nth i bv false) eqn:E2; auto.
      assert (In i (ones bv)) by (apply ones_In; rewrite (nth_error_nth_lt _ _ false), E2; auto).
      apply memb_In in H. congruence.
Qed.

Section PhiSub.
  Variables (T sa : list nat).
  Hypothesis HT : text_ok T.
  Hypothesis HSA : is_suffix_array T sa.
  Let n := len T.

  (** One application of phi from a mark whose gap to [v] holds no other mark. *)
  Lemma phi_backward_gen pred gs v k h b : v < n -> h < n ->
    pred v = Some (k, tpos T sa h) -> (tpos T sa h < v \/ tpos T sa h = n - 1) ->
    (forall x, x < v -> (tpos T sa h < x \/ v <= tpos T sa h) -> ~ is_hmark T sa x) ->
    (forall delta, gs k delta = Some (tpos T sa (cpred n h), b delta)) ->
    exists bb, phi_backward pred gs n v = Some (PHI T sa v, bb) /\
      bb = b (if tpos T sa h <? v then v - tpos T sa h else v + 1).
  Proof.
    intros Hv Hh Hp Hm Hgap Hgs. unfold phi_backward, phi_fn. rewrite Hp. cbn [bind].
    set (m := tpos T sa h) in *. set (delta := if m <? v then v - m else v + 1).
    rewrite Hgs. cbn [bind]. rewrite umod_ok by lia. cbn [bind]. eexists. split; [|reflexivity].
    do 2 f_equal. symmetry. pose proof (n_pos T HT) as Hn. fold n in Hn.
    apply (PHI_from_mark T sa HT HSA); auto; fold m; fold n.
    - unfold delta. destruct (Nat.ltb_spec m v); lia.
    - unfold delta. destruct (Nat.ltb_spec m v).
      + replace (m + (v - m)) with v by lia. apply Nat.mod_small; auto.
      + destruct Hm as [Hm|Hm]; [lia|]. rewrite mod_sub_once; lia.
    - intros j Hj. unfold delta in Hj. destruct (Nat.ltb_spec m v) as [Hmv|Hmv].
      + rewrite Nat.mod_small by lia. apply Hgap; lia.
      + destruct Hm as [Hm|Hm]; [lia|]. rewrite mod_sub_once by lia. apply Hgap; lia.
  Qed.

  (** All marks present. *)
  Lemma phi_full ms gs v :
    ssorted ms -> (forall m, In m ms <-> is_hmark T sa m) ->
    (forall k h, k < length ms -> h < n -> tpos T sa h = nth k ms 0 ->
       forall delta, exists b, gs k delta = Some (tpos T sa (cpred n h), b)) ->
    v < n -> exists b, phi_backward (circular_predecessor (bits_of ms n) n) gs n v = Some (PHI T sa v, b).
  Proof.
    intros Hs Hms Hgs Hv.
    assert (Hlt : forall m, In m ms -> m < n) by (intros m Hm; apply Hms in Hm; eapply is_hmark_lt; eauto).
    assert (Hlast : In (n - 1) ms) by (apply Hms, last_hmark; auto).
    assert (Hne : ms <> []) by (intros E; rewrite E in Hlast; destruct Hlast).
    destruct (circ_pred_ok ms n Hs Hlt Hne v ltac:(lia)) as (k & Hk & Hp & Hc).
    assert (Hin : In (nth k ms 0) ms) by (apply nth_In; auto).
    destruct (proj1 (Hms _) Hin) as (h & Hh & Hhead & Eh).
    assert (Hm : tpos T sa h < v \/ tpos T sa h = n - 1).
    { rewrite Eh. destruct Hc as [[H _]|[H ->]]; auto. right.
      destruct (In_nth _ _ 0 Hlast) as (i & Hi & Ei).
      pose proof (ssorted_nth_le ms i (length ms - 1) Hs ltac:(lia) ltac:(lia)).
      specialize (Hlt _ Hin). lia. }
    assert (G : exists b : nat -> bool, forall delta, delta = (if tpos T sa h <? v then v - tpos T sa h else v + 1) ->
       gs k delta = Some (tpos T sa (cpred n h), b delta)).
    { destruct (Hgs k h Hk Hh Eh (if tpos T sa h <? v then v - tpos T sa h else v + 1)) as [b Hb].
      exists (fun _ => b). intros delta ->. auto. }
    destruct G as [b Hb].
    unfold phi_backward, phi_fn. rewrite Hp. cbn [bind]. rewrite <- Eh. rewrite Hb by auto. cbn [bind].
    destruct (phi_backward_gen (circular_predecessor (bits_of ms n) n)
               (fun _ _ => Some (tpos T sa (cpred n h), true)) v k h (fun _ => true)) as (bb & E & _); auto.
    - rewrite Eh; auto.
    - intros x Hx Hgap Hmark. apply Hms in Hmark. rewrite Eh in Hgap.
      destruct Hc as [[H1 H2]|[H1 H2]].
      + specialize (H2 _ Hmark Hx). lia.
      + specialize (H1 _ Hmark). lia.
    - unfold phi_backward, phi_fn in E. rewrite Hp in E. cbn [bind] in E. rewrite <- Eh in E.
      match type of E with bind ?X _ = _ => destruct X as [y|] end; [|discriminate].
      cbn [bind] in *. injection E as E _. rewrite E. eauto.
  Qed.

  (** Iterating phi walks down the rows. *)
  Lemma phi_iter_ok phi : (forall v, v < n -> exists b, phi v = Some (PHI T sa v, b)) ->
    forall m i, m <= i -> i < n -> phi_iter phi m (SA sa i) = Some (map (SA sa) (rev (seq (i - m) m))).
  Proof.
    intros Hphi. induction m as [|m IH]; intros i Hm Hi; auto. cbn [phi_iter].
    destruct i as [|i]; [lia|].
    destruct (Hphi (SA sa (S i))) as [b Hb]; [apply (SA_lt T sa HSA); auto|]. rewrite Hb. cbn [bind].
    rewrite (PHI_SA T sa HSA) by auto. rewrite IH by lia. cbn [bind]. f_equal.
    replace (S i - S m) with (i - m) by lia. rewrite seq_S, rev_app_distr. cbn [rev app map].
    f_equal. f_equal. lia.
  Qed.
End PhiSub.

(** Rows of the run heads and tails by run number. *)
Section RunRows.
  Variables (T sa : list nat).
  Hypothesis HT : text_ok T.
  Hypothesis HSA : is_suffix_array T sa.
  Let n := len T.
  Let rows := hrows T sa.

  Lemma BW_runs : exists R, wf_runs R /\ expand R = BW T sa /\ 0 < length R.
  Proof.
    exists (rle (BW T sa)). split; [apply rle_wf|]. split; [apply expand_rle|].
    destruct (rle (BW T sa)) eqn:E; cbn; [|lia].
    pose proof (expand_rle (BW T sa)) as G. rewrite E in G. cbn in G.
    apply (f_equal (@length nat)) in G. rewrite (BW_length T sa HSA) in G. pose proof (n_pos T HT). cbn in G. lia.
  Qed.
  Lemma rows_length : length (trows T sa) = length rows.
  Proof.
    destruct BW_runs as (R & HW & E & _). unfold trows, rows, hrows. rewrite <- E.
    rewrite heads_of_expand, tails_of_expand by auto. rewrite !map_length. auto.
  Qed.
  Lemma rows_pos : 0 < length rows.
  Proof.
    destruct BW_runs as (R & HW & E & H). unfold rows, hrows. rewrite <- E.
    rewrite heads_of_expand by auto. rewrite map_length, seq_length. auto.
  Qed.
  Lemma rows_lt i : i < length rows -> nth i rows 0 < n.
  Proof. intros H. apply (hrows_in T sa HSA). apply nth_In; auto. Qed.
  Lemma trows_lt i : i < length rows -> nth i (trows T sa) 0 < n.
  Proof. intros H. apply (trows_in T sa HSA). apply nth_In. rewrite rows_length; auto. Qed.
  (** The tail before a head, circularly. *)
  Lemma prev_tail i : i < length rows ->
    nth ((i + length rows - 1) mod length rows) (trows T sa) 0 = cpred n (nth i rows 0).
  Proof.
    intros Hi. destruct BW_runs as (R & HW & E & H).
    assert (Er : rows = map (rstart R) (seq 0 (length R))) by (unfold rows, hrows; rewrite <- E, heads_of_expand; auto).
    assert (Et : trows T sa = map (fun k => rstart R (S k) - 1) (seq 0 (length R)))
      by (unfold trows; rewrite <- E, tails_of_expand; auto).
    rewrite Er in *. rewrite Et. rewrite map_length, seq_length in *.
    rewrite !nth_map_seq by (auto; apply Nat.mod_upper_bound; lia).
    assert (Ln : rstart R (length R) = n) by (rewrite rstart_all, E; apply (BW_length T sa HSA)).
    destruct i as [|i].
    - rewrite Nat.add_0_l, Nat.mod_small by lia. replace (S (length R - 1)) with (length R) by lia.
      rewrite Ln. unfold rstart. rewrite psum_0. unfold cpred. rewrite Nat.add_0_l, Nat.mod_small; auto.
      pose proof (n_pos T HT). fold n in H0. lia.
    - rewrite mod_sub_once by lia. replace (S i + length R - 1 - length R) with i by lia.
      assert (0 < rstart R (S i)).
      { pose proof (rstart_lt R HW i ltac:(lia)). lia. }
      assert (rstart R (S i) < n).
      { rewrite <- Ln. apply rstart_strict; auto. }
      unfold cpred. rewrite mod_sub_once; lia.
  Qed.
  (** The head after a tail, circularly. *)
  Lemma next_head i : i < length rows ->
    nth ((i + 1) mod length rows) rows 0 = csucc T (nth i (trows T sa) 0).
  Proof.
    intros Hi. pose proof (trows_lt i Hi) as Ht.
    rewrite <- (csucc_cpred T HT (nth ((i + 1) mod length rows) rows 0)).
    - f_equal. fold n. rewrite <- prev_tail by (apply Nat.mod_upper_bound; lia). f_equal.
      destruct (Nat.eq_dec (i + 1) (length rows)) as [E|E].
      + rewrite E, Nat.mod_same by lia. rewrite Nat.mod_small by lia. lia.
      + rewrite (Nat.mod_small (i + 1)) by lia. rewrite mod_sub_once by lia. lia.
    - apply rows_lt. apply Nat.mod_upper_bound. lia.
  Qed.
  Lemma rows_ssorted : ssorted rows.
  Proof. unfold rows. rewrite (hrows_filter T sa HSA). apply ssorted_filter_seq. Qed.
  Lemma trows_ssorted : ssorted (trows T sa).
  Proof. rewrite (trows_filter T sa HSA). apply ssorted_filter_seq. Qed.

  (** Text positions of heads. *)
  Definition hmarks : list nat := map (tpos T sa) (hrows T sa).
  Definition tmarks : list nat := map (tpos T sa) (trows T sa).
  Lemma hmarks_in m : In m hmarks <-> is_hmark T sa m.
  Proof.
    unfold hmarks, is_hmark. rewrite in_map_iff. setoid_rewrite (hrows_in T sa HSA). firstorder.
  Qed.
  Lemma tmarks_in m : In m tmarks <-> is_tmark T sa m.
  Proof.
    unfold tmarks, is_tmark. rewrite in_map_iff. setoid_rewrite (trows_in T sa HSA). firstorder.
  Qed.
  Lemma NoDup_map_inj {A} (f : nat -> A) l : NoDup l -> (forall x y, In x l -> In y l -> f x = f y -> x = y) ->
    NoDup (map f l).
  Proof.
    induction 1 as [|a l Ha Hl IH]; intros Hf; cbn; constructor.
    - rewrite in_map_iff. intros (y & E & Hy). apply Hf in E; [subst; auto|right; auto|left; auto].
    - apply IH. intros x y Hx Hy. apply Hf; right; auto.
  Qed.
  Lemma hmarks_NoDup : NoDup hmarks.
  Proof.
    apply NoDup_map_inj; [apply ssorted_NoDup, rows_ssorted|].
    intros x y Hx Hy. apply (hrows_in T sa HSA) in Hx, Hy. apply (tpos_inj T sa HT HSA); apply Hx || apply Hy.
  Qed.
  Lemma tmarks_NoDup : NoDup tmarks.
  Proof.
    apply NoDup_map_inj; [apply ssorted_NoDup, trows_ssorted|].
    intros x y Hx Hy. apply (trows_in T sa HSA) in Hx, Hy. apply (tpos_inj T sa HT HSA); apply Hx || apply Hy.
  Qed.
  Lemma hmarks_length : length hmarks = length rows.
  Proof. apply map_length. Qed.
  Lemma tmarks_length : length tmarks = length rows.
  Proof. unfold tmarks. rewrite map_length. apply rows_length. Qed.
  Lemma nth_hmarks i : i < length rows -> nth i hmarks 0 = tpos T sa (nth i rows 0).
  Proof. intros H. unfold hmarks. rewrite (nth_map_lt _ _ _ 0); auto. Qed.
  Lemma nth_tmarks i : i < length rows -> nth i tmarks 0 = tpos T sa (nth i (trows T sa) 0).
  Proof. intros H. unfold tmarks. rewrite (nth_map_lt _ _ _ 0); auto. rewrite rows_length; auto. Qed.
  Lemma nth_error_tmarks i : i < length rows -> nth_error tmarks i = Some (tpos T sa (nth i (trows T sa) 0)).
  Proof. intros H. rewrite (nth_error_nth_lt _ _ 0) by (rewrite tmarks_length; auto). rewrite nth_tmarks; auto. Qed.
  Lemma nth_error_hmarks i : i < length rows -> nth_error hmarks i = Some (tpos T sa (nth i rows 0)).
  Proof. intros H. rewrite (nth_error_nth_lt _ _ 0) by (rewrite hmarks_length; auto). rewrite nth_hmarks; auto. Qed.

  (** Backward links. *)
  Definition blinks : list nat :=
    map (fun idx => (idx + length rows - 1) mod length rows) (sort_indices hmarks).
  Lemma construct_links_backward_ok :
    construct_links_backward hmarks = Some (sort_indices hmarks, blinks).
  Proof.
    unfold construct_links_backward, construct_links.
    rewrite (mmap_map _ (fun idx => (idx + length rows - 1) mod length rows)).
    - reflexivity.
    - intros x _. rewrite hmarks_length. apply umod_ok, rows_pos.
  Qed.
  Lemma blinks_ok k h : k < length rows -> h < n -> tpos T sa h = nth k (sorted_values hmarks) 0 ->
    exists l, nth_error blinks k = Some l /\ l < length rows /\ nth_error tmarks l = Some (tpos T sa (cpred n h)) /\
      nth l (trows T sa) 0 = cpred n h.
  Proof.
    intros Hk Hh E. set (idx := nth k (sort_indices hmarks) 0).
    assert (Hidx : idx < length rows).
    { rewrite <- hmarks_length. apply sort_indices_lt. apply nth_In. rewrite sort_indices_length, hmarks_length. auto. }
    assert (Eh : h = nth idx rows 0).
    { rewrite sorted_values_nth in E by (rewrite hmarks_length; auto). fold idx in E. rewrite nth_hmarks in E by auto.
      apply (tpos_inj T sa HT HSA) in E; auto. apply rows_lt; auto. }
    exists ((idx + length rows - 1) mod length rows).
    assert (Hl : (idx + length rows - 1) mod length rows < length rows) by (apply Nat.mod_upper_bound; lia).
    split; [|split; [auto|]].
    - unfold blinks. rewrite nth_error_map, (nth_error_nth_lt _ _ 0) by (rewrite sort_indices_length, hmarks_length; auto).
      reflexivity.
    - rewrite nth_error_tmarks by auto. rewrite prev_tail by auto. rewrite <- Eh. auto.
  Qed.

  (** Phi of the full r-index data is the exact phi. *)
  Theorem phi_full_ok v : v < n ->
    exists b, ri_phi n (bits_of hmarks n) tmarks (links_default blinks true) sample_validator_default v
              = Some (PHI T sa v, b).
  Proof.
    intros Hv. unfold ri_phi.
    rewrite (bits_of_ext hmarks (sorted_values hmarks)) by (intros; symmetry; apply sorted_values_in).
    apply phi_full; auto.
    - apply sorted_values_sorted, hmarks_NoDup.
    - intros m. rewrite sorted_values_in. apply hmarks_in.
    - intros k h Hk Hh E delta. rewrite sorted_values_length, hmarks_length in Hk.
      destruct (blinks_ok k h Hk Hh E) as (l & E1 & E2 & E3 & _).
      exists true. unfold get_sample_for_phi, links_default, sample_validator_default.
      rewrite E1. cbn [bind]. rewrite E3. reflexivity.
  Qed.
End RunRows.
