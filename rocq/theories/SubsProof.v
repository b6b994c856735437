(** The subsampled samples and marks of SrIndex and phi over them. *)
From Coq Require Import List Arith Bool Lia ZifyBool ZifyNat Permutation.
From Verif Require Import Spec MBase Lists FM MRle Runs RleProof MConstruct MPhi MRIndex MSrIndex Util Phi
  ConstructProof Nav PhiProof SamplingProof BackRange.
Import ListNotations.

Section Subs.
  Variables (T sa : list nat).
  Hypothesis HT : text_ok T.
  Hypothesis HSA : is_suffix_array T sa.
  Let n := len T.
  Let r := length (hrows T sa).
  Notation trow k := (nth k (trows T sa) 0).
  Notation tp := (tpos T sa).

  Record subs_facts (s : nat) (ks : list nat) : Prop := {
    sf_sorted : ssorted ks;
    sf_lt : forall k, In k ks -> k < r;
    sf_last : exists k, In k ks /\ trow k = cpred n (ISA sa 0);
    sf_first : forall h, h < n -> headr T sa h = true ->
      (forall h', h' < n -> headr T sa h' = true -> tp h <= tp h') ->
      exists k, In k ks /\ trow k = cpred n h;
    sf_cover : forall k, k < r -> ~ In k ks ->
      exists j q, In j ks /\ q < r /\ tp (trow j) < tp (trow k) /\ tp (trow k) < tp (trow q) /\
        (forall x, x < r -> tp (trow k) < tp (trow x) -> tp (trow q) <= tp (trow x)) /\
        tp (trow q) - tp (trow j) <= s;
    sf_size : length ks <= 2 * ((n - 1) / S s) + 4
  }.

  Lemma trow_tail k : k < r -> trow k < n /\ tailr T sa (trow k) = true.
  Proof.
    intros H. apply (trows_in T sa HSA). apply nth_In. rewrite (rows_length T sa HT HSA). auto.
  Qed.
  Lemma trow_inj i j : i < r -> j < r -> trow i = trow j -> i = j.
  Proof.
    intros Hi Hj E. pose proof (trows_ssorted T sa HSA) as HS.
    pose proof (rows_length T sa HT HSA) as HL. fold r in HL.
    destruct (Nat.lt_trichotomy i j) as [G|[G|G]]; auto; exfalso.
    - pose proof (ssorted_nth _ HS i j G ltac:(lia)). lia.
    - pose proof (ssorted_nth _ HS j i G ltac:(lia)). lia.
  Qed.
  Lemma trow_ex t : t < n -> tailr T sa t = true -> exists k, k < r /\ trow k = t.
  Proof.
    intros Ht Hd. assert (In t (trows T sa)) by (apply (trows_in T sa HSA); auto).
    destruct (In_nth _ _ 0 H) as (k & Hk & E). exists k. rewrite (rows_length T sa HT HSA) in Hk. auto.
  Qed.
  Lemma blinks_length : length (blinks T sa) = r.
  Proof. unfold blinks. rewrite map_length, sort_indices_length, hmarks_length. auto. Qed.

  Lemma std_sort_nat vec : NoDup vec -> ssorted (std_sort Nat.ltb vec) /\ Permutation (std_sort Nat.ltb vec) vec.
  Proof.
    intros N. split; [|apply (std_sort_perm (fun x => x))].
    pose proof (std_sort_sorted (fun x => x) vec) as G. rewrite map_id in G.
    apply ksorted_map in G; auto. rewrite map_id in G. exact G.
  Qed.

  Theorem construct_subsamples_ok s : exists ks,
    construct_subsamples s (tmarks T sa) (blinks T sa) = Some (ks, map (fun k => tp (trow k)) ks) /\ subs_facts s ks.
  Proof.
    pose proof (rows_pos T sa HT HSA) as Hr. fold r in Hr. pose proof (n_pos T HT) as Hn. fold n in Hn.
    unfold construct_subsamples. rewrite blinks_length.
    set (sv := sorted_values (hmarks T sa)).
    assert (Hsv : ssorted sv) by apply (sorted_values_sorted _ (hmarks_NoDup T sa HT HSA)).
    assert (Lsv : length sv = r) by (unfold sv; rewrite sorted_values_length, hmarks_length; auto).
    assert (Hhd : forall k, k < r -> exists h, h < n /\ headr T sa h = true /\ tp h = nth k sv 0).
    { intros k Hk. apply (hmarks_in T sa HT HSA). apply sorted_values_in. apply nth_In. fold sv. lia. }
    destruct (Hhd 0 ltac:(lia)) as (h0 & Hh0 & Hd0 & E0).
    destruct (Hhd (r - 1) ltac:(lia)) as (h1 & Hh1 & Hd1 & E1).
    destruct (blinks_ok T sa HT HSA 0 h0) as (l0 & B0 & Hl0 & _ & T0); auto.
    destruct (blinks_ok T sa HT HSA (r - 1) h1) as (l1 & B1 & Hl1 & _ & T1); auto; [fold r; lia|].
    rewrite B0, B1. cbn [bind]. fold n in T0, T1. fold r in Hl0, Hl1.
    (* the last mark *)
    assert (Eh1 : h1 = ISA sa 0).
    { apply (tpos_inj T sa HT HSA); auto; [apply (ISA_lt T sa HSA); auto|].
      rewrite (tpos_ISA_0 T sa HT HSA). fold n.
      pose proof (tpos_lt T sa HT h1) as G1. fold n in G1.
      assert (G2 : In (n - 1) sv) by (apply sorted_values_in, (hmarks_in T sa HT HSA), (last_hmark T sa HT HSA)).
      destruct (In_nth _ _ 0 G2) as (i & Hi & Ei). rewrite Lsv in Hi.
      pose proof (ssorted_nth_le sv i (r - 1) Hsv ltac:(lia) ltac:(lia)). lia. }
    set (idxs := sort_indices (tmarks T sa)).
    assert (Hidx : forall i, In i idxs <-> i < r).
    { intros i. unfold idxs. rewrite sort_indices_lt, (tmarks_length T sa HT HSA). reflexivity. }
    assert (Hperm : Permutation idxs (seq 0 r)).
    { unfold idxs, r. rewrite <- (tmarks_length T sa HT HSA). apply sort_indices_perm. }
    assert (Hnd : NoDup idxs).
    { eapply Permutation_NoDup; [symmetry; eauto|]. apply seq_NoDup. }
    assert (Hss : ssorted (map (fun i => nth i (tmarks T sa) 0) idxs)).
    { apply (sorted_values_sorted _ (tmarks_NoDup T sa HT HSA)). }
    destruct (sampling_total s idxs (tmarks T sa) [l0; l1]) as [vec Ev].
    { intros i Hi. rewrite (tmarks_length T sa HT HSA). apply Hidx; auto. }
    rewrite Ev. cbn [bind].
    pose proof (sampling_NoDup _ _ _ _ _ Ev Hnd) as Nv.
    destruct (std_sort_nat vec Nv) as [Sk Pk]. set (ks := std_sort Nat.ltb vec) in *.
    assert (Hin : forall k, In k ks <-> In k vec) by (intros; split; apply Permutation_in; auto; symmetry; auto).
    assert (Hklt : forall k, In k ks -> k < r).
    { intros k Hk. apply Hidx. apply (sampling_incl _ _ _ _ _ Ev). apply Hin; auto. }
    rewrite (mmap_map _ (fun k => tp (trow k))).
    2:{ intros k Hk. apply (nth_error_tmarks T sa HT HSA). apply Hklt; auto. }
    cbn [bind]. exists ks. split; auto.
    assert (Hval : forall i, i < r -> nth i (tmarks T sa) 0 = tp (trow i)) by (intros; apply (nth_tmarks T sa HT HSA); auto).
    split; auto.
    - exists l1. split; [|rewrite T1, Eh1; auto].
      apply Hin. apply (sampling_req _ _ _ _ _ Ev); [apply Hidx; auto|right; left; auto].
    - intros h Hh Hd Hmin. exists l0.
      assert (h = h0).
      { apply (tpos_inj T sa HT HSA); auto. specialize (Hmin h0 Hh0 Hd0).
        assert (G2 : In (tp h) sv) by (apply sorted_values_in, (hmarks_in T sa HT HSA); exists h; auto).
        destruct (In_nth _ _ 0 G2) as (i & Hi & Ei).
        pose proof (ssorted_nth_le sv 0 i Hsv ltac:(lia) ltac:(lia)). lia. }
      subst h. split; auto.
      apply Hin. apply (sampling_req _ _ _ _ _ Ev); [apply Hidx; auto|left; auto].
    - intros k Hk Hnk.
      assert (Hkin : In k idxs) by (apply Hidx; auto).
      apply in_split in Hkin. destruct Hkin as (la & lb & El).
      destruct lb as [|q lb].
      { exfalso. apply Hnk, Hin.
        assert (G : last idxs 0 = k) by (rewrite El; apply last_last).
        rewrite <- G. apply (sampling_last _ _ _ _ _ Ev). rewrite El. destruct la; discriminate. }
      assert (Hq : q < r) by (apply Hidx; rewrite El; apply in_app_iff; right; right; left; auto).
      destruct (sampling_cover _ _ _ _ _ Ev la k q lb Hnd El) as (j & Hj1 & Hj2 & Hj3).
      { rewrite <- Hin; auto. }
      assert (Hj : j < r) by (apply Hidx; rewrite El; apply in_app_iff; left; auto).
      rewrite El in Hss. rewrite map_app in Hss. cbn [map] in Hss.
      assert (HSP : forall l1 l2 x y, ssorted (l1 ++ l2) -> In x l1 -> In y l2 -> x < y).
      { clear. induction l1 as [|a l1 IH]; intros l2 x y H Hx Hy; [destruct Hx|].
        cbn [app] in H. inversion H as [|? ? H1 H2]; subst. destruct Hx as [->|Hx]; [|eapply IH; eauto].
        rewrite Forall_forall in H2. apply H2. apply in_app_iff; auto. }
      assert (HS2 : forall l1 l2 : list nat, ssorted (l1 ++ l2) -> ssorted l2).
      { clear. induction l1 as [|a l1 IH]; intros l2 H; auto. inversion H; subst; auto. }
      assert (F1 : tp (trow j) < tp (trow k)).
      { rewrite <- !Hval by auto. eapply (HSP _ _ _ _ Hss); [apply in_map_iff; exists j; auto|left; auto]. }
      apply HS2 in Hss as Hss2. inversion Hss2 as [|? ? Hss3 Hf]; subst. inversion Hf as [|? ? F2 Hf']; subst.
      inversion Hss3 as [|? ? _ Hf3]; subst.
      rewrite !Hval in F2 by auto.
      exists j, q. split; [apply Hin; auto|]. split; auto. split; auto. split; auto. split.
      + intros x Hx Hkx. 
        assert (Hxi : In x (la ++ k :: q :: lb)) by (rewrite <- El; apply Hidx; auto).
        apply in_app_iff in Hxi. destruct Hxi as [Hxi|[<-|[<-|Hxi]]]; [exfalso| lia|lia|].
        * assert (tp (trow x) < tp (trow k)); [|lia].
          rewrite <- !Hval by auto. eapply (HSP _ _ _ _ Hss); [apply in_map_iff; exists x; auto|left; auto].
        * apply Nat.lt_le_incl. rewrite <- !Hval by auto. rewrite Forall_forall in Hf3.
          apply Hf3. apply in_map_iff. exists x; auto.
      + unfold absdiff in Hj3. rewrite !Hval in Hj3 by auto. destruct (Nat.ltb_spec (tp (trow q)) (tp (trow j))); lia.
    - rewrite (Permutation_length Pk).
      pose proof (sampling_size _ _ _ _ _ Ev 0 (n - 1) Hss Hnd) as G. rewrite Nat.sub_0_r in G.
      cbn [length] in G.
      assert (G0 : forall i, In i idxs -> 0 <= nth i (tmarks T sa) 0 <= n - 1).
      { intros i Hi. rewrite Hval by (apply Hidx; auto). pose proof (tpos_lt T sa HT (trow i)) as G1. fold n in G1. cbv beta in *. lia. }
      specialize (G G0). fold (dv s (n - 1)) in *. lia.
  Qed.

  Section Kept.
    Variables (s : nat) (ks : list nat).
    Hypothesis HF : subs_facts s ks.
    Definition keptb (i : nat) : bool := memb (map (fun k => trow k) ks) i.
    Lemma keptb_spec i : keptb i = true <-> exists k, In k ks /\ trow k = i.
    Proof. unfold keptb. rewrite memb_In, in_map_iff. firstorder. Qed.
    Lemma keptb_tail i : keptb i = true -> i < n /\ tailr T sa i = true.
    Proof. intros H. apply keptb_spec in H. destruct H as (k & Hk & <-). apply trow_tail, (sf_lt _ _ HF); auto. Qed.
    Lemma keptb_k k : k < r -> keptb (trow k) = memb ks k.
    Proof.
      intros Hk. destruct (memb ks k) eqn:E.
      - apply memb_In in E. apply keptb_spec. eauto.
      - destruct (keptb (trow k)) eqn:E2; auto. apply keptb_spec in E2. destruct E2 as (j & Hj & Ej).
        apply trow_inj in Ej; auto; [|apply (sf_lt _ _ HF); auto]. subst j. apply memb_In in Hj. congruence.
    Qed.

    (** Some step before the sampling rate meets a kept row, from any run tail. *)
    Lemma kept_reach t : t < n -> tailr T sa t = true -> exists l, l <= s /\ keptb (lfi T sa l t) = true.
    Proof.
      intros Ht Hd. destruct (trow_ex t Ht Hd) as (k & Hk & <-).
      destruct (memb ks k) eqn:E.
      - exists 0. split; [lia|]. cbn. apply keptb_spec. exists k. apply memb_In in E. auto.
      - assert (Hnk : ~ In k ks) by (intros G; apply memb_In in G; congruence).
        destruct (sf_cover _ _ HF k Hk Hnk) as (j & q & Hj & Hq & H1 & H2 & _ & H3).
        exists (tp (trow k) - tp (trow j)). split; [lia|]. apply keptb_spec. exists j. split; auto.
        assert (Hjr : j < r) by (apply (sf_lt _ _ HF); auto).
        apply (tpos_inj T sa HT HSA); [apply trow_tail; auto|apply (lfi_lt T sa HT HSA); auto|].
        set (l := tp (trow k) - tp (trow j)). rewrite (tpos_LFr T sa HT HSA (lfi T sa l (trow k))).
        change (LFr T sa (lfi T sa l (trow k))) with (lfi T sa (S l) (trow k)).
        assert (E2 : lfi T sa (S l) (trow k) = lfi T sa l (LFr T sa (trow k))).
        { apply lfi_S. }
        rewrite E2, (lfi_SA_sub T sa HT HSA).
        + rewrite <- (tpos_LFr T sa HT HSA). unfold l. lia.
        + apply (LFr_lt T sa HT HSA).
        + rewrite <- (tpos_LFr T sa HT HSA). unfold l. lia.
    Qed.

    (** Submarks, subsamples, links. *)
    Let smarks : list nat := map (fun k => tp (csucc T (trow k))) ks.
    Let ssamples : list nat := map (fun k => tp (trow k)) ks.

    Lemma construct_submarks_ok :
      construct_submarks ks (hmarks T sa) r = Some (smarks, sort_indices smarks).
    Proof.
      pose proof (rows_pos T sa HT HSA) as Hr. fold r in Hr.
      unfold construct_submarks. rewrite (mmap_map _ (fun k => (k + 1) mod r)).
      2:{ intros k _. apply umod_ok; auto. }
      cbn [bind].
      rewrite (mmap_map _ (fun j => tp (nth j (hrows T sa) 0))).
      2:{ intros j Hj. apply in_map_iff in Hj. destruct Hj as (k & <- & Hk).
          apply (nth_error_hmarks T sa). apply Nat.mod_upper_bound. fold r. lia. }
      cbn [bind]. rewrite map_map. f_equal. f_equal.
      - apply map_ext_in. intros k Hk. f_equal. apply (next_head T sa HT HSA). apply (sf_lt _ _ HF); auto.
      - f_equal. apply map_ext_in. intros k Hk. f_equal. apply (next_head T sa HT HSA). apply (sf_lt _ _ HF); auto.
    Qed.
    Lemma smarks_in m : In m smarks <-> exists h, h < n /\ keptb (cpred n h) = true /\ tp h = m.
    Proof.
      unfold smarks. rewrite in_map_iff. split.
      - intros (k & <- & Hk). exists (csucc T (trow k)). split; [apply (csucc_lt T HT)|]. split; auto.
        rewrite (cpred_csucc T HT) by (apply trow_tail, (sf_lt _ _ HF); auto). apply keptb_spec. eauto.
      - intros (h & Hh & Hk & <-). apply keptb_spec in Hk. destruct Hk as (k & Hk & E). exists k. split; auto.
        rewrite E. f_equal. apply (csucc_cpred T HT); auto.
    Qed.
    Lemma smarks_hmark m : In m smarks -> is_hmark T sa m.
    Proof.
      intros H. apply smarks_in in H. destruct H as (h & Hh & Hk & <-). exists h. split; auto. split; auto.
      apply keptb_tail in Hk. destruct Hk as [Hc Ht].
      destruct h as [|h]; [apply (headr_0 T sa)|]. rewrite (cpred_S T) in * by auto.
      rewrite (headr_S T sa HSA) by auto. auto.
    Qed.
    Lemma smarks_NoDup : NoDup smarks.
    Proof.
      apply NoDup_map_inj; [apply ssorted_NoDup, (sf_sorted _ _ HF)|].
      intros x y Hx Hy E. apply (sf_lt _ _ HF) in Hx, Hy.
      apply (tpos_inj T sa HT HSA) in E; try apply (csucc_lt T HT).
      apply (f_equal (cpred n)) in E. unfold n in E. rewrite !(cpred_csucc T HT) in E by (apply trow_tail; auto).
      apply trow_inj; auto.
    Qed.
    Lemma smarks_lt m : In m smarks -> m < n.
    Proof. intros H. apply smarks_hmark in H. eapply is_hmark_lt; eauto. Qed.
    Lemma smarks_length : length smarks = length ks.
    Proof. apply map_length. Qed.
    Lemma smarks_last : In (n - 1) smarks.
    Proof.
      apply smarks_in. exists (ISA sa 0). pose proof (n_pos T HT). split; [apply (ISA_lt T sa HSA); auto|]. split.
      - apply keptb_spec. destruct (sf_last _ _ HF) as (k & Hk & E). eauto.
      - apply (tpos_ISA_0 T sa HT HSA).
    Qed.
    Let sm : list nat := sorted_values smarks.

    (** Predecessor and sample of any value. *)
    Lemma sub_pred v : v < n -> exists k0 h i,
      circular_predecessor (bits_of smarks n) n v = Some (k0, tp h) /\ k0 < length ks /\ nth k0 sm 0 = tp h /\
      h < n /\ keptb (cpred n h) = true /\
      nth_error (sort_indices smarks) k0 = Some i /\ nth_error ssamples i = Some (tp (cpred n h)) /\
      ((tp h < v /\ forall m, In m smarks -> m < v -> m <= tp h) \/
       (tp h = n - 1 /\ k0 = length ks - 1 /\ forall m, In m smarks -> v <= m)).
    Proof.
      intros Hv. pose proof (n_pos T HT) as Hn. fold n in Hn.
      rewrite (bits_of_ext smarks sm) by (intros; symmetry; apply sorted_values_in).
      assert (Hs : ssorted sm) by apply (sorted_values_sorted _ smarks_NoDup).
      assert (Hin : forall m, In m sm <-> In m smarks) by (intros; apply sorted_values_in).
      assert (Hlt : forall m, In m sm -> m < n) by (intros m Hm; apply smarks_lt, Hin; auto).
      assert (Hne : sm <> []) by (intros E; pose proof smarks_last as G; apply Hin in G; rewrite E in G; destruct G).
      assert (Hlen : length sm = length ks) by (unfold sm; rewrite sorted_values_length; apply smarks_length).
      destruct (circ_pred_ok sm n Hs Hlt Hne v ltac:(lia)) as (k0 & Hk0 & Hp & Hc).
      rewrite Hp, Hlen in *.
      set (i := nth k0 (sort_indices smarks) 0).
      assert (Li : length (sort_indices smarks) = length ks) by (rewrite sort_indices_length; apply smarks_length).
      assert (Hi : i < length ks).
      { rewrite <- smarks_length. apply sort_indices_lt. apply nth_In. lia. }
      set (k := nth i ks 0). assert (Hk : In k ks) by (apply nth_In; auto).
      assert (Hkr : k < r) by (apply (sf_lt _ _ HF); auto).
      set (h := csucc T (trow k)).
      assert (Em : nth k0 sm 0 = tp h).
      { unfold sm. rewrite sorted_values_nth by (rewrite smarks_length; auto). fold i.
        unfold smarks. rewrite (nth_map_lt _ _ _ 0); auto. }
      assert (Ec : cpred n h = trow k) by (apply (cpred_csucc T HT); apply trow_tail; auto).
      exists k0, h, i. rewrite Em in *. split; auto. split; auto. split; auto. split; [apply (csucc_lt T HT)|].
      rewrite Ec. split; [apply keptb_spec; eauto|]. split; [apply nth_error_nth_lt; lia|]. split.
      { unfold ssamples. rewrite nth_error_map, (nth_error_nth_lt _ _ 0) by auto. auto. }
      destruct Hc as [[H1 H2]|[H1 H2]].
      - left. split; auto. intros m Hm. apply H2, Hin; auto.
      - right. assert (Hmax : tp h = n - 1).
        { pose proof smarks_last as G. apply Hin in G. destruct (In_nth _ _ 0 G) as (x & Hx & Ex).
          pose proof (ssorted_nth_le sm x k0 Hs ltac:(lia) ltac:(lia)) as G2. rewrite Em, Ex in G2.
          pose proof (tpos_lt T sa HT h) as G3. fold n in G3. lia. }
        split; auto. split; auto. intros m Hm. apply H1, Hin; auto.
    Qed.

    Variable validator : nat -> nat -> bool -> option bool.
    Variable getl : nat -> option (nat * bool).
    Variable vb : nat -> bool.
    Hypothesis Hgetl : forall k i, nth_error (sort_indices smarks) k = Some i -> getl k = Some (i, vb k).
    Let phi := ri_phi n (bits_of smarks n) ssamples getl validator.

    Definition gap_free (h v : nat) : Prop :=
      forall x, x < v -> (tp h < x \/ v <= tp h) -> ~ is_hmark T sa x.

    (** The value of phi from submarks is right when no mark is skipped. *)
    Lemma phi_sub_value v k0 h i b : v < n -> h < n ->
      circular_predecessor (bits_of smarks n) n v = Some (k0, tp h) ->
      nth_error (sort_indices smarks) k0 = Some i -> nth_error ssamples i = Some (tp (cpred n h)) ->
      (tp h < v \/ tp h = n - 1) ->
      validator k0 (if tp h <? v then v - tp h else v + 1) (vb k0) = Some b ->
      exists w, phi v = Some (w, b) /\ (gap_free h v -> w = PHI T sa v).
    Proof.
      intros Hv Hh Hp Hl Hs Hc Hb. pose proof (n_pos T HT) as Hn. fold n in Hn.
      unfold phi, ri_phi, phi_backward, phi_fn. rewrite Hp. cbn [bind].
      unfold get_sample_for_phi at 1. rewrite (Hgetl _ _ Hl). cbn [bind]. rewrite Hs. cbn [bind]. rewrite Hb. cbn [bind].
      rewrite umod_ok by auto. cbn [bind]. eexists. split; [reflexivity|]. intros Hgap.
      destruct (phi_backward_gen T sa HT HSA (circular_predecessor (bits_of smarks n) n)
                 (fun _ _ => Some (tp (cpred n h), true)) v k0 h (fun _ => true)) as (bb & E & _); auto.
      unfold phi_backward, phi_fn in E. rewrite Hp in E. cbn [bind] in E. rewrite umod_ok in E by auto. cbn [bind] in E.
      injection E as E _. auto.
    Qed.

    (** Phi is right where no kept row is met before the sampling rate. *)
    Lemma sub_gap y k0 h i : S y < n -> (forall l, l < s -> keptb (lfi T sa l y) = false) ->
      circular_predecessor (bits_of smarks n) n (SA sa (S y)) = Some (k0, tp h) -> h < n ->
      nth_error (sort_indices smarks) k0 = Some i -> 
      ((tp h < SA sa (S y) /\ forall m, In m smarks -> m < SA sa (S y) -> m <= tp h) \/
       (tp h = n - 1 /\ k0 = length ks - 1 /\ forall m, In m smarks -> SA sa (S y) <= m)) ->
      gap_free h (SA sa (S y)).
    Proof.
      clear phi Hgetl vb getl validator. intros Hy Hk Hp Hh Hl Hc. set (v := SA sa (S y)) in *.
      pose proof (n_pos T HT) as Hn. fold n in Hn.
      assert (Hv : v < n) by (apply (SA_lt T sa HSA); auto).
      set (fm := sorted_values (hmarks T sa)).
      assert (Hs : ssorted fm) by apply (sorted_values_sorted _ (hmarks_NoDup T sa HT HSA)).
      assert (Hin : forall m, In m fm <-> is_hmark T sa m)
        by (intros; unfold fm; rewrite sorted_values_in; apply (hmarks_in T sa HT HSA)).
      assert (Hlt : forall m, In m fm -> m < n) by (intros m Hm; apply (is_hmark_lt T sa HT), Hin; auto).
      assert (Hlast : In (n - 1) fm) by (apply Hin, (last_hmark T sa HT HSA)).
      assert (Hne : fm <> []) by (intros E; rewrite E in Hlast; destruct Hlast).
      destruct (circ_pred_ok fm n Hs Hlt Hne v ltac:(lia)) as (kf & Hkf & _ & Hcf).
      assert (Hmf : is_hmark T sa (nth kf fm 0)) by (apply Hin, nth_In; auto).
      destruct Hmf as (g & Hg & Hgd & Eg). rewrite <- Eg in *.
      destruct Hcf as [[Hgv Hmax]|[Hall Ekf]].
      2:{ (* no mark before v *)
          intros x Hx _ Hm. apply Hin in Hm. specialize (Hall _ Hm). lia. }
      (* the full predecessor is the mark of g *)
      assert (Hgf : gap_free g v).
      { intros x Hx Hor Hm. apply Hin in Hm. specialize (Hmax _ Hm Hx). lia. }
      destruct (keptb (cpred n g)) eqn:Ek.
      - (* it is a submark *)
        assert (Hgs : In (tp g) smarks) by (apply smarks_in; exists g; auto).
        destruct Hc as [[H1 H2]|[H1 [_ H2]]].
        + specialize (H2 _ Hgs Hgv). intros x Hx Hor Hm.
          apply Hin in Hm. specialize (Hmax _ Hm Hx). lia.
        + specialize (H2 _ Hgs). lia.
      - (* otherwise a kept row is met *)
        exfalso. set (t := cpred n g) in *.
        assert (Ht : t < n) by (apply (cpred_lt T HT)).
        assert (Htd : tailr T sa t = true).
        { unfold t. destruct g as [|g']; [unfold n; rewrite (cpred_0 T HT); apply (tailr_last T sa HSA)|].
          unfold n. rewrite (cpred_S T) by auto. rewrite <- (headr_S T sa HSA) by auto. auto. }
        destruct (trow_ex t Ht Htd) as (k & Hkr & Etk).
        assert (Hnk : ~ In k ks).
        { intros G. apply memb_In in G. rewrite <- (keptb_k k Hkr), Etk in G. congruence. }
        destruct (sf_cover _ _ HF k Hkr Hnk) as (j & q & Hj & Hq & H1 & H2 & H3 & H4).
        assert (Hjr : j < r) by (apply (sf_lt _ _ HF); auto).
        rewrite Etk in *.
        set (d := v - tp g).
        assert (Htr : forall e, 0 < e -> e <= d -> PHI T sa (tp g + e) = (tp t + e) mod n).
        { intros e He Hed. apply (PHI_from_mark T sa HT HSA g e (tp g + e)); auto.
          - fold n. unfold d in *. lia.
          - apply Nat.mod_small. fold n. unfold d in *. lia.
          - intros x Hx. rewrite Nat.mod_small by (fold n; unfold d in *; lia). apply Hgf; unfold d in *; lia. }
        pose proof (trow_tail q Hq) as [Hqn Hqt].
        pose proof (tpos_lt T sa HT (trow q)) as Hqlt. fold n in Hqlt.
        (* no tail mark in between *)
        assert (Hd : d <= tp (trow q) - tp t).
        { destruct (Nat.le_gt_cases d (tp (trow q) - tp t)) as [|Hgt]; auto. exfalso.
          set (e := tp (trow q) - tp t) in *.
          assert (He : 0 < e) by (unfold e; lia).
          set (x := tp g + e).
          assert (Hx : x < n) by (unfold x, d in *; lia).
          assert (Hxm : ~ is_hmark T sa x) by (apply Hgf; unfold x, d in *; lia).
          rewrite (is_hmark_head T sa HT HSA) in Hxm by auto.
          set (i0 := ISA sa (csucc T x)) in *.
          assert (Hi0 : i0 < n) by (apply (ISA_lt T sa HSA), (csucc_lt T HT)).
          destruct (headr T sa i0) eqn:Eh0; [congruence|].
          pose proof (PHI_step T sa HT HSA x Hx Eh0) as Est.
          apply (headr_false T sa) in Eh0 as Ehf; auto. destruct Ehf as [Hi1 _].
          assert (Ei : i0 = S (i0 - 1)) by lia.
          assert (Htl : tailr T sa (i0 - 1) = false).
          { rewrite <- (headr_S T sa HSA) by (fold n; lia). rewrite <- Ei. auto. }
          assert (Etp : tp (i0 - 1) = tp (trow q)).
          { unfold tpos. rewrite <- (PHI_SA T sa HSA (i0 - 1)) by (fold n; lia). rewrite <- Ei.
            unfold i0. rewrite (SA_ISA T sa HSA) by apply (csucc_lt T HT).
            rewrite Est, (cpred_csucc T HT) by apply (PHI_lt T sa HT HSA).
            unfold x. rewrite Htr by lia. rewrite Nat.mod_small by (unfold e; lia).
            change (cpred (len T) (SA sa (trow q))) with (tp (trow q)). unfold e. lia. }
          apply (tpos_inj T sa HT HSA) in Etp; auto; [|fold n; lia]. rewrite Etp in Htl. congruence. }
        assert (ESA : SA sa y = tp t + d).
        { rewrite <- (PHI_SA T sa HSA y) by auto. fold v.
          replace v with (tp g + d) by (unfold d; lia). rewrite Htr by (unfold d; lia).
          apply Nat.mod_small. lia. }
        set (l := tp t + d - 1 - tp (trow j)).
        assert (Hl' : l < s) by (unfold l; unfold d in *; lia).
        specialize (Hk l Hl').
        assert (Erow : lfi T sa l y = trow j).
        { apply (tpos_inj T sa HT HSA); [apply (lfi_lt T sa HT HSA); fold n; lia|apply trow_tail; auto|].
          unfold tpos at 1. rewrite (lfi_SA_sub T sa HT HSA) by (fold n; unfold l; lia).
          rewrite ESA. replace (tp t + d - l) with (S (tp (trow j))) by (unfold l; unfold d in *; lia).
          apply (cpred_S T). fold n. lia. }
        rewrite Erow in Hk. rewrite keptb_k in Hk by auto. apply memb_In in Hj. congruence.
    Qed.
  End Kept.
End Subs.
