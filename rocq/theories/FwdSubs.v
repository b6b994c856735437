(** The subsampled samples and marks of the Psi indexes and forward phi over them. *)
From Coq Require Import List Arith Bool Lia ZifyBool ZifyNat Permutation.
From Verif Require Import Spec MBase Lists FM MRle Runs RleProof MConstruct MPhi MRIndex MSrIndex Util Phi
  ConstructProof Nav PhiProof SamplingProof SamplingSpec SubsProof SrValid MPsi MCsa CsaPhi MSrCsa FwdRange.
Import ListNotations.

Section Fwd.
  Variables (T sa : list nat).
  Hypothesis HT : text_ok T.
  Hypothesis HSA : is_suffix_array T sa.
  Notation n := (len T).
  Notation tp := (tpos T sa).

  (** The rows whose samples are kept: run heads, with every kept sample close after a dropped one. *)
  Record fwd_kept (s : nat) (K : list nat) : Prop := {
    fk_nodup : NoDup K;
    fk_head : forall i, In i K -> i < n /\ headr T sa i = true;
    fk_zero : In (ISA sa 0) K;
    fk_first : forall t, t < n -> tailr T sa t = true ->
      (forall t', t' < n -> tailr T sa t' = true -> tp t <= tp t') -> In (flink T sa t) K;
    fk_last : In (flink T sa (ISA sa 0)) K;
    fk_cover : forall x, x < n -> headr T sa x = true -> ~ In x K ->
      exists j q, In j K /\ q < n /\ headr T sa q = true /\ tp q < tp x /\ tp x < tp j /\
        (forall y, y < n -> headr T sa y = true -> tp y < tp x -> tp y <= tp q) /\ tp j - tp q <= s;
    fk_size : length K <= 2 * ((n - 1) / S s) + 4
  }.

  Section Build.
    Variables (rowsh rowst : list nat) (link : nat -> nat).
    Hypothesis Hh : forall i, In i rowsh <-> i < n /\ headr T sa i = true.
    Hypothesis Ht : forall i, In i rowst <-> i < n /\ tailr T sa i = true.
    Hypothesis HhN : NoDup rowsh.
    Hypothesis HtN : NoDup rowst.
    Hypothesis Hlink : forall i, i < length rowst -> link i < length rowsh /\ nth (link i) rowsh 0 = flink T sa (nth i rowst 0).
    Notation samples := (map tp rowsh).
    Notation marks := (map tp rowst).
    Notation links := (map link (sort_indices (map tp rowst))).
    Notation row k := (nth k rowsh 0).

    Lemma Hh1 i : In i rowsh -> i < n.
    Proof. apply Hh. Qed.
    Lemma Ht1 i : In i rowst -> i < n.
    Proof. apply Ht. Qed.
    Lemma row_ok k : k < length rowsh -> row k < n /\ headr T sa (row k) = true.
    Proof. intros H. apply Hh, nth_In; auto. Qed.

    Theorem construct_subsamples_backward_ok s : exists ks,
      construct_subsamples_backward s samples links = Some (ks, map (fun k => tp (row k)) ks) /\
      ssorted ks /\ (forall k, In k ks -> k < length rowsh) /\ fwd_kept s (map (fun k => row k) ks).
    Proof.
      pose proof (n_pos T HT) as Hn.
      set (sv := sorted_values marks).
      assert (Hsv : ssorted sv) by apply (sorted_values_sorted _ (marks_NoDup T sa HT HSA rowst Ht1 HtN)).
      assert (Lsv : length sv = length rowst) by (unfold sv; rewrite sorted_values_length, map_length; auto).
      assert (Hin : forall m, In m sv <-> is_tmark T sa m).
      { intros m. unfold sv. rewrite sorted_values_in, in_map_iff. split.
        - intros (t & <- & H). apply Ht in H. exists t. tauto.
        - intros (t & H1 & H2 & <-). exists t. split; auto. apply Ht; auto. }
      assert (Hz : In (ISA sa 0) rowst) by (apply Ht; split; [apply (ISA_lt T sa HSA); auto|apply (ISA_0_tail T sa HT HSA)]).
      assert (Hr : 0 < length rowst) by (destruct rowst; [destruct Hz|cbn; lia]).
      assert (Hmk : forall k, k < length rowst -> exists t, t < n /\ tailr T sa t = true /\ tp t = nth k sv 0).
      { intros k Hk. apply Hin. apply nth_In. lia. }
      destruct (Hmk 0 Hr) as (t0 & Ht0 & Hd0 & E0).
      destruct (Hmk (length rowst - 1) ltac:(lia)) as (t1 & Ht1' & Hd1 & E1).
      destruct (links_ok T sa HT HSA rowsh rowst link Ht1 Hlink 0 t0 Hr Ht0 E0) as (l0 & B0 & Hl0 & F0 & _).
      destruct (links_ok T sa HT HSA rowsh rowst link Ht1 Hlink (length rowst - 1) t1 ltac:(lia) Ht1' E1) as (l1 & B1 & Hl1 & F1 & _).
      unfold construct_subsamples_backward. rewrite (links_length T sa rowst link). rewrite B0, B1. cbn [bind].
      assert (Et1 : t1 = ISA sa 0).
      { apply (tpos_inj T sa HT HSA); auto; [apply (ISA_lt T sa HSA); auto|].
        rewrite (tpos_ISA_0 T sa HT HSA).
        pose proof (tpos_lt T sa HT t1) as G1.
        assert (G2 : In (n - 1) sv) by (apply Hin, (last_tmark T sa HT HSA)).
        destruct (In_nth _ _ 0 G2) as (i & Hi & Ei). rewrite Lsv in Hi.
        pose proof (ssorted_nth_le sv i (length rowst - 1) Hsv ltac:(lia) ltac:(lia)). lia. }
      set (asc := sort_indices samples).
      assert (Hasc : forall i, In i asc <-> i < length rowsh).
      { intros i. unfold asc. rewrite sort_indices_lt, map_length. reflexivity. }
      assert (Hnda : NoDup asc).
      { eapply Permutation_NoDup; [symmetry; apply sort_indices_perm|]. apply seq_NoDup. }
      assert (HsN : NoDup samples).
      { apply NoDup_map_inj; auto. intros x y Hx Hy. apply (tpos_inj T sa HT HSA); apply Hh; auto. }
      assert (Hss : ssorted (map (fun i => nth i samples 0) asc)) by apply (sorted_values_sorted _ HsN).
      set (idxs := rev asc).
      assert (Hidx : forall i, In i idxs <-> i < length rowsh) by (intros; unfold idxs; rewrite <- in_rev; auto).
      assert (Hnd : NoDup idxs) by (apply NoDup_rev; auto).
      assert (Hval : forall i, i < length rowsh -> nth i samples 0 = tp (row i)) by (intros; apply nth_map_lt; auto).
      destruct (sampling_total s idxs samples [l0; l1]) as [vec Ev].
      { intros i Hi. rewrite map_length. apply Hidx; auto. }
      rewrite Ev. cbn [bind].
      pose proof (sampling_NoDup _ _ _ _ _ Ev Hnd) as Nv.
      destruct (std_sort_nat vec Nv) as [Sk Pk]. set (ks := std_sort Nat.ltb vec) in *.
      assert (Hin2 : forall k, In k ks <-> In k vec) by (intros; split; apply Permutation_in; auto; symmetry; auto).
      assert (Hklt : forall k, In k ks -> k < length rowsh).
      { intros k Hk. apply Hidx. apply (sampling_incl _ _ _ _ _ Ev). apply Hin2; auto. }
      rewrite (mmap_map _ (fun k => tp (row k))).
      2:{ intros k Hk. rewrite nth_error_map, (nth_error_nth_lt _ _ 0) by (apply Hklt; auto). auto. }
      cbn [bind]. exists ks. split; auto. split; auto. split; auto.
      assert (HK : forall k, k < length rowsh -> In (row k) (map (fun k => row k) ks) <-> In k ks).
      { intros k Hk. rewrite in_map_iff. split; [|eauto]. intros (k' & E & Hk').
        assert (k' = k); [|subst; auto]. apply (proj1 (NoDup_nth rowsh 0) HhN); auto. }
      assert (HSP : forall l1 l2 x y, ssorted (l1 ++ l2) -> In x l1 -> In y l2 -> x < y).
      { intros q1 q2 x y H Hx Hy. eapply (proj2 (ssorted_app _ _ H)); eauto. }
      (* values along the scan decrease *)
      assert (Hdec : forall la lb x y, idxs = la ++ lb -> In x la -> In y lb -> tp (row y) < tp (row x)).
      { intros la lb x y El Hx Hy.
        assert (x < length rowsh) by (apply Hidx; rewrite El; apply in_app_iff; auto).
        assert (y < length rowsh) by (apply Hidx; rewrite El; apply in_app_iff; auto).
        rewrite <- !Hval by auto. apply (HSP (map (fun i => nth i samples 0) (rev lb)) (map (fun i => nth i samples 0) (rev la))).
        - rewrite <- map_app, <- rev_app_distr, <- El. unfold idxs. rewrite rev_involutive. auto.
        - apply in_map_iff. exists y. split; auto. rewrite <- in_rev. auto.
        - apply in_map_iff. exists x. split; auto. rewrite <- in_rev. auto. }
      assert (Hz' : In (ISA sa 0) rowsh) by (apply Hh; split; [apply (ISA_lt T sa HSA); auto|apply (ISA_0_head T sa HT HSA)]).
      split.
      - apply NoDup_map_inj; [apply ssorted_NoDup; auto|]. intros x y Hx Hy E.
        apply (proj1 (NoDup_nth rowsh 0) HhN); auto.
      - intros i Hi. apply in_map_iff in Hi. destruct Hi as (k & <- & Hk). apply row_ok; auto.
      - destruct (In_nth _ _ 0 Hz') as (z & Hzl & Ez). rewrite <- Ez. apply HK; auto. apply Hin2.
        destruct idxs as [|a l] eqn:El.
        { exfalso. assert (In z []) as []. apply Hidx. auto. }
        assert (a = z); [|subst a; eapply (sampling_first _ _ _ _ _ Ev); eauto].
        assert (Hzi : In z (a :: l)) by (apply Hidx; auto).
        destruct Hzi as [|Hzi]; auto. exfalso.
        pose proof (Hdec [a] l a z eq_refl (or_introl eq_refl) Hzi) as G. rewrite Ez in G.
        rewrite (tpos_ISA_0 T sa HT HSA) in G. pose proof (tpos_lt T sa HT (row a)). lia.
      - intros t Htn Htd Hmin.
        assert (t = t0).
        { apply (tpos_inj T sa HT HSA); auto. specialize (Hmin t0 Ht0 Hd0).
          assert (G2 : In (tp t) sv) by (apply Hin; exists t; auto).
          destruct (In_nth _ _ 0 G2) as (i & Hi & Ei).
          pose proof (ssorted_nth_le sv 0 i Hsv ltac:(lia) ltac:(lia)). lia. }
        subst t. rewrite <- F0. apply HK; auto. apply Hin2.
        apply (sampling_req _ _ _ _ _ Ev); [apply Hidx; auto|left; auto].
      - rewrite <- Et1, <- F1. apply HK; auto. apply Hin2.
        apply (sampling_req _ _ _ _ _ Ev); [apply Hidx; auto|right; left; auto].
      - intros x Hxn Hxd Hxk. assert (Hx : In x rowsh) by (apply Hh; auto).
        destruct (In_nth _ _ 0 Hx) as (k & Hk & <-). rewrite HK in Hxk by auto.
        assert (Hkin : In k idxs) by (apply Hidx; auto).
        apply in_split in Hkin. destruct Hkin as (la & lb & El).
        destruct lb as [|q lb].
        { exfalso. apply Hxk, Hin2.
          assert (G : last idxs 0 = k) by (rewrite El; apply last_last).
          rewrite <- G. apply (sampling_last _ _ _ _ _ Ev). rewrite El. destruct la; discriminate. }
        assert (Hq : q < length rowsh) by (apply Hidx; rewrite El; apply in_app_iff; right; right; left; auto).
        destruct (sampling_cover _ _ _ _ _ Ev la k q lb Hnd El) as (j & Hj1 & Hj2 & Hj3).
        { rewrite <- Hin2; auto. }
        assert (Hj : j < length rowsh) by (apply Hidx; rewrite El; apply in_app_iff; left; auto).
        assert (G1 : tp (row k) < tp (row j)) by (apply (Hdec la (k :: q :: lb)); auto; left; auto).
        assert (El2 : idxs = (la ++ [k]) ++ q :: lb) by (rewrite <- app_assoc; auto).
        assert (El3 : idxs = (la ++ [k; q]) ++ lb) by (rewrite <- app_assoc; auto).
        assert (G2 : tp (row q) < tp (row k)).
        { apply (Hdec _ _ k q El2); [apply in_app_iff; right; left; auto|left; auto]. }
        exists (row j), (row q). split; [apply HK; auto; apply Hin2; auto|].
        split; [apply row_ok; auto|]. split; [apply row_ok; auto|]. split; auto. split; auto. split.
        + intros y Hyn Hyd Hlt. assert (Hy : In y rowsh) by (apply Hh; auto).
          destruct (In_nth _ _ 0 Hy) as (m & Hm & <-).
          assert (Hmi : In m (la ++ k :: q :: lb)) by (rewrite <- El; apply Hidx; auto).
          apply in_app_iff in Hmi. destruct Hmi as [Hmi|[<-|[<-|Hmi]]]; [exfalso|lia|lia|].
          * pose proof (Hdec la (k :: q :: lb) m k El Hmi (or_introl eq_refl)). lia.
          * apply Nat.lt_le_incl. apply (Hdec _ _ q m El3); auto. apply in_app_iff. right. right. left. auto.
        + unfold absdiff in Hj3. rewrite !Hval in Hj3 by auto. destruct (Nat.ltb_spec (tp (row q)) (tp (row j))); lia.
      - rewrite map_length, (Permutation_length Pk).
        assert (HH : forall v, In v samples -> v <= n - 1).
        { intros v Hv. apply in_map_iff in Hv. destruct Hv as (i & <- & _). pose proof (tpos_lt T sa HT i). lia. }
        rewrite <- (sampling_mirror s samples [l0; l1] (n - 1) HH) in Ev.
        set (mv := map (fun v => n - 1 - v) samples) in *.
        assert (Lmv : length mv = length rowsh) by (unfold mv; rewrite !map_length; auto).
        assert (Emv : forall i, i < length rowsh -> nth i mv 0 = n - 1 - tp (row i)).
        { intros i Hi. unfold mv. rewrite (nth_map_lt _ _ _ 0) by (rewrite map_length; auto). rewrite Hval by auto. auto. }
        assert (Hss2 : ssorted (map (fun i => nth i mv 0) idxs)).
        { assert (G : forall l pre, idxs = pre ++ l -> ssorted (map (fun i => nth i mv 0) l)).
          { induction l as [|a l IH]; intros pre El; cbn [map]; constructor.
            - apply (IH (pre ++ [a])). rewrite <- app_assoc. auto.
            - rewrite Forall_forall. intros v Hv. apply in_map_iff in Hv. destruct Hv as (y & <- & Hy).
              assert (Ha : a < length rowsh) by (apply Hidx; rewrite El; apply in_app_iff; right; left; auto).
              assert (Hyl : y < length rowsh) by (apply Hidx; rewrite El; apply in_app_iff; right; right; auto).
              rewrite !Emv by auto.
              assert (El' : idxs = (pre ++ [a]) ++ l) by (rewrite <- app_assoc; auto).
              pose proof (Hdec _ _ a y El' ltac:(apply in_app_iff; right; left; auto) Hy).
              pose proof (tpos_lt T sa HT (row a)). unfold Nat.lt. lia. }
          apply (G idxs []); auto. }
        pose proof (sampling_size _ _ _ _ _ Ev 0 (n - 1) Hss2 Hnd) as G. rewrite Nat.sub_0_r in G.
        cbn [length] in G.
        assert (G0 : forall i, In i idxs -> 0 <= nth i mv 0 <= n - 1).
        { intros i Hi. rewrite Emv by (apply Hidx; auto). lia. }
        specialize (G G0). fold (dv s (n - 1)) in *. lia.
    Qed.
  End Build.

  Section Kept.
    Variables (s : nat) (K : list nat).
    Hypothesis HF : fwd_kept s K.
    Notation kept := (memb K).

    Lemma kept_not x : kept x = false -> ~ In x K.
    Proof. intros E H. apply memb_In in H. congruence. Qed.
    Lemma kept_zero : kept (ISA sa 0) = true.
    Proof. apply memb_In, (fk_zero _ _ HF). Qed.
    Lemma kept_head i : kept i = true -> i < n /\ headr T sa i = true.
    Proof. intros H. apply memb_In in H. apply (fk_head _ _ HF); auto. Qed.
    (** Text positions along steps that do not leave a kept row. *)
    Lemma steps_tpos L i : i < n -> (forall l, l < L -> kept (psi_it T sa l i) = false) ->
      tp (psi_it T sa L i) = tp i + L.
    Proof.
      intros Hi H. apply (psi_it_tpos T sa HT HSA); auto. intros l Hl E. specialize (H l Hl).
      rewrite E, kept_zero in H. discriminate.
    Qed.
    (** Climbing to a later text position. *)
    Lemma steps_reach x j : x < n -> j < n -> tp x <= tp j -> psi_it T sa (tp j - tp x) x = j.
    Proof.
      intros Hx Hj. remember (tp j - tp x) as d eqn:Ed. revert x Hx Ed. induction d as [|d IH]; intros x Hx Ed Hle.
      - cbn. apply (tpos_inj T sa HT HSA); auto. lia.
      - assert (Hne : x <> ISA sa 0).
        { intros ->. rewrite (tpos_ISA_0 T sa HT HSA) in Ed. pose proof (tpos_lt T sa HT j). lia. }
        destruct (tpos_step T sa HT HSA x Hx Hne) as [E _]. rewrite psi_it_S. apply IH; [apply (PSr_lt T sa HT HSA)|lia|lia].
    Qed.
    (** From a run head a kept row is met before the rate. *)
    Lemma reach x : x < n -> headr T sa x = true -> exists l, kept (psi_it T sa l x) = true /\ (l = 0 \/ l < s).
    Proof.
      intros Hx Hd. destruct (kept x) eqn:E; [exists 0; auto|].
      destruct (fk_cover _ _ HF x Hx Hd (kept_not x E)) as (j & q & Hj & Hq & _ & H1 & H2 & _ & H3).
      exists (tp j - tp x). split; [|lia].
      rewrite steps_reach; auto; [apply memb_In; auto|apply (fk_head _ _ HF); auto|lia].
    Qed.

    (** Submarks. *)
    Notation smarks := (map (fun i => tp (blink T sa i)) K).
    Lemma smarks_in m : In m smarks <-> exists t, t < n /\ In (flink T sa t) K /\ tp t = m.
    Proof.
      rewrite in_map_iff. split.
      - intros (i & <- & Hi). exists (blink T sa i). split; [apply (blink_lt T sa HT HSA)|]. split; auto.
        rewrite (flink_blink T sa HT HSA) by (apply (fk_head _ _ HF); auto). auto.
      - intros (t & Ht & Hk & <-). exists (flink T sa t). split; auto. rewrite (blink_flink T sa HT HSA); auto.
    Qed.
    Lemma smarks_tmark m : In m smarks -> is_tmark T sa m.
    Proof.
      intros H. apply in_map_iff in H. destruct H as (i & <- & Hi). apply (fk_head _ _ HF) in Hi.
      exists (blink T sa i). split; [apply (blink_lt T sa HT HSA)|]. split; auto. apply (blink_tail T sa HT HSA); tauto.
    Qed.
    Lemma smarks_NoDup : NoDup smarks.
    Proof.
      apply NoDup_map_inj; [apply (fk_nodup _ _ HF)|]. intros x y Hx Hy E.
      apply (tpos_inj T sa HT HSA) in E; try apply (blink_lt T sa HT HSA).
      apply (f_equal (flink T sa)) in E. rewrite !(flink_blink T sa HT HSA) in E by (apply (fk_head _ _ HF); auto). auto.
    Qed.
    Lemma smarks_lt m : In m smarks -> m < n.
    Proof. intros H. eapply is_tmark_lt; eauto. apply smarks_tmark; auto. Qed.
    Lemma smarks_last : In (n - 1) smarks.
    Proof.
      apply smarks_in. exists (ISA sa 0). pose proof (n_pos T HT). split; [apply (ISA_lt T sa HSA); auto|].
      split; [apply (fk_last _ _ HF)|apply (tpos_ISA_0 T sa HT HSA)].
    Qed.
    Notation sm := (sorted_values smarks).
    Lemma sm_sorted : ssorted sm.
    Proof. apply sorted_values_sorted, smarks_NoDup. Qed.
    Lemma sm_length : length sm = length K.
    Proof. rewrite sorted_values_length, map_length. auto. Qed.

    (** Successor of any value. *)
    Definition nearest (t v : nat) : Prop := v <= tp t /\ forall m, In m smarks -> v <= m -> tp t <= m.
    Lemma sub_succ v : v < n -> exists k0 t,
      circular_soft_successor (bits_of smarks n) n v = Some (k0, tp t) /\ k0 < length K /\ nth k0 sm 0 = tp t /\
      t < n /\ In (flink T sa t) K /\ nearest t v.
    Proof.
      intros Hv. rewrite (bits_of_ext smarks sm) by (intros x; symmetry; apply sorted_values_in).
      destruct (succ_found T sm v sm_sorted) as (k & Hk & Hp & H1 & H2); auto.
      - intros m Hm. rewrite sorted_values_in in Hm. apply smarks_lt; auto.
      - apply sorted_values_in, smarks_last.
      - assert (Hin : In (nth k sm 0) smarks) by (apply sorted_values_in, nth_In; auto).
        apply smarks_in in Hin. destruct Hin as (t & Ht & Hk' & E). rewrite <- E in *.
        exists k, t. rewrite sm_length in Hk. split; auto. split; auto. split; auto. split; auto. split; auto.
        split; auto. intros m Hm. apply H2, sorted_values_in; auto.
    Qed.

    Definition gap_free (t v : nat) : Prop := forall x, v <= x -> x < tp t -> ~ is_tmark T sa x.

    Section PhiValue.
      Variables (samples : list nat) (getl : nat -> option (nat * bool)) (vb : nat -> bool).
      Variable validator : nat -> nat -> bool -> option bool.
      Hypothesis Hgetl : forall k t, k < length K -> t < n -> tp t = nth k sm 0 ->
        exists i, getl k = Some (i, vb k) /\ nth_error samples i = Some (tp (flink T sa t)).

      Lemma phi_value v k0 t b : v < n -> t < n -> k0 < length K -> nth k0 sm 0 = tp t ->
        circular_soft_successor (bits_of smarks n) n v = Some (k0, tp t) -> v <= tp t ->
        validator k0 (tp t - v) (vb k0) = Some b ->
        exists w, csa_phi n (bits_of smarks n) samples getl validator v = Some (w, b) /\
          (gap_free t v -> w = PHIF T sa v).
      Proof.
        intros Hv Ht Hk Em Hp Hle Hb. destruct (Hgetl k0 t Hk Ht (eq_sym Em)) as (i & Ei & Es).
        set (gs := get_sample_for_phi getl (nth_error samples) validator).
        assert (Eg : gs k0 (tp t - v) = Some (tp (flink T sa t), b)).
        { unfold gs, get_sample_for_phi. rewrite Ei. cbn [bind]. rewrite Es. cbn [bind]. rewrite Hb. auto. }
        assert (Hs : exists w, csa_phi n (bits_of smarks n) samples getl validator v = Some (w, b)).
        { unfold csa_phi, phi_forward, phi_fn. rewrite Hp. cbn [bind]. rewrite (sub64_ok (tp t) v) by auto.
          fold gs. rewrite Eg. cbn [bind]. pose proof (n_pos T HT). rewrite umod_ok by auto. cbn [bind]. eauto. }
        destruct Hs as [w Ew]. exists w. split; auto. intros Hg.
        pose proof (phi_forward_gen T sa HT HSA _ gs v k0 t b Hv Ht Hp Hle Hg Eg) as E.
        unfold csa_phi in Ew. fold gs in Ew. congruence.
      Qed.
    End PhiValue.

    (** Phi is right where no kept row is met before the sampling rate. *)
    Lemma sub_gap y t : S y < n -> (forall l, l < s -> kept (psi_it T sa l (S y)) = false) ->
      nearest t (SA sa y) -> gap_free t (SA sa y).
    Proof.
      intros Hy Hk [Hle Hnear]. set (v := SA sa y) in *. set (z := S y) in *.
      pose proof (n_pos T HT) as Hn.
      assert (Hv : v < n) by (apply (SA_lt T sa HSA); lia).
      (* the true next mark *)
      set (fm := sorted_values (tmarks T sa)).
      assert (Hs : ssorted fm) by apply (sorted_values_sorted _ (tmarks_NoDup T sa HT HSA)).
      assert (Hin : forall m, In m fm <-> is_tmark T sa m)
        by (intros; unfold fm; rewrite sorted_values_in; apply (tmarks_in T sa HT HSA)).
      destruct (succ_found T fm v Hs) as (kf & Hkf & _ & F1 & F2); auto.
      { intros m Hm. apply Hin in Hm. eapply is_tmark_lt; eauto. }
      { apply Hin, (last_tmark T sa HT HSA). }
      assert (Hmf : is_tmark T sa (nth kf fm 0)) by (apply Hin, nth_In; auto).
      destruct Hmf as (tt & Htt & Httd & Ett). rewrite <- Ett in *. clear Ett kf Hkf.
      assert (Hgt : forall x, v <= x -> x < tp tt -> ~ is_tmark T sa x).
      { intros x H1 H2 Hm. apply Hin in Hm. specialize (F2 _ Hm H1). lia. }
      destruct (kept (flink T sa tt)) eqn:Ek.
      { (* it is a submark *)
        assert (G : In (tp tt) smarks) by (apply smarks_in; exists tt; split; auto; split; auto; apply memb_In; auto).
        specialize (Hnear _ G F1). intros x H1 H2. apply Hgt; auto. lia. }
      exfalso. set (h := flink T sa tt) in *.
      assert (Hh : h < n) by apply (flink_lt T sa HT HSA).
      assert (Hhd : headr T sa h = true) by (apply (flink_head T sa HT HSA); auto).
      assert (Hz : z < n) by auto.
      destruct (fk_cover _ _ HF h Hh Hhd (kept_not h Ek)) as (j & q & Hj & Hq & Hqd & C1 & C2 & C3 & C4).
      assert (Hs0 : 0 < s) by lia.
      set (d := tp tt - v).
      (* a kept row reached from z contradicts the hypothesis *)
      assert (Hno : forall x m, In x K -> psi_it T sa m z = x -> m < s -> False).
      { intros x m Hx E Hm. specialize (Hk m Hm). rewrite E in Hk. apply kept_not in Hk. auto. }
      destruct (headr T sa z) eqn:Ezd.
      { destruct (reach z Hz Ezd) as (l & El & Hl). destruct (kept_head _ El) as [_ _].
        eapply (Hno _ l); [apply memb_In; eauto|reflexivity|lia]. }
      assert (Hz0 : z <> ISA sa 0) by (intros E; rewrite E, (ISA_0_head T sa HT HSA) in Ezd; discriminate).
      destruct (tpos_step T sa HT HSA z Hz Hz0) as [Etz Htz]. rewrite (tpos_PSr T sa HT HSA) in Etz by auto.
      assert (Htr : forall e, e <= d -> PHIF T sa (v + e) = (SA sa z + e) mod n).
      { intros e He. pose proof (tpos_lt T sa HT tt) as Hl.
        rewrite (PHIF_from_mark T sa HT HSA (v + e) e v); auto.
        - unfold v, z. rewrite (PHIF_SA T sa HSA) by auto. auto.
        - unfold d in He. lia.
        - apply Nat.mod_small. unfold d in He. lia.
        - intros k Hke. unfold d in He. rewrite Nat.mod_small by lia. apply Hgt; lia. }
      (* no head on the way *)
      assert (Hnh : forall e x, e < d -> SA sa z + e < n -> x < n -> tp x = SA sa z + e -> headr T sa x = false).
      { intros e x He Hsn Hx Ex. pose proof (tpos_lt T sa HT tt) as Hl. unfold d in *.
        set (i0 := ISA sa (csucc T (v + e))).
        assert (Hi0 : i0 < n) by (apply (ISA_lt T sa HSA), (csucc_lt T HT)).
        assert (Htl : tailr T sa i0 = false).
        { destruct (tailr T sa i0) eqn:E; auto. exfalso. apply (Hgt (v + e)); [lia|lia|].
          apply (is_tmark_tail T sa HT HSA); [lia|auto]. }
        destruct (tailr_false T sa HSA i0 Hi0 Htl) as [Hi1 _].
        assert (E : x = S i0).
        { apply (SA_inj T sa HSA); auto. rewrite <- (PHIF_SA T sa HSA i0) by auto.
          unfold i0. rewrite (SA_ISA T sa HSA) by apply (csucc_lt T HT).
          rewrite <- (csucc_tpos T sa HT HSA x Hx), Ex. unfold csucc. rewrite (Nat.mod_small (v + e + 1)) by lia.
          rewrite <- (Nat.add_assoc v). rewrite Htr by lia. f_equal. lia. }
        rewrite E, (headr_S T sa HSA) by auto. auto. }
      assert (Hnw : SA sa z + d < n).
      { destruct (Nat.lt_ge_cases (SA sa z + d) n); auto. exfalso.
        assert (Hlt : SA sa z < n) by lia.
        pose proof (Hnh (n - 1 - SA sa z) (ISA sa 0) ltac:(lia) ltac:(lia) (ISA_lt T sa HSA 0 Hn)) as G.
        rewrite (tpos_ISA_0 T sa HT HSA), (ISA_0_head T sa HT HSA) in G. specialize (G ltac:(lia)). discriminate. }
      assert (Eth : tp h = SA sa z + d).
      { unfold h. rewrite (tpos_flink T sa HT HSA) by auto. replace (tp tt) with (v + d) by (unfold d; lia).
        rewrite Htr by lia. apply Nat.mod_small; auto. }
      assert (Hqz : tp q < tp z).
      { destruct (Nat.lt_ge_cases (tp q) (tp z)); auto. exfalso.
        destruct (Nat.eq_dec (tp q) (tp z)) as [E|E].
        - apply (tpos_inj T sa HT HSA) in E; auto. congruence.
        - assert (headr T sa q = false); [|congruence].
          apply (Hnh (tp q - SA sa z)); auto; lia. }
      apply (Hno j (tp j - tp z)); auto; [|lia].
      apply steps_reach; auto; [apply (fk_head _ _ HF); auto|lia].
    Qed.
  End Kept.
End Fwd.
