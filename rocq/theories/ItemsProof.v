(** What bm_build_ri_items.cpp writes: the loops of its functions, against those of the library's construction. *)
From Coq Require Import List Arith Bool Lia ZifyBool ZifyNat Permutation.
From Verif Require Import Spec MBase Lists FM MRle Runs RleProof MConstruct MPhi MRIndex MSrIndex MOldRle OldRle MBwt MClosed MBench MItems Util Phi
  ConstructProof Nav PhiProof BaseProof SamplingProof BackRange SubsProof ValidProof SrValid SrRuns SrProof BwtProof ClosedGlue.
Import ListNotations.

(** * Helpers *)
Lemma rounds_same {S} (body : S -> option S) x : (forall st, body st = Some x) -> forall more st, rounds body more st = Some x.
Proof. intros H. induction more as [|m IH]; intros st; cbn; rewrite H; cbn [bind]; auto. Qed.
Lemma width_lt v m : v <= m -> v < 2 ^ width_of m.
Proof.
  intros H. unfold width_of. rewrite Nat.add_1_r. destruct (Nat.eq_dec m 0) as [->|N]; [cbn; lia|].
  pose proof (Nat.log2_spec m ltac:(lia)). lia.
Qed.
Lemma packed_id m l : (forall v, In v l -> v <= m) -> packed (width_of m) l = l.
Proof.
  intros H. unfold packed. rewrite <- (map_id l) at 2. apply map_ext_in. intros v Hv. apply Nat.mod_small, width_lt. auto.
Qed.

(** * BuildBWT *)
Definition q_idx (q : nat * nat * nat * nat) : nat := let '(_, i, _, _) := q in i.
Definition q_pos (q : nat * nat * nat * nat) : nat := let '(_, _, _, p) := q in p.
Lemma on_events ev : forall f f' a h ht t tt, mfold f_count (map snd (flat_map ev_symbol ev)) f = Some f' ->
  mfold on_event ev (mk_bwt_vars a f h ht t tt) = Some (mk_bwt_vars (a ++ map snd (flat_map ev_symbol ev)) f'
    (h ++ map q_idx (flat_map ev_first ev)) (ht ++ map q_pos (flat_map ev_first ev))
    (t ++ map q_idx (flat_map ev_last ev)) (tt ++ map q_pos (flat_map ev_last ev))).
Proof.
  induction ev as [|e ev IH]; intros f f' a h ht t tt H; cbn in H.
  - injection H as <-. cbn. rewrite !app_nil_r. reflexivity.
  - cbn [mfold flat_map]. destruct e as [i c|r i c p|r i c p]; cbn [ev_symbol ev_first ev_last app map] in *.
    + cbn [mfold snd] in H. unfold on_event at 1. cbn [bw_f bw_bwt bw_heads bw_heads_text bw_tails bw_tails_text]. destruct (f_count f c) as [f1|]; [|discriminate]. cbn [bind] in H |- *.
      rewrite (IH _ _ _ _ _ _ _ H). cbn [snd]. rewrite <- app_assoc. reflexivity.
    + unfold on_event at 1. cbn [bind bw_f bw_bwt bw_heads bw_heads_text bw_tails bw_tails_text]. rewrite (IH _ _ _ _ _ _ _ H).
      cbn [q_idx q_pos]. rewrite <- !app_assoc. reflexivity.
    + unfold on_event at 1. cbn [bind bw_f bw_bwt bw_heads bw_heads_text bw_tails bw_tails_text]. rewrite (IH _ _ _ _ _ _ _ H).
      cbn [q_idx q_pos]. rewrite <- !app_assoc. reflexivity.
Qed.
Lemma combine_snd {A B} (l : list A) : forall m : list B, length l = length m -> map snd (combine l m) = m.
Proof. induction l as [|a l IH]; intros [|x m] H; try discriminate; cbn; [auto|]. f_equal. apply IH. cbn in H. lia. Qed.
Lemma tab_idx (sy ps : nat -> nat) l : map q_idx (map (fun q : nat * nat => (fst q, snd q, sy (snd q), ps (snd q))) (combine (seq 0 (length l)) l)) = l.
Proof.
  rewrite map_map. cbn [q_idx]. apply combine_snd. apply seq_length.
Qed.
Lemma tab_pos (sy ps : nat -> nat) l : map q_pos (map (fun q : nat * nat => (fst q, snd q, sy (snd q), ps (snd q))) (combine (seq 0 (length l)) l)) = map ps l.
Proof.
  rewrite map_map. cbn [q_pos]. rewrite <- (map_map snd ps). f_equal. apply combine_snd. apply seq_length.
Qed.

(** * Sampling of the tails *)
Lemma tails_loop_ok s q0 q1 tails : forall rest sampled last prev_idx prev r,
  Forall (fun i => i < length tails) rest -> prev_idx < length tails -> prev = nth prev_idx tails 0 -> last <= prev ->
  ssorted (map (fun i => nth i tails 0) (prev_idx :: rest)) ->
  sampling_loop s tails [q0; q1] prev_idx prev last rest = Some r ->
  tails_loop s q0 q1 tails sampled last prev_idx prev rest = Some (sampled ++ r, nth (List.last rest prev_idx) tails 0).
Proof.
  induction rest as [|c rest IH]; intros sampled last p prev r Hr Hp Ep Hl Hs H.
  - cbn in H |- *. injection H as <-. subst prev. reflexivity.
  - inversion Hr as [|? ? Hc Hr']; subst. cbn [sampling_loop tails_loop] in *. rewrite (nth_error_nth' _ 0 Hc) in *. cbn [bind] in *.
    assert (Hpc : nth p tails 0 < nth c tails 0) by (inversion Hs as [|? ? _ F]; subst; inversion F; subst; assumption).
    assert (Hs' : ssorted (map (fun i => nth i tails 0) (c :: rest))) by (inversion Hs; subst; assumption).
    rewrite (proj2 (Nat.ltb_ge (nth c tails 0) last)) in H by lia. rewrite sub64_ok by lia.
    replace ((p =? q0) || (p =? q1) || (s <? nth c tails 0 - last)) with ((s <? nth c tails 0 - last) || contains p [q0; q1])
      by (unfold contains; cbn [existsb]; rewrite orb_false_r, orb_comm; reflexivity).
    assert (El : List.last (c :: rest) p = List.last rest c) by (destruct rest as [|x y]; [reflexivity|]; cbn [List.last]; clear; revert x; induction y; intros; cbn in *; auto).
    rewrite El. destruct ((s <? nth c tails 0 - last) || contains p [q0; q1]) eqn:B.
    + destruct (sampling_loop s tails [q0; q1] c (nth c tails 0) (nth p tails 0) rest) as [r'|] eqn:E; [|discriminate]. cbn [bind] in H. injection H as <-.
      rewrite (IH (sampled ++ [p]) _ c _ r' Hr' Hc eq_refl (Nat.lt_le_incl _ _ Hpc) Hs' E). rewrite <- app_assoc. reflexivity.
    + apply IH; auto. lia.
Qed.

(** * Sampling of the heads *)
Section Heads.
  Variables (heads sorted : list nat).
  Notation hp i := (nth i heads 0).
  Hypothesis Hin : Forall (fun i => i < length heads) sorted.
  Hypothesis ND : NoDup heads.
  Lemma hp_eqb a b : a < length heads -> b < length heads -> (hp a =? hp b) = (a =? b).
  Proof.
    intros Ha Hb. destruct (Nat.eqb_spec a b) as [->|N]; [apply Nat.eqb_refl|]. apply Nat.eqb_neq. intros E. apply N.
    eapply (proj1 (NoDup_nth heads 0)); eauto.
  Qed.
  Lemma sorted_lt k : k < length sorted -> nth k sorted 0 < length heads.
  Proof. intros H. rewrite Forall_forall in Hin. apply Hin, nth_In; auto. Qed.
  Lemma skipn_nth (l : list nat) k : k < length l -> skipn k l = nth k l 0 :: skipn (S k) l.
  Proof. revert k. induction l as [|a l IH]; intros [|k] H; cbn in *; try lia; auto. rewrite IH by lia. destruct l; reflexivity. Qed.

  Lemma skip_heads_ok next : next < length heads -> forall fuel j rest, S j < length sorted -> length sorted <= fuel + S j ->
    skip_marks (map (fun i => hp i) (skipn (S (S j)) sorted)) (hp (nth (S j) sorted 0)) (hp next) = Some rest ->
    exists j', skip_heads fuel sorted j next = Some j' /\ j' < length sorted /\ rest = map (fun i => hp i) (skipn (S j') sorted).
  Proof.
    intros Hn. induction fuel as [|fuel IH]; intros j rest Hj Hf H; [lia|].
    cbn [skip_heads]. rewrite (nth_error_nth' _ 0 Hj). cbn [bind]. pose proof (sorted_lt _ Hj) as Hh.
    assert (E : hp (nth (S j) sorted 0) =? hp next = (next =? nth (S j) sorted 0)) by (rewrite hp_eqb by auto; apply Nat.eqb_sym).
    destruct (next =? nth (S j) sorted 0) eqn:B; cbn [negb].
    - exists (S j). split; [reflexivity|]. split; [exact Hj|].
      destruct (map (fun i => hp i) (skipn (S (S j)) sorted)); cbn [skip_marks] in H; rewrite E in H; injection H as <-; reflexivity.
    - destruct (Nat.lt_ge_cases (S (S j)) (length sorted)) as [G|G].
      + rewrite (skipn_nth sorted (S (S j)) G) in H. cbn [map skip_marks] in H. rewrite E in H. apply IH; auto. lia.
      + rewrite skipn_all2 in H by lia. cbn [map skip_marks] in H. rewrite E in H. discriminate.
  Qed.

  Definition v_idx (v : nat * nat * nat) : nat := let '(i, _, _) := v in i.
  Definition v_area (v : nat * nat * nat) : nat := let '(_, x, y) := v in sub64 y x + 1.
  Lemma heads_loop_ok : forall nexts i j cur v links marked bv areas marked' bv',
    Forall (fun x => x < length heads) (cur :: nexts) ->
    submarks_validity_loop i (map (fun i => hp i) (skipn (S j) sorted)) (hp cur) (map (fun i => hp i) nexts) = Some v ->
    mfold (fun b x => list_set b x false) (map v_idx v) marked = Some marked' ->
    mfold (fun b x => list_set b x true) (map (fun i => hp i) (firstn (length nexts) (cur :: nexts))) bv = Some bv' ->
    heads_loop heads sorted i j cur nexts (mk_heads_round links marked bv areas) =
      Some (mk_heads_round links marked' bv' (areas ++ map v_area v)).
  Proof.
    induction nexts as [|nx nexts IH]; intros i j cur v links marked bv areas marked' bv' F H HM HB.
    - cbn in H. injection H as <-. cbn in HM, HB |- *. injection HM as ->. injection HB as ->. rewrite app_nil_r. reflexivity.
    - inversion F as [|? ? Fc F']; subst. inversion F' as [|? ? Fn _]; subst.
      cbn [length firstn map mfold] in HB. cbn [heads_loop hr_bv hr_marked hr_links hr_areas]. rewrite (nth_error_nth' _ 0 Fc). cbn [bind].
      destruct (list_set bv (hp cur) true) as [bv1|]; [|discriminate]. cbn [bind] in HB |- *.
      cbn [map submarks_validity_loop] in H.
      destruct (Nat.lt_ge_cases (S j) (length sorted)) as [G|G]; [|rewrite skipn_all2 in H by lia; discriminate].
      rewrite (skipn_nth _ _ G) in H. cbn [map] in H. rewrite (nth_error_nth' _ 0 G). cbn [bind].
      pose proof (sorted_lt _ G) as Hh. rewrite (hp_eqb _ _ Hh Fn), Nat.eqb_sym in H.
      destruct (nx =? nth (S j) sorted 0) eqn:B; cbn [negb] in H |- *.
      + apply IH; auto.
      + destruct (Nat.lt_ge_cases (S (S j)) (length sorted)) as [G2|G2]; [|rewrite skipn_all2 in H by lia; discriminate].
        rewrite (skipn_nth _ _ G2) in H. cbn [map] in H.
        destruct (skip_marks (map (fun i => hp i) (skipn (S (S (S j))) sorted)) (hp (nth (S (S j)) sorted 0)) (hp nx)) as [rest|] eqn:ES; [|discriminate].
        cbn [bind] in H. destruct (skip_heads_ok nx Fn (length sorted) (S j) rest G2 ltac:(lia) ES) as (j' & E1 & E2 & ->).
        destruct (submarks_validity_loop (S i) (map (fun i => hp i) (skipn (S j') sorted)) (hp nx) (map (fun i => hp i) nexts)) as [v'|] eqn:EV; [|discriminate].
        cbn [bind] in H. injection H as <-. cbn [map v_idx mfold] in HM.
        destruct (list_set marked i false) as [m1|]; [|discriminate]. cbn [bind] in HM |- *.
        rewrite (nth_error_nth' _ 0 Hh). cbn [bind]. rewrite E1. cbn [bind].
        rewrite (IH (S i) j' nx v' links m1 bv1 _ marked' bv' F' EV HM HB). cbn [map v_area]. rewrite <- app_assoc. reflexivity.
  Qed.
End Heads.

(** * The rounds of the functions on a text *)
Lemma last_map {A B} (f : A -> B) l d : l <> [] -> forall d', List.last (map f l) d' = f (List.last l d).
Proof.
  induction l as [|a l IH]; intros H d'; [congruence|]. destruct l as [|x l]; [reflexivity|].
  change (List.last (map f (a :: x :: l)) d') with (List.last (map f (x :: l)) d'). rewrite IH by discriminate. reflexivity.
Qed.
Lemma ssorted_last l x : ssorted l -> In x l -> x <= List.last l 0.
Proof.
  revert x. induction l as [|a l IH]; intros x H Hx; [destruct Hx|]. inversion H as [|? ? H1 H2]; subst. destruct l as [|y l].
  - destruct Hx as [->|[]]. cbn. lia.
  - change (List.last (a :: y :: l) 0) with (List.last (y :: l) 0). destruct Hx as [->|Hx]; [|auto].
    rewrite Forall_forall in H2. specialize (H2 y (or_introl eq_refl)). specialize (IH y H1 (or_introl eq_refl)). unfold Nat.lt in H2. lia.
Qed.
Lemma filter_all {A} (f : A -> bool) l : Forall (fun x => f x = true) l -> filter f l = l.
Proof. induction 1 as [|x l H _ IH]; cbn; [auto|]. rewrite H, IH. auto. Qed.
Lemma firstn_last (l : list nat) : l <> [] -> l = firstn (length l - 1) l ++ [nth (length l - 1) l 0].
Proof.
  destruct l as [|x l _] using rev_ind; [congruence|]. intros _. rewrite app_length. cbn [length]. replace (length l + 1 - 1) with (length l) by lia.
  rewrite firstn_app, firstn_all, Nat.sub_diag, app_nth2, Nat.sub_diag by lia. cbn. rewrite app_nil_r. reflexivity.
Qed.
Lemma one_run R : wf_runs R -> length R <= 1 -> forall x y, In x (expand R) -> In y (expand R) -> x = y.
Proof.
  intros _ H. destruct R as [|[c k] [|q R]]; cbn in H; try lia; cbn; [tauto|].
  rewrite app_nil_r. intros x y Hx Hy. apply repeat_spec in Hx, Hy. congruence.
Qed.

Section Text.
  Variables (w sa : list nat).
  Hypothesis Hw2 : Forall (fun c => 1 < c < 255) w.
  Hypothesis HSA : is_suffix_array (terminated w) sa.
  Hypothesis Hne : w <> [].
  Let H2 : 0 < 2 := Nat.lt_0_succ 1.
  Let Hz : zero_free w := Hw w 2 Hw2 H2.
  Let T := ctext w sa.
  Let n := len T.
  Let HT : text_ok T := ctext_ok w sa Hz HSA.
  Let HS : is_suffix_array T sa := ctext_sa w sa Hz HSA.
  Let r := length (hrows T sa).
  Let bwl := BW (terminated w) sa.
  Let fm := sorted_values (hmarks T sa).

  Lemma two_runs : 2 <= r.
  Proof.
    destruct (BW_runs T sa HT HS) as (R & HW & E & _). unfold r, hrows. rewrite <- E, heads_of_expand, map_length, seq_length by auto.
    destruct (Nat.lt_ge_cases (length R) 2) as [H|H]; [exfalso|exact H].
    assert (I : forall c, c = 0 \/ In c w -> In (wcomp w sa c) (expand R)).
    { intros c Hc. rewrite E. unfold T. rewrite ctext_BW. apply in_map. apply (bwl_in w sa 2 Hw2 HSA H2); auto. }
    assert (X : exists c, In c w) by (pose proof Hne as N; clear -N; destruct w as [|c w']; [congruence|exists c; left; auto]).
    destruct X as (c & Hc). pose proof (one_run R HW ltac:(lia) _ _ (I 0 (or_introl eq_refl)) (I c (or_intror Hc))) as G.
    rewrite wcomp_0 in G. pose proof (base_symbol_range w sa Hz HSA c Hc). lia.
  Qed.

  (** ** BuildBWT *)
  Lemma bwt_body_ok f st : f_table bwl = Some f ->
    bwt_body (terminated w) sa st =
      Some (mk_bwt_round (mk_bwt_vars bwl f (hrows T sa) (hmarks T sa) (trows T sa) (tmarks T sa)) (bits_of (hmarks T sa) n) r).
  Proof.
    intros Ef. pose proof (sa_length _ sa HSA) as HL.
    assert (Hn : 0 < length (terminated w)) by (unfold terminated; rewrite app_length; cbn; lia).
    assert (HB : forall a, In a sa -> a < length (terminated w)).
    { intros a Ha. pose proof (proj1 HSA) as P. apply (Permutation_in _ P), in_seq in Ha. lia. }
    destruct (compute_bwt_ok (terminated w) sa Hn HL HB) as (ev & E1 & E2 & E3 & E4 & E5).
    change (bwt_of (terminated w) sa) with bwl in *.
    assert (LB : length bwl = length (terminated w)) by apply (BW_length _ sa HSA).
    unfold f_table in Ef. destruct (mfold f_count bwl (repeat 0 256)) as [f0|] eqn:EF; [|discriminate].
    cbn [bind] in Ef. injection Ef as Ef.
    assert (EB : map snd (flat_map ev_symbol ev) = bwl) by (rewrite E2; apply combine_snd; rewrite seq_length; auto).
    unfold bwt_body. cbv zeta. rewrite E1. cbn [bind].
    rewrite (on_events ev (repeat 0 256) f0) by (rewrite EB; exact EF). cbn [bind app bw_bwt bw_f bw_heads bw_heads_text bw_tails bw_tails_text].
    set (sy := fun i => nth i bwl 0). set (ps := fun i => cpred (length (terminated w)) (nth i sa 0)).
    assert (A1 : map q_idx (flat_map ev_first ev) = heads_of bwl) by (rewrite E3; exact (tab_idx sy ps (heads_of bwl))).
    assert (A2 : map q_idx (flat_map ev_last ev) = tails_of bwl) by (rewrite E4; exact (tab_idx sy ps (tails_of bwl))).
    assert (A3 : map q_pos (flat_map ev_first ev) = map ps (heads_of bwl)) by (rewrite E3; exact (tab_pos sy ps (heads_of bwl))).
    assert (A4 : map q_pos (flat_map ev_last ev) = map ps (tails_of bwl)) by (rewrite E4; exact (tab_pos sy ps (tails_of bwl))).
    rewrite EB, A1, A2, A3, A4. unfold ps. clear A1 A2 A3 A4.
    change (heads_of bwl) with (hrows (terminated w) sa). change (tails_of bwl) with (trows (terminated w) sa).
    change (tails_of bwl) with (trows (terminated w) sa) in E5. change (heads_of bwl) with (hrows (terminated w) sa) in E5.
    replace (map (fun i => cpred (length (terminated w)) (nth i sa 0)) (hrows (terminated w) sa)) with (hmarks T sa).
    2:{ unfold hmarks, T. rewrite <- ctext_hrows by auto. apply map_ext. intros i. symmetry. apply (ctext_tpos w sa). }
    replace (map (fun i => cpred (length (terminated w)) (nth i sa 0)) (trows (terminated w) sa)) with (tmarks T sa).
    2:{ unfold tmarks, T. rewrite <- ctext_trows by auto. apply map_ext. intros i. symmetry. apply (ctext_tpos w sa). }
    rewrite LB, E5, !Nat.eqb_refl. cbn [guard bind andb].
    assert (EN : length (terminated w) = n) by (symmetry; apply (ctext_len w sa)).
    rewrite construct_bits.
    2:{ intros m Hm. rewrite EN. apply (hmarks_in T sa HT HS) in Hm. destruct Hm as (h & Hh & _ & <-). unfold tpos, cpred. apply Nat.mod_upper_bound. fold n. fold n in Hh. lia. }
    cbn [bind]. rewrite Ef.
    destruct (f_table_ok bwl (bwl_lt w sa 2 Hw2 HSA H2)) as (f' & F1 & F2 & F3). unfold f_table in F1. rewrite EF in F1. cbn [bind] in F1. injection F1 as <-.
    rewrite Ef in F3. rewrite (F3 255) by lia. cbn [bind].
    replace (smaller 255 bwl) with (length (terminated w)).
    2:{ unfold smaller. rewrite <- LB. f_equal. symmetry. apply filter_all.
        pose proof (bwl_lt w sa 2 Hw2 HSA H2) as G. eapply Forall_impl; [|exact G]. intros c Hc. apply Nat.ltb_lt. exact Hc. }
    rewrite Nat.eqb_refl. cbn [guard bind]. rewrite EN, (ctext_hrows w sa Hz HSA), (ctext_trows w sa Hz HSA). reflexivity.
  Qed.

  (** ** BuildBWTTailsSampling *)
  Lemma tails_body_ok s ks sub req0 req1 st : nth_error (blinks T sa) 0 = Some req0 -> nth_error (blinks T sa) (r - 1) = Some req1 ->
    construct_subsamples s (tmarks T sa) (blinks T sa) = Some (ks, sub) -> Forall (fun k => k < r) ks ->
    tails_body s req0 req1 (tmarks T sa) (sort_indices (tmarks T sa)) st = Some (mk_tails_round ks sub (bits_of ks r)).
  Proof.
    intros H0 H1 H HK. pose proof (tmarks_NoDup T sa HT HS) as ND. pose proof two_runs as R2.
    assert (LT : length (tmarks T sa) = r) by (apply (tmarks_length T sa HT HS)).
    unfold construct_subsamples in H. rewrite H0 in H. cbn [bind] in H. rewrite (blinks_length T sa) in H. fold r in H. rewrite H1 in H. cbn [bind] in H.
    pose proof (sorted_values_sorted (tmarks T sa) ND) as HSV. unfold sorted_values in HSV.
    pose proof (sort_indices_length (tmarks T sa)) as LI. rewrite LT in LI.
    assert (FI : Forall (fun i => i < length (tmarks T sa)) (sort_indices (tmarks T sa))).
    { rewrite Forall_forall. intros i Hi. apply sort_indices_lt in Hi. exact Hi. }
    unfold tails_body. cbv zeta. rewrite LI. destruct (sort_indices (tmarks T sa)) as [|i0 [|i1 rest]] eqn:ES; cbn [length] in LI; [lia|lia|].
    unfold compute_sampling in H. inversion FI as [|? ? F0 FI']; subst. inversion FI' as [|? ? F1 FI'']; subst.
    cbn [nth_error bind skipn app]. rewrite (nth_error_nth' _ 0 F0) in H |- *. cbn [bind] in H |- *. rewrite (nth_error_nth' _ 0 F1) in H |- *. cbn [bind] in H |- *.
    destruct (sampling_loop s (tmarks T sa) [req0; req1] i1 (nth i1 (tmarks T sa) 0) (nth i0 (tmarks T sa) 0) rest) as [vec|] eqn:EL; [|discriminate].
    cbn [bind] in H. inversion HSV as [|? ? HSV' HF]; subst.
    rewrite (tails_loop_ok s req0 req1 (tmarks T sa) rest [i0] _ i1 _ vec FI'' F1 eq_refl); [|inversion HF as [|? ? G _]; subst; unfold Nat.lt in G; lia|exact HSV'|exact EL].
    cbn [bind app]. remember (std_sort Nat.ltb (i0 :: vec)) as idx eqn:EI. clear EI. destruct (mmap (nth_error (tmarks T sa)) idx) as [sub'|] eqn:EM; [|discriminate].
    cbn [bind] in H |- *. injection H as -> <-. rewrite construct_bits by (intros k Hk; rewrite Forall_forall in HK; auto). cbn [bind].
    rewrite packed_id; [reflexivity|]. intros v Hv.
    assert (Hv' : In v (tmarks T sa)).
    { apply In_nth_error in Hv. destruct Hv as (j & Hj). destruct (nth_error ks j) as [k|] eqn:EK.
      - apply nth_error_In with k. pose proof (mmap_nth _ _ _ j k EM EK). congruence.
      - exfalso. apply nth_error_None in EK. assert (G : j < length sub') by (apply nth_error_Some; congruence). rewrite (mmap_length _ _ _ EM) in G. lia. }
    rewrite <- (sorted_values_in (tmarks T sa)) in Hv'. apply (ssorted_last _ _ (sorted_values_sorted _ ND)) in Hv'.
    unfold sorted_values in Hv'. rewrite ES in Hv'. rewrite (last_map _ _ i1) in Hv' by discriminate.
    replace (List.last (i0 :: i1 :: rest) i1) with (List.last rest i1) in Hv'; [exact Hv'|].
    clear. cbn [List.last]. destruct rest as [|x y]; [reflexivity|]. revert x. induction y; intros; cbn in *; auto.
  Qed.

  (** ** BuildBWTHeadsSampling *)
  Section Heads2.
    Variables (s : nat) (ks : list nat).
    Hypothesis HF : subs_facts T sa s ks.
    Notation hp i := (nth i (hmarks T sa) 0).
    Let smarks := map (fun k => tpos T sa (csucc T (nth k (trows T sa) 0))) ks.
    Let sm := sorted_values smarks.
    Let sl := sort_indices (hmarks T sa).
    Let follow := map (fun k => (k + 1) mod r) ks.
    Let nexts := map (fun i => nth i follow 0) (sort_indices smarks).
    Lemma follow_smarks : mmap (nth_error (hmarks T sa)) follow = Some smarks.
    Proof.
      pose proof (construct_submarks_ok T sa HT HS s ks HF) as E. unfold construct_submarks in E.
      rewrite (mmap_map _ (fun k => (k + 1) mod r)) in E.
      2:{ intros k _. apply umod_ok. pose proof two_runs. fold r. lia. }
      cbn [bind] in E. fold follow in E. destruct (mmap (nth_error (hmarks T sa)) follow) as [x|]; [|discriminate].
      cbn [bind] in E. injection E as E. rewrite E. reflexivity.
    Qed.
    Lemma LH : length (hmarks T sa) = r.
    Proof. apply (hmarks_length T sa). Qed.
    Lemma L_sm : length smarks = length ks.
    Proof. apply map_length. Qed.
    Lemma follow_lt : Forall (fun i => i < length (hmarks T sa)) follow.
    Proof. rewrite Forall_forall. intros i Hi. apply in_map_iff in Hi. destruct Hi as (k & <- & _). rewrite LH. apply Nat.mod_upper_bound. pose proof two_runs. lia. Qed.
    Lemma follow_hp i : i < length ks -> hp (nth i follow 0) = nth i smarks 0.
    Proof.
      intros Hi. assert (E : nth_error follow i = Some (nth i follow 0)) by (apply nth_error_nth'; unfold follow; rewrite map_length; auto).
      pose proof (mmap_nth _ _ _ i _ follow_smarks E) as G. rewrite (nth_error_nth' smarks 0) in G by (rewrite L_sm; auto).
      symmetry in G. apply nth_error_nth with (d := 0) in G. exact G.
    Qed.
    Lemma nexts_hp : map (fun i => hp i) nexts = sm.
    Proof.
      unfold nexts, sm, sorted_values. rewrite map_map. apply map_ext_in. intros i Hi. apply sort_indices_lt in Hi. rewrite L_sm in Hi. apply follow_hp; auto.
    Qed.
    Lemma nexts_lt : Forall (fun i => i < length (hmarks T sa)) nexts.
    Proof.
      rewrite Forall_forall. intros i Hi. apply in_map_iff in Hi. destruct Hi as (j & <- & Hj). apply sort_indices_lt in Hj. rewrite L_sm in Hj.
      pose proof follow_lt as G. rewrite Forall_forall in G. apply G, nth_In. unfold follow. rewrite map_length. exact Hj.
    Qed.
    Lemma nexts_length : length nexts = length ks.
    Proof. unfold nexts. rewrite map_length, sort_indices_length. apply L_sm. Qed.
    Lemma sl_lt : Forall (fun i => i < length (hmarks T sa)) sl.
    Proof. rewrite Forall_forall. intros i Hi. apply sort_indices_lt in Hi. exact Hi. Qed.
    Lemma sl_length : length sl = r.
    Proof. unfold sl. rewrite sort_indices_length. apply LH. Qed.
    Lemma hp_inj a b : a < length (hmarks T sa) -> b < length (hmarks T sa) -> hp a = hp b -> a = b.
    Proof. intros Ha Hb E. eapply (proj1 (NoDup_nth (hmarks T sa) 0)); eauto. apply (hmarks_NoDup T sa HT HS). Qed.
    Lemma in_lt l k : Forall (fun i => i < length (hmarks T sa)) l -> k < length l -> nth k l 0 < length (hmarks T sa).
    Proof. intros F H. rewrite Forall_forall in F. apply F, nth_In; auto. Qed.
    Lemma nth_hp l k : k < length l -> hp (nth k l 0) = nth k (map (fun i => hp i) l) 0.
    Proof. intros H. rewrite (nth_map_lt (fun i => hp i) l k 0 0) by auto. reflexivity. Qed.
    Lemma first_same : nth 0 nexts 0 = nth 0 sl 0.
    Proof.
      pose proof (ks_pos T sa s ks HF) as K. pose proof two_runs as R2.
      apply hp_inj; [apply in_lt; [apply nexts_lt|rewrite nexts_length; auto]|apply in_lt; [apply sl_lt|rewrite sl_length; lia]|].
      rewrite !nth_hp by (rewrite ?nexts_length, ?sl_length; lia). rewrite nexts_hp.
      pose proof (sm_hd T sa HT HS s ks HF) as G. rewrite !hd_nth in G. exact G.
    Qed.
    Lemma fm_last : nth (r - 1) (map (fun i => hp i) sl) 0 = n - 1.
    Proof.
      change (map (fun i => hp i) sl) with fm. pose proof two_runs as R2.
      pose proof (smarks_last T sa HT HS s ks HF) as G. apply (smarks_hmark T sa HT HS s ks HF) in G.
      apply (fm_in T sa HT HS) in G. fold fm in G. destruct (In_nth _ _ 0 G) as (x & Hx & Ex).
      assert (LF : length fm = r) by (unfold fm; rewrite sorted_values_length; apply LH). rewrite LF in Hx.
      pose proof (ssorted_nth_le fm x (r - 1) (fm_sorted T sa HT HS) ltac:(lia) ltac:(lia)) as G2.
      assert (G3 : In (nth (r - 1) fm 0) fm) by (apply nth_In; lia). apply (fm_in T sa HT HS) in G3.
      destruct G3 as (h & Hh & _ & Eh). pose proof (Nat.mod_upper_bound (SA sa h + n - 1) n ltac:(fold n in Hh; lia)) as G4.
      unfold tpos, cpred in Eh. fold n in Eh, Ex |- *. lia.
    Qed.
    Lemma last_same : nth (length ks - 1) nexts 0 = nth (r - 1) sl 0.
    Proof.
      pose proof (ks_pos T sa s ks HF) as K. pose proof two_runs as R2.
      apply hp_inj; [apply in_lt; [apply nexts_lt|rewrite nexts_length; lia]|apply in_lt; [apply sl_lt|rewrite sl_length; lia]|].
      rewrite !nth_hp by (rewrite ?nexts_length, ?sl_length; lia). rewrite nexts_hp, fm_last. apply (sm_last T sa HT HS s ks HF).
    Qed.
    Lemma last_hp : hp (nth (r - 1) sl 0) = n - 1.
    Proof. rewrite nth_hp by (rewrite sl_length; pose proof two_runs; lia). apply fm_last. Qed.

    Lemma heads_body_ok st : heads_body (hmarks T sa) ks sl st =
      Some (mk_heads_round (sort_indices smarks) (vbits T sa ks) (bits_of smarks n)
              (map (fun j => varea T sa ks j + 1) (vinvs T sa ks))).
    Proof.
      pose proof (ks_pos T sa s ks HF) as K. pose proof two_runs as R2. pose proof (n_pos T HT) as NP. fold n in NP.
      unfold heads_body. cbv zeta. rewrite LH. rewrite (mmap_map _ (fun k => (k + 1) mod r)) by (intros k _; apply umod_ok; lia).
      cbn [bind]. fold follow. rewrite follow_smarks. cbn [bind].
      rewrite (mmap_map _ (fun i => nth i follow 0)).
      2:{ intros i Hi. apply nth_error_nth'. apply sort_indices_lt in Hi. rewrite L_sm in Hi. unfold follow. rewrite map_length. exact Hi. }
      cbn [bind]. fold nexts.
      rewrite (nth_error_nth' nexts 0) by (rewrite nexts_length; lia). cbn [bind].
      rewrite (nth_error_nth' nexts 0) by (rewrite nexts_length; lia). cbn [bind].
      rewrite (nth_error_nth' sl 0) by (rewrite sl_length; lia). cbn [bind]. rewrite sl_length.
      rewrite (nth_error_nth' sl 0) by (rewrite sl_length; lia). cbn [bind].
      rewrite first_same, last_same, !Nat.eqb_refl. cbn [andb guard bind].
      rewrite (nth_error_nth' (hmarks T sa) 0) by (apply in_lt; [apply sl_lt|rewrite sl_length; lia]). cbn [bind].
      rewrite last_hp. replace (n - 1 + 1) with n by lia.
      pose proof (construct_validity_ok T sa HT HS s ks HF) as EV. fold smarks in EV. unfold construct_validity in EV.
      rewrite (mmap_map _ (fun i => hp i)) in EV.
      2:{ intros i Hi. apply nth_error_nth_lt. apply sort_indices_lt; auto. }
      cbn [bind] in EV. fold sl in EV.
      assert (Es : std_sort Nat.ltb smarks = sm).
      { pose proof (smarks_NoDup T sa HT HS s ks HF) as N. destruct (std_sort_nat smarks N) as [S1 S2].
        apply ssorted_unique; [exact S1|apply sorted_values_sorted; exact N|]. intros x. unfold sm. rewrite sorted_values_in.
        split; apply Permutation_in; auto; symmetry; auto. }
      rewrite Es, <- nexts_hp in EV.
      assert (En : nexts = nth 0 sl 0 :: tl nexts).
      { rewrite <- first_same. pose proof nexts_length as L. destruct nexts; [cbn in L; lia|reflexivity]. }
      assert (Esl : sl = nth 0 sl 0 :: skipn 1 sl) by (pose proof sl_length as L; destruct sl; [cbn in L; lia|reflexivity]).
      rewrite En in EV at 1. rewrite Esl in EV at 1. cbn [map] in EV. unfold compute_submarks_validity in EV.
      destruct (submarks_validity_loop 0 (map (fun i => hp i) (skipn 1 sl)) (hp (nth 0 sl 0)) (map (fun i => hp i) (tl nexts))) as [v|] eqn:EL; [|discriminate].
      cbn [bind] in EV. injection EV as V1 V2.
      assert (V1' : map v_idx v = vinvs T sa ks) by (rewrite <- V1; apply map_ext; intros [[? ?] ?]; reflexivity).
      assert (V2' : map v_area v = map (fun j => varea T sa ks j + 1) (vinvs T sa ks)).
      { rewrite <- (map_map (varea T sa ks) (fun a => a + 1)), <- V2, map_map. apply map_ext. intros [[? ?] ?]; reflexivity. }
      (* the bits *)
      set (F := fun (b : list bool) x => list_set b x true).
      assert (EB : mfold F (map (fun i => hp i) nexts) (repeat false n) = Some (bits_of smarks n)).
      { rewrite nexts_hp. pose proof (construct_bits sm n) as G. unfold construct_bit_vector in G. cbn [negb] in G. unfold F. rewrite G.
        - f_equal. apply bits_of_ext. intros x. apply (sorted_values_in smarks).
        - intros x Hx. apply (sorted_values_in smarks) in Hx. apply (smarks_lt T sa HT HS s ks HF). exact Hx. }
      assert (EN : nexts = firstn (length (tl nexts)) (nth 0 sl 0 :: tl nexts) ++ [nth (r - 1) sl 0]).
      { rewrite <- En. rewrite <- last_same, <- nexts_length. assert (L : length (tl nexts) = length nexts - 1) by (rewrite En at 2; cbn; lia). rewrite L.
        apply firstn_last. rewrite En. discriminate. }
      rewrite EN in EB at 1. rewrite map_app, mfold_app in EB. cbn [map] in EB.
      destruct (mfold F (map (fun i => hp i) (firstn (length (tl nexts)) (nth 0 sl 0 :: tl nexts))) (repeat false n)) as [bv|] eqn:EB1; [|discriminate].
      cbn [bind mfold] in EB. unfold F in EB at 1. rewrite last_hp in EB.
      rewrite (heads_loop_ok (hmarks T sa) sl sl_lt (hmarks_NoDup T sa HT HS) (tl nexts) 0 0 (nth 0 sl 0) v [] (repeat true (length ks)) (repeat false n) []
                 (vbits T sa ks) bv).
      - cbn [bind hr_bv hr_marked hr_areas app]. destruct (list_set bv (n - 1) true) as [b'|]; [|discriminate]. cbn [bind] in EB |- *. injection EB as ->.
        rewrite V2'. f_equal. f_equal. apply packed_id. intros i Hi. apply sort_indices_lt in Hi. rewrite L_sm in Hi. lia.
      - rewrite <- En. apply nexts_lt.
      - exact EL.
      - rewrite V1'. exact (construct_vbits T sa ks).
      - exact EB1.
    Qed.
  End Heads2.
End Text.

(** * The files *)
Section Files.
  Variables (w sa : list nat) (bwt : oldrle) (f : list nat).
  Let T := ctext w sa.
  Definition ksub (s : nat) : list nat := match construct_subsamples s (tmarks T sa) (blinks T sa) with Some (ks, _) => ks | None => [] end.
  Definition msub (s : nat) : list nat := map (fun k => tpos T sa (csucc T (nth k (trows T sa) 0))) (ksub s).
  (** What a file has to contain. *)
  Definition content (k : ikey) : icontent :=
    match k with
    | KText => INums (terminated w)
    | KSA => INums sa
    | KBwt => INums (BW (terminated w) sa)
    | KHeads => INums (hrows T sa)
    | KHeadsText | KHeadsTextVec => INums (hmarks T sa)
    | KHeadsBv | KHeadsBvSd => IBits (bits_of (hmarks T sa) (len T))
    | KTails => INums (trows T sa)
    | KTailsText | KTailsTextVec => INums (tmarks T sa)
    | KF => INums f
    | KRle => IRle bwt
    | KTailsSorted => INums (sort_indices (tmarks T sa))
    | KHeadsSorted => INums (sort_indices (hmarks T sa))
    | KLinks => INums (blinks T sa)
    | KSampled s => INums (map (fun k => tpos T sa (nth k (trows T sa) 0)) (ksub s))
    | KSampledIdxVec s => INums (ksub s)
    | KSampledIdxBv s | KSampledIdxBvSd s => IBits (bits_of (ksub s) (length (hrows T sa)))
    | KSampledLinks s => INums (sort_indices (msub s))
    | KMarkedVec s | KMarkedBv s | KMarkedBvSd s => IBits (vbits T sa (ksub s))
    | KSampledHeadsBv s | KSampledHeadsBvSd s => IBits (bits_of (msub s) (len T))
    | KAreas s => INums (map (fun j => varea T sa (ksub s) j + 1) (vinvs T sa (ksub s)))
    end.
  Definition counts (fn : item_fn) : icounters :=
    match fn with
    | FText => mk_icounters (length w) 0 0 0 0
    | FBwt => mk_icounters 0 (length (hrows T sa)) 0 0 0
    | FTails s => mk_icounters 0 0 s (length (ksub s)) 0
    | FHeads s => mk_icounters 0 0 s (length (ksub s)) (count_occ Bool.bool_dec (vbits T sa (ksub s)) true)
    | _ => mk_icounters 0 0 0 0 0
    end.
  Definition holds (d : idir) (l : list ikey) : Prop := forall k, In k l -> fget d k = Some (content k).
End Files.
(** What the functions write and read. *)
Definition writes (fn : item_fn) : list ikey :=
  match fn with
  | FText => [KText]
  | FSA => [KSA]
  | FBwt => [KBwt; KHeads; KHeadsText; KHeadsTextVec; KHeadsBv; KHeadsBvSd; KTails; KTailsText; KTailsTextVec; KF]
  | FRle => [KRle]
  | FSortTails => [KTailsSorted]
  | FSortHeads => [KHeadsSorted; KLinks]
  | FTails s => [KSampled s; KSampledIdxVec s; KSampledIdxBv s; KSampledIdxBvSd s]
  | FHeads s => [KSampledLinks s; KMarkedVec s; KMarkedBv s; KMarkedBvSd s; KSampledHeadsBv s; KSampledHeadsBvSd s; KAreas s]
  end.
Definition needs (fn : item_fn) : list ikey :=
  match fn with
  | FText => []
  | FSA => [KText]
  | FBwt => [KText; KSA]
  | FRle => [KBwt]
  | FSortTails => [KTailsTextVec]
  | FSortHeads => [KHeadsTextVec]
  | FTails s => [KTailsTextVec; KTailsSorted; KHeadsSorted]
  | FHeads s => [KHeadsTextVec; KSampledIdxVec s; KHeadsSorted]
  end.
Definition item_fn_dec (a b : item_fn) : {a = b} + {a <> b}.
Proof. decide equality; apply Nat.eq_dec. Defined.

Lemma fget_fputs c : forall l d k, fget (fputs d (map (fun k => (k, c k)) l)) k = if in_dec ikey_dec k l then Some (c k) else fget d k.
Proof.
  unfold fputs. induction l as [|a l IH]; intros d k; [reflexivity|]. cbn [map fold_left]. rewrite IH.
  destruct (in_dec ikey_dec k l) as [I|I], (in_dec ikey_dec k (a :: l)) as [J|J]; auto.
  - exfalso. apply J. right; auto.
  - cbn [fget]. destruct (ikey_dec k a) as [->|N]; [reflexivity|]. destruct J as [->|J]; [congruence|contradiction].
  - cbn [fget]. destruct (ikey_dec k a) as [->|N]; [exfalso; apply J; left; auto|reflexivity].
Qed.

(** A list of calls of which each finds the files it reads. *)
Fixpoint ready (have : list ikey) (fns : list item_fn) : Prop :=
  match fns with
  | [] => True
  | fn :: fns => incl (needs fn) have /\ ready (writes fn ++ have) fns
  end.
Lemma ready_mono fns : forall have have', incl have have' -> ready have fns -> ready have' fns.
Proof.
  induction fns as [|fn fns IH]; intros have have' H; cbn; [auto|]. intros [H1 H2]. split; [intros k Hk; auto|].
  eapply IH; [|exact H2]. intros k Hk. apply in_app_iff in Hk. apply in_app_iff. intuition.
Qed.
Lemma ready_repeat fn m : forall have fns, ready have (fn :: fns) -> ready have (fn :: repeat fn m ++ fns).
Proof.
  induction m as [|m IH]; intros have fns H; [exact H|]. destruct H as [H1 H2]. split; [exact H1|].
  apply (IH (writes fn ++ have) fns). split; [intros k Hk; apply in_app_iff; right; auto|].
  eapply ready_mono; [|exact H2]. intros k Hk. apply in_app_iff. auto.
Qed.
Lemma ready_calls (m : item_fn -> nat) : forall fns have, ready have fns -> ready have (flat_map (fun fn => fn :: repeat fn (m fn)) fns).
Proof.
  induction fns as [|fn fns IH]; intros have H; [exact H|]. cbn [flat_map app]. apply (ready_repeat fn (m fn)).
  destruct H as [H1 H2]. split; auto.
Qed.
Lemma calls_of_fst calls fns : map fst (calls_of calls fns) = flat_map (fun fn => fn :: repeat fn (length (snd (calls fn)))) fns.
Proof.
  unfold calls_of. induction fns as [|fn fns IH]; [reflexivity|]. cbn [flat_map]. rewrite map_app, IH. f_equal.
  unfold item_calls. cbn [map fst]. f_equal. induction (snd (calls fn)) as [|x l IHl]; cbn; [auto|]. f_equal. exact IHl.
Qed.

Section Run.
  Variables (w sa data : list nat) (sort : list nat -> option (list nat)) (bwt : oldrle) (f : list nat).
  Hypothesis Hw2 : Forall (fun c => 1 < c < 255) w.
  Hypothesis HSA : is_suffix_array (terminated w) sa.
  Hypothesis Hne : w <> [].
  Hypothesis Hdata : build_text data = terminated w.
  Hypothesis Hsort : sort (terminated w) = Some sa.
  Hypothesis Ebwt : old_construct 2 (map replace_zero (BW (terminated w) sa)) = Some bwt.
  Hypothesis Ef : f_table (BW (terminated w) sa) = Some f.
  Let Hz : zero_free w := Hw w 2 Hw2 (Nat.lt_0_succ 1).
  Let T := ctext w sa.
  Let n := len T.
  Let HT : text_ok T := ctext_ok w sa Hz HSA.
  Let HS : is_suffix_array T sa := ctext_sa w sa Hz HSA.
  Let r := length (hrows T sa).
  Notation content := (content w sa bwt f).
  Notation holds := (holds w sa bwt f).

  Lemma ksub_ok s : construct_subsamples s (tmarks T sa) (blinks T sa) = Some (ksub w sa s, map (fun k => tpos T sa (nth k (trows T sa) 0)) (ksub w sa s)) /\
    subs_facts T sa s (ksub w sa s).
  Proof.
    destruct (construct_subsamples_ok T sa HT HS s) as (ks & E & F). unfold ksub. fold T. rewrite E. auto.
  Qed.
  Lemma load_nums_ok d k l : fget d k = Some (INums l) -> load_nums d k = Some l.
  Proof. intros E. unfold load_nums. rewrite E. reflexivity. Qed.
  Lemma load_bits_ok d k l : fget d k = Some (IBits l) -> load_bits d k = Some l.
  Proof. intros E. unfold load_bits. rewrite E. reflexivity. Qed.
  Lemma buffer_nums_ok d k l : fget d k = Some (INums l) -> buffer_nums d k = Some l.
  Proof. intros E. unfold buffer_nums. rewrite E. reflexivity. Qed.
  Lemma rows_small l : (forall i, In i l -> i < n) -> packed (width_of n) l = l.
  Proof. intros H. apply packed_id. intros v Hv. apply H in Hv. lia. Qed.
  Lemma mark_small h : tpos T sa h < n.
  Proof. unfold tpos, cpred. apply Nat.mod_upper_bound. pose proof (n_pos T HT) as G. fold n in G |- *. lia. Qed.

  Lemma call_ok fn more d : holds d (needs fn) ->
    item_call sort data fn more d = Some (map (fun k => (k, content k)) (writes fn), counts w sa fn).
  Proof.
    intros H. assert (H2 : 2 <= r) by apply (two_runs w sa Hw2 HSA Hne).
    assert (LT : length (terminated w) = n) by (symmetry; apply (ctext_len w sa)).
    destruct fn as [| | | | | |s|s]; cbn [item_call writes map needs counts] in *.
    - unfold bm_text. rewrite (rounds_same _ (length data)) by auto. cbn [bind]. rewrite Hdata.
      assert (E : length data = length w).
      { pose proof (f_equal (@length nat) Hdata) as E. unfold build_text, terminated in E. rewrite !app_length, map_length in E. cbn in E. lia. }
      rewrite E. reflexivity.
    - unfold bm_sa. rewrite (buffer_nums_ok _ _ _ (H KText ltac:(cbn; auto))). cbn [bind]. rewrite Hsort. reflexivity.
    - unfold bm_bwt. rewrite (load_nums_ok _ _ _ (H KText ltac:(cbn; auto))). cbn [bind].
      rewrite (buffer_nums_ok _ _ _ (H KSA ltac:(cbn; auto))). cbn [bind].
      rewrite (rounds_same _ _ (fun st => bwt_body_ok w sa Hw2 HSA f st Ef)).
      cbn [bind br_vars br_heads_bv br_r bw_bwt bw_f bw_heads bw_heads_text bw_tails bw_tails_text]. fold T n. rewrite LT. rewrite !rows_small; [reflexivity| | | |].
      + intros i Hi. apply in_map_iff in Hi. destruct Hi as (h & <- & _). apply mark_small.
      + intros i Hi. apply (trows_in T sa HS) in Hi. apply Hi.
      + intros i Hi. apply in_map_iff in Hi. destruct Hi as (h & <- & _). apply mark_small.
      + intros i Hi. apply (hrows_in T sa HS) in Hi. apply Hi.
    - unfold bm_rle. rewrite (buffer_nums_ok _ _ _ (H KBwt ltac:(cbn; auto))). cbn [bind].
      rewrite (rounds_same _ (Some bwt)) by (intros _; rewrite Ebwt; reflexivity). reflexivity.
    - unfold bm_sort_tails. rewrite (load_nums_ok _ _ _ (H KTailsTextVec ltac:(cbn; auto))). cbn [bind].
      rewrite (rounds_same _ _ (fun _ => eq_refl)). reflexivity.
    - unfold bm_sort_heads. rewrite (load_nums_ok _ _ _ (H KHeadsTextVec ltac:(cbn; auto))). cbn [bind].
      fold T. rewrite (hmarks_length T sa). fold r.
      rewrite (rounds_same _ (sort_indices (hmarks T sa), blinks T sa)); [reflexivity|]. intros _.
      rewrite (mmap_map _ (fun i => (i + r - 1) mod r)) by (intros i _; apply umod_ok; lia). cbn [bind].
      rewrite packed_id; [reflexivity|]. intros v Hv. apply in_map_iff in Hv. destruct Hv as (i & <- & _).
      pose proof (Nat.mod_upper_bound (i + r - 1) r). lia.
    - destruct (ksub_ok s) as [E F]. unfold bm_tails.
      rewrite (load_nums_ok _ _ _ (H KTailsTextVec ltac:(cbn; auto))). cbn [bind].
      rewrite (load_nums_ok _ _ _ (H KTailsSorted ltac:(cbn; auto))). cbn [bind].
      rewrite (load_nums_ok _ _ _ (H KHeadsSorted ltac:(cbn; auto))). cbn [bind]. fold T.
      rewrite !sort_indices_length, (tmarks_length T sa HT HS), (hmarks_length T sa). fold r. rewrite Nat.eqb_refl. cbn [guard bind].
      assert (LI : length (sort_indices (hmarks T sa)) = r) by (rewrite sort_indices_length; apply (hmarks_length T sa)).
      assert (EB : forall i, i < r -> nth_error (blinks T sa) i = Some ((nth i (sort_indices (hmarks T sa)) 0 + r - 1) mod r)).
      { intros i Hi. unfold blinks. rewrite nth_error_map, (nth_error_nth' _ 0) by lia. reflexivity. }
      rewrite (nth_error_nth' (sort_indices (hmarks T sa)) 0) by lia. cbn [bind].
      rewrite (nth_error_nth' (sort_indices (hmarks T sa)) 0) by lia. cbn [bind].
      rewrite umod_ok by lia. cbn [bind]. rewrite umod_ok by lia. cbn [bind].
      rewrite (rounds_same _ _ (fun st => tails_body_ok w sa Hw2 HSA Hne s (ksub w sa s) _ _ _ st (EB 0 ltac:(lia)) (EB (r - 1) ltac:(lia)) E
                 ltac:(rewrite Forall_forall; exact (sf_lt _ _ _ _ F)))).
      reflexivity.
    - destruct (ksub_ok s) as [E F]. unfold bm_heads.
      rewrite (load_nums_ok _ _ _ (H KHeadsTextVec ltac:(cbn; auto))). cbn [bind].
      rewrite (load_nums_ok _ _ _ (H (KSampledIdxVec s) ltac:(cbn; auto))). cbn [bind].
      rewrite (load_nums_ok _ _ _ (H KHeadsSorted ltac:(cbn; auto))). cbn [bind]. fold T.
      rewrite sort_indices_length, Nat.eqb_refl. cbn [guard bind].
      rewrite (rounds_same _ _ (fun st => heads_body_ok w sa Hw2 HSA Hne s (ksub w sa s) F st)). reflexivity.
  Qed.

  Lemma run_ok : forall calls d acc have, ready have (map fst calls) -> holds d have ->
    exists d', mfold (run_call sort data) calls (d, acc) = Some (d', acc ++ map (fun c => counts w sa (fst c)) calls) /\
      holds d' have /\ (forall fn, In fn (map fst calls) -> holds d' (writes fn)) /\
      (forall k, (forall fn, In fn (map fst calls) -> ~ In k (writes fn)) -> fget d' k = fget d k).
  Proof.
    induction calls as [|[fn more] calls IH]; intros d acc have R H.
    - exists d. cbn. rewrite app_nil_r. split; [reflexivity|]. split; [exact H|]. split; [intros ? []|auto].
    - cbn [map fst ready] in R. destruct R as [R1 R2]. cbn [mfold]. unfold run_call at 1. cbn [fst snd].
      rewrite call_ok by (intros k Hk; apply H, R1, Hk). cbn [bind fst snd].
      set (d1 := fputs d (map (fun k => (k, content k)) (writes fn))).
      assert (H1 : holds d1 (writes fn ++ have)).
      { intros k Hk. unfold d1. rewrite fget_fputs. destruct (in_dec ikey_dec k (writes fn)) as [I|I]; [reflexivity|].
        apply in_app_iff in Hk. destruct Hk as [Hk|Hk]; [contradiction|auto]. }
      destruct (IH d1 (acc ++ [counts w sa fn]) _ R2 H1) as (d' & E & A & B & C).
      exists d'. rewrite E, <- app_assoc. split; [reflexivity|]. split; [intros k Hk; apply A, in_app_iff; auto|]. split.
      + cbn [map fst]. intros fn' [<-|Hf]; [intros k Hk; apply A, in_app_iff; auto|auto].
      + cbn [map fst]. intros k Hk. rewrite C by (intros fn' Hf; apply Hk; right; auto).
        unfold d1. rewrite fget_fputs. destruct (in_dec ikey_dec k (writes fn)) as [I|I]; [|reflexivity].
        exfalso. exact (Hk fn (or_introl eq_refl) I).
  Qed.

  Lemma calls_in calls fns fn : In fn (map fst (calls_of calls fns)) <-> In fn fns.
  Proof.
    rewrite calls_of_fst, in_flat_map. split.
    - intros (g & Hg & [->|H]); auto. apply repeat_spec in H. subst; auto.
    - intros H. exists fn. split; [exact H|left; auto].
  Qed.
  (** A run of the functions [fns] on a directory that has right files for what they do not write. *)
  Lemma runs_ok calls fns d have : ready have fns -> holds d have ->
    exists d' cs, run_calls sort data (calls_of calls fns) d = Some (d', cs) /\
      cs = map (fun c => counts w sa (fst c)) (calls_of calls fns) /\
      holds d' have /\ (forall fn, In fn fns -> holds d' (writes fn)) /\
      (forall k, (forall fn, In fn fns -> ~ In k (writes fn)) -> fget d' k = fget d k).
  Proof.
    intros R H. unfold run_calls.
    destruct (run_ok (calls_of calls fns) d [] have) as (d' & E & A & B & C); [|exact H|].
    - rewrite calls_of_fst. apply ready_calls. exact R.
    - exists d', (map (fun c => counts w sa (fst c)) (calls_of calls fns)). cbn [app] in E. split; [exact E|]. split; [reflexivity|]. split; [exact A|]. split.
      + intros fn Hf. apply B, calls_in, Hf.
      + intros k Hk. apply C. intros fn Hf. apply calls_in in Hf. auto.
  Qed.
End Run.
