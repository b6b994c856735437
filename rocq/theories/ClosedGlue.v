(** The toolkit on inclusive ranges, instantiated with the items built from a text. *)
From Coq Require Import List Arith Bool Lia ZifyBool ZifyNat Permutation.
From Verif Require Import Spec MBase Lists FM MRle Runs RleProof MConstruct MPhi MRIndex MSrIndex MOldRle OldRle MBwt MClosed Util Phi
  ConstructProof Nav PhiProof BaseProof SamplingProof BackRange SubsProof ValidProof SrValid SrRuns SrProof RIndexProof Glue ClosedProof.
From Verif Require PsiProof.
Import ListNotations.

(** * F table *)
Lemma f_count_map N g c : c + 1 < N -> f_count (map g (seq 0 N)) c = Some (map (fun j => if j =? c + 1 then g j + 1 else g j) (seq 0 N)).
Proof.
  intros H. unfold f_count. rewrite nth_error_map_seq by auto. cbn [bind]. rewrite list_set_map by auto. f_equal.
  apply map_ext. intros j. destruct (Nat.eqb_spec j (c + 1)) as [->|]; auto.
Qed.
Lemma f_counts_map N : forall l g, Forall (fun c => c + 1 < N) l ->
  mfold f_count l (map g (seq 0 N)) = Some (map (fun j => g j + count (fun x => x + 1 =? j) l) (seq 0 N)).
Proof.
  induction l as [|c l IH]; intros g H.
  - cbn [mfold]. f_equal. apply map_ext. intros j. cbn. lia.
  - inversion H as [|? ? Hc Hl]; subst. cbn [mfold]. rewrite f_count_map by auto. cbn [bind]. rewrite IH by auto. f_equal.
    apply map_ext. intros j. unfold count. cbn [filter]. destruct (Nat.eqb_spec j (c + 1)), (Nat.eqb_spec (c + 1) j); cbn [length]; lia.
Qed.
Lemma f_sums_nth h : forall k a acc i, i < k ->
  nth_error (f_sums acc (map h (seq a k))) i = Some (acc + list_sum (map h (seq a (S i)))).
Proof.
  induction k as [|k IH]; intros a acc i Hi; [lia|]. cbn [seq map f_sums]. destruct i as [|i].
  - cbn. f_equal. lia.
  - cbn [nth_error]. rewrite IH by lia. f_equal.
    change (list_sum (h a :: map h (seq (S a) (S i)))) with (h a + list_sum (map h (seq (S a) (S i)))). lia.
Qed.
Lemma f_sums_length : forall f acc, length (f_sums acc f) = length f.
Proof. induction f as [|x f IH]; intros acc; cbn; auto. Qed.
Lemma sum_counts l c : list_sum (map (fun j => count (fun x => x + 1 =? j) l) (seq 0 (S c))) = count (fun x => x <? c) l.
Proof.
  rewrite <- count_below_sum. cbn [seq map]. rewrite <- (seq_shift c 0), map_map.
  change (list_sum (?h :: ?t)) with (h + list_sum t). rewrite (count_false (fun x => x + 1 =? 0)) by (intros; apply Nat.eqb_neq; lia).
  cbn [Nat.add]. f_equal. apply map_ext. intros d. induction l as [|x l IH]; auto.
  unfold count in *. cbn [filter count_occ]. destruct (Nat.eqb_spec (x + 1) (S d)), (Nat.eq_dec x d); cbn [length]; lia.
Qed.
Lemma f_table_gen N l : Forall (fun c => c + 1 < N) l ->
  exists f, (f <- mfold f_count l (repeat 0 N) ;; Some (f_sums 0 f)) = Some f /\ length f = N /\
    forall c, c < N -> nth_error f c = Some (smaller c l).
Proof.
  intros H. assert (E : repeat 0 N = map (fun _ => 0) (seq 0 N)).
  { rewrite <- (seq_length N 0) at 1. generalize (seq 0 N). induction l0; cbn; congruence. }
  rewrite E, f_counts_map by auto. cbn [bind]. eexists. split; [reflexivity|]. split.
  - rewrite f_sums_length, map_length, seq_length. auto.
  - intros c Hc. rewrite f_sums_nth by auto. cbn [Nat.add]. f_equal. exact (sum_counts l c).
Qed.
Lemma f_table_ok l : Forall (fun c => c < 255) l -> exists f, f_table l = Some f /\ length f = 256 /\
  forall c, c < 256 -> nth_error f c = Some (smaller c l).
Proof.
  intros H. apply f_table_gen. eapply Forall_impl; [|exact H]. cbn beta. intros a Ha. lia.
Qed.

Lemma rows_same p w sa s1 e1 s2 e2 : s1 < e1 -> row_interval p w sa s1 e1 -> row_interval p w sa s2 e2 -> s1 = s2 /\ e1 = e2.
Proof.
  intros H0 [H1 H2] [H3 H4].
  assert (G : forall i, s1 <= i < e1 <-> s2 <= i < e2) by (intros i; rewrite H2, H4; reflexivity).
  pose proof (proj1 (G s1)). pose proof (proj1 (G (e1 - 1))). pose proof (proj2 (G s2)). pose proof (proj2 (G (e2 - 1))). lia.
Qed.

Section CG.
  Variables (w sa data : list nat) (b s : nat).
  (** Bytes 0 and 1 stand for the terminator, 255 has no entry of F after it. *)
  Hypothesis Hw2 : Forall (fun c => 1 < c < 255) w.
  Hypothesis HSA : is_suffix_array (terminated w) sa.
  Hypothesis Hd : data = w \/ data = terminated w.
  Hypothesis Hb : 0 < b.
  Lemma Hw : zero_free w.
  Proof. eapply Forall_impl; [|exact Hw2]. cbn beta. intros; lia. Qed.
  Let T := ctext w sa.
  Let n := len T.
  Let HT : text_ok T := ctext_ok w sa Hw HSA.
  Let HS : is_suffix_array T sa := ctext_sa w sa Hw HSA.
  Let bwl := BW (terminated w) sa.
  Definition cdec (c : nat) : nat := if c =? 1 then 0 else wcomp w sa c.

  Lemma w_range c : In c w -> 1 < c < 255.
  Proof. pose proof Hw2 as H. rewrite Forall_forall in H. auto. Qed.
  Lemma bwl_in c : In c bwl <-> c = 0 \/ In c w.
  Proof.
    unfold bwl. rewrite (BW_in w sa Hw HSA). unfold terminated. rewrite in_app_iff. cbn [In]. split; [intros [H|[H|[]]]; auto|intros [->|H]; auto].
  Qed.
  Lemma bwl_lt : Forall (fun c => c < 255) bwl.
  Proof. rewrite Forall_forall. intros c Hc. apply bwl_in in Hc. destruct Hc as [->|Hc]; [lia|]. apply w_range in Hc. lia. Qed.
  Lemma rz_in c : In c (map replace_zero bwl) <-> c = 1 \/ In c w.
  Proof.
    rewrite in_map_iff. unfold replace_zero. split.
    - intros (d & <- & H). apply bwl_in in H. destruct H as [->|H]; auto. pose proof (w_range _ H).
      destruct (Nat.eqb_spec d 0); [lia|auto].
    - intros [->|H]; [exists 0|exists c]; rewrite bwl_in; [auto|]. pose proof (w_range _ H).
      destruct (Nat.eqb_spec c 0); [lia|auto].
  Qed.
  Lemma cdec_w c : In c w -> cdec c = wcomp w sa c /\ 0 < cdec c.
  Proof.
    intros H. pose proof (w_range _ H). unfold cdec. destruct (Nat.eqb_spec c 1); [lia|]. split; auto.
    apply (base_symbol_range w sa Hw HSA); auto.
  Qed.
  Lemma cdec_BW : BW T sa = map cdec (map replace_zero bwl).
  Proof.
    unfold T. rewrite ctext_BW, map_map. apply map_ext_in. intros c Hc. apply bwl_in in Hc. unfold replace_zero.
    destruct Hc as [->|Hc]; [cbn; apply wcomp_0|]. pose proof (w_range _ Hc).
    destruct (Nat.eqb_spec c 0); [lia|]. symmetry. apply cdec_w; auto.
  Qed.
  Lemma cdec_inj c d : In c (map replace_zero bwl) -> In d (map replace_zero bwl) -> cdec c = cdec d -> c = d.
  Proof.
    rewrite !rz_in. intros [->|Hc] [->|Hdd] E; auto.
    - apply cdec_w in Hdd. unfold cdec in E at 1. cbn in E. lia.
    - apply cdec_w in Hc. unfold cdec in E at 2. cbn in E. lia.
    - destruct (cdec_w c Hc) as [E1 _], (cdec_w d Hdd) as [E2 _]. rewrite E1, E2 in E.
      apply (comp_inj 256 eq_refl bwl) in E; auto; apply bwl_in; auto.
  Qed.
  Lemma smaller_S c l : smaller (c + 1) l = smaller c l + count (Nat.eqb c) l.
  Proof. rewrite Nat.add_1_r. unfold smaller. exact (PsiProof.count_lt_S l c). Qed.
  Lemma smaller_Cc c : In c w -> smaller c bwl = Cc T sa (cdec c).
  Proof.
    intros H. destruct (cdec_w c H) as [-> _]. unfold Cc, T. rewrite ctext_BW, count_map. unfold smaller.
    change (length (filter (fun x => x <? c) bwl)) with (count (fun x => x <? c) bwl).
    apply count_ext_in. intros x Hx. symmetry. apply (comp_lt_iff 256 eq_refl bwl); auto; try (apply (BW_bytes w sa Hw HSA)); apply bwl_in; auto.
  Qed.
  Lemma bwl_length : length bwl = n.
  Proof. unfold bwl. rewrite (BW_length _ sa HSA). symmetry. apply ctext_len. Qed.

  Section Table.
    Variable f : list nat.
    Hypothesis Hlen : length f = 256.
    Hypothesis Hf : forall c, c < 256 -> nth_error f c = Some (smaller c bwl).
    Lemma table_good c : In c w -> nth_error f c = Some (Cc T sa (cdec c)) /\
      exists y, nth_error f (c + 1) = Some y /\ Cc T sa (cdec c) < y.
    Proof.
      intros H. pose proof (w_range c H) as Hc. rewrite Hf, smaller_Cc by (auto; lia). split; auto.
      exists (smaller (c + 1) bwl). split; [apply Hf; lia|]. rewrite smaller_S, smaller_Cc by auto.
      assert (Hin : In c (filter (Nat.eqb c) bwl)) by (apply filter_In; split; [apply bwl_in; auto|apply Nat.eqb_refl]).
      unfold count. destruct (filter (Nat.eqb c) bwl); [destruct Hin|cbn [length]; lia].
    Qed.
    Lemma table_bad c : c < 256 -> ~ In c w -> exists x, nth_error f c = Some x /\
      ((c = length f - 1 /\ x = n) \/ exists y, nth_error f (c + 1) = Some y /\ (y <= x \/ ~ In c (map replace_zero bwl))).
    Proof.
      intros Hc Hn. exists (smaller c bwl). split; [auto|]. destruct (Nat.eq_dec c 255) as [->|H255].
      - left. split; [lia|]. unfold smaller. change (length (filter (fun x => x <? 255) bwl)) with (count (fun x => x <? 255) bwl).
        rewrite <- bwl_length. apply count_true. intros x Hx. pose proof bwl_lt as HL. rewrite Forall_forall in HL.
        apply HL, Nat.ltb_lt in Hx. auto.
      - right. exists (smaller (c + 1) bwl). split; [apply Hf; lia|]. destruct (Nat.eq_dec c 0) as [->|H0].
        + right. rewrite rz_in. intros [G|G]; [discriminate|auto].
        + left. rewrite smaller_S, (count_false (Nat.eqb c)); [lia|]. intros x Hx. apply Nat.eqb_neq. intros <-.
          apply bwl_in in Hx. tauto.
    Qed.
  End Table.

  (** ** Construction *)
  Lemma items : exists R bwt f, old_construct b (map replace_zero bwl) = Some bwt /\ old_repr b 255 R bwt /\
    expand R = map replace_zero bwl /\ f_table bwl = Some f /\ length f = 256 /\
    forall c, c < 256 -> nth_error f c = Some (smaller c bwl).
  Proof.
    destruct (old_construct_repr b (map replace_zero bwl) Hb) as (bwt & R & E1 & E2 & E3).
    - intros E. apply (f_equal (@length nat)) in E. rewrite map_length, bwl_length in E. pose proof (n_pos T HT) as G. fold n in G. cbn in E. lia.
    - rewrite Forall_forall. intros c Hc. apply rz_in in Hc. destruct Hc as [->|Hc]; [lia|]. apply w_range in Hc. lia.
    - destruct (f_table_ok bwl bwl_lt) as (f & F1 & F2 & F3). exists R, bwt, f. auto 10.
  Qed.

  Section Items.
    Variables (R : list (nat * nat)) (bwt : oldrle) (f : list nat).
    Hypothesis HR : old_repr b 255 R bwt.
    Hypothesis ER : expand R = map replace_zero bwl.
    Hypothesis Hlen : length f = 256.
    Hypothesis Hf : forall c, c < 256 -> nth_error f c = Some (smaller c bwl).
    Lemma ci_D : BW T sa = map cdec (expand R).
    Proof. rewrite ER. apply cdec_BW. Qed.
    Lemma ci_I c d : In c (expand R) -> In d (expand R) -> cdec c = cdec d -> c = d.
    Proof. rewrite ER. apply cdec_inj. Qed.
    Lemma ci_gin c : In c w -> In c (expand R) /\ c < 255 /\ 0 < cdec c.
    Proof. intros H. rewrite ER, rz_in. pose proof (w_range c H). pose proof (cdec_w c H). split; auto. split; [lia|tauto]. Qed.
    Lemma ci_good c : In c (expand R) -> 0 < cdec c -> In c w.
    Proof. rewrite ER, rz_in. intros [->|H]; auto. unfold cdec. cbn. lia. Qed.
    Lemma ci_gf c : In c w -> nth_error f c = Some (Cc T sa (cdec c)) /\
      exists y, nth_error f (c + 1) = Some y /\ Cc T sa (cdec c) < y.
    Proof. apply table_good; auto. Qed.
    Lemma ci_bad c : c < 256 -> ~ In c w -> exists x, nth_error f c = Some x /\
      ((c = length f - 1 /\ x = n) \/ exists y, nth_error f (c + 1) = Some y /\ (y <= x \/ ~ In c (expand R))).
    Proof. rewrite ER. apply table_bad; auto. Qed.

    Lemma dec_pattern p : Forall (fun c => In c w) p -> map cdec p = map (wcomp w sa) p.
    Proof. intros H. rewrite Forall_forall in H. apply map_ext_in. intros c Hc. apply cdec_w. auto. Qed.
    Lemma found_rows p st e : p <> [] -> Forall (fun c => In c w) p -> is_range T sa (map cdec p) st e ->
      row_interval p w sa st e /\ e <= n.
    Proof.
      intros Hp Hg HI. rewrite dec_pattern in HI by auto. split; [|apply HI].
      apply (range_rows w sa Hw HSA); auto. split; auto. rewrite Forall_forall in Hg. auto.
    Qed.
    Lemma missing_none p rng : p <> [] -> missing T sa cdec (fun c => In c w) p rng -> rng = (1, 0) /\ forall i, ~ occurs_at p w i.
    Proof.
      intros Hp [E H]. split; auto. intros i Hi.
      assert (Hg : Forall (fun c => In c w) p).
      { destruct Hi as (u & v & Ew & _). rewrite Forall_forall. intros c Hc. rewrite Ew. apply in_or_app. right. apply in_or_app. auto. }
      destruct (H Hg) as (st & Hst). destruct (found_rows p st st Hp Hg Hst) as [[Hr1 Hr2] _].
      rewrite dec_pattern in Hst by auto. rewrite Forall_forall in Hg.
      apply (range_occurs w sa Hw HSA p st st Hp Hg Hst) in Hi. destruct Hi as (j & Hj & _). lia.
    Qed.
    Lemma short_pattern p st e : p <> [] -> Forall (fun c => In c w) p -> is_range T sa (map cdec p) st e -> st < e -> length p <= n.
    Proof.
      intros Hp Hg HI Hlt. rewrite dec_pattern in HI by auto. rewrite Forall_forall in Hg.
      apply Nat.lt_le_incl. eapply (pattern_short w sa Hw HSA p st e); eauto.
    Qed.
    Lemma down_rows st e : e <= n -> down sa st (e - st) = rev (rows sa st e).
    Proof. intros He. unfold down. rewrite map_rev, (rows_map T sa st e HS He). auto. Qed.

    Section Sampled.
      Variables (ks : list nat) (x : cix).
      Hypothesis HF : subs_facts T sa s ks.
      Hypothesis Hx : cx_bwt x = bwt /\ cx_f x = f /\ cx_rate x = s /\
        cx_samples x = map (fun k => tpos T sa (nth k (trows T sa) 0)) ks /\
        cx_idx x = bits_of ks (length (hrows T sa)).
      Definition answers (count : option (nat * nat)) (locate : option (list nat)) (p : list nat) : Prop :=
        (exists st e, st < e /\ row_interval p w sa st e /\ count = Some (st, e - 1) /\ locate = Some (rev (rows sa st e))) \/
        ((forall i, ~ occurs_at p w i) /\ count = Some (1, 0) /\ locate = Some []).
      Lemma sampled_answers phi_range p : p <> [] -> Forall (fun c => c < 256) p ->
        (forall a b, 1 <= a -> a <= b -> b < n -> phi_range (a, b - 1) (SA sa b) = Some (down sa a (b - a))) ->
        answers (closed_count x p) (closed_locate x phi_range p) p.
      Proof.
        intros Hp HB Hphi. destruct Hx as (X1 & X2 & X3 & X4 & X5).
        destruct (closed_locate_ok T sa HT HS b R bwt HR cdec ci_D ci_I f (fun c => In c w) ci_gin ci_good ci_gf ci_bad Hlen
                    s ks HF x X1 X2 X3 X4 X5 (length p - 1) phi_range p Hp HB eq_refl
                    (fun st e => short_pattern p st e Hp) Hphi) as (rng & E & H).
        rewrite E. destruct H as [(Hg & st & e & -> & H1 & H2 & H3 & ->)|[Hm ->]].
        - left. destruct (found_rows p st e Hp Hg H3) as [Hr He]. exists st, e. rewrite down_rows by auto. auto.
        - right. destruct (missing_none p rng Hp Hm) as [-> Hn]. auto.
      Qed.
      Lemma closed_lf_of : cx_lf x = clf T bwt f.
      Proof.
        destruct Hx as (X1 & X2 & X3 & X4 & X5).
        apply (cx_lf_ok T sa HS b R bwt HR cdec ci_D f x X1 X2).
      Qed.
      Lemma closed_size_of : cx_size x = n.
      Proof. destruct Hx as (X1 & _). apply (cx_size_ok T sa HS b R bwt HR cdec ci_D x X1). Qed.
      Lemma simple_answers phi p : p <> [] -> Forall (fun c => c < 256) p ->
        (forall y, S y < n -> (forall l, l < s -> keptb T sa ks (lfi T sa l y) = false) ->
           exists bb, phi (SA sa (S y)) = Some (SA sa y, bb)) ->
        answers (closed_count x p) (closed_locate x (phi_for_range_simple phi (old_break_in_runs (cx_bwt x)) (cx_lf x)
          (cx_sample_at x) (cx_rate x) (cx_size x)) p) p.
      Proof.
        intros Hp HB Hphi. apply sampled_answers; auto. intros a b0 H1 H2 H3. rewrite closed_lf_of, closed_size_of.
        destruct Hx as (X1 & X2 & X3 & X4 & X5). rewrite X1, X3.
        apply (closed_simple_range T sa HT HS b R bwt HR cdec ci_D ci_I f (fun c => In c w) ci_gin ci_good ci_gf ci_bad Hlen
                 s ks HF x X1 X3 X4 X5 phi a b0 H1 H2 H3 Hphi).
      Qed.
      Lemma original_answers phiv p : p <> [] -> Forall (fun c => c < 256) p ->
        (forall z, z < n -> exists vv, phiv (SA sa z) = Some vv) ->
        (forall y v, S y < n -> phiv (SA sa (S y)) = Some (v, true) -> v = SA sa y) ->
        (forall y, S y < n -> (forall l, l < s -> keptb T sa ks (lfi T sa l y) = false) ->
           exists bb, phiv (SA sa (S y)) = Some (SA sa y, bb)) ->
        answers (closed_count x p) (closed_locate x (phi_for_range_original phiv (old_break_in_runs (cx_bwt x)) (cx_lf x)
          (cx_sample_at x) (cx_rate x) (cx_size x) (cx_size x + 2) (2 * cx_rate x + 1)) p) p.
      Proof.
        intros Hp HB Ht Htr Hphi. apply sampled_answers; auto. intros a b0 H1 H2 H3. rewrite closed_lf_of, closed_size_of.
        destruct Hx as (X1 & X2 & X3 & X4 & X5). rewrite X1, X3.
        apply (closed_original_range T sa HT HS b R bwt HR cdec ci_D ci_I f (fun c => In c w) ci_gin ci_good ci_gf ci_bad Hlen
                 s ks HF x X1 X3 X4 X5 phiv Ht Htr Hphi a b0 H1 H2 H3).
      Qed.
    End Sampled.
  End Items.

  (** ** The sampled assemblies *)
  Notation smarks ks := (map (fun k => tpos T sa (csucc T (nth k (trows T sa) 0))) ks).
  Lemma sampled_phi ks ix R y v : sri_facts w sa s ks R ix -> S y < n ->
    (forall l, l < s -> keptb T sa ks (lfi T sa l y) = false) ->
    exists bb, ri_phi n (sr_marks ix) (sr_samples ix) (links_default (sr_links ix) v) sample_validator_default
                (SA sa (S y)) = Some (SA sa y, bb).
  Proof.
    intros F Hy Hl. destruct (sri_phi w sa Hw HSA s ks R ix y F Hy Hl) as (bb & E). fold T in E. fold n in E. revert E.
    unfold ri_phi, phi_backward, phi_fn, get_sample_for_phi, links_default, sample_validator_default.
    destruct (circular_predecessor _ _ _) as [[k m]|]; cbn [bind]; [|discriminate].
    destruct (nth_error (sr_links ix) k) as [l|]; cbn [bind]; [|discriminate].
    destruct (nth_error (sr_samples ix) l) as [z|]; cbn [bind]; [|discriminate].
    destruct (umod _ _) as [u|]; cbn [bind]; [|discriminate]. intros E. exists v. congruence.
  Qed.

  Theorem construct_closed_ok : exists x, construct_closed b s data sa = Some x.
  Proof.
    destruct (construct_base_ok w sa Hw HSA data Hd) as (ba & R0 & Eb & Fb).
    destruct (construct_sri_valid_ok w sa data Hw HSA Hd s) as (ix & R1 & ks & Ei & Fi & Ev & Ea).
    destruct items as (R & bwt & f & E1 & E2 & E3 & E4 & E5 & E6).
    unfold construct_closed. rewrite Eb. cbn [bind]. rewrite Ei. cbn [bind]. rewrite (bf_bwt _ _ _ _ Fb).
    fold bwl. rewrite E1. cbn [bind]. rewrite E4. cbn [bind]. eauto.
  Qed.
  (** The same items with areas that are longer by [e]. *)
  Definition wider (e : nat) (x : cix) : cix :=
    mk_cix (cx_bwt x) (cx_f x) (cx_rate x) (cx_samples x) (cx_idx x) (cx_marks x) (cx_links x) (cx_valid x)
      (map (fun a => a + e) (cx_areas x)).
  Theorem closed_answers_wider e x p : e <= 1 -> construct_closed b s data sa = Some x -> p <> [] -> Forall (fun c => c < 256) p ->
    answers (closed_count x p) (closed_simple_locate x p) p /\
    answers (closed_count x p) (closed_marks_locate x p) p /\
    answers (closed_count (wider e x) p) (closed_areas_locate (wider e x) p) p.
  Proof.
    intros He Ex Hp HB.
    destruct (construct_base_ok w sa Hw HSA data Hd) as (ba & R0 & Eb & Fb).
    destruct (construct_sri_valid_ok w sa data Hw HSA Hd s) as (ix & R1 & ks & Ei & Fi & Ev & Ea).
    destruct items as (R & bwt & f & E1 & E2 & E3 & E4 & E5 & E6).
    unfold construct_closed in Ex. rewrite Eb in Ex. cbn [bind] in Ex. rewrite Ei in Ex. cbn [bind] in Ex.
    rewrite (bf_bwt _ _ _ _ Fb) in Ex. fold bwl in Ex. rewrite E1 in Ex. cbn [bind] in Ex. rewrite E4 in Ex. cbn [bind] in Ex.
    pose proof (sx_subs _ _ _ _ _ _ Fi) as HF.
    assert (Hx : cx_bwt x = bwt /\ cx_f x = f /\ cx_rate x = s /\
        cx_samples x = map (fun k => tpos T sa (nth k (trows T sa) 0)) ks /\
        cx_idx x = bits_of ks (length (hrows T sa))).
    { injection Ex as <-. cbn [cx_bwt cx_f cx_rate cx_samples cx_idx]. split; auto. split; auto. split; [apply (sx_rate _ _ _ _ _ _ Fi)|].
      split; [apply (sx_samples _ _ _ _ _ _ Fi)|apply (sx_idx _ _ _ _ _ _ Fi)]. }
    assert (Hm : cx_marks x = sr_marks ix /\ cx_samples x = sr_samples ix /\ cx_links x = sr_links ix /\
                 cx_valid x = sr_valid_marks ix /\ cx_areas x = sr_valid_areas ix).
    { injection Ex as <-. cbn. auto. }
    destruct Hm as (M1 & M2 & M3 & M4 & M5).
    pose proof (closed_size_of R bwt f E2 E3 ks x Hx) as Hsz.
    split; [|split].
    - unfold closed_simple_locate. apply (simple_answers R bwt f E2 E3 E5 E6 ks x HF Hx); auto. intros y Hy Hl.
      rewrite Hsz, M1, M2, M3. eapply sampled_phi; eauto.
    - unfold closed_marks_locate, closed_original_locate.
      assert (EV : ri_phi (cx_size x) (cx_marks x) (cx_samples x) (links_validity (cx_links x) (cx_valid x)) sample_validator_default
                   = ri_phi n (bits_of (smarks ks) n) (map (fun k => tpos T sa (nth k (trows T sa) 0)) ks)
                       (links_validity (sort_indices (smarks ks)) (vbits T sa ks)) sample_validator_default).
      { rewrite Hsz, M1, M2, M3, M4, Ev, (sx_marks _ _ _ _ _ _ Fi), (sx_samples _ _ _ _ _ _ Fi), (sx_links _ _ _ _ _ _ Fi). auto. }
      rewrite EV. apply (original_answers R bwt f E2 E3 E5 E6 ks x HF Hx); auto.
      + exact (phiv_total T sa HT HS s ks HF _ (default_val T sa ks)).
      + exact (phiv_true T sa HT HS s ks HF _ (default_val T sa ks)).
      + exact (phiv_reach T sa HT HS s ks HF _ (default_val T sa ks)).
    - assert (Hy : cx_bwt (wider e x) = bwt /\ cx_f (wider e x) = f /\ cx_rate (wider e x) = s /\
        cx_samples (wider e x) = map (fun k => tpos T sa (nth k (trows T sa) 0)) ks /\
        cx_idx (wider e x) = bits_of ks (length (hrows T sa))) by exact Hx.
      unfold closed_areas_locate, closed_original_locate.
      assert (EV : ri_phi (cx_size (wider e x)) (cx_marks (wider e x)) (cx_samples (wider e x)) (links_validity (cx_links (wider e x)) (cx_valid (wider e x)))
                     (sample_validator (bv_rank0 (cx_valid (wider e x))) (nth_error (cx_areas (wider e x))))
                   = ri_phi n (bits_of (smarks ks) n) (map (fun k => tpos T sa (nth k (trows T sa) 0)) ks)
                       (links_validity (sort_indices (smarks ks)) (vbits T sa ks))
                       (sample_validator (bv_rank0 (vbits T sa ks)) (nth_error (map (fun j => varea T sa ks j + e) (vinvs T sa ks))))).
      { change (cx_size (wider e x)) with (cx_size x). unfold wider. cbn [cx_marks cx_samples cx_links cx_valid cx_areas].
        rewrite Hsz, M1, M2, M3, M4, M5, Ev, Ea, map_map, (sx_marks _ _ _ _ _ _ Fi), (sx_samples _ _ _ _ _ _ Fi), (sx_links _ _ _ _ _ _ Fi). auto. }
      rewrite EV. apply (original_answers R bwt f E2 E3 E5 E6 ks (wider e x) HF Hy); auto.
      + exact (phiv_total T sa HT HS s ks HF _ (fun k0 h v => area_val_plus T sa ks e k0 h v He)).
      + exact (phiv_true T sa HT HS s ks HF _ (fun k0 h v => area_val_plus T sa ks e k0 h v He)).
      + exact (phiv_reach T sa HT HS s ks HF _ (fun k0 h v => area_val_plus T sa ks e k0 h v He)).
  Qed.
  Theorem closed_answers x p : construct_closed b s data sa = Some x -> p <> [] -> Forall (fun c => c < 256) p ->
    answers (closed_count x p) (closed_simple_locate x p) p /\
    answers (closed_count x p) (closed_marks_locate x p) p /\
    answers (closed_count x p) (closed_areas_locate x p) p.
  Proof.
    intros Ex Hp HB. pose proof (closed_answers_wider 0 x p ltac:(lia) Ex Hp HB) as H. replace (wider 0 x) with x in H; auto.
    destruct x as [x1 x2 x3 x4 x5 x6 x7 x8 x9]. unfold wider. cbn. f_equal. rewrite <- (map_id x9) at 1. apply map_ext. intros; lia.
  Qed.

  (** ** The assembly with all samples *)
  Lemma range_exists q : exists st e, is_range T sa q st e.
  Proof.
    induction q as [|c q (st & e & IH)]; [exists 0, n; apply is_range_full|].
    eexists _, _. apply (is_range_step T sa HT HS); eauto.
  Qed.
  Lemma phi_wrap gs : phi_backward (circular_predecessor (bits_of (hmarks T sa) n) n) gs n n
    = phi_backward (circular_predecessor (bits_of (hmarks T sa) n) n) gs n 0.
  Proof.
    pose proof (n_pos T HT) as Hn. fold n in Hn.
    rewrite (bits_of_ext (hmarks T sa) (sorted_values (hmarks T sa))) by (intros; symmetry; apply sorted_values_in).
    set (ms := sorted_values (hmarks T sa)).
    assert (Hs : ssorted ms) by (apply sorted_values_sorted, (hmarks_NoDup T sa HT HS)).
    assert (Hms : forall m, In m ms <-> is_hmark T sa m) by (intros m; unfold ms; rewrite sorted_values_in; apply (hmarks_in T sa HT HS)).
    assert (Hlt : forall m, In m ms -> m < n) by (intros m Hm; apply Hms in Hm; eapply is_hmark_lt; eauto).
    assert (Hlast : In (n - 1) ms) by (apply Hms, last_hmark; auto).
    assert (Hne : ms <> []) by (intros E; rewrite E in Hlast; destruct Hlast).
    destruct (In_nth _ _ 0 Hlast) as (i & Hi & Ei).
    assert (EL : nth (length ms - 1) ms 0 = n - 1).
    { pose proof (ssorted_nth_le ms i (length ms - 1) Hs ltac:(lia) ltac:(lia)).
      pose proof (Hlt (nth (length ms - 1) ms 0) ltac:(apply nth_In; lia)). lia. }
    destruct (circ_pred_ok ms n Hs Hlt Hne n ltac:(lia)) as (k & Hk & Hp & Hc).
    destruct (circ_pred_ok ms n Hs Hlt Hne 0 ltac:(lia)) as (k0 & Hk0 & Hp0 & Hc0).
    assert (Ek0 : k0 = length ms - 1) by (destruct Hc0 as [[G _]|[_ G]]; [lia|auto]).
    assert (Ek : nth k ms 0 = n - 1).
    { destruct Hc as [[_ G]|[G _]]; [|specialize (G _ Hlast); lia].
      specialize (G _ Hlast ltac:(lia)). pose proof (Hlt (nth k ms 0) ltac:(apply nth_In; lia)). lia. }
    assert (Ekk : k = k0).
    { subst k0. destruct (Nat.lt_trichotomy k (length ms - 1)) as [G|[G|G]]; [|auto|lia].
      pose proof (ssorted_nth ms Hs k (length ms - 1) G ltac:(lia)). lia. }
    rewrite <- Ekk in Hp0. unfold phi_backward, phi_fn. rewrite Hp, Hp0. cbn [bind]. rewrite Ek.
    rewrite (proj2 (Nat.ltb_lt (n - 1) n)) by lia. rewrite (proj2 (Nat.ltb_ge (n - 1) 0)) by lia.
    replace (n - (n - 1)) with (0 + 1) by lia. auto.
  Qed.
  Theorem construct_cri_ok : exists x, construct_cri b data sa = Some x.
  Proof.
    destruct (construct_base_ok w sa Hw HSA data Hd) as (ba & R0 & Eb & Fb).
    destruct (construct_rindex_ok w sa data Hw HSA Hd) as (ix & R1 & Ei & _).
    destruct items as (R & bwt & f & E1 & E2 & E3 & E4 & E5 & E6).
    unfold construct_cri. rewrite Eb. cbn [bind]. rewrite Ei. cbn [bind]. rewrite (bf_bwt _ _ _ _ Fb).
    fold bwl. rewrite E1. cbn [bind]. rewrite E4. cbn [bind]. eauto.
  Qed.
  Section Classic.
    Variable x : cri.
    Hypothesis Ex : construct_cri b data sa = Some x.
    Lemma cri_facts : exists R bwt f, old_repr b 255 R bwt /\ expand R = map replace_zero bwl /\ length f = 256 /\
      (forall c, c < 256 -> nth_error f c = Some (smaller c bwl)) /\ cr_bwt x = bwt /\ cr_f x = f /\ cr_samples x = tmarks T sa /\
      cr_marks x = bits_of (hmarks T sa) n /\ cr_links x = blinks T sa.
    Proof.
      destruct (construct_base_ok w sa Hw HSA data Hd) as (ba & R0 & Eb & Fb).
      destruct (construct_rindex_ok w sa data Hw HSA Hd) as (ix & R1 & Ei & _ & _ & _ & Es & Em & El).
      destruct items as (R & bwt & f & E1 & E2 & E3 & E4 & E5 & E6).
      pose proof Ex as G. unfold construct_cri in G. rewrite Eb in G. cbn [bind] in G. rewrite Ei in G. cbn [bind] in G.
      rewrite (bf_bwt _ _ _ _ Fb) in G. fold bwl in G. rewrite E1 in G. cbn [bind] in G. rewrite E4 in G. cbn [bind] in G.
      exists R, bwt, f. injection G as <-. cbn [cr_bwt cr_f cr_samples cr_marks cr_links]. auto 12.
    Qed.
    Lemma tpos_value i : i < n -> 0 < SA sa i -> tpos T sa i + 1 = SA sa i.
    Proof.
      intros Hi H0. pose proof (SA_lt T sa HS i Hi) as G. fold n in G. unfold tpos, cpred. fold n.
      replace (SA sa i + n - 1) with (SA sa i - 1 + 1 * n) by lia. rewrite Nat.mod_add by lia. rewrite Nat.mod_small by lia. lia.
    Qed.
    (** Locate of the assembly: the first value is always the one after the last sample. *)
    Theorem classic_answers p : p <> [] -> Forall (fun c => c < 256) p ->
      (exists st e, st < e /\ row_interval p w sa st e /\ cr_count x p = Some (st, e - 1) /\
         cr_locate x p = Some (tpos T sa (n - 1) + 1 :: rev (rows sa (n - (e - st)) (n - 1)))) \/
      ((forall i, ~ occurs_at p w i) /\ cr_count x p = Some (1, 0) /\ cr_locate x p = Some []).
    Proof.
      intros Hp HB. destruct cri_facts as (R & bwt & f & E2 & E3 & E5 & E6 & X1 & X2 & X3 & X4 & X5).
      pose proof (n_pos T HT) as Hn. fold n in Hn.
      assert (Esz : old_size (cr_bwt x) = n) by (rewrite X1; apply (bx_size T sa HS b R bwt E2 cdec (ci_D R E3))).
      assert (HP : forall v, v < n -> exists bb, cr_phi x v = Some (PHI T sa v, bb)).
      { intros v Hv. unfold cr_phi. rewrite Esz, X3, X4, X5. apply (phi_full_ok T sa HT HS); auto. }
      destruct (cr_locate_ok T sa HT HS b R bwt E2 cdec (ci_D R E3) (ci_I R E3) f (fun c => In c w) (ci_gin R f E3 E5 E6) (ci_good R f E3 E5 E6)
                  (ci_gf f E5 E6) (ci_bad R f E3 E5 E6) E5 x X1 X2 X3) with (p := p) as (rng & E & H); auto.
      { intros y Hy. destruct (HP (SA sa (S y))) as (bb & G); [apply (SA_lt T sa HS); auto|]. exists bb. rewrite G.
        rewrite (PHI_SA T sa HS); auto. }
      { intros H2. fold n in H2. fold n. pose proof (SA_lt T sa HS (n - 1) ltac:(fold n; lia)) as Hl.
        pose proof (PHI_SA T sa HS (n - 2) ltac:(fold n; lia)) as EP. replace (S (n - 2)) with (n - 1) in EP by lia.
        destruct (Nat.eq_dec (SA sa (n - 1)) 0) as [E0|E0].
        - replace (tpos T sa (n - 1) + 1) with n.
          + destruct (HP 0 Hn) as (bb & G). exists bb. unfold cr_phi, ri_phi in *. rewrite Esz, X4 in *.
            rewrite E0 in EP. rewrite phi_wrap, G, EP. auto.
          + unfold tpos, cpred. fold n. rewrite E0. cbn [Nat.add]. rewrite Nat.mod_small by lia. lia.
        - rewrite tpos_value by lia. destruct (HP _ Hl) as (bb & G). exists bb. rewrite G, EP. auto. }
      rewrite E. destruct H as [(Hg & st & e & -> & H1 & H2 & H3 & ->)|[Hm ->]].
      - left. destruct (found_rows p st e Hp Hg H3) as [Hr He]. exists st, e. split; auto. split; auto. split; auto. f_equal. f_equal.
        fold n. rewrite <- down_rows by lia. f_equal. lia.
      - right. destruct (missing_none f E5 E6 p rng Hp Hm) as [-> Hno]. auto.
    Qed.

    (** GetLastValue *)
    Lemma last_value_next p c st e st' e' v : In c w -> row_interval (c :: p) w sa st' e' -> st' < e' ->
      Forall (fun c => In c w) p -> is_range T sa (map cdec p) st e -> st < e ->
      (v = SA sa (e - 1) \/ (e = n /\ v = tpos T sa (n - 1) + 1)) ->
      cr_last_value x (st, e - 1) (st', e' - 1) c (Some v) = Some (Some (SA sa (e' - 1))).
    Proof.
      intros Hc Hr' Hlt' Hg HI Hlt Hv. destruct cri_facts as (R & bwt & f & E2 & E3 & E5 & E6 & X1 & X2 & X3 & X4 & X5).
      pose proof (is_range_step T sa HT HS (cdec c) (map cdec p) st e HI) as HI2.
      change (cdec c :: map cdec p) with (map cdec (c :: p)) in HI2.
      destruct (found_rows (c :: p) _ _ ltac:(discriminate) ltac:(constructor; auto) HI2) as [Hr2 He2].
      assert (He : e <= n) by (apply HI).
      destruct (rows_same _ _ _ _ _ _ _ Hlt' Hr' Hr2) as [-> ->].
      destruct (last_value_ok T sa HT HS b R bwt E2 cdec (ci_D R E3) (ci_I R E3) f (fun c => In c w) (ci_gin R f E3 E5 E6) (ci_good R f E3 E5 E6)
                  (ci_gf f E5 E6) (ci_bad R f E3 E5 E6) E5 x X1 X3 c st e v) as [G1 G2]; auto.
      { destruct Hv as [->|[_ ->]]; [right; auto|left; lia]. }
      rewrite G1. destruct (Nat.eqb_spec (nth (e - 1) (expand R) 0) c) as [Eb|Eb]; auto. rewrite (G2 Eb). do 2 f_equal.
      destruct Hv as [->|[-> ->]]; auto.
      pose proof (SA_step T sa HT HS R cdec (ci_D R E3) (ci_I R E3) f (fun c => In c w) (ci_gin R f E3 E5 E6) (ci_good R f E3 E5 E6)
                  (ci_gf f E5 E6) (ci_bad R f E3 E5 E6) E5 c n Hc) as [G3 _]; [apply (n_pos T HT)|auto|auto|].
      rewrite tpos_value by (auto; lia). auto.
    Qed.
  End Classic.

  (** ** In the vocabulary of the specification *)
  Lemma rows_exact p st e : p <> [] -> row_interval p w sa st e -> st < e -> exact_answer p w (rows sa st e).
  Proof.
    intros Hp Hr Hlt. pose proof Hr as [H1 H2].
    assert (Ho : pattern_over w p).
    { split; auto. destruct (proj1 (H2 st) ltac:(lia)) as (a & _ & u & v & E & _). intros c Hc. rewrite E.
      apply in_or_app. right. apply in_or_app. auto. }
    destruct (range_exists (map (wcomp w sa) p)) as (s2 & e2 & HI).
    pose proof (range_rows w sa Hw HSA p s2 e2 Ho HI) as Hr2. rewrite (rows_unique _ _ _ _ _ _ _ Hr Hr2).
    apply (range_rows_exact w sa Hw HSA p s2 e2 Ho HI).
  Qed.
  Lemma answers_exact count locate p : p <> [] -> answers count locate p ->
    (exists l, locate = Some l /\ exact_answer p w l) /\
    ((exists st e, st < e /\ row_interval p w sa st e /\ count = Some (st, e - 1)) \/
     (count = Some (1, 0) /\ forall i, ~ occurs_at p w i)).
  Proof.
    intros Hp [(st & e & Hlt & Hr & -> & ->)|(Hn & -> & ->)].
    - split; [|left; eauto]. exists (rev (rows sa st e)). split; auto. apply exact_rev, rows_exact; auto.
    - split; [|right; auto]. exists []. split; auto. split; [constructor|]. intros i. split; [intros []|intros H; destruct (Hn i H)].
  Qed.
  Lemma last_value_rows x p c st e st' e' : construct_cri b data sa = Some x -> p <> [] ->
    row_interval p w sa st e -> st < e -> row_interval (c :: p) w sa st' e' -> st' < e' ->
    cr_last_value x (st, e - 1) (st', e' - 1) c (nth_error sa (e - 1)) = Some (nth_error sa (e' - 1)).
  Proof.
    intros Ex Hp Hr Hlt Hr' Hlt'. pose proof Hr as [H1 H2]. pose proof Hr' as [H1' H2'].
    destruct (proj1 (H2' st') ltac:(lia)) as (a & _ & u & v & E & _).
    assert (Hin : forall d, In d (c :: p) -> In d w) by (intros d Hdd; rewrite E; apply in_or_app; right; apply in_or_app; auto).
    assert (Hg : Forall (fun d => In d w) p) by (rewrite Forall_forall; intros d Hdd; apply Hin; right; auto).
    destruct (range_exists (map cdec p)) as (s2 & e2 & HI).
    destruct (found_rows p s2 e2 Hp Hg HI) as [Hr2 _]. destruct (rows_same _ _ _ _ _ _ _ Hlt Hr Hr2) as [<- <-].
    rewrite !(nth_error_nth_lt _ _ 0) by lia.
    apply (last_value_next x Ex p c st e st' e' (SA sa (e - 1))); auto. apply Hin; left; auto.
  Qed.
  Lemma last_value_first x c st' e' : construct_cri b data sa = Some x ->
    row_interval [c] w sa st' e' -> st' < e' ->
    cr_last_value x (0, length sa - 1) (st', e' - 1) c (cr_initial x) = Some (nth_error sa (e' - 1)).
  Proof.
    intros Ex Hr' Hlt'. pose proof Hr' as [H1' H2'].
    destruct (proj1 (H2' st') ltac:(lia)) as (a & _ & u & v & E & _).
    assert (Hin : In c w) by (rewrite E; apply in_or_app; right; apply in_or_app; left; left; auto).
    destruct (cri_facts x Ex) as (R & bwt & f & E2 & E3 & E5 & E6 & X1 & X2 & X3 & X4 & X5).
    rewrite (cr_initial_ok T sa HT HS b R bwt E2 cdec (ci_D R E3) (ci_I R E3) f (fun c => In c w) (ci_gin R f E3 E5 E6) (ci_good R f E3 E5 E6)
                  (ci_gf f E5 E6) (ci_bad R f E3 E5 E6) E5 x X3).
    assert (L : length sa = n) by (rewrite (sa_len (terminated w) sa HSA); symmetry; apply ctext_len).
    rewrite L. rewrite (nth_error_nth_lt _ _ 0) by lia.
    apply (last_value_next x Ex [] c 0 n st' e'); auto.
    - apply is_range_full.
    - apply (n_pos T HT).
  Qed.
  Lemma last_value_init i : i = n - 1 -> tpos T sa i + 1 = (if SA sa i =? 0 then length sa else SA sa i).
  Proof.
    intros ->. pose proof (n_pos T HT) as Hn. fold n in Hn.
    assert (L : length sa = n) by (rewrite (sa_len (terminated w) sa HSA); symmetry; apply ctext_len).
    destruct (Nat.eqb_spec (SA sa (n - 1)) 0) as [E0|E0]; [|apply tpos_value; lia].
    unfold tpos, cpred. fold n. rewrite E0, L. cbn [Nat.add]. rewrite Nat.mod_small by lia. lia.
  Qed.
End CG.

(** A symbol 255 is counted past the end of F. *)
Lemma f_count_length f c g : f_count f c = Some g -> length g = length f.
Proof.
  unfold f_count. destruct (nth_error f (c + 1)) as [y|] eqn:E; cbn [bind]; [|discriminate]. apply nth_error_Some_lt in E as L.
  unfold list_set. rewrite (proj2 (Nat.ltb_lt _ _)) by auto. intros G.
  assert (g = firstn (c + 1) f ++ (y + 1) :: skipn (S (c + 1)) f) as -> by congruence.
  rewrite app_length, firstn_length. change (length (?a :: ?l)) with (S (length l)). rewrite skipn_length. lia.
Qed.
Lemma f_counts_none : forall l f, In (length f - 1) l -> 0 < length f -> mfold f_count l f = None.
Proof.
  induction l as [|c l IH]; intros f H H0; [destruct H|]. cbn [mfold].
  destruct (f_count f c) as [g|] eqn:E; cbn [bind]; auto. apply f_count_length in E as L.
  destruct H as [->|H]; [|apply IH; rewrite L; auto].
  unfold f_count in E. replace (nth_error f (length f - 1 + 1)) with (@None nat) in E; [discriminate|].
  symmetry. apply nth_error_None. lia.
Qed.
Lemma f_table_255 l : In 255 l -> f_table l = None.
Proof.
  intros H. unfold f_table. rewrite f_counts_none; [reflexivity| |]; rewrite repeat_length; [exact H|lia].
Qed.
