(** The loops with an [int] counter: what they compute below INT_MAX, and that they fail above. *)
From Coq Require Import List Arith Bool Lia Permutation.
From Verif Require Import Spec MBase MRle MConstruct MPhi MRIndex MSrIndex MPsi MCsa MSrCsa MStore MBwt
  Lists FM Runs RleProof Util Phi ConstructProof BaseProof PhiProof Glue PsiProof PsiCore PsiText PsiOrder SamplingSpec CsaProof FwdBuild
  SpecStore SpecBwt StoreProof StoreBuilt StoreEnd BwtProof MCache SpecCache CacheIdeal CacheBuilt CacheStep CacheEnd WidthProof SpecItems
  MCounter.
Import ListNotations.

(** * The loop *)
Section For.
Context {S : Type}.
Variables (m n : nat) (body : S -> nat -> option S).
Lemma int_for_ok cond : (forall i, cond i = (i <? n)) -> forall fuel i s, n - i < fuel -> n <= m ->
  int_for fuel m i cond body s = mfold body (seq i (n - i)) s.
Proof.
  intros HC. induction fuel as [|fuel IH]; intros i s HF HM; [lia|]. cbn [int_for]. rewrite HC. destruct (Nat.ltb_spec i n) as [L|L].
  - replace (n - i) with (Datatypes.S (n - (i + 1))) by lia. cbn [seq mfold]. destruct (body s i) as [s'|]; [|reflexivity]. cbn [bind].
    replace (i <? m) with true by (symmetry; apply Nat.ltb_lt; lia). rewrite IH by lia. replace (i + 1) with (Datatypes.S i) by lia. reflexivity.
  - replace (n - i) with 0 by lia. reflexivity.
Qed.
(** The counter of a loop to be left at [n > m] passes [m]. *)
Lemma int_for_over cond : (forall i, cond i = (i <? n)) -> forall fuel i s, i <= m -> m < n -> int_for fuel m i cond body s = None.
Proof.
  intros HC. induction fuel as [|fuel IH]; intros i s HI HM; [reflexivity|]. cbn [int_for]. rewrite HC.
  replace (i <? n) with true by (symmetry; apply Nat.ltb_lt; lia). destruct (body s i) as [s'|]; [|reflexivity]. cbn [bind].
  destruct (Nat.ltb_spec i m) as [L|L]; [|reflexivity]. apply IH; lia.
Qed.
End For.

Lemma le_pred_lt n i : 0 < n -> (i <=? n - 1) = (i <? n).
Proof. intros H. destruct (Nat.leb_spec i (n - 1)), (Nat.ltb_spec i n); auto; lia. Qed.

(** * The functions *)
Lemma compute_bwt_int_eq m n get_sa get_text : 0 < m ->
  compute_bwt_int m n get_sa get_text = if n <=? m then compute_bwt n get_sa get_text else None.
Proof.
  intros Hm. unfold compute_bwt_int, compute_bwt. destruct (Nat.ltb_spec 0 n) as [Hn|Hn].
  2:{ cbn [guard bind]. now destruct (n <=? m). }
  cbn [guard bind]. cbv zeta. destruct (Nat.leb_spec n m) as [L|L].
  - destruct (bwt_get_text_pos get_sa (n - 1) 0) as [tp|]; [|reflexivity]. cbn [bind]. destruct (get_text tp) as [c|]; [|reflexivity]. cbn [bind].
    rewrite (int_for_ok m n) by (try lia; intros i; now apply le_pred_lt). reflexivity.
  - destruct (bwt_get_text_pos get_sa (n - 1) 0) as [tp|]; [|reflexivity]. cbn [bind]. destruct (get_text tp) as [c|]; [|reflexivity]. cbn [bind].
    rewrite (int_for_over m n) by (try lia; intros i; now apply le_pred_lt). reflexivity.
Qed.
Lemma construct_bwt_runs_int_eq m bwt sa : 0 < m ->
  construct_bwt_runs_int m bwt sa = if length bwt <=? m then construct_bwt_runs bwt sa else None.
Proof.
  intros Hm. unfold construct_bwt_runs_int, construct_bwt_runs. destruct (Nat.leb_spec (length bwt) m) as [L|L];
    (destruct (nth_error bwt 0) as [s0|]; [|reflexivity]); cbn [bind]; (destruct (bwt_text_pos (length bwt) sa 0) as [t0|]; [|reflexivity]); cbn [bind].
  - rewrite (int_for_ok m (length bwt)) by (auto; lia). reflexivity.
  - rewrite (int_for_over m (length bwt)) by (auto; lia). reflexivity.
Qed.
Lemma links_fold (f : nat -> option nat) (idx : list nat) : forall k acc, k <= length idx ->
  mfold (fun links i => x <- nth_error idx i ;; y <- f x ;; Some (links ++ [y])) (seq k (length idx - k)) acc
  = (r <- mmap f (skipn k idx) ;; Some (acc ++ r)).
Proof.
  intros k. remember (length idx - k) as d eqn:E. revert k E. induction d as [|d IH]; intros k E acc Hk.
  - rewrite skipn_all2 by lia. cbn. now rewrite app_nil_r.
  - cbn [seq mfold]. destruct (nth_error idx k) as [x|] eqn:Ex; [|apply nth_error_None in Ex; lia]. cbn [bind].
    assert (SK : skipn k idx = x :: skipn (S k) idx).
    { clear -Ex. revert idx Ex. induction k as [|k IH]; intros [|y l] E; try discriminate; cbn [nth_error] in E; [injection E as ->; reflexivity|]. cbn [skipn]. apply IH, E. }
    rewrite SK. cbn [mmap]. destruct (f x) as [y|]; [|reflexivity]. cbn [bind]. rewrite IH by lia.
    destruct (mmap f (skipn (S k) idx)) as [r|]; [|reflexivity]. cbn [bind]. now rewrite <- app_assoc.
Qed.
Lemma int_links_eq m f idx : int_links m f idx = if length idx <=? m then mmap f idx else None.
Proof.
  unfold int_links. destruct (Nat.leb_spec (length idx) m) as [L|L].
  - rewrite (int_for_ok m (length idx)) by (auto; lia). rewrite links_fold by lia. cbn [skipn]. destruct (mmap f idx); reflexivity.
  - rewrite (int_for_over m (length idx)) by (auto; lia). reflexivity.
Qed.

(** * Split of a range *)
Lemma split_fold bv last : forall is acc start,
  ('(runs, run_start) <- mfold (fun '(runs, run_start) i => run_end <- bv_select bv i ;; Some (runs ++ [(run_start, run_end)], run_end)) is (acc, start) ;;
   Some (runs ++ [(run_start, last)]))
  = (l <- split_at_samples bv start is last ;; Some (acc ++ l)).
Proof.
  induction is as [|i is IH]; intros acc start; [reflexivity|]. cbn [mfold split_at_samples]. destruct (bv_select bv i) as [x|]; [|reflexivity]. cbn [bind].
  rewrite IH. destruct (split_at_samples bv x is last) as [l|]; [|reflexivity]. cbn [bind]. now rewrite <- app_assoc.
Qed.
Lemma int_of_small m x : x <= m -> int_of_size m x = Some x.
Proof. intros H. unfold int_of_size. rewrite Nat.mod_small by lia. cbv zeta. now rewrite (proj2 (Nat.leb_le _ _) H). Qed.
Lemma int_of_big m x : m < x -> x <= 2 * m + 1 -> int_of_size m x = None.
Proof.
  intros H H'. unfold int_of_size. rewrite Nat.mod_small by lia. cbv zeta. destruct (Nat.leb_spec x m); [lia|reflexivity].
Qed.
Lemma split_range_small m bv r : count (fun b => b) bv < m -> srcsa_split_range_int m bv r = srcsa_split_range bv r.
Proof.
  intros H. unfold srcsa_split_range_int, srcsa_split_range. destruct (bv_rank bv (fst r + 1)) as [x|] eqn:E1; [|reflexivity]. cbn [bind].
  destruct (bv_rank bv (snd r)) as [y|] eqn:E2; [|reflexivity]. cbn [bind]. cbv zeta.
  assert (X : x < m /\ y < m).
  { unfold bv_rank in E1, E2. destruct (fst r + 1 <=? length bv); [|discriminate]. destruct (snd r <=? length bv); [|discriminate].
    injection E1 as <-. injection E2 as <-. split; eapply Nat.le_lt_trans; try exact H; apply rankP_le_count. }
  rewrite int_of_small by lia. rewrite (int_for_ok m (y + 1)); [| | lia|lia].
  - rewrite split_fold. destruct (split_at_samples _ _ _ _); reflexivity.
  - intros i. destruct (Nat.leb_spec i y), (Nat.ltb_spec i (y + 1)); auto; lia.
Qed.
(** With so many kept run heads before the range that the converted rank is negative, the range is not split. *)
Lemma split_range_wraps m bv r x : bv_rank bv (fst r + 1) = Some x -> m <= x -> x <= 2 * m -> snd r <= length bv ->
  srcsa_split_range_int m bv r = Some [r].
Proof.
  intros E H H' HL. unfold srcsa_split_range_int. rewrite E. cbn [bind]. unfold bv_rank at 1. rewrite (proj2 (Nat.leb_le _ _) HL). cbn [bind]. cbv zeta.
  rewrite int_of_big by lia. cbn [bind app]. now destruct r.
Qed.
(** With INT_MAX at least and the rank of the first one at most INT_MAX, the counter overflows, unless a select fails before. *)
Lemma split_range_over m bv r x y : bv_rank bv (fst r + 1) = Some x -> x < m -> bv_rank bv (snd r) = Some y -> m <= y ->
  srcsa_split_range_int m bv r = None.
Proof.
  intros E H E2 H'. unfold srcsa_split_range_int. rewrite E, E2. cbn [bind]. cbv zeta. rewrite int_of_small by lia.
  rewrite (int_for_over m (y + 1)); [reflexivity| |lia|lia]. intros i. destruct (Nat.leb_spec i y), (Nat.ltb_spec i (y + 1)); auto; lia.
Qed.

Lemma locate_small m valid phi ix p : count (fun b => b) (sc_idx ix) < m -> srcsa_locate_with_int m valid phi ix p = srcsa_locate_with valid phi ix p.
Proof.
  intros H. unfold srcsa_locate_with_int, srcsa_locate_with, csa_locate. destruct (al_size (sc_alpha ix)) as [n|]; [|reflexivity]. cbn [bind].
  unfold engine_locate. match goal with |- bind ?x _ = bind ?x _ => destruct x as [[r d]|]; [|reflexivity] end. cbn [bind].
  destruct (range_empty r); [reflexivity|]. unfold compute_all_values. destruct (srcsa_toehold ix n d) as [k|]; [|reflexivity]. cbn [bind].
  unfold fwd_range, pf_range, pfv_range. destruct valid; (destruct (range_empty (csa_update_range r)); [reflexivity|]).
  - destruct (phi ix n k) as [vv|]; [|reflexivity]. cbn [bind]. now rewrite split_range_small by exact H.
  - now rewrite split_range_small by exact H.
Qed.

(** * Runs *)
Lemma count_bits l size b : construct_bit_vector l size false = Some b -> count (fun b => b) b <= length l.
Proof.
  intros E. assert (HB : forall v, In v l -> v < size) by (intros v; apply bits_lt with (init := false) (b := b), E).
  rewrite (construct_bits _ _ HB) in E. injection E as <-. unfold count, bits_of.
  assert (X : forall q, length (filter (fun b => b) (map (memb l) q)) = length (filter (memb l) q)).
  { induction q as [|x q IH]; [reflexivity|]. cbn [map filter]. destruct (memb l x); cbn [length]; now rewrite IH. }
  rewrite X. apply NoDup_incl_length; [apply NoDup_filter, seq_NoDup|]. intros x I. apply filter_In in I as [_ I]. now apply memb_In.
Qed.

Section Counter.
Variables (w : list nat) (e : world) (h m : nat).
Hypothesis HS : sound_world w e.
Hypothesis Hh : 0 < h.
Hypothesis Hn : S (List.length w) < 2 ^ 64.
Hypothesis Hbyte : forall c, In c w -> c < 256.
Variable b : base_items.
Notation sa := (wd_sort e (terminated w)).
Notation dens := (2 * h).
Notation g := (wd_exe e (wd_data e)).
Hypothesis HB : construct_base (wd_data e) sa = Some b.
Notation r := (length (br_first (bi_runs_files b))).
Notation IN := (ints sa b dens g).
Hypothesis Hm : 0 < m.
Hypothesis Hr : r <= m.
Let SH := shape_holds w e h HS Hh Hn Hbyte b HB.

Lemma text_length : length (bi_bwt_text b) = S (length w).
Proof.
  destruct (BwtProof.base_parts w sa (wd_data e) (proj1 HS) (proj2 (proj2 HS)) (proj1 (proj2 HS)) b HB) as (rl & _ & Eb). rewrite Eb. cbn [bi_bwt_text].
  change (length (BW (terminated w) sa) = S (length w)). rewrite (BW_length _ _ (proj2 (proj2 HS))). unfold terminated, len. rewrite app_length. apply Nat.add_1_r.
Qed.
Lemma load_good p nm l : good sa b dens g (pr_disk p) -> load_ints p nm = Some l -> l = [] \/ IN (nm_rate nm) (nm_key nm) = Some l.
Proof.
  intros G E. unfold load_ints, look_file in E. destruct (d_find (pr_disk p) (resolve p nm)) as [[it|]|] eqn:F; [|discriminate|injection E as <-; auto].
  destruct it; try discriminate. injection E as <-. right. apply d_find_In in F. pose proof (proj1 (Forall_forall _ _) G _ F) as X. unfold entry_ok in X. cbn [fst snd] in X.
  apply ideal_ints in X. assert (Y : nm_rate (resolve p nm) = nm_rate nm /\ nm_key (resolve p nm) = nm_key nm).
  { unfold resolve. destruct (nm_hash nm); auto. destruct (existsb _ _); auto. }
  destruct Y as [Y1 Y2]. now rewrite Y1, Y2 in X.
Qed.
Lemma sb_len s idx sub : v_sb b s = Some (idx, sub) -> length idx <= r.
Proof.
  unfold v_sb. intros E. apply bind_Some in E as ([o l] & _ & E). apply subs_of in E as (_ & _ & _ & D).
  rewrite sort_indices_length, (sh_l3 _ _ SH) in D. exact D.
Qed.
Lemma idx_len p s k l : good sa b dens g (pr_disk p) -> load_ints p (P s k) = Some l -> k = FLastIdx \/ k = FFirstIdx \/ k = FPsiHeadIdx ->
  length l <= m.
Proof.
  intros G E HK. apply load_good in E as [->|E]; [apply Nat.le_0_l| |exact G]. cbn [nm_rate nm_key P] in E. etransitivity; [|exact Hr].
  destruct HK as [->|[->| ->]]; cbn [ints] in E; apply p1_some in E as (y & E).
  - exact (sb_len _ _ _ E).
  - exact (v_sf_len w e h HS Hh Hn Hbyte b HB _ _ _ E).
  - apply (v_sp_in w e h HS Hh Hn Hbyte b HB _ _ _ E).
Qed.
Definition agree (f f' : step) : Prop := forall p, good sa b dens g (pr_disk p) -> f p = f' p.
Lemma agree_refl f : agree f f. Proof. intros p _. reflexivity. Qed.
Lemma agree_guarded n f f' : agree f f' -> agree (guarded n f) (guarded n f').
Proof. intros H p G. unfold guarded. destruct (file_exists p n); auto. Qed.
Lemma agree_backward s : agree (step_submarks_backward s) (step_submarks_backward_int m s).
Proof.
  apply agree_guarded. intros p G. destruct (load_ints p (P s FLastIdx)) as [idx|] eqn:E; [|reflexivity]. cbn [bind].
  destruct (buf_ints p (N FFirst)) as [first|]; [|reflexivity]. cbn [bind]. destruct (load_ints p (N FFirstPos)) as [marks|]; [|reflexivity]. cbn [bind].
  unfold construct_submarks_int, construct_submarks. rewrite int_links_eq. pose proof (idx_len p s _ _ G E (or_introl eq_refl)) as L.
  rewrite (proj2 (Nat.leb_le _ _) L). reflexivity.
Qed.
Lemma agree_forward s : agree (step_submarks_forward dens s) (step_submarks_forward_int m dens s).
Proof.
  apply agree_guarded. intros p G. destruct (load_ints p (P s FFirstIdx)) as [idx|] eqn:E; [|reflexivity]. cbn [bind].
  destruct (load_lf_psi dens p) as [[b' pc]|]; [|reflexivity]. cbn [bind]. pose proof (idx_len p s _ _ G E (or_intror (or_introl eq_refl))) as L.
  unfold sample_to_mark_bwt_int, sample_to_mark_bwt. cbv zeta. destruct (al_size (bi_alpha b')) as [n|]; [|reflexivity]. cbn [bind].
  rewrite int_links_eq, (proj2 (Nat.leb_le _ _) L). reflexivity.
Qed.
Lemma agree_psi c s : agree (step_submarks_psi c s) (step_submarks_psi_int m c s).
Proof.
  apply agree_guarded. intros p G. destruct (file_exists p (PT s FPsiTail TyInts)); [reflexivity|].
  destruct (load_ints p (P s FPsiHeadIdx)) as [idx|] eqn:E; [|reflexivity]. cbn [bind].
  destruct (buf_ints p (NT FPsiHead TyInts)) as [heads|]; [|reflexivity]. cbn [bind].
  rewrite int_links_eq. pose proof (idx_len p s _ _ G E (or_intror (or_intror eq_refl))) as L.
  rewrite (proj2 (Nat.leb_le _ _) L). reflexivity.
Qed.
Lemma agree_runs : length (bi_bwt_text b) <= m -> agree step_runs (step_runs_int m).
Proof.
  intros HL. apply agree_guarded. intros p G. destruct (load_ints p (N FBwt)) as [bwt|] eqn:E; [|reflexivity]. cbn [bind].
  destruct (load_ints p (N FSa)) as [x|]; [|reflexivity]. cbn [bind]. rewrite construct_bwt_runs_int_eq by exact Hm.
  assert (L : length bwt <= m).
  { apply load_good in E as [->|E]; [apply Nat.le_0_l| |exact G]. cbn [nm_rate nm_key N ints] in E. injection E as <-. exact HL. }
  rewrite (proj2 (Nat.leb_le _ _) L). reflexivity.
Qed.
Ltac agrees := repeat (apply Forall2_cons || apply Forall2_app); try apply Forall2_nil; auto using agree_refl, agree_backward, agree_forward, agree_psi, agree_runs.
Lemma agree_base rt sort exe data : (rt = Sdsl -> length (bi_bwt_text b) <= m) ->
  Forall2 agree (base_steps rt sort exe data) (base_steps_int m rt sort exe data).
Proof. intros HL. destruct rt; cbn [base_steps base_steps_int]; agrees. Qed.
Lemma Forall2_same l : Forall2 agree l l.
Proof. induction l; constructor; auto using agree_refl. Qed.
Lemma agree_class tm kd s : t_dens tm = dens -> Forall2 agree (class_steps tm kd s) (class_steps_int m tm kd s).
Proof.
  intros HD.
  assert (A : Forall2 agree (sri_steps tm s) (sri_steps_int m tm s)) by (unfold sri_steps, sri_steps_int; agrees).
  assert (B : Forall2 agree (srcsa_common_steps tm s) (srcsa_common_steps_int m tm s)) by (unfold srcsa_common_steps, srcsa_common_steps_int; rewrite HD; agrees).
  assert (C : Forall2 agree (srcsa_psi_steps tm s) (srcsa_psi_steps_int m tm s)) by (unfold srcsa_psi_steps, srcsa_psi_steps_int; agrees).
  destruct kd; cbn [class_steps class_steps_int]; repeat apply Forall2_app; auto using Forall2_same.
Qed.
Lemma run_agree l l' : Forall2 agree l l' -> Forall grows l -> forall p q, run_steps l p = Some q -> good sa b dens g (pr_disk q) -> run_steps l' p = Some q.
Proof.
  induction 1 as [|f f' l l' Hf _ IH]; intros GR p q E G; [exact E|]. inversion GR as [|? ? G1 G2]; subst. cbn [run_steps] in *.
  apply bind_Some in E as (p1 & E1 & E). rewrite <- Hf, E1.
  - cbn [bind]. now apply IH.
  - destruct (grows_run l G2 _ _ E) as [w2 D2]. destruct (G1 _ _ E1) as [w1 D1]. rewrite D2, D1 in G. apply Forall_app in G as [_ G]. apply Forall_app in G as [_ G]. exact G.
Qed.
Lemma run_cache_int ru p q : run_ready w e dens ru -> inv sa b dens g p -> (ru_route ru = Sdsl -> S (length w) <= m) ->
  run_cache e ru p = Some q -> build_cache_int m (input_of e ru) (ru_tm ru) (ru_kd ru) (ru_rate ru) p = Some q.
Proof.
  intros HR IV HL E. destruct (run_ok w e h HS Hh Hn b HB ru HR p IV ltac:(intros ? [])) as [(q' & ws & E' & _ & IV' & _) _].
  assert (q' = q) by congruence. subst q'. unfold build_cache_int, run_cache, build_cache in *.
  eapply run_agree; [|apply Forall_app; split; [apply grows_base|apply grows_class]|exact E|apply IV'].
  apply Forall2_app; [|apply agree_class, HR]. apply agree_base. intros HRt.
  rewrite text_length. apply HL, HRt.
Qed.
Lemma runs_number : r = number_of_runs (bwt_of (terminated w) sa).
Proof.
  destruct (BwtProof.base_parts w sa (wd_data e) (proj1 HS) (proj2 (proj2 HS)) (proj1 (proj2 HS)) b HB) as (rl & _ & Eb). rewrite Eb. cbn [bi_runs_files br_first].
  unfold number_of_runs. rewrite RleSpec.runs_before_headb. reflexivity.
Qed.
(** Number of kept run heads of a SrCSA *)
Lemma built_ones tm kd s ix : t_dens tm = dens -> build tm kd s (wd_data e) sa = Some (LdSc ix) -> kd = KSrCSA \/ kd = KSrCSAVM \/ kd = KSrCSAVA ->
  count (fun b => b) (sc_idx ix) <= r.
Proof.
  intros HD HV HK. 
  assert (X : forall c q, construct_srcsa_commons s dens (wd_data e) sa = Some c -> construct_srcsa_of s c = Some q -> count (fun b => b) (sc_idx q) <= r).
  { intros c q EC EQ. unfold construct_srcsa_commons in EC. rewrite HB in EC. cbn [bind] in EC. apply bind_Some in EC as (pc & E1 & EC). apply bind_Some in EC as ([x lk] & E2 & EC).
    apply bind_Some in EC as (fm & _ & EC). apply bind_Some in EC as ([idx smp] & E3 & EC). apply bind_Some in EC as (t & _ & EC). apply bind_Some in EC as ([mk sl] & _ & EC).
    apply bind_Some in EC as (bm & _ & EC). injection EC as <-. cbn [construct_srcsa_of sf_idx sf_samples sf_links] in EQ. apply bind_Some in EQ as (pos & E4 & EQ). apply bind_Some in EQ as (bp & E5 & EQ).
    injection EQ as <-. cbn [sc_idx]. apply count_bits in E5. etransitivity; [exact E5|]. rewrite (mmap_length _ _ _ E4).
    assert (EF : v_sf b dens s = Some (idx, smp)) by (unfold v_sf, v_lf, v_pc; rewrite E1; cbn [bind]; rewrite E2; exact E3).
    exact (v_sf_len w e h HS Hh Hn Hbyte b HB _ _ _ EF). }
  assert (Y : forall q, construct_srcsa_valid s dens (wd_data e) sa = Some q -> count (fun b => b) (sc_idx q) <= r).
  { intros q E. unfold construct_srcsa_valid, construct_srcsa_valid_of in E. apply bind_Some in E as (c & EC & E). apply bind_Some in E as (q0 & EQ & E).
    destruct c as [[[[b' pc] f] sm] bm]. apply bind_Some in E as (x & _ & E). apply bind_Some in E as ([va ar] & _ & E). apply bind_Some in E as (bv & _ & E).
    injection E as <-. cbn [set_validity sc_idx]. eapply X; eauto. }
  destruct HK as [->|[->| ->]]; cbn [build] in HV; rewrite HD in HV.
  - destruct (construct_srcsa s dens (wd_data e) sa) as [q|] eqn:E; [|discriminate]. injection HV as <-. unfold construct_srcsa in E. apply bind_Some in E as (c & EC & E). eauto.
  - destruct (construct_srcsa_valid s dens (wd_data e) sa) as [q|] eqn:E; [|discriminate]. injection HV as <-. auto.
  - destruct (construct_srcsa_valid s dens (wd_data e) sa) as [q|] eqn:E; [|discriminate]. injection HV as <-. auto.
Qed.
Lemma locate_view_small kd v x : r < m -> (forall ix, v = LdSc ix -> kd = KSrCSA \/ kd = KSrCSAVM \/ kd = KSrCSAVA -> count (fun b => b) (sc_idx ix) <= r) ->
  locate_view_int m kd (trim kd v) x = locate_view kd v x.
Proof.
  intros HL H. rewrite <- trim_locate. destruct v as [ix|ix|ix|ix|ix]; cbn [trim]; try (destruct kd; reflexivity). pose proof (H ix eq_refl) as X.
  destruct kd; try reflexivity; cbn [locate_view_int locate_view]; rewrite locate_small; try reflexivity; cbn [sc_idx]; (eapply Nat.le_lt_trans; [apply X; auto|exact HL]).
Qed.
Lemma run_int ru p : run_ready w e dens ru -> (ru_kd ru = KCSARaw -> ru_route ru = Sdsl) -> inv sa b dens g p ->
  (ru_route ru = Sdsl -> S (length w) <= m) -> r < m ->
  exists o p', construct_index_int m (input_of e ru) (ru_tm ru) (ru_kd ru) (ru_rate ru) p = Some (o, p') /\ run_index e ru p = Some (o, p') /\
    forall x, obj_locate_int m (ru_tm ru) (ru_kd ru) o x = obj_locate (ru_tm ru) (ru_kd ru) o x.
Proof.
  intros HR HK IV HL HLt. destruct (run_views w e h HS Hh Hn b HB ru p HR HK IV) as (v & o & p' & EV & E & L & V). exists o, p'. split; [|split].
  - unfold construct_index_int. rewrite (run_cache_int ru p p' HR IV HL E). cbn [bind]. rewrite L. reflexivity.
  - unfold run_index, construct_index. change (build_cache _ _ _ _ p) with (run_cache e ru p). rewrite E. cbn [bind]. rewrite L. reflexivity.
  - intros x. unfold obj_locate_int, obj_locate. rewrite V. cbn [bind]. rewrite trim_locate. apply locate_view_small; [exact HLt|].
    intros ix -> HKs. exact (built_ones _ _ _ _ (proj1 HR) EV HKs).
Qed.
(** A text of more than INT_MAX symbols *)
Lemma exists_put n k it p : nm_key n <> nm_key k -> file_exists (put k it p) n = file_exists p n.
Proof.
  intros H. unfold file_exists, look_file, put. cbn [pr_disk pr_map d_find].
  assert (R : resolve (mk_proc ((resolve p k, Whole it) :: pr_disk p) (pr_map p)) n = resolve p n) by reflexivity. rewrite R.
  destruct (name_eq_dec (resolve p k) (resolve p n)) as [E|E]; [|reflexivity]. exfalso. apply H.
  assert (Y : forall x, nm_key (resolve p x) = nm_key x) by (intros x; unfold resolve; destruct (nm_hash x); auto; destruct (existsb _ _); auto).
  rewrite <- (Y n), <- (Y k). now rewrite E.
Qed.
Lemma runs_not_submarks c s : step_runs <> step_submarks_psi c s.
Proof.
  intros E. apply (f_equal (fun f : step => f (mk_proc [(N FFirst, Torn)] []))) in E. destruct c; discriminate E.
Qed.
Lemma run_long ru p : run_ready w e dens ru -> inv sa b dens g p -> ru_route ru = Sdsl -> file_exists p (N FFirst) = false -> m < S (length w) ->
  build_cache_int m (input_of e ru) (ru_tm ru) (ru_kd ru) (ru_rate ru) p = None.
Proof.
  intros HR IV HRt HF HL. pose proof (oks_part _ _ _ _ _ _ _ (run_oks w e h HS Hh Hn b HB ru HR)) as B. rewrite HRt in B.
  destruct (B [step_text (wd_data e); step_sa (wd_sort e); step_bwt] ([step_runs; step_alphabet; step_rle] ++ class_steps (ru_tm ru) (ru_kd ru) (ru_rate ru)) eq_refl
     ltac:(intros c s q X; injection X as X _; exact (runs_not_submarks c s X)) p IV ltac:(intros ? [])) as (p1 & E1 & IV1).
  assert (NF : file_exists p1 (N FFirst) = false).
  { rewrite <- HF. cbn [run_steps] in E1. apply bind_Some in E1 as (p2 & A & E1). apply bind_Some in E1 as (p3 & A3 & E1). apply bind_Some in E1 as (p4 & A4 & E1). injection E1 as <-.
    unfold step_text, step_sa, step_bwt, guarded in A, A3, A4.
    transitivity (file_exists p3 (N FFirst)); [|transitivity (file_exists p2 (N FFirst))].
    - destruct (file_exists p3 (N FBwt)); [injection A4 as <-; reflexivity|]. dbind A4. injection A4 as <-. apply exists_put. discriminate.
    - destruct (file_exists p2 (N FSa)); [injection A3 as <-; reflexivity|]. dbind A3. injection A3 as <-. apply exists_put. discriminate.
    - destruct (file_exists p (N FText)); [injection A as <-; reflexivity|]. dbind A. injection A as <-. apply exists_put. discriminate. }
  unfold build_cache_int. cbn [in_route input_of]. rewrite HRt. cbn [base_steps_int in_sort in_exe in_data input_of].
  change ([step_text (wd_data e); step_sa (wd_sort e); step_bwt; step_runs_int m; step_alphabet; step_rle] ++ class_steps_int m (ru_tm ru) (ru_kd ru) (ru_rate ru))
    with ([step_text (wd_data e); step_sa (wd_sort e); step_bwt] ++ (step_runs_int m :: [step_alphabet; step_rle] ++ class_steps_int m (ru_tm ru) (ru_kd ru) (ru_rate ru))).
  rewrite run_app, E1. cbn [bind run_steps]. 
  enough (X : step_runs_int m p1 = None) by (rewrite X; reflexivity).
  unfold step_runs_int, guarded. rewrite NF. destruct (load_ints p1 (N FBwt)) as [bwt|] eqn:E; [|reflexivity]. cbn [bind].
  destruct (load_ints p1 (N FSa)) as [x|]; [|reflexivity]. cbn [bind]. apply load_good in E as [->|E]; [reflexivity| |apply IV1].
  cbn [nm_rate nm_key N ints] in E. injection E as <-. rewrite construct_bwt_runs_int_eq by exact Hm.
  rewrite text_length. destruct (Nat.leb_spec (S (length w)) m) as [L|L]; [|reflexivity]. destruct (Nat.lt_irrefl _ (Nat.lt_le_trans _ _ _ HL L)).
Qed.
End Counter.
