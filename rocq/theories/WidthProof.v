(** The widths of the packed arrays hold every value. *)
From Coq Require Import List Arith Bool String Lia Permutation.
From Verif Require Import Spec MBase MRle MConstruct MPhi MRIndex MSrIndex MPsi MCsa MSrCsa MStore MBwt
  Lists FM Runs RleProof Util Phi ConstructProof BaseProof PhiProof Glue PsiProof PsiCore PsiText PsiOrder SamplingSpec CsaProof FwdBuild
  SpecStore SpecBwt StoreProof StoreBuilt StoreEnd BwtProof MCache SpecCache CacheIdeal CacheBuilt CacheStep CacheEnd MWidth SpecWidth.
Import ListNotations.

(** * Arithmetic *)
Lemma hi_fits v m : v <= m -> v < 2 ^ (hi m + 1).
Proof.
  intros H. unfold hi. rewrite Nat.add_1_r. destruct (Nat.eq_dec m 0) as [->|E].
  - assert (v = 0) by lia. subst. cbn. lia.
  - pose proof (Nat.log2_spec m ltac:(lia)). lia.
Qed.
Lemma all_fit l m : (forall v, In v l -> v <= m) -> Forall (fun v => v < 2 ^ (hi m + 1)) l.
Proof. intros H. apply Forall_forall. intros v I. apply hi_fits, H, I. Qed.
Lemma le_list_max l v : In v l -> v <= list_max l.
Proof. intros I. pose proof (proj1 (list_max_le l (list_max l)) (Nat.le_refl _)) as F. rewrite Forall_forall in F. auto. Qed.

Lemma filter_le {A} (f : A -> bool) l : List.length (filter f l) <= List.length l.
Proof. induction l as [|x l IH]; cbn [filter List.length]; [lia|]. destruct (f x); cbn [List.length]; lia. Qed.

Lemma bind_some {A B} (a : A) (f : A -> option B) : bind (Some a) f = f a.
Proof. reflexivity. Qed.
Lemma some_inv {A} (a x : A) : Some a = Some x -> x = a.
Proof. congruence. Qed.
Lemma some_pair {A B} (a x : A) (b y : B) : Some (a, b) = Some (x, y) -> x = a /\ y = b.
Proof. intros H. injection H. auto. Qed.

(** * Values of the constructions *)
Lemma mmap_in {A B} (f : A -> option B) l : forall r y, mmap f l = Some r -> In y r -> exists x, In x l /\ f x = Some y.
Proof.
  induction l as [|a l IH]; intros r y E I; cbn [mmap] in E; [injection E as <-; destruct I|].
  apply bind_Some in E as (b & E1 & E). apply bind_Some in E as (r' & E2 & E). injection E as <-.
  destruct I as [<-|I]; [exists a; cbn; auto|]. destruct (IH _ _ E2 I) as (x & X & F). exists x. cbn; auto.
Qed.
Lemma mmap_def {A B} (f : A -> option B) l r x : mmap f l = Some r -> In x l -> exists y, f x = Some y.
Proof. intros E I. destruct (f x) eqn:F; [eauto|]. rewrite (mmap_None_in f l x I F) in E. discriminate. Qed.
Lemma mmap_nth_in {A} (v : list A) l r y : mmap (nth_error v) l = Some r -> In y r -> In y v.
Proof. intros E I. destruct (mmap_in _ _ _ _ E I) as (x & _ & F). eapply nth_error_In, F. Qed.
Lemma mmap_nth_lt {A} (v : list A) l r i : mmap (nth_error v) l = Some r -> In i l -> i < List.length v.
Proof. intros E I. destruct (mmap_def _ _ _ _ E I) as (y & F). apply nth_error_Some. congruence. Qed.
Lemma umod_lt a m x : umod a m = Some x -> x < m.
Proof. unfold umod. destruct (Nat.eqb_spec m 0); [discriminate|]. intros E. injection E as <-. now apply Nat.mod_upper_bound. Qed.
Lemma bits_lt l size init b v : construct_bit_vector l size init = Some b -> In v l -> v < size.
Proof. intros E I. destruct (Nat.lt_ge_cases v size); auto. rewrite (construct_bit_vector_ob l size init v I) in E by lia. discriminate. Qed.
Lemma lower_bound_le l x : lower_bound l x <= List.length l.
Proof. induction l as [|y l IH]; cbn [lower_bound List.length]; [lia|]. destruct (y <? x); lia. Qed.
Lemma links_in m f x y v : construct_links m f = Some (x, y) -> In v y -> exists i, f i = Some v.
Proof. unfold construct_links. cbv zeta. intros E I. apply bind_Some in E as (l & E & E'). injection E' as <- <-. destruct (mmap_in _ _ _ _ E I) as (i & _ & F). eauto. Qed.
Lemma subs_of (order : list nat) s samples links idx sub :
  (req0 <- nth_error links 0 ;; req1 <- nth_error links (List.length links - 1) ;;
   vec <- compute_sampling s order samples [req0; req1] ;;
   let idx := std_sort Nat.ltb vec in sub <- mmap (nth_error samples) idx ;; Some (idx, sub)) = Some (idx, sub) ->
  (forall i, In i idx -> i < List.length samples) /\ (forall v, In v sub -> In v samples) /\ List.length sub = List.length idx /\
  List.length idx <= List.length order.
Proof.
  intros E. apply bind_Some in E as (r0 & _ & E). apply bind_Some in E as (r1 & _ & E). apply bind_Some in E as (vec & E1 & E).
  cbv zeta in E. apply bind_Some in E as (l & E2 & E). injection E as <- <-.
  split; [intros i I; eapply mmap_nth_lt; eauto|]. split; [intros v I; eapply mmap_nth_in; eauto|]. split; [eapply mmap_length; eauto|].
  assert (PL : List.length (std_sort Nat.ltb vec) = List.length vec) by (apply Permutation_length, (std_sort_perm (fun x => x))). rewrite PL. apply sampling_subseq in E1. clear -E1. induction E1; cbn; lia.
Qed.
Lemma submarks_of_in (marks t : list nat) sub links : construct_submarks_of marks t = Some (sub, links) ->
  (forall v, In v sub -> In v marks) /\ List.length sub = List.length t /\ links = sort_indices sub.
Proof.
  unfold construct_submarks_of. intros E. apply bind_Some in E as (l & E1 & E). injection E as <- <-.
  split; [intros v I; eapply mmap_nth_in; eauto|]. split; [eapply mmap_length; eauto|reflexivity].
Qed.
Lemma sums_le l : forall acc v, In v (running_sums acc l) -> v <= acc + list_sum l.
Proof.
  induction l as [|x l IH]; intros acc v I; [destruct I|]. cbn [running_sums] in I. cbv zeta in I. cbn [list_sum fold_right].
  change (fold_right Nat.add 0 l) with (list_sum l). destruct I as [<-|I]; [lia|]. apply IH in I. lia.
Qed.

Lemma sums_le0 l v : In v (running_sums 0 l) -> v <= list_sum l.
Proof. exact (sums_le l 0 v). Qed.
Lemma occs_sum hs sg : list_sum (map (fun c => List.length (occs hs c)) (seq 0 sg)) = List.length (psis hs sg).
Proof.
  unfold psis. generalize (seq 0 sg). intros l. induction l as [|c l IH]; [reflexivity|].
  cbn [map flat_map]. rewrite app_length, <- IH. reflexivity.
Qed.

(** The loop of constructSubsamplingBackwardSamplesSortedByAlphabet *)
Lemma list_set_in {A} (l : list A) i x r y : list_set l i x = Some r -> In y r -> y = x \/ In y l.
Proof.
  unfold list_set. destruct (i <? List.length l) eqn:E; [|discriminate]. intros H. injection H as <-. intros I. apply in_app_or in I as [I|[I|I]]; auto.
  - right. rewrite <- (firstn_skipn i l). apply in_or_app. auto.
  - right. rewrite <- (firstn_skipn (S i) l). apply in_or_app. auto.
Qed.
Lemma sorted_loop bv samples : forall l H i c sub idxs ts i' c' sub' idxs' ts',
  mfold (sorted_step bv samples) l (i, c, sub, idxs, ts) = Some (i', c', sub', idxs', ts') ->
  NoDup (H ++ l) -> (forall x, In x H -> nth_error bv x = Some true) -> List.length H = c ->
  (forall v, In v ts -> v <= c) -> (forall v, In v sub -> In v samples) ->
  c <= c' /\ (forall v, In v ts' -> v <= c') /\ (forall v, In v sub' -> In v samples) /\
  exists H', NoDup H' /\ List.length H' = c' /\ forall x, In x H' -> nth_error bv x = Some true.
Proof.
  induction l as [|k l IH]; intros H i c sub idxs ts i' c' sub' idxs' ts' E ND HT L B S; cbn [mfold] in E.
  - injection E as <- <- <- <- <-. split; [lia|]. split; [exact B|]. split; [exact S|]. exists H. rewrite app_nil_r in ND. auto.
  - apply bind_Some in E as (st & E1 & E). unfold sorted_step in E1. apply bind_Some in E1 as (bit & EB & E1). destruct bit.
    + apply bind_Some in E1 as (rnk & _ & E1). apply bind_Some in E1 as (x & EX & E1). apply bind_Some in E1 as (t2 & ET & E1). injection E1 as <-.
      destruct (IH (k :: H) _ _ _ _ _ _ _ _ _ _ E) as (A1 & A2 & A3).
      * cbn [app]. eapply Permutation_NoDup; [|exact ND]. apply Permutation_sym, Permutation_middle.
      * intros y [<-|I]; auto.
      * cbn. lia.
      * intros v I. destruct (list_set_in _ _ _ _ _ ET I) as [->|I']; [lia|]. apply B in I'. lia.
      * intros v I. apply in_app_or in I as [I|[<-|[]]]; auto. eapply nth_error_In, EX.
      * split; [lia|]. auto.
    + injection E1 as <-. apply (IH H) in E; auto. eapply NoDup_remove_1, ND.
Qed.
Lemma bit_set_in l size b x : construct_bit_vector l size false = Some b -> nth_error b x = Some true -> In x l.
Proof.
  intros E F. assert (L : forall v, In v l -> v < size) by (intros v I; eapply bits_lt; eauto).
  rewrite (construct_bits l size L) in E. injection E as <-. unfold bits_of in F.
  assert (X : x < size). { assert (nth_error (map (memb l) (seq 0 size)) x <> None) as N by congruence. apply nth_error_Some in N. now rewrite map_length, seq_length in N. }
  rewrite nth_error_map_seq in F by exact X. injection F as F. now apply memb_In.
Qed.
Lemma sorted_alphabet sorted idx samples links : NoDup sorted -> forall bv i c sub idxs ts,
  construct_bit_vector idx (List.length sorted) false = Some bv ->
  mfold (sorted_step bv samples) sorted (0, 0, [], [], repeat 0 (List.length idx)) = Some (i, c, sub, idxs, ts) ->
  (forall v, In v ts -> v <= List.length idx) /\ (forall v, In v sub -> In v samples) /\
  forall out, mmap (nth_error ts) links = Some out -> forall v, In v out -> v <= List.length idx.
Proof.
  intros ND bv i c sub idxs ts EB E.
  destruct (sorted_loop bv samples sorted [] _ _ _ _ _ _ _ _ _ _ E) as (_ & A & S & H & NH & LH & HH).
  - exact ND.
  - intros x [].
  - reflexivity.
  - intros v I. apply repeat_spec in I. lia.
  - intros v [].
  - assert (C : c <= List.length idx).
    { rewrite <- LH. apply NoDup_incl_length; [exact NH|]. intros x I. eapply bit_set_in; eauto. }
    assert (X : forall v, In v ts -> v <= List.length idx) by (intros v I; apply A in I; lia).
    split; [exact X|]. split; [exact S|]. intros out EO v I. apply X. eapply mmap_nth_in; eauto.
Qed.
Lemma bucket_in s pos tp : forall l bk r, mfold (bucket_step s pos tp) l bk = Some r -> (forall t, In t (List.concat bk) -> In t tp) ->
  forall t, In t (List.concat r) -> In t tp.
Proof.
  induction l as [|i l IH]; intros bk r E HB t I; cbn [mfold] in E; [injection E as <-; auto|].
  apply bind_Some in E as (bk' & E1 & E). apply (IH _ _ E); [|exact I]. clear t I. intros t I. unfold bucket_step in E1.
  apply bind_Some in E1 as (p & _ & E1). apply bind_Some in E1 as (c & _ & E1). apply bind_Some in E1 as (x & EX & E1). apply bind_Some in E1 as (q & EQ & E1).
  apply in_concat in I as (z & IZ & I). destruct (list_set_in _ _ _ _ _ E1 IZ) as [->|IZ'].
  - apply in_app_or in I as [I|[<-|[]]]; [|eapply nth_error_In, EX]. apply HB. apply in_concat. exists q. split; [eapply nth_error_In, EQ|exact I].
  - apply HB. apply in_concat. eauto.
Qed.
Lemma psi_runs_in sigma s pos tp l : construct_psi_runs sigma s pos tp = Some l -> forall t, In t l -> In t tp.
Proof.
  unfold construct_psi_runs. intros E. apply bind_Some in E as (bk & E1 & E). injection E as <-. apply (bucket_in _ _ _ _ _ _ E1).
  intros t I. exfalso. apply in_concat in I as (z & IZ & I). apply repeat_spec in IZ. subst z. destruct I.
Qed.
Lemma psi_values acc C n psi : nth_error C (List.length C - 1) = Some n -> construct_psi acc C = Some psi -> forall v, In v psi -> v <= n.
Proof.
  intros EN. unfold construct_psi. rewrite EN. cbn [bind]. intros E. apply bind_Some in E as ([p pos] & E & E'). injection E' as <-.
  assert (G : forall l st r, (forall i, In i l -> i <= n) -> mfold (psi_step acc) l st = Some r -> (forall v, In v (fst st) -> v <= n) -> forall v, In v (fst r) -> v <= n).
  { clear. induction l as [|i l IH]; intros st r HL E B v I; cbn [mfold] in E; [injection E as <-; auto|].
    apply bind_Some in E as (st' & E1 & E). apply (IH _ _ ltac:(intros; apply HL; cbn; auto) E); [|exact I]. clear v I. intros v I.
    destruct st as [a q]. cbn [psi_step] in E1. apply bind_Some in E1 as (c & _ & E1). apply bind_Some in E1 as (x & _ & E1).
    apply bind_Some in E1 as (p' & EP & E1). apply bind_Some in E1 as (q' & _ & E1). injection E1 as <-. cbn [fst] in I.
    destruct (list_set_in _ _ _ _ _ EP I) as [->|I']; [apply HL; cbn; auto|]. now apply B. }
  refine (G _ _ _ _ E _); [intros i I; apply in_seq in I; lia|]. cbn [fst]. intros v I. apply repeat_spec in I. lia.
Qed.

(** * The content of every file fits in its width *)
Section Ideal.
Variables (w : list nat) (e : world) (h : nat).
Hypothesis HS : sound_world w e.
Hypothesis Hh : 0 < h.
Hypothesis Hn : S (List.length w) < 2 ^ 64.
Hypothesis Hbyte : forall c, In c w -> c < 256.
Variable b : base_items.
Notation sa := (wd_sort e (terminated w)).
Notation dens := (2 * h).
Notation g := (wd_exe e (wd_data e)).
Hypothesis HB : construct_base (wd_data e) sa = Some b.
Notation rn := (bi_runs_files b).
Notation IN := (ints sa b dens g).
Let Hw : zero_free w := proj1 HS.
Let Hd : wd_data e = w \/ wd_data e = terminated w := proj1 (proj2 HS).
Let HSA : is_suffix_array (terminated w) sa := proj2 (proj2 HS).
Let HT := total_here w e h HS Hh Hn.
Notation n := (List.length (bi_bwt_text b)).
Notation r := (List.length (br_first rn)).

Record shape : Prop := {
  sh_first : forall v, In v (br_first rn) -> v < n;
  sh_last : forall v, In v (br_last rn) -> v < n;
  sh_fpos : forall v, In v (br_first_text rn) -> v < n;
  sh_lpos : forall v, In v (br_last_text rn) -> v < n;
  sh_l1 : List.length (br_last rn) = r;
  sh_l2 : List.length (br_first_text rn) = r;
  sh_l3 : List.length (br_last_text rn) = r;
  sh_rn : r <= n;
  sh_n : n < 2 ^ 64;
  sh_text : forall v, In v (bi_text b) -> v < 256;
  sh_bwt : forall v, In v (bi_bwt_text b) -> v < 256;
  sh_heads : forall x y, v_ht b = Some (x, y) -> List.length x = r;
  sh_al : forall x y, v_al b dens = Some (x, y) -> NoDup x /\ (forall k, In k x -> k < r) /\ (forall v, In v y -> v <= r);
  sh_cum : forall l, v_cum b dens = Some l -> forall v, In v l -> v <= r
}.
Lemma shape_holds : shape.
Proof.
  destruct (BwtProof.base_parts w sa (wd_data e) Hw HSA Hd b HB) as (rl & _ & Eb).
  pose proof (terminated_ok w Hw) as TO.
  set (al := construct_alphabet (BW (terminated w) sa)).
  assert (HL : len (ctext w sa) < 2 ^ 64) by (rewrite ctext_n; exact Hn).
  destruct (cbase_ok w sa Hw HSA al h eq_refl Hh HL (wd_data e) Hd) as (b' & Eb' & CB).
  assert (b' = b) by congruence. subst b'.
  pose proof (ctext_ok w sa Hw HSA) as CT. pose proof (ctext_sa w sa Hw HSA) as CS.
  pose proof (PsiText.B_lt w sa Hw HSA al eq_refl) as Hlt. pose proof (PsiText.ta_O w sa Hw HSA al eq_refl) as Hocc.
  pose proof (c_hn w sa Hw HSA HL) as HBn.
  assert (LBT : n = len (terminated w)) by (rewrite (CsaProof.cb_len _ _ _ _ _ CB); apply ctext_len).
  assert (LC : r = List.length (rle (BW (ctext w sa) sa))) by (rewrite (cb_runs _ _ _ _ _ CB); cbn [br_first]; apply hrows_r).
  assert (ER : rn = mk_bwt_runs (hrows (terminated w) sa) (map (tpos (terminated w) sa) (hrows (terminated w) sa))
    (trows (terminated w) sa) (map (tpos (terminated w) sa) (trows (terminated w) sa))) by (rewrite Eb; reflexivity).
  assert (SUM : forall sg, list_sum (map (fun c => List.length (occs (map fst (rle (BW (ctext w sa) sa))) c)) (seq 0 sg))
    = List.length (po (ctext w sa) sa sg)).
  { intros sg. exact (occs_sum _ sg). }
  pose proof (po_length (ctext w sa) sa CS (al_sigma al) Hlt) as LP. rewrite <- LC in LP.
  constructor.
  - intros v I. rewrite ER in I. cbn [br_first] in I. rewrite LBT. exact (proj1 (proj1 (hrows_in _ _ HSA v) I)).
  - intros v I. rewrite ER in I. cbn [br_last] in I. rewrite LBT. exact (proj1 (proj1 (trows_in _ _ HSA v) I)).
  - intros v I. rewrite ER in I. cbn [br_first_text] in I. apply in_map_iff in I as (i & <- & _). rewrite LBT. exact (tpos_lt _ _ TO i).
  - intros v I. rewrite ER in I. cbn [br_last_text] in I. apply in_map_iff in I as (i & <- & _). rewrite LBT. exact (tpos_lt _ _ TO i).
  - rewrite ER. cbn [br_first br_last]. exact (PhiProof.rows_length _ _ TO HSA).
  - rewrite ER. cbn [br_first br_first_text]. apply map_length.
  - rewrite ER. cbn [br_first br_last_text]. rewrite map_length. exact (PhiProof.rows_length _ _ TO HSA).
  - assert (X : List.length (hrows (terminated w) sa) <= len (terminated w)).
    { rewrite (hrows_filter _ _ HSA). etransitivity; [apply filter_le|]. rewrite seq_length. apply le_n. }
    rewrite ER, LBT. exact X.
  - rewrite LBT, <- (ctext_len w sa). exact HL.
  - rewrite Eb. cbn [bi_text]. intros v I. unfold terminated in I. apply in_app_or in I as [I|[<-|[]]]; [exact (Hbyte v I)|apply Nat.ltb_lt; reflexivity].
  - rewrite Eb. cbn [bi_bwt_text]. intros v I. apply (bwt_in _ sa _ TO HSA) in I. unfold terminated in I. apply in_app_or in I as [I|[<-|[]]]; [exact (Hbyte v I)|apply Nat.ltb_lt; reflexivity].
  - intros x y E. unfold v_ht in E. rewrite (psi_files_ok w sa Hw HSA al h eq_refl Hh HL b CB) in E. apply some_pair in E as [-> _].
    unfold phrows. rewrite !map_length. exact LP.
  - intros x y E. unfold v_al, v_pc in E. rewrite (cb_core _ _ _ _ _ CB) in E. rewrite bind_some in E.
    assert (EF : br_first rn = hrows (ctext w sa) sa) by (rewrite (cb_runs _ _ _ _ _ CB); reflexivity).
    rewrite EF in E. rewrite (samples_sorted_ok w sa Hw HSA al h eq_refl Hh HL 0) in E. apply some_pair in E as [-> ->].
    split; [apply po_NoDup|]. split.
    + intros k I. apply (po_in _ _ CS (al_sigma al) Hlt) in I. rewrite LC. exact I.
    + intros v I. apply sums_le0 in I. rewrite SUM, LP in I. exact I.
  - intros l E v I. unfold v_cum, v_pc in E. rewrite (cb_core _ _ _ _ _ CB) in E. rewrite bind_some in E.
    rewrite (core_partial_length _ _ h) in E. rewrite (mmap_map _ (fun c => List.length (occs (map fst (rle (BW (ctext w sa) sa))) c))) in E.
    2:{ intros c Hc. apply in_seq in Hc as [_ Hc]. rewrite Nat.add_0_l in Hc. exact (core_count_runs _ _ h Hlt Hocc Hh HBn c Hc). }
    rewrite bind_some in E. apply some_inv in E as ->. apply sums_le0 in I. rewrite SUM, LP in I. exact I.
Qed.

(** [width_from] over the [ideal] contents *)
Fixpoint width_ideal (fuel : nat) (nm : name) : option nat :=
  match fuel with
  | 0 => None
  | S f =>
      s <- source nm ;;
      match s with
      | WFixed k => Some k
      | WSize m => l <- IN (nm_rate m) (nm_key m) ;; Some (hi (List.length l) + 1)
      | WMax => l <- IN (nm_rate nm) (nm_key nm) ;; Some (hi (list_max l) + 1)
      | WFile m => width_ideal f m
      end
  end.
Lemma v_lb_in x y : v_lb b = Some (x, y) -> forall v, In v y -> v <= r.
Proof.
  intros E v I. destruct (links_in _ _ _ _ _ E I) as (i & F). apply umod_lt in F. rewrite (sh_l2 shape_holds) in F. lia.
Qed.
Lemma v_lf_in x y : v_lf b dens = Some (x, y) -> forall v, In v y -> v <= r.
Proof.
  unfold v_lf, construct_links_forward_bwt. intros E v I. apply bind_Some in E as (pc & _ & E). apply bind_Some in E as (m & _ & E).
  destruct (links_in _ _ _ _ _ E I) as (i & F). apply bind_Some in F as (q & _ & F). unfold link_to_sample in F.
  apply bind_Some in F as (j & _ & F). apply bind_Some in F as (j' & _ & F). apply bind_Some in F as (k & _ & F). apply some_inv in F as ->.
  apply lower_bound_le.
Qed.
Lemma v_ht_in x y : v_ht b = Some (x, y) -> (forall v, In v x -> In v (br_first_text rn)) /\ (forall v, In v y -> In v (br_last_text rn)).
Proof.
  unfold v_ht, construct_psi_run_files. intros E. apply bind_Some in E as (a & E1 & E). apply bind_Some in E as (c & E2 & E).
  apply some_pair in E as [-> ->]. split; [exact (psi_runs_in _ _ _ _ _ E1)|exact (psi_runs_in _ _ _ _ _ E2)].
Qed.
Lemma v_lp_in x y heads tails : v_ht b = Some (heads, tails) -> v_lp b = Some (x, y) -> forall v, In v y -> v <= List.length tails.
Proof.
  unfold v_lp. intros -> E v I. rewrite bind_some in E. destruct (links_in _ _ _ _ _ E I) as (i & F). apply umod_lt in F. lia.
Qed.
Lemma v_sb_in s idx sub : v_sb b s = Some (idx, sub) -> (forall i, In i idx -> i < r) /\ (forall v, In v sub -> v < n) /\ List.length sub = List.length idx.
Proof.
  unfold v_sb. intros E. apply bind_Some in E as ([o l] & _ & E). apply subs_of in E as (A & B & C & _). rewrite (sh_l3 shape_holds) in A.
  split; [exact A|]. split; [|exact C]. intros v I. apply (sh_lpos shape_holds), B, I.
Qed.
Lemma v_sf_in s idx sub : v_sf b dens s = Some (idx, sub) -> (forall i, In i idx -> i < r) /\ (forall v, In v sub -> v < n) /\ List.length sub = List.length idx.
Proof.
  unfold v_sf. intros E. apply bind_Some in E as ([o l] & _ & E). apply subs_of in E as (A & B & C & _). rewrite (sh_l2 shape_holds) in A.
  split; [exact A|]. split; [|exact C]. intros v I. apply (sh_fpos shape_holds), B, I.
Qed.
Lemma v_sf_len s idx sub : v_sf b dens s = Some (idx, sub) -> List.length idx <= r.
Proof.
  unfold v_sf. intros E. apply bind_Some in E as ([o l] & _ & E). apply subs_of in E as (_ & _ & _ & D).
  rewrite rev_length, sort_indices_length, (sh_l2 shape_holds) in D. exact D.
Qed.
Lemma v_sp_in s idx sub : v_sp b s = Some (idx, sub) -> (forall i, In i idx -> i < r) /\ (forall v, In v sub -> v < n) /\ List.length sub = List.length idx /\ List.length idx <= r.
Proof.
  unfold v_sp. intros E. apply bind_Some in E as ([heads tails] & E1 & E). apply bind_Some in E as ([o l] & _ & E).
  apply subs_of in E as (A & B & C & D). rewrite rev_length, sort_indices_length in D. rewrite (sh_heads shape_holds _ _ E1) in *.
  split; [exact A|]. split; [|split; [exact C|exact D]]. intros v I. apply (sh_fpos shape_holds). apply (v_ht_in _ _ E1), B, I.
Qed.
Lemma v_mb_in s sub links : v_mb b s = Some (sub, links) -> (forall v, In v sub -> v < n) /\ links = sort_indices sub /\
  (forall idx x, v_sb b s = Some (idx, x) -> List.length sub = List.length idx).
Proof.
  unfold v_mb. intros E. apply bind_Some in E as ([idx x] & E1 & E). unfold construct_submarks in E.
  apply bind_Some in E as (t & E2 & E). apply bind_Some in E as (z & E3 & E). apply some_pair in E as [-> ->].
  split; [intros v I; apply (sh_fpos shape_holds), (mmap_nth_in _ _ _ _ E3 I)|]. split; [reflexivity|].
  intros idx' x' E'. rewrite E1 in E'. apply some_pair in E' as [-> _]. rewrite (mmap_length _ _ _ E3). exact (mmap_length _ _ _ E2).
Qed.
Lemma to_mark_length pc idx t : sample_to_mark_bwt b pc idx = Some t -> List.length t = List.length idx.
Proof. unfold sample_to_mark_bwt. cbv zeta. intros E. apply bind_Some in E as (m & _ & E). exact (mmap_length _ _ _ E). Qed.
Lemma v_mf_in s sub links : v_mf b dens s = Some (sub, links) -> (forall v, In v sub -> v < n) /\ links = sort_indices sub /\
  (forall idx x, v_sf b dens s = Some (idx, x) -> List.length sub = List.length idx).
Proof.
  unfold v_mf. intros E. apply bind_Some in E as (pc & _ & E). apply bind_Some in E as ([idx x] & E1 & E). apply bind_Some in E as (t & E2 & E).
  apply submarks_of_in in E as (A & B & C).
  split; [intros v I; apply (sh_lpos shape_holds), A, I|]. split; [exact C|].
  intros idx' x' E'. rewrite E1 in E'. apply some_pair in E' as [-> _]. rewrite B. exact (to_mark_length _ _ _ E2).
Qed.
Lemma v_mp_in s sub links : v_mp b s = Some (sub, links) -> (forall v, In v sub -> v < n) /\ links = sort_indices sub /\
  (forall idx x, v_sp b s = Some (idx, x) -> List.length sub = List.length idx).
Proof.
  unfold v_mp. intros E. apply bind_Some in E as ([heads tails] & E0 & E). apply bind_Some in E as ([idx x] & E1 & E). apply bind_Some in E as (t & E2 & E).
  apply submarks_of_in in E as (A & B & C).
  split; [intros v I; apply (sh_lpos shape_holds), (v_ht_in _ _ E0), A, I|]. split; [exact C|].
  intros idx' x' E'. rewrite E1 in E'. apply some_pair in E' as [-> _]. rewrite B. exact (mmap_length _ _ _ E2).
Qed.
Lemma v_sal_in s idx samples sub idxs links : v_sf b dens s = Some (idx, samples) -> v_sal b dens s = Some (sub, idxs, links) ->
  (forall v, In v sub -> In v samples) /\ (forall v, In v links -> v <= List.length idx).
Proof.
  intros EF E. unfold v_sal in E. apply bind_Some in E as ([sorted cum] & E1 & E). rewrite EF, bind_some in E.
  apply bind_Some in E as ([m l] & E2 & E). unfold subsamples_sorted_by_alphabet in E. cbn [sf_idx sf_samples sf_links] in E.
  apply bind_Some in E as (bv & EB & E). apply bind_Some in E as ([[[[i c] sub'] idxs'] ts] & EM & E). apply bind_Some in E as (out & EO & E).
  apply some_pair in E as [E ->]. apply pair_equal_spec in E as [-> ->].
  destruct (sorted_alphabet sorted idx samples l (proj1 (sh_al shape_holds _ _ E1)) _ _ _ _ _ _ EB EM) as (_ & A & B).
  split; [exact A|exact (B _ EO)].
Qed.

Ltac size_of := match goal with |- fits (hi ?m + 1) _ => apply all_fit end.
Lemma p1_some {A B} (x : option (A * B)) a : p1 x = Some a -> exists y, x = Some (a, y).
Proof. destruct x as [[a' y]|]; [|discriminate]. intros H. apply some_inv in H as ->. eauto. Qed.
Lemma p2_some {A B} (x : option (A * B)) y : p2 x = Some y -> exists a, x = Some (a, y).
Proof. destruct x as [[a y']|]; [|discriminate]. intros H. apply some_inv in H as ->. eauto. Qed.
Ltac getw HW := cbn [width_ideal source nm_rate nm_key N NT P PT ints bind] in HW;
  rewrite ?bind_some in HW; cbv iota beta in HW; cbn [width_ideal source nm_rate nm_key N NT P PT ints] in HW.
Lemma ideal_fits nm l k : IN (nm_rate nm) (nm_key nm) = Some l -> width_ideal 4 nm = Some k -> fits k l.
Proof.
  destruct nm as [[s|] key hash]; cbn [nm_rate nm_key]; intros HL HW; destruct key; cbn [ints] in HL; try discriminate HL; getw HW; try discriminate HW.
  all: try (apply bind_Some in HW as (l' & E' & HW)); apply some_inv in HW as ->.
  all: try (apply some_inv in HL as ->).
  all: try (apply p1_some in HL as (y & HL)); try (apply p2_some in HL as (y & HL)).
  (* files of a rate *)
  - (* FFirst *) size_of. intros v I. unfold v_pos in HL. apply bind_Some in HL as ([idx x] & _ & HL). apply Nat.lt_le_incl, (sh_first shape_holds), (mmap_nth_in _ _ _ _ HL I).
  - (* FFirstIdx *) size_of. rewrite (sh_l2 shape_holds). intros v I. apply Nat.lt_le_incl, (proj1 (v_sf_in _ _ _ HL)), I.
  - (* FFirstPos *) size_of. intros v I. apply Nat.lt_le_incl, (proj1 (proj2 (v_sf_in _ _ _ HL))), I.
  - (* FFirstByLast *) size_of. intros v I. apply Nat.lt_le_incl, (proj1 (v_mb_in _ _ _ HL)), I.
  - (* FFirstLinks *) apply p1_some in E' as (z & E'). size_of. destruct (v_mb_in _ _ _ HL) as (_ & -> & L). rewrite <- (L _ _ E').
    intros v I. apply Nat.lt_le_incl, sort_indices_lt, I.
  - (* FFirstValid *) apply p1_some in E' as (z & E'). size_of.
    destruct (total_lb (wd_data e) sa b dens g HB HT s) as (_ & ([idx sub] & ES) & _ & _ & _ & _ & (bv & EB)).
    cbn [bits ints] in EB. rewrite ES, HL in EB. cbn [p1 p2 option_map fst snd bind] in EB.
    intros v I. apply (bits_lt _ _ _ _ _ EB) in I. rewrite (proj2 (proj2 (v_mb_in _ _ _ E')) _ _ ES), <- (proj2 (proj2 (v_sb_in _ _ _ ES))). apply Nat.lt_le_incl, I.
  - (* FFirstArea *) rewrite HL in E'. apply some_inv in E' as ->. size_of. apply le_list_max.
  - (* FLastIdx *) size_of. rewrite (sh_l3 shape_holds). intros v I. apply Nat.lt_le_incl, (proj1 (v_sb_in _ _ _ HL)), I.
  - (* FLastPos *) size_of. intros v I. apply Nat.lt_le_incl, (proj1 (proj2 (v_sb_in _ _ _ HL))), I.
  - (* FLastByFirst *) size_of. intros v I. apply Nat.lt_le_incl, (proj1 (v_mf_in _ _ _ HL)), I.
  - (* FLastLinks *) apply p1_some in E' as (z & E'). size_of. destruct (v_mf_in _ _ _ HL) as (_ & -> & L). rewrite <- (L _ _ E').
    intros v I. apply Nat.lt_le_incl, sort_indices_lt, I.
  - (* FLastValid *) apply p1_some in E' as (z & E'). size_of.
    destruct (total_lf (wd_data e) sa b dens g HB HT s) as (_ & _ & ([idx sub] & ES) & _ & _ & _ & _ & _ & _ & (bv & EB)).
    cbn [bits ints] in EB. rewrite ES, HL in EB. cbn [p1 p2 option_map fst snd bind] in EB.
    intros v I. apply (bits_lt _ _ _ _ _ EB) in I. rewrite (proj2 (proj2 (v_mf_in _ _ _ E')) _ _ ES), <- (proj2 (proj2 (v_sf_in _ _ _ ES))). apply Nat.lt_le_incl, I.
  - (* FLastArea *) rewrite HL in E'. apply some_inv in E' as ->. size_of. apply le_list_max.
  - (* FFirstIdxAlpha *) size_of. rewrite (sh_l2 shape_holds).
    destruct (total_al (wd_data e) sa b dens g HB HT s) as (_ & _ & (bv & EB)). cbn [bits ints] in EB. rewrite HL in EB. cbn [p2 option_map snd bind] in EB.
    intros v I. apply Nat.lt_le_incl, (bits_lt _ _ _ _ _ EB I).
  - (* FFirstPosAlpha *) apply p1_some in HL as (z & HL). size_of.
    destruct (total_lf (wd_data e) sa b dens g HB HT s) as (_ & _ & ([idx sub] & ES) & _).
    intros v I. apply Nat.lt_le_incl, (proj1 (proj2 (v_sf_in _ _ _ ES))), (proj1 (v_sal_in _ _ _ _ _ _ ES HL)), I.
  - (* FLastLinksAlpha *) destruct y as [sub idxs]. apply p1_some in E' as (z & E'). size_of. exact (proj2 (v_sal_in _ _ _ _ _ _ E' HL)).
  - (* FPsiHead *) size_of. intros v I. apply Nat.lt_le_incl, (proj1 (proj2 (v_sp_in _ _ _ HL))), I.
  - (* FPsiHeadIdx *) apply p1_some in E' as (z & E'). size_of. rewrite (sh_heads shape_holds _ _ E'). intros v I. apply Nat.lt_le_incl, (proj1 (v_sp_in _ _ _ HL)), I.
  - (* FPsiTail *) size_of. intros v I. apply Nat.lt_le_incl, (proj1 (v_mp_in _ _ _ HL)), I.
  - (* FPsiTailLinks *) apply p1_some in E' as (z & E'). rewrite HL in E'. apply some_pair in E' as [-> ->]. size_of. rewrite (proj1 (proj2 (v_mp_in _ _ _ HL))).
    intros v I. apply Nat.lt_le_incl, sort_indices_lt, I.
  - (* FPsiTailValid *)
    destruct (total_lp (wd_data e) sa b dens g HB HT s) as (_ & _ & ([idx sub] & ES) & ([m lk] & EM) & _ & _ & _ & _ & _ & (bv & EB)).
    cbn [bits ints] in EB. rewrite EM, HL in EB. cbn [p1 p2 option_map fst snd bind] in EB.
    apply Forall_forall. intros v I. apply (bits_lt _ _ _ _ _ EB) in I. rewrite (proj2 (proj2 (v_mp_in _ _ _ EM)) _ _ ES) in I.
    eapply Nat.lt_le_trans; [exact I|]. eapply Nat.le_trans; [exact (proj2 (proj2 (proj2 (v_sp_in _ _ _ ES))))|].
    eapply Nat.le_trans; [exact (sh_rn shape_holds)|]. apply Nat.lt_le_incl, (sh_n shape_holds).
  - (* FPsiTailArea *) rewrite HL in E'. apply some_inv in E' as ->. size_of. apply le_list_max.
  (* files of the whole text *)
  - apply Forall_forall, (sh_text shape_holds).
  - apply Forall_forall, (sh_bwt shape_holds).
  - (* FPsi *) rewrite HL in E'. apply some_inv in E' as ->. size_of. apply le_list_max.
  - size_of. intros v I. apply Nat.lt_le_incl, (sh_first shape_holds), I.
  - size_of. intros v I. apply Nat.lt_le_incl, (sh_fpos shape_holds), I.
  - size_of. intros v I. apply Nat.lt_le_incl, sort_indices_lt, I.
  - size_of. rewrite (sh_l2 shape_holds). exact (v_lb_in _ _ HL).
  - size_of. intros v I. apply Nat.lt_le_incl, (sh_last shape_holds), I.
  - size_of. intros v I. apply Nat.lt_le_incl, (sh_lpos shape_holds), I.
  - size_of. intros v I. apply Nat.lt_le_incl, sort_indices_lt, I.
  - size_of. rewrite (sh_l3 shape_holds). exact (v_lf_in _ _ HL).
  - (* FCum *) size_of. exact (proj2 (proj2 (sh_al shape_holds _ _ HL))).
  - size_of. intros v I. apply Nat.lt_le_incl, (proj1 (proj2 (sh_al shape_holds _ _ HL))), I.
  - (* FPsiHead *) size_of. intros v I. apply Nat.lt_le_incl, (sh_fpos shape_holds), (proj1 (v_ht_in _ _ HL)), I.
  - (* FPsiHeadSorted *) rewrite E' in HL. cbn [option_map] in HL. apply some_inv in HL as ->. size_of. intros v I. apply Nat.lt_le_incl, sort_indices_lt, I.
  - (* FPsiTail *) size_of. intros v I. apply Nat.lt_le_incl, (sh_lpos shape_holds), (proj2 (v_ht_in _ _ HL)), I.
  - (* FPsiTailLinks *) apply p2_some in E' as (z & E'). size_of. exact (v_lp_in _ _ _ _ E' HL).
  - (* FPsiCum *) apply p1_some in E' as (z & E'). size_of. rewrite (sh_heads shape_holds _ _ E'). exact (sh_cum shape_holds _ HL).
Qed.

(** * The directory *)
Section Disk.
Variable p : proc.
Hypothesis HI : inv sa b dens g p.
Notation d := (pr_disk p).
Lemma find_ideal nm it : d_find d nm = Some (Whole it) -> ideal sa b dens g nm = Some it.
Proof. intros E. apply d_find_In in E. exact (proj1 (Forall_forall _ _) (inv_good _ _ _ _ _ HI) _ E). Qed.
Lemma ideal_ints nm l : ideal sa b dens g nm = Some (ItInts l) -> IN (nm_rate nm) (nm_key nm) = Some l.
Proof.
  destruct nm as [rt k [ty|]]; unfold ideal; cbn [nm_hash nm_rate nm_key]; intros E.
  - destruct ty; try discriminate E;
      try (match type of E with option_map ?f ?x = _ => destruct x; [|discriminate E]; cbn [option_map] in E; try discriminate E; injection E as ->; reflexivity end).
    destruct rt, k; try discriminate E. match type of E with (if ?x then _ else _) = _ => destruct x; [|discriminate E] end.
    match type of E with option_map _ ?x = _ => destruct x; discriminate E end.
  - assert (X : option_map ItInts (IN rt k) = Some (ItInts l)) by (destruct rt, k; try discriminate E; exact E).
    destruct (IN rt k) as [x|]; [|discriminate X]. cbn [option_map] in X. injection X as ->. reflexivity.
Qed.
Lemma ints_ideal nm l : ints_at d nm = Some l -> IN (nm_rate nm) (nm_key nm) = Some l.
Proof.
  unfold ints_at. destruct (d_find d nm) as [[it|]|] eqn:E; try discriminate. destruct it; try discriminate. intros H. apply some_inv in H as ->.
  apply ideal_ints, find_ideal, E.
Qed.
Lemma width_ideal_of f : forall nm k, width_from f d nm = Some k -> width_ideal f nm = Some k.
Proof.
  induction f as [|f IH]; intros nm k E; [discriminate|]. cbn [width_from width_ideal] in *. destruct (source nm) as [[k0|m| |m]|]; rewrite ?bind_some in *; try discriminate.
  - exact E.
  - apply bind_Some in E as (l & E1 & E). rewrite (ints_ideal _ _ E1). exact E.
  - apply bind_Some in E as (l & E1 & E). rewrite (ints_ideal _ _ E1). exact E.
  - apply IH, E.
Qed.
Lemma file_fits nm l k : ints_at d nm = Some l -> file_width d nm = Some k -> fits k l.
Proof. intros E W. exact (ideal_fits nm l k (ints_ideal _ _ E) (width_ideal_of 4 _ _ W)). Qed.

(** Files that are there *)
Definition int_key (nm : name) : bool :=
  match nm_hash nm, nm_key nm with Some TyInts, _ => true | None, (FAlpha | FRle) => false | None, _ => true | _, _ => false end.
Lemma whole_ints nm : int_key nm = true -> whole d nm -> exists l, ints_at d nm = Some l.
Proof.
  intros HK [it E]. pose proof (find_ideal _ _ E) as I. unfold ints_at. rewrite E.
  assert (X : exists l, it = ItInts l).
  { destruct nm as [rt k [[]|]]; unfold int_key, ideal in *; cbn [nm_hash nm_rate nm_key] in *; try discriminate.
    - destruct (IN rt k) as [x|]; [|discriminate]. cbn [option_map] in I. injection I as <-. eauto.
    - assert (Y : option_map ItInts (IN rt k) = Some it) by (destruct rt, k; try discriminate HK; exact I).
      destruct (IN rt k) as [x|]; [|discriminate]. cbn [option_map] in Y. injection Y as <-. eauto. }
  destruct X as [l ->]. eauto.
Qed.

(** Working arrays *)
Lemma some_n nm l : ints_at d nm = Some l -> forall l', IN (nm_rate nm) (nm_key nm) = Some l' -> l = l'.
Proof. intros E l' E'. apply ints_ideal in E. congruence. Qed.
Lemma to_marks_backward_fits s k l : to_marks_backward d s = Some (k, l) -> fits k l.
Proof.
  unfold to_marks_backward. intros E. apply bind_Some in E as (idx & E1 & E). apply bind_Some in E as (first & E2 & E). apply bind_Some in E as (k' & E3 & E).
  apply bind_Some in E as (l' & E4 & E). apply some_pair in E as [-> ->].
  apply width_ideal_of in E3. getw E3. apply some_inv in E3. rewrite E3. size_of. rewrite (sh_l3 shape_holds).
  intros v I. destruct (mmap_in _ _ _ _ E4 I) as (i & _ & F). apply umod_lt in F. rewrite (some_n _ _ E2 _ eq_refl) in F. apply Nat.lt_le_incl, F.
Qed.
Lemma to_marks_psi_fits s k l : to_marks_psi d s = Some (k, l) -> fits k l.
Proof.
  unfold to_marks_psi. intros E. apply bind_Some in E as (idx & E1 & E). apply bind_Some in E as (heads & E2 & E). apply bind_Some in E as (k' & E3 & E).
  apply bind_Some in E as (l' & E4 & E). apply some_pair in E as [-> ->].
  apply width_ideal_of in E3. getw E3. apply ints_ideal in E2. cbn [nm_rate nm_key NT ints] in E2. rewrite E2 in E3. apply some_inv in E3. rewrite E3. size_of.
  intros v I. destruct (mmap_in _ _ _ _ E4 I) as (i & _ & F). apply umod_lt in F. apply Nat.lt_le_incl, F.
Qed.
Lemma load_last dens' b' pc : load_lf_psi dens' (new_proc d) = Some (b', pc) -> List.length (br_last (bi_runs_files b')) <= r.
Proof.
  unfold load_lf_psi. intros E. apply bind_Some in E as (x1 & _ & E). apply bind_Some in E as (x2 & _ & E). apply bind_Some in E as (x3 & _ & E).
  apply bind_Some in E as (first & _ & E). apply bind_Some in E as (last & EL & E). apply bind_Some in E as (x4 & _ & E). apply some_pair in E as [-> _].
  cbn [bi_runs_files br_last]. unfold load_ints, look_file in EL. cbn [resolve new_proc nm_hash N nm_rate nm_key pr_map existsb pr_disk] in EL.
  destruct (d_find d (N FLast)) as [[it|]|] eqn:ED; try discriminate.
  - destruct it; try discriminate. apply some_inv in EL as ->. rewrite <- (sh_l1 shape_holds). apply find_ideal, ideal_ints in ED. cbn [nm_rate nm_key N ints] in ED.
    apply some_inv in ED. rewrite ED. apply le_n.
  - apply some_inv in EL as ->. apply Nat.le_0_l.
Qed.
Lemma to_marks_forward_fits dens' s k l : to_marks_forward dens' d s = Some (k, l) -> fits k l.
Proof.
  unfold to_marks_forward. intros E. apply bind_Some in E as (idx & E1 & E). apply bind_Some in E as (k' & E3 & E). apply bind_Some in E as ([b' pc] & E2 & E).
  apply bind_Some in E as (l' & E4 & E). apply some_pair in E as [-> ->].
  apply width_ideal_of in E3. getw E3. apply some_inv in E3. rewrite E3. size_of. rewrite (sh_l2 shape_holds).
  intros v I. unfold sample_to_mark_bwt in E4. apply bind_Some in E4 as (m & _ & E4). cbv zeta in E4. destruct (mmap_in _ _ _ _ E4 I) as (i & _ & F).
  apply bind_Some in F as (q & _ & F). unfold link_to_mark in F. apply bind_Some in F as (j & _ & F). apply bind_Some in F as (j' & _ & F).
  apply bind_Some in F as (y & _ & F). apply some_inv in F as ->. eapply Nat.le_trans; [apply lower_bound_le|]. exact (load_last _ _ _ E2).
Qed.
Lemma to_sorted_slim_fits s k l : to_sorted_slim d s = Some (k, l) -> fits k l.
Proof.
  unfold to_sorted_slim. intros E. apply bind_Some in E as (sorted & E1 & E). apply bind_Some in E as (idx & E2 & E). apply bind_Some in E as (samples & E3 & E).
  apply bind_Some in E as (k' & E4 & E). apply bind_Some in E as (bv & E5 & E). apply bind_Some in E as ([[[[i c] sub] idxs] ts] & E6 & E). apply some_pair in E as [-> ->].
  apply width_ideal_of in E4. getw E4. apply some_inv in E4. rewrite E4. size_of. rewrite (sh_l2 shape_holds).
  apply ints_ideal in E1. cbn [nm_rate nm_key N ints] in E1. apply p1_some in E1 as (cum & E1).
  destruct (sh_al shape_holds _ _ E1) as (ND & LT & _).
  destruct (sorted_alphabet sorted idx samples [] ND _ _ _ _ _ _ E5 E6) as (A & _).
  apply ints_ideal in E2. cbn [nm_rate nm_key P ints] in E2. apply p1_some in E2 as (x & E2).
  intros v I. apply A in I. eapply Nat.le_trans; [exact I|]. exact (v_sf_len _ _ _ E2).
Qed.
Lemma psi_array_fits k l : psi_array d = Some (k, l) -> fits k l.
Proof.
  unfold psi_array. intros E. apply bind_Some in E as (al & _ & E). apply bind_Some in E as (s & _ & E). apply bind_Some in E as (m & EN & E).
  apply bind_Some in E as (l' & EP & E). apply some_pair in E as [-> ->]. size_of. exact (psi_values _ _ _ _ EN EP).
Qed.
Notation WH := (whole d).
Lemma get_ints nm : WH nm -> int_key nm = true -> exists l, ints_at d nm = Some l /\ IN (nm_rate nm) (nm_key nm) = Some l.
Proof. intros W K. destruct (whole_ints nm K W) as [l E]. exists l. split; [exact E|apply ints_ideal, E]. Qed.
Lemma def_backward s : WH (P s FLastIdx) -> WH (N FFirst) -> WH (N FLastPos) -> WH (P s FFirstByLast) -> exists k l, to_marks_backward d s = Some (k, l).
Proof.
  intros W1 W2 W3 W4. destruct (get_ints _ W1 eq_refl) as (x1 & E1 & I1). destruct (get_ints _ W2 eq_refl) as (x2 & E2 & I2).
  destruct (get_ints _ W3 eq_refl) as (x3 & E3 & I3). destruct (get_ints _ W4 eq_refl) as (x4 & E4 & I4).
  cbn [nm_rate nm_key N P ints] in I1, I2, I4. apply some_inv in I2. apply p1_some in I1 as (y1 & I1). apply p1_some in I4 as (y4 & I4).
  unfold v_mb in I4. rewrite I1, bind_some in I4. unfold construct_submarks in I4. apply bind_Some in I4 as (t & I4 & _). rewrite <- I2 in I4.
  unfold to_marks_backward, file_width. cbn [width_from source nm_rate nm_key P]. repeat first [rewrite bind_some | rewrite E1 | rewrite E2 | rewrite E3 | rewrite I4]. eauto.
Qed.
Lemma def_psi s : WH (PT s FPsiHeadIdx TyInts) -> WH (NT FPsiHead TyInts) -> WH (PT s FPsiTail TyInts) -> exists k l, to_marks_psi d s = Some (k, l).
Proof.
  intros W1 W2 W4. destruct (get_ints _ W1 eq_refl) as (x1 & E1 & I1). destruct (get_ints _ W2 eq_refl) as (x2 & E2 & I2). destruct (get_ints _ W4 eq_refl) as (x4 & E4 & I4).
  cbn [nm_rate nm_key NT PT ints] in I1, I2, I4. apply p1_some in I1 as (y1 & I1). apply p1_some in I2 as (y2 & I2). apply p1_some in I4 as (y4 & I4).
  unfold v_mp in I4. rewrite I2, bind_some, I1, bind_some in I4. apply bind_Some in I4 as (t & I4 & _).
  unfold to_marks_psi, file_width. cbn [width_from source nm_rate nm_key PT]. repeat first [rewrite bind_some | rewrite E1 | rewrite E2 | rewrite I4]. eauto.
Qed.
Lemma def_forward s : WH (P s FFirstIdx) -> WH (N FFirstPos) -> WH (P s FLastByFirst) -> WH (N FRle) -> WH (N FAlpha) -> WH (NT FPsi (TyPsi dens)) -> WH (N FFirst) ->
  WH (N FLast) -> WH (N FLastPos) -> exists k l, to_marks_forward dens d s = Some (k, l).
Proof.
  intros W1 W2 W3 W4 W5 W6 W7 W8 W9. destruct (get_ints _ W1 eq_refl) as (x1 & E1 & I1). destruct (get_ints _ W2 eq_refl) as (x2 & E2 & I2). destruct (get_ints _ W3 eq_refl) as (x3 & E3 & I3).
  cbn [nm_rate nm_key P ints] in I1, I3. apply p1_some in I1 as (y1 & I1). apply p1_some in I3 as (y3 & I3).
  unfold v_mf in I3. apply bind_Some in I3 as (pc & EP & I3). rewrite I1, bind_some in I3. apply bind_Some in I3 as (t & I3 & _).
  unfold to_marks_forward, file_width. cbn [width_from source nm_rate nm_key P]. repeat first [rewrite bind_some | rewrite E1 | rewrite E2].
  rewrite (load_lf_psi_ok sa b dens g (new_proc d) pc).
  - rewrite bind_some. match goal with |- context [sample_to_mark_bwt ?x ?y ?z] => change (sample_to_mark_bwt x y z) with (sample_to_mark_bwt b y z) end.
    rewrite I3, bind_some. eauto.
  - exact (inv_new w e h b p HI).
  - intros x Hx. cbn [In] in Hx. cbn [new_proc pr_disk]. repeat (destruct Hx as [<-|Hx]; [assumption|]). destruct Hx.
  - exact EP.
Qed.
Lemma def_slim s : WH (N FFirstIdxAlpha) -> WH (P s FFirstIdx) -> WH (P s FFirstPos) -> WH (N FFirstPos) -> WH (P s FFirstPosAlpha) -> exists k l, to_sorted_slim d s = Some (k, l).
Proof.
  intros W1 W2 W3 W4 W5. destruct (get_ints _ W1 eq_refl) as (x1 & E1 & I1). destruct (get_ints _ W2 eq_refl) as (x2 & E2 & I2). destruct (get_ints _ W3 eq_refl) as (x3 & E3 & I3).
  destruct (get_ints _ W4 eq_refl) as (x4 & E4 & I4). destruct (get_ints _ W5 eq_refl) as (x5 & E5 & I5).
  cbn [nm_rate nm_key N P ints] in I1, I2, I3, I5. apply p1_some in I1 as (y1 & I1). apply p1_some in I2 as (y2 & I2).
  rewrite I2 in I3. cbn [p2 option_map snd] in I3. apply some_inv in I3. subst y2.
  assert (EX : exists v, v_sal b dens s = Some v) by (destruct (v_sal b dens s); [eauto|discriminate I5]). destruct EX as [v EX].
  unfold v_sal in EX. rewrite I1, bind_some, I2, bind_some in EX. apply bind_Some in EX as ([m1 m2] & _ & EX).
  unfold subsamples_sorted_by_alphabet in EX. cbn [sf_idx sf_samples] in EX. apply bind_Some in EX as (bv & EB & EX). apply bind_Some in EX as ([[[[i c] sub] idxs] ts] & EM & _).
  unfold to_sorted_slim, file_width. cbn [width_from source nm_rate nm_key P].
  repeat first [rewrite bind_some | rewrite E1 | rewrite E2 | rewrite E3 | rewrite E4 | rewrite EB | rewrite EM]. eauto.
Qed.
Lemma def_psi_array : WH (N FAlpha) -> WH (N FRle) -> WH (N FPsi) -> exists k l, psi_array d = Some (k, l).
Proof.
  intros W1 W2 W3. destruct (get_ints _ W3 eq_refl) as (x & _ & I). cbn [nm_rate nm_key N ints] in I.
  assert (RD := inv_ready sa b dens g _ (inv_new w e h b p HI)). unfold psi_array.
  rewrite (alpha_ok sa b dens g _ (N FAlpha) (bi_alpha b) RD eq_refl W1 eq_refl), bind_some, (rle_ok sa b dens g _ (N FRle) (bi_bwt_rle b) RD eq_refl W2 eq_refl), bind_some.
  pose proof I as I'. unfold v_psi, construct_psi in I'. apply bind_Some in I' as (m & EM & _). rewrite EM, bind_some. unfold v_psi in I. rewrite I, bind_some. eauto.
Qed.
End Disk.

End Ideal.

(** * After a call *)
Ltac open_arrays H := cbv [class_arrays base_arrays r_arrays sr_arrays sr_valid_arrays csa_arrays srcsa_arrays slim_arrays srcsa_valid_arrays psi_arrays srpsi_arrays app] in H; cbn [In] in H.
Ltac mem := cbv [bv_names bv0_names base_names rindex_names sri_names sri_valid_names rcsa_names common_names srcsa_names slim_names
  srcsa_valid_names rcsa_psi_names srpsi_names psi_valid_names run_names app]; cbn [In]; repeat (first [left; reflexivity | right]); fail.
Lemma class_arrays_in d0 rt tm kd s nm : In nm (class_arrays kd s) -> In nm (all_names d0 rt tm kd s).
Proof.
  intros H. unfold all_names. rewrite <- app_assoc. apply in_or_app. right. destruct kd; revert nm H; unfold class_names; intros nm H; open_arrays H;
    repeat (destruct H as [<-|H]; [solve [mem]|]); destruct H.
Qed.
Ltac mem_arrays := cbv [class_arrays base_arrays r_arrays sr_arrays sr_valid_arrays csa_arrays srcsa_arrays slim_arrays srcsa_valid_arrays psi_arrays srpsi_arrays app]; cbn [In];
  repeat (first [left; reflexivity | right]); fail.
Section After.
Variables (w : list nat) (e : world) (h : nat).
Hypothesis HS : sound_world w e.
Hypothesis Hh : 0 < h.
Hypothesis Hn : S (List.length w) < 2 ^ 64.
Hypothesis Hbyte : forall c, In c w -> c < 256.
Variables (q : proc) (r : run) (p : proc).
Hypothesis HQ : history w e (2 * h) q.
Hypothesis HR : run_ready w e (2 * h) r.
Hypothesis HE : run_cache e r q = Some p.
Lemma after_whole nm : In nm (all_names (2 * h) (ru_route r) (ru_tm r) (ru_kd r) (ru_rate r)) -> whole (pr_disk p) nm.
Proof.
  intros I. destruct (world_base w e h HS Hh Hn) as [b HB].
  destruct (run_ok w e h HS Hh Hn b HB r HR q (history_inv w e h HS Hh Hn b HB q HQ) ltac:(intros ? [])) as [(p' & ws & E & _ & _ & W) _].
  rewrite HE in E. apply some_inv in E as <-. exact (proj1 W nm I).
Qed.
Lemma after_ints nm : In nm (class_arrays (ru_kd r) (ru_rate r)) -> exists l, ints_at (pr_disk p) nm = Some l.
Proof.
  intros I. destruct (world_base w e h HS Hh Hn) as [b HB].
  apply (whole_ints w e h b p (history_inv w e h HS Hh Hn b HB p (h_run _ _ _ _ _ _ HQ HR HE))).
  - destruct (ru_kd r); open_arrays I;
      repeat (destruct I as [<-|I]; [reflexivity|]); destruct I.
  - apply after_whole, class_arrays_in, I.
Qed.
Lemma after_width nm : In nm (class_arrays (ru_kd r) (ru_rate r)) -> exists k, file_width (pr_disk p) nm = Some k.
Proof.
  pose proof after_ints as A. unfold file_width. intros I.
  destruct (ru_kd r); open_arrays I;
    repeat (destruct I as [<-|I]; [cbn [bind width_from source nm_rate nm_key nm_hash N NT P PT with_hash];
      try (match goal with |- context [ints_at (pr_disk p) ?m] => destruct (A m) as [l ->]; [solve [mem_arrays]|] end); rewrite ?bind_some; eexists; reflexivity|]); destruct I.
Qed.
Lemma after_fits nm : In nm (class_arrays (ru_kd r) (ru_rate r)) ->
  exists l k, d_find (pr_disk p) nm = Some (Whole (ItInts l)) /\ file_width (pr_disk p) nm = Some k /\ fits k l.
Proof.
  intros I. destruct (world_base w e h HS Hh Hn) as [b HB]. destruct (after_ints nm I) as [l E]. destruct (after_width nm I) as [k W]. exists l, k.
  split; [|split; [exact W|]].
  - unfold ints_at in E. destruct (d_find (pr_disk p) nm) as [[[]|]|]; try discriminate E. apply some_inv in E as ->. reflexivity.
  - exact (file_fits w e h HS Hh Hn Hbyte b HB p (history_inv w e h HS Hh Hn b HB p (h_run _ _ _ _ _ _ HQ HR HE)) nm l k E W).
Qed.
Lemma after_working a : In a (working_arrays (2 * h) (pr_disk p) (ru_kd r) (ru_rate r)) -> exists k l, a = Some (k, l) /\ fits k l.
Proof.
  destruct (world_base w e h HS Hh Hn) as [b HB]. pose proof (history_inv w e h HS Hh Hn b HB p (h_run _ _ _ _ _ _ HQ HR HE)) as IV.
  pose proof after_whole as A. intros I. unfold working_arrays in I.
  destruct (ru_kd r) eqn:K; cbn [In] in I; repeat (destruct I as [<-|I]); try destruct I.
  all: match goal with
    | |- context [to_marks_backward ?d ?s] => destruct (def_backward w e h b p IV s) as (k & l & E); [..|exists k, l; split; [exact E|exact (to_marks_backward_fits w e h HS Hh Hn Hbyte b HB p IV _ _ _ E)]]
    | |- context [to_marks_psi ?d ?s] => destruct (def_psi w e h b p IV s) as (k & l & E); [..|exists k, l; split; [exact E|exact (to_marks_psi_fits w e h b p IV _ _ _ E)]]
    | |- context [to_marks_forward _ ?d ?s] => destruct (def_forward w e h b p IV s) as (k & l & E); [..|exists k, l; split; [exact E|exact (to_marks_forward_fits w e h HS Hh Hn Hbyte b HB p IV _ _ _ _ E)]]
    | |- context [to_sorted_slim ?d ?s] => destruct (def_slim w e h b p IV s) as (k & l & E); [..|exists k, l; split; [exact E|exact (to_sorted_slim_fits w e h HS Hh Hn Hbyte b HB p IV _ _ _ E)]]
    | |- context [psi_array ?d] => destruct (def_psi_array w e h b p IV) as (k & l & E); [..|exists k, l; split; [exact E|exact (psi_array_fits p _ _ E)]]
    end.
  all: apply A; unfold all_names; rewrite <- app_assoc; apply in_or_app; right; unfold class_names; solve [mem].
Qed.
End After.

(** * Psi *)
Lemma ev_scan_ok dens : forall c ns v1 mx z smp mx' z' smp', ev_scan dens ns v1 mx z smp c = (mx', z', smp') ->
  mx <= mx' /\ z <= z' /\ z' = z + List.length (ev_deltas dens ns v1 c) /\
  (forall last, (forall zz v, In v (last zz) -> v <= S zz) -> forall v, In v (ev_samples dens last ns v1 z c) -> v <= mx' \/ v <= z' + 1) /\
  (forall last, (forall zz, List.length (last zz) = 2) -> List.length (ev_samples dens last ns v1 z c) + 2 * smp = 2 * smp' + 2).
Proof.
  induction c as [|v2 t IH]; intros ns v1 mx z smp mx' z' smp' E; cbn [ev_scan ev_deltas ev_samples] in *.
  - injection E as -> -> ->. cbn [List.length]. repeat split; try lia.
    + intros last HL v I. apply HL in I. lia.
    + intros last HL. rewrite HL. lia.
  - destruct ns as [|k].
    + apply IH in E as (A & B & C & D & F). assert (M : mx <= mx' /\ v2 <= mx') by (destruct (mx <? v2) eqn:L; [apply Nat.ltb_lt in L|apply Nat.ltb_ge in L]; lia).
      repeat split; try lia.
      * intros last HL v [<-|[<-|I]]; [lia|lia|exact (D last HL v I)].
      * intros last HL. specialize (F last HL). cbn [List.length]. lia.
    + apply IH in E as (A & B & C & D & F). rewrite app_length. unfold ed_length in C. repeat split; auto; try lia.
Qed.
Lemma ev_room_ok dens v1 c k n m last : ev_room dens v1 c = (k, n, m) -> (forall zz v, In v (last zz) -> v <= S zz) -> (forall zz, List.length (last zz) = 2) ->
  fits k (ev_samples dens last 0 v1 0 c) /\ List.length (ev_samples dens last 0 v1 0 c) = n /\ List.length (ev_deltas dens 0 v1 c) = m.
Proof.
  unfold ev_room. destruct (ev_scan dens 0 v1 0 0 0 c) as [[mx z] smp] eqn:E. intros H HL H2. injection H as <- <- <-.
  apply ev_scan_ok in E as (_ & _ & C & D & F). split; [|split; [specialize (F last H2); lia|lia]].
  destruct (z + 1 <? mx) eqn:L; [apply Nat.ltb_lt in L|apply Nat.ltb_ge in L]; apply all_fit; intros v I; specialize (D last HL v I); lia.
Qed.
Lemma pc_run_end_grows : forall fuel psi ep j v re j' v' re', pc_run_end fuel psi ep j v re = Some (j', v', re') -> j < j'.
Proof.
  induction fuel as [|f IH]; intros psi ep j v re j' v' re' E; [discriminate|]. cbn [pc_run_end] in E. destruct (S j <? ep).
  - apply bind_Some in E as (x & _ & E). destruct (re =? x); [apply IH in E; lia|]. injection E as <- _ _. lia.
  - injection E as <- _ _. lia.
Qed.
Lemma pc_runs_ranks : forall fuel dens psi sp ep j v pc rk pc' rk', pc_runs fuel dens psi sp ep j v pc rk = Some (pc', rk') ->
  (forall x, In x rk -> x <= j - sp) -> (forall x, In x rk -> x <= last rk 0) -> forall x, In x rk' -> x <= last rk' 0.
Proof.
  induction fuel as [|f IH]; intros dens psi sp ep j v pc rk pc' rk' E A B; cbn [pc_runs] in E; destruct (j <? ep); try discriminate E.
  - injection E as _ <-. exact B.
  - apply bind_Some in E as ([[j' v'] re] & E1 & E). apply pc_run_end_grows in E1. cbv zeta in E. revert E. destruct (_ && _); intros E; (refine (IH _ _ _ _ _ _ _ _ _ _ E _ _); [..|try exact B]).
    + intros x I. apply in_app_iff in I as [I|[<-|[]]]; [apply A in I; lia|lia].
    + intros x I. rewrite last_last. apply in_app_iff in I as [I|[<-|[]]]; [apply A in I; lia|lia].
    + intros x I. apply A in I. lia.
  - injection E as _ <-. exact B.
Qed.
Lemma ranks_fit l : (forall x, In x l -> x <= last l 0) -> fits (ranks_width l) l.
Proof. intros H. destruct l as [|y t]; [constructor|]. unfold ranks_width. apply all_fit. exact H. Qed.
Lemma pc_construct_ranks dens C psi pc : pc_construct dens C psi = Some pc ->
  forall ev ranks, In (ev, ranks) (pc_partial pc) -> exists c, ev = ev_construct dens c /\ fits (ranks_width ranks) ranks.
Proof.
  unfold pc_construct. intros E. apply bind_Some in E as (n & _ & E). apply bind_Some in E as ([first part] & E & E'). injection E' as <-. cbn [pc_partial].
  assert (G : forall l f0 p0, (forall ev ranks, In (ev, ranks) p0 -> exists c, ev = ev_construct dens c /\ fits (ranks_width ranks) ranks) ->
    mfold (pc_symbol dens C psi) l (f0, p0) = Some (first, part) -> forall ev ranks, In (ev, ranks) part -> exists c, ev = ev_construct dens c /\ fits (ranks_width ranks) ranks).
  { induction l as [|i t IH]; intros f0 p0 H0 EM; cbn [mfold] in EM.
    - injection EM as _ <-. exact H0.
    - apply bind_Some in EM as ([f1 p1] & E1 & EM). refine (IH _ _ _ EM). unfold pc_symbol in E1.
      apply bind_Some in E1 as (sp & _ & E1). apply bind_Some in E1 as (ep & _ & E1). apply bind_Some in E1 as (v & _ & E1). cbv zeta in E1.
      apply bind_Some in E1 as ([pc1 rk1] & ER & E1). injection E1 as _ <-. intros ev ranks I. apply in_app_iff in I as [I|[I|[]]]; [exact (H0 _ _ I)|].
      injection I as <- <-. exists pc1. split; [reflexivity|]. apply ranks_fit. apply (pc_runs_ranks _ _ _ _ _ _ _ _ _ _ _ ER); intros x []. }
  apply (G (seq 0 (List.length C - 1)) 0 []); [intros ev ranks []|exact E].
Qed.
Lemma fits_stored k l : fits k l -> stored k l = l.
Proof. intros H. unfold stored. induction H as [|v t Hv Ht IH]; [reflexivity|]. cbn [map]. rewrite IH, Nat.mod_small by exact Hv. reflexivity. Qed.
