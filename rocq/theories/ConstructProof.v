(** Proofs about the construction of the base items. *)
From Coq Require Import List Arith Bool Lia ZifyBool ZifyNat Permutation Sorting.Sorted.
From Verif Require Import Spec MBase Lists FM MRle Runs RleProof MConstruct MPhi MRIndex Util Phi.
Import ListNotations.

(** * Text *)
Lemma select0_zero_free w k : zero_free w -> select0 (Nat.eqb 0) w k = None.
Proof.
  intros H. apply select0_None. rewrite count_false; [lia|].
  unfold zero_free in H. rewrite Forall_forall in H. intros x Hx. specialize (H _ Hx).
  apply Nat.eqb_neq. lia.
Qed.
Lemma select0_app_none {A} (f : A -> bool) l1 l2 k : count f l1 = 0 ->
  select0 f (l1 ++ l2) k = option_map (fun i => length l1 + i) (select0 f l2 k).
Proof.
  induction l1 as [|a t IH]; intros H; cbn.
  - destruct (select0 f l2 k); auto.
  - unfold count in *. cbn in H. destruct (f a); [discriminate|].
    rewrite IH by auto. destruct (select0 f l2 k); auto.
Qed.
Lemma construct_text_plain w : zero_free w -> construct_text w = Some (terminated w).
Proof. intros H. unfold construct_text. rewrite select0_zero_free; auto. Qed.
Lemma zero_free_count w : zero_free w -> count (Nat.eqb 0) w = 0.
Proof.
  intros H. apply count_false. unfold zero_free in H. rewrite Forall_forall in H.
  intros x Hx. specialize (H _ Hx). apply Nat.eqb_neq. lia.
Qed.
Lemma construct_text_terminated w : zero_free w -> construct_text (terminated w) = Some (terminated w).
Proof.
  intros H. unfold construct_text, terminated. rewrite select0_app_none by (apply zero_free_count; auto).
  cbn. rewrite app_length. cbn. destruct (Nat.eqb_spec (length w + 0) (length w + 1 - 1)); auto; lia.
Qed.
Lemma construct_text_inner u v : zero_free u -> v <> [] -> construct_text (u ++ 0 :: v) = None.
Proof.
  intros H Hv. unfold construct_text. rewrite select0_app_none by (apply zero_free_count; auto).
  cbn. rewrite app_length. cbn. destruct v; [congruence|]. cbn.
  destruct (Nat.eqb_spec (length u + 0) (length u + S (S (length v)) - 1)); auto; lia.
Qed.
Lemma terminated_ok w : zero_free w -> text_ok (terminated w).
Proof.
  intros H. exists w. split; auto. unfold zero_free in H. rewrite Forall_forall in *.
  intros x Hx. specialize (H _ Hx). lia.
Qed.

(** * Alphabet *)
Definition symb (l : list nat) (c : nat) : bool := 0 <? count_occ Nat.eq_dec l c.
Definition ncomp (l : list nat) (c : nat) : nat := count (symb l) (seq 0 c).
Definition comp (l : list nat) (c : nat) : nat := if symb l c then ncomp l c else 0.

Lemma symb_In l c : symb l c = true <-> In c l.
Proof. unfold symb. rewrite Nat.ltb_lt. rewrite (count_occ_In Nat.eq_dec). lia. Qed.

Lemma alpha_loop_cs counts : forall k, snd (alpha_loop counts k) = filter (fun x => 0 <? x) counts.
Proof.
  induction counts as [|a t IH]; intros k; cbn [alpha_loop filter]; auto.
  destruct (0 <? a); specialize (IH (S k)) as I1; specialize (IH k) as I2;
    destruct (alpha_loop t (S k)), (alpha_loop t k); cbn [snd] in *; congruence.
Qed.
Lemma alpha_loop_table counts : forall k i x, nth_error counts i = Some x ->
  nth_error (fst (alpha_loop counts k)) i =
  Some (if 0 <? x then k + count (fun x => 0 <? x) (firstn i counts) else 0).
Proof.
  induction counts as [|a t IH]; intros k i x H; [destruct i; discriminate|].
  cbn [alpha_loop].
  destruct i as [|i]; cbn [nth_error] in H.
  - injection H as ->. destruct (0 <? x).
    + destruct (alpha_loop t (S k)). cbn. f_equal. lia.
    + destruct (alpha_loop t k). reflexivity.
  - unfold count. cbn [firstn filter]. destruct (0 <? a).
    + specialize (IH (S k) i x H). destruct (alpha_loop t (S k)). cbn [fst nth_error] in *.
      rewrite IH. f_equal. destruct (0 <? x); auto. unfold count. cbn [length]. lia.
    + specialize (IH k i x H). destruct (alpha_loop t k). cbn [fst nth_error] in *. rewrite IH. auto.
Qed.
Lemma prefix_sums_nth l : forall acc i, i <= length l ->
  nth_error (prefix_sums acc l) i = Some (acc + psum l i).
Proof.
  induction l as [|a t IH]; intros acc i H; cbn [prefix_sums].
  - cbn in H. assert (i = 0) by lia. subst. cbn. f_equal. unfold psum. cbn. lia.
  - destruct i; [cbn; f_equal; unfold psum; cbn; lia|]. cbn [nth_error length] in *.
    rewrite IH by lia. f_equal. rewrite psum_cons. lia.
Qed.
Lemma list_sum_app_ l1 l2 : list_sum (l1 ++ l2) = list_sum l1 + list_sum l2.
Proof. induction l1; cbn [app]; [reflexivity|]. rewrite !list_sum_cons. lia. Qed.
Lemma sum_filter_pos l : list_sum (filter (fun x => 0 <? x) l) = list_sum l.
Proof.
  induction l as [|a t IH]; auto. cbn [filter]. destruct (Nat.ltb_spec 0 a); rewrite ?list_sum_cons, IH; lia.
Qed.
Lemma count_below_sum l c : list_sum (map (fun d => count_occ Nat.eq_dec l d) (seq 0 c)) = count (fun x => x <? c) l.
Proof.
  induction c as [|c IH].
  - cbn. symmetry. apply count_false. intros. reflexivity.
  - rewrite seq_S, map_app, list_sum_app_, IH. cbn [map Nat.add]. rewrite list_sum_cons. change (list_sum []) with 0.
    clear IH. induction l as [|a t IH]; auto. unfold count in *. cbn [filter count_occ].
    destruct (Nat.eq_dec a c), (Nat.ltb_spec a c), (Nat.ltb_spec a (S c)); cbn [length]; try lia.
Qed.

Section Alphabet.
  (** [K] stands for 256 (kept abstract to keep conversion cheap). *)
  Variable K : nat.
  Hypothesis HK : K = 256.
  Variable l : list nat.
  Hypothesis Hb : Forall (fun c => c < K) l.
  Let al := construct_alphabet l.
  Let counts := map (fun c => count_occ Nat.eq_dec l c) (seq 0 K).

  Lemma al_unfold : al_char2comp al = fst (alpha_loop counts 0) /\
    al_C al = prefix_sums 0 (filter (fun x => 0 <? x) counts) /\
    al_sigma al = length (filter (fun x => 0 <? x) counts).
  Proof.
    unfold al, construct_alphabet. rewrite <- HK. fold counts. pose proof (alpha_loop_cs counts 0) as H.
    destruct (alpha_loop counts 0) as [t cs]. cbn [snd fst al_char2comp al_C al_sigma] in *. subst. auto.
  Qed.

  Lemma counts_firstn c : c <= K ->
    firstn c counts = map (fun c => count_occ Nat.eq_dec l c) (seq 0 c).
  Proof.
    intros H. unfold counts. rewrite firstn_map. f_equal.
    replace K with (c + (K - c)) by lia. rewrite seq_app, firstn_app, seq_length, Nat.sub_diag.
    rewrite firstn_O, app_nil_r, firstn_all2; auto. rewrite seq_length. auto.
  Qed.
  Lemma ncomp_counts c : c <= K -> count (fun x => 0 <? x) (firstn c counts) = ncomp l c.
  Proof. intros H. rewrite counts_firstn by auto. rewrite count_map. reflexivity. Qed.

  Lemma al_char2comp_ok c : c < K -> nth_error (al_char2comp al) c = Some (comp l c).
  Proof.
    intros H. destruct al_unfold as [-> _].
    rewrite (alpha_loop_table counts 0 c (count_occ Nat.eq_dec l c)).
    - rewrite ncomp_counts by lia. reflexivity.
    - unfold counts. apply nth_error_map_seq; auto.
  Qed.

  Lemma al_char2comp_length : length (al_char2comp al) = K.
  Proof.
    destruct al_unfold as [-> _].
    assert (G : forall cs k, length (fst (alpha_loop cs k)) = length cs).
    { induction cs as [|a t IH]; intros k; cbn [alpha_loop]; auto. destruct (0 <? a).
      - specialize (IH (S k)). destruct (alpha_loop t (S k)). cbn in *. lia.
      - specialize (IH k). destruct (alpha_loop t k). cbn in *. lia. }
    rewrite G. unfold counts. rewrite map_length, seq_length. reflexivity.
  Qed.

  Lemma counts_all : firstn K counts = counts.
  Proof. apply firstn_all2. unfold counts. rewrite map_length, seq_length. lia. Qed.
  Lemma al_sigma_ok : al_sigma al = ncomp l K.
  Proof.
    destruct al_unfold as (_ & _ & ->). rewrite <- ncomp_counts by lia. rewrite counts_all.
    clearbody counts. reflexivity.
  Qed.

  Lemma ncomp_le c : c <= K -> ncomp l c <= al_sigma al.
  Proof.
    intros H. rewrite al_sigma_ok. unfold ncomp.
    replace K with (c + (K - c)) by lia. rewrite seq_app, count_app. lia.
  Qed.
  Lemma al_C_ncomp c : c <= K -> nth_error (al_C al) (ncomp l c) = Some (count (fun x => x <? c) l).
  Proof.
    intros H. pose proof (ncomp_le c H) as Hle. destruct al_unfold as (_ & E & E2). rewrite E.
    rewrite prefix_sums_nth by lia. rewrite Nat.add_0_l. f_equal.
    rewrite <- count_below_sum, <- counts_firstn by auto.
    unfold psum. rewrite <- ncomp_counts by auto. unfold rankP, count in *.
    rewrite firstn_filter. apply sum_filter_pos.
  Qed.
  Lemma al_size_ok : al_size al = Some (length l).
  Proof.
    unfold al_size. rewrite al_sigma_ok, al_C_ncomp by lia. f_equal. apply count_true.
    rewrite Forall_forall in Hb. intros x Hx. apply Nat.ltb_lt. auto.
  Qed.

  Lemma ncomp_S c : ncomp l (S c) = ncomp l c + (if symb l c then 1 else 0).
  Proof. unfold ncomp. rewrite seq_S, count_app. unfold count at 2. cbn [filter Nat.add].
    destruct (symb l c); auto. Qed.
  Lemma ncomp_mono c d : c <= d -> ncomp l c <= ncomp l d.
  Proof. induction 1; auto. rewrite ncomp_S. lia. Qed.
  Lemma comp_lt c d : In c l -> c < d -> comp l c < ncomp l d.
  Proof.
    intros H Hcd. unfold comp. apply symb_In in H. rewrite H.
    pose proof (ncomp_mono (S c) d ltac:(lia)). rewrite ncomp_S, H in H0. lia.
  Qed.
  Lemma comp_sigma c : In c l -> comp l c < al_sigma al.
  Proof.
    intros H. rewrite al_sigma_ok. apply comp_lt; auto. rewrite Forall_forall in Hb; auto.
  Qed.
  Lemma comp_mono c d : In c l -> In d l -> c < d -> comp l c < comp l d.
  Proof.
    intros H H' Hcd. pose proof (comp_lt c d H Hcd). unfold comp at 2. apply symb_In in H'. rewrite H'. auto.
  Qed.
  Lemma comp_inj c d : In c l -> In d l -> comp l c = comp l d -> c = d.
  Proof.
    intros H H' E. destruct (Nat.lt_trichotomy c d) as [G|[G|G]]; auto; exfalso.
    - pose proof (comp_mono c d H H' G). lia.
    - pose proof (comp_mono d c H' H G). lia.
  Qed.
  Lemma comp_lt_iff c d : In c l -> In d l -> (comp l c <? comp l d) = (c <? d).
  Proof.
    intros H H'. destruct (Nat.lt_trichotomy c d) as [G|[G|G]].
    - pose proof (comp_mono c d H H' G). rewrite (proj2 (Nat.ltb_lt _ _)), (proj2 (Nat.ltb_lt _ _)); auto.
    - subst. rewrite !Nat.ltb_irrefl. auto.
    - pose proof (comp_mono d c H' H G). rewrite (proj2 (Nat.ltb_ge _ _)), (proj2 (Nat.ltb_ge _ _)); auto; lia.
  Qed.
  Lemma comp_surj k : k < al_sigma al -> exists c, c < K /\ In c l /\ comp l c = k.
  Proof.
    rewrite al_sigma_ok. unfold ncomp. intros H.
    destruct (select0_total (symb l) (seq 0 K) k H) as [p Hp].
    pose proof (select0_lt _ _ _ _ Hp) as [Hlt _]. rewrite seq_length in Hlt.
    apply select0_spec in Hp. destruct Hp as ((x & E1 & E2) & E3).
    rewrite nth_error_seq in E1 by auto. injection E1 as <-.
    exists p. cbn [Nat.add] in E2. split; auto. split; [apply symb_In; auto|].
    unfold comp. rewrite E2. unfold ncomp. rewrite <- E3. unfold rankP, count.
    do 2 f_equal. replace K with (p + (K - p)) by lia.
    rewrite seq_app, firstn_app, seq_length, Nat.sub_diag, firstn_O, app_nil_r.
    symmetry; apply firstn_all2. rewrite seq_length; auto.
  Qed.
  Lemma al_C_ok k : k < al_sigma al ->
    nth_error (al_C al) k = Some (count (fun x => x <? k) (map (comp l) l)).
  Proof.
    intros H. destruct (comp_surj k H) as (c & Hc & Hin & <-).
    rewrite count_map. unfold comp at 1. rewrite (proj2 (symb_In l c) Hin).
    rewrite al_C_ncomp by lia. f_equal. apply count_ext_in. intros x Hx. symmetry. apply comp_lt_iff; auto.
  Qed.
  Lemma comp_0 : comp l 0 = 0.
  Proof. unfold comp, ncomp. cbn [seq]. destruct (symb l 0); auto. Qed.
  Lemma comp_pos c : In 0 l -> In c l -> 0 < c -> 0 < comp l c.
  Proof. intros H H' Hc. pose proof (comp_mono 0 c H H' Hc). lia. Qed.
End Alphabet.

  Lemma bwt_in T sa c : text_ok T -> is_suffix_array T sa -> In c (bwt_of T sa) <-> In c T.
  Proof.
    intros HT HSA.
    unfold bwt_of. rewrite in_map_iff. pose proof (n_pos T HT) as Hn. unfold len in Hn. split.
    - intros (a & <- & Ha). apply nth_In. apply Nat.mod_upper_bound. lia.
    - intros H. destruct (In_nth _ _ 0 H) as (i & Hi & E). exists (csucc T i). split.
      + rewrite <- E. f_equal. apply (cpred_csucc T HT); auto.
      + destruct HSA as [P _]. apply (Permutation_in _ (Permutation_sym P)). apply in_seq.
        pose proof (csucc_lt T HT i). unfold len in *. lia.
  Qed.

(** * Compaction of a text *)
Section Compact.
  Variables (f : nat -> nat) (T sa : list nat).
  Hypothesis HT : text_ok T.
  Hypothesis HSA : is_suffix_array T sa.
  Hypothesis Hmono : forall c d, In c T -> In d T -> c < d -> f c < f d.
  Hypothesis H0 : f 0 = 0.

  Lemma zero_in : In 0 T.
  Proof. destruct HT as [w [E _]]. rewrite E. apply in_or_app. right; left; auto. Qed.

  Lemma f_inj c d : In c T -> In d T -> f c = f d -> c = d.
  Proof.
    intros Hc Hd E. destruct (Nat.lt_trichotomy c d) as [G|[G|G]]; auto; exfalso.
    - specialize (Hmono c d Hc Hd G). lia.
    - specialize (Hmono d c Hd Hc G). lia.
  Qed.
  Lemma text_ok_map : text_ok (map f T).
  Proof.
    pose proof zero_in as Hz. destruct HT as [w [E Hw]]. exists (map f w). split.
    - rewrite E, map_app. cbn. rewrite H0. auto.
    - rewrite Forall_map. rewrite Forall_forall in *. intros c Hc. specialize (Hw _ Hc).
      assert (f 0 < f c).
      { apply Hmono; auto. rewrite E. apply in_or_app; auto. }
      lia.
  Qed.
  Lemma lex_lt_map x y : (forall c, In c x -> In c T) -> (forall c, In c y -> In c T) ->
    lex_lt x y -> lex_lt (map f x) (map f y).
  Proof.
    intros Hx Hy H. induction H; cbn.
    - constructor.
    - constructor. apply Hmono; auto; [apply Hx|apply Hy]; left; auto.
    - apply lex_tail. apply IHlex_lt; intros; [apply Hx|apply Hy]; right; auto.
  Qed.
  Lemma suffix_in i c : In c (suffix T i) -> In c T.
  Proof.
    intros H. rewrite <- (firstn_skipn i T). apply in_or_app. right; auto.
  Qed.
  Lemma is_suffix_array_map : is_suffix_array (map f T) sa.
  Proof.
    destruct HSA as [P L]. split.
    - rewrite map_length. auto.
    - intros i j a b Hij Ha Hb. unfold suffix. rewrite !skipn_map.
      apply lex_lt_map; try (intros c; apply suffix_in). eapply L; eauto.
  Qed.
  Lemma bwt_of_map : bwt_of (map f T) sa = map f (bwt_of T sa).
  Proof.
    unfold bwt_of. rewrite map_map. apply map_ext_in. intros a Ha. rewrite map_length.
    rewrite <- H0 at 1. apply map_nth.
  Qed.
  Lemma map_f_inj l1 : forall l2, (forall c, In c l1 -> In c T) -> (forall c, In c l2 -> In c T) ->
    map f l1 = map f l2 -> l1 = l2.
  Proof.
    induction l1 as [|a t IH]; intros l2 H1 H2 E; destruct l2 as [|b t2]; auto; try discriminate.
    cbn in E. injection E as E1 E2. f_equal.
    - apply f_inj; auto; [apply H1|apply H2]; left; auto.
    - apply IH; auto; intros; [apply H1|apply H2]; right; auto.
  Qed.
  Lemma starts_map p a : (forall c, In c p -> In c T) -> starts (map f T) (map f p) a <-> starts T p a.
  Proof.
    intros Hp. unfold starts, suffix. rewrite skipn_map. split; intros [v E].
    - assert (L : length p <= length (skipn a T)).
      { apply (f_equal (@length nat)) in E. rewrite app_length, !map_length in E. lia. }
      exists (skipn (length p) (skipn a T)).
      rewrite <- (firstn_skipn (length p) (skipn a T)) at 1. f_equal.
      apply map_f_inj; auto.
      + intros c Hc. apply (suffix_in a). unfold suffix. rewrite <- (firstn_skipn (length p)).
        apply in_or_app; auto.
      + rewrite <- firstn_map, E. rewrite <- (map_length f p), firstn_app, Nat.sub_diag, firstn_O, app_nil_r.
        apply firstn_all.
    - exists (map f v). rewrite E, map_app. auto.
  Qed.
  Lemma cstarts_map p : forall a, (forall c, In c p -> In c T) -> a < len T ->
    cstarts (map f T) (map f p) a <-> cstarts T p a.
  Proof.
    induction p as [|c p IH]; intros a Hp Ha; cbn [cstarts map]; [tauto|].
    assert (EC : csucc (map f T) a = csucc T a) by (unfold csucc, len; rewrite map_length; auto).
    assert (ET : tx (map f T) a = f (tx T a)) by (unfold tx; rewrite <- H0 at 1; apply map_nth).
    rewrite EC, IH; [|intros; apply Hp; right; auto|unfold csucc; apply Nat.mod_upper_bound; lia].
    rewrite ET. split; intros [E S]; (split; [|exact S]).
    - apply f_inj; auto; [apply nth_In; exact Ha|apply Hp; left; auto].
    - congruence.
  Qed.
  Lemma headb_map l i : (forall c, In c l -> In c T) -> i < length l -> headb (map f l) i = headb l i.
  Proof.
    intros Hl Hi. unfold headb. destruct (Nat.eqb_spec i 0); auto. cbn [orb]. f_equal.
    rewrite !(nth_map_lt f l _ 0) by lia.
    assert (In (nth i l 0) T) by (apply Hl, nth_In; auto).
    assert (In (nth (i - 1) l 0) T) by (apply Hl, nth_In; lia).
    destruct (Nat.eqb_spec (nth (i - 1) l 0) (nth i l 0)) as [->|N]; [apply Nat.eqb_refl|].
    apply Nat.eqb_neq. intros E. apply N. apply f_inj; auto.
  Qed.
  Lemma tailb_map l i : (forall c, In c l -> In c T) -> i < length l -> tailb (map f l) i = tailb l i.
  Proof.
    intros Hl Hi. unfold tailb. rewrite map_length. destruct (Nat.eqb_spec i (length l - 1)); auto.
    cbn [orb]. f_equal.
    rewrite !(nth_map_lt f l _ 0) by lia.
    assert (In (nth i l 0) T) by (apply Hl, nth_In; auto).
    assert (In (nth (S i) l 0) T) by (apply Hl, nth_In; lia).
    destruct (Nat.eqb_spec (nth i l 0) (nth (S i) l 0)) as [->|N]; [apply Nat.eqb_refl|].
    apply Nat.eqb_neq. intros E. apply N. apply f_inj; auto.
  Qed.
End Compact.

(** * BWT and BWT runs *)
Lemma cpred_if n a : a < n -> (if 0 <? a then a - 1 else n - 1) = cpred n a.
Proof.
  intros H. unfold cpred. destruct (Nat.ltb_spec 0 a).
  - replace (a + n - 1) with (a - 1 + 1 * n) by lia. rewrite Nat.mod_add by lia.
    rewrite Nat.mod_small; lia.
  - replace (a + n - 1) with (n - 1) by lia. rewrite Nat.mod_small; lia.
Qed.
Section BwtRuns.
  Variables (T sa : list nat).
  Hypothesis HT : text_ok T.
  Hypothesis HSA : is_suffix_array T sa.
  Let n := len T.

  Lemma construct_bwt_ok : construct_bwt T sa = Some (BW T sa).
  Proof.
    unfold construct_bwt, BW, bwt_of. apply mmap_map. intros a Ha.
    assert (a < length T).
    { destruct HSA as [P _]. apply (Permutation_in _ P) in Ha. apply in_seq in Ha. lia. }
    rewrite cpred_if by auto. apply nth_error_nth_lt. apply Nat.mod_upper_bound. lia.
  Qed.

  Lemma bwt_text_pos_ok i : i < n -> bwt_text_pos n sa i = Some (tpos T sa i).
  Proof.
    intros Hi. unfold bwt_text_pos. rewrite (SA_nth_error T sa HSA) by auto. cbn [bind].
    rewrite cpred_if by (apply (SA_lt T sa HSA); auto). auto.
  Qed.

  Let hs i := filter (headr T sa) (seq 0 i).
  Let ts i := filter (tailr T sa) (seq 0 i).
  Let st_at i := (mk_bwt_runs (hs (S i)) (map (tpos T sa) (hs (S i))) (ts i) (map (tpos T sa) (ts i)),
                  bw T sa i, tpos T sa i).

  Lemma runs_step i : S i < n -> bwt_runs_step (BW T sa) sa (st_at i) (S i) = Some (st_at (S i)).
  Proof.
    intros Hi. unfold bwt_runs_step, st_at. rewrite (BW_nth_error T sa HSA) by auto. cbn [bind].
    rewrite (BW_length T sa HSA). fold n. rewrite bwt_text_pos_ok by auto. cbn [bind]. f_equal.
    assert (Hh : headr T sa (S i) = negb (bw T sa (S i) =? bw T sa i)).
    { unfold headr, headb. replace (S i - 1) with i by lia. cbn [Nat.eqb orb].
      rewrite Nat.eqb_sym. reflexivity. }
    assert (Ht : tailr T sa i = negb (bw T sa (S i) =? bw T sa i)).
    { rewrite <- Hh. symmetry. apply headr_S; auto. }
    assert (H1 : hs (S (S i)) = hs (S i) ++ (if headr T sa (S i) then [S i] else [])).
    { unfold hs. rewrite (seq_S (S i)), filter_app. cbn [filter Nat.add]. auto. }
    assert (H2 : ts (S i) = ts i ++ (if tailr T sa i then [i] else [])).
    { unfold ts. rewrite (seq_S i), filter_app. cbn [filter Nat.add]. auto. }
    rewrite H1, H2, Hh, Ht. cbn [br_first br_first_text br_last br_last_text].
    replace (S i - 1) with i by lia.
    destruct (Nat.eqb_spec (bw T sa (S i)) (bw T sa i)) as [E|E]; cbn [negb].
    - rewrite !app_nil_r, E. auto.
    - rewrite !map_app. auto.
  Qed.

  Lemma runs_fold m : m < n -> mfold (bwt_runs_step (BW T sa) sa) (seq 1 m) (st_at 0) = Some (st_at m).
  Proof.
    induction m as [|m IH]; intros H; auto.
    rewrite seq_S, mfold_app, IH by lia. cbn [bind mfold Nat.add]. rewrite runs_step by auto. auto.
  Qed.

  Definition hrows : list nat := heads_of (BW T sa).
  Definition trows : list nat := tails_of (BW T sa).

  Lemma hrows_filter : hrows = filter (headr T sa) (seq 0 n).
  Proof. unfold hrows, heads_of. rewrite (BW_length T sa HSA). auto. Qed.
  Lemma trows_filter : trows = filter (tailr T sa) (seq 0 n).
  Proof. unfold trows, tails_of. rewrite (BW_length T sa HSA). auto. Qed.
  Lemma hrows_in i : In i hrows <-> i < n /\ headr T sa i = true.
  Proof. rewrite hrows_filter, filter_In, in_seq. intuition lia. Qed.
  Lemma trows_in i : In i trows <-> i < n /\ tailr T sa i = true.
  Proof. rewrite trows_filter, filter_In, in_seq. intuition lia. Qed.

  Theorem construct_bwt_runs_ok : construct_bwt_runs (BW T sa) sa =
    Some (mk_bwt_runs hrows (map (tpos T sa) hrows) trows (map (tpos T sa) trows)).
  Proof.
    pose proof (n_pos T HT) as Hn. fold n in Hn.
    unfold construct_bwt_runs. rewrite (BW_nth_error T sa HSA) by auto. cbn [bind].
    rewrite (BW_length T sa HSA). fold n. rewrite bwt_text_pos_ok by auto. cbn [bind].
    replace (mk_bwt_runs [0] [tpos T sa 0] [] [], bw T sa 0, tpos T sa 0) with (st_at 0).
    2:{ unfold st_at, hs, ts. cbn [seq filter]. rewrite (headr_0 T sa). auto. }
    rewrite runs_fold by lia. cbn [bind st_at br_first br_first_text br_last br_last_text].
    f_equal. replace (S (n - 1)) with n by lia.
    assert (E : trows = ts (n - 1) ++ [n - 1]).
    { rewrite trows_filter. unfold ts. replace n with (S (n - 1)) at 1 by lia.
      rewrite seq_S, filter_app. cbn [filter Nat.add]. unfold n. rewrite (tailr_last T sa HSA). auto. }
    rewrite E, map_app. unfold hs. rewrite <- hrows_filter. auto.
  Qed.
End BwtRuns.
