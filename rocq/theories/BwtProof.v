(** Proofs about bwt.h, lf.h and construct_big_bwt.h. *)
From Coq Require Import List Arith Bool Lia ZifyBool ZifyNat Permutation Sorted.
From Verif Require Import Spec SpecBwt MBase Lists Runs RleSpec FM MRle MConstruct MRIndex MBwt ConstructProof Phi PhiProof Glue BaseProof Util.
Import ListNotations.

(** * computeBWT *)
Definition ev_symbol (e : bwt_event) : list (nat * nat) := match e with EvSymbol i c => [(i, c)] | _ => [] end.
Definition ev_first (e : bwt_event) : list (nat * nat * nat * nat) := match e with EvFirst r i c p => [(r, i, c, p)] | _ => [] end.
Definition ev_last (e : bwt_event) : list (nat * nat * nat * nat) := match e with EvLast r i c p => [(r, i, c, p)] | _ => [] end.

Lemma map_combine (b : list nat) : map (fun k => (k, nth k b 0)) (seq 0 (length b)) = combine (seq 0 (length b)) b.
Proof.
  assert (X : forall d, map (fun k => (k, nth (k - d) b 0)) (seq d (length b)) = combine (seq d (length b)) b).
  { induction b as [|x b IH]; intros d; [reflexivity|]. cbn [length seq map combine]. rewrite Nat.sub_diag. cbn [nth]. f_equal.
    rewrite <- (IH (S d)). apply map_ext_in. intros k Hk. apply in_seq in Hk. replace (k - d) with (S (k - S d)) by lia. reflexivity. }
  rewrite <- (X 0). apply map_ext. intros k. rewrite Nat.sub_0_r. reflexivity.
Qed.
Section Compute.
  Variables (t sa : list nat).
  Let n := length t.
  Hypothesis Hn : 0 < n.
  Hypothesis HL : length sa = n.
  Hypothesis HB : forall a, In a sa -> a < n.
  Let b := bwt_of t sa.
  Let sy i := nth i b 0.
  Let ps i := cpred n (nth i sa 0).
  Let hs i := filter (headb b) (seq 0 i).
  Let ts i := filter (tailb b) (seq 0 i).
  Let row (q : nat * nat) := (fst q, snd q, sy (snd q), ps (snd q)).
  Let tab (l : list nat) := map row (combine (seq 0 (length l)) l).

  Lemma cb_len : length b = n.
  Proof. unfold b, bwt_of. rewrite map_length. exact HL. Qed.
  Lemma cb_pos i : i < n -> bwt_get_text_pos (nth_error sa) (n - 1) i = Some (ps i).
  Proof.
    intros H. unfold bwt_get_text_pos. rewrite (nth_error_nth' sa 0) by lia. cbn [bind].
    rewrite cpred_if; [reflexivity|]. apply HB. apply nth_In. lia.
  Qed.
  Lemma cb_sym i : i < n -> nth_error t (ps i) = Some (sy i).
  Proof.
    intros H. unfold sy, ps.
    assert (E : nth i b 0 = nth (cpred n (nth i sa 0)) t 0).
    { unfold b, bwt_of. apply nth_error_nth. rewrite nth_error_map, (nth_error_nth' sa 0) by lia. reflexivity. }
    rewrite E. apply nth_error_nth'. fold n. unfold cpred. apply Nat.mod_upper_bound. lia.
  Qed.
  Lemma tab_snoc l i : tab (l ++ [i]) = tab l ++ [(length l, i, sy i, ps i)].
  Proof.
    unfold tab. rewrite app_length, Nat.add_1_r, seq_S, Nat.add_0_l.
    assert (C : forall (x y : list nat) u v, length x = length y -> combine (x ++ [u]) (y ++ [v]) = combine x y ++ [(u, v)]).
    { induction x as [|a x IH]; intros [|c y] u v E; try discriminate E; cbn; auto. f_equal. apply IH. cbn in E; lia. }
    rewrite C by apply seq_length. rewrite map_app. reflexivity.
  Qed.

  Let Inv (i : nat) (s : bwt_state) : Prop :=
    flat_map ev_symbol (bs_events s) = map (fun k => (k, sy k)) (seq 0 (S i)) /\
    flat_map ev_first (bs_events s) = tab (hs (S i)) /\
    flat_map ev_last (bs_events s) = tab (ts i) /\
    S (bs_runs s) = length (hs (S i)) /\ bs_runs s = length (ts i) /\
    bs_prev_symbol s = sy i /\ bs_prev_pos s = ps i /\ bs_symbol s = sy i /\ bs_pos s = ps i.

  Lemma cb_step i s : S i < n -> Inv i s ->
    exists s', bwt_step (nth_error sa) (nth_error t) (n - 1) s (S i) = Some s' /\ Inv (S i) s'.
  Proof.
    intros Hi (I1 & I2 & I3 & I4 & I5 & I6 & I7 & I8 & I9). unfold bwt_step. rewrite cb_pos by exact Hi. cbn [bind].
    rewrite cb_sym by exact Hi. cbn [bind]. rewrite I6.
    assert (Hh : headb b (S i) = negb (sy (S i) =? sy i)).
    { unfold headb. replace (S i - 1) with i by lia. cbn [Nat.eqb orb]. fold (sy i) (sy (S i)). rewrite Nat.eqb_sym. reflexivity. }
    assert (Ht : tailb b i = negb (sy (S i) =? sy i)).
    { unfold tailb. rewrite cb_len. destruct (Nat.eqb_spec i (n - 1)); [lia|]. cbn [orb]. fold (sy i) (sy (S i)). rewrite Nat.eqb_sym. reflexivity. }
    assert (H1 : hs (S (S i)) = hs (S i) ++ (if headb b (S i) then [S i] else [])).
    { unfold hs. rewrite (seq_S (S i)), filter_app. cbn [filter Nat.add]. auto. }
    assert (H2 : ts (S i) = ts i ++ (if tailb b i then [i] else [])).
    { unfold ts. rewrite (seq_S i), filter_app. cbn [filter Nat.add]. auto. }
    assert (H3 : map (fun k => (k, sy k)) (seq 0 (S (S i))) = map (fun k => (k, sy k)) (seq 0 (S i)) ++ [(S i, sy (S i))]).
    { rewrite (seq_S (S i)), map_app. reflexivity. }
    rewrite Hh in H1. rewrite Ht in H2. unfold Inv.
    destruct (Nat.eqb_spec (sy (S i)) (sy i)) as [E|E]; cbn [negb] in *; eexists; (split; [reflexivity|]);
      cbn [bs_events bs_runs bs_prev_symbol bs_prev_pos bs_symbol bs_pos]; rewrite !flat_map_app, H1, H2, H3, ?app_nil_r.
    - cbn [flat_map ev_symbol ev_first ev_last app]. rewrite ?app_nil_r.
      rewrite I1. split; [reflexivity|]. split; [exact I2|]. split; [exact I3|]. split; [exact I4|]. split; [exact I5|]. auto.
    - cbn [flat_map ev_symbol ev_first ev_last app]. rewrite ?app_nil_r.
      rewrite !tab_snoc, !app_length, I1, I2, I3, I7. cbn [length]. replace (S i - 1) with i by lia.
      split; [reflexivity|]. split; [rewrite I4; reflexivity|]. split; [rewrite I5; reflexivity|].
      split; [lia|]. split; [lia|]. auto.
  Qed.
  Lemma cb_loop m s : m < n -> Inv 0 s ->
    exists s', mfold (bwt_step (nth_error sa) (nth_error t) (n - 1)) (seq 1 m) s = Some s' /\ Inv m s'.
  Proof.
    intros Hm I0. induction m as [|m IH].
    - exists s. split; [reflexivity | exact I0].
    - destruct IH as (s1 & E & I1); [lia|]. destruct (cb_step m s1 Hm I1) as (s2 & E2 & I2).
      exists s2. split; [|exact I2]. rewrite seq_S, mfold_app, E. cbn [bind mfold Nat.add]. rewrite E2. reflexivity.
  Qed.
  Theorem compute_bwt_ok : exists ev, compute_bwt n (nth_error sa) (nth_error t) = Some (ev, length (heads_of b)) /\
    flat_map ev_symbol ev = combine (seq 0 n) b /\
    flat_map ev_first ev = tab (heads_of b) /\ flat_map ev_last ev = tab (tails_of b) /\
    length (tails_of b) = length (heads_of b).
  Proof.
    unfold compute_bwt. destruct (Nat.ltb_spec 0 n); [|lia]. cbn [guard bind].
    rewrite cb_pos by exact Hn. cbn [bind]. rewrite cb_sym by exact Hn. cbn [bind].
    destruct (cb_loop (n - 1) (mk_bwt_state [EvSymbol 0 (sy 0); EvFirst 0 0 (sy 0) (ps 0)] 0 (sy 0) (ps 0) (sy 0) (ps 0)))
      as (s & E & I1 & I2 & I3 & I4 & I5 & I6 & I7 & I8 & I9); [lia| |].
    { unfold Inv, hs, ts. cbn [seq filter]. assert (headb b 0 = true) by reflexivity. rewrite H0. cbn. auto 10. }
    rewrite E. cbn [bind]. replace (S (n - 1)) with n in * by lia.
    assert (EH : hs n = heads_of b) by (unfold heads_of; rewrite cb_len; reflexivity).
    assert (ET : tails_of b = ts (n - 1) ++ [n - 1]).
    { unfold tails_of. rewrite cb_len. replace n with (S (n - 1)) at 1 by lia. rewrite seq_S, filter_app. cbn [filter Nat.add].
      unfold tailb at 2. rewrite cb_len, Nat.eqb_refl. reflexivity. }
    eexists. split; [rewrite I4, EH; reflexivity|]. rewrite !flat_map_app. cbn [flat_map ev_symbol ev_first ev_last app]. rewrite !app_nil_r.
    rewrite I1, I2, I3, EH, ET, tab_snoc, I8, I9, I5. split; [|split; [reflexivity|split; [reflexivity|]]].
    - rewrite <- cb_len. unfold sy. apply map_combine.
    - rewrite app_length. cbn [length]. rewrite <- EH. lia.
  Qed.
End Compute.

(** * computeLF *)
Lemma filter_len_le {A} (f : A -> bool) l : length (filter f l) <= length l.
Proof. induction l as [|x l IH]; cbn; [lia|]. destruct (f x); cbn; lia. Qed.
Lemma smaller_S c b : smaller (S c) b = smaller c b + occ c b (length b).
Proof.
  rewrite occ_rankP, rankP_all by auto. unfold smaller, count.
  induction b as [|x b IH]; [reflexivity|]. cbn [filter].
  destruct (Nat.ltb_spec x (S c)), (Nat.ltb_spec x c), (Nat.eqb_spec c x); cbn [length]; lia.
Qed.
Lemma occ_mono c b i j : i <= j -> occ c b i <= occ c b j.
Proof. intros H. rewrite !occ_rankP. apply rankP_mono. exact H. Qed.
Lemma lf_row_c b i c : nth_error b i = Some c -> lf_row b i = smaller c b + occ c b i.
Proof. intros H. unfold lf_row. rewrite (nth_error_nth b i 0 H). reflexivity. Qed.
(** The rows that the symbols [c] of the rows [i, e) go to. *)
Lemma lf_rows b c i e x : i <= e -> e <= length b ->
  smaller c b + occ c b i <= x < smaller c b + occ c b e <-> exists k, i <= k < e /\ nth_error b k = Some c /\ x = lf_row b k.
Proof.
  intros H1 H2. split.
  - intros Hx. destruct (select0_between (Nat.eqb c) b i e (x - smaller c b)) as (k & y & Hk & Hy & Hc & Hr); [lia| |].
    { rewrite <- !occ_rankP. lia. }
    apply Nat.eqb_eq in Hc. subst y. exists k. split; [lia|]. split; [exact Hy|]. rewrite (lf_row_c b k c Hy), occ_rankP. lia.
  - intros (k & Hk & Hy & ->). rewrite (lf_row_c b k c Hy). pose proof (occ_mono c b i k ltac:(lia)).
    assert (occ c b k < occ c b e).
    { rewrite !occ_rankP. eapply rankP_lt_step; [exact Hy| |lia]. apply Nat.eqb_refl. }
    lia.
Qed.

Section LF.
  Variables (b : list nat) (rank : nat -> nat -> option nat) (f : nat -> option nat).
  Hypothesis HR : forall pos c, pos <= length b -> rank pos c = Some (occ c b pos).

  Lemma compute_lf_ok i j c max_c : f c = Some (smaller c b) -> f (c + 1) = Some (smaller (c + 1) b) ->
    i <= S j <= length b ->
    compute_lf rank f (i, j) c (length b) max_c =
    Some (if occ c b i <? occ c b (S j) then (smaller c b + occ c b i, smaller c b + occ c b (S j) - 1) else (1, 0)).
  Proof.
    intros F1 F2 H. unfold compute_lf. rewrite F1. cbn [bind]. rewrite F2. cbn [bind fst snd].
    rewrite !HR by lia. cbn [bind]. rewrite !Nat.add_1_r in *.
    pose proof (smaller_S c b) as E.
    pose proof (occ_mono c b i (S j) ltac:(lia)). pose proof (occ_mono c b (S j) (length b) ltac:(lia)).
    assert (smaller c b + occ c b (length b) <= length b).
    { rewrite <- E. unfold smaller. apply filter_len_le. }
    unfold sub64. destruct (Nat.leb_spec (occ c b i) (occ c b (S j))); [|lia].
    destruct (Nat.ltb_spec (occ c b i) (occ c b (S j))) as [L|L].
    - destruct (Nat.eqb_spec (smaller c b) (length b)); [lia|]. rewrite andb_false_r. cbn [bind].
      destruct (Nat.leb_spec (smaller (S c) b) (smaller c b)); [lia|].
      destruct (Nat.eqb_spec (occ c b (S j) - occ c b i) 0); [lia|]. f_equal. f_equal. lia.
    - destruct ((c =? max_c) && (smaller c b =? length b)); cbn [bind]; [reflexivity|].
      destruct (smaller (S c) b <=? smaller c b); [reflexivity|].
      destruct (Nat.eqb_spec (occ c b (S j) - occ c b i) 0); [reflexivity|lia].
  Qed.
  Lemma lf_simple_ok i e c : f c = Some (smaller c b) -> i <= length b -> e <= length b ->
    lf_simple (fun c pos => rank pos c) f (i, e) c = Some (smaller c b + occ c b i, smaller c b + occ c b e).
  Proof. intros F Hi He. unfold lf_simple, lf_generic. cbn [fst snd]. rewrite !HR by lia. cbn [bind]. rewrite F. reflexivity. Qed.
  Lemma basic_lf_ok i : i < length b -> f (nth i b 0) = Some (smaller (nth i b 0) b) ->
    basic_lf (nth_error b) rank f i = Some (lf_row b i).
  Proof.
    intros Hi F. unfold basic_lf. rewrite (nth_error_nth' b 0) by lia. cbn [bind]. rewrite F. cbn [bind]. rewrite HR by lia. reflexivity.
  Qed.
End LF.

(** * Texts *)
Section Text.
  Variables (w sa : list nat).
  Hypothesis Hw : zero_free w.
  Hypothesis HSA : is_suffix_array (terminated w) sa.
  Let T := terminated w.
  Let HT : text_ok T := terminated_ok w Hw.
  Let b := bwt_of T sa.

  Lemma smaller_Cc c : smaller c b = Cc T sa c.
  Proof. reflexivity. Qed.
  Lemma tlen : len T = S (length w).
  Proof. unfold len, T, terminated. rewrite app_length. cbn. lia. Qed.
  Lemma lf_row_LFr i : i < length sa -> lf_row b i = LFr T sa i.
  Proof.
    intros H. rewrite (sa_len _ _ HSA) in H. fold T in H.
    rewrite (LFr_formula T sa HT HSA) by exact H. unfold lf_row, rk. rewrite occ_rankP. reflexivity.
  Qed.
  Lemma lf_row_text i a : nth_error sa i = Some a -> nth_error sa (lf_row b i) = Some (cpred (S (length w)) a).
  Proof.
    intros H. assert (Hi : i < length sa) by (apply nth_error_Some; congruence).
    rewrite lf_row_LFr by exact Hi. rewrite (SA_nth_error T sa HSA) by apply (LFr_lt T sa HT HSA).
    rewrite (SA_LFr T sa HT HSA). rewrite tlen. f_equal. f_equal. unfold SA. apply nth_error_nth. exact H.
  Qed.
  Lemma starts_occurs p a : (forall c, In c p -> 0 < c) -> a < len T -> starts T p a <-> occurs_at p w a.
  Proof.
    intros Hp Ha. rewrite tlen in Ha. unfold starts, occurs_at, suffix, T, terminated. split.
    - intros (v & E). exists (firstn a w).
      assert (La : length (firstn a w) = a) by (rewrite firstn_length; lia).
      rewrite skipn_app in E. replace (a - length w) with 0 in E by lia. cbn [skipn] in E.
      assert (HV : v <> []).
      { intros ->. rewrite app_nil_r in E. assert (In 0 p) as I by (rewrite <- E; apply in_or_app; right; cbn; auto).
        specialize (Hp 0 I). lia. }
      destruct (exists_last HV) as (v' & x & ->). rewrite app_assoc in E. apply app_inj_tail in E as [E _].
      exists v'. split; [|exact La]. rewrite <- E. symmetry. apply firstn_skipn.
    - intros (u & v & E & L). exists (v ++ [0]). rewrite E, <- !app_assoc. rewrite skipn_app.
      rewrite <- L, skipn_all, Nat.sub_diag. reflexivity.
  Qed.
  Lemma rows_range p s e : (forall c, In c p -> 0 < c) -> row_interval p w sa s e <-> is_range T sa p s e.
  Proof.
    intros Hp. pose proof (sa_len _ _ HSA) as L. fold T in L.
    assert (SO : forall i, i < len T -> cstarts T p (SA sa i) <-> occurs_at p w (SA sa i)).
    { intros i Hi. rewrite <- starts_occurs by (auto; apply (SA_lt T sa HSA); auto). apply cstarts_starts; [exact HT| |apply (SA_lt T sa HSA); auto].
      apply Forall_forall; auto. }
    unfold row_interval, is_range. rewrite L. split; intros [B H]; (split; [exact B|]).
    - intros i Hi. rewrite H. split.
      + intros (a & E & O). rewrite (SA_nth_error T sa HSA) in E by exact Hi. injection E as <-.
        apply SO; auto.
      + intros S. exists (SA sa i). split; [apply (SA_nth_error T sa HSA); exact Hi|].
        apply SO; auto.
    - intros i. split.
      + intros R. assert (Hi : i < len T) by lia. exists (SA sa i). split; [apply (SA_nth_error T sa HSA); exact Hi|].
        apply SO; auto. apply H; auto.
      + intros (a & E & O). assert (Hi : i < len T) by (rewrite <- L; apply nth_error_Some; congruence).
        rewrite (SA_nth_error T sa HSA) in E by exact Hi. injection E as <-.
        apply H; auto. apply SO; auto.
  Qed.
  Lemma row_step p c s e : (forall x, In x p -> 0 < x) -> 0 < c -> row_interval p w sa s e ->
    row_interval (c :: p) w sa (smaller c b + occ c b s) (smaller c b + occ c b e).
  Proof.
    intros Hp Hc H. apply rows_range; [intros x [<-|I]; auto|]. apply rows_range in H; auto.
    rewrite !occ_rankP. exact (is_range_step T sa HT HSA c p s e H).
  Qed.
End Text.

(** * Big-BWT *)
Lemma is_space_spec c : is_space c = true <-> white_space c.
Proof.
  unfold is_space, white_space. cbn [In]. rewrite orb_true_iff, andb_true_iff, Nat.eqb_eq, !Nat.leb_le. lia.
Qed.
Lemma read_symbols_filter l : read_symbols l = filter (fun c => negb (is_space c)) l.
Proof. induction l as [|c l IH]; [reflexivity|]. cbn. rewrite IH. destruct (is_space c); reflexivity. Qed.
Lemma read_symbols_id l : (forall c, In c l -> ~ white_space c) -> read_symbols l = l.
Proof.
  induction l as [|c l IH]; intros H; [reflexivity|]. cbn.
  destruct (is_space c) eqn:E; [apply is_space_spec in E; exfalso; apply (H c); cbn; auto|].
  f_equal. apply IH. intros x I. apply H. right. exact I.
Qed.
Lemma read_symbols_lost l : read_symbols l = l -> forall c, In c l -> ~ white_space c.
Proof.
  rewrite read_symbols_filter. intros E c I W. rewrite <- E in I. apply filter_In in I as [_ N].
  apply is_space_spec in W. rewrite W in N. discriminate.
Qed.

Lemma le5_ok x : x < 256 ^ 5 ->
  match le_bytes 5 x with [a; b; c; d; e] => le5 a b c d e = x | _ => False end.
Proof.
  Opaque Nat.modulo Nat.div.
  intros H. cbn [le_bytes]. unfold le5.
  assert (D : forall y, y mod 256 + 256 * (y / 256) = y) by (intros y; pose proof (Nat.div_mod y 256 ltac:(discriminate)); lia).
  assert (L : x / 256 / 256 / 256 / 256 < 256).
  { assert (P : forall k y, y < 256 ^ S k -> y / 256 < 256 ^ k).
    { intros k y Hy. rewrite Nat.pow_succ_r' in Hy. apply Nat.div_lt_upper_bound; [discriminate|exact Hy]. }
    apply (P 4) in H. apply (P 3) in H. apply (P 2) in H. apply (P 1) in H. rewrite Nat.pow_1_r in H. exact H. }
  rewrite (Nat.mod_small (x / 256 / 256 / 256 / 256)) by exact L. rewrite !D. reflexivity.
Qed.
Transparent Nat.modulo Nat.div.
Lemma read_pairs_file sa l : (forall j, In j l -> j < 256 ^ 5 /\ nth j sa 0 < 256 ^ 5) ->
  read_pairs (pairs_file sa l) = map (fun j => (j, nth j sa 0)) l.
Proof.
  induction l as [|j l IH]; intros H; [reflexivity|]. unfold pairs_file. cbn [flat_map map]. fold (pairs_file sa l).
  destruct (H j ltac:(cbn; auto)) as [H1 H2]. pose proof (le5_ok j H1) as E1. pose proof (le5_ok (nth j sa 0) H2) as E2.
  destruct (le_bytes 5 j) as [|a0 [|a1 [|a2 [|a3 [|a4 [|? ?]]]]]]; try contradiction.
  destruct (le_bytes 5 (nth j sa 0)) as [|b0 [|b1 [|b2 [|b3 [|b4 [|? ?]]]]]]; try contradiction.
  cbn [app read_pairs]. rewrite E1, E2, IH; [reflexivity|]. intros k I. apply H. right. exact I.
Qed.

Lemma in_order_unique l1 : forall l2 P, lists_in_order l1 P -> lists_in_order l2 P -> l1 = l2.
Proof.
  assert (SS : forall l P, lists_in_order l P -> StronglySorted lt l).
  { intros l P [H _]. clear P. induction l as [|a l IH]; constructor.
    - apply IH. intros i j x y Hij Hi Hj. apply (H (S i) (S j) x y); auto. lia.
    - apply Forall_forall. intros y I. apply In_nth_error in I as [j E]. apply (H 0 (S j) a y); auto. lia. }
  intros l2 P H1 H2. pose proof (SS _ _ H1) as S1. pose proof (SS _ _ H2) as S2.
  assert (E : forall x, In x l1 <-> In x l2) by (intros x; rewrite (proj2 H1 x), (proj2 H2 x); reflexivity).
  clear H1 H2 SS P. revert l2 S2 E. induction l1 as [|a l1 IH]; intros l2 S2 E.
  - destruct l2 as [|c l2]; [reflexivity|]. exfalso. apply (E c). cbn. auto.
  - destruct l2 as [|c l2]; [exfalso; apply (E a); cbn; auto|].
    inversion S1 as [|? ? S1' F1]; subst. inversion S2 as [|? ? S2' F2]; subst.
    rewrite Forall_forall in F1, F2.
    assert (a = c).
    { destruct (proj1 (E a) ltac:(cbn; auto)) as [|I]; [congruence|].
      destruct (proj2 (E c) ltac:(cbn; auto)) as [|J]; [congruence|]. specialize (F2 a I). specialize (F1 c J). lia. }
    subst c. f_equal. apply IH; auto. intros x. split; intros I.
    + destruct (proj1 (E x) ltac:(cbn; auto)) as [->|]; auto. specialize (F1 x I). lia.
    + destruct (proj2 (E x) ltac:(cbn; auto)) as [->|]; auto. specialize (F2 x I). lia.
Qed.
Lemma filter_in_order (f : nat -> bool) n P : (forall i, P i <-> i < n /\ f i = true) -> lists_in_order (filter f (seq 0 n)) P.
Proof.
  intros H. split.
  - assert (SS : forall m d, StronglySorted lt (filter f (seq d m))).
    { induction m as [|m IH]; intros d; cbn; [constructor|]. destruct (f d); [|apply IH]. constructor; [apply IH|].
      apply Forall_forall. intros x I. apply filter_In in I as [I _]. apply in_seq in I. lia. }
    specialize (SS n 0). generalize (filter f (seq 0 n)) SS. clear.
    induction l as [|a l IH]; intros SS i j x y Hij Hi Hj; [destruct i; discriminate|].
    inversion SS as [|? ? S' F]; subst. destruct j as [|j]; [lia|]. cbn in Hj. destruct i as [|i].
    + injection Hi as <-. rewrite Forall_forall in F. apply F. eapply nth_error_In. exact Hj.
    + cbn in Hi. apply (IH S' i j x y); auto. lia.
  - intros i. rewrite filter_In, in_seq, H. intuition lia.
Qed.
Lemma heads_in_order b : lists_in_order (heads_of b) (run_head b).
Proof.
  apply filter_in_order. intros i. split.
  - intros H. pose proof (proj1 H). split; [exact H0|]. apply head_spec; auto.
  - intros [H E]. apply head_spec; auto.
Qed.
Lemma tails_in_order b : lists_in_order (tails_of b) (run_tail b).
Proof.
  apply filter_in_order. intros i. split.
  - intros H. pose proof (proj1 H). split; [exact H0|]. apply tail_spec; auto.
  - intros [H E]. apply tail_spec; auto.
Qed.

Section Big.
  Variables (w sa data : list nat).
  Hypothesis Hw : zero_free w.
  Hypothesis HSA : is_suffix_array (terminated w) sa.
  Hypothesis Hd : data = w \/ data = terminated w.
  Hypothesis Hn : S (length w) <= 256 ^ 5.
  Let T := terminated w.
  Let b := bwt_of T sa.

  Lemma big_len : length b = S (length w).
  Proof. unfold b, bwt_of. rewrite map_length, (sa_len _ _ HSA), (tlen w). reflexivity. Qed.
  Lemma read_runs_ok l : (forall j, In j l -> j < S (length w)) ->
    read_runs (length b) (pairs_file sa l) = (l, map (fun j => cpred (S (length w)) (nth j sa 0)) l).
  Proof.
    intros H. unfold read_runs. rewrite big_len. rewrite read_pairs_file.
    - rewrite !map_map. f_equal; [apply map_id|]. apply map_ext_in. intros j I.
      assert (A : nth j sa 0 < S (length w)).
      { rewrite <- (tlen w). apply (SA_lt T sa HSA). unfold T. rewrite (tlen w). apply H. exact I. }
      rewrite <- (cpred_if _ _ A). destruct (Nat.eqb_spec (nth j sa 0) 0) as [->|N]; [reflexivity|].
      destruct (Nat.ltb_spec 0 (nth j sa 0)); [reflexivity|lia].
    - intros j I. specialize (H j I). split; [lia|].
      assert (A : nth j sa 0 < S (length w)).
      { rewrite <- (tlen w). apply (SA_lt T sa HSA). unfold T. rewrite (tlen w). exact H. }
      lia.
  Qed.
  Theorem big_runs_ok bf sf ef : big_bwt_output w sa bf sf ef ->
    construct_big_runs (mk_big_files bf sf ef) = mk_bwt_runs (hrows T sa) (map (tpos T sa) (hrows T sa)) (trows T sa) (map (tpos T sa) (trows T sa)).
  Proof.
    intros (-> & (hd & HH & ->) & (tl & HTl & ->)). fold T b in HH, HTl |- *.
    pose proof (in_order_unique _ _ _ HH (heads_in_order b)) as EH. pose proof (in_order_unique _ _ _ HTl (tails_in_order b)) as ET.
    unfold construct_big_runs. cbn [bg_bwt bg_ssa bg_esa].
    assert (BH : forall j, In j hd -> j < S (length w)) by (intros j I; apply HH in I; rewrite <- big_len; apply I).
    assert (BT : forall j, In j tl -> j < S (length w)) by (intros j I; apply HTl in I; rewrite <- big_len; apply I).
    rewrite (read_runs_ok hd BH), (read_runs_ok tl BT). subst hd tl. unfold hrows, trows. change (BW T sa) with b.
    assert (EP : forall l, map (fun j => cpred (S (length w)) (nth j sa 0)) l = map (tpos T sa) l).
    { intros l. apply map_ext. intros j. unfold tpos, T. rewrite (tlen w). reflexivity. }
    rewrite !EP. reflexivity.
  Qed.
  Lemma base_parts ba : construct_base data sa = Some ba -> exists rle, construct_bwt_rle (construct_alphabet b) b = Some rle /\
    ba = mk_base_items T b (mk_bwt_runs (hrows T sa) (map (tpos T sa) (hrows T sa)) (trows T sa) (map (tpos T sa) (trows T sa)))
      (construct_alphabet b) rle.
  Proof.
    intros E. unfold construct_base in E.
    assert (CT : construct_text data = Some T).
    { destruct Hd as [->| ->]; [apply construct_text_plain|apply construct_text_terminated]; exact Hw. }
    rewrite CT in E. cbn [bind] in E.
    rewrite (construct_bwt_ok T sa HSA) in E. cbn [bind] in E.
    rewrite (construct_bwt_runs_ok T sa (terminated_ok w Hw) HSA) in E. cbn [bind] in E.
    change (BW T sa) with b in E. cbv zeta in E.
    destruct (construct_bwt_rle (construct_alphabet b) b) as [rle|] eqn:ERL; [|discriminate E]. cbn [bind] in E.
    exists rle. split; [reflexivity|congruence].
  Qed.
  Theorem big_runs_base bf sf ef ba : big_bwt_output w sa bf sf ef -> construct_base data sa = Some ba ->
    construct_big_runs (mk_big_files bf sf ef) = bi_runs_files ba.
  Proof. intros H E. destruct (base_parts ba E) as (rle & _ & ->). exact (big_runs_ok bf sf ef H). Qed.
  Theorem big_base_ok bf sf ef ba : big_bwt_output w sa bf sf ef -> (forall c, In c w -> ~ white_space c) ->
    construct_base data sa = Some ba ->
    construct_big_base (mk_big_files bf sf ef) = Some (bi_bwt_text ba, bi_runs_files ba, bi_alpha ba, bi_bwt_rle ba).
  Proof.
    intros H HW E. rewrite <- (big_runs_base bf sf ef ba H E). destruct (base_parts ba E) as (rle & ER & ->).
    unfold construct_big_base. cbn [bg_bwt bi_bwt_text bi_alpha bi_bwt_rle]. replace bf with b by (symmetry; apply H).
    assert (ES : read_symbols b = b).
    { apply read_symbols_id. intros c I. apply (bwt_in T sa c (terminated_ok w Hw) HSA) in I.
      unfold T, terminated in I. apply in_app_or in I as [I|[<-|[]]]; [apply HW; exact I|].
      unfold white_space. cbn. lia. }
    rewrite ES, ER. reflexivity.
  Qed.
End Big.
(** The text loses its white space: the symbols read are fewer than those of the text. *)
Theorem big_white_space w sa bf sf ef : zero_free w -> is_suffix_array (terminated w) sa -> big_bwt_output w sa bf sf ef ->
  (exists c, In c w /\ white_space c) -> length (read_symbols bf) < S (length w).
Proof.
  intros Hw HSA H (c & I & W). pose proof (big_len w sa HSA) as L. replace bf with (bwt_of (terminated w) sa) by (symmetry; apply H).
  rewrite <- L. assert (J : In c (bwt_of (terminated w) sa)).
  { apply (bwt_in _ _ c (terminated_ok w Hw) HSA). unfold terminated. apply in_or_app. auto. }
  revert J. generalize (bwt_of (terminated w) sa). apply is_space_spec in W. clear - W.
  assert (LE : forall l, length (read_symbols l) <= length l).
  { induction l as [|x l IH]; cbn; [lia|]. destruct (is_space x); cbn; lia. }
  induction l as [|x l IH]; intros J; [contradiction|]. cbn. destruct J as [->|J].
  - rewrite W. specialize (LE l). lia.
  - specialize (IH J). destruct (is_space x); cbn; lia.
Qed.

(** Statements for the property files. *)
Lemma compute_lf_range b rank f max_c i j c l r : (forall pos c, pos <= length b -> rank pos c = Some (occ c b pos)) ->
  f c = Some (smaller c b) -> f (c + 1) = Some (smaller (c + 1) b) -> i <= S j <= length b ->
  compute_lf rank f (i, j) c (length b) max_c = Some (l, r) ->
  forall x, l <= x <= r <-> exists k, i <= k <= j /\ nth_error b k = Some c /\ x = lf_row b k.
Proof.
  intros HR F1 F2 H E x. rewrite (compute_lf_ok b rank f HR i j c max_c F1 F2 H) in E.
  transitivity (exists k, i <= k < S j /\ nth_error b k = Some c /\ x = lf_row b k).
  2:{ split; intros (k & K1 & K2); exists k; (split; [lia|exact K2]). }
  rewrite <- (lf_rows b c i (S j) x) by lia.
  destruct (Nat.ltb_spec (occ c b i) (occ c b (S j))); injection E as El Er; lia.
Qed.
