(** Run-length decompositions of lists. *)
From Coq Require Import List Arith Bool Lia ZifyBool ZifyNat.
From Verif Require Import Spec MBase Lists.
Import ListNotations.

(** Sum of the first [j] elements. *)
Definition psum (L : list nat) (j : nat) : nat := list_sum (firstn j L).

Lemma list_sum_cons a L : list_sum (a :: L) = a + list_sum L.
Proof. reflexivity. Qed.

Lemma psum_0 L : psum L 0 = 0.
Proof. reflexivity. Qed.

Lemma psum_cons a L j : psum (a :: L) (S j) = a + psum L j.
Proof. reflexivity. Qed.

Lemma psum_S L : forall j x, nth_error L j = Some x -> psum L (S j) = psum L j + x.
Proof.
  induction L as [|a L IH]; intros [|j] x H; cbn [nth_error] in H; try discriminate.
  - injection H as ->. rewrite psum_cons, !psum_0. lia.
  - rewrite !psum_cons, (IH _ _ H). lia.
Qed.

Lemma psum_all L j : length L <= j -> psum L j = list_sum L.
Proof. intros H. unfold psum. rewrite firstn_all2; auto. Qed.

Lemma psum_mono L i j : i <= j -> psum L i <= psum L j.
Proof.
  induction 1 as [|j H IH]; auto.
  destruct (nth_error L j) as [x|] eqn:E.
  - rewrite (psum_S _ _ _ E). lia.
  - apply nth_error_None in E. rewrite (psum_all _ (S j)), <- (psum_all _ j) by lia. exact IH.
Qed.

Lemma psum_le_total L j : psum L j <= list_sum L.
Proof.
  destruct (le_ge_dec (length L) j); [rewrite psum_all by lia; lia|].
  rewrite <- (psum_all L (length L)) by lia. apply psum_mono; lia.
Qed.

Definition allpos (L : list nat) : Prop := Forall (fun x => 0 < x) L.

Lemma psum_lt_S L j : allpos L -> j < length L -> psum L j < psum L (S j).
Proof.
  intros HP H. destruct (nth_error L j) as [x|] eqn:E; [|apply nth_error_None in E; lia].
  rewrite (psum_S _ _ _ E). unfold allpos in HP. rewrite Forall_forall in HP.
  apply nth_error_In in E. specialize (HP _ E). lia.
Qed.

Lemma psum_lt L i j : allpos L -> i < j -> j <= length L -> psum L i < psum L j.
Proof.
  intros HP H1 H2. pose proof (psum_lt_S L i HP ltac:(lia)).
  pose proof (psum_mono L (S i) j ltac:(lia)). lia.
Qed.

Lemma psum_find L i : i < list_sum L -> exists j, j < length L /\ psum L j <= i < psum L (S j).
Proof.
  revert i. induction L as [|a L IH]; intros i H; [cbn in H; lia|].
  change (list_sum (a :: L)) with (a + list_sum L) in H.
  destruct (lt_dec i a) as [Hi|Hi].
  - exists 0. cbn [length]. rewrite psum_cons, !psum_0. lia.
  - destruct (IH (i - a) ltac:(lia)) as [j [Hj H']]. exists (S j). cbn [length].
    rewrite !psum_cons. lia.
Qed.

Lemma psum_find_unique L i j j' : psum L j <= i < psum L (S j) -> psum L j' <= i < psum L (S j') -> j = j'.
Proof.
  intros H1 H2. destruct (lt_eq_lt_dec j j') as [[H|H]|H]; auto.
  - pose proof (psum_mono L (S j) j' ltac:(lia)). lia.
  - pose proof (psum_mono L (S j') j ltac:(lia)). lia.
Qed.

(** Bit vector with one block per length; the last bit of block [k] is [f k]. *)
Fixpoint gbits (f : nat -> bool) (k : nat) (L : list nat) : list bool :=
  match L with
  | [] => []
  | x :: L' => repeat false (x - 1) ++ f k :: gbits f (S k) L'
  end.

Lemma gbits_app f L1 : forall k L2, gbits f k (L1 ++ L2) = gbits f k L1 ++ gbits f (k + length L1) L2.
Proof.
  induction L1 as [|a L1 IH]; intros k L2; cbn [gbits app length].
  - rewrite Nat.add_0_r. reflexivity.
  - rewrite IH, <- app_assoc. cbn [app]. replace (S k + length L1) with (k + S (length L1)) by lia. reflexivity.
Qed.

Lemma gbits_length f L : forall k, allpos L -> length (gbits f k L) = list_sum L.
Proof.
  induction L as [|a L IH]; intros k H; [reflexivity|]. inversion H; subst.
  cbn [gbits]. rewrite app_length, repeat_length. cbn [length]. rewrite IH by auto.
  change (list_sum (a :: L)) with (a + list_sum L). lia.
Qed.

Lemma gbits_nth_last f L : forall k j, allpos L -> j < length L ->
  nth_error (gbits f k L) (psum L (S j) - 1) = Some (f (k + j)).
Proof.
  induction L as [|a L IH]; intros k j H Hj; [cbn in Hj; lia|]. inversion H; subst.
  cbn [gbits]. rewrite psum_cons.
  destruct j as [|j].
  - rewrite psum_0, nth_error_app2 by (rewrite repeat_length; lia). rewrite repeat_length.
    replace (a + 0 - 1 - (a - 1)) with 0 by lia. cbn. f_equal. f_equal. lia.
  - cbn [length] in Hj. pose proof (psum_lt_S L j H3 ltac:(lia)).
    rewrite nth_error_app2 by (rewrite repeat_length; lia). rewrite repeat_length.
    replace (a + psum L (S j) - 1 - (a - 1)) with (S (psum L (S j) - 1)) by lia.
    cbn [nth_error]. rewrite IH by (auto; lia). f_equal. f_equal. lia.
Qed.

Lemma rankP_repeat_false m i : rankP idb (repeat false m) i = 0.
Proof.
  unfold rankP. revert i. induction m as [|m IH]; intros [|i]; cbn; auto.
Qed.
Lemma count_repeat_false m : count idb (repeat false m) = 0.
Proof. unfold count. induction m; cbn; auto. Qed.

Lemma gbits_rank f L : forall k j i, allpos L -> j < length L -> psum L j <= i < psum L (S j) ->
  rankP idb (gbits f k L) i = count f (seq k j).
Proof.
  induction L as [|a L IH]; intros k j i H Hj Hi; [cbn in Hj; lia|]. inversion H; subst.
  cbn [gbits]. destruct j as [|j].
  - rewrite psum_cons, !psum_0 in Hi. rewrite rankP_app_l by (rewrite repeat_length; lia).
    rewrite rankP_repeat_false. reflexivity.
  - rewrite !psum_cons in Hi. cbn [length] in Hj.
    rewrite rankP_app_r by (rewrite repeat_length; lia). rewrite repeat_length, count_repeat_false.
    replace (i - (a - 1)) with (S (i - a)) by lia. rewrite rankP_cons.
    rewrite (IH (S k) j) by (auto; lia). cbn [seq]. unfold count. cbn [filter].
    unfold idb. destruct (f k); cbn [length]; lia.
Qed.

Lemma gbits_rank_all f L k : allpos L ->
  rankP idb (gbits f k L) (list_sum L) = count f (seq k (length L)).
Proof.
  intros H. rewrite <- (gbits_length f L k H), rankP_all by lia.
  clear. revert k. induction L as [|a L IH]; intros k; [reflexivity|].
  cbn [gbits]. rewrite count_app, count_repeat_false. cbn [length seq].
  unfold count in *. cbn [filter]. unfold idb at 1. specialize (IH (S k)). destruct (f k); cbn [length]; lia.
Qed.

Lemma gbits_select f L k j : allpos L -> j < length L -> f (k + j) = true ->
  select0 idb (gbits f k L) (count f (seq k j)) = Some (psum L (S j) - 1).
Proof.
  intros H Hj Hf. pose proof (psum_lt_S L j H Hj).
  eapply select0_unique; [apply gbits_nth_last; auto|exact Hf|].
  apply gbits_rank; auto. lia.
Qed.

(** Unary code of run lengths: the bit at each run end is set. *)
Definition ubits (L : list nat) : list bool := gbits (fun _ => true) 0 L.

Lemma count_const_true k m : count (fun _ : nat => true) (seq k m) = m.
Proof. rewrite count_true by auto. apply seq_length. Qed.

Lemma ubits_length L : allpos L -> length (ubits L) = list_sum L.
Proof. apply gbits_length. Qed.

Lemma ubits_rank L j i : allpos L -> j < length L -> psum L j <= i < psum L (S j) ->
  rankP idb (ubits L) i = j.
Proof. intros. unfold ubits. rewrite (gbits_rank _ _ _ j) by auto. apply count_const_true. Qed.

Lemma ubits_rank_all L : allpos L -> rankP idb (ubits L) (list_sum L) = length L.
Proof. intros. unfold ubits. rewrite gbits_rank_all by auto. apply count_const_true. Qed.

Lemma ubits_select L j : allpos L -> j < length L ->
  select0 idb (ubits L) j = Some (psum L (S j) - 1).
Proof.
  intros H Hj. rewrite <- (gbits_select (fun _ => true) L 0 j) by auto.
  rewrite count_const_true. reflexivity.
Qed.

Lemma ubits_bv_select L j : allpos L -> 0 < j <= length L ->
  exists p, bv_select (ubits L) j = Some p /\ p + 1 = psum L j.
Proof.
  intros H Hj. destruct j as [|j]; [lia|]. cbn [bv_select].
  rewrite ubits_select by (auto; lia). eexists; split; eauto.
  pose proof (psum_lt_S L j H ltac:(lia)). lia.
Qed.

(** Start of a run: 0 or one past the end of the previous run, as computed by the code. *)
Lemma ubits_start L j : allpos L -> j <= length L ->
  (if j =? 0 then Some 0 else p <- bv_select (ubits L) j ;; Some (p + 1)) = Some (psum L j).
Proof.
  intros H Hj. destruct (Nat.eqb_spec j 0) as [->|Hn]; [reflexivity|].
  destruct (ubits_bv_select L j H ltac:(lia)) as [p [-> <-]]. reflexivity.
Qed.

(** * Decomposition of a list into runs (symbol, length). *)
Definition expand (R : list (nat * nat)) : list nat :=
  flat_map (fun r => repeat (fst r) (snd r)) R.
Definition lens (R : list (nat * nat)) : list nat := map snd R.
Definition wf_runs (R : list (nat * nat)) : Prop :=
  allpos (lens R) /\
  forall j a b, nth_error R j = Some a -> nth_error R (S j) = Some b -> fst a <> fst b.

Fixpoint rle (l : list nat) : list (nat * nat) :=
  match l with
  | [] => []
  | c :: t => match rle t with
              | (d, k) :: R => if c =? d then (d, S k) :: R else (c, 1) :: (d, k) :: R
              | [] => [(c, 1)]
              end
  end.

Lemma expand_rle l : expand (rle l) = l.
Proof.
  induction l as [|c t IH]; [reflexivity|]. cbn [rle].
  destruct (rle t) as [|[d k] R]; [cbn in *; congruence|].
  destruct (Nat.eqb_spec c d) as [->|H]; cbn in *; congruence.
Qed.

Lemma rle_wf l : wf_runs (rle l).
Proof.
  induction l as [|c t [IH1 IH2]]; cbn [rle].
  - split; [constructor|]. intros [|j]; discriminate.
  - destruct (rle t) as [|[d k] R].
    + split; [repeat constructor|]. intros [|[|j]] a b H1 H2; discriminate.
    + destruct (Nat.eqb_spec c d) as [->|H].
      * split.
        -- unfold allpos in *. cbn in *. inversion IH1; subst. constructor; auto; lia.
        -- intros [|j] a b H1 H2; [|apply (IH2 (S j)); auto].
           cbn in H1. injection H1 as <-. apply (IH2 0 (d, k) b); auto.
      * split.
        -- unfold allpos in *. cbn in *. constructor; auto.
        -- intros [|j] a b H1 H2; [|apply (IH2 j); auto].
           cbn in H1, H2. injection H1 as <-. injection H2 as <-. auto.
Qed.

Lemma expand_app R1 R2 : expand (R1 ++ R2) = expand R1 ++ expand R2.
Proof. apply flat_map_app. Qed.

Lemma expand_length R : length (expand R) = list_sum (lens R).
Proof.
  induction R as [|[c k] R IH]; [reflexivity|]. cbn [expand flat_map lens map fst snd].
  rewrite app_length, repeat_length.
  change (list_sum (k :: map snd R)) with (k + list_sum (lens R)). unfold expand in IH. lia.
Qed.

Section Runs.
  Variable R : list (nat * nat).
  Hypothesis HR : wf_runs R.

  Definition rstart (j : nat) : nat := psum (lens R) j.

  Lemma lens_length : length (lens R) = length R.
  Proof. apply map_length. Qed.
  Lemma lens_pos : allpos (lens R).
  Proof. apply HR. Qed.

  Lemma rstart_S j c k : nth_error R j = Some (c, k) -> rstart (S j) = rstart j + k.
  Proof.
    intros H. unfold rstart. apply psum_S. unfold lens. rewrite nth_error_map, H. reflexivity.
  Qed.
  Lemma rstart_lt j : j < length R -> rstart j < rstart (S j).
  Proof. intros. apply psum_lt_S; [apply lens_pos|rewrite lens_length; auto]. Qed.
  Lemma rstart_mono i j : i <= j -> rstart i <= rstart j.
  Proof. apply psum_mono. Qed.
  Lemma rstart_strict i j : i < j -> j <= length R -> rstart i < rstart j.
  Proof. intros. apply psum_lt; auto; [apply lens_pos|rewrite lens_length; auto]. Qed.
  Lemma rstart_all : rstart (length R) = length (expand R).
  Proof. unfold rstart. rewrite psum_all by (rewrite lens_length; lia). rewrite expand_length. reflexivity. Qed.
  Lemma rstart_le j : rstart j <= length (expand R).
  Proof. rewrite expand_length. apply psum_le_total. Qed.
  Lemma run_find i : i < length (expand R) -> exists j, j < length R /\ rstart j <= i < rstart (S j).
  Proof. rewrite expand_length. intros H. destruct (psum_find _ _ H) as [j Hj]. rewrite lens_length in Hj. eauto. Qed.
  Lemma run_unique i j j' : rstart j <= i < rstart (S j) -> rstart j' <= i < rstart (S j') -> j = j'.
  Proof. apply psum_find_unique. Qed.
End Runs.

Lemma rstart_cons a R j : rstart (a :: R) (S j) = snd a + rstart R j.
Proof. reflexivity. Qed.

Lemma nth_error_repeat_lt {A} (x : A) m i : i < m -> nth_error (repeat x m) i = Some x.
Proof. revert i; induction m as [|m IH]; intros [|i] H; cbn; auto; try lia. apply IH; lia. Qed.

Lemma expand_nth R : forall j c k i, nth_error R j = Some (c, k) ->
  rstart R j <= i < rstart R (S j) -> nth_error (expand R) i = Some c.
Proof.
  induction R as [|[d m] R IH]; intros [|j] c k i H Hi; cbn in H; try discriminate.
  - injection H as -> ->. unfold rstart in Hi. cbn [lens map snd] in Hi. rewrite psum_cons, !psum_0 in Hi.
    cbn [expand flat_map fst snd]. rewrite nth_error_app1 by (rewrite repeat_length; lia).
    apply nth_error_repeat_lt; lia.
  - rewrite !rstart_cons in Hi. cbn [snd] in Hi. cbn [expand flat_map fst snd].
    rewrite nth_error_app2 by (rewrite repeat_length; lia). rewrite repeat_length.
    apply (IH _ _ _ _ H). lia.
Qed.

(** Lengths of the runs of symbol [c]. *)
Definition clens (c : nat) (R : list (nat * nat)) : list nat :=
  map snd (filter (fun r => c =? fst r) R).
(** Occurrences of [c] in the first [j] runs. *)
Definition csum (c : nat) (R : list (nat * nat)) (j : nat) : nat :=
  list_sum (clens c (firstn j R)).
(** Number of runs of [c] among the first [j]. *)
Definition cruns (c : nat) (R : list (nat * nat)) (j : nat) : nat :=
  rankP (Nat.eqb c) (map fst R) j.

Lemma cruns_length c R j : cruns c R j = length (filter (fun r => c =? fst r) (firstn j R)).
Proof.
  unfold cruns, rankP. rewrite firstn_map. generalize (firstn j R) as Q.
  induction Q as [|a Q IH]; [reflexivity|]. cbn. destruct (c =? fst a); cbn; auto.
Qed.

Lemma firstn_filter {A} (f : A -> bool) l t :
  firstn (length (filter f (firstn t l))) (filter f l) = filter f (firstn t l).
Proof.
  revert t. induction l as [|a l IH]; intros [|t]; cbn; auto.
  destruct (f a); cbn; rewrite ?IH; auto.
Qed.

Lemma csum_psum c R j : psum (clens c R) (cruns c R j) = csum c R j.
Proof.
  unfold psum, csum, clens. rewrite cruns_length, firstn_map, firstn_filter. reflexivity.
Qed.

Lemma clens_pos c R : allpos (lens R) -> allpos (clens c R).
Proof.
  unfold allpos, lens, clens. rewrite !Forall_forall. intros H x Hx. apply H.
  apply in_map_iff in Hx. destruct Hx as [r [<- Hr]]. apply filter_In in Hr. apply in_map. tauto.
Qed.

Lemma clens_length c R : length (clens c R) = count (Nat.eqb c) (map fst R).
Proof. unfold clens. rewrite map_length, count_map. reflexivity. Qed.

Lemma cruns_le c R j : cruns c R j <= length (clens c R).
Proof. rewrite clens_length. apply rankP_le_count. Qed.

Lemma cruns_lt R j c k : nth_error R j = Some (c, k) -> cruns c R j < length (clens c R).
Proof.
  intros H. rewrite clens_length. unfold cruns.
  assert (H' : nth_error (map fst R) j = Some c) by (rewrite nth_error_map, H; reflexivity).
  rewrite <- (rankP_all (Nat.eqb c) (map fst R) (length (map fst R))) by lia.
  apply (rankP_lt_step _ _ j _ c H'); [apply Nat.eqb_refl|]. apply nth_error_Some_lt in H'. lia.
Qed.

Lemma cruns_S R j c d k : nth_error R j = Some (d, k) ->
  cruns c R (S j) = cruns c R j + (if c =? d then 1 else 0).
Proof.
  intros H. unfold cruns. apply rankP_S. rewrite nth_error_map, H. reflexivity.
Qed.

Lemma csum_cons c a R j : csum c (a :: R) (S j) = (if c =? fst a then snd a else 0) + csum c R j.
Proof. unfold csum, clens. cbn. destruct (c =? fst a); reflexivity. Qed.

Lemma csum_S R c : forall j d k, nth_error R j = Some (d, k) ->
  csum c R (S j) = csum c R j + (if c =? d then k else 0).
Proof.
  induction R as [|a R IH]; intros [|j] d k H; cbn [nth_error] in H; try discriminate.
  - injection H as ->. rewrite csum_cons. unfold csum. cbn. lia.
  - rewrite !csum_cons, (IH _ _ _ H). lia.
Qed.

Lemma count_eqb_repeat c d k : count (Nat.eqb c) (repeat d k) = if c =? d then k else 0.
Proof.
  unfold count. induction k as [|k IH]; cbn; [destruct (c =? d); auto|].
  destruct (c =? d) eqn:E; cbn; auto.
Qed.
Lemma rankP_eqb_repeat c d k i : i <= k -> rankP (Nat.eqb c) (repeat d k) i = if c =? d then i else 0.
Proof.
  intros H. unfold rankP. rewrite <- (count_eqb_repeat c d i).
  assert (E : firstn i (repeat d k) = repeat d i).
  { clear c. revert i H. induction k as [|k IH]; intros [|i] H; cbn; auto; try lia. rewrite IH by lia. reflexivity. }
  rewrite E. reflexivity.
Qed.

(** Occurrences of [c] before position [i] of run [j]. *)
Lemma expand_rank c R : forall j d k i, nth_error R j = Some (d, k) ->
  rstart R j <= i <= rstart R (S j) ->
  rankP (Nat.eqb c) (expand R) i = csum c R j + (if c =? d then i - rstart R j else 0).
Proof.
  induction R as [|[e m] R IH]; intros [|j] d k i H Hi; cbn in H; try discriminate.
  - injection H as -> ->. unfold rstart in *. cbn [lens map snd] in Hi. rewrite psum_cons, !psum_0 in Hi.
    cbn [expand flat_map fst snd]. rewrite rankP_app_l by (rewrite repeat_length; lia).
    rewrite rankP_eqb_repeat by lia. rewrite psum_0, Nat.sub_0_r. reflexivity.
  - rewrite csum_cons, !rstart_cons in *. cbn [fst snd] in *. cbn [expand flat_map fst snd].
    rewrite rankP_app_r by (rewrite repeat_length; lia). rewrite repeat_length, count_eqb_repeat.
    fold (expand R). rewrite (IH _ _ _ _ H) by lia.
    replace (i - (m + rstart R j)) with (i - m - rstart R j) by lia. lia.
Qed.

Lemma expand_count c R : count (Nat.eqb c) (expand R) = list_sum (clens c R).
Proof.
  induction R as [|[d k] R IH]; [reflexivity|].
  cbn [expand flat_map fst snd]. rewrite count_app, count_eqb_repeat. fold (expand R). rewrite IH.
  unfold clens. cbn. destruct (c =? d); reflexivity.
Qed.

Lemma csum_le c R j : csum c R j <= list_sum (clens c R).
Proof. rewrite <- csum_psum. apply psum_le_total. Qed.

(** Run boundaries of the expanded list. *)
Lemma expand_maximal_run R j c k : wf_runs R -> nth_error R j = Some (c, k) ->
  maximal_run (expand R) (rstart R j) (rstart R (S j)) c.
Proof.
  intros HR H. assert (Hj : j < length R) by (eapply nth_error_Some_lt; eauto).
  pose proof (rstart_lt R HR j Hj). pose proof (rstart_le R (S j)).
  repeat split; auto.
  - intros i Hi. eapply expand_nth; eauto.
  - destruct j as [|j]; [left; reflexivity|right].
    destruct (nth_error R j) as [[d m]|] eqn:E; [|apply nth_error_None in E; lia].
    pose proof (rstart_lt R HR j ltac:(lia)).
    rewrite (expand_nth R j d m) by (auto; lia).
    destruct HR as [_ HA]. specialize (HA _ _ _ E H). cbn in HA. congruence.
  - destruct (nth_error R (S j)) as [[d m]|] eqn:E.
    + apply nth_error_Some_lt in E as Hj'. pose proof (rstart_lt R HR (S j) Hj').
      rewrite (expand_nth R (S j) d m) by (auto; lia).
      destruct HR as [_ HA]. specialize (HA _ _ _ H E). cbn in HA. congruence.
    + apply nth_error_None in E. assert (S j = length R) as -> by lia.
      rewrite rstart_all. rewrite (proj2 (nth_error_None _ _)); [discriminate|lia].
Qed.

(** Boolean tests for the first / last position of a run. *)
Definition headb (l : list nat) (i : nat) : bool :=
  (i =? 0) || negb (nth (i - 1) l 0 =? nth i l 0).
Definition tailb (l : list nat) (i : nat) : bool :=
  (i =? length l - 1) || negb (nth i l 0 =? nth (S i) l 0).
Definition heads_of (l : list nat) : list nat := filter (headb l) (seq 0 (length l)).
Definition tails_of (l : list nat) : list nat := filter (tailb l) (seq 0 (length l)).

Lemma headb_run_head l i : i < length l -> headb l i = true <-> run_head l i.
Proof.
  intros H. unfold headb, run_head. destruct i as [|i]; cbn [Nat.eqb orb]; [intuition|].
  replace (S i - 1) with i by lia.
  rewrite (nth_error_nth_lt l i 0), (nth_error_nth_lt l (S i) 0) by lia.
  destruct (Nat.eqb_spec (nth i l 0) (nth (S i) l 0)) as [E|N]; cbn [negb]; split; intros Q; auto.
  - discriminate.
  - destruct Q as [_ [Q|Q]]; [lia|congruence].
  - split; auto. right. congruence.
Qed.

Lemma tailb_run_tail l i : i < length l -> tailb l i = true <-> run_tail l i.
Proof.
  intros H. unfold tailb, run_tail. destruct (Nat.eqb_spec i (length l - 1)) as [->|Hn]; cbn [orb].
  - replace (S (length l - 1)) with (length l) by lia.
    rewrite (nth_error_nth_lt l (length l - 1) 0) by lia. rewrite (proj2 (nth_error_None l (length l))) by lia.
    intuition congruence.
  - rewrite (nth_error_nth_lt l i 0), (nth_error_nth_lt l (S i) 0) by lia.
    destruct (Nat.eqb_spec (nth i l 0) (nth (S i) l 0)) as [E|N]; cbn [negb]; split; intros Q; auto.
    + discriminate.
    + destruct Q as [_ Q]; congruence.
    + split; auto. congruence.
Qed.

Lemma expand_nth_d R j c k i : nth_error R j = Some (c, k) ->
  rstart R j <= i < rstart R (S j) -> nth i (expand R) 0 = c.
Proof. intros H Hi. apply nth_error_nth. eapply expand_nth; eauto. Qed.

Lemma headb_expand R j i : wf_runs R -> j < length R -> rstart R j <= i < rstart R (S j) ->
  headb (expand R) i = (i =? rstart R j).
Proof.
  intros HR Hj Hi. destruct (nth_error R j) as [[c k]|] eqn:E; [|apply nth_error_None in E; lia].
  unfold headb. destruct (Nat.eqb_spec i (rstart R j)) as [->|Hn].
  - destruct (expand_maximal_run R j c k HR E) as [Ha [Hb [Hc _]]].
    destruct Hc as [->|Hc]; [reflexivity|].
    destruct (Nat.eqb_spec (rstart R j) 0) as [|Hz]; [reflexivity|]. cbn [orb].
    pose proof (rstart_le R (S j)).
    rewrite (nth_error_nth_lt _ (rstart R j - 1) 0) in Hc by lia.
    rewrite (expand_nth_d R j c k (rstart R j)) by auto.
    destruct (Nat.eqb_spec (nth (rstart R j - 1) (expand R) 0) c); auto; congruence.
  - destruct (Nat.eqb_spec i 0) as [->|Hz]; [lia|]. cbn [orb].
    rewrite (expand_nth_d R j c k (i - 1)), (expand_nth_d R j c k i) by (auto; lia).
    rewrite Nat.eqb_refl. reflexivity.
Qed.

Lemma tailb_expand R j i : wf_runs R -> j < length R -> rstart R j <= i < rstart R (S j) ->
  tailb (expand R) i = (S i =? rstart R (S j)).
Proof.
  intros HR Hj Hi. destruct (nth_error R j) as [[c k]|] eqn:E; [|apply nth_error_None in E; lia].
  unfold tailb. destruct (expand_maximal_run R j c k HR E) as [Ha [Hb [_ Hd]]].
  destruct (Nat.eqb_spec (S i) (rstart R (S j))) as [Hq|Hn].
  - destruct (Nat.eqb_spec i (length (expand R) - 1)) as [|Hl]; [reflexivity|]. cbn [orb].
    rewrite (expand_nth_d R j c k i) by (auto; lia). rewrite Hq.
    rewrite (nth_error_nth_lt _ (rstart R (S j)) 0) in Hd by lia.
    destruct (Nat.eqb_spec c (nth (rstart R (S j)) (expand R) 0)); auto; congruence.
  - destruct (Nat.eqb_spec i (length (expand R) - 1)) as [|Hl]; [lia|]. cbn [orb].
    rewrite (expand_nth_d R j c k (S i)), (expand_nth_d R j c k i) by (auto; lia).
    rewrite Nat.eqb_refl. reflexivity.
Qed.

Lemma seq_rstart_step R j : wf_runs R -> j < length R ->
  seq 0 (rstart R (S j)) = seq 0 (rstart R j) ++ seq (rstart R j) (rstart R (S j) - rstart R j).
Proof.
  intros HR H. pose proof (rstart_lt R HR j H).
  replace (rstart R (S j)) with (rstart R j + (rstart R (S j) - rstart R j)) at 1 by lia.
  rewrite seq_app. reflexivity.
Qed.

Lemma filter_seq_single (f : nat -> bool) s m p : s <= p < s + m ->
  (forall i, s <= i < s + m -> f i = (i =? p)) -> filter f (seq s m) = [p].
Proof.
  revert s. induction m as [|m IH]; intros s Hp H; [lia|].
  cbn [seq filter]. rewrite H by lia. destruct (Nat.eqb_spec s p) as [->|Hn].
  - f_equal. rewrite (filter_ext_in _ (fun _ => false)).
    + clear. induction (seq (S p) m); cbn; auto.
    + intros a Ha. apply in_seq in Ha. rewrite H by lia. apply Nat.eqb_neq. lia.
  - apply IH; [lia|]. intros; apply H; lia.
Qed.

Lemma heads_upto R j : wf_runs R -> j <= length R ->
  filter (headb (expand R)) (seq 0 (rstart R j)) = map (rstart R) (seq 0 j).
Proof.
  intros HR. induction j as [|j IH]; intros Hj; [reflexivity|].
  pose proof (rstart_lt R HR j ltac:(lia)).
  rewrite seq_rstart_step, filter_app, IH by (auto; lia).
  rewrite seq_S, map_app. f_equal. cbn [map Nat.add].
  apply filter_seq_single; [lia|]. intros i Hi. apply headb_expand; auto; lia.
Qed.

Lemma tails_upto R j : wf_runs R -> j <= length R ->
  filter (tailb (expand R)) (seq 0 (rstart R j)) = map (fun k => rstart R (S k) - 1) (seq 0 j).
Proof.
  intros HR. induction j as [|j IH]; intros Hj; [reflexivity|].
  pose proof (rstart_lt R HR j ltac:(lia)).
  rewrite seq_rstart_step, filter_app, IH by (auto; lia).
  rewrite seq_S, map_app. f_equal. cbn [map Nat.add].
  apply filter_seq_single; [lia|]. intros i Hi. rewrite (tailb_expand R j) by (auto; lia).
  destruct (Nat.eqb_spec (S i) (rstart R (S j))), (Nat.eqb_spec i (rstart R (S j) - 1)); auto; lia.
Qed.

Lemma heads_of_expand R : wf_runs R -> heads_of (expand R) = map (rstart R) (seq 0 (length R)).
Proof. intros HR. unfold heads_of. rewrite <- rstart_all. apply heads_upto; auto. Qed.

Lemma tails_of_expand R : wf_runs R ->
  tails_of (expand R) = map (fun k => rstart R (S k) - 1) (seq 0 (length R)).
Proof. intros HR. unfold tails_of. rewrite <- rstart_all. apply tails_upto; auto. Qed.
