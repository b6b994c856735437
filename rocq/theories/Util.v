(** General facts about the monadic combinators, sorting and mark bit vectors. *)
From Coq Require Import List Arith Bool Lia ZifyBool ZifyNat Permutation Sorting.Sorted.
From Verif Require Import MBase Lists MConstruct.
Import ListNotations.

Lemma mmap_map {A B} (f : A -> option B) (g : A -> B) l :
  (forall x, In x l -> f x = Some (g x)) -> mmap f l = Some (map g l).
Proof.
  induction l as [|a t IH]; intros H; cbn; auto.
  rewrite (H a) by (left; auto). cbn. rewrite IH by (intros x Hx; apply H; right; auto). auto.
Qed.

Lemma mmap_length {A B} (f : A -> option B) l r : mmap f l = Some r -> length r = length l.
Proof.
  revert r; induction l as [|a t IH]; intros r H; cbn in H.
  - injection H as <-; auto.
  - destruct (f a); cbn in H; [|discriminate]. destruct (mmap f t); cbn in H; [|discriminate].
    injection H as <-. cbn. rewrite (IH l); auto.
Qed.

Lemma mmap_nth {A B} (f : A -> option B) l : forall r i x, mmap f l = Some r -> nth_error l i = Some x ->
  nth_error r i = f x.
Proof.
  induction l as [|a t IH]; intros r i x H Hi; [destruct i; discriminate|].
  cbn in H. destruct (f a) eqn:E; cbn in H; [|discriminate].
  destruct (mmap f t) eqn:E2; cbn in H; [|discriminate]. injection H as <-.
  destruct i; cbn in *.
  - injection Hi as <-. auto.
  - eapply IH; eauto.
Qed.

Lemma mmap_None_in {A B} (f : A -> option B) l x : In x l -> f x = None -> mmap f l = None.
Proof.
  induction l as [|a t IH]; intros H E; [destruct H|]. destruct H as [->|H]; cbn.
  - rewrite E; auto.
  - destruct (f a); cbn; auto. rewrite IH; auto.
Qed.

Lemma mfold_app {A S} (f : S -> A -> option S) l1 l2 s :
  mfold f (l1 ++ l2) s = (s' <- mfold f l1 s ;; mfold f l2 s').
Proof. revert s; induction l1 as [|a t IH]; intros s; cbn; auto. destruct (f s a); cbn; auto. Qed.

Lemma nth_error_seq s m i : i < m -> nth_error (seq s m) i = Some (s + i).
Proof.
  intros H. rewrite (nth_error_nth_lt _ _ 0) by (rewrite seq_length; lia).
  rewrite seq_nth; auto.
Qed.

Lemma nth_map_seq {A} (f : nat -> A) m i d : i < m -> nth i (map f (seq 0 m)) d = f i.
Proof.
  intros H. rewrite (nth_indep _ d (f 0)) by (rewrite map_length, seq_length; lia).
  rewrite map_nth, seq_nth by lia. auto.
Qed.

Lemma nth_error_map_seq {A} (f : nat -> A) m i : i < m -> nth_error (map f (seq 0 m)) i = Some (f i).
Proof. intros H. rewrite nth_error_map, nth_error_seq by lia. reflexivity. Qed.

Lemma nth_map_lt {A B} (f : A -> B) l i d d' : i < length l -> nth i (map f l) d' = f (nth i l d).
Proof.
  intros H. rewrite (nth_indep _ d' (f d)) by (rewrite map_length; lia). apply map_nth.
Qed.

Lemma map_nth_self l : map (fun i => nth i l 0) (seq 0 (length l)) = l.
Proof.
  induction l as [|a t IH]; auto. cbn [length seq map nth]. f_equal.
  rewrite <- seq_shift, map_map. exact IH.
Qed.

(** Sorting. *)
Section Sort.
  Variable key : nat -> nat.
  Let lt a b := key a <? key b.
  Definition ksorted (l : list nat) : Prop := StronglySorted (fun a b => key a < key b) l.

  Lemma sort_insert_perm x l : Permutation (sort_insert lt x l) (x :: l).
  Proof.
    induction l as [|y t IH]; cbn [sort_insert]; auto. destruct (lt x y); auto.
    eapply perm_trans; [apply perm_skip, IH|apply perm_swap].
  Qed.
  Lemma std_sort_perm l : Permutation (std_sort lt l) l.
  Proof.
    induction l as [|x t IH]; cbn; auto.
    eapply perm_trans; [apply sort_insert_perm|]. constructor; auto.
  Qed.
  Lemma sort_insert_sorted x l : ksorted l -> (forall y, In y l -> key x <> key y) ->
    ksorted (sort_insert lt x l).
  Proof.
    induction l as [|y t IH]; intros Hs Hd; cbn [sort_insert].
    - constructor; constructor.
    - inversion Hs as [|? ? Hst Hf]; subst. unfold lt at 1.
      destruct (Nat.ltb_spec (key x) (key y)) as [H|H].
      + constructor; auto. constructor; auto. rewrite Forall_forall in *. intros z Hz.
        specialize (Hf z Hz). lia.
      + constructor; [apply IH; auto; intros z Hz; apply Hd; right; auto|].
        assert (key x <> key y) by (apply Hd; left; auto).
        rewrite Forall_forall in *. intros z Hz.
        apply (Permutation_in _ (sort_insert_perm x t)) in Hz. destruct Hz as [<-|Hz]; [lia|auto].
  Qed.
  Lemma std_sort_sorted l : NoDup (map key l) -> ksorted (std_sort lt l).
  Proof.
    induction l as [|x t IH]; intros H; cbn; [constructor|].
    cbn in H. inversion H; subst. apply sort_insert_sorted; auto.
    intros y Hy E. apply H2. rewrite E. apply in_map. eapply Permutation_in; [apply std_sort_perm|]; auto.
  Qed.
  Lemma ksorted_map l : ksorted l -> StronglySorted Nat.lt (map key l).
  Proof.
    induction 1; cbn; constructor; auto. rewrite Forall_map. auto.
  Qed.
End Sort.

Definition ssorted (l : list nat) : Prop := StronglySorted Nat.lt l.

Lemma ssorted_nth l : ssorted l -> forall i j, i < j -> j < length l -> nth i l 0 < nth j l 0.
Proof.
  induction 1 as [|a l Hs IH Hf]; intros i j Hij Hj; [cbn in Hj; lia|].
  cbn in Hj. destruct j; [lia|]. destruct i; cbn.
  - rewrite Forall_forall in Hf. apply Hf. apply nth_In. lia.
  - apply IH; lia.
Qed.
Lemma ssorted_nth_le l i j : ssorted l -> i <= j -> j < length l -> nth i l 0 <= nth j l 0.
Proof.
  intros. destruct (Nat.eq_dec i j); [subst; auto|].
  apply Nat.lt_le_incl, ssorted_nth; auto; lia.
Qed.
Lemma ssorted_nth_inv l i j : ssorted l -> i < length l -> j < length l -> nth i l 0 < nth j l 0 -> i < j.
Proof.
  intros H Hi Hj E. destruct (Nat.lt_ge_cases i j); auto.
  pose proof (ssorted_nth_le l j i H ltac:(lia) Hi). lia.
Qed.
Lemma ssorted_NoDup l : ssorted l -> NoDup l.
Proof.
  induction 1 as [|a l Hs IH Hf]; constructor; auto.
  rewrite Forall_forall in Hf. intros H. specialize (Hf _ H). unfold Nat.lt in Hf. lia.
Qed.
Lemma ssorted_filter_seq f s m : ssorted (filter f (seq s m)).
Proof.
  revert s; induction m as [|m IH]; intros s; cbn; [constructor|].
  destruct (f s); auto. constructor; [apply IH|].
  rewrite Forall_forall. intros x Hx. apply filter_In in Hx. destruct Hx as [Hx _].
  apply in_seq in Hx. unfold Nat.lt. lia.
Qed.
Lemma ssorted_unique l : forall l', ssorted l -> ssorted l' -> (forall x, In x l <-> In x l') -> l = l'.
Proof.
  induction l as [|a l IH]; intros l' H H' E.
  - destruct l' as [|b l']; auto. exfalso. apply (proj2 (E b)). left; auto.
  - destruct l' as [|b l']; [exfalso; apply (proj1 (E a)); left; auto|].
    inversion H as [|? ? Hs Hf]; inversion H' as [|? ? Hs' Hf']; subst.
    rewrite Forall_forall in Hf, Hf'.
    assert (a = b).
    { destruct (proj1 (E a) (or_introl eq_refl)) as [Q|Ha]; auto.
      destruct (proj2 (E b) (or_introl eq_refl)) as [Q|Hb]; auto.
      specialize (Hf _ Hb). specialize (Hf' _ Ha). unfold Nat.lt in *. lia. }
    subst b. f_equal. apply IH; auto. intros x; split; intros Hx.
    + destruct (proj1 (E x) (or_intror Hx)); auto. subst. specialize (Hf _ Hx). unfold Nat.lt in Hf; lia.
    + destruct (proj2 (E x) (or_intror Hx)); auto. subst. specialize (Hf' _ Hx). unfold Nat.lt in Hf'; lia.
Qed.

Section SortIndices.
  Variable values : list nat.
  Hypothesis Hnd : NoDup values.

  Lemma sort_indices_perm : Permutation (sort_indices values) (seq 0 (length values)).
  Proof. apply (std_sort_perm (fun i => nth i values 0)). Qed.
  Lemma sort_indices_length : length (sort_indices values) = length values.
  Proof. rewrite (Permutation_length sort_indices_perm). apply seq_length. Qed.
  Lemma sort_indices_lt i : In i (sort_indices values) <-> i < length values.
  Proof.
    split; intros H.
    - apply (Permutation_in _ sort_indices_perm) in H. apply in_seq in H. lia.
    - apply (Permutation_in _ (Permutation_sym sort_indices_perm)). apply in_seq. lia.
  Qed.
  Definition sorted_values : list nat := map (fun i => nth i values 0) (sort_indices values).
  Lemma sorted_values_sorted : ssorted sorted_values.
  Proof.
    apply (ksorted_map (fun i => nth i values 0)).
    apply (std_sort_sorted (fun i => nth i values 0)). rewrite map_nth_self. auto.
  Qed.
  Lemma sorted_values_perm : Permutation sorted_values values.
  Proof.
    unfold sorted_values. eapply perm_trans; [apply Permutation_map, sort_indices_perm|].
    rewrite map_nth_self. auto.
  Qed.
  Lemma sorted_values_in x : In x sorted_values <-> In x values.
  Proof.
    split; apply Permutation_in; [|symmetry]; apply sorted_values_perm.
  Qed.
  Lemma sorted_values_length : length sorted_values = length values.
  Proof. apply Permutation_length, sorted_values_perm. Qed.
  Lemma sorted_values_nth k : k < length values ->
    nth k sorted_values 0 = nth (nth k (sort_indices values) 0) values 0.
  Proof.
    intros H. unfold sorted_values. rewrite (nth_map_lt _ _ _ 0) by (rewrite sort_indices_length; auto).
    auto.
  Qed.
End SortIndices.

(** Mark bit vectors. *)
Definition memb (l : list nat) (i : nat) : bool := existsb (Nat.eqb i) l.
Lemma memb_In l i : memb l i = true <-> In i l.
Proof.
  unfold memb. rewrite existsb_exists. split.
  - intros [x [H E]]. apply Nat.eqb_eq in E. subst; auto.
  - intros H. exists i. split; auto. apply Nat.eqb_refl.
Qed.
Definition bits_of (l : list nat) (size : nat) : list bool := map (memb l) (seq 0 size).

Lemma list_set_map {A} (f : nat -> A) size i x : i < size ->
  list_set (map f (seq 0 size)) i x = Some (map (fun j => if j =? i then x else f j) (seq 0 size)).
Proof.
  intros H. unfold list_set. rewrite map_length, seq_length.
  destruct (Nat.ltb_spec i size); [|lia]. f_equal.
  replace size with (i + S (size - S i)) by lia.
  rewrite seq_app, !map_app. cbn [seq map]. rewrite Nat.add_0_l, Nat.eqb_refl.
  rewrite firstn_app, map_length, seq_length, Nat.sub_diag, firstn_O, app_nil_r.
  rewrite firstn_all2 by (rewrite map_length, seq_length; auto).
  f_equal.
  - apply map_ext_in. intros j Hj. apply in_seq in Hj. destruct (Nat.eqb_spec j i); auto; lia.
  - f_equal. rewrite skipn_app, map_length, seq_length.
    rewrite skipn_all2 by (rewrite map_length, seq_length; lia).
    replace (S i - i) with 1 by lia. cbn [skipn app].
    apply map_ext_in. intros j Hj. apply in_seq in Hj. destruct (Nat.eqb_spec j i); auto; lia.
Qed.

Lemma repeat_map {A} (x : A) n : repeat x n = map (fun _ => x) (seq 0 n).
Proof. induction n; cbn; auto. f_equal. rewrite IHn, <- seq_shift, map_map. auto. Qed.

Lemma bit_vector_fold (b : bool) size values : forall f : nat -> bool, (forall v, In v values -> v < size) ->
  mfold (fun bv item => list_set bv item b) values (map f (seq 0 size)) =
  Some (map (fun j => if memb values j then b else f j) (seq 0 size)).
Proof.
  induction values as [|v t IH]; intros f H; cbn [mfold]; auto.
  rewrite list_set_map by (apply H; left; auto). cbn [bind].
  rewrite IH by (intros; apply H; right; auto). f_equal. apply map_ext. intros j.
  cbn [memb existsb]. change (existsb (Nat.eqb j) t) with (memb t j).
  destruct (memb t j), (j =? v); auto.
Qed.
Lemma construct_bit_vector_ok values size init : (forall v, In v values -> v < size) ->
  construct_bit_vector values size init =
  Some (map (fun j => if memb values j then negb init else init) (seq 0 size)).
Proof.
  intros H. unfold construct_bit_vector. rewrite repeat_map, bit_vector_fold; auto.
Qed.
Lemma construct_bits values size : (forall v, In v values -> v < size) ->
  construct_bit_vector values size false = Some (bits_of values size).
Proof.
  intros H. rewrite construct_bit_vector_ok; auto. f_equal. apply map_ext. intros j.
  destruct (memb values j); auto.
Qed.
Lemma construct_bit_vector_ob values size init v : In v values -> size <= v ->
  construct_bit_vector values size init = None.
Proof.
  intros H Hv. unfold construct_bit_vector.
  assert (G : forall l (bv : list bool), In v l -> length bv = size ->
     mfold (fun bv item => list_set bv item (negb init)) l bv = None).
  { induction l as [|a t IH]; intros bv Hin Hl; [destruct Hin|].
    cbn [mfold]. unfold list_set at 1. rewrite Hl.
    destruct (Nat.ltb_spec a size) as [Ha|Ha]; cbn [bind]; auto.
    apply IH.
    - destruct Hin; auto. subst; lia.
    - rewrite app_length, firstn_length. cbn [length]. rewrite skipn_length. lia. }
  apply G; auto. apply repeat_length.
Qed.

Lemma bits_of_ext l l' size : (forall x, In x l <-> In x l') -> bits_of l size = bits_of l' size.
Proof.
  intros H. apply map_ext. intros j. destruct (memb l j) eqn:E, (memb l' j) eqn:E'; auto; exfalso.
  - rewrite memb_In, H, <- memb_In in E. congruence.
  - rewrite memb_In, <- H, <- memb_In in E'. congruence.
Qed.

(** Rank and select on the bits of a sorted list. *)
Section Bits.
  Variables (ms : list nat) (size : nat).
  Hypothesis Hs : ssorted ms.
  Hypothesis Hlt : forall m, In m ms -> m < size.

  Lemma bits_length : length (bits_of ms size) = size.
  Proof. unfold bits_of. rewrite map_length, seq_length; auto. Qed.

  Lemma filter_memb : filter (memb ms) (seq 0 size) = ms.
  Proof.
    apply ssorted_unique; auto using ssorted_filter_seq. intros x. rewrite filter_In, memb_In, in_seq.
    split; [tauto|]. intros H. split; auto. specialize (Hlt _ H). lia.
  Qed.

  Lemma bits_rank i : i <= size -> bv_rank (bits_of ms size) i = Some (count (fun m => m <? i) ms).
  Proof.
    intros H. unfold bv_rank. rewrite bits_length. destruct (Nat.leb_spec i size); [|lia]. f_equal.
    transitivity (count (fun m => m <? i) (filter (memb ms) (seq 0 size))); [|rewrite filter_memb; auto].
    unfold bits_of, rankP. replace size with (i + (size - i)) by lia. generalize (size - i). intros d.
    rewrite seq_app, map_app, firstn_app, map_length, seq_length, Nat.sub_diag, firstn_O, app_nil_r.
    rewrite firstn_all2 by (rewrite map_length, seq_length; auto).
    change (length (filter idb (map (memb ms) (seq 0 i)))) with (count idb (map (memb ms) (seq 0 i))).
    rewrite count_map, filter_app, count_app, Nat.add_0_l.
    rewrite (count_false (fun m => m <? i) (filter (memb ms) (seq i d))).
    - rewrite (count_true (fun m => m <? i) (filter (memb ms) (seq 0 i))).
      + rewrite Nat.add_0_r. reflexivity.
      + intros x Hx. apply filter_In in Hx. destruct Hx as [Hx _]. apply in_seq in Hx. apply Nat.ltb_lt. lia.
    - intros x Hx. apply filter_In in Hx. destruct Hx as [Hx _]. apply in_seq in Hx. apply Nat.ltb_ge. lia.
  Qed.

  Lemma bits_ones : bv_rank (bits_of ms size) size = Some (length ms).
  Proof.
    rewrite bits_rank by lia. f_equal. apply count_true. intros x Hx. apply Nat.ltb_lt; auto.
  Qed.

  Lemma count_lt_sorted i k : k < length ms -> k < count (fun m => m <? i) ms <-> nth k ms 0 < i.
  Proof.
    clear Hlt. revert k. induction Hs as [|a l Hsl IH Hf]; intros k Hk; [cbn in Hk; lia|].
    cbn [length] in Hk. cbn [count filter]. unfold count in *. cbn [filter].
    destruct (Nat.ltb_spec a i) as [Ha|Ha]; cbn [length].
    - destruct k; cbn [nth]; [lia|]. rewrite <- IH by (auto; lia). lia.
    - assert (Z : length (filter (fun m => m <? i) l) = 0).
      { apply (count_false (fun m => m <? i)). rewrite Forall_forall in Hf. intros x Hx.
        specialize (Hf _ Hx). unfold Nat.lt in Hf. apply Nat.ltb_ge. lia. }
      rewrite Z. split; [lia|]. intros H. exfalso. destruct k; cbn in H; [lia|].
      rewrite Forall_forall in Hf. assert (In (nth k l 0) l) by (apply nth_In; lia).
      specialize (Hf _ H0). unfold Nat.lt in Hf. lia.
  Qed.

  Lemma bits_select k : k < length ms -> bv_select (bits_of ms size) (S k) = Some (nth k ms 0).
  Proof.
    intros Hk. unfold bv_select.
    assert (Hin : In (nth k ms 0) ms) by (apply nth_In; auto).
    pose proof (Hlt _ Hin) as Hm.
    replace k with (rankP idb (bits_of ms size) (nth k ms 0)) at 1.
    - eapply select0_complete with (x := true); [|reflexivity].
      unfold bits_of. rewrite nth_error_map_seq by auto. f_equal. apply memb_In; auto.
    - pose proof (bits_rank (nth k ms 0) ltac:(lia)) as Hr. unfold bv_rank in Hr.
      rewrite bits_length in Hr. destruct (Nat.leb_spec (nth k ms 0) size); [|lia].
      injection Hr as ->.
      destruct (Nat.lt_trichotomy k (count (fun m => m <? nth k ms 0) ms)) as [E|[E|E]]; auto; exfalso.
      + apply count_lt_sorted in E; lia.
      + set (c := count (fun m => m <? nth k ms 0) ms) in *.
        pose proof (ssorted_nth ms Hs c k E Hk) as Hc.
        apply count_lt_sorted in Hc; [|lia]. fold c in Hc. lia.
  Qed.
End Bits.
