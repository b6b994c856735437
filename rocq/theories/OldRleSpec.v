(** rle_string in the vocabulary of Spec.v. *)
From Coq Require Import List Arith Bool Lia ZifyBool ZifyNat Sorted.
From Verif Require Import Spec MBase Lists Runs MRle RleProof RleSpec MOldRle OldRle.
Import ListNotations.

Lemma old_construct_total b l : 0 < b -> l <> [] -> zero_free l -> exists s, old_construct b l = Some s.
Proof. intros Hb Hl HZ. destruct (old_construct_repr b l Hb Hl HZ) as [s [R [E _]]]. eauto. Qed.

Lemma old_construct_zero b l : In 0 l -> old_construct b l = None.
Proof.
  intros H. unfold old_construct. destruct l as [|c l]; [destruct H|].
  destruct (0 <? b); [|reflexivity]. cbn [guard bind].
  assert (E : forallb (fun c => negb (c =? 0)) (c :: l) = false).
  { destruct (forallb _ (c :: l)) eqn:E; auto. rewrite forallb_forall in E. specialize (E 0 H). discriminate. }
  rewrite E. reflexivity.
Qed.

Section OldSpec.
  Variables (b : nat) (l : list nat) (s : oldrle).
  Hypothesis HZ : zero_free l.
  Hypothesis HC : old_construct b l = Some s.

  Lemma old_inv : exists R M, old_repr b M R s /\ expand R = l /\ M = 255.
  Proof.
    assert (l <> []) by (intros ->; discriminate).
    assert (0 < b).
    { destruct l; [congruence|]. unfold old_construct, guard in HC.
      destruct (Nat.ltb_spec 0 b); auto. discriminate. }
    destruct (old_construct_repr b l) as [s' [R [E [HR HE]]]]; auto.
    rewrite HC in E. injection E as <-. eauto.
  Qed.

  Lemma oldsp_size : old_size s = length l.
  Proof. destruct old_inv as [R [M [HR [<- _]]]]. apply (ol_n _ _ _ _ HR). Qed.

  Lemma oldsp_runs : old_number_of_runs s = runs_before l (length l).
  Proof.
    destruct old_inv as [R [M [HR [<- _]]]]. rewrite <- rstart_all, runs_before_expand by (auto; apply HR).
    apply (ol_r _ _ _ _ HR).
  Qed.

  Lemma oldsp_access i : i < length l -> old_access s i = nth_error l i.
  Proof. destruct old_inv as [R [M [HR [<- _]]]]. eapply old_access_ok; eauto. Qed.

  Lemma oldsp_to_string : old_to_string s = Some l.
  Proof.
    unfold old_to_string. rewrite oldsp_size.
    assert (G : forall m k, k + m = length l -> mmap (old_access s) (seq k m) = Some (skipn k l)).
    { induction m as [|m IH]; intros k Hk; cbn [seq mmap].
      - rewrite skipn_all2 by lia. reflexivity.
      - rewrite oldsp_access by lia. destruct (nth_error l k) as [x|] eqn:E; [|apply nth_error_None in E; lia].
        cbn [bind]. rewrite IH by lia. cbn [bind]. f_equal.
        clear -E. revert k E. induction l as [|a q IHl]; intros [|k] E; cbn in E |- *; try discriminate.
        + injection E as ->. reflexivity.
        + apply IHl. exact E. }
    apply (G (length l) 0). reflexivity.
  Qed.

  Lemma oldsp_rank i c : i <= length l -> c < 256 -> old_rank s i c = Some (occ c l i).
  Proof.
    destruct old_inv as [R [M [HR [E EM]]]]. rewrite occ_rankP. intros Hi Hc.
    rewrite <- E in Hi |- *. eapply old_rank_ok; eauto. lia.
  Qed.

  Lemma oldsp_symbol c : In c l -> c < 256.
  Proof. unfold zero_free in HZ. rewrite Forall_forall in HZ. intros H. apply HZ in H. lia. Qed.

  Lemma oldsp_select k c : k < occ c l (length l) ->
    exists p, old_select s k c = Some p /\ nth_error l p = Some c /\ occ c l p = k.
  Proof.
    intros Hk. rewrite occ_rankP, rankP_all in Hk by lia.
    destruct (select0_total (Nat.eqb c) l k Hk) as [p Hp]. exists p.
    destruct (select0_spec _ _ _ _ Hp) as [[x [Hx Ex]] Hr]. apply Nat.eqb_eq in Ex. subst x.
    destruct old_inv as [R [M [HR [E EM]]]].
    pose proof (oldsp_symbol c (nth_error_In _ _ Hx)).
    rewrite (old_select_ok _ _ _ _ HR) by (try rewrite E; auto; lia).
    rewrite E, occ_rankP. auto.
  Qed.

  (** The run that covers a position. *)
  Lemma oldsp_position i : i < length l ->
    exists st e c, maximal_run l st e c /\ st <= i < e /\
      old_run_of_position s i = Some (runs_before l st) /\ old_run_of s i = Some (runs_before l st, e - 1).
  Proof.
    destruct old_inv as [R [M [HR [E _]]]]. intros Hi. pose proof (ol_wf _ _ _ _ HR) as HW.
    destruct (old_run_find R i) as [j [d [k [ER Hj]]]]; [rewrite E; auto|].
    apply nth_error_Some_lt in ER as Hlt.
    exists (rstart R j), (rstart R (S j)), d. split; [rewrite <- E; eapply expand_maximal_run; eauto|]. split; auto.
    rewrite <- E, runs_before_expand by (auto; lia).
    rewrite (old_run_of_position_ok _ _ _ _ HR i j), (old_run_of_ok _ _ _ _ HR i j) by auto. auto.
  Qed.

  Lemma oldsp_run_range j : j < old_number_of_runs s ->
    exists st e c, maximal_run l st e c /\ runs_before l st = j /\
      old_run_range s j = Some (st, e - 1) /\ old_run_at s j = Some (e - st).
  Proof.
    destruct old_inv as [R [M [HR [E _]]]]. intros Hj. pose proof (ol_wf _ _ _ _ HR) as HW.
    unfold old_number_of_runs in Hj. rewrite (ol_r _ _ _ _ HR) in Hj.
    destruct (old_run_some R j Hj) as [c [k ER]].
    exists (rstart R j), (rstart R (S j)), c. split; [rewrite <- E; eapply expand_maximal_run; eauto|].
    rewrite <- E, runs_before_expand by (auto; lia). split; auto.
    rewrite (old_run_range_ok _ _ _ _ HR) by auto. split; auto.
    rewrite (old_run_at_ok _ _ _ _ HR j c k ER), (rstart_S R _ _ _ ER). f_equal. lia.
  Qed.

  Lemma between R first last j jl q : wf_runs R -> rstart R j <= first < rstart R (S j) ->
    rstart R jl <= last < rstart R (S jl) ->
    rstart R q <= last /\ first < rstart R (S q) -> j <= q <= jl.
  Proof.
    intros HW Hf Hl [H1 H2]. split.
    - destruct (le_dec j q); auto. pose proof (rstart_mono R (S q) j ltac:(lia)). lia.
    - destruct (le_dec q jl); auto. pose proof (rstart_mono R (S jl) q ltac:(lia)). lia.
  Qed.

  Lemma oldsp_break_in_runs first last : first <= last -> last < length l ->
    exists rs, old_break_in_runs s (first, last) = Some rs /\
      StronglySorted (fun a b => snd (sr_range a) < fst (sr_range b)) rs /\
      forall k c x y, In (mk_string_run k c (x, y)) rs <->
        exists st e, maximal_run l st e c /\ st <= last /\ first < e /\
          k = runs_before l st /\ x = Nat.max st first /\ y = Nat.min (e - 1) last.
  Proof.
    destruct old_inv as [R [M [HR [E _]]]]. intros H1 H2. pose proof (ol_wf _ _ _ _ HR) as HW.
    destruct (old_run_find R first) as [j [d [m [ER Hj]]]]; [rewrite E; lia|].
    destruct (old_run_find R last) as [jl [dl [ml [ERl Hjl]]]]; [rewrite E; lia|].
    apply nth_error_Some_lt in ER as Hlt. apply nth_error_Some_lt in ERl as Hltl.
    eexists. split; [apply (old_break_in_runs_ok _ _ _ _ HR first last j jl); auto; rewrite E; auto|].
    split.
    - assert (G : forall m q, j <= q -> q + m <= S jl -> StronglySorted (fun a b => snd (sr_range a) < fst (sr_range b))
        (map (clip R first last) (seq q m))).
      { clear m ER. induction m as [|m IH]; intros q Hq Hqm; cbn [seq map]; constructor; [apply IH; lia|].
        apply Forall_forall. intros x Hx. apply in_map_iff in Hx. destruct Hx as [p [<- Hp]].
        apply in_seq in Hp. cbn [clip sr_range fst snd].
        pose proof (rstart_mono R (S q) p ltac:(lia)). pose proof (rstart_lt R HW q ltac:(lia)). lia. }
      pose proof (between R first last j jl j HW Hj Hjl ltac:(lia)). apply G; lia.
    - intros k c x y. split.
      + intros Hin. apply in_map_iff in Hin. destruct Hin as [q [Hq Hin]]. apply in_seq in Hin.
        unfold clip in Hq. injection Hq as <- Hc <- <-.
        destruct (nth_error R q) as [[d' m']|] eqn:EQ; [|apply nth_error_None in EQ; lia].
        rewrite (nth_error_nth _ _ _ EQ) in Hc. cbn in Hc. subst d'.
        exists (rstart R q), (rstart R (S q)).
        split; [rewrite <- E; eapply expand_maximal_run; eauto|].
        pose proof (rstart_mono R q jl ltac:(lia)). pose proof (rstart_mono R (S j) (S q) ltac:(lia)).
        rewrite <- E, runs_before_expand by (auto; lia). repeat split; auto; lia.
      + intros [st [e [Hm [Ha [Hb [-> [-> ->]]]]]]]. rewrite <- E in Hm.
        destruct (maximal_run_expand R st e c HW Hm) as [q [m' [EQ [-> ->]]]].
        pose proof (between R first last j jl q HW Hj Hjl (conj Ha Hb)). apply nth_error_Some_lt in EQ as Hq.
        rewrite <- E, runs_before_expand by (auto; lia).
        apply in_map_iff. exists q. split; [|apply in_seq; lia].
        unfold clip. rewrite (nth_error_nth _ _ _ EQ). reflexivity.
  Qed.

  Lemma oldsp_break_range first last c : first <= last -> last < length l ->
    nth_error l first = Some c -> nth_error l last = Some c ->
    exists rs, old_break_range s (first, last) c = Some rs /\
      StronglySorted (fun a b => snd a < fst b) rs /\
      forall x y, In (x, y) rs <->
        exists st e, maximal_run l st e c /\ st <= last /\ first < e /\
          x = Nat.max st first /\ y = Nat.min (e - 1) last.
  Proof.
    destruct old_inv as [R [M [HR [E _]]]]. intros H1 H2 Hcf Hcl. pose proof (ol_wf _ _ _ _ HR) as HW.
    destruct (old_run_find R first) as [j [d [m [ER Hj]]]]; [rewrite E; lia|].
    destruct (old_run_find R last) as [jl [dl [ml [ERl Hjl]]]]; [rewrite E; lia|].
    assert (d = c).
    { pose proof (expand_nth R j d m first ER Hj) as Q. rewrite E, Hcf in Q. congruence. } subst d.
    assert (dl = c).
    { pose proof (expand_nth R jl dl ml last ERl Hjl) as Q. rewrite E, Hcl in Q. congruence. } subst dl.
    apply nth_error_Some_lt in ER as Hlt. apply nth_error_Some_lt in ERl as Hltl.
    eexists. split; [apply (old_break_range_ok _ _ _ _ HR first last c j jl m ml); auto; rewrite E; auto|].
    split.
    - assert (G : forall m q, j <= q -> q + m <= S jl -> StronglySorted (fun a b => snd a < fst b)
        (map (clip_range R first last) (filter (fun q => c =? fst (nth q R (0, 0))) (seq q m)))).
      { clear m ER. induction m as [|m IH]; intros q Hq Hqm; cbn [seq filter]; [constructor|].
        assert (IH' := IH (S q) ltac:(lia) ltac:(lia)).
        destruct (c =? fst (nth q R (0, 0))); [|exact IH']. cbn [map]. constructor; auto.
        apply Forall_forall. intros x Hx. apply in_map_iff in Hx. destruct Hx as [p [<- Hp]].
        apply filter_In in Hp as [Hp _]. apply in_seq in Hp. unfold clip_range. cbn [fst snd].
        pose proof (rstart_mono R (S q) p ltac:(lia)). pose proof (rstart_lt R HW q ltac:(lia)). lia. }
      pose proof (between R first last j jl j HW Hj Hjl ltac:(lia)). apply G; lia.
    - intros x y. split.
      + intros Hin. apply in_map_iff in Hin. destruct Hin as [q [Hq Hin]]. apply filter_In in Hin as [Hin Hc].
        apply in_seq in Hin. unfold clip_range in Hq. injection Hq as <- <-. apply Nat.eqb_eq in Hc.
        destruct (nth_error R q) as [[d' m']|] eqn:EQ; [|apply nth_error_None in EQ; lia].
        rewrite (nth_error_nth _ _ _ EQ) in Hc. cbn in Hc. subst d'.
        exists (rstart R q), (rstart R (S q)).
        split; [rewrite <- E; eapply expand_maximal_run; eauto|].
        pose proof (rstart_mono R q jl ltac:(lia)). pose proof (rstart_mono R (S j) (S q) ltac:(lia)).
        repeat split; auto; lia.
      + intros [st [e [Hm [Ha [Hb [-> ->]]]]]]. rewrite <- E in Hm.
        destruct (maximal_run_expand R st e c HW Hm) as [q [m' [EQ [-> ->]]]].
        pose proof (between R first last j jl q HW Hj Hjl (conj Ha Hb)). apply nth_error_Some_lt in EQ as Hq.
        apply in_map_iff. exists q. split; [reflexivity|]. apply filter_In. split; [apply in_seq; lia|].
        rewrite (nth_error_nth _ _ _ EQ). apply Nat.eqb_refl.
  Qed.

  (** closest_run_break: the first position of the range with symbol [c] next to another symbol. *)
  Lemma oldsp_closest first last c i d j : first <= i <= last -> first <= j <= last -> last < length l ->
    nth_error l i = Some c -> nth_error l j = Some d -> d <> c ->
    exists p, old_closest_run_break s (first, last) c = Some p /\
      let edge q := first <= q <= last /\ nth_error l q = Some c /\
                    exists q', (q' = q + 1 \/ q' + 1 = q) /\ first <= q' <= last /\ nth_error l q' <> Some c in
      edge p /\ forall q, edge q -> p <= q.
  Proof.
    destruct old_inv as [R [M [HR [E EM]]]]. intros Hi Hj Hl Ei Ej Hd. pose proof (ol_wf _ _ _ _ HR) as HW.
    destruct (old_run_find R first) as [r [c0 [k [ER Hr]]]]; [rewrite E; lia|].
    assert (E0 : nth_error l first = Some c0) by (rewrite <- E; eapply expand_nth; eauto).
    destruct (Nat.eq_dec c0 c) as [->|Hne].
    - destruct (expand_maximal_run R r c k HW ER) as [M1 [M2 [M3 M4]]]. rewrite E in *.
      assert (rstart R (S r) <= last).
      { destruct (le_dec (rstart R (S r)) last); auto. exfalso. apply Hd.
        specialize (M2 j ltac:(lia)). congruence. }
      exists (rstart R (S r) - 1). rewrite (old_closest_first _ _ _ _ HR first last c r k) by auto.
      split; [reflexivity|]. cbn zeta. split.
      + split; [lia|]. split; [apply M2; lia|]. exists (rstart R (S r)). split; [lia|]. split; [lia|exact M4].
      + intros q [Hq [Hqc [q' [Hq' [Hq'' Hn]]]]]. destruct (le_dec (rstart R (S r) - 1) q); auto.
        exfalso. apply Hn. apply M2. lia.
    - assert (G : forall m, exists p, (first <= p <= first + m /\ nth_error l p = Some c /\
                     forall q, first <= q < p -> nth_error l q <> Some c) \/
                    (forall q, first <= q <= first + m -> nth_error l q <> Some c)).
      { induction m as [|m [p [IH|IH]]].
        - exists 0. right. intros q Hq. replace q with first by lia. congruence.
        - exists p. left. split; [lia|]. tauto.
        - destruct (nth_error l (first + S m)) as [x|] eqn:Ex.
          + destruct (Nat.eq_dec x c) as [->|Hx].
            * exists (first + S m). left. split; [lia|]. split; auto. intros q Hq. apply IH. lia.
            * exists 0. right. intros q Hq. destruct (Nat.eq_dec q (first + S m)) as [->|]; [congruence|apply IH; lia].
          + exists 0. right. intros q Hq. destruct (Nat.eq_dec q (first + S m)) as [->|]; [congruence|apply IH; lia]. }
      destruct (G (last - first)) as [p [[Hp [Hpc Hno]]|Hno]]; [|exfalso; apply (Hno i); [lia|exact Ei]].
      assert (Hlt : first < p).
      { destruct (Nat.eq_dec p first) as [->|]; [congruence|lia]. }
      exists p. split.
      + apply (old_closest_later _ _ _ _ HR); rewrite ?E; auto; try lia.
        pose proof (oldsp_symbol c (nth_error_In _ _ Hpc)). lia.
      + cbn zeta. split.
        * split; [lia|]. split; auto. exists (p - 1). split; [lia|]. split; [lia|]. apply Hno. lia.
        * intros q [Hq [Hqc _]]. destruct (le_dec p q); auto. exfalso. apply (Hno q); [lia|auto].
  Qed.
End OldSpec.

(** ** sparse_sd_vector on its own *)
Lemma sdsp_ops bits : bits <> [] ->
  let v := sd_of_bools bits in
  sd_size v = length bits /\
  (forall i, i < length bits -> sd_access v i = nth_error bits i) /\
  (forall i, i <= length bits -> sd_rank v i = Some (length (filter (fun x => x) (firstn i bits)))) /\
  sd_ones v = Some (length (filter (fun x => x) bits)).
Proof.
  intros H. cbn zeta. assert (EV : sd_of_bools bits = sd_full bits).
  { destruct bits; [congruence|reflexivity]. }
  rewrite EV. split; [reflexivity|]. split; [|split].
  - intros i Hi. unfold sd_access. cbn [sd_size sd_full sd_u sd_bits].
    rewrite (proj2 (Nat.ltb_lt _ _)) by auto. reflexivity.
  - intros i Hi. rewrite sd_full_rank by auto. unfold bv_rank. rewrite (proj2 (Nat.leb_le _ _)) by auto. reflexivity.
  - apply sd_full_ones. exact H.
Qed.

Lemma sdsp_select bits k : k < length (filter (fun x => x) bits) ->
  exists p, sd_select (sd_of_bools bits) k = Some p /\ nth_error bits p = Some true /\
            length (filter (fun x => x) (firstn p bits)) = k.
Proof.
  intros H. assert (EV : sd_of_bools bits = sd_full bits).
  { destruct bits; [cbn in H; lia|reflexivity]. }
  rewrite EV, sd_full_select. cbn [bv_select].
  destruct (select0_total idb bits k H) as [p Hp]. exists p. split; auto.
  destruct (select0_spec _ _ _ _ Hp) as [[x [Hx Ex]] Hr]. unfold idb in Ex. subst x. auto.
Qed.

(** Largest set position before [i]. *)
Lemma sdsp_predecessor bits i p : i <= length bits -> p < i -> nth_error bits p = Some true ->
  (forall q, p < q < i -> nth_error bits q = Some false) ->
  sd_predecessor (sd_of_bools bits) i = Some p /\
  sd_predecessor_rank (sd_of_bools bits) i = Some (length (filter (fun x => x) (firstn p bits))) /\
  sd_predecessor_rank_circular (sd_of_bools bits) i = Some (length (filter (fun x => x) (firstn p bits))).
Proof.
  intros Hi Hp Ht Hf. assert (Hne : bits <> []) by (intros ->; destruct p; discriminate).
  assert (EV : sd_of_bools bits = sd_full bits) by (destruct bits; [congruence|reflexivity]). rewrite EV.
  assert (ER : rankP idb bits i = S (rankP idb bits p)).
  { assert (G : forall m, S p + m <= i -> rankP idb bits (S p + m) = S (rankP idb bits p)).
    { induction m as [|m IH]; intros Hm.
      - rewrite Nat.add_0_r, (rankP_S _ _ _ _ Ht). cbn. lia.
      - rewrite Nat.add_succ_r, (rankP_S _ _ _ false) by (apply Hf; lia). rewrite IH by lia. cbn. lia. }
    replace i with (S p + (i - S p)) by lia. apply G. lia. }
  assert (E : sd_rank (sd_full bits) i = Some (S (rankP idb bits p))).
  { rewrite sd_full_rank by auto. unfold bv_rank. rewrite (proj2 (Nat.leb_le _ _)) by auto. rewrite ER. reflexivity. }
  unfold sd_predecessor, sd_predecessor_rank, sd_predecessor_rank_circular. rewrite E. cbn [bind Nat.ltb Nat.leb guard Nat.eqb].
  replace (S (rankP idb bits p) - 1) with (rankP idb bits p) by lia. split; [|split; reflexivity].
  rewrite sd_full_select. cbn [bv_select]. apply (select0_complete idb bits p true); auto.
Qed.
Lemma sdsp_predecessor_none bits i : bits <> [] -> i <= length bits ->
  (forall q, q < i -> nth_error bits q = Some false) ->
  sd_predecessor (sd_of_bools bits) i = None /\
  (0 < length (filter (fun x => x) bits) ->
   sd_predecessor_rank_circular (sd_of_bools bits) i = Some (length (filter (fun x => x) bits) - 1)).
Proof.
  intros Hne Hi Hf.
  assert (EV : sd_of_bools bits = sd_full bits) by (destruct bits; [congruence|reflexivity]). rewrite EV.
  assert (E : sd_rank (sd_full bits) i = Some 0).
  { rewrite sd_full_rank by auto. unfold bv_rank. rewrite (proj2 (Nat.leb_le _ _)) by auto. f_equal.
    assert (G : forall m, m <= i -> rankP idb bits m = 0).
    { induction m as [|m IH]; intros Hm; [reflexivity|].
      rewrite (rankP_S _ _ _ false) by (apply Hf; lia). rewrite IH by lia. reflexivity. }
    apply G. lia. }
  unfold sd_predecessor, sd_predecessor_rank_circular. rewrite E. cbn [bind Nat.ltb Nat.leb guard Nat.eqb].
  split; [reflexivity|]. intros Hc. rewrite sd_full_ones by auto. cbn [bind].
  change (count idb bits) with (length (filter (fun x => x) bits)).
  unfold sub64. rewrite (proj2 (Nat.leb_le 1 _)) by lia. reflexivity.
Qed.

Lemma sdsp_gap bits k p q : sd_select (sd_of_bools bits) k = Some p ->
  (k = 0 /\ q = 0 \/ exists k' q', k = S k' /\ sd_select (sd_of_bools bits) k' = Some q' /\ q = S q') ->
  sd_gap_at (sd_of_bools bits) k = Some (p + 1 - q).
Proof.
  intros Hp Hq. assert (Hne : bits <> []) by (intros ->; discriminate).
  assert (EV : sd_of_bools bits = sd_full bits) by (destruct bits; [congruence|reflexivity]). rewrite EV in *.
  unfold sd_gap_at. rewrite sd_full_ones by auto. cbn [bind].
  assert (Hlt : k < count idb bits).
  { unfold sd_select in Hp. rewrite sd_full_ones in Hp by auto. cbn [bind] in Hp.
    destruct (Nat.ltb_spec k (count idb bits)); auto. discriminate. }
  rewrite (proj2 (Nat.ltb_lt _ _)) by auto. cbn [guard bind].
  destruct Hq as [[-> ->]|[k' [q' [-> [Hq' ->]]]]].
  - cbn [Nat.eqb]. rewrite Hp. cbn [bind]. f_equal. lia.
  - cbn [Nat.eqb]. rewrite Hp. cbn [bind]. replace (S k' - 1) with k' by lia. rewrite Hq'. cbn [bind]. f_equal. lia.
Qed.

Lemma sdsp_bit_vector bits : bits <> [] ->
  sd_size (sd_of_bit_vector bits) = 0 /\ sd_ones (sd_of_bit_vector bits) = Some 0 /\
  sd_assign (sd_of_bit_vector bits) = sd_of_bools bits.
Proof. intros H. destruct bits as [|x bits]; [congruence|]. repeat split. Qed.

Lemma obj_assign_independent h h' dst src bits : bits <> [] -> dst <> src ->
  h src = Some (mk_sdobj (sd_of_bools bits) (Some src)) -> obj_assign h dst src = Some h' ->
  forall i, i <= length bits ->
  obj_rank (obj_destroy h' src) dst i = Some (length (filter (fun x => x) (firstn i bits))).
Proof.
  intros Hne Hd Hs Ha i Hi. unfold obj_assign in Ha. destruct (h dst); [|discriminate]. cbn [bind] in Ha.
  rewrite Hs in Ha. cbn [bind so_val] in Ha. injection Ha as <-.
  unfold obj_rank, obj_destroy, heap_set. rewrite (proj2 (Nat.eqb_neq dst src)) by auto.
  rewrite Nat.eqb_refl. cbn [bind so_val so_ptr]. rewrite (proj2 (Nat.eqb_neq dst src)) by auto.
  rewrite Nat.eqb_refl. cbn [bind so_val so_ptr]. rewrite sd_assign_of_bools.
  rewrite <- (proj1 (proj2 (proj2 (sdsp_ops bits Hne))) i Hi). unfold sd_rank.
  replace (sd_of_bools bits) with (sd_full bits) by (destruct bits; [congruence|reflexivity]).
  destruct (guard _); reflexivity.
Qed.

Lemma obj_copy_dangles h h' dst src v : dst <> src ->
  h src = Some (mk_sdobj v (Some src)) -> obj_copy h dst src = Some h' ->
  forall i, obj_rank (obj_destroy h' src) dst i = None.
Proof.
  intros Hd Hs Ha i. unfold obj_copy in Ha. rewrite Hs in Ha. cbn [bind so_val so_ptr] in Ha. injection Ha as <-.
  unfold obj_rank, obj_destroy, heap_set. rewrite (proj2 (Nat.eqb_neq dst src)) by auto.
  rewrite Nat.eqb_refl. cbn [bind so_val so_ptr]. rewrite Nat.eqb_refl. destruct (guard _); reflexivity.
Qed.
