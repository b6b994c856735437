(** RLEString in the vocabulary of Spec.v. *)
From Coq Require Import List Arith Bool Lia ZifyBool ZifyNat Sorted.
From Verif Require Import Spec MBase Lists Runs MRle RleProof.
Import ListNotations.

Lemma occ_rankP c l i : occ c l i = rankP (Nat.eqb c) l i.
Proof.
  unfold occ, rankP. generalize (firstn i l) as q. induction q as [|a q IH]; [reflexivity|].
  cbn [count_occ filter]. destruct (Nat.eq_dec a c) as [->|Hn].
  - rewrite Nat.eqb_refl. cbn [length]. congruence.
  - rewrite (proj2 (Nat.eqb_neq c a)) by auto. exact IH.
Qed.

Lemma runs_before_headb l i : runs_before l i = count (headb l) (seq 0 i).
Proof. reflexivity. Qed.

Lemma runs_before_expand R j : wf_runs R -> j <= length R -> runs_before (expand R) (rstart R j) = j.
Proof.
  intros HR Hj. rewrite runs_before_headb. unfold count. rewrite heads_upto by auto.
  rewrite map_length, seq_length. reflexivity.
Qed.

Lemma runs_of_before_filter c l i :
  runs_of_before c l i = count (fun k => nth k l 0 =? c) (filter (headb l) (seq 0 i)).
Proof.
  unfold runs_of_before, count. induction (seq 0 i) as [|a q IH]; [reflexivity|].
  cbn [filter]. unfold headb in IH |- *. destruct ((a =? 0) || negb (nth (a - 1) l 0 =? nth a l 0)).
  - rewrite andb_true_r. cbn [filter]. destruct (nth a l 0 =? c); cbn [length]; congruence.
  - rewrite andb_false_r. exact IH.
Qed.

Lemma runs_of_before_expand c R j : wf_runs R -> j <= length R ->
  runs_of_before c (expand R) (rstart R j) = cruns c R j.
Proof.
  intros HR Hj. rewrite runs_of_before_filter, heads_upto, count_map by auto.
  unfold cruns. rewrite (rankP_seq _ _ 0) by (rewrite map_length; auto).
  apply count_ext_in. intros k Hk. apply in_seq in Hk.
  destruct (nth_error R k) as [[d m]|] eqn:E; [|apply nth_error_None in E; lia].
  pose proof (rstart_lt R HR k ltac:(lia)).
  rewrite (expand_nth_d R k d m) by (auto; lia).
  rewrite (nth_error_nth (map fst R) k 0 (x := d)) by (rewrite nth_error_map, E; reflexivity).
  apply Nat.eqb_sym.
Qed.

Lemma filter_none {A} (f : A -> bool) l : (forall x, In x l -> f x = false) -> filter f l = [].
Proof.
  induction l as [|a l IH]; intros H; [reflexivity|]. cbn. rewrite H by (left; auto).
  apply IH. intros; apply H; right; auto.
Qed.

Lemma heads_mid R j i : wf_runs R -> j < length R -> rstart R j <= i < rstart R (S j) ->
  filter (headb (expand R)) (seq 0 (S i)) = filter (headb (expand R)) (seq 0 (rstart R (S j))).
Proof.
  intros HR Hj Hi. replace (rstart R (S j)) with (S i + (rstart R (S j) - S i)) by lia.
  rewrite (seq_app (S i)), filter_app. rewrite (filter_none _ (seq (0 + S i) _)); [rewrite app_nil_r; reflexivity|].
  intros x Hx. apply in_seq in Hx. rewrite (headb_expand R j) by (auto; lia). apply Nat.eqb_neq. lia.
Qed.

Lemma runs_of_before_mid c R j i : wf_runs R -> j < length R -> rstart R j <= i < rstart R (S j) ->
  runs_of_before c (expand R) (S i) = cruns c R (S j).
Proof.
  intros HR Hj Hi. rewrite <- (runs_of_before_expand c R (S j)) by (auto; lia).
  rewrite !runs_of_before_filter. rewrite (heads_mid R j) by auto. reflexivity.
Qed.

Lemma maximal_run_unique l s e c s' e' c' i :
  maximal_run l s e c -> maximal_run l s' e' c' -> s <= i < e -> s' <= i < e' -> s = s' /\ e = e' /\ c = c'.
Proof.
  assert (Aux : forall s e c s' e' c' i, maximal_run l s e c -> maximal_run l s' e' c' ->
    s <= i < e -> s' <= i < e' -> c = c' /\ s <= s' /\ e' <= e).
  { clear. intros s e c s' e' c' i [A1 [A2 [A3 A4]]] [B1 [B2 [B3 B4]]] Hi Hi'.
    assert (c = c') by (pose proof (A2 i Hi); pose proof (B2 i Hi'); congruence). subst c'.
    split; [reflexivity|]. split.
    - destruct (le_dec s s'); auto. exfalso. destruct A3 as [->|A3]; [lia|].
      apply A3. apply B2. lia.
    - destruct (le_dec e' e); auto. exfalso. apply A4. apply B2. lia. }
  intros H H' Hi Hi'. destruct (Aux _ _ _ _ _ _ _ H H' Hi Hi') as [E [E1 E2]].
  destruct (Aux _ _ _ _ _ _ _ H' H Hi' Hi) as [_ [E3 E4]]. repeat split; auto; lia.
Qed.

Lemma maximal_run_expand R s e c : wf_runs R -> maximal_run (expand R) s e c ->
  exists j k, nth_error R j = Some (c, k) /\ s = rstart R j /\ e = rstart R (S j).
Proof.
  intros HR H. destruct H as [Hse H'] eqn:E. clear E.
  destruct (run_find R s ltac:(lia)) as [j [Hj Hs]].
  destruct (nth_error R j) as [[d k]|] eqn:E; [|apply nth_error_None in E; lia].
  destruct (maximal_run_unique _ _ _ _ _ _ _ s H (expand_maximal_run R j d k HR E)) as [-> [-> ->]]; try lia.
  exists j, k. auto.
Qed.

Section RleSpec.
  Variables (b : nat) (l : list nat) (s : rlestr).
  Hypothesis HC : rle_construct b l = Some s.

  Lemma construct_inv : exists R, rle_repr b (max_symbol l) R s /\ expand R = l.
  Proof.
    assert (l <> []) by (intros ->; discriminate).
    assert (0 < b).
    { destruct l; [congruence|]. unfold rle_construct, guard in HC.
      destruct (Nat.ltb_spec 0 b); auto. discriminate. }
    destruct (rle_construct_repr b l) as [s' [R [E [HR HE]]]]; auto.
    rewrite HC in E. injection E as <-. eauto.
  Qed.

  Lemma rle_size_ok : rle_size s = length l.
  Proof. destruct construct_inv as [R [HR <-]]. eapply repr_size; eauto. Qed.

  Lemma rle_access_ok i : i < length l -> rle_access s i = nth_error l i.
  Proof. destruct construct_inv as [R [HR <-]]. eapply repr_access; eauto. Qed.

  Lemma rle_rank_ok i c : i <= length l -> c <= list_max_symbol l -> rle_rank s i c = Some (occ c l i).
  Proof.
    destruct construct_inv as [R [HR E]]. rewrite occ_rankP. intros Hi Hc.
    rewrite <- E in Hi |- *. eapply repr_rank; eauto.
  Qed.

  Lemma rle_rank_beyond i c : list_max_symbol l < c -> rle_rank s i c = None.
  Proof.
    destruct construct_inv as [R [HR E]]. intros Hc. unfold rle_rank.
    rewrite (rp_rps _ _ _ _ HR). destruct (Nat.leb_spec c (max_symbol l)); [|reflexivity].
    change (list_max_symbol l) with (max_symbol l) in Hc. lia.
  Qed.

  Lemma occ_pos_max c i : 0 < occ c l i -> c <= list_max_symbol l.
  Proof.
    rewrite occ_rankP. intros H. destruct (select0_total (Nat.eqb c) l 0) as [p Hp].
    { pose proof (rankP_le_count (Nat.eqb c) l i). lia. }
    apply select0_spec in Hp. destruct Hp as [[x [Hx Ex]] _]. apply Nat.eqb_eq in Ex. subst x.
    apply nth_error_In in Hx. apply (max_symbol_ge _ _ Hx).
  Qed.

  Lemma rle_select_ok k c : 1 <= k <= occ c l (length l) ->
    exists p, rle_select s k c = Some p /\ nth_error l p = Some c /\ occ c l p = k - 1.
  Proof.
    intros Hk. assert (Hc : c <= list_max_symbol l) by (eapply occ_pos_max with (i := length l); lia).
    rewrite occ_rankP, rankP_all in Hk by lia.
    destruct (select0_total (Nat.eqb c) l (k - 1) ltac:(lia)) as [p Hp]. exists p.
    destruct construct_inv as [R [HR E]]. rewrite (repr_select _ _ _ _ HR k c) by (try rewrite E; auto).
    rewrite E. split; auto. destruct (select0_spec _ _ _ _ Hp) as [[x [Hx Ex]] Hr].
    apply Nat.eqb_eq in Ex. subst x. rewrite occ_rankP. auto.
  Qed.

  Lemma rle_select_rank k c p : 1 <= k <= occ c l (length l) -> rle_select s k c = Some p ->
    rle_rank s p c = Some (k - 1) /\ rle_rank s (S p) c = Some k.
  Proof.
    intros Hk Hp. destruct (rle_select_ok k c Hk) as [q [Hq [H1 H2]]].
    rewrite Hp in Hq. injection Hq as <-. apply nth_error_Some_lt in H1 as Hlt.
    assert (Hc : c <= list_max_symbol l) by (eapply occ_pos_max with (i := length l); lia).
    rewrite !rle_rank_ok by (auto; lia). rewrite H2. split; auto. f_equal.
    rewrite !occ_rankP in *. rewrite (rankP_S _ _ _ _ H1), Nat.eqb_refl. lia.
  Qed.

  Lemma rle_rank_report_c_ok i c : i < length l -> c <= list_max_symbol l ->
    rle_rank_report_c s i c = Some (occ c l i, runs_of_before c l (S i), nth i l 0 =? c).
  Proof.
    destruct construct_inv as [R [HR E]]. intros Hi Hc. rewrite occ_rankP.
    pose proof (rp_wf _ _ _ _ HR) as HW.
    destruct (Nat.eq_dec (count (Nat.eqb c) l) 0) as [E0|E0].
    - rewrite (repr_rank_report_c_absent _ _ _ _ HR) by (try rewrite E; auto).
      pose proof (rankP_le_count (Nat.eqb c) l i).
      assert (Hno : forall k, k < length l -> (nth k l 0 =? c) = false).
      { intros k Hk. apply Nat.eqb_neq. intros Ek.
        pose proof (nth_error_nth_lt l k 0 Hk) as Hn. rewrite Ek in Hn.
        pose proof (rankP_lt_step (Nat.eqb c) l k (length l) c Hn (Nat.eqb_refl c) Hk).
        rewrite (rankP_all _ l (length l)) in H0 by lia. lia. }
      rewrite Hno by auto. replace (rankP (Nat.eqb c) l i) with 0 by lia. do 3 f_equal.
      unfold runs_of_before. rewrite filter_none; [reflexivity|].
      intros x Hx. apply in_seq in Hx. rewrite Hno by lia. reflexivity.
    - destruct (run_at R i) as [j [d [k [ER Hj]]]]; [rewrite E; auto|].
      rewrite (repr_rank_report_c _ _ _ _ HR i j d k) by (try rewrite E; auto; lia).
      apply nth_error_Some_lt in ER as Hlt. rewrite E.
      rewrite <- (runs_of_before_mid c R j i) by auto. rewrite E.
      rewrite <- E, (expand_nth_d R j d k) by auto. rewrite (Nat.eqb_sym d c). reflexivity.
  Qed.

  Lemma rle_rank_report_c_end_ok c : c <= list_max_symbol l ->
    rle_rank_report_c s (length l) c = Some (occ c l (length l), runs_of_before c l (length l), false).
  Proof.
    destruct construct_inv as [R [HR E]]. intros Hc. pose proof (rp_wf _ _ _ _ HR) as HW.
    rewrite <- E at 1. rewrite (repr_rank_report_c_end _ _ _ _ HR) by auto.
    rewrite occ_rankP, rankP_all by lia. rewrite <- E.
    rewrite <- rstart_all at 1. rewrite runs_of_before_expand by auto.
    unfold cruns. rewrite rankP_all by (rewrite map_length; lia). rewrite clens_length. reflexivity.
  Qed.

  Lemma rle_rank_report_ok i : i < length l ->
    exists st e c, maximal_run l st e c /\ st <= i < e /\
      rle_rank_report s i = Some (mk_rank_report (occ c l i) c (runs_before l st) st e (runs_of_before c l st)).
  Proof.
    destruct construct_inv as [R [HR E]]. intros Hi. pose proof (rp_wf _ _ _ _ HR) as HW.
    destruct (run_at R i) as [j [d [k [ER Hj]]]]; [rewrite E; auto|].
    apply nth_error_Some_lt in ER as Hlt.
    exists (rstart R j), (rstart R (S j)), d. rewrite (repr_rank_report _ _ _ _ HR i j d k) by auto.
    split; [rewrite <- E; eapply expand_maximal_run; eauto|]. split; auto.
    rewrite <- E, occ_rankP, runs_before_expand, runs_of_before_expand by (auto; lia). reflexivity.
  Qed.

  Lemma rle_select_on_runs_ok k c : 1 <= k <= runs_of_before c l (length l) ->
    exists st e, maximal_run l st e c /\ runs_of_before c l st = k - 1 /\
      rle_select_on_runs s k c = Some (runs_before l st).
  Proof.
    destruct construct_inv as [R [HR E]]. pose proof (rp_wf _ _ _ _ HR) as HW. intros Hk.
    rewrite <- E in Hk. rewrite <- rstart_all in Hk. rewrite runs_of_before_expand in Hk by auto.
    unfold cruns in Hk. rewrite rankP_all in Hk by (rewrite map_length; lia).
    destruct (select0_total (Nat.eqb c) (map fst R) (k - 1) ltac:(lia)) as [j Hj].
    destruct (select0_spec _ _ _ _ Hj) as [[x [Hx Ex]] Hr]. apply Nat.eqb_eq in Ex. subst x.
    rewrite nth_error_map in Hx. destruct (nth_error R j) as [[c' m]|] eqn:ER; [|discriminate].
    cbn in Hx. injection Hx as ->. apply nth_error_Some_lt in ER as Hlt.
    exists (rstart R j), (rstart R (S j)). rewrite <- E.
    split; [eapply expand_maximal_run; eauto|].
    rewrite runs_of_before_expand, runs_before_expand by (auto; lia). split; [exact Hr|].
    rewrite <- (repr_select_on_runs _ _ _ _ HR j c m ER). f_equal.
    unfold cruns. rewrite Hr. lia.
  Qed.

  Lemma rle_split_ok first last : first < last -> last <= length l ->
    exists rs, rle_split_in_runs s first last = Some rs /\
      StronglySorted (fun a b => rd_end a <= rd_start b) rs /\
      (forall st e c, (exists k, In (mk_rundata k c st e) rs) <->
                      maximal_run l st e c /\ st < last /\ first < e) /\
      (forall r, In r rs -> rd_rnk r = runs_before l (rd_start r)).
  Proof.
    destruct construct_inv as [R [HR E]]. pose proof (rp_wf _ _ _ _ HR) as HW. intros H1 H2.
    destruct (run_find R first) as [j [Hj Hf]]; [rewrite E; lia|].
    destruct (repr_split_in_runs _ _ _ _ HR first last j) as [j' [Hj' [Hl Hs]]]; try (rewrite ?E; auto).
    eexists. split; [exact Hs|]. split; [|split].
    - clear Hs. assert (G : forall m q, StronglySorted (fun a b => rd_end a <= rd_start b)
        (map (fun q => rdat R q (fst (nth q R (0, 0)))) (seq q m))).
      { induction m as [|m IH]; intros q; cbn [seq map]; constructor; auto.
        apply Forall_forall. intros x Hx. apply in_map_iff in Hx. destruct Hx as [p [<- Hp]].
        apply in_seq in Hp. cbn [rdat rd_end rd_start]. apply rstart_mono. lia. }
      apply G.
    - intros st e c. split.
      + intros [k Hin]. apply in_map_iff in Hin. destruct Hin as [q [Hq Hin]]. apply in_seq in Hin.
        unfold rdat in Hq. injection Hq as <- Hc <- <-.
        destruct (nth_error R q) as [[d m]|] eqn:ER; [|apply nth_error_None in ER; lia].
        rewrite (nth_error_nth _ _ _ ER) in Hc. cbn in Hc. subst d.
        split; [rewrite <- E; eapply expand_maximal_run; eauto|].
        pose proof (rstart_mono R q j' ltac:(lia)). pose proof (rstart_mono R (S j) (S q) ltac:(lia)). lia.
      + intros [Hm [Ha Hb]]. rewrite <- E in Hm. destruct (maximal_run_expand R st e c HW Hm) as [q [m [ER [-> ->]]]].
        exists q. apply in_map_iff. exists q. split.
        * unfold rdat. rewrite (nth_error_nth _ _ _ ER). reflexivity.
        * apply in_seq. apply nth_error_Some_lt in ER.
          assert (j <= q). { destruct (le_dec j q); auto. pose proof (rstart_mono R (S q) j ltac:(lia)). lia. }
          assert (q <= j'). { destruct (le_dec q j'); auto. pose proof (rstart_mono R (S j') q ltac:(lia)). lia. }
          lia.
    - intros r Hr. apply in_map_iff in Hr. destruct Hr as [q [<- Hin]]. apply in_seq in Hin.
      cbn [rdat rd_rnk rd_start]. rewrite <- E, runs_before_expand by (auto; lia). reflexivity.
  Qed.
End RleSpec.

Lemma rle_construct_total b l : 0 < b -> l <> [] -> exists s, rle_construct b l = Some s.
Proof. intros Hb Hl. destruct (rle_construct_repr b l Hb Hl) as [s [R [E _]]]. eauto. Qed.
