(** RLEString answers every query as the plain sequence it was built from. *)
From Coq Require Import List Arith Bool Lia ZifyBool ZifyNat.
From Verif Require Import Spec MBase Lists Runs MRle.
Import ListNotations.

Definition blockf (b k : nat) : bool := k mod b =? b - 1.

Lemma blockf_count b j : 0 < b -> count (blockf b) (seq 0 j) = j / b.
Proof.
  intros Hb. induction j as [|j IH].
  - rewrite Nat.div_small by lia. reflexivity.
  - rewrite seq_S, count_app, IH. cbn [Nat.add]. unfold count, blockf. cbn [filter].
    pose proof (Nat.div_mod j b ltac:(lia)) as E. pose proof (Nat.mod_upper_bound j b ltac:(lia)).
    destruct (Nat.eqb_spec (j mod b) (b - 1)) as [Hm|Hm]; cbn [length].
    + replace (S j) with (0 + (j / b + 1) * b) by lia. rewrite Nat.div_add by lia. rewrite (Nat.div_small 0) by lia. lia.
    + replace (S j) with (S (j mod b) + (j / b) * b) by lia. rewrite Nat.div_add by lia.
      rewrite (Nat.div_small (S (j mod b))) by lia. lia.
Qed.

Lemma gbits_ext f g L : forall k, (forall j, k <= j < k + length L -> f j = g j) -> gbits f k L = gbits g k L.
Proof.
  induction L as [|a L IH]; intros k H; [reflexivity|]. cbn [gbits].
  rewrite (H k) by (cbn [length]; lia). rewrite (IH (S k)); auto.
  intros j Hj. apply H. cbn [length]. lia.
Qed.

(** What the fields of the structure contain, for a decomposition [R] of the sequence. *)
Record rle_repr (b M : nat) (R : list (nat * nat)) (s : rlestr) : Prop := {
  rp_b : 0 < b;
  rp_wf : wf_runs R;
  rp_ne : R <> [];
  rp_M : forall c, In c (map fst R) -> c <= M;
  rp_r : rl_r s = length R;
  rp_sb : rl_b s = b;
  rp_heads : rl_heads s = map fst R;
  rp_runs : rl_runs s = gbits (fun k => blockf b k && (S k <? length R)) 0 (lens R);
  rp_rps : forall c, nth_error (rl_rps s) c = if c <=? M then Some (ubits (clens c R)) else None
}.

Lemma max_symbol_ge l c : In c l -> c <= max_symbol l.
Proof.
  unfold max_symbol. induction l as [|a l IH]; intros H; [destruct H|].
  cbn [fold_right]. destruct H as [->|H]; [lia|]. specialize (IH H). lia.
Qed.

Lemma lens_app R1 R2 : lens (R1 ++ R2) = lens R1 ++ lens R2.
Proof. apply map_app. Qed.
Lemma clens_app c R1 R2 : clens c (R1 ++ R2) = clens c R1 ++ clens c R2.
Proof. unfold clens. rewrite filter_app. apply map_app. Qed.

Lemma clens_single c d k : clens c [(d, k)] = if c =? d then [k] else [].
Proof. unfold clens. cbn. destruct (c =? d); reflexivity. Qed.

Lemma repeat_snoc {A} (x : A) k : repeat x k ++ [x] = repeat x (S k).
Proof. induction k as [|k IH]; cbn; auto. rewrite IH. reflexivity. Qed.

Lemma gbits_indep (f : nat -> bool) L k k' : (forall i j, f i = f j) -> gbits f k L = gbits f k' L.
Proof.
  intros Hf. revert k k'. induction L as [|a L IH]; intros k k'; cbn [gbits]; [reflexivity|].
  rewrite (IH (S k) (S k')), (Hf k k'). reflexivity.
Qed.

Lemma ubits_app L1 L2 : ubits (L1 ++ L2) = ubits L1 ++ ubits L2.
Proof.
  unfold ubits. rewrite gbits_app. rewrite (gbits_indep _ L2 _ 0); auto.
Qed.

Lemma ubits_single k : ubits [k] = repeat false (k - 1) ++ [true].
Proof. reflexivity. Qed.

Record build_inv (b : nat) (Q : list (nat * nat)) (k : nat) (st : rle_build) : Prop := {
  bi_k : 0 < k;
  bi_wf : wf_runs (Q ++ [(rb_symbol st, k)]);
  bi_heads : rb_heads st = map fst Q;
  bi_map : forall c, rb_map st c = ubits (clens c Q) ++ (if c =? rb_symbol st then repeat false (k - 1) else []);
  bi_runs : rb_runs st = gbits (blockf b) 0 (lens Q) ++ repeat false (k - 1);
  bi_r : rb_r st = length Q
}.

Lemma wf_runs_snoc Q a k c : wf_runs (Q ++ [(a, k)]) -> a <> c -> wf_runs ((Q ++ [(a, k)]) ++ [(c, 1)]).
Proof.
  intros [H1 H2] Hac. split.
  - rewrite lens_app. apply Forall_app. split; auto. repeat constructor.
  - intros j x y Hx Hy.
    destruct (lt_dec (S j) (length (Q ++ [(a, k)]))) as [Hj|Hj].
    + rewrite nth_error_app1 in Hx, Hy by lia. eapply H2; eauto.
    + assert (Hl : S j < length ((Q ++ [(a, k)]) ++ [(c, 1)])) by (eapply nth_error_Some_lt; eauto).
      rewrite !app_length in Hl. rewrite !app_length in Hj. cbn [length] in *.
      assert (j = length Q) by lia. subst j.
      rewrite nth_error_app1 in Hx by (rewrite app_length; cbn; lia).
      rewrite nth_error_app2, Nat.sub_diag in Hx by lia.
      rewrite nth_error_app2 in Hy by (rewrite app_length; cbn; lia).
      rewrite app_length in Hy. cbn [length] in Hy. replace (S (length Q) - (length Q + 1)) with 0 in Hy by lia.
      cbn in Hx, Hy. injection Hx as <-. injection Hy as <-. exact Hac.
Qed.

Lemma wf_runs_grow Q a k : wf_runs (Q ++ [(a, k)]) -> wf_runs (Q ++ [(a, S k)]).
Proof.
  intros [H1 H2]. split.
  - rewrite lens_app in *. apply Forall_app in H1 as [H1 _]. apply Forall_app. split; auto. constructor; [cbn; lia|constructor].
  - assert (E : forall j x, nth_error (Q ++ [(a, S k)]) j = Some x ->
       exists y, nth_error (Q ++ [(a, k)]) j = Some y /\ fst y = fst x).
    { intros j x H. destruct (lt_dec j (length Q)) as [Hj|Hj].
      - rewrite nth_error_app1 in * by lia. eauto.
      - rewrite nth_error_app2 in * by lia. destruct (j - length Q) as [|[|m]]; cbn in *; try discriminate.
        injection H as <-. eauto. }
    intros j x y Hx Hy. destruct (E _ _ Hx) as [x' [Hx' <-]]. destruct (E _ _ Hy) as [y' [Hy' <-]]. eauto.
Qed.

Lemma build_step_inv b Q k st c : build_inv b Q k st ->
  exists Q' k', build_inv b Q' k' (rle_build_step b st c) /\
    expand Q' ++ repeat (rb_symbol (rle_build_step b st c)) k' = (expand Q ++ repeat (rb_symbol st) k) ++ [c].
Proof.
  intros [Hk Hwf Hh Hm Hr Hrr]. unfold rle_build_step.
  destruct (Nat.eqb_spec (rb_symbol st) c) as [Ec|Hn]; cbn [negb]; [rewrite Ec in *|].
  - exists Q, (S k). split; [|cbn [rb_symbol]; rewrite <- app_assoc, repeat_snoc; reflexivity].
    split; cbn [rb_symbol rb_heads rb_map rb_runs rb_r]; [lia|apply wf_runs_grow; auto|auto| | |auto].
    + intros d. unfold symmap_push. rewrite Hm. destruct (d =? c); auto.
      rewrite <- app_assoc, repeat_snoc. repeat f_equal. lia.
    + rewrite Hr, <- app_assoc, repeat_snoc. repeat f_equal. lia.
  - exists (Q ++ [(rb_symbol st, k)]), 1. split.
    + split; cbn [rb_symbol rb_heads rb_map rb_runs rb_r]; auto.
      * apply wf_runs_snoc; auto.
      * rewrite Hh, map_app. reflexivity.
      * intros d. unfold symmap_push. rewrite Hm, clens_app, ubits_app, clens_single.
        change (repeat false (1 - 1)) with (@nil bool).
        destruct (d =? rb_symbol st) eqn:E.
        -- rewrite ubits_single, <- app_assoc. destruct (d =? c); rewrite app_nil_r; reflexivity.
        -- unfold ubits at 3. cbn [gbits]. destruct (d =? c); rewrite !app_nil_r; reflexivity.
      * rewrite Hr, Hrr, lens_app, gbits_app. cbn [lens map snd gbits]. change (repeat false (1 - 1)) with (@nil bool).
        rewrite app_nil_r, <- app_assoc. unfold lens. rewrite map_length. reflexivity.
      * rewrite Hrr, app_length. cbn. lia.
    + cbn [rb_symbol]. rewrite expand_app. cbn [expand flat_map fst snd repeat]. rewrite app_nil_r. reflexivity.
Qed.

Lemma build_fold_inv b l : forall Q k st, build_inv b Q k st ->
  exists Q' k', build_inv b Q' k' (fold_left (rle_build_step b) l st) /\
    expand Q' ++ repeat (rb_symbol (fold_left (rle_build_step b) l st)) k'
    = (expand Q ++ repeat (rb_symbol st) k) ++ l.
Proof.
  induction l as [|c l IH]; intros Q k st H; cbn [fold_left].
  - exists Q, k. rewrite app_nil_r. auto.
  - destruct (build_step_inv b Q k st c H) as [Q1 [k1 [H1 E1]]].
    destruct (IH _ _ _ H1) as [Q2 [k2 [H2 E2]]]. exists Q2, k2. split; auto.
    rewrite E2, E1, <- app_assoc. reflexivity.
Qed.

Theorem rle_construct_repr b l : 0 < b -> l <> [] ->
  exists s R, rle_construct b l = Some s /\ rle_repr b (max_symbol l) R s /\ expand R = l.
Proof.
  intros Hb Hl. destruct l as [|c l]; [congruence|]. clear Hl.
  unfold rle_construct. unfold guard. destruct (Nat.ltb_spec 0 b); [|lia]. cbn [bind].
  set (st := fold_left _ _ _).
  destruct (build_fold_inv b l [] 1 (mk_rle_build c [] (fun _ => []) [] 0)) as [Q [k [HI HE]]].
  { split; cbn; auto; [|intros d; destruct (d =? c); reflexivity].
    split; [repeat constructor|]. intros [|[|j]] x y H1 H2; discriminate. }
  fold st in HI, HE. cbn [expand flat_map repeat app rb_symbol] in HE.
  destruct HI as [Hk Hwf Hh Hm Hr Hrr].
  eexists _, (Q ++ [(rb_symbol st, k)]). split; [reflexivity|].
  assert (EX : expand (Q ++ [(rb_symbol st, k)]) = c :: l).
  { rewrite expand_app. cbn [expand flat_map fst snd]. rewrite app_nil_r. exact HE. }
  split; [|exact EX].
  split; cbn [rl_r rl_b rl_heads rl_runs rl_rps]; auto.
  - destruct Q; discriminate.
  - intros d Hd. apply max_symbol_ge. rewrite <- EX.
    apply in_map_iff in Hd. destruct Hd as [[e m] [<- Hin]]. cbn [fst].
    unfold expand. apply in_flat_map. exists (e, m). split; auto. cbn [fst snd].
    destruct Hwf as [HP _]. unfold allpos in HP. rewrite Forall_forall in HP.
    assert (0 < m) by (apply (HP m); apply (in_map snd) in Hin; exact Hin).
    destruct m; [lia|]. left. reflexivity.
  - rewrite Hrr, app_length. cbn. lia.
  - rewrite Hh, map_app. reflexivity.
  - rewrite Hr, lens_app, gbits_app. cbn [lens map snd gbits]. rewrite <- app_assoc.
    rewrite app_length. cbn [length].
    f_equal.
    + apply gbits_ext. intros j Hj. unfold lens in Hj. rewrite map_length in Hj.
      rewrite (proj2 (Nat.ltb_lt (S j) (length Q + 1))) by lia. rewrite andb_true_r. reflexivity.
    + f_equal. f_equal. unfold lens. rewrite map_length.
      rewrite (proj2 (Nat.ltb_ge _ _)) by lia. rewrite andb_false_r. reflexivity.
  - intros d. destruct (Nat.leb_spec d (max_symbol (c :: l))) as [Hd|Hd].
    + rewrite nth_error_map, (nth_error_nth_lt _ d 0) by (rewrite seq_length; lia).
      rewrite seq_nth by lia. cbn [option_map Nat.add]. f_equal.
      unfold symmap_push. rewrite Hm, clens_app, ubits_app, clens_single.
      destruct (d =? rb_symbol st); [rewrite ubits_single, <- app_assoc; reflexivity|].
      rewrite !app_nil_r. reflexivity.
    + apply nth_error_None. rewrite map_length, seq_length. lia.
Qed.

Section Ops.
  Variables (b M : nat) (R : list (nat * nat)) (s : rlestr).
  Hypothesis HS : rle_repr b M R s.

  Let l := expand R.
  Let HW : wf_runs R := rp_wf _ _ _ _ HS.

  Lemma repr_size : rle_size s = length l.
  Proof.
    unfold rle_size. rewrite (rp_runs _ _ _ _ HS), gbits_length by apply lens_pos, HW.
    symmetry. apply expand_length.
  Qed.

  Lemma repr_rps j c k : nth_error R j = Some (c, k) -> nth_error (rl_rps s) c = Some (ubits (clens c R)).
  Proof.
    intros H. rewrite (rp_rps _ _ _ _ HS). destruct (Nat.leb_spec c M); auto.
    assert (c <= M); [|lia]. apply (rp_M _ _ _ _ HS). apply nth_error_In in H. apply (in_map fst) in H. exact H.
  Qed.

  (** The data of run [j]. *)
  Definition rdat (j c : nat) : rundata := mk_rundata j c (rstart R j) (rstart R (S j)).
  Definition sdat (j c : nat) : rundata := mk_rundata (cruns c R j) c (csum c R j) (csum c R (S j)).

  Lemma repr_symbol_run_data j c k : nth_error R j = Some (c, k) ->
    rle_symbol_run_data s j = Some (sdat j c).
  Proof.
    intros H. unfold rle_symbol_run_data, wt_inverse_select. rewrite (rp_heads _ _ _ _ HS).
    rewrite nth_error_map, H. cbn [option_map fst bind]. rewrite (repr_rps _ _ _ H). cbn [bind].
    change (rankP (Nat.eqb c) (map fst R) j) with (cruns c R j).
    assert (HP : allpos (clens c R)) by (apply clens_pos, HW).
    rewrite ubits_start by (auto; apply cruns_le). cbn [bind].
    pose proof (cruns_lt R j c k H) as Hlt.
    destruct (ubits_bv_select (clens c R) (cruns c R j + 1) HP ltac:(lia)) as [p [-> Hp]].
    cbn [bind]. rewrite Hp. unfold sdat. do 2 f_equal.
    - apply csum_psum.
    - rewrite <- (csum_psum c R (S j)), (cruns_S R j c c k H), Nat.eqb_refl. reflexivity.
  Qed.

  Lemma csum_step j c k : nth_error R j = Some (c, k) -> csum c R (S j) - csum c R j = rstart R (S j) - rstart R j.
  Proof. intros H. rewrite (csum_S R c _ _ _ H), (rstart_S R _ _ _ H), Nat.eqb_refl. lia. Qed.

  Lemma repr_both_run_data j c k : nth_error R j = Some (c, k) ->
    rle_both_run_data s j (rstart R j) = Some (rdat j c, sdat j c).
  Proof.
    intros H. unfold rle_both_run_data. rewrite (repr_symbol_run_data _ _ _ H). cbn [bind rd_c rd_end rd_start sdat].
    rewrite (csum_step _ _ _ H). pose proof (rstart_mono R j (S j) ltac:(lia)).
    unfold rdat. repeat f_equal. lia.
  Qed.

  Lemma repr_run_data j c k : nth_error R j = Some (c, k) ->
    rle_run_data s j (rstart R j) = Some (rdat j c).
  Proof.
    intros H. unfold rle_run_data. rewrite (repr_symbol_run_data _ _ _ H). cbn [bind rd_c rd_end rd_start sdat].
    rewrite (csum_step _ _ _ H). pose proof (rstart_mono R j (S j) ltac:(lia)).
    unfold rdat. repeat f_equal. lia.
  Qed.

  Lemma repr_run_length j c k : nth_error R j = Some (c, k) -> rle_run_length s j = Some k.
  Proof.
    intros H. unfold rle_run_length. rewrite (repr_symbol_run_data _ _ _ H). cbn [bind rd_end rd_start sdat].
    rewrite (csum_S R c _ _ _ H), Nat.eqb_refl. f_equal. lia.
  Qed.

  Lemma run_some j : j < length R -> exists c k, nth_error R j = Some (c, k).
  Proof. intros H. destruct (nth_error R j) as [[c k]|] eqn:E; eauto. apply nth_error_None in E. lia. Qed.

  Lemma repr_advance i j c k : nth_error R j = Some (c, k) -> rstart R j <= i < rstart R (S j) ->
    forall fuel q d m, q <= j -> j - q <= fuel -> nth_error R q = Some (d, m) ->
    rle_advance fuel s i (rdat q d, sdat q d) = Some (rdat j c, sdat j c).
  Proof.
    intros Hj Hi fuel. induction fuel as [|f IH]; intros q d m Hq Hf Hd; cbn [rle_advance fst rdat rd_end rd_rnk].
    - assert (q = j) by lia. subst q. rewrite Hj in Hd. injection Hd as <- <-.
      destruct (Nat.leb_spec (rstart R (S j)) i); [lia|reflexivity].
    - destruct (Nat.eq_dec q j) as [->|Hn].
      + rewrite Hj in Hd. injection Hd as <- <-.
        destruct (Nat.leb_spec (rstart R (S j)) i); [lia|reflexivity].
      + pose proof (rstart_mono R (S q) j ltac:(lia)).
        destruct (Nat.leb_spec (rstart R (S q)) i); [|lia].
        apply nth_error_Some_lt in Hj as Hlt.
        destruct (run_some (S q) ltac:(lia)) as [d' [m' Hd']].
        rewrite Nat.add_1_r, (repr_both_run_data _ _ _ Hd'). cbn [bind].
        eapply IH; eauto; lia.
  Qed.

  Lemma block_count j : j < length R ->
    count (fun k => blockf b k && (S k <? length R)) (seq 0 j) = j / b.
  Proof.
    intros H. rewrite <- (blockf_count b j) by apply (rp_b _ _ _ _ HS). apply count_ext_in.
    intros x Hx. apply in_seq in Hx. rewrite (proj2 (Nat.ltb_lt _ _)) by lia. apply andb_true_r.
  Qed.

  Lemma repr_runs_rank i j : j < length R -> rstart R j <= i < rstart R (S j) ->
    bv_rank (rl_runs s) i = Some (j / b).
  Proof.
    intros Hj Hi. unfold bv_rank. rewrite (rp_runs _ _ _ _ HS).
    rewrite gbits_length by apply lens_pos, HW. pose proof (rstart_le R (S j)). rewrite expand_length in H.
    destruct (Nat.leb_spec i (list_sum (lens R))); [|lia]. f_equal.
    rewrite (gbits_rank _ _ _ j); auto; [apply block_count; auto|apply lens_pos, HW|rewrite lens_length; auto].
  Qed.

  Lemma repr_block_select q : 0 < q -> q * b < length R ->
    exists p, bv_select (rl_runs s) q = Some p /\ p + 1 = rstart R (q * b).
  Proof.
    intros Hq Hlt. pose proof (rp_b _ _ _ _ HS) as Hb. destruct q as [|q]; [lia|].
    cbn [bv_select]. rewrite (rp_runs _ _ _ _ HS).
    set (j := S q * b - 1). assert (Hj : j < length R) by lia.
    assert (E : j = b - 1 + q * b) by (unfold j; lia).
    pose proof (gbits_select (fun k => blockf b k && (S k <? length R)) (lens R) 0 j) as Hsel.
    rewrite block_count in Hsel by auto.
    rewrite E, Nat.div_add, Nat.div_small, <- E in Hsel by lia. cbn [Nat.add] in Hsel.
    rewrite Hsel.
    - eexists; split; [reflexivity|]. unfold rstart. replace (S q * b) with (S j) by lia.
      pose proof (rstart_lt R HW j Hj). unfold rstart in H. lia.
    - apply lens_pos, HW.
    - rewrite lens_length; auto.
    - unfold blockf. rewrite E, Nat.mod_add, Nat.mod_small, <- E by lia.
      rewrite Nat.eqb_refl. cbn [andb]. apply Nat.ltb_lt. lia.
  Qed.

  Lemma repr_rank_soft_both i j c k : nth_error R j = Some (c, k) -> rstart R j <= i < rstart R (S j) ->
    rle_rank_soft_both_run s i = Some (rdat j c, sdat j c).
  Proof.
    intros Hj Hi. apply nth_error_Some_lt in Hj as Hlt. pose proof (rp_b _ _ _ _ HS) as Hb.
    unfold rle_rank_soft_both_run. rewrite (repr_runs_rank i j) by auto. cbn [bind].
    rewrite (rp_sb _ _ _ _ HS).
    assert (E : j / b * b <= j) by (rewrite Nat.mul_comm; apply Nat.mul_div_le; lia).
    assert (Es : (if 0 <? j / b then p <- bv_select (rl_runs s) (j / b) ;; Some (p + 1) else Some 0)
                 = Some (rstart R (j / b * b))).
    { destruct (Nat.ltb_spec 0 (j / b)) as [Hp|Hp].
      - destruct (repr_block_select (j / b) Hp ltac:(lia)) as [p [-> <-]]. reflexivity.
      - apply Nat.le_0_r in Hp. rewrite Hp. reflexivity. }
    rewrite Es. cbn [bind].
    destruct (run_some (j / b * b) ltac:(lia)) as [d [m Hd]].
    rewrite (repr_both_run_data _ _ _ Hd). cbn [bind].
    eapply repr_advance; eauto.
    pose proof (Nat.div_mod j b ltac:(lia)). pose proof (Nat.mod_upper_bound j b ltac:(lia)). lia.
  Qed.

  Lemma repr_rank_soft i j c k : nth_error R j = Some (c, k) -> rstart R j <= i < rstart R (S j) ->
    rle_rank_soft_run s i = Some (rdat j c).
  Proof. intros. unfold rle_rank_soft_run. rewrite (repr_rank_soft_both i j c k) by auto. reflexivity. Qed.

  Lemma run_at i : i < length l -> exists j c k, nth_error R j = Some (c, k) /\ rstart R j <= i < rstart R (S j).
  Proof.
    intros H. destruct (run_find R i H) as [j [Hj Hi]]. destruct (run_some j Hj) as [c [k E]]. eauto.
  Qed.

  Theorem repr_access i : i < length l -> rle_access s i = nth_error l i.
  Proof.
    intros H. destruct (run_at i H) as [j [c [k [E Hi]]]].
    unfold rle_access. rewrite (repr_rank_soft i j c k) by auto. cbn [bind rdat rd_rnk].
    unfold wt_access. rewrite (rp_heads _ _ _ _ HS), nth_error_map, E. cbn [option_map fst].
    symmetry. eapply expand_nth; eauto.
  Qed.

  Lemma repr_c c : c <= M -> nth_error (rl_rps s) c = Some (ubits (clens c R)).
  Proof. intros H. rewrite (rp_rps _ _ _ _ HS), (proj2 (Nat.leb_le _ _)) by auto. reflexivity. Qed.

  Lemma clens_allpos c : allpos (clens c R).
  Proof. apply clens_pos, HW. Qed.

  Theorem repr_rank i c : i <= length l -> c <= M -> rle_rank s i c = Some (rankP (Nat.eqb c) l i).
  Proof.
    intros Hi Hc. unfold rle_rank. rewrite (repr_c c Hc). cbn [bind].
    rewrite ubits_length by apply clens_allpos. rewrite <- expand_count.
    destruct (Nat.eqb_spec (count (Nat.eqb c) (expand R)) 0) as [E0|E0].
    { f_equal. pose proof (rankP_le_count (Nat.eqb c) (expand R) i). unfold l. lia. }
    rewrite repr_size. destruct (Nat.eqb_spec i (length l)) as [->|Hn].
    { rewrite rankP_all by lia. reflexivity. }
    destruct (run_at i ltac:(lia)) as [j [d [k [E Hj]]]].
    rewrite (repr_rank_soft i j d k) by auto. cbn [bind rdat rd_rnk rd_c rd_start].
    unfold wt_rank. rewrite (rp_heads _ _ _ _ HS), map_length.
    apply nth_error_Some_lt in E as Hlt. destruct (Nat.leb_spec j (length R)); [|lia]. cbn [bind].
    change (rankP (Nat.eqb c) (map fst R) j) with (cruns c R j).
    rewrite ubits_start by (auto using clens_allpos; apply cruns_le). cbn [bind].
    rewrite csum_psum. unfold l. rewrite (expand_rank c R j d k) by (auto; lia).
    rewrite (Nat.eqb_sym d c). reflexivity.
  Qed.

  (** Number of runs of [c] that start before the run [j] / cover. *)
  Theorem repr_rank_report_c i j d k c : nth_error R j = Some (d, k) -> rstart R j <= i < rstart R (S j) ->
    c <= M -> 0 < count (Nat.eqb c) l ->
    rle_rank_report_c s i c = Some (rankP (Nat.eqb c) l i, cruns c R (S j), c =? d).
  Proof.
    intros Hj Hi Hc Hpos. unfold rle_rank_report_c. rewrite (repr_c c Hc). cbn [bind].
    rewrite ubits_length by apply clens_allpos. rewrite <- expand_count. fold l.
    destruct (Nat.eqb_spec (count (Nat.eqb c) l) 0); [lia|].
    pose proof (rstart_le R (S j)). fold l in H.
    rewrite repr_size. destruct (Nat.eqb_spec i (length l)); [lia|].
    rewrite (repr_rank_soft_both i j d k) by auto. cbn [bind rdat sdat rd_rnk rd_c rd_start].
    unfold wt_rank. rewrite (rp_heads _ _ _ _ HS), map_length.
    apply nth_error_Some_lt in Hj as Hlt. destruct (Nat.leb_spec j (length R)); [|lia].
    rewrite (cruns_S R j c d k Hj). unfold l. rewrite (expand_rank c R j d k) by (auto; lia).
    rewrite (Nat.eqb_sym d c). destruct (Nat.eqb_spec c d) as [->|Hn]; cbn [negb bind].
    - reflexivity.
    - change (rankP (Nat.eqb c) (map fst R) j) with (cruns c R j).
      rewrite ubits_start by (auto using clens_allpos; apply cruns_le). cbn [bind].
      rewrite csum_psum, !Nat.add_0_r. reflexivity.
  Qed.

  Theorem repr_rank_report_c_end c : c <= M ->
    rle_rank_report_c s (length l) c = Some (count (Nat.eqb c) l, length (clens c R), false).
  Proof.
    intros Hc. unfold rle_rank_report_c. rewrite (repr_c c Hc). cbn [bind].
    rewrite ubits_length by apply clens_allpos. rewrite <- expand_count. fold l.
    destruct (Nat.eqb_spec (count (Nat.eqb c) l) 0) as [E|E].
    - do 2 f_equal. rewrite E. f_equal. unfold l in E. rewrite expand_count in E.
      pose proof (clens_allpos c) as HP. destruct (clens c R) as [|x L]; [reflexivity|].
      inversion HP; subst. rewrite list_sum_cons in E. lia.
    - rewrite repr_size, Nat.eqb_refl. unfold bv_rank.
      rewrite ubits_length by apply clens_allpos. unfold l. rewrite ?expand_count.
      rewrite Nat.leb_refl. cbn [bind]. rewrite ubits_rank_all by apply clens_allpos. reflexivity.
  Qed.

  Theorem repr_rank_report_c_absent i c : c <= M -> count (Nat.eqb c) l = 0 ->
    rle_rank_report_c s i c = Some (0, 0, false).
  Proof.
    intros Hc E. unfold rle_rank_report_c. rewrite (repr_c c Hc). cbn [bind].
    rewrite ubits_length by apply clens_allpos. rewrite <- expand_count. fold l. rewrite E. reflexivity.
  Qed.

  Theorem repr_rank_report i j c k : nth_error R j = Some (c, k) -> rstart R j <= i < rstart R (S j) ->
    rle_rank_report s i = Some (mk_rank_report (rankP (Nat.eqb c) l i) c j (rstart R j) (rstart R (S j)) (cruns c R j)).
  Proof.
    intros Hj Hi. unfold rle_rank_report. rewrite (repr_rank_soft_both i j c k) by auto.
    cbn [bind rdat sdat rd_rnk rd_c rd_start rd_end].
    unfold l. rewrite (expand_rank c R j c k) by (auto; lia). rewrite Nat.eqb_refl. reflexivity.
  Qed.

  Theorem repr_select_on_runs j c k : nth_error R j = Some (c, k) ->
    rle_select_on_runs s (S (cruns c R j)) c = Some j.
  Proof.
    intros H. unfold rle_select_on_runs, wt_select. rewrite (rp_heads _ _ _ _ HS).
    unfold cruns. eapply select0_complete; [|apply Nat.eqb_refl]. rewrite nth_error_map, H. reflexivity.
  Qed.

  Lemma repr_sum_lengths : forall m i acc, i + m <= length R ->
    rle_sum_lengths s i m acc = Some (acc + (rstart R (i + m) - rstart R i)).
  Proof.
    induction m as [|m IH]; intros i acc H; cbn [rle_sum_lengths].
    - rewrite Nat.add_0_r, Nat.sub_diag, Nat.add_0_r. reflexivity.
    - destruct (run_some i ltac:(lia)) as [c [k E]]. rewrite (repr_run_length i c k E). cbn [bind].
      rewrite IH by lia. rewrite (rstart_S R _ _ _ E).
      pose proof (rstart_mono R (S i) (S i + m) ltac:(lia)). rewrite (rstart_S R _ _ _ E) in H0.
      f_equal. replace (i + S m) with (S i + m) by lia. lia.
  Qed.

  Theorem repr_select k c : c <= M -> 1 <= k <= count (Nat.eqb c) l ->
    rle_select s k c = select0 (Nat.eqb c) l (k - 1).
  Proof.
    intros Hc Hk. unfold rle_select. rewrite (repr_c c Hc). cbn [bind].
    rewrite ubits_length by apply clens_allpos. unfold l in Hk. rewrite expand_count in Hk.
    rewrite (proj2 (Nat.leb_le 1 k)), (proj2 (Nat.leb_le k _)) by lia. cbn [andb guard bind].
    destruct (psum_find (clens c R) (k - 1) ltac:(lia)) as [q [Hq Hkq]].
    unfold bv_rank. rewrite ubits_length by apply clens_allpos.
    destruct (Nat.leb_spec (k - 1) (list_sum (clens c R))); [|lia]. cbn [bind].
    rewrite (ubits_rank _ q) by (auto using clens_allpos).
    assert (Eo : (if q =? 0 then Some (k - 1) else p <- bv_select (ubits (clens c R)) q ;; Some (k - 1 - (p + 1)))
                 = Some (k - 1 - psum (clens c R) q)).
    { destruct (Nat.eqb_spec q 0) as [->|Hn]; [rewrite psum_0, Nat.sub_0_r; reflexivity|].
      destruct (ubits_bv_select _ q (clens_allpos c) ltac:(lia)) as [p [-> <-]]. reflexivity. }
    rewrite Eo. cbn [bind]. clear Eo.
    rewrite clens_length in Hq. destruct (select0_total (Nat.eqb c) (map fst R) q Hq) as [j Hj].
    replace (q + 1) with (S q) by lia. cbn [wt_select]. rewrite (rp_heads _ _ _ _ HS), Hj. cbn [bind].
    destruct (select0_spec _ _ _ _ Hj) as [[d [Hd Hcd]] Hrk]. apply Nat.eqb_eq in Hcd. subst d.
    fold (cruns c R j) in Hrk.
    rewrite nth_error_map in Hd. destruct (nth_error R j) as [[c' m]|] eqn:ER; [|discriminate].
    cbn in Hd. injection Hd as ->. apply nth_error_Some_lt in ER as Hlt.
    pose proof (rp_b _ _ _ _ HS) as Hb. rewrite (rp_sb _ _ _ _ HS).
    destruct (Nat.eqb_spec b 0); [lia|]. cbn [bind].
    assert (E : j / b * b <= j) by (rewrite Nat.mul_comm; apply Nat.mul_div_le; lia).
    assert (Es : (if j / b =? 0 then Some 0 else p <- bv_select (rl_runs s) (j / b) ;; Some (p + 1))
                 = Some (rstart R (j / b * b))).
    { destruct (Nat.eqb_spec (j / b) 0) as [->|Hp]; [reflexivity|].
      destruct (repr_block_select (j / b) (proj1 (Nat.neq_0_lt_0 _) Hp) (Nat.le_lt_trans _ _ _ E Hlt)) as [p [-> <-]]. reflexivity. }
    rewrite Es. cbn [bind]. rewrite repr_sum_lengths by lia. cbn [bind].
    replace (j / b * b + (j - j / b * b)) with j by lia.
    pose proof (rstart_mono R (j / b * b) j ltac:(lia)).
    pose proof (csum_psum c R j) as Ec. rewrite Hrk in Ec.
    pose proof (csum_psum c R (S j)) as Ec'. rewrite (cruns_S R j c c m ER), Nat.eqb_refl, Hrk in Ec'.
    replace (q + 1) with (S q) in Ec' by lia.
    rewrite (csum_S R c _ _ _ ER), Nat.eqb_refl in Ec'. pose proof (rstart_S R _ _ _ ER).
    symmetry. set (i := rstart R j + (k - 1 - psum (clens c R) q)).
    replace (rstart R (j / b * b) + (rstart R j - rstart R (j / b * b)) + (k - 1 - psum (clens c R) q)) with i by lia.
    eapply select0_unique.
    - eapply expand_nth; eauto. lia.
    - apply Nat.eqb_refl.
    - unfold l. rewrite (expand_rank c R j c m) by (auto; lia). rewrite Nat.eqb_refl. lia.
  Qed.

  (** The runs reported for [first, last). *)
  Lemma repr_split_loop last : forall fuel q d m, nth_error R q = Some (d, m) -> length R - q <= fuel ->
    last <= length l -> rstart R q < last ->
    exists q', q <= q' < length R /\ rstart R q' < last <= rstart R (S q') /\
    rle_split_loop fuel s last (rdat q d) =
      Some (map (fun j => rdat j (fst (nth j R (0, 0)))) (seq q (S q' - q))).
  Proof.
    induction fuel as [|f IH]; intros q d m Hq Hf Hl Hs; apply nth_error_Some_lt in Hq as Hlt; [lia|].
    cbn [rle_split_loop rdat rd_end rd_rnk].
    destruct (Nat.ltb_spec (rstart R (S q)) last) as [H|H].
    - destruct (Nat.eq_dec (S q) (length R)) as [E|E].
      { rewrite E, rstart_all in H. fold l in H. lia. }
      destruct (run_some (S q) ltac:(lia)) as [d' [m' Hd']].
      rewrite Nat.add_1_r, (repr_run_data _ _ _ Hd'). cbn [bind].
      destruct (IH (S q) d' m' Hd' ltac:(lia) Hl H) as [q' [H1 [H2 ->]]]. cbn [bind].
      exists q'. repeat split; try lia. f_equal. replace (S q' - q) with (S (S q' - S q)) by lia.
      cbn [seq map]. f_equal. unfold rdat. rewrite (nth_error_nth _ _ _ Hq). reflexivity.
    - exists q. repeat split; try lia. replace (S q - q) with 1 by lia. cbn [seq map].
      unfold rdat. rewrite (nth_error_nth _ _ _ Hq). reflexivity.
  Qed.

  Theorem repr_split_in_runs first last j : first < last -> last <= length l ->
    j < length R -> rstart R j <= first < rstart R (S j) ->
    exists j', j <= j' < length R /\ rstart R j' < last <= rstart R (S j') /\
    rle_split_in_runs s first last = Some (map (fun q => rdat q (fst (nth q R (0, 0)))) (seq j (S j' - j))).
  Proof.
    intros H1 H2 Hj Hf. destruct (run_some j Hj) as [c [k E]].
    unfold rle_split_in_runs. rewrite repr_size.
    rewrite (proj2 (Nat.leb_le first last)), (proj2 (Nat.leb_le last _)) by lia. cbn [andb guard bind].
    rewrite (repr_rank_soft first j c k) by auto. cbn [bind].
    rewrite (rp_r _ _ _ _ HS). apply (repr_split_loop last (length R) j c k E); lia || auto.
  Qed.
End Ops.
