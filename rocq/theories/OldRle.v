(** rle_string, proofs: the operations over the run decomposition. *)
From Coq Require Import List Arith Bool Lia ZifyBool ZifyNat.
From Verif Require Import Spec MBase Lists Runs MRle RleProof MOldRle.
Import ListNotations.

(** ** sparse_sd_vector *)
Definition sd_full (bits : list bool) : sdv := mk_sdv (length bits) bits.

Lemma sd_assign_of_bools bits : sd_assign (sd_of_bools bits) = sd_full bits.
Proof. destruct bits; reflexivity. Qed.

Lemma sd_full_size bits : sd_size (sd_full bits) = length bits.
Proof. reflexivity. Qed.

Lemma sd_full_rank bits i : bits <> [] -> sd_rank (sd_full bits) i = bv_rank bits i.
Proof.
  intros H. unfold sd_rank, sd_rank1, bv_rank. cbn [sd_bits sd_full sd_size sd_u].
  destruct bits as [|x bits]; [congruence|]. cbn [length Nat.eqb negb guard bind].
  destruct (i <=? S (length bits)); reflexivity.
Qed.

Lemma sd_full_ones bits : bits <> [] -> sd_ones (sd_full bits) = Some (count idb bits).
Proof.
  intros H. unfold sd_ones, sd_rank1, bv_rank. cbn [sd_bits sd_full sd_size sd_u].
  destruct bits as [|x bits]; [congruence|]. cbn [length Nat.eqb negb guard bind].
  rewrite Nat.leb_refl. f_equal. apply rankP_all. cbn [length]. lia.
Qed.

Lemma sd_full_select bits i : sd_select (sd_full bits) i = bv_select bits (S i).
Proof.
  unfold sd_select, sd_select1. cbn [sd_bits sd_full].
  destruct bits as [|x bits]; [reflexivity|].
  rewrite sd_full_ones by discriminate. cbn [bind]. rewrite Nat.add_1_r.
  set (m := count idb _). destruct (Nat.ltb_spec i m) as [H|H]; cbn [guard bind]; [reflexivity|].
  cbn [bv_select]. destruct (select0 idb (x :: bits) i) as [p|] eqn:E; [|reflexivity].
  destruct (select0_spec _ _ _ _ E) as [[y [Hy Ey]] Hr].
  pose proof (rankP_lt_step idb (x :: bits) p (length (x :: bits)) y Hy Ey) as Hs.
  apply nth_error_Some_lt in Hy. specialize (Hs Hy).
  rewrite (rankP_all idb (x :: bits) (length (x :: bits))) in Hs by lia. fold m in Hs. lia.
Qed.

Lemma ubits_count L : allpos L -> count idb (ubits L) = length L.
Proof.
  intros H. rewrite <- (ubits_rank_all L H). symmetry. apply rankP_all. rewrite ubits_length by auto. lia.
Qed.
Lemma ubits_ne L : allpos L -> L <> [] -> ubits L <> [].
Proof.
  intros H Hn E. apply (f_equal (@length bool)) in E. rewrite ubits_length in E by auto.
  destruct L as [|x L]; [congruence|]. inversion H; subst. rewrite list_sum_cons in E. cbn in E. lia.
Qed.

Lemma sd_gap_ubits L j x : allpos L -> nth_error L j = Some x -> sd_gap_at (sd_full (ubits L)) j = Some x.
Proof.
  intros HP Hx. apply nth_error_Some_lt in Hx as Hlt. unfold sd_gap_at.
  rewrite sd_full_ones by (apply ubits_ne; auto; intros ->; cbn in Hlt; lia). cbn [bind].
  rewrite ubits_count by auto. rewrite (proj2 (Nat.ltb_lt j _)) by auto. cbn [guard bind].
  pose proof (psum_S L j x Hx) as ES.
  destruct (ubits_bv_select L (S j) HP ltac:(lia)) as [p [Ep Hp]].
  destruct (Nat.eqb_spec j 0) as [->|Hn].
  - rewrite sd_full_select, Ep. cbn [bind]. rewrite psum_0 in ES. f_equal. lia.
  - rewrite !sd_full_select, Ep. cbn [bind]. destruct j as [|j]; [lia|].
    replace (S j - 1) with j by lia.
    destruct (ubits_bv_select L (S j) HP ltac:(lia)) as [q [-> Hq]]. cbn [bind]. f_equal. lia.
Qed.

(** ** Representation *)
Record old_repr (b M : nat) (R : list (nat * nat)) (s : oldrle) : Prop := {
  ol_b : 0 < b;
  ol_wf : wf_runs R;
  ol_ne : R <> [];
  ol_M : forall c, In c (map fst R) -> c <= M;
  ol_n : or_n s = length (expand R);
  ol_r : or_r s = length R;
  ol_sb : or_b s = b;
  ol_heads : or_heads s = map fst R;
  ol_runs : or_runs s = sd_full (gbits (fun k => blockf b k && (S k <? length R)) 0 (lens R));
  ol_rpl : forall c, nth_error (or_rpl s) c = if c <=? M then Some (sd_full (ubits (clens c R))) else None
}.

Lemma c_str_zero_free l : forallb (fun c => negb (c =? 0)) l = true -> c_str (l ++ [0]) = l.
Proof.
  induction l as [|a l IH]; cbn [forallb c_str app]; [reflexivity|].
  intros H. apply andb_true_iff in H as [H1 H2]. destruct (a =? 0); [discriminate|].
  rewrite IH by auto. reflexivity.
Qed.

Lemma nth_error_seq_map {A} (f : nat -> A) N d :
  nth_error (map f (seq 0 N)) d = if d <? N then Some (f d) else None.
Proof.
  rewrite nth_error_map. destruct (Nat.ltb_spec d N) as [H|H].
  - rewrite (nth_error_nth_lt _ d 0) by (rewrite seq_length; lia). rewrite seq_nth by lia. reflexivity.
  - rewrite (proj2 (nth_error_None _ _)) by (rewrite seq_length; lia). reflexivity.
Qed.

Lemma expand_in R c : wf_runs R -> In c (map fst R) -> In c (expand R).
Proof.
  intros [HP _] Hd. apply in_map_iff in Hd. destruct Hd as [[e m] [<- Hin]]. cbn [fst].
  unfold expand. apply in_flat_map. exists (e, m). split; auto. cbn [fst snd].
  unfold allpos in HP. rewrite Forall_forall in HP.
  assert (0 < m) by (apply (HP m); apply (in_map snd) in Hin; exact Hin).
  destruct m; [lia|]. left. reflexivity.
Qed.

Theorem old_construct_repr b l : 0 < b -> l <> [] -> Forall (fun c => 0 < c < 256) l ->
  exists s R, old_construct b l = Some s /\ old_repr b 255 R s /\ expand R = l.
Proof.
  intros Hb Hl HZ. unfold old_construct.
  remember 256 as N eqn:EN. remember 255 as M eqn:EM. assert (EMN : N = S M) by lia. clear EN EM.
  destruct l as [|c l]; [congruence|]. clear Hl.
  unfold guard. destruct (Nat.ltb_spec 0 b); [|lia]. cbn [bind].
  assert (HF : forallb (fun c => negb (c =? 0)) (c :: l) = true).
  { apply forallb_forall. intros x Hx. rewrite Forall_forall in HZ. specialize (HZ x Hx).
    destruct (Nat.eqb_spec x 0); auto. lia. }
  rewrite HF. cbn [bind].
  set (st := fold_left _ _ _).
  destruct (build_fold_inv b l [] 1 (mk_rle_build c [] (fun _ => []) [] 0)) as [Q [k [HI HE]]].
  { split; cbn; auto; [|intros d; destruct (d =? c); reflexivity].
    split; [repeat constructor|]. intros [|[|j]] x y H1 H2; discriminate. }
  fold st in HI, HE. cbn [expand flat_map repeat app rb_symbol] in HE.
  destruct HI as [Hk Hwf Hh Hm Hr Hrr].
  assert (EX : expand (Q ++ [(rb_symbol st, k)]) = c :: l).
  { rewrite expand_app. cbn [expand flat_map fst snd]. rewrite app_nil_r. exact HE. }
  assert (EH : rb_heads st ++ [rb_symbol st] = map fst (Q ++ [(rb_symbol st, k)])).
  { rewrite Hh, map_app. reflexivity. }
  assert (HH : forall d, In d (map fst (Q ++ [(rb_symbol st, k)])) -> 0 < d < N).
  { intros d Hd. apply expand_in in Hd; auto. rewrite EX in Hd. rewrite Forall_forall in HZ. auto. }
  assert (EC : huff_construct (rb_heads st ++ [rb_symbol st]) = Some (map fst (Q ++ [(rb_symbol st, k)]))).
  { unfold huff_construct. rewrite EH, c_str_zero_free.
    - rewrite (app_length (map fst _)). cbn [length]. rewrite Nat.add_sub, Nat.eqb_refl. reflexivity.
    - apply forallb_forall. intros x Hx. specialize (HH x Hx). destruct (Nat.eqb_spec x 0); auto. lia. }
  rewrite EC. cbn [bind]. rewrite map_length, app_length, Hrr. cbn [length].
  rewrite Nat.add_1_r, Nat.eqb_refl. cbn [bind].
  eexists _, (Q ++ [(rb_symbol st, k)]). split; [reflexivity|]. split; [|exact EX].
  split; cbn [or_n or_r or_b or_heads or_runs or_rpl]; auto.
  - destruct Q; discriminate.
  - intros d Hd. specialize (HH d Hd). lia.
  - rewrite EX. reflexivity.
  - rewrite app_length. cbn. lia.
  - rewrite sd_assign_of_bools. f_equal.
    rewrite Hr, lens_app, gbits_app. cbn [lens map snd gbits]. rewrite <- app_assoc.
    rewrite app_length. cbn [length].
    f_equal.
    + apply gbits_ext. intros j Hj. unfold lens in Hj. rewrite map_length in Hj.
      rewrite (proj2 (Nat.ltb_lt (S j) (length Q + 1))) by lia. rewrite andb_true_r. reflexivity.
    + f_equal. f_equal. unfold lens. rewrite map_length.
      rewrite (proj2 (Nat.ltb_ge _ _)) by lia. rewrite andb_false_r. reflexivity.
  - intros d. rewrite nth_error_seq_map. rewrite EMN. change (d <? S M) with (d <=? M).
    destruct (d <=? M); [|reflexivity]. f_equal. rewrite sd_assign_of_bools. f_equal.
    unfold symmap_push. rewrite Hm, clens_app, ubits_app, clens_single.
    destruct (d =? rb_symbol st); [rewrite ubits_single, <- app_assoc; reflexivity|].
    rewrite !app_nil_r. reflexivity.
Qed.

Lemma clens_nth R j c k : nth_error R j = Some (c, k) -> nth_error (clens c R) (cruns c R j) = Some k.
Proof.
  revert j. induction R as [|[d m] R IH]; intros [|j] H; cbn [nth_error] in H; try discriminate.
  - injection H as -> ->. unfold clens, cruns, rankP. cbn. rewrite Nat.eqb_refl. reflexivity.
  - specialize (IH j H). unfold clens, cruns, rankP in *. cbn.
    destruct (c =? d); cbn; auto.
Qed.

Section OldOps.
  Variables (b M : nat) (R : list (nat * nat)) (s : oldrle).
  Hypothesis HS : old_repr b M R s.
  Let l := expand R.
  Let HW : wf_runs R := ol_wf _ _ _ _ HS.
  Let bits := gbits (fun k => blockf b k && (S k <? length R)) 0 (lens R).
  (** The same data as a structure of MRle.v, whose lemmas on blocks are reused. *)
  Let s0 := mk_rlestr (length R) b (map fst R) bits (map (fun c => ubits (clens c R)) (seq 0 (S M))).

  Lemma s0_repr : rle_repr b M R s0.
  Proof.
    destruct HS. split; cbn [s0 rl_r rl_b rl_heads rl_runs rl_rps]; auto.
    intros c. rewrite nth_error_seq_map. reflexivity.
  Qed.

  Lemma l_pos : 0 < length l.
  Proof.
    unfold l. pose proof (ol_ne _ _ _ _ HS). destruct R as [|[c k] Q] eqn:E; [congruence|].
    rewrite <- E in *. rewrite <- (rstart_all R). pose proof (rstart_strict R HW 0 (length R)).
    rewrite E in H0 at 1. cbn [length] in H0. specialize (H0 ltac:(lia) ltac:(lia)). lia.
  Qed.
  Lemma bits_ne : bits <> [].
  Proof.
    intros E. pose proof (repr_size _ _ _ _ s0_repr) as H. unfold rle_size in H. cbn [s0 rl_runs] in H.
    rewrite E in H. pose proof l_pos. cbn in H. unfold l in *. lia.
  Qed.

  Lemma old_c c : c <= M -> nth_error (or_rpl s) c = Some (sd_full (ubits (clens c R))).
  Proof. intros H. rewrite (ol_rpl _ _ _ _ HS), (proj2 (Nat.leb_le _ _)) by auto. reflexivity. Qed.
  Lemma run_symbol j c k : nth_error R j = Some (c, k) -> c <= M.
  Proof. intros H. apply (ol_M _ _ _ _ HS). apply nth_error_In in H. apply (in_map fst) in H. exact H. Qed.
  Lemma old_heads_nth j c k : nth_error R j = Some (c, k) -> nth_error (or_heads s) j = Some c.
  Proof. intros H. rewrite (ol_heads _ _ _ _ HS), nth_error_map, H. reflexivity. Qed.
  Lemma old_heads_rank j c : j <= length R -> wt_rank (or_heads s) j c = Some (cruns c R j).
  Proof.
    intros H. unfold wt_rank. rewrite (ol_heads _ _ _ _ HS), map_length.
    rewrite (proj2 (Nat.leb_le _ _)) by auto. reflexivity.
  Qed.
  Lemma old_cl c : allpos (clens c R).
  Proof. apply clens_pos, HW. Qed.
  Lemma old_run_some j : j < length R -> exists c k, nth_error R j = Some (c, k).
  Proof. intros H. destruct (nth_error R j) as [[c k]|] eqn:E; eauto. apply nth_error_None in E. lia. Qed.
  Lemma old_run_find i : i < length l -> exists j c k, nth_error R j = Some (c, k) /\ rstart R j <= i < rstart R (S j).
  Proof.
    intros H. destruct (run_find R i H) as [j [Hj Hi]]. destruct (old_run_some j Hj) as [c [k E]]. eauto.
  Qed.

  Lemma old_run_at_ok j c k : nth_error R j = Some (c, k) -> old_run_at s j = Some k.
  Proof.
    intros H. apply nth_error_Some_lt in H as Hlt. unfold old_run_at, wt_access.
    rewrite (ol_r _ _ _ _ HS), (proj2 (Nat.ltb_lt j _)) by auto. cbn [guard bind].
    rewrite (old_heads_nth _ _ _ H). cbn [bind]. rewrite (old_c c) by (eapply run_symbol; eauto). cbn [bind].
    rewrite old_heads_rank by lia. cbn [bind]. apply sd_gap_ubits; [apply old_cl|]. apply clens_nth. exact H.
  Qed.

  Lemma old_run_info_ok j c k : nth_error R j = Some (c, k) -> old_run_info s j = Some (c, k).
  Proof.
    intros H. unfold old_run_info, wt_inverse_select. rewrite (old_heads_nth _ _ _ H). cbn [bind].
    rewrite (old_c c) by (eapply run_symbol; eauto). cbn [bind].
    rewrite (ol_heads _ _ _ _ HS). change (rankP (Nat.eqb c) (map fst R) j) with (cruns c R j).
    rewrite (sd_gap_ubits _ _ k); [reflexivity|apply old_cl|]. apply clens_nth. exact H.
  Qed.

  Lemma old_runs_rank i j : j < length R -> rstart R j <= i < rstart R (S j) ->
    sd_rank (or_runs s) i = Some (j / b).
  Proof.
    intros Hj Hi. rewrite (ol_runs _ _ _ _ HS). fold bits. rewrite sd_full_rank by apply bits_ne.
    exact (repr_runs_rank _ _ _ _ s0_repr i j Hj Hi).
  Qed.
  Lemma old_block_start_ok q : q * b < length R -> old_block_start s q = Some (rstart R (q * b)).
  Proof.
    intros H. unfold old_block_start. destruct (Nat.ltb_spec 0 q) as [Hq|Hq].
    - rewrite (ol_runs _ _ _ _ HS). fold bits. rewrite sd_full_select.
      replace (S (q - 1)) with q by lia.
      destruct (repr_block_select _ _ _ _ s0_repr q Hq H) as [p [Ep Hp]]. cbn [s0 rl_runs] in Ep.
      rewrite Ep. cbn [bind]. f_equal. exact Hp.
    - assert (q = 0) by lia. subst q. reflexivity.
  Qed.

  Lemma block_le j : j / b * b <= j.
  Proof. pose proof (ol_b _ _ _ _ HS). rewrite Nat.mul_comm. apply Nat.mul_div_le. lia. Qed.
  Lemma block_gap j : j - j / b * b < b.
  Proof.
    pose proof (ol_b _ _ _ _ HS). pose proof (Nat.div_mod j b ltac:(lia)).
    pose proof (Nat.mod_upper_bound j b ltac:(lia)). lia.
  Qed.

  (** The loop stops at the first run that ends at or after the position. *)
  Lemma old_scan_ok i j : j < length R -> rstart R j <= i < rstart R (S j) ->
    forall fuel q dist, q <= j -> j - q < fuel -> dist = i - rstart R q ->
    old_scan fuel s i (rstart R q) q dist =
      Some (if rstart R j =? i then (rstart R j, j, 0) else (rstart R (S j), S j, i - rstart R j)).
  Proof.
    intros Hj Hi fuel. induction fuel as [|f IH]; intros q dist Hq Hf ->; [lia|].
    cbn [old_scan]. pose proof (rstart_mono R q j Hq) as Hm.
    destruct (Nat.ltb_spec (rstart R q) i) as [H|H].
    - destruct (old_run_some q ltac:(lia)) as [c [k E]]. rewrite (old_run_at_ok _ _ _ E). cbn [bind].
      rewrite <- (rstart_S R _ _ _ E). rewrite Nat.add_1_r.
      destruct (Nat.eq_dec q j) as [->|Hn].
      + rewrite (proj2 (Nat.leb_gt _ _)) by lia.
        rewrite (proj2 (Nat.eqb_neq _ _)) by lia.
        destruct f; cbn [old_scan]; rewrite (proj2 (Nat.ltb_ge _ _)) by lia; reflexivity.
      + pose proof (rstart_mono R (S q) j ltac:(lia)).
        rewrite (proj2 (Nat.leb_le _ _)) by lia. apply IH; lia.
    - assert (rstart R q = i) by lia. assert (q = j).
      { apply (run_unique R i); auto. pose proof (rstart_lt R HW q ltac:(lia)). lia. }
      subst q. rewrite (proj2 (Nat.eqb_eq _ _)) by auto. rewrite H0, Nat.sub_diag. reflexivity.
  Qed.

  Lemma old_locate_ok i j : j < length R -> rstart R j <= i < rstart R (S j) ->
    old_locate s i = Some (j, i - rstart R j).
  Proof.
    intros Hj Hi. unfold old_locate. rewrite (old_runs_rank i j) by auto. cbn [bind].
    pose proof (block_le j). pose proof (block_gap j).
    rewrite old_block_start_ok by lia. cbn [bind].
    pose proof (rstart_mono R (j / b * b) j ltac:(lia)).
    rewrite (proj2 (Nat.leb_le _ _)) by lia. cbn [guard bind]. rewrite (ol_sb _ _ _ _ HS).
    rewrite (old_scan_ok i j) by (auto; lia). rewrite (ol_r _ _ _ _ HS).
    destruct (Nat.eqb_spec (rstart R j) i) as [E|E]; cbn [bind].
    - rewrite (proj2 (Nat.ltb_ge i (rstart R j))) by lia. rewrite (proj2 (Nat.ltb_lt j _)) by lia. cbn [guard bind].
      do 2 f_equal. lia.
    - rewrite (proj2 (Nat.ltb_lt i _)) by lia. replace (S j - 1) with j by lia.
      rewrite (proj2 (Nat.ltb_lt _ _)) by lia. reflexivity.
  Qed.

  Lemma old_run_of_ok i j : j < length R -> rstart R j <= i < rstart R (S j) ->
    old_run_of s i = Some (j, rstart R (S j) - 1).
  Proof.
    intros Hj Hi. unfold old_run_of. rewrite (old_runs_rank i j) by auto. cbn [bind].
    pose proof (block_le j). pose proof (block_gap j).
    rewrite old_block_start_ok by lia. cbn [bind].
    pose proof (rstart_mono R (j / b * b) j ltac:(lia)).
    rewrite (proj2 (Nat.leb_le _ _)) by lia. cbn [guard bind]. rewrite (ol_sb _ _ _ _ HS).
    rewrite (old_scan_ok i j) by (auto; lia). rewrite (ol_r _ _ _ _ HS).
    destruct (old_run_some j Hj) as [c [k E]]. pose proof (rstart_S R _ _ _ E) as ES.
    destruct (Nat.eqb_spec (rstart R j) i) as [Ei|Ei]; cbn [bind].
    - rewrite (proj2 (Nat.ltb_ge i (rstart R j))) by lia. rewrite (old_run_at_ok _ _ _ E). cbn [bind].
      rewrite <- ES. rewrite (proj2 (Nat.ltb_lt 0 _)) by lia. rewrite (proj2 (Nat.ltb_lt _ _)) by lia. reflexivity.
    - rewrite (proj2 (Nat.ltb_lt i _)) by lia. cbn [bind]. rewrite (proj2 (Nat.ltb_lt 0 _)) by lia.
      replace (S j - 1) with j by lia.
      rewrite (proj2 (Nat.ltb_lt _ _)) by lia. reflexivity.
  Qed.

  Lemma old_access_ok i : i < length l -> old_access s i = nth_error l i.
  Proof.
    intros H. destruct (old_run_find i H) as [j [c [k [E Hi]]]]. apply nth_error_Some_lt in E as Hj.
    unfold old_access, wt_access. rewrite (ol_n _ _ _ _ HS). fold l.
    rewrite (proj2 (Nat.ltb_lt _ _)) by auto. cbn [guard bind]. rewrite (old_run_of_ok i j) by auto. cbn [bind].
    rewrite (old_heads_nth _ _ _ E). symmetry. eapply expand_nth; eauto.
  Qed.
  Lemma old_access_at i j c k : nth_error R j = Some (c, k) -> rstart R j <= i < rstart R (S j) ->
    old_access s i = Some c.
  Proof.
    intros E Hi. rewrite old_access_ok; [eapply expand_nth; eauto|]. pose proof (rstart_le R (S j)). unfold l. lia.
  Qed.

  Lemma old_run_of_position_ok i j : j < length R -> rstart R j <= i < rstart R (S j) ->
    old_run_of_position s i = Some j.
  Proof.
    intros Hj Hi. unfold old_run_of_position. rewrite (ol_n _ _ _ _ HS).
    pose proof (rstart_le R (S j)). rewrite (proj2 (Nat.ltb_lt _ _)) by lia. cbn [guard bind].
    rewrite (old_locate_ok i j) by auto. reflexivity.
  Qed.

  Lemma old_sum_ok : forall m t acc, t + m <= length R ->
    old_sum s t m acc = Some (acc + (rstart R (t + m) - rstart R t)).
  Proof.
    induction m as [|m IH]; intros i acc H; cbn [old_sum].
    - rewrite Nat.add_0_r, Nat.sub_diag, Nat.add_0_r. reflexivity.
    - destruct (old_run_some i ltac:(lia)) as [c [k E]]. rewrite (old_run_at_ok i c k E). cbn [bind].
      rewrite IH by lia. f_equal. pose proof (rstart_S R _ _ _ E).
      pose proof (rstart_mono R (S i) (S i + m) ltac:(lia)). replace (i + S m) with (S i + m) by lia. lia.
  Qed.
  Lemma old_run_start j : j < length R ->
    (pos <- old_block_start s (j / b) ;; old_sum s (j / b * b) (j - j / b * b) pos) = Some (rstart R j).
  Proof.
    intros Hj. pose proof (block_le j). rewrite old_block_start_ok by lia. cbn [bind].
    rewrite old_sum_ok by lia. f_equal. replace (j / b * b + (j - j / b * b)) with j by lia.
    pose proof (rstart_mono R (j / b * b) j ltac:(lia)). lia.
  Qed.

  Lemma old_run_range_ok j : j < length R -> old_run_range s j = Some (rstart R j, rstart R (S j) - 1).
  Proof.
    intros Hj. unfold old_run_range. rewrite (ol_heads _ _ _ _ HS), map_length.
    rewrite (proj2 (Nat.ltb_lt _ _)) by auto. cbn [guard bind]. rewrite (ol_sb _ _ _ _ HS).
    pose proof (old_run_start j Hj) as E. destruct (old_block_start s (j / b)) as [p|]; [|discriminate].
    cbn [bind] in E |- *. rewrite E. cbn [bind]. destruct (old_run_some j Hj) as [c [k ER]].
    rewrite (old_run_at_ok _ _ _ ER). cbn [bind]. rewrite <- (rstart_S R _ _ _ ER). reflexivity.
  Qed.

  Lemma old_rank_ok i c : i <= length l -> c <= M -> old_rank s i c = Some (rankP (Nat.eqb c) l i).
  Proof.
    intros Hi Hc. unfold old_rank. rewrite (ol_n _ _ _ _ HS). fold l.
    rewrite (proj2 (Nat.leb_le _ _)) by auto. cbn [guard bind]. rewrite (old_c c Hc). cbn [bind].
    rewrite sd_full_size, ubits_length by apply old_cl. rewrite <- expand_count. fold l.
    destruct (Nat.eqb_spec (count (Nat.eqb c) l) 0) as [E0|E0].
    { f_equal. pose proof (rankP_le_count (Nat.eqb c) l i). lia. }
    destruct (Nat.eqb_spec i (length l)) as [->|Hn].
    { rewrite rankP_all by lia. reflexivity. }
    destruct (old_run_find i ltac:(lia)) as [j [d [k [E Hj]]]]. apply nth_error_Some_lt in E as Hlt.
    rewrite (old_locate_ok i j) by auto. cbn [bind]. rewrite old_heads_rank by lia. cbn [bind].
    unfold wt_access. rewrite (old_heads_nth _ _ _ E). cbn [bind].
    unfold l. rewrite (expand_rank c R j d k) by (auto; lia). rewrite (Nat.eqb_sym d c).
    pose proof (csum_psum c R j) as Ec.
    destruct (Nat.eqb_spec (cruns c R j) 0) as [Er|Er].
    - rewrite Er, psum_0 in Ec. rewrite <- Ec. reflexivity.
    - rewrite sd_full_select. replace (S (cruns c R j - 1)) with (cruns c R j) by lia.
      pose proof (cruns_le c R j).
      destruct (ubits_bv_select _ (cruns c R j) (old_cl c) ltac:(lia)) as [p [-> Hp]]. cbn [bind].
      rewrite Hp, Ec. reflexivity.
  Qed.

  Lemma old_select_ok i c : c <= M -> i < count (Nat.eqb c) l -> old_select s i c = select0 (Nat.eqb c) l i.
  Proof.
    intros Hc Hk. unfold old_select. rewrite (old_c c Hc). cbn [bind].
    rewrite sd_full_size, ubits_length by apply old_cl. unfold l in Hk. rewrite expand_count in Hk.
    rewrite (proj2 (Nat.ltb_lt i _)) by lia. cbn [guard bind].
    destruct (psum_find (clens c R) i Hk) as [q [Hq Hkq]].
    assert (Hne : ubits (clens c R) <> []).
    { apply ubits_ne; [apply old_cl|]. intros E. rewrite E in Hq. cbn in Hq. lia. }
    rewrite sd_full_rank by auto. unfold bv_rank. rewrite ubits_length by apply old_cl.
    rewrite (proj2 (Nat.leb_le i _)) by lia. cbn [bind].
    rewrite (ubits_rank _ q) by (auto using old_cl).
    assert (Eo : (if q =? 0 then Some i
                  else p <- sd_select (sd_full (ubits (clens c R))) (q - 1) ;;
                       _ <- guard (p + 1 <=? i) ;; Some (i - (p + 1)))
                 = Some (i - psum (clens c R) q)).
    { destruct (Nat.eqb_spec q 0) as [->|Hn]; [rewrite psum_0, Nat.sub_0_r; reflexivity|].
      rewrite sd_full_select. replace (S (q - 1)) with q by lia.
      destruct (ubits_bv_select _ q (old_cl c) ltac:(lia)) as [p [-> Hp]]. cbn [bind]. rewrite Hp.
      rewrite (proj2 (Nat.leb_le _ _)) by lia. reflexivity. }
    rewrite Eo. cbn [bind]. clear Eo.
    rewrite clens_length in Hq. destruct (select0_total (Nat.eqb c) (map fst R) q Hq) as [j Hj].
    unfold huff_select. replace (q + 1) with (S q) by lia. cbn [wt_select].
    rewrite (ol_heads _ _ _ _ HS), Hj. cbn [bind].
    destruct (select0_spec _ _ _ _ Hj) as [[d [Hd Hcd]] Hrk]. apply Nat.eqb_eq in Hcd. subst d.
    fold (cruns c R j) in Hrk.
    rewrite nth_error_map in Hd. destruct (nth_error R j) as [[c' m]|] eqn:ER; [|discriminate].
    cbn in Hd. injection Hd as ->. apply nth_error_Some_lt in ER as Hlt.
    rewrite (ol_sb _ _ _ _ HS).
    pose proof (old_run_start j Hlt) as E. destruct (old_block_start s (j / b)) as [p|]; [|discriminate].
    cbn [bind] in E |- *. rewrite E. cbn [bind].
    pose proof (csum_psum c R j) as Ec. rewrite Hrk in Ec.
    pose proof (csum_psum c R (S j)) as Ec'. rewrite (cruns_S R j c c m ER), Nat.eqb_refl, Hrk in Ec'.
    replace (q + 1) with (S q) in Ec' by lia.
    rewrite (csum_S R c _ _ _ ER), Nat.eqb_refl in Ec'. pose proof (rstart_S R _ _ _ ER).
    symmetry. eapply select0_unique.
    - eapply expand_nth; eauto. lia.
    - apply Nat.eqb_refl.
    - unfold l. rewrite (expand_rank c R j c m) by (auto; lia). rewrite Nat.eqb_refl. lia.
  Qed.

  Lemma huff_select_ok j c k : nth_error R j = Some (c, k) -> huff_select (or_heads s) (cruns c R j) c = Some j.
  Proof.
    intros H. unfold huff_select. rewrite Nat.add_1_r. cbn [wt_select]. rewrite (ol_heads _ _ _ _ HS).
    unfold cruns. eapply select0_complete; [|apply Nat.eqb_refl]. rewrite nth_error_map, H. reflexivity.
  Qed.

  (** ** break_in_runs *)
  Lemma old_find_first_ok i j c k : nth_error R j = Some (c, k) -> rstart R j <= i < rstart R (S j) ->
    forall fuel q, q <= j -> j - q < fuel ->
    old_find_first fuel s i (rstart R q) q = Some (rstart R (S j), c, S j).
  Proof.
    intros E Hi fuel. apply nth_error_Some_lt in E as Hj.
    induction fuel as [|f IH]; intros q Hq Hf; [lia|]. cbn [old_find_first].
    destruct (old_run_some q ltac:(lia)) as [d [m Ed]]. rewrite (old_run_info_ok _ _ _ Ed). cbn [bind].
    rewrite <- (rstart_S R _ _ _ Ed), Nat.add_1_r.
    destruct (Nat.eq_dec q j) as [->|Hn].
    - rewrite (proj2 (Nat.leb_gt _ _)) by lia. rewrite E in Ed. injection Ed as <- <-. reflexivity.
    - pose proof (rstart_mono R (S q) j ltac:(lia)). rewrite (proj2 (Nat.leb_le _ _)) by lia. apply IH; lia.
  Qed.

  (** Run [q], restricted to the positions from [first] to [last]. *)
  Definition clip (first last q : nat) : string_run :=
    mk_string_run q (fst (nth q R (0, 0)))
      (Nat.max (rstart R q) first, Nat.min (rstart R (S q) - 1) last).

  Lemma old_report_ok first last jl : last < rstart R (S jl) -> rstart R jl <= last -> jl < length R -> first <= last ->
    forall fuel j c k p, nth_error R j = Some (c, k) -> j <= jl -> jl - j <= fuel ->
      p = Nat.max (rstart R j) first -> first < rstart R (S j) ->
    old_report_runs fuel s last (rstart R (S j)) p c j = Some (map (clip first last) (seq j (S jl - j))).
  Proof.
    intros H1 H2 Hjl Hfl. induction fuel as [|f IH]; intros j c k p E Hj Hf -> Hfirst.
    - assert (j = jl) by lia. subst j. cbn [old_report_runs]. rewrite (proj2 (Nat.leb_gt _ _)) by lia.
      replace (S jl - jl) with 1 by lia. cbn [seq map]. unfold clip. rewrite (nth_error_nth _ _ _ E). cbn [fst].
      repeat f_equal; lia.
    - cbn [old_report_runs]. destruct (Nat.eq_dec j jl) as [->|Hn].
      + rewrite (proj2 (Nat.leb_gt _ _)) by lia.
        replace (S jl - jl) with 1 by lia. cbn [seq map]. unfold clip. rewrite (nth_error_nth _ _ _ E). cbn [fst].
        repeat f_equal; lia.
      + pose proof (rstart_mono R (S j) jl ltac:(lia)). rewrite (proj2 (Nat.leb_le _ _)) by lia.
        rewrite Nat.add_1_r. destruct (old_run_some (S j) ltac:(lia)) as [d [m Ed]].
        rewrite (old_run_info_ok _ _ _ Ed). cbn [bind]. rewrite <- (rstart_S R _ _ _ Ed).
        pose proof (rstart_lt R HW (S j) ltac:(lia)).
        rewrite (IH (S j) d m) by (auto; lia). cbn [bind].
        replace (S jl - j) with (S (S jl - S j)) by lia. cbn [seq map]. do 2 f_equal. unfold clip.
        rewrite (nth_error_nth _ _ _ E). cbn [fst]. f_equal; f_equal; lia.
  Qed.

  Lemma old_break_in_runs_ok first last j jl : first <= last -> last < length l ->
    j < length R -> rstart R j <= first < rstart R (S j) ->
    jl < length R -> rstart R jl <= last < rstart R (S jl) ->
    old_break_in_runs s (first, last) = Some (map (clip first last) (seq j (S jl - j))).
  Proof.
    intros H1 H2 Hj Hf Hjl Hl. unfold old_break_in_runs. rewrite (ol_n _ _ _ _ HS). fold l.
    rewrite (proj2 (Nat.leb_le first last)), (proj2 (Nat.ltb_lt last _)) by lia. cbn [guard bind].
    rewrite (old_runs_rank first j) by auto. cbn [bind].
    pose proof (block_le j). pose proof (block_gap j). rewrite old_block_start_ok by lia. cbn [bind].
    pose proof (rstart_mono R (j / b * b) j ltac:(lia)).
    rewrite (proj2 (Nat.leb_le _ first)) by lia. cbn [guard bind]. rewrite (ol_sb _ _ _ _ HS).
    destruct (old_run_some j Hj) as [c [k E]].
    rewrite (old_find_first_ok first j c k) by (auto; lia). cbn [bind].
    rewrite (proj2 (Nat.ltb_lt first _)) by lia. cbn [guard bind].
    rewrite (old_access_at first j c k) by auto. cbn [bind]. rewrite Nat.eqb_refl. cbn [guard bind].
    replace (S j - 1) with j by lia.
    rewrite (ol_r _ _ _ _ HS). rewrite (proj2 (Nat.ltb_lt j _)) by lia. cbn [guard bind].
    assert (j <= jl).
    { destruct (le_dec j jl); auto. pose proof (rstart_mono R (S jl) j ltac:(lia)). lia. }
    apply (old_report_ok first last jl) with (k := k); auto; lia.
  Qed.

  (** ** break_range *)
  Lemma cruns_mono c i j : i <= j -> cruns c R i <= cruns c R j.
  Proof.
    unfold cruns, rankP. intros H. replace j with (i + (j - i)) by lia.
    rewrite <- (firstn_skipn i (firstn (i + (j - i)) (map fst R))).
    rewrite firstn_firstn, Nat.min_l by lia. rewrite filter_app, app_length. lia.
  Qed.

  (** The runs of [c] from run [j]: the k-th run of [c], for k from the rank of [j]. *)
  Lemma crun_list c jr : jr <= length R -> forall m j, j + m = jr ->
    exists qs, mmap (fun k => huff_select (or_heads s) k c) (seq (cruns c R j) (cruns c R jr - cruns c R j)) = Some qs /\
      qs = filter (fun q => c =? fst (nth q R (0, 0))) (seq j m).
  Proof.
    intros Hjr. induction m as [|m IH]; intros j Hm.
    - replace jr with j by lia. rewrite Nat.sub_diag. exists []. split; reflexivity.
    - destruct (IH (S j) ltac:(lia)) as [qs [E1 E2]].
      destruct (old_run_some j ltac:(lia)) as [d [k E]]. pose proof (cruns_S R j c d k E) as EC.
      cbn [seq filter]. rewrite (nth_error_nth _ _ _ E). cbn [fst].
      destruct (Nat.eqb_spec c d) as [->|Hn].
      + pose proof (cruns_mono d (S j) jr ltac:(lia)) as Hm'.
        replace (cruns d R jr - cruns d R j) with (S (cruns d R jr - cruns d R (S j))) by lia.
        cbn [seq mmap]. rewrite (huff_select_ok j d k E). cbn [bind].
        replace (S (cruns d R j)) with (cruns d R (S j)) by lia. rewrite E1. cbn [bind].
        eexists. split; [reflexivity|]. congruence.
      + replace (cruns c R j) with (cruns c R (S j)) by lia. eauto.
  Qed.

  Definition clip_range (first last q : nat) : nat * nat :=
    (Nat.max (rstart R q) first, Nat.min (rstart R (S q) - 1) last).

  Lemma mmap_select_range {A} (f : A -> option nat) (g : nat -> option (nat * nat)) h xs qs :
    mmap f xs = Some qs -> (forall q, In q qs -> g q = Some (h q)) ->
    mmap (fun x => q <- f x ;; g q) xs = Some (map h qs).
  Proof.
    revert qs. induction xs as [|x xs IH]; intros qs H Hg; cbn [mmap] in *.
    - injection H as <-. reflexivity.
    - destruct (f x) as [q|]; [|discriminate]. cbn [bind] in *.
      destruct (mmap f xs) as [qs'|]; [|discriminate]. cbn [bind] in H. injection H as <-.
      rewrite (Hg q) by (left; auto). cbn [bind]. rewrite (IH qs') by (auto; intros; apply Hg; right; auto).
      reflexivity.
  Qed.

  Lemma old_break_range_ok first last c j jl kj kl : first <= last -> last < length l ->
    nth_error R j = Some (c, kj) -> rstart R j <= first < rstart R (S j) ->
    nth_error R jl = Some (c, kl) -> rstart R jl <= last < rstart R (S jl) ->
    old_break_range s (first, last) c =
      Some (map (clip_range first last) (filter (fun q => c =? fst (nth q R (0, 0))) (seq j (S jl - j)))).
  Proof.
    intros H1 H2 Ej Hf El Hl. apply nth_error_Some_lt in Ej as Hj. apply nth_error_Some_lt in El as Hjl.
    unfold old_break_range. rewrite (ol_n _ _ _ _ HS). fold l.
    rewrite (proj2 (Nat.leb_le first last)), (proj2 (Nat.ltb_lt last _)) by lia. cbn [guard bind].
    rewrite (old_access_at first j c kj), (old_access_at last jl c kl) by auto. cbn [bind].
    rewrite Nat.eqb_refl. cbn [guard bind].
    rewrite (old_run_of_ok first j), (old_run_of_ok last jl) by auto. cbn [bind fst snd].
    assert (Hle : j <= jl).
    { destruct (le_dec j jl); auto. pose proof (rstart_mono R (S jl) j ltac:(lia)). lia. }
    destruct (Nat.eqb_spec j jl) as [->|Hn].
    - replace (S jl - jl) with 1 by lia. cbn [seq filter]. rewrite (nth_error_nth _ _ _ Ej). cbn [fst].
      rewrite Nat.eqb_refl. cbn [map]. unfold clip_range. repeat f_equal; lia.
    - rewrite !old_heads_rank by lia. cbn [bind].
      destruct (crun_list c jl ltac:(lia) (jl - S j) (S j) ltac:(lia)) as [qs [E1 E2]].
      rewrite (cruns_S R j c c kj Ej), Nat.eqb_refl in E1.
      assert (Hqs : forall q, In q qs -> j < q < jl).
      { intros q Hq. rewrite E2 in Hq. apply filter_In in Hq as [Hq _]. apply in_seq in Hq. lia. }
      rewrite (mmap_select_range _ _ (clip_range first last) _ qs E1).
      + cbn [bind]. rewrite (huff_select_ok jl c kl El). cbn [bind].
        rewrite old_run_range_ok by auto. cbn [bind fst]. f_equal.
        assert (Es : seq j (S jl - j) = j :: seq (S j) (jl - S j) ++ [jl]).
        { replace (S jl - j) with (S (S (jl - S j))) by lia. cbn [seq]. f_equal.
          replace [jl] with [S j + (jl - S j)] by (f_equal; lia). rewrite <- seq_S. reflexivity. }
        rewrite Es. cbn [filter]. rewrite (nth_error_nth _ _ _ Ej). cbn [fst]. rewrite Nat.eqb_refl.
        rewrite filter_app, <- E2. cbn [filter]. rewrite (nth_error_nth _ _ _ El). cbn [fst].
        rewrite Nat.eqb_refl. cbn [map]. rewrite map_app. cbn [map].
        pose proof (rstart_mono R (S j) jl ltac:(lia)).
        assert (C1 : clip_range first last j = (first, rstart R (S j) - 1)) by (unfold clip_range; f_equal; lia).
        assert (C2 : clip_range first last jl = (rstart R jl, last)) by (unfold clip_range; f_equal; lia).
        rewrite C1, C2. reflexivity.
      + intros q Hq. specialize (Hqs q Hq). rewrite old_run_range_ok by lia. unfold clip_range.
        pose proof (rstart_mono R (S j) q ltac:(lia)). pose proof (rstart_mono R (S q) jl ltac:(lia)).
        f_equal. f_equal; lia.
  Qed.

  (** ** closest_run_break *)
  Lemma old_closest_first first last c j k : nth_error R j = Some (c, k) -> rstart R j <= first < rstart R (S j) ->
    rstart R (S j) <= last ->
    old_closest_run_break s (first, last) c = Some (rstart R (S j) - 1).
  Proof.
    intros E Hi Hl. apply nth_error_Some_lt in E as Hj. unfold old_closest_run_break. cbn [fst snd].
    rewrite (old_access_at first j c k) by auto. cbn [bind]. rewrite Nat.eqb_refl.
    rewrite (old_run_of_position_ok first j) by auto. cbn [bind]. rewrite old_run_range_ok by auto. cbn [bind].
    rewrite (proj2 (Nat.ltb_lt _ last)) by lia. reflexivity.
  Qed.

  Lemma old_closest_later first last c p : first <= p <= last -> last < length l ->
    nth_error l p = Some c -> (forall q, first <= q < p -> nth_error l q <> Some c) -> first < p -> c <= M ->
    old_closest_run_break s (first, last) c = Some p.
  Proof.
    intros Hp Hl Hc Hno Hlt HM. unfold old_closest_run_break, old_size. cbn [fst snd].
    assert (Hr : rankP (Nat.eqb c) l first = rankP (Nat.eqb c) l p).
    { assert (G : forall m, first + m <= p -> rankP (Nat.eqb c) l (first + m) = rankP (Nat.eqb c) l first).
      { induction m as [|m IH]; intros Hm; [rewrite Nat.add_0_r; reflexivity|].
        rewrite Nat.add_succ_r. destruct (nth_error l (first + m)) as [x|] eqn:Ex.
        - rewrite (rankP_S _ _ _ _ Ex), IH by lia. destruct (Nat.eqb_spec c x) as [<-|Hx]; [|lia].
          exfalso. apply (Hno (first + m)); [lia|exact Ex].
        - apply nth_error_None in Ex. lia. }
      replace p with (first + (p - first)) by lia. rewrite G by lia. reflexivity. }
    assert (Hcnt : rankP (Nat.eqb c) l p < count (Nat.eqb c) l).
    { rewrite <- (rankP_all (Nat.eqb c) l (length l)) by lia.
      apply (rankP_lt_step (Nat.eqb c) l p (length l) c Hc (Nat.eqb_refl c)). lia. }
    rewrite old_access_ok by lia.
    destruct (nth_error l first) as [c0|] eqn:E0; [|apply nth_error_None in E0; lia]. cbn [bind].
    destruct (Nat.eqb_spec c0 c) as [->|Hne]; [exfalso; apply (Hno first); [lia|exact E0]|].
    rewrite old_rank_ok by (auto; lia). cbn [bind]. rewrite (ol_n _ _ _ _ HS). fold l.
    rewrite old_rank_ok by (auto; lia). cbn [bind]. rewrite (rankP_all _ l (length l)) by lia.
    rewrite Hr. rewrite (proj2 (Nat.ltb_lt _ (count _ _))) by lia. cbn [guard bind].
    rewrite old_select_ok by auto.
    rewrite (select0_complete (Nat.eqb c) l p c Hc (Nat.eqb_refl c)). cbn [bind].
    rewrite old_access_ok, Hc by lia. cbn [bind]. rewrite Nat.eqb_refl. cbn [guard bind].
    rewrite (proj2 (Nat.leb_le p last)) by lia. reflexivity.
  Qed.
End OldOps.
