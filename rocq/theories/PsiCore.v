(** PsiCoreRLE as a whole, in terms of the runs of the sequence it was built from. *)
From Coq Require Import List Arith Bool Lia ZifyBool ZifyNat Permutation Sorted.
From Verif Require Nav.
From Verif Require Import MBase Lists MConstruct MPsi Util Runs EncProof PsiSym PsiOps PsiProof.
Import ListNotations.

Lemma nth_firstn_skipn (l : list nat) a k i : i < k -> nth i (firstn k (skipn a l)) 0 = nth (a + i) l 0.
Proof.
  intros H. rewrite <- (firstn_skipn a l) at 2.
  destruct (Nat.lt_ge_cases a (length l)) as [G|G].
  - rewrite app_nth2 by (rewrite firstn_length; lia). rewrite firstn_length, Nat.min_l by lia.
    replace (a + i - a) with i by lia. rewrite <- (firstn_skipn k (skipn a l)) at 2.
    destruct (Nat.lt_ge_cases i (length (firstn k (skipn a l)))) as [Q|Q].
    + rewrite app_nth1 by auto. auto.
    + rewrite nth_overflow by auto. symmetry. apply nth_overflow. rewrite firstn_skipn. rewrite firstn_length in Q. lia.
  - rewrite skipn_all2 by lia. rewrite firstn_nil, app_nil_r. rewrite !nth_overflow; auto; [rewrite firstn_length|cbn]; lia.
Qed.
Lemma filter_map_swap {A B} (f : A -> B) p l : filter p (map f l) = map f (filter (fun x => p (f x)) l).
Proof. induction l as [|x l IH]; auto. cbn. destruct (p (f x)); cbn; rewrite IH; auto. Qed.
Lemma filter_filter {A} (p q : A -> bool) l : filter p (filter q l) = filter (fun x => q x && p x) l.
Proof. induction l as [|x l IH]; auto. cbn. destruct (q x); cbn; rewrite IH; auto. Qed.
Lemma flat_filter_perm (f : nat -> nat) sigma l : (forall x, In x l -> f x < sigma) ->
  Permutation (flat_map (fun c => filter (fun x => f x =? c) l) (seq 0 sigma)) l.
Proof.
  intros H. assert (G : forall m, Permutation (flat_map (fun c => filter (fun x => f x =? c) l) (seq 0 m)) (filter (fun x => f x <? m) l)).
  { induction m as [|m IH].
    - replace (filter (fun x => f x <? 0) l) with (@nil nat); auto. clear. induction l; auto.
    - rewrite seq_S, flat_map_app. cbn [flat_map Nat.add]. rewrite app_nil_r, IH. clear.
      induction l as [|x l IH]; auto. cbn [filter].
      destruct (Nat.ltb_spec (f x) m), (Nat.eqb_spec (f x) m), (Nat.ltb_spec (f x) (S m)); try lia; auto.
      + cbn [app]. constructor. auto.
      + rewrite <- Permutation_middle. constructor. auto. }
  rewrite G. replace (filter (fun x => f x <? sigma) l) with l; auto.
  symmetry. clear G. induction l as [|x l IH]; auto. cbn [filter]. destruct (Nat.ltb_spec (f x) sigma) as [Q|Q].
  - f_equal. apply IH. intros; apply H; right; auto.
  - specialize (H x ltac:(left; auto)). lia.
Qed.

Section Pieces.
  Definition pkey_sorted (l : list run_piece) : Prop := StronglySorted (fun p q => pi_first p <= pi_first q) l.
  Lemma insert_piece_perm p l : Permutation (insert_piece p l) (p :: l).
  Proof.
    induction l as [|q t IH]; auto. cbn [insert_piece]. destruct (pi_first p <? pi_first q); auto.
    rewrite IH. apply perm_swap.
  Qed.
  Lemma sort_pieces_perm l : Permutation (sort_pieces l) l.
  Proof. induction l as [|p l IH]; auto. cbn [sort_pieces fold_right]. rewrite insert_piece_perm. constructor. auto. Qed.
  Lemma insert_piece_sorted p l : pkey_sorted l -> pkey_sorted (insert_piece p l).
  Proof.
    induction 1 as [|q t H IH Hf]; [repeat constructor|]. cbn [insert_piece].
    rewrite Forall_forall in Hf. destruct (Nat.ltb_spec (pi_first p) (pi_first q)) as [G|G].
    - constructor; [constructor; auto; apply Forall_forall; auto|]. apply Forall_forall. intros x [ <-|Hx]; [lia|]. specialize (Hf x Hx). lia.
    - constructor; auto. apply Forall_forall. intros x Hx. apply (Permutation_in _ (insert_piece_perm p t)) in Hx.
      destruct Hx as [ <-|Hx]; auto.
  Qed.
  Lemma sort_pieces_sorted l : pkey_sorted (sort_pieces l).
  Proof. induction l; [constructor|]. cbn [sort_pieces fold_right]. apply insert_piece_sorted. auto. Qed.
  Lemma pieces_unique T : StronglySorted (fun p q => pi_first p < pi_first q) T -> forall l, pkey_sorted l -> Permutation l T -> l = T.
  Proof.
    induction 1 as [|a T HT IH Hf]; intros l Hl HP; [apply Permutation_nil; symmetry; auto|].
    destruct l as [|x l]; [apply Permutation_nil in HP; discriminate|].
    inversion Hl as [|? ? Hl' Hfl]; subst. rewrite Forall_forall in Hf, Hfl.
    assert (x = a).
    { assert (Hx : In x (a :: T)) by (eapply Permutation_in; [exact HP|left; auto]).
      assert (Ha : In a (x :: l)) by (eapply Permutation_in; [symmetry; exact HP|left; auto]).
      destruct Hx as [Hx|Hx]; auto. destruct Ha as [Ha|Ha]; auto. specialize (Hf x Hx). specialize (Hfl a Ha). lia. }
    subst x. f_equal. apply IH; auto. eapply Permutation_cons_inv; eauto.
  Qed.
  Lemma sort_pieces_eq l T : StronglySorted (fun p q => pi_first p < pi_first q) T -> Permutation l T -> sort_pieces l = T.
  Proof. intros H HP. apply pieces_unique; auto; [apply sort_pieces_sorted|]. rewrite sort_pieces_perm. auto. Qed.
End Pieces.

Definition piece_rows (p : run_piece) : list nat := seq (pi_first p) (pi_last p - pi_first p).

(** The psi core of a sequence. *)
Definition core (b : list nat) (sigma h : nat) : psi_core :=
  mk_psi_core (length b) (2 * h) (nth 0 b 0) (core_partial b h sigma).

Section Core.
  Variables (b : list nat) (sigma h : nat).
  Let n := length b.
  Let pc := core b sigma h.
  Let R := rle b.
  Let hs := map fst R.
  Let r := length R.
  Let HR : wf_runs R := rle_wf b.
  Notation sym k := (nth k hs 0).
  Notation hrk c k := (rankP (Nat.eqb c) hs k).
  Notation rs k := (rstart R k).

  Lemma hs_length : length hs = r.
  Proof. apply map_length. Qed.
  Lemma sym_fst k : sym k = fst (nth k R (0, 0)).
  Proof. unfold hs. change 0 with (fst (0, 0)) at 1. apply map_nth. Qed.
  Lemma sym_runs_occs c : sym_runs b c = occs hs c.
  Proof.
    unfold sym_runs, occs. rewrite hs_length. fold R. fold r. apply filter_ext. intros k. rewrite sym_fst. auto.
  Qed.
  Lemma sym_row k i : k < r -> rs k <= i < rs (S k) -> nth i b 0 = sym k.
  Proof. intros Hk Hi. rewrite sym_fst. apply (R_sym b k i); auto. Qed.
  Lemma sym_diff k : S k < r -> sym k <> sym (S k).
  Proof. intros H. rewrite !sym_fst. apply (R_diff b k H). Qed.
  Lemma rs_r : rs r = n.
  Proof. apply R_n. Qed.
  Lemma rs_lt k : k < r -> rs k < rs (S k).
  Proof. apply rstart_lt; auto. Qed.
  Lemma rs_n k : rs k <= n.
  Proof. pose proof (rstart_le R k) as H. unfold R in H at 2. rewrite expand_rle in H. auto. Qed.
  Lemma rs_lt_n k : k < r -> rs k < n.
  Proof. intros H. pose proof (rs_lt k H). pose proof (rs_n (S k)). lia. Qed.
  Lemma rs_over k : r <= k -> rs k = n.
  Proof. intros H. rewrite <- rs_r. unfold rstart. rewrite !psum_all; auto; rewrite lens_length; auto. Qed.
  Lemma row_run i : i < n -> exists k, k < r /\ rs k <= i < rs (S k).
  Proof. intros H. apply run_find. unfold R. rewrite expand_rle. auto. Qed.
  Lemma hrk_at c j : j < length (occs hs c) -> hrk c (nth j (occs hs c) 0) = j.
  Proof.
    intros H. set (k := nth j (occs hs c) 0). pose proof (nth_In (occs hs c) 0 H) as Hin. fold k in Hin.
    apply occs_in in Hin. destruct Hin as [Hk Hs]. pose proof (occs_nth hs k Hk) as E. rewrite Hs in E.
    pose proof (rk_lt hs k Hk) as Hl. rewrite Hs in Hl.
    apply (proj1 (NoDup_nth (occs hs c) 0)); auto. apply ssorted_NoDup, occs_sorted.
  Qed.
  (** The j-th run of a symbol is run k, or the end. *)
  Lemma run_at c j : j <= length (runs_of b c) -> exists k, k <= r /\ hrk c k = j /\ (k < r -> sym k = c) /\ (k < r <-> j < length (runs_of b c)) /\
    nth j (runs_of b c) (n, n) = (rs k, rs (S k)).
  Proof.
    intros H. rewrite runs_of_length, sym_runs_occs in *. destruct (Nat.eq_dec j (length (occs hs c))) as [E|N].
    - exists r. split; [lia|]. split; [|split; [lia|split; [lia|]]].
      + rewrite E, occs_length, <- hs_length. apply rankP_all. auto.
      + rewrite nth_overflow by (rewrite runs_of_length, sym_runs_occs; lia). rewrite (rs_over (S r)), (rs_over r); auto; lia.
    - assert (Hj : j < length (occs hs c)) by lia. set (k := nth j (occs hs c) 0).
      pose proof (nth_In (occs hs c) 0 Hj) as Hin. fold k in Hin. apply occs_in in Hin. rewrite hs_length in Hin. destruct Hin as [Hk Hs].
      exists k. split; [lia|]. split; [apply hrk_at; auto|]. split; auto. split; [lia|].
      destruct (runs_of_nth b c j (n, n)) as (k' & _ & _ & E & ->); [rewrite sym_runs_occs; auto|].
      rewrite sym_runs_occs in E. fold k in E. subst k'. auto.
  Qed.
  Lemma run_idx c k : k < r -> sym k = c -> hrk c k < length (runs_of b c) /\ nth (hrk c k) (runs_of b c) (n, n) = (rs k, rs (S k)).
  Proof.
    intros Hk Hs. assert (Hk' : k < length hs) by (rewrite hs_length; auto).
    pose proof (rk_lt hs k Hk') as H. pose proof (occs_nth hs k Hk') as E. rewrite Hs in *.
    split; [rewrite runs_of_length, sym_runs_occs; auto|].
    destruct (runs_of_nth b c (hrk c k) (n, n)) as (k' & _ & _ & E' & ->); [rewrite sym_runs_occs; auto|].
    rewrite sym_runs_occs, E in E'. subst k'. auto.
  Qed.
  Lemma hrk_lt c k k' : k < k' -> k < r -> sym k = c -> hrk c k < hrk c k'.
  Proof.
    intros H Hk Hs. apply (rankP_lt_step (Nat.eqb c) hs k k' (sym k)); auto.
    - apply nth_error_nth_lt. rewrite hs_length. auto.
    - apply Nat.eqb_eq. auto.
  Qed.

  Definition mk_piece_of (first last k : nat) : run_piece :=
    mk_piece (Nat.max first (rs k)) (Nat.min last (rs (S k))) (sym k) (hrk (sym k) k) (first <=? rs k).
  Definition meets (first last k : nat) : bool := Nat.max first (rs k) <? Nat.min last (rs (S k)).
  (** What a piece of a run is. *)
  Definition piece_ok (p : run_piece) : Prop :=
    exists k, k < r /\ sym k = pi_c p /\ rs k <= pi_first p /\ pi_first p < pi_last p /\ pi_last p <= rs (S k) /\
      pi_run p = hrk (pi_c p) k /\ pi_is_first p = (pi_first p =? rs k).
  Hypothesis Hlt : forall x, In x b -> x < sigma.
  Lemma sym_sigma k : k < r -> sym k < sigma.
  Proof. intros H. rewrite sym_fst. apply (R_sym_lt b sigma Hlt k H). Qed.
  Hypothesis Hocc : forall c, c < sigma -> In c b.
  Hypothesis Hh : 0 < h.
  Hypothesis Hn : n < 2 ^ 64.
  Hypothesis Hn0 : 0 < n.

  Section Sym.
    Variable c : nat.
    Hypothesis Hc : c < sigma.
    Let L := runs_of b c.
    Let HneL : 0 < length L := runs_of_pos b sigma Hlt Hocc c Hc.
    Let HrL := runs_of_run b c.
    Let HgL := runs_of_gap b c.
    Let HpL := core_part b sigma h c Hc.

    Theorem core_select k : k < length (occs b c) -> pc_select pc c (S k) = Some (nth k (occs b c) 0).
    Proof.
      intros H. rewrite <- vals_runs in *. apply (o_select pc c h L HneL HrL HgL Hh Hn eq_refl HpL). auto.
    Qed.
    Theorem core_rank v : v <= n -> pc_rank pc c v = Some (rankP (Nat.eqb c) b v).
    Proof.
      intros H. rewrite (o_rank pc c h L HneL HrL HgL Hh Hn eq_refl HpL v H). unfold L. rewrite vals_runs, occs_rank; auto.
    Qed.
    Theorem core_select_report i : i < length (occs b c) -> exists k, k < r /\ sym k = c /\ rs k <= nth i (occs b c) 0 < rs (S k) /\
      pc_select_report pc c (S i) = Some (nth i (occs b c) 0, rs k, rs (S k), hrk c k).
    Proof.
      intros H. rewrite <- vals_runs in *.
      destruct (o_select_report pc c h L HneL HrL HgL Hh Hn eq_refl HpL i H) as (q & Hq & Hb & E).
      destruct (run_at c q ltac:(fold L; lia)) as (k & Hk & Ej & Hs & Hkq & En). fold L in Hkq, En.
      change (pc_n pc) with n in E. rewrite En in E. cbn [fst snd] in E. apply Hkq in Hq as Hkr.
      exists k. rewrite Ej. split; auto. split; auto. split; auto.
      pose proof (nth_vals n L q i Hq Hb) as Ev. rewrite En in Ev. cbn [fst] in Ev. fold L. rewrite Ev.
      pose proof (before_S n L q Hq) as HS. rewrite En in HS. cbn [fst snd] in HS. lia.
    Qed.
    Theorem core_rank_report v : v <= n -> exists k, k <= r /\ (k < r -> sym k = c) /\
      (forall k', k' < k -> sym k' = c -> rs (S k') <= Nat.min v (n - 1)) /\ Nat.min v (n - 1) < rs (S k) /\
      pc_rank_report pc c v = Some (rankP (Nat.eqb c) b v, rs k, rs (S k), hrk c k).
    Proof.
      intros H.
      destruct (o_rank_report pc c h L HneL HrL HgL Hh Hn eq_refl HpL v Hn0 H) as (q & Hq & He & Hv & E).
      change (pc_n pc) with n in *.
      destruct (run_at c q Hq) as (k & Hk & Ej & Hs & Hkq & En). fold L in Hkq, En.
      rewrite En in E, Hv. cbn [fst snd] in E, Hv. exists k. split; auto. split; auto. split; [|split; auto].
      - intros k' Hk' Hs'. pose proof (hrk_lt c k' k Hk' ltac:(lia) Hs') as G. rewrite Ej in G.
        specialize (He _ G). destruct (run_idx c k' ltac:(lia) Hs') as [_ E']. fold L in E'. rewrite E' in He. auto.
      - rewrite E, Ej. unfold L. rewrite vals_runs, occs_rank by auto. auto.
    Qed.
    Theorem core_soft v : v <= n -> exists x,
      pc_rank_soft_run_c pc c v = Some (count (fun k => rs k <=? v) (occs hs c), x) /\
      (forall k, k < r -> sym k = c -> rs k <= v < rs (S k) -> x = rs k) /\
      ((forall k, k < r -> sym k = c -> ~ rs k <= v < rs (S k)) -> x = n).
    Proof.
      intros H. destruct (o_soft pc c h L HneL HrL HgL Hh Hn eq_refl HpL v H) as (x & E & H1 & H2).
      change (pc_n pc) with n in *. exists x. split; [|split].
      - rewrite E. f_equal. f_equal. rewrite <- sym_runs_occs. unfold L. rewrite runs_of_length.
        rewrite <- (map_nth_self (sym_runs b c)) at 2. rewrite count_map. apply count_ext_in. intros j Hj. apply in_seq in Hj.
        destruct (runs_of_nth b c j (n, n) ltac:(lia)) as (k & _ & _ & <- & ->). auto.
      - intros k Hk Hs Hx. destruct (run_idx c k Hk Hs) as [G1 G2]. fold L in G1, G2.
        specialize (H1 _ G1). rewrite G2 in H1. cbn [fst snd] in H1. auto.
      - intros Hno. apply H2. intros j Hj. destruct (run_at c j ltac:(fold L; lia)) as (k & Hk & Ej & Hs & Hkq & En).
        fold L in Hkq, En. rewrite En. cbn [fst snd]. apply Hno; tauto.
    Qed.
    Theorem core_exist v : v <= n -> pc_exist pc c v = Some ((v <? n) && (nth v b 0 =? c)).
    Proof.
      intros H. unfold pc_exist. destruct (core_soft v H) as (x & E & H1 & H2). rewrite E. cbn [bind].
      change (pc_n pc) with n. f_equal. destruct (Nat.ltb_spec v n) as [Hv|Hv].
      - destruct (row_run v Hv) as (k & Hk & Hkv). rewrite (sym_row k v Hk Hkv).
        pose proof (rs_lt_n k Hk). cbn [andb]. destruct (Nat.eqb_spec (sym k) c) as [Q|Q].
        + rewrite (H1 k Hk Q Hkv). lia.
        + rewrite H2; [lia|]. intros k' Hk' Hs' Hkv'. assert (k = k') by (eapply run_unique; eauto). subst k'. auto.
      - cbn [andb]. rewrite H2; [lia|]. intros k Hk _ Hkv. pose proof (rs_n (S k)). lia.
    Qed.
    Theorem core_count_runs : pc_count_runs pc c = Some (length (occs hs c)).
    Proof.
      rewrite (o_count_runs pc c h L HneL HrL HgL Hh Hn eq_refl HpL). unfold L. rewrite runs_of_length, sym_runs_occs. auto.
    Qed.
    Theorem core_traverse : pc_traverse pc c = Some (map (fun k => (rs k, rs (S k))) (occs hs c)).
    Proof.
      rewrite (o_traverse pc c h L HneL HrL HgL Hh Hn eq_refl HpL). unfold L, runs_of. rewrite sym_runs_occs. auto.
    Qed.
    Theorem core_split_c first last : first < n -> last <= n ->
      pc_split_in_runs_c pc c first last = Some (map (mk_piece_of first last) (filter (meets first last) (occs hs c))).
    Proof.
      intros H1 H2. rewrite (o_split pc c h L HneL HrL HgL Hh Hn eq_refl HpL first last H1 H2). f_equal.
      change (pc_n pc) with n. unfold row_pieces, L. rewrite runs_of_length, sym_runs_occs.
      rewrite <- (map_nth_self (occs hs c)) at 2. rewrite filter_map_swap, map_map.
      assert (G : forall j, j < length (occs hs c) -> nth j (runs_of b c) (n, n) = (rs (nth j (occs hs c) 0), rs (S (nth j (occs hs c) 0)))).
      { intros j Hj. destruct (runs_of_nth b c j (n, n)) as (k & _ & _ & -> & ->); rewrite sym_runs_occs; auto. }
      transitivity (map (row_piece n c (runs_of b c) first last) (filter (fun x => meets first last (nth x (occs hs c) 0)) (seq 0 (length (occs hs c))))).
      - f_equal. apply filter_ext_in. intros j Hj. apply in_seq in Hj. unfold row_inside, meets. rewrite (G j) by lia. auto.
      - apply map_ext_in. intros j Hj. apply filter_In in Hj. destruct Hj as [Hj _]. apply in_seq in Hj.
        unfold row_piece, mk_piece_of. rewrite (G j) by lia. cbn [fst snd].
        pose proof (nth_In (occs hs c) 0 (n := j) ltac:(lia)) as Hin. apply occs_in in Hin. destruct Hin as [_ ->].
        rewrite hrk_at by lia. auto.
    Qed.
    Theorem core_forward x y : x < y -> y <= length (occs b c) -> exists ps,
      pc_forward_runs pc c (S x) (S y) = Some ps /\ rank_pieces n c L ps x y.
    Proof.
      intros H1 H2. rewrite <- vals_runs in H2. exact (o_forward pc c h L HneL HrL HgL Hh Hn eq_refl HpL x y H1 H2).
    Qed.
    Lemma rank_pieces_ok ps : forall x y, rank_pieces n c L ps x y -> y <= length (occs b c) ->
      x <= y /\ Forall piece_ok ps /\ Forall (fun p => pi_c p = c) ps /\
      flat_map piece_rows ps = firstn (y - x) (skipn x (occs b c)).
    Proof.
      induction ps as [|p ps IH]; intros x y Hp Hy; cbn [rank_pieces] in Hp.
      - subst. rewrite Nat.sub_diag. repeat split; auto.
      - destruct Hp as (j & e & Hj & Hxe & Hey & Hb & He & -> & _ & Ht).
        destruct (IH e y Ht Hy) as (I1 & I2 & I3 & I4). split; [lia|].
        destruct (run_at c j ltac:(fold L; lia)) as (k & Hk & Ej & Hs & Hkq & En). fold L in Hkq, En.
        apply Hkq in Hj as Hkr. pose proof (before_S n L j Hj) as HS. rewrite En in HS |- *. cbn [fst snd] in HS |- *.
        split; [|split].
        + constructor; auto. exists k. cbn [pi_first pi_last pi_c pi_run pi_is_first]. repeat split; auto; try lia.
        + constructor; auto.
        + cbn [flat_map]. rewrite I4. unfold piece_rows at 1. cbn [pi_first pi_last].
          replace (rs k + (e - before L j) - (rs k + (x - before L j))) with (e - x) by lia.
          replace (firstn (y - x) (skipn x (occs b c))) with
            (firstn (e - x) (skipn x (occs b c)) ++ firstn (y - e) (skipn e (occs b c))).
          * f_equal. apply nth_ext with (d := 0) (d' := 0).
            { rewrite seq_length, firstn_length, skipn_length. lia. }
            intros i Hi. rewrite seq_length in Hi. rewrite nth_firstn_skipn, seq_nth by lia.
            rewrite <- vals_runs. fold L. rewrite (nth_vals n L j) by (auto; lia). rewrite En. cbn [fst]. lia.
          * rewrite <- (firstn_skipn (e - x) (firstn (y - x) (skipn x (occs b c)))). f_equal.
            -- rewrite firstn_firstn. f_equal. lia.
            -- rewrite skipn_firstn_comm. f_equal; [lia|]. rewrite Nav.skipn_skipn. f_equal. lia.
    Qed.
  End Sym.

  (** Run counts over all symbols *)
  Lemma core_partial_length : length (pc_partial pc) = sigma.
  Proof. unfold pc, core, core_partial. cbn [pc_partial]. rewrite map_length, seq_length. auto. Qed.
  Lemma count_sym_S (P : nat -> bool) m :
    count (fun k => P k && (sym k <? S m)) (seq 0 r) = count (fun k => P k && (sym k <? m)) (seq 0 r) + count P (occs hs m).
  Proof.
    unfold occs. rewrite hs_length. unfold count. rewrite filter_filter. clear.
    induction (seq 0 r) as [|k l IH]; auto. cbn [filter].
    destruct (P k), (Nat.ltb_spec (sym k) (S m)), (Nat.ltb_spec (sym k) m), (Nat.eqb_spec (sym k) m); cbn [andb length]; lia.
  Qed.
  Lemma core_soft_all v : v <= n -> exists x, pc_rank_soft_run pc v = Some (count (fun k => rs k <=? v) (seq 0 r), x) /\
    (forall k, k < r -> rs k <= v < rs (S k) -> x = rs k) /\ (v = n -> x = n).
  Proof.
    intros Hv. unfold pc_rank_soft_run. rewrite core_partial_length. change (pc_n pc) with n.
    set (f := fun st i => _).
    assert (G : forall m, m <= sigma -> exists x,
      mfold f (seq 0 m) (0, n) = Some (count (fun k => (rs k <=? v) && (sym k <? m)) (seq 0 r), x) /\
      (forall k, k < r -> rs k <= v < rs (S k) -> sym k < m -> x = rs k) /\
      ((forall k, k < r -> rs k <= v < rs (S k) -> m <= sym k) -> x = n)).
    { induction m as [|m IH]; intros Hm.
      - exists n. cbn [seq mfold]. split; [|split; auto; intros; lia]. f_equal. f_equal. symmetry. apply count_false. intros; lia.
      - destruct (IH ltac:(lia)) as (x & E & H1 & H2). rewrite seq_S, mfold_app, E. cbn [bind mfold Nat.add]. unfold f at 1.
        destruct (core_soft m ltac:(lia) v Hv) as (y & Ey & Y1 & Y2). rewrite Ey. cbn [bind].
        eexists. split; [rewrite count_sym_S; reflexivity|].
        assert (D : (exists k, k < r /\ rs k <= v < rs (S k)) \/ (forall k, k < r -> ~ rs k <= v < rs (S k))).
        { destruct (Nat.lt_ge_cases v n) as [Q|Q]; [left; apply row_run; auto|right].
          intros k Hk. pose proof (rs_n (S k)). lia. }
        destruct D as [(k & Hk & Hkv)|D].
        + assert (U : forall k', rs k' <= v < rs (S k') -> k' = k) by (intros k' Hk'; eapply run_unique; eauto).
          pose proof (rs_lt_n k Hk) as Hkn.
          destruct (Nat.eq_dec (sym k) m) as [Q|Q].
          * rewrite (Y1 k Hk Q Hkv). destruct (Nat.eqb_spec (rs k) n); [lia|]. cbn [negb]. split.
            -- intros k' Hk' Hkv' _. rewrite (U k' Hkv'). auto.
            -- intros Hno. specialize (Hno k Hk Hkv). lia.
          * rewrite (Y2); [|intros k' Hk' Hs' Hkv'; rewrite (U k' Hkv') in Hs'; lia].
            rewrite Nat.eqb_refl. cbn [negb]. split.
            -- intros k' Hk' Hkv' Hs'. apply H1; auto. rewrite (U k' Hkv') in *. lia.
            -- intros Hno. apply H2. intros k' Hk' Hkv'. specialize (Hno k' Hk' Hkv'). lia.
        + rewrite Y2 by (intros k Hk _ Hkv; apply (D k); auto). rewrite Nat.eqb_refl. cbn [negb]. split.
          * intros k Hk Hkv. exfalso. apply (D k); auto.
          * intros _. apply H2. intros k Hk Hkv. exfalso. apply (D k); auto. }
    destruct (G sigma (Nat.le_refl _)) as (x & E & H1 & H2). exists x. split; [|split].
    - rewrite E. f_equal. f_equal. apply count_ext_in. intros k Hk. apply in_seq in Hk.
      pose proof (sym_sigma k ltac:(lia)). lia.
    - intros k Hk Hkv. apply H1; auto. apply sym_sigma. auto.
    - intros ->. apply H2. intros k Hk Hkv. pose proof (rs_n (S k)). lia.
  Qed.
  Theorem core_rank_run v : v <= n -> pc_rank_run pc v = Some (count (fun k => rs k <? v) (seq 0 r)).
  Proof.
    intros Hv. unfold pc_rank_run. destruct (core_soft_all v Hv) as (x & E & H1 & H2). rewrite E. cbn [bind].
    change (pc_n pc) with n. f_equal.
    destruct (Nat.eqb_spec v n) as [Q|Q]; cbn [negb andb].
    - apply count_ext_in. intros k Hk. apply in_seq in Hk. pose proof (rs_lt_n k ltac:(lia)). lia.
    - destruct (row_run v ltac:(lia)) as (k & Hk & Hkv). rewrite (H1 k Hk Hkv).
      assert (A : forall m, m <= r -> (forall j, j < m -> rs j <= v) -> (forall j, m <= j -> j < r -> v < rs j) -> count (fun k => rs k <=? v) (seq 0 r) = m).
      { intros m Hm A1 A2. replace r with (m + (r - m)) by lia. rewrite seq_app, count_app, count_true, count_false, seq_length; [lia| |].
        - intros j Hj. apply in_seq in Hj. specialize (A2 j ltac:(lia) ltac:(lia)). lia.
        - intros j Hj. apply in_seq in Hj. specialize (A1 j ltac:(lia)). lia. }
      assert (B : forall m, m <= r -> (forall j, j < m -> rs j < v) -> (forall j, m <= j -> j < r -> v <= rs j) -> count (fun k => rs k <? v) (seq 0 r) = m).
      { intros m Hm A1 A2. replace r with (m + (r - m)) by lia. rewrite seq_app, count_app, count_true, count_false, seq_length; [lia| |].
        - intros j Hj. apply in_seq in Hj. specialize (A2 j ltac:(lia) ltac:(lia)). lia.
        - intros j Hj. apply in_seq in Hj. specialize (A1 j ltac:(lia)). lia. }
      rewrite (A (S k)); [|lia| |].
      + destruct (Nat.eqb_spec (rs k) v) as [G|G].
        * rewrite (B k); try lia.
          -- intros j Hj. pose proof (rstart_strict R HR j k Hj ltac:(fold r; lia)). lia.
          -- intros j Hj _. pose proof (rstart_mono R k j Hj). lia.
        * rewrite (B (S k)); try lia.
          -- intros j Hj. pose proof (rstart_mono R j k ltac:(lia)). lia.
          -- intros j Hj _. pose proof (rstart_mono R (S k) j Hj). lia.
      + intros j Hj. pose proof (rstart_mono R j k ltac:(lia)). lia.
      + intros j Hj _. pose proof (rstart_mono R (S k) j Hj). lia.
  Qed.
  Lemma core_rank_run_head k : k < r -> pc_rank_run pc (rs k) = Some k.
  Proof.
    intros Hk. rewrite core_rank_run by apply rs_n. f_equal. replace r with (k + (r - k)) by lia.
    rewrite seq_app, count_app, count_true, count_false, seq_length; [lia| |].
    - intros j Hj. apply in_seq in Hj. pose proof (rstart_mono R k j ltac:(lia)). lia.
    - intros j Hj. apply in_seq in Hj. pose proof (rstart_strict R HR j k ltac:(lia) ltac:(fold r; lia)). lia.
  Qed.
  Theorem core_rank_char_run c : c <= sigma -> pc_rank_char_run pc c = Some (count (fun x => x <? c) hs).
  Proof.
    unfold pc_rank_char_run. induction c as [|c IH]; intros Hc.
    - cbn [seq mfold]. f_equal. symmetry. apply count_false. auto.
    - rewrite seq_S, mfold_app, IH by lia. cbn [bind mfold Nat.add].
      pose proof (core_count_runs c ltac:(lia)) as E. unfold pc_count_runs in E.
      destruct (nth_error (pc_partial pc) c) as [[ev rk]|]; [|discriminate]. cbn [bind] in *. assert (E' : ev_size ev / 2 = length (occs hs c)) by congruence. rewrite E'.
      rewrite count_lt_S, <- occs_length. auto.
  Qed.

  (** Splitting a range of rows *)
  Definition split_pieces (first last : nat) : list run_piece :=
    map (mk_piece_of first last) (filter (meets first last) (seq 0 r)).
  Theorem core_split first last : first < n -> last <= n -> exists ps,
    pc_split_in_runs pc first last = Some ps /\ Permutation ps (split_pieces first last).
  Proof.
    intros H1 H2. unfold pc_split_in_runs. rewrite core_partial_length.
    rewrite (mmap_map _ (fun c => map (mk_piece_of first last) (filter (meets first last) (occs hs c)))).
    - cbn [bind]. eexists. split; [eauto|]. unfold split_pieces.
      rewrite <- (map_map (fun c => filter (meets first last) (occs hs c)) (map (mk_piece_of first last))), <- concat_map, <- flat_map_concat_map. apply Permutation_map.
      transitivity (flat_map (fun c => filter (fun k => sym k =? c) (filter (meets first last) (seq 0 r))) (seq 0 sigma)).
      + apply Permutation_refl'. clear -Hlt. induction (seq 0 sigma) as [|c l IH]; auto. cbn [flat_map]. f_equal; auto.
        unfold occs. rewrite hs_length, !filter_filter. apply filter_ext. intros k. apply andb_comm.
      + apply flat_filter_perm. intros k Hk. apply filter_In in Hk. destruct Hk as [Hk _]. apply in_seq in Hk. apply sym_sigma. lia.
    - intros c Hc. apply in_seq in Hc. apply core_split_c; auto. lia.
  Qed.
  Lemma split_sorted first last : StronglySorted (fun p q => pi_first p < pi_first q) (split_pieces first last).
  Proof.
    unfold split_pieces. assert (G : forall s m, s + m <= r -> StronglySorted (fun p q => pi_first p < pi_first q) (map (mk_piece_of first last) (filter (meets first last) (seq s m)))).
    { intros s m; revert s; induction m as [|m IH]; intros s Hs; [constructor|]. cbn [seq filter].
      destruct (meets first last s) eqn:E; [|apply IH; lia]. cbn [map]. constructor; [apply IH; lia|].
      apply Forall_forall. intros p Hp. apply in_map_iff in Hp. destruct Hp as (k & <- & Hk). apply filter_In in Hk. destruct Hk as [Hk Hm].
      apply in_seq in Hk. unfold mk_piece_of, meets in *. cbn [pi_first]. pose proof (rstart_mono R (S s) k ltac:(lia)).
      pose proof (rs_lt s ltac:(lia)). lia. }
    apply G. lia.
  Qed.
  Theorem core_split_sorted first last : first < n -> last <= n ->
    pc_split_in_sorted_runs pc first last = Some (split_pieces first last).
  Proof.
    intros H1 H2. unfold pc_split_in_sorted_runs. destruct (core_split first last H1 H2) as (ps & -> & HP). cbn [bind].
    f_equal. apply sort_pieces_eq; auto using split_sorted.
  Qed.
  Lemma split_pieces_ok first last : Forall piece_ok (split_pieces first last).
  Proof.
    apply Forall_forall. intros p Hp. apply in_map_iff in Hp. destruct Hp as (k & <- & Hk). apply filter_In in Hk.
    destruct Hk as [Hk Hm]. apply in_seq in Hk. exists k. unfold meets in Hm. unfold mk_piece_of. cbn [pi_first pi_last pi_c pi_run pi_is_first].
    repeat split; auto; lia.
  Qed.
  Lemma split_rows first last : last <= n -> flat_map piece_rows (split_pieces first last) = seq first (last - first).
  Proof.
    intros Hl. unfold split_pieces.
    assert (G : forall k, k <= r -> flat_map piece_rows (map (mk_piece_of first last) (filter (meets first last) (seq 0 k))) = seq first (Nat.min last (rs k) - first)).
    { induction k as [|k IH]; intros Hk.
      - cbn [seq filter map flat_map]. unfold rstart. rewrite psum_0, Nat.min_0_r. auto.
      - rewrite seq_S, filter_app, map_app, flat_map_app, IH by lia. cbn [filter Nat.add].
        pose proof (rs_lt k Hk). destruct (meets first last k) eqn:E; unfold meets in E.
        + cbn [map flat_map]. rewrite app_nil_r. unfold piece_rows, mk_piece_of. cbn [pi_first pi_last].
          replace (Nat.max first (rs k)) with (first + (Nat.min last (rs k) - first)) by lia. rewrite <- seq_app. f_equal. lia.
        + cbn [map flat_map]. rewrite app_nil_r. f_equal. lia. }
    rewrite (G r (Nat.le_refl _)), rs_r. f_equal. lia.
  Qed.

  (** Psi through the functor *)
  Theorem core_psi q : q < n -> psi_fn (pc_select pc) (cums b sigma) q = nth_error (psis b sigma) q.
  Proof.
    intros Hq. destruct (row_symbol b sigma Hlt q Hq) as (c & k & Hc & Hk & ->).
    unfold psi_fn. rewrite (compute_c_ok b sigma Hlt Hocc c k Hc Hk). cbn [bind]. rewrite (cums_nth b sigma c ltac:(lia)). cbn [bind].
    replace (count (fun x => x <? c) b + k - count (fun x => x <? c) b + 1) with (S k) by lia.
    rewrite (core_select c Hc k Hk). rewrite (psis_nth b sigma c k Hc Hk). auto.
  Qed.
  Theorem core_psi_report q : q < n -> exists c k, compute_c (cums b sigma) q = Some c /\ k < r /\ sym k = c /\
    rs k <= nth q (psis b sigma) 0 < rs (S k) /\
    psi_fn (pc_select_report pc) (cums b sigma) q = Some (nth q (psis b sigma) 0, rs k, rs (S k), hrk c k).
  Proof.
    intros Hq. destruct (row_symbol b sigma Hlt q Hq) as (c & i & Hc & Hi & ->).
    destruct (core_select_report c Hc i Hi) as (k & Hk & Hs & Hv & E).
    pose proof (psis_nth b sigma c i Hc Hi) as Ep. apply nth_error_nth with (d := 0) in Ep.
    exists c, k. rewrite Ep. split; [apply (compute_c_ok b sigma Hlt Hocc c i Hc Hi)|]. split; auto. split; auto. split; auto.
    unfold psi_fn. rewrite (compute_c_ok b sigma Hlt Hocc c i Hc Hi). cbn [bind]. rewrite (cums_nth b sigma c ltac:(lia)). cbn [bind].
    replace (count (fun x => x <? c) b + i - count (fun x => x <? c) b + 1) with (S i) by lia. auto.
  Qed.
End Core.
