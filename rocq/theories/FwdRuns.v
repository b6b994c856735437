(** The runs of the forward enumeration: split of a run through Psi, split of a range, samples of a
    run, and the toehold value by jumps. *)
From Coq Require Import List Arith Bool Lia ZifyBool ZifyNat Permutation.
From Verif Require Import Spec MBase Lists FM MRle Runs RleProof MConstruct MPhi MRIndex MSrIndex Util Phi
  ConstructProof Nav PhiProof BaseProof MPsi EncProof PsiSym PsiOps PsiProof PsiCore PsiSpec PsiText
  MCsa CsaNav CsaPhi PsiOrder CsaProof MSrCsa FwdRange FwdSubs FwdValid.
Import ListNotations.

Lemma firstn_skipn_map (l : list nat) x m : x + m <= length l ->
  firstn m (skipn x l) = map (fun i => nth i l 0) (seq x m).
Proof.
  intros H. apply nth_ext with (d := 0) (d' := 0).
  - rewrite firstn_length, skipn_length, map_length, seq_length. lia.
  - intros i Hi. rewrite firstn_length, skipn_length in Hi. rewrite nth_firstn_skipn by lia.
    rewrite (nth_map_lt _ _ _ 0) by (rewrite seq_length; lia). rewrite seq_nth by lia. auto.
Qed.

Section Split.
  Variables (b : list nat) (sigma h : nat).
  Hypothesis Hlt : forall x, In x b -> x < sigma.
  Hypothesis Hocc : forall c, c < sigma -> In c b.
  Hypothesis Hh : 0 < h.
  Hypothesis Hn : length b < 2 ^ 64.
  Hypothesis Hn0 : 0 < length b.
  Notation n := (length b).
  Notation pc := (core b sigma h).
  Notation C := (cums b sigma).
  Notation cc c := (count (fun x => x <? c) b).
  Notation psi q := (nth q (psis b sigma) 0).
  Let HS c : cc (S c) = cc c + length (occs b c) := cc_S b c.
  Lemma occs_pos c : c < sigma -> 0 < length (occs b c).
  Proof.
    intros Hc. destruct (In_nth _ _ 0 (Hocc c Hc)) as (i & Hi & E).
    assert (G : In i (occs b c)) by (apply occs_in; auto). destruct (occs b c); [destruct G|cbn; lia].
  Qed.
  Lemma sym_pieces c x y : c < sigma -> x < y -> y <= length (occs b c) -> exists ps,
    pc_forward_runs pc c (S x) (S y) = Some ps /\ Forall (piece_ok b) ps /\
    flat_map piece_rows ps = map (fun q => psi q) (seq (cc c + x) (y - x)).
  Proof.
    intros Hc Hxy Hy. destruct (core_forward b sigma h Hlt Hocc Hh Hn c Hc x y Hxy Hy) as (ps & E & Hp).
    destruct (rank_pieces_ok b sigma h Hlt Hocc Hh Hn Hn0 c Hc ps x y Hp Hy) as (_ & H1 & _ & H2).
    exists ps. split; auto. split; auto. rewrite H2, firstn_skipn_map by lia.
    apply nth_ext with (d := 0) (d' := 0); [rewrite !map_length, !seq_length; auto|].
    intros i Hi. rewrite map_length, seq_length in Hi.
    rewrite !(nth_map_lt _ _ _ 0) by (rewrite seq_length; lia). rewrite !seq_nth by lia.
    pose proof (psis_nth b sigma c (x + i) Hc ltac:(lia)) as Ep. apply nth_error_nth with (d := 0) in Ep.
    rewrite <- Ep. f_equal. lia.
  Qed.
  Lemma split_more_ok last : last <= n -> forall fuel c, c < sigma -> sigma - c <= fuel -> exists ps,
    split_run_more fuel C pc c (cc (S c)) last = Some ps /\ Forall (piece_ok b) ps /\
    flat_map piece_rows ps = map (fun q => psi q) (seq (cc (S c)) (last - cc (S c))).
  Proof.
    intros Hl. induction fuel as [|f IH]; intros c Hc Hf; [lia|]. cbn [split_run_more].
    destruct (Nat.ltb_spec (cc (S c)) last) as [H|H].
    - assert (Hc1 : S c < sigma).
      { destruct (Nat.eq_dec (S c) sigma) as [E|]; [|lia]. exfalso. rewrite E, (cc_sigma b sigma Hlt) in H. lia. }
      rewrite (cums_nth b sigma (S c + 1)) by lia. cbn [bind]. replace (S c + 1) with (S (S c)) by lia.
      pose proof (occs_pos (S c) Hc1) as Hp. pose proof (HS (S c)) as HS1.
      set (y := Nat.min last (cc (S (S c))) - cc (S c)).
      destruct (sym_pieces (S c) 0 y) as (ps & E & P1 & P2); [auto|unfold y; lia|unfold y; lia|].
      replace (y + 1) with (S y) by lia. rewrite E. cbn [bind].
      destruct (IH (S c) Hc1 ltac:(lia)) as (ps' & E' & P1' & P2'). rewrite E'. cbn [bind].
      exists (ps ++ ps'). split; auto. split; [apply Forall_app; auto|].
      rewrite flat_map_app, P2, P2', <- map_app. f_equal. rewrite Nat.add_0_r, Nat.sub_0_r.
      replace (last - cc (S c)) with (y + (last - cc (S (S c)))) by (unfold y; lia).
      rewrite seq_app. f_equal. unfold y. destruct (Nat.le_gt_cases (cc (S (S c))) last).
      + f_equal. lia.
      + replace (last - cc (S (S c))) with 0 by lia. auto.
    - exists []. replace (last - cc (S c)) with 0 by lia. repeat split; auto.
  Qed.
  Theorem csa_split_run_ok first last : first < last -> last <= n -> exists ps,
    csa_split_run C pc first last = Some ps /\ Forall (piece_ok b) ps /\
    flat_map piece_rows ps = map (fun q => psi q) (seq first (last - first)).
  Proof.
    intros Hfl Hl. destruct (row_symbol b sigma Hlt first ltac:(lia)) as (c & k & Hc & Hk & ->).
    unfold csa_split_run. rewrite (compute_c_ok b sigma Hlt Hocc c k Hc Hk). cbn [bind].
    rewrite (cums_nth b sigma c) by lia. cbn [bind]. rewrite (cums_nth b sigma (c + 1)) by lia. cbn [bind].
    replace (c + 1) with (S c) by lia. pose proof (HS c) as HS1.
    set (y := Nat.min last (cc (S c)) - cc c).
    destruct (sym_pieces c k y) as (ps & E & P1 & P2); [auto|unfold y; lia|unfold y; lia|].
    replace (cc c + k - cc c + 1) with (S k) by lia. replace (y + 1) with (S y) by lia. rewrite E. cbn [bind].
    destruct (split_more_ok last Hl (length C) c Hc) as (ps' & E' & P1' & P2').
    { rewrite cums_length. lia. }
    rewrite E'. cbn [bind]. exists (ps ++ ps'). split; auto. split; [apply Forall_app; auto|].
    rewrite flat_map_app, P2, P2', <- map_app. f_equal.
    replace (last - (cc c + k)) with ((y - k) + (last - cc (S c))) by (unfold y; lia).
    rewrite seq_app. f_equal. unfold y. destruct (Nat.le_gt_cases (cc (S c)) last).
    - f_equal. lia.
    - replace (last - cc (S c)) with 0 by lia. auto.
  Qed.
End Split.

(** Pieces that cover the images of a range. *)
Lemma pieces_fchain {Run} (Rr : bool -> Run -> nat -> nat -> Prop) (mk : run_piece -> Run) (P : run_piece -> Prop) g ps :
  (forall p, P p -> pi_first p < pi_last p /\ Rr true (mk p) (pi_first p) (pi_last p)) ->
  forall x y, x <= y -> Forall P ps -> flat_map piece_rows ps = map g (seq x (y - x)) -> fchain Rr g (map mk ps) x y.
Proof.
  intros HP. induction ps as [|p ps IH]; intros x y Hxy HF E.
  - cbn in *. destruct (y - x) eqn:Ed; [lia|discriminate].
  - inversion HF as [|? ? Hp HF']; subst. destruct (HP p Hp) as [Hl Hr]. cbn [map fchain].
    cbn [flat_map] in E. set (m := pi_last p - pi_first p).
    assert (Hm : m <= y - x).
    { apply (f_equal (@length nat)) in E. rewrite app_length, map_length, seq_length in E. unfold piece_rows in E. rewrite seq_length in E.
      fold m in E. lia. }
    replace (y - x) with (m + (y - (x + m))) in E by lia. rewrite seq_app, map_app in E.
    unfold piece_rows at 1 in E. fold m in E.
    assert (El : length (seq (pi_first p) m) = length (map g (seq x m))) by (rewrite map_length, !seq_length; auto).
    assert (E1 : seq (pi_first p) m = map g (seq x m) /\ flat_map piece_rows ps = map g (seq (x + m) (y - (x + m)))).
    { apply (f_equal (firstn m)) in E as E1. apply (f_equal (skipn m)) in E as E2.
      rewrite !firstn_app, map_length, !seq_length, Nat.sub_diag, !firstn_O, !app_nil_r in E1.
      rewrite !firstn_all2 in E1 by (rewrite ?map_length, seq_length; auto).
      rewrite !skipn_app, map_length, !seq_length, Nat.sub_diag in E2.
      rewrite !(skipn_all2 (n := m)) in E2 by (rewrite ?map_length, seq_length; auto). split; auto. }
    destruct E1 as [E1 E2]. exists m, (pi_first p). split; [unfold m; lia|]. split; [lia|].
    split; [replace (pi_first p + m) with (pi_last p) by (unfold m; lia); auto|]. split.
    + intros i Hi. apply (f_equal (fun l => nth i l 0)) in E1.
      rewrite seq_nth in E1 by auto. rewrite (nth_map_lt _ _ _ 0) in E1 by (rewrite seq_length; auto).
      rewrite seq_nth in E1 by auto. auto.
    + apply IH; auto. lia.
Qed.

(** Split of a range at the set bits. *)
Section SplitRange.
  Variables (ms : list nat) (n : nat).
  Hypothesis Hs : ssorted ms.
  Hypothesis Hlt : forall m, In m ms -> m < n.
  Variable Rr : bool -> range -> nat -> nat -> Prop.
  Hypothesis HR : forall a b, a < b -> b <= n -> (forall i, a < i -> i < b -> memb ms i = false) -> Rr true (a, b) a b.
  Notation rk i := (count (fun m => m <? i) ms).
  Lemma memb_rank i : memb ms i = false -> rk (S i) = rk i.
  Proof.
    intros H. apply count_ext_in. intros m Hm. destruct (Nat.eq_dec m i) as [->|].
    - apply memb_In in Hm. congruence.
    - lia.
  Qed.
  Lemma rank_eq_none a b i : rk a = rk b -> a <= i -> i < b -> memb ms i = false.
  Proof.
    intros E Ha Hb. destruct (memb ms i) eqn:Em; auto. exfalso. apply memb_In in Em.
    destruct (In_nth _ _ 0 Em) as (k & Hk & Ek).
    pose proof (proj2 (count_lt_sorted ms Hs b k Hk)) as G1. pose proof (proj1 (count_lt_sorted ms Hs a k Hk)) as G2. lia.
  Qed.
  Lemma rk_le i : rk i <= length ms.
  Proof. apply count_le_length. Qed.
  Lemma split_at_ok b : b <= n -> forall m a i, a < b -> i = rk (S a) + 1 -> i + m = rk b + 1 -> exists rs,
    split_at_samples (bits_of ms n) a (seq i m) b = Some rs /\ fchain Rr (fun x => x) rs a b.
  Proof.
    intros Hb. induction m as [|m IH]; intros a i Hab Ei Em; cbn [seq split_at_samples].
    - eexists. split; [reflexivity|]. cbn [fchain]. exists (b - a), a. split; [lia|]. split; [lia|].
      replace (a + (b - a)) with b by lia. split; [|split; auto].
      apply HR; auto. intros j H1 H2. apply (rank_eq_none (S a) b); lia.
    - set (k := rk (S a)) in *. pose proof (rk_le b) as Hl. assert (Hk : k < length ms) by lia.
      replace i with (S k) by lia. rewrite (bits_select ms n Hs Hlt k Hk). cbn [bind].
      set (p := nth k ms 0).
      assert (Hp : In p ms) by (apply nth_In; auto).
      pose proof (proj1 (count_lt_sorted ms Hs b k Hk)) as G1. pose proof (count_lt_sorted ms Hs (S a) k Hk) as G2. fold p in G1, G2.
      assert (Hap : a < p) by (unfold k in *; lia). assert (Hpb : p < b) by lia.
      assert (Erk : rk p = k /\ rk (S p) = S k).
      { assert (A1 : k <= rk p).
        { destruct (Nat.le_gt_cases k (rk p)) as [|G]; auto. exfalso.
          pose proof (count_lt_sorted ms Hs p (rk p) ltac:(lia)) as Q.
          pose proof (ssorted_nth ms Hs (rk p) k G Hk) as Q2. fold p in Q2. lia. }
        assert (A2 : ~ k < rk p) by (rewrite (count_lt_sorted ms Hs p k Hk); fold p; lia).
        assert (A3 : k < rk (S p)) by (rewrite (count_lt_sorted ms Hs (S p) k Hk); fold p; lia).
        assert (A4 : ~ S k < rk (S p)).
        { destruct (Nat.lt_ge_cases (S k) (length ms)) as [G|G].
          - rewrite (count_lt_sorted ms Hs (S p) (S k) G). pose proof (ssorted_nth ms Hs k (S k) ltac:(lia) G) as Q. fold p in Q. lia.
          - pose proof (rk_le (S p)). lia. }
        lia. }
      destruct (IH p (S (S k))) as (rs & E & Hc); [auto|lia|lia|]. rewrite E. cbn [bind].
      eexists. split; [reflexivity|]. cbn [fchain]. exists (p - a), a. split; [lia|]. split; [lia|].
      replace (a + (p - a)) with p by lia. split; [|split; auto].
      apply HR; [lia|lia|]. intros j H1 H2. apply (rank_eq_none (S a) p); lia.
  Qed.
  Lemma rk_mono a b : a <= b -> rk a <= rk b.
  Proof.
    intros H. destruct (Nat.le_gt_cases (rk a) (rk b)) as [|G]; auto. exfalso. pose proof (rk_le a).
    pose proof (count_lt_sorted ms Hs a (rk b) ltac:(lia)). pose proof (count_lt_sorted ms Hs b (rk b) ltac:(lia)). lia.
  Qed.
  Theorem srcsa_split_range_ok a b : a < b -> b <= n -> exists rs,
    srcsa_split_range (bits_of ms n) (a, b) = Some rs /\ fchain Rr (fun x => x) rs a b.
  Proof.
    intros Hab Hb. unfold srcsa_split_range. cbn [fst snd]. rewrite !(bits_rank ms n Hs Hlt) by lia. cbn [bind].
    replace (a + 1) with (S a) by lia. pose proof (rk_mono (S a) b Hab).
    apply split_at_ok; auto. lia.
  Qed.
End SplitRange.

(** The value of a toehold by jumps through Psi. *)
Section Jumps.
  Variables (T sa : list nat).
  Hypothesis HT : text_ok T.
  Hypothesis HSA : is_suffix_array T sa.
  Notation n := (len T).
  Notation tp := (tpos T sa).
  Variable kept : nat -> bool.
  Hypothesis Hzero : kept (ISA sa 0) = true.
  Context {D : Type}.
  Variables (get : D -> option (option nat)) (nav : D -> option D) (Dr : D -> nat -> Prop).
  Hypothesis Hget : forall d y, Dr d y -> y < n -> get d = Some (if kept y then Some (tp y) else None).
  Hypothesis Hnav : forall d y, Dr d y -> y < n -> exists d', nav d = Some d' /\ Dr d' (PSr T sa y).
  Lemma jump_value x l : x < n -> (forall l', l' < l -> kept (psi_it T sa l' x) = false) ->
    umod (sub64 (tp (psi_it T sa l x) + 1 + n) l) n = Some (SA sa x).
  Proof.
    intros Hx Hl. pose proof (n_pos T HT).
    assert (Hne : forall l', l' < l -> psi_it T sa l' x <> ISA sa 0).
    { intros l' H' E. specialize (Hl l' H'). rewrite E in Hl. congruence. }
    rewrite (psi_it_tpos T sa HT HSA) by auto.
    rewrite sub64_ok by lia. rewrite umod_ok by auto. f_equal.
    rewrite <- (csucc_tpos T sa HT HSA x Hx). unfold csucc.
    replace (tp x + l + 1 + n - l) with (tp x + 1 + 1 * n) by lia. apply Nat.mod_add. lia.
  Qed.
  Lemma jumps_ok x L : x < n -> kept (psi_it T sa L x) = true ->
    forall fuel j d, j <= L -> L - j <= fuel -> Dr d (psi_it T sa j x) ->
      (forall l, l < j -> kept (psi_it T sa l x) = false) ->
      compute_sa_value fuel get nav n false j d = Some (SA sa x).
  Proof.
    intros Hx HL. induction fuel as [|f IH]; intros j d Hj Hf Hd Hno.
    - assert (j = L) by lia. subst j. cbn [compute_sa_value].
      rewrite (Hget d _ Hd) by (apply psi_it_lt; auto). rewrite HL. cbn [bind]. apply jump_value; auto.
    - cbn [compute_sa_value]. rewrite (Hget d _ Hd) by (apply psi_it_lt; auto). cbn [bind].
      destruct (kept (psi_it T sa j x)) eqn:Ek; [apply jump_value; auto|].
      assert (j <> L) by (intros ->; congruence).
      destruct (Hnav d _ Hd ltac:(apply psi_it_lt; auto)) as (d' & -> & Hd'). cbn [bind].
      apply IH; [lia|lia|exact Hd'|]. intros l Hl. destruct (Nat.eq_dec l j) as [->|]; auto. apply Hno. lia.
  Qed.
End Jumps.
