(** C30 and C39, for the overloads that only the tests call. *)
From Coq Require Import List Arith Bool Lia ZifyBool ZifyNat Sorting.Sorted.
From Verif Require Import Spec MBase Lists FM MRle Runs RleProof MConstruct MPhi MRIndex Util Phi ConstructProof Nav PhiProof BaseProof
  Glue MPsi EncProof PsiSym PsiOps PsiProof PsiCore PsiSpec PsiText MCsa CsaNav CsaPhi PsiOrder CsaProof RIndexProof CsaGlue PropertiesPsi PropertiesCsa MLinks.
Import ListNotations.

Lemma mmap_seq {A} (f : nat -> option A) (g : nat -> A) s r : (forall i, s <= i < s + r -> f i = Some (g i)) -> mmap f (seq s r) = Some (map g (seq s r)).
Proof.
  revert s. induction r as [|r IH]; intros s H; cbn [seq mmap map]; [reflexivity|]. rewrite H by lia. cbn [bind]. rewrite IH by (intros i Hi; apply H; lia). reflexivity.
Qed.

Section All.
  Variables (w sa data : list nat).
  Hypothesis Hw : zero_free w.
  Hypothesis HSA : is_suffix_array (terminated w) sa.
  Hypothesis Hd : data = w \/ data = terminated w.
  Variable h : nat.
  Hypothesis Hh : 0 < h.
  Hypothesis Hn : S (length w) < 2 ^ 64.
  Notation T := (ctext w sa).
  Notation n := (len T).
  Let HT : text_ok T := ctext_ok w sa Hw HSA.
  Let HS : is_suffix_array T sa := ctext_sa w sa Hw HSA.
  Lemma all_links b pc : construct_base data sa = Some b -> construct_psi_core (2 * h) b = Some pc ->
    let f := bi_runs_files b in
    let lf := basic_lf (bi_alpha b) (bi_bwt_rle b) in let psi := core_psi_fn (bi_alpha b) pc in
    exists heads tails, construct_bit_vector (br_first f) (length sa) false = Some heads /\ construct_bit_vector (br_last f) (length sa) false = Some tails /\
    exists l, all_links_to_sample (length sa) (length (br_last f)) (bv_select tails) (bv_rank heads) lf psi = Some l /\
      map fst l = seq 0 (length (br_last f)) /\
      forall k j, In (k, j) l -> exists t, nth_error (br_last f) k = Some t /\ link_to_sample lf psi (lower_bound (br_first f)) (length sa) t = Some j.
  Proof.
    intros Hb Hpc. destruct (st_base_core w sa data Hw HSA Hd h Hh Hn) as (b' & al & E & Hal & F). rewrite Hb in E. injection E as <-.
    rewrite (cb_core w sa al h b F) in Hpc. injection Hpc as <-. rewrite (cb_runs w sa al h b F), (cb_alpha w sa al h b F).
    cbn [br_first br_last br_first_text br_last_text]. cbn zeta. rewrite (gsa_length w sa Hw HSA).
    pose proof (rows_ssorted T sa HS) as Sh. pose proof (trows_ssorted T sa HS) as St.
    assert (Lh : forall v, In v (hrows T sa) -> v < n) by (intros v Hv; apply (hrows_in T sa HS) in Hv; apply Hv).
    assert (Lt : forall v, In v (trows T sa) -> v < n) by (intros v Hv; apply (trows_in T sa HS) in Hv; apply Hv).
    exists (bits_of (hrows T sa) n), (bits_of (trows T sa) n). split; [now apply construct_bits|]. split; [now apply construct_bits|].
    set (g := fun i => (i - 1, lower_bound (hrows T sa) (flink T sa (nth (i - 1) (trows T sa) 0)))).
    exists (map g (seq 1 (length (trows T sa)))).
    assert (K : forall i, i < length (trows T sa) -> let t := nth i (trows T sa) 0 in t < n /\ In (flink T sa t) (hrows T sa)).
    { intros i Hi. cbn zeta. pose proof (nth_In (trows T sa) 0 Hi) as Ht. apply (trows_in T sa HS) in Ht as [Ht1 Ht2]. split; [exact Ht1|].
      apply (hrows_in T sa HS). split; [now apply flink_lt|now apply (flink_head T sa HT HS)]. }
    split; [|split].
    - apply mmap_seq. intros i Hi. destruct i as [|i]; [lia|]. rewrite (bits_select _ n St Lt) by lia. cbn [bind].
      destruct (K i ltac:(lia)) as [K1 K2].
      rewrite (link_to_sample_ok w sa Hw HSA al h Hal Hh (g_n w sa Hn) b _ _ F K1). cbn [bind]. unfold sample_rank.
      assert (Hf : flink T sa (nth i (trows T sa) 0) < n) by (apply Lh; exact K2).
      rewrite (bits_rank _ n Sh Lh) by lia. cbn [bind].
      destruct (lower_bound_in _ _ Sh K2) as [L1 L2]. set (x := flink T sa (nth i (trows T sa) 0)) in *. set (q := lower_bound (hrows T sa) x) in *.
      assert (C : count (fun m => m <? x + 1) (hrows T sa) = S q).
      { pose proof (count_lt_sorted _ Sh (x + 1) q L1) as C1. rewrite L2 in C1.
        assert (C2 : count (fun m => m <? x + 1) (hrows T sa) <= length (hrows T sa)) by apply count_le_length.
        destruct (Nat.lt_ge_cases (S q) (length (hrows T sa))) as [C3|C3].
        - pose proof (count_lt_sorted _ Sh (x + 1) (S q) C3) as C4.
          assert (C5 : x < nth (S q) (hrows T sa) 0) by (rewrite <- L2; apply ssorted_nth; auto; lia). lia.
        - lia. }
      rewrite C. cbn [Nat.eqb bind]. unfold g. replace (S i - 1) with i by lia. fold x. fold q. f_equal. f_equal. lia.
    - rewrite map_map. unfold g. cbn [fst]. rewrite <- (seq_shift _ 0), map_map. rewrite map_ext with (g := fun x => x) by (intros; lia). apply map_id.
    - intros k j I. apply in_map_iff in I as (i & E & I). apply in_seq in I. unfold g in E. injection E as <- <-.
      exists (nth (i - 1) (trows T sa) 0). split; [apply nth_error_nth_lt; lia|]. destruct (K (i - 1) ltac:(lia)) as [K1 K2].
      exact (link_to_sample_ok w sa Hw HSA al h Hal Hh (g_n w sa Hn) b _ _ F K1).
  Qed.
End All.

(** The overload of computeMarkToSampleLinkForPhiForward over bit vectors of the tails and heads reports a link for every
    mark, in order; a mark and its sample are neighbours in the suffix array. *)
Theorem C39_all_links : forall w sa data h b pc,
  zero_free w -> is_suffix_array (terminated w) sa -> data = w \/ data = terminated w ->
  0 < h -> S (length w) < 2 ^ 64 ->
  construct_base data sa = Some b -> construct_psi_core (2 * h) b = Some pc ->
  let f := bi_runs_files b in
  exists heads tails, construct_bit_vector (br_first f) (length sa) false = Some heads /\
    construct_bit_vector (br_last f) (length sa) false = Some tails /\
  exists l, all_links_to_sample (length sa) (length (br_last f)) (bv_select tails) (bv_rank heads)
      (basic_lf (bi_alpha b) (bi_bwt_rle b)) (core_psi_fn (bi_alpha b) pc) = Some l /\
    map fst l = seq 0 (length (br_last f)) /\
    forall k j, In (k, j) l -> exists m y, nth_error (br_last_text f) k = Some m /\ nth_error (br_first_text f) j = Some y /\
      exists i, nth_error sa i = Some m /\ nth_error sa ((i + 1) mod length sa) = Some y.
Proof.
  intros w sa data h b pc Hw HSA Hd Hh Hn Hb Hpc f.
  destruct (all_links w sa data Hw HSA Hd h Hh Hn b pc Hb Hpc) as (heads & tails & E1 & E2 & l & E3 & E4 & E5).
  exists heads, tails. split; [exact E1|]. split; [exact E2|]. exists l. split; [exact E3|]. split; [exact E4|].
  intros k j I. destruct (E5 k j I) as (t & Et & El). pose proof (C39_forward_links_inverse w sa data h b pc Hw HSA Hd Hh Hn Hb Hpc) as [C _].
  cbn zeta in C. destruct (C k t Et) as (j' & x & m & y & El' & _ & _ & Em & Ey & S). assert (j' = j) by congruence. subst j'. exists m, y. auto.
Qed.
Print Assumptions C39_all_links.
(** "banana": the links of its runs. *)
Example C39_all_links_example :
  match construct_base exc_w exc_sa with
  | Some b => match construct_psi_core (2 * 2) b with
    | Some pc => match construct_bit_vector (br_first (bi_runs_files b)) 7 false, construct_bit_vector (br_last (bi_runs_files b)) 7 false with
      | Some heads, Some tails => exists l,
          all_links_to_sample 7 (length (br_last (bi_runs_files b))) (bv_select tails) (bv_rank heads) (basic_lf (bi_alpha b) (bi_bwt_rle b)) (core_psi_fn (bi_alpha b) pc) = Some l /\
          length l = 5 /\ map snd l <> seq 0 5
      | _, _ => False end
    | None => False end
  | None => False end.
Proof. vm_compute. eexists. split; [reflexivity|]. split; [reflexivity|discriminate]. Qed.

(** computeForwardRuns that returns a list: the intervals, in increasing order, cover the occurrences of the ranks and each
    lies in one run. *)
Theorem C30_forward_runs_list : forall b sigma h pc, dense b sigma -> 0 < length b -> length b < 2 ^ 64 -> 0 < h ->
  psi_rle_of b sigma (2 * h) pc ->
  forall c x y, x < y -> y <= occ c b (length b) -> exists l,
  forward_runs_list pc c (S x) (S y) = Some l /\
  flat_map (fun '(i, j) => seq i (j - i)) l = firstn (y - x) (skipn x (positions c b)) /\
  Forall (fun '(i, j) => exists s e, maximal_run b s e c /\ s <= i /\ i < j /\ j <= e) l /\
  StronglySorted (fun p q => snd p < fst q) l.
Proof.
  intros b sigma h pc Hd Hl Hn Hh Hp c x y Hx Hy. destruct (C30_forward_runs b sigma h pc Hd Hl Hn Hh Hp c x y Hx Hy) as (ps & E & E1 & E2 & E3 & E4).
  exists (map (fun p => (pi_first p, pi_last p)) ps). unfold forward_runs_list. rewrite E. cbn [bind]. split; [reflexivity|]. split; [|split].
  - rewrite <- E1. clear. induction ps as [|p ps IH]; cbn [map flat_map]; [reflexivity|]. rewrite IH. reflexivity.
  - apply Forall_forall. intros [i j] I. apply in_map_iff in I as (p & Ep & I). injection Ep as <- <-.
    pose proof (proj1 (Forall_forall _ _) E3 p I) as X. cbn beta in X.
    apply (proj1 (Forall_forall _ _) E2) in I as (s & e & M & A & B & C & _). exists s, e. rewrite <- X. auto.
  - clear - E4. induction E4 as [|p ps S IH F]; cbn [map]; constructor; [exact IH|]. apply Forall_forall. intros [i j] I. apply in_map_iff in I as (q & Eq & I).
    injection Eq as <- <-. cbn [fst snd]. exact (proj1 (Forall_forall _ _) F q I).
Qed.
Print Assumptions C30_forward_runs_list.
