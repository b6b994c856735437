(** C03, C04, C05, C15, C18, C34, C35, C43, C44, C45: the subsampling and the SrIndex family.
    Common hypotheses: [w] is the text, any sequence of non-zero bytes; [sa] the suffix array of
    the text with its terminator; [data] the input file, with or without a final zero; [s] the
    subsampling rate. *)
From Coq Require Import List Arith Bool Sorted Permutation.
From Verif Require Import Spec MBase MConstruct MPhi MRIndex MSrIndex Glue SamplingSpec SrGlue.
Import ListNotations.

Theorem C03_srindex_construct_total : forall w sa data s,
  zero_free w -> is_suffix_array (terminated w) sa -> data = w \/ data = terminated w ->
  exists ix, construct_sri s data sa = Some ix.
Proof. intros w sa data s Hw HSA Hd. exact (st_sri_construct w sa data Hw HSA Hd s). Qed.
Print Assumptions C03_srindex_construct_total.
Theorem C03_srindex_locate : forall w sa data s ix p,
  zero_free w -> is_suffix_array (terminated w) sa -> data = w \/ data = terminated w ->
  construct_sri s data sa = Some ix -> pattern_over w p ->
  exists l, srindex_locate ix p = Some l /\ exact_answer p w l.
Proof.
  intros w sa data s ix p Hw HSA Hd Hix Hp. eapply answers_exact. apply (st_sri w sa data Hw HSA Hd s ix p Hix Hp).
Qed.
Print Assumptions C03_srindex_locate.

Theorem C04_srindex_valid_construct_total : forall w sa data s,
  zero_free w -> is_suffix_array (terminated w) sa -> data = w \/ data = terminated w ->
  exists ix, construct_sri_valid s data sa = Some ix.
Proof. intros w sa data s Hw HSA Hd. exact (st_sri_valid_construct w sa data Hw HSA Hd s). Qed.
Print Assumptions C04_srindex_valid_construct_total.
Theorem C04_srindex_vm_locate : forall w sa data s ix p,
  zero_free w -> is_suffix_array (terminated w) sa -> data = w \/ data = terminated w ->
  construct_sri_valid s data sa = Some ix -> pattern_over w p ->
  exists l, srindex_vm_locate ix p = Some l /\ exact_answer p w l.
Proof.
  intros w sa data s ix p Hw HSA Hd Hix Hp. eapply answers_exact. apply (st_sri_vm w sa data Hw HSA Hd s ix p Hix Hp).
Qed.
Print Assumptions C04_srindex_vm_locate.
Theorem C05_srindex_va_locate : forall w sa data s ix p,
  zero_free w -> is_suffix_array (terminated w) sa -> data = w \/ data = terminated w ->
  construct_sri_valid s data sa = Some ix -> pattern_over w p ->
  exists l, srindex_va_locate ix p = Some l /\ exact_answer p w l.
Proof.
  intros w sa data s ix p Hw HSA Hd Hix Hp. eapply answers_exact. apply (st_sri_va w sa data Hw HSA Hd s ix p Hix Hp).
Qed.
Print Assumptions C05_srindex_va_locate.

(** Locate and Count agree. *)
Theorem C15_srindex : forall w sa data s ix p,
  zero_free w -> is_suffix_array (terminated w) sa -> data = w \/ data = terminated w ->
  construct_sri s data sa = Some ix -> pattern_over w p ->
  exists l st e, srindex_locate ix p = Some l /\ sr_count ix p = Some (st, e) /\ length l = e - st /\
    ((forall i, ~ occurs_at p w i) -> l = [] /\ st = e).
Proof.
  intros w sa data s ix p Hw HSA Hd Hix Hp. eapply answers_agree. apply (st_sri w sa data Hw HSA Hd s ix p Hix Hp).
Qed.
Print Assumptions C15_srindex.
Theorem C15_srindex_vm : forall w sa data s ix p,
  zero_free w -> is_suffix_array (terminated w) sa -> data = w \/ data = terminated w ->
  construct_sri_valid s data sa = Some ix -> pattern_over w p ->
  exists l st e, srindex_vm_locate ix p = Some l /\ sr_count ix p = Some (st, e) /\ length l = e - st /\
    ((forall i, ~ occurs_at p w i) -> l = [] /\ st = e).
Proof.
  intros w sa data s ix p Hw HSA Hd Hix Hp. eapply answers_agree. apply (st_sri_vm w sa data Hw HSA Hd s ix p Hix Hp).
Qed.
Print Assumptions C15_srindex_vm.
Theorem C15_srindex_va : forall w sa data s ix p,
  zero_free w -> is_suffix_array (terminated w) sa -> data = w \/ data = terminated w ->
  construct_sri_valid s data sa = Some ix -> pattern_over w p ->
  exists l st e, srindex_va_locate ix p = Some l /\ sr_count ix p = Some (st, e) /\ length l = e - st /\
    ((forall i, ~ occurs_at p w i) -> l = [] /\ st = e).
Proof.
  intros w sa data s ix p Hw HSA Hd Hix Hp. eapply answers_agree. apply (st_sri_va w sa data Hw HSA Hd s ix p Hix Hp).
Qed.
Print Assumptions C15_srindex_va.

(** Count of the whole family. *)
Theorem C01_srindex_count : forall w sa data s ix p,
  zero_free w -> is_suffix_array (terminated w) sa -> data = w \/ data = terminated w ->
  construct_sri s data sa = Some ix \/ construct_sri_valid s data sa = Some ix -> pattern_over w p ->
  exists st e, sr_count ix p = Some (st, e) /\ row_interval p w sa st e /\
    exists l, exact_answer p w l /\ length l = e - st.
Proof.
  intros w sa data s ix p Hw HSA Hd [Hix|Hix] Hp.
  - destruct (st_sri w sa data Hw HSA Hd s ix p Hix Hp) as (st & e & H1 & H2 & H3 & H4 & _). eauto 10.
  - destruct (st_sri_vm w sa data Hw HSA Hd s ix p Hix Hp) as (st & e & H1 & H2 & H3 & H4 & _). eauto 10.
Qed.
Print Assumptions C01_srindex_count.

(** C18 on the SrIndex family: Count("") is all rows, Locate("") reads out of range. *)
Theorem C18_srindex_empty_pattern_refuted : forall w sa data s,
  zero_free w -> is_suffix_array (terminated w) sa -> data = w \/ data = terminated w ->
  (forall ix, construct_sri s data sa = Some ix ->
     sr_count ix [] = Some (0, length sa) /\ srindex_locate ix [] = None) /\
  (forall ix, construct_sri_valid s data sa = Some ix ->
     sr_count ix [] = Some (0, length sa) /\ srindex_vm_locate ix [] = None /\ srindex_va_locate ix [] = None).
Proof.
  intros w sa data s Hw HSA Hd. split; intros ix Hix.
  - apply (st_sri_empty w sa data Hw HSA Hd s). auto.
  - split; [|split]; eapply (st_sri_empty w sa data Hw HSA Hd s); auto.
    Unshelve. exact (fun _ _ _ => None).
Qed.
Print Assumptions C18_srindex_empty_pattern_refuted.

(** computeSampling: a subsequence with the first, last and required indices; an omitted element
    lies between its nearest kept predecessor [j] and its next element [q], at most [s] apart. *)
Theorem C34_sampling_cover : forall s idxs values req,
  (forall i, In i idxs -> i < length values) ->
  strictly_monotone (map (fun i => nth i values 0) idxs) ->
  exists out, compute_sampling s idxs values req = Some out /\ subsequence out idxs /\
    (forall x l, idxs = x :: l -> In x out) /\ (forall x l, idxs = l ++ [x] -> In x out) /\
    (forall x, In x idxs -> In x req -> In x out) /\
    (forall l1 p q l2, idxs = l1 ++ p :: q :: l2 -> ~ In p out ->
       exists l0 j l3, l1 = l0 ++ j :: l3 /\ In j out /\ (forall x, In x l3 -> ~ In x out) /\
         distance (nth q values 0) (nth j values 0) <= s).
Proof. exact sampling_cover_spec. Qed.
Print Assumptions C34_sampling_cover.
Theorem C35_sampling_size : forall s idxs values req out lo hi,
  strictly_monotone (map (fun i => nth i values 0) idxs) ->
  (forall i, In i idxs -> lo <= nth i values 0 <= hi) ->
  compute_sampling s idxs values req = Some out -> (forall i, In i idxs -> i < length values) ->
  length out <= 2 * ((hi - lo) / (s + 1)) + 2 + length req.
Proof. exact sampling_size_spec. Qed.
Print Assumptions C35_sampling_size.
(** Consequence for an index: the number of samples is bounded by the text length and the rate. *)
Theorem C35_srindex_samples : forall w sa data s ix,
  zero_free w -> is_suffix_array (terminated w) sa -> data = w \/ data = terminated w ->
  construct_sri s data sa = Some ix \/ construct_sri_valid s data sa = Some ix ->
  length (sr_samples ix) <= 2 * (length w / (s + 1)) + 4.
Proof. intros w sa data s ix Hw HSA Hd. exact (st_sri_size w sa data Hw HSA Hd s ix). Qed.
Print Assumptions C35_srindex_samples.

(** Backward search of the whole family. *)
Theorem C43_srindex_search : forall w sa data s ix u v,
  zero_free w -> is_suffix_array (terminated w) sa -> data = w \/ data = terminated w ->
  construct_sri s data sa = Some ix \/ construct_sri_valid s data sa = Some ix ->
  pattern_over w v -> exists st e,
  count_loop (ri_lf (sr_alpha ix) (sr_bwt ix)) range_of_lf (al_symbol (sr_alpha ix)) range_empty
    (rev v) (0, length sa) = Some (st, e) /\ row_interval v w sa st e /\
  sr_count ix (u ++ v) =
    count_loop (ri_lf (sr_alpha ix) (sr_bwt ix)) range_of_lf (al_symbol (sr_alpha ix)) range_empty (rev u) (st, e) /\
  (st = e -> sr_count ix (u ++ v) = Some (st, e)).
Proof. intros w sa data s ix u v Hw HSA Hd. exact (st_sri_search w sa data Hw HSA Hd s ix u v). Qed.
Print Assumptions C43_srindex_search.

(** The toehold is the last row of the range: Locate reports SA[e-1], SA[e-2], ..., SA[st]. *)
Theorem C44_srindex_order : forall w sa data s p,
  zero_free w -> is_suffix_array (terminated w) sa -> data = w \/ data = terminated w -> pattern_over w p ->
  exists st e, row_interval p w sa st e /\
    (forall ix, construct_sri s data sa = Some ix -> srindex_locate ix p = Some (rev (rows sa st e))) /\
    (forall ix, construct_sri_valid s data sa = Some ix ->
       srindex_vm_locate ix p = Some (rev (rows sa st e)) /\ srindex_va_locate ix p = Some (rev (rows sa st e))).
Proof.
  intros w sa data s p Hw HSA Hd Hp.
  destruct (st_sri_construct w sa data Hw HSA Hd s) as [i1 H1].
  destruct (st_sri_valid_construct w sa data Hw HSA Hd s) as [i2 H2].
  destruct (st_sri w sa data Hw HSA Hd s i1 p H1 Hp) as (s1 & e1 & A1 & A2 & _ & _ & A3).
  destruct (st_sri_vm w sa data Hw HSA Hd s i2 p H2 Hp) as (s2 & e2 & B1 & B2 & _ & _ & B3).
  destruct (st_sri_va w sa data Hw HSA Hd s i2 p H2 Hp) as (s3 & e3 & D1 & D2 & _ & _ & D3).
  exists s1, e1. split; auto. split; intros ix Hix.
  - rewrite H1 in Hix. injection Hix as <-. auto.
  - rewrite H2 in Hix. injection Hix as <-.
    rewrite (rows_unique p w sa s1 e1 s2 e2) by auto. split; auto.
    rewrite (rows_unique p w sa s2 e2 s3 e3) by auto. auto.
Qed.
Print Assumptions C44_srindex_order.

(** C45.  [compute_sa_value] follows at most [fuel] LF steps, and [fuel] is the rate in every
    index; the row of the toehold is a run tail, and from any run tail a sampled row is at most [s]
    LF steps away. *)
Theorem C45_toehold_fuel : forall D (gs : D -> option (option nat)) nav n bw fuel k d v,
  compute_sa_value fuel gs nav n bw k d = Some v ->
  exists m d' x, m <= fuel /\ Nat.iter m (fun o => match o with Some y => nav y | None => None end) (Some d) = Some d' /\
    gs d' = Some (Some x).
Proof. intros D gs nav n bw. exact (sa_value_fuel gs nav n bw). Qed.
Print Assumptions C45_toehold_fuel.
Theorem C45_srindex_toehold_navigation : forall w sa data s ix t,
  zero_free w -> is_suffix_array (terminated w) sa -> data = w \/ data = terminated w ->
  construct_sri s data sa = Some ix \/ construct_sri_valid s data sa = Some ix ->
  let bwt := bwt_of (terminated w) sa in let n := S (length w) in
  run_tail bwt t -> exists l j x, l <= s /\ (nth j sa 0 + l) mod n = nth t sa 0 /\ run_tail bwt j /\
    sr_get_sample ix (runs_before bwt (S j) - 1) = Some (Some x) /\ (x + 1) mod n = nth j sa 0.
Proof.
  intros w sa data s ix t Hw HSA Hd Hix bwt n Ht.
  destruct (st_sri_toehold_bound w sa data Hw HSA Hd s ix t Hix Ht) as (l & j & x & H1 & (H2 & H3 & H4) & H5).
  exists l, j, x. auto.
Qed.
Print Assumptions C45_srindex_toehold_navigation.
(** From any row, either a sampled row is less than [s] LF steps away or phi on the sub-sampled
    marks is right at the next row. *)
Theorem C45_srindex_range_navigation : forall w sa data s ix i,
  zero_free w -> is_suffix_array (terminated w) sa -> data = w \/ data = terminated w ->
  construct_sri s data sa = Some ix ->
  let bwt := bwt_of (terminated w) sa in let n := S (length w) in
  S i < length sa ->
  (exists l j x, l < s /\ (nth j sa 0 + l) mod n = nth i sa 0 /\ run_tail bwt j /\
    sr_get_sample ix (runs_before bwt (S j) - 1) = Some (Some x) /\ (x + 1) mod n = nth j sa 0) \/
  exists b, ri_phi (length sa) (sr_marks ix) (sr_samples ix) (links_default (sr_links ix) true)
              sample_validator_default (nth (S i) sa 0) = Some (nth i sa 0, b).
Proof.
  intros w sa data s ix i Hw HSA Hd Hix bwt n Hi.
  destruct (st_sri_range_bound w sa data Hw HSA Hd s ix i Hix Hi) as [(l & j & x & H1 & (H2 & H3 & H4) & H5)|H];
    [left|right; auto].
  exists l, j, x. auto.
Qed.
Print Assumptions C45_srindex_range_navigation.

(** Concrete cases: "banana" and "abracadabra". *)
Definition exs_w : list nat := [97; 98; 114; 97; 99; 97; 100; 97; 98; 114; 97].
Definition exs_sa : list nat := [11; 10; 7; 0; 3; 5; 8; 1; 4; 6; 9; 2].
Example exs_hyps : zero_free exs_w /\ is_suffix_array (terminated exs_w) exs_sa /\ pattern_over exs_w [97; 98; 114].
Proof.
  split; [repeat constructor|]. split; [apply sa_check_ok; vm_compute; reflexivity|].
  split; [discriminate|]. cbn. intuition.
Qed.
Example exs_sri : exists ix, construct_sri 3 exs_w exs_sa = Some ix /\
  sr_samples ix = [9; 6; 11; 4; 1] /\ length (sr_samples_idx ix) = 8 /\
  sr_count ix [97; 98; 114] = Some (2, 4) /\ srindex_locate ix [97; 98; 114] = Some [0; 7] /\
  srindex_locate ix [97] = Some [5; 3; 0; 7; 10] /\ srindex_locate ix [98; 98] = Some [].
Proof. eexists. split; [vm_compute; reflexivity|]. repeat split; vm_compute; reflexivity. Qed.
Example exs_sri_valid : exists ix, construct_sri_valid 3 exs_w exs_sa = Some ix /\
  srindex_vm_locate ix [97] = Some [5; 3; 0; 7; 10] /\ srindex_va_locate ix [97] = Some [5; 3; 0; 7; 10] /\
  In false (sr_valid_marks ix) /\ sr_valid_areas ix <> [].
Proof. eexists. split; [vm_compute; reflexivity|]. repeat split; vm_compute; auto; discriminate. Qed.
Example exs_sampling : compute_sampling 3 [0; 1; 2; 3; 4] [1; 2; 3; 7; 9] [] = Some [0; 2; 3; 4] /\
  compute_sampling 3 [4; 3; 2; 1; 0] [1; 2; 3; 7; 9] [1] = Some [4; 3; 2; 1; 0] /\
  strictly_monotone (map (fun i => nth i [1; 2; 3; 7; 9] 0) [0; 2; 4]).
Proof.
  split; [vm_compute; reflexivity|]. split; [vm_compute; reflexivity|]. left. cbn.
  intros l1 a l2 b l3 E.
  destruct l1 as [|? [|? [|? [|? ?]]]]; cbn in E; injection E; intros; subst; try discriminate;
    destruct l2 as [|? [|? [|? ?]]]; cbn in *; try discriminate;
    repeat match goal with H : _ :: _ = _ :: _ |- _ => injection H; clear H; intros; subst end;
    try discriminate; repeat constructor.
Qed.
