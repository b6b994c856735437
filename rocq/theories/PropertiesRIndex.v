(** C01, C02, C15, C17, C18, C36, C37, C40-C44: base construction and RIndex.
    Common hypotheses: [w] is the text, any sequence of non-zero bytes; [sa] the suffix array of
    the text with its terminator; [data] the input file, with or without a final zero. *)
From Coq Require Import List Arith Bool Sorted Permutation.
From Verif Require Import Spec MBase MConstruct MPhi MRIndex ConstructProof Glue.
Import ListNotations.

(** Construction never fails. *)
Theorem C02_rindex_construct_total : forall w sa data,
  zero_free w -> is_suffix_array (terminated w) sa -> data = w \/ data = terminated w ->
  exists ix, construct_rindex data sa = Some ix.
Proof. exact st_rindex_construct. Qed.
Print Assumptions C02_rindex_construct_total.

(** Count returns the interval of rows of the pattern; its length is the number of occurrences. *)
Theorem C01_rindex_count : forall w sa data ix p,
  zero_free w -> is_suffix_array (terminated w) sa -> data = w \/ data = terminated w ->
  construct_rindex data sa = Some ix -> pattern_over w p ->
  exists s e, rindex_count ix p = Some (s, e) /\ row_interval p w sa s e /\
    exists l, exact_answer p w l /\ length l = e - s.
Proof.
  intros w sa data ix p Hw HSA Hd Hix Hp. destruct (st_rindex w sa data Hw HSA Hd ix Hix p Hp) as (s & e & H1 & H2 & H3 & H4 & _).
  eauto 10.
Qed.
Print Assumptions C01_rindex_count.

Theorem C02_rindex_locate : forall w sa data ix p,
  zero_free w -> is_suffix_array (terminated w) sa -> data = w \/ data = terminated w ->
  construct_rindex data sa = Some ix -> pattern_over w p ->
  exists l, rindex_locate ix p = Some l /\ exact_answer p w l.
Proof.
  intros w sa data ix p Hw HSA Hd Hix Hp. destruct (st_rindex w sa data Hw HSA Hd ix Hix p Hp) as (s & e & H1 & H2 & H3 & H4 & H5).
  exists (rev (rows sa s e)). split; auto. apply exact_rev; auto.
Qed.
Print Assumptions C02_rindex_locate.

Theorem C15_rindex : forall w sa data ix p,
  zero_free w -> is_suffix_array (terminated w) sa -> data = w \/ data = terminated w ->
  construct_rindex data sa = Some ix -> pattern_over w p ->
  exists l s e, rindex_locate ix p = Some l /\ rindex_count ix p = Some (s, e) /\ length l = e - s /\
    ((forall i, ~ occurs_at p w i) -> l = [] /\ s = e).
Proof.
  intros w sa data ix p Hw HSA Hd Hix Hp. destruct (st_rindex w sa data Hw HSA Hd ix Hix p Hp) as (s & e & H1 & H2 & H3 & H4 & H5).
  exists (rev (rows sa s e)), s, e. split; auto. split; auto.
  apply agree_gen with (p := p) (sa := sa); auto. symmetry. apply Permutation_rev.
Qed.
Print Assumptions C15_rindex.

(** C17 does not hold: a byte that is not in the text is mapped to symbol 0, the terminator. *)
Definition ex_w : list nat := [98; 97; 110; 97; 110; 97]. (* "banana" *)
Definition ex_sa : list nat := [6; 5; 3; 1; 0; 4; 2].
Theorem C17_rindex_absent_byte_refuted : exists w sa ix p,
  zero_free w /\ is_suffix_array (terminated w) sa /\ construct_rindex w sa = Some ix /\
  (exists c, In c p /\ ~ In c w) /\ (forall i, ~ occurs_at p w i) /\
  rindex_count ix p = Some (0, 1) /\ rindex_locate ix p = Some [length w].
Proof.
  exists ex_w, ex_sa. eexists. exists [120].
  split; [repeat constructor|]. split; [apply sa_check_ok; vm_compute; reflexivity|].
  split; [vm_compute; reflexivity|]. split.
  { exists 120. split; [left; auto|]. cbn. intuition discriminate. }
  split.
  { intros i (u & v & E & _). assert (H : In 120 ex_w) by (rewrite E; apply in_or_app; right; left; auto).
    cbn in H. intuition discriminate. }
  split; vm_compute; reflexivity.
Qed.
Print Assumptions C17_rindex_absent_byte_refuted.

(** C18: Count("") is the range of all rows; Locate("") reads out of range on every text. *)
Theorem C18_rindex_empty_pattern_refuted : forall w sa data ix,
  zero_free w -> is_suffix_array (terminated w) sa -> data = w \/ data = terminated w ->
  construct_rindex data sa = Some ix ->
  rindex_count ix [] = Some (0, length sa) /\ rindex_locate ix [] = None.
Proof. intros w sa data ix Hw HSA Hd. apply (st_rindex_empty w sa data Hw HSA Hd). Qed.
Print Assumptions C18_rindex_empty_pattern_refuted.

Theorem C36_circular_predecessor : forall bv i, In true bv -> i <= length bv ->
  exists k v, circular_predecessor bv (length bv) i = Some (k, v) /\
    nth_error bv v = Some true /\ k = count_occ Bool.bool_dec (firstn v bv) true /\
    ((v < i /\ forall m, nth_error bv m = Some true -> m < i -> m <= v) \/
     ((forall m, nth_error bv m = Some true -> i <= m) /\ forall m, nth_error bv m = Some true -> m <= v)).
Proof. exact circ_pred_spec. Qed.
Print Assumptions C36_circular_predecessor.
Theorem C36_circular_soft_successor : forall bv i, In true bv -> i <= length bv ->
  exists k v, circular_soft_successor bv (length bv) i = Some (k, v) /\
    nth_error bv v = Some true /\ k = count_occ Bool.bool_dec (firstn v bv) true /\
    ((i <= v /\ forall m, nth_error bv m = Some true -> i <= m -> v <= m) \/
     ((forall m, nth_error bv m = Some true -> m < i) /\ forall m, nth_error bv m = Some true -> v <= m)).
Proof. exact circ_succ_spec. Qed.
Print Assumptions C36_circular_soft_successor.

(** phi on the structures of a constructed RIndex: SA[i] -> SA[i-1], cyclically. *)
Theorem C37_phi_backward : forall w sa data,
  zero_free w -> is_suffix_array (terminated w) sa -> data = w \/ data = terminated w ->
  forall ix, construct_rindex data sa = Some ix ->
  forall i a, nth_error sa i = Some a -> exists b,
    ri_phi (length sa) (ri_marks ix) (ri_samples ix) (links_default (ri_links ix) true)
           sample_validator_default a = Some (nth (cpred (length sa) i) sa 0, b).
Proof. exact st_rindex_phi. Qed.
Print Assumptions C37_phi_backward.

Theorem C40_run_files : forall w sa data,
  zero_free w -> is_suffix_array (terminated w) sa -> data = w \/ data = terminated w ->
  forall b, construct_base data sa = Some b ->
  let f := bi_runs_files b in
  StronglySorted lt (br_first f) /\ StronglySorted lt (br_last f) /\
  (forall i, In i (br_first f) <-> run_head (bwt_of (terminated w) sa) i) /\
  (forall i, In i (br_last f) <-> run_tail (bwt_of (terminated w) sa) i) /\
  br_first_text f = map (fun i => cpred (S (length w)) (nth i sa 0)) (br_first f) /\
  br_last_text f = map (fun i => cpred (S (length w)) (nth i sa 0)) (br_last f).
Proof. exact st_runs. Qed.
Print Assumptions C40_run_files.

Theorem C41_text_plain : forall w, zero_free w -> construct_text w = Some (w ++ [0]).
Proof. exact construct_text_plain. Qed.
Print Assumptions C41_text_plain.
Theorem C41_text_terminated : forall w, zero_free w -> construct_text (w ++ [0]) = Some (w ++ [0]).
Proof. exact construct_text_terminated. Qed.
Print Assumptions C41_text_terminated.
(** [None] is the exception thrown at construct_sdsl.h:36. *)
Theorem C41_text_inner_zero : forall u v, zero_free u -> v <> [] -> construct_text (u ++ 0 :: v) = None.
Proof. exact construct_text_inner. Qed.
Print Assumptions C41_text_inner_zero.

Theorem C42_alphabet : forall w sa data,
  zero_free w -> is_suffix_array (terminated w) sa -> data = w \/ data = terminated w ->
  forall b, construct_base data sa = Some b ->
  let al := bi_alpha b in let t := terminated w in
  al_sigma al = length (nodup Nat.eq_dec t) /\
  nth_error (al_C al) (al_sigma al) = Some (length t) /\
  forall x, In x t -> exists cx, nth_error (al_char2comp al) x = Some cx /\
    cx = length (filter (fun y => y <? x) (nodup Nat.eq_dec t)) /\
    nth_error (al_C al) cx = Some (smaller x t).
Proof. exact st_alphabet. Qed.
Print Assumptions C42_alphabet.
Theorem C42_alphabet_monotone : forall w sa data,
  zero_free w -> is_suffix_array (terminated w) sa -> data = w \/ data = terminated w ->
  forall b, construct_base data sa = Some b ->
  forall x y cx cy, In x (terminated w) -> In y (terminated w) -> x < y ->
  nth_error (al_char2comp (bi_alpha b)) x = Some cx -> nth_error (al_char2comp (bi_alpha b)) y = Some cy ->
  cx < cy < al_sigma (bi_alpha b).
Proof. exact st_alphabet_mono. Qed.
Print Assumptions C42_alphabet_monotone.

(** The range held by the search loop after the symbols of [v] is the interval of [v]; the search
    of [u ++ v] continues from it, and an empty range is final. *)
Theorem C43_rindex_search : forall w sa data,
  zero_free w -> is_suffix_array (terminated w) sa -> data = w \/ data = terminated w ->
  forall ix, construct_rindex data sa = Some ix ->
  forall u v, pattern_over w v -> exists s e,
  count_loop (ri_lf (ri_alpha ix) (ri_bwt ix)) range_of_lf (al_symbol (ri_alpha ix)) range_empty
    (rev v) (0, length sa) = Some (s, e) /\ row_interval v w sa s e /\
  rindex_count ix (u ++ v) =
    count_loop (ri_lf (ri_alpha ix) (ri_bwt ix)) range_of_lf (al_symbol (ri_alpha ix)) range_empty (rev u) (s, e) /\
  (s = e -> rindex_count ix (u ++ v) = Some (s, e)).
Proof. exact st_rindex_search. Qed.
Print Assumptions C43_rindex_search.

(** The toehold is the last row of the range: Locate reports SA[e-1], SA[e-2], ..., SA[s]. *)
Theorem C44_rindex_order : forall w sa data ix p,
  zero_free w -> is_suffix_array (terminated w) sa -> data = w \/ data = terminated w ->
  construct_rindex data sa = Some ix -> pattern_over w p ->
  exists s e, row_interval p w sa s e /\ rindex_locate ix p = Some (rev (rows sa s e)).
Proof.
  intros w sa data ix p Hw HSA Hd Hix Hp. destruct (st_rindex w sa data Hw HSA Hd ix Hix p Hp) as (s & e & H1 & H2 & H3 & H4 & H5).
  eauto.
Qed.
Print Assumptions C44_rindex_order.

(** A concrete text meets the hypotheses: "banana", pattern "ana". *)
Example ex_hyps : zero_free ex_w /\ is_suffix_array (terminated ex_w) ex_sa /\ pattern_over ex_w [97; 110; 97].
Proof.
  split; [repeat constructor|]. split; [apply sa_check_ok; vm_compute; reflexivity|].
  split; [discriminate|]. cbn. intuition.
Qed.
Example ex_rindex : exists ix, construct_rindex ex_w ex_sa = Some ix /\
  rindex_count ix [97; 110; 97] = Some (2, 4) /\ rindex_locate ix [97; 110; 97] = Some [1; 3] /\
  rindex_count ix [110; 98] = Some (7, 7) /\ rindex_locate ix [110; 98] = Some [].
Proof. eexists. split; [vm_compute; reflexivity|]. repeat split; vm_compute; reflexivity. Qed.
Example ex_base : exists b, construct_base ex_w ex_sa = Some b /\
  bi_runs_files b = mk_bwt_runs [0; 1; 3; 4; 5] [5; 4; 0; 6; 3] [0; 2; 3; 4; 6] [5; 2; 0; 6; 1] /\
  al_C (bi_alpha b) = [0; 1; 4; 5; 7] /\ al_sigma (bi_alpha b) = 4.
Proof. eexists. split; [vm_compute; reflexivity|]. repeat split; vm_compute; reflexivity. Qed.
Example ex_circular : circular_predecessor [false; true; false; true; false] 5 3 = Some (0, 1) /\
  circular_predecessor [false; true; false; true; false] 5 1 = Some (1, 3) /\
  circular_soft_successor [false; true; false; true; false] 5 3 = Some (1, 3) /\
  circular_soft_successor [false; true; false; true; false] 5 4 = Some (0, 1).
Proof. repeat split; vm_compute; reflexivity. Qed.
