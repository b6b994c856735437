(** C06, C07, C08, C15, C17, C18, C38, C39, C43, C44: the CSA family.
    Common hypotheses: [w] is the text, any sequence of non-zero bytes; [sa] the suffix array of
    the text with its terminator; [data] the input file, with or without a final zero; [2 * h] the
    sampling density of the encoded vectors (64 in the default types, i.e. h = 32); positions fit
    in 64 bits. *)
From Coq Require Import List Arith Bool Sorted Permutation.
From Verif Require Import Spec MBase MConstruct MPhi MRIndex MPsi MCsa Glue CsaGlue.
Import ListNotations.

Theorem C06_rcsa_bwt_construct_total : forall w sa data h,
  zero_free w -> is_suffix_array (terminated w) sa -> data = w \/ data = terminated w ->
  0 < h -> S (length w) < 2 ^ 64 ->
  exists ix, construct_rcsa_bwt (2 * h) data sa = Some ix.
Proof. intros w sa data h Hw HSA Hd Hh Hn. exact (st_bwt_construct w sa data Hw HSA Hd h Hh Hn). Qed.
Print Assumptions C06_rcsa_bwt_construct_total.
Theorem C06_rcsa_bwt_locate : forall w sa data h ix p,
  zero_free w -> is_suffix_array (terminated w) sa -> data = w \/ data = terminated w ->
  0 < h -> S (length w) < 2 ^ 64 ->
  construct_rcsa_bwt (2 * h) data sa = Some ix -> pattern_over w p ->
  exists l, rcsa_bwt_locate ix p = Some l /\ exact_answer p w l.
Proof.
  intros w sa data h ix p Hw HSA Hd Hh Hn Hix Hp. eapply fwd_exact. apply (st_bwt w sa data Hw HSA Hd h Hh Hn ix p Hix Hp).
Qed.
Print Assumptions C06_rcsa_bwt_locate.
Theorem C01_rcsa_bwt_count : forall w sa data h ix p,
  zero_free w -> is_suffix_array (terminated w) sa -> data = w \/ data = terminated w ->
  0 < h -> S (length w) < 2 ^ 64 ->
  construct_rcsa_bwt (2 * h) data sa = Some ix -> pattern_over w p ->
  exists s e, rcsa_bwt_count ix p = Some (s, e) /\ row_interval p w sa s e /\
    exists l, exact_answer p w l /\ length l = e - s.
Proof.
  intros w sa data h ix p Hw HSA Hd Hh Hn Hix Hp. eapply fwd_count. apply (st_bwt w sa data Hw HSA Hd h Hh Hn ix p Hix Hp).
Qed.
Print Assumptions C01_rcsa_bwt_count.
Theorem C15_rcsa_bwt : forall w sa data h ix p,
  zero_free w -> is_suffix_array (terminated w) sa -> data = w \/ data = terminated w ->
  0 < h -> S (length w) < 2 ^ 64 ->
  construct_rcsa_bwt (2 * h) data sa = Some ix -> pattern_over w p ->
  exists l s e, rcsa_bwt_locate ix p = Some l /\ rcsa_bwt_count ix p = Some (s, e) /\ length l = e - s /\
    ((forall i, ~ occurs_at p w i) -> l = [] /\ s = e).
Proof.
  intros w sa data h ix p Hw HSA Hd Hh Hn Hix Hp. eapply fwd_agree. apply (st_bwt w sa data Hw HSA Hd h Hh Hn ix p Hix Hp).
Qed.
Print Assumptions C15_rcsa_bwt.
(** The range after the symbols of [v] is the interval of [v]; the search of [u ++ v] continues
    from it, and an empty range is final. *)
Theorem C43_rcsa_bwt_search : forall w sa data h ix u v,
  zero_free w -> is_suffix_array (terminated w) sa -> data = w \/ data = terminated w ->
  0 < h -> S (length w) < 2 ^ 64 ->
  construct_rcsa_bwt (2 * h) data sa = Some ix -> pattern_over w v ->
  exists s e, count_loop (csa_lf (ca_alpha ix) (ca_psi ix)) range_of_psi (al_symbol (ca_alpha ix)) range_empty (rev v) (0, length sa) = Some (s, e) /\
    row_interval v w sa s e /\
    rcsa_bwt_count ix (u ++ v) =
      count_loop (csa_lf (ca_alpha ix) (ca_psi ix)) range_of_psi (al_symbol (ca_alpha ix)) range_empty (rev u) (s, e) /\
    (s = e -> rcsa_bwt_count ix (u ++ v) = Some (s, e)).
Proof. intros w sa data h ix u v Hw HSA Hd Hh Hn. exact (st_bwt_search w sa data Hw HSA Hd h Hh Hn ix u v). Qed.
Print Assumptions C43_rcsa_bwt_search.
(** The toehold is the first row of the range: Locate reports SA[s], SA[s+1], ..., SA[e-1]. *)
Theorem C44_rcsa_bwt_order : forall w sa data h ix p,
  zero_free w -> is_suffix_array (terminated w) sa -> data = w \/ data = terminated w ->
  0 < h -> S (length w) < 2 ^ 64 ->
  construct_rcsa_bwt (2 * h) data sa = Some ix -> pattern_over w p ->
  exists s e, row_interval p w sa s e /\ rcsa_bwt_locate ix p = Some (rows sa s e).
Proof.
  intros w sa data h ix p Hw HSA Hd Hh Hn Hix Hp.
  destruct (st_bwt w sa data Hw HSA Hd h Hh Hn ix p Hix Hp) as (s & e & H1 & H2 & H3 & H4 & H5). eauto.
Qed.
Print Assumptions C44_rcsa_bwt_order.

Theorem C07_rcsa_psi_construct_total : forall w sa data h,
  zero_free w -> is_suffix_array (terminated w) sa -> data = w \/ data = terminated w ->
  0 < h -> S (length w) < 2 ^ 64 ->
  exists ix, construct_rcsa_psi (2 * h) data sa = Some ix.
Proof. intros w sa data h Hw HSA Hd Hh Hn. exact (st_psi_construct w sa data Hw HSA Hd h Hh Hn). Qed.
Print Assumptions C07_rcsa_psi_construct_total.
Theorem C07_rcsa_psi_locate : forall w sa data h ix p,
  zero_free w -> is_suffix_array (terminated w) sa -> data = w \/ data = terminated w ->
  0 < h -> S (length w) < 2 ^ 64 ->
  construct_rcsa_psi (2 * h) data sa = Some ix -> pattern_over w p ->
  exists l, rcsa_psi_locate ix p = Some l /\ exact_answer p w l.
Proof.
  intros w sa data h ix p Hw HSA Hd Hh Hn Hix Hp. eapply fwd_exact. apply (st_psi w sa data Hw HSA Hd h Hh Hn ix p Hix Hp).
Qed.
Print Assumptions C07_rcsa_psi_locate.
Theorem C01_rcsa_psi_count : forall w sa data h ix p,
  zero_free w -> is_suffix_array (terminated w) sa -> data = w \/ data = terminated w ->
  0 < h -> S (length w) < 2 ^ 64 ->
  construct_rcsa_psi (2 * h) data sa = Some ix -> pattern_over w p ->
  exists s e, rcsa_psi_count ix p = Some (s, e) /\ row_interval p w sa s e /\
    exists l, exact_answer p w l /\ length l = e - s.
Proof.
  intros w sa data h ix p Hw HSA Hd Hh Hn Hix Hp. eapply fwd_count. apply (st_psi w sa data Hw HSA Hd h Hh Hn ix p Hix Hp).
Qed.
Print Assumptions C01_rcsa_psi_count.
Theorem C15_rcsa_psi : forall w sa data h ix p,
  zero_free w -> is_suffix_array (terminated w) sa -> data = w \/ data = terminated w ->
  0 < h -> S (length w) < 2 ^ 64 ->
  construct_rcsa_psi (2 * h) data sa = Some ix -> pattern_over w p ->
  exists l s e, rcsa_psi_locate ix p = Some l /\ rcsa_psi_count ix p = Some (s, e) /\ length l = e - s /\
    ((forall i, ~ occurs_at p w i) -> l = [] /\ s = e).
Proof.
  intros w sa data h ix p Hw HSA Hd Hh Hn Hix Hp. eapply fwd_agree. apply (st_psi w sa data Hw HSA Hd h Hh Hn ix p Hix Hp).
Qed.
Print Assumptions C15_rcsa_psi.
(** The range after the symbols of [v] is the interval of [v]; the search of [u ++ v] continues
    from it, and an empty range is final. *)
Theorem C43_rcsa_psi_search : forall w sa data h ix u v,
  zero_free w -> is_suffix_array (terminated w) sa -> data = w \/ data = terminated w ->
  0 < h -> S (length w) < 2 ^ 64 ->
  construct_rcsa_psi (2 * h) data sa = Some ix -> pattern_over w v ->
  exists s e, count_loop (csa_lf (ca_alpha ix) (ca_psi ix)) range_of_psi (al_symbol (ca_alpha ix)) range_empty (rev v) (0, length sa) = Some (s, e) /\
    row_interval v w sa s e /\
    rcsa_psi_count ix (u ++ v) =
      count_loop (csa_lf (ca_alpha ix) (ca_psi ix)) range_of_psi (al_symbol (ca_alpha ix)) range_empty (rev u) (s, e) /\
    (s = e -> rcsa_psi_count ix (u ++ v) = Some (s, e)).
Proof. intros w sa data h ix u v Hw HSA Hd Hh Hn. exact (st_psi_search w sa data Hw HSA Hd h Hh Hn ix u v). Qed.
Print Assumptions C43_rcsa_psi_search.
(** The toehold is the first row of the range: Locate reports SA[s], SA[s+1], ..., SA[e-1]. *)
Theorem C44_rcsa_psi_order : forall w sa data h ix p,
  zero_free w -> is_suffix_array (terminated w) sa -> data = w \/ data = terminated w ->
  0 < h -> S (length w) < 2 ^ 64 ->
  construct_rcsa_psi (2 * h) data sa = Some ix -> pattern_over w p ->
  exists s e, row_interval p w sa s e /\ rcsa_psi_locate ix p = Some (rows sa s e).
Proof.
  intros w sa data h ix p Hw HSA Hd Hh Hn Hix Hp.
  destruct (st_psi w sa data Hw HSA Hd h Hh Hn ix p Hix Hp) as (s & e & H1 & H2 & H3 & H4 & H5). eauto.
Qed.
Print Assumptions C44_rcsa_psi_order.

Theorem C08_csa_raw_construct_total : forall w sa data h,
  zero_free w -> is_suffix_array (terminated w) sa -> data = w \/ data = terminated w ->
  0 < h -> S (length w) < 2 ^ 64 ->
  exists ix, construct_csa_raw (2 * h) data sa = Some ix.
Proof. intros w sa data h Hw HSA Hd Hh Hn. exact (st_raw_construct w sa data Hw HSA Hd h Hh Hn). Qed.
Print Assumptions C08_csa_raw_construct_total.
Theorem C08_csa_raw_locate : forall w sa data h ix p,
  zero_free w -> is_suffix_array (terminated w) sa -> data = w \/ data = terminated w ->
  0 < h -> S (length w) < 2 ^ 64 ->
  construct_csa_raw (2 * h) data sa = Some ix -> pattern_over w p ->
  exists l, csa_raw_locate ix p = Some l /\ exact_answer p w l.
Proof.
  intros w sa data h ix p Hw HSA Hd Hh Hn Hix Hp. eapply fwd_exact. apply (st_raw w sa data Hw HSA Hd h Hh Hn ix p Hix Hp).
Qed.
Print Assumptions C08_csa_raw_locate.
Theorem C01_csa_raw_count : forall w sa data h ix p,
  zero_free w -> is_suffix_array (terminated w) sa -> data = w \/ data = terminated w ->
  0 < h -> S (length w) < 2 ^ 64 ->
  construct_csa_raw (2 * h) data sa = Some ix -> pattern_over w p ->
  exists s e, csa_raw_count ix p = Some (s, e) /\ row_interval p w sa s e /\
    exists l, exact_answer p w l /\ length l = e - s.
Proof.
  intros w sa data h ix p Hw HSA Hd Hh Hn Hix Hp. eapply fwd_count. apply (st_raw w sa data Hw HSA Hd h Hh Hn ix p Hix Hp).
Qed.
Print Assumptions C01_csa_raw_count.
Theorem C15_csa_raw : forall w sa data h ix p,
  zero_free w -> is_suffix_array (terminated w) sa -> data = w \/ data = terminated w ->
  0 < h -> S (length w) < 2 ^ 64 ->
  construct_csa_raw (2 * h) data sa = Some ix -> pattern_over w p ->
  exists l s e, csa_raw_locate ix p = Some l /\ csa_raw_count ix p = Some (s, e) /\ length l = e - s /\
    ((forall i, ~ occurs_at p w i) -> l = [] /\ s = e).
Proof.
  intros w sa data h ix p Hw HSA Hd Hh Hn Hix Hp. eapply fwd_agree. apply (st_raw w sa data Hw HSA Hd h Hh Hn ix p Hix Hp).
Qed.
Print Assumptions C15_csa_raw.
(** The range after the symbols of [v] is the interval of [v]; the search of [u ++ v] continues
    from it, and an empty range is final. *)
Theorem C43_csa_raw_search : forall w sa data h ix u v,
  zero_free w -> is_suffix_array (terminated w) sa -> data = w \/ data = terminated w ->
  0 < h -> S (length w) < 2 ^ 64 ->
  construct_csa_raw (2 * h) data sa = Some ix -> pattern_over w v ->
  exists s e, count_loop (csa_lf (cr_alpha ix) (cr_psi ix)) range_of_psi (al_symbol (cr_alpha ix)) range_empty (rev v) (0, length sa) = Some (s, e) /\
    row_interval v w sa s e /\
    csa_raw_count ix (u ++ v) =
      count_loop (csa_lf (cr_alpha ix) (cr_psi ix)) range_of_psi (al_symbol (cr_alpha ix)) range_empty (rev u) (s, e) /\
    (s = e -> csa_raw_count ix (u ++ v) = Some (s, e)).
Proof. intros w sa data h ix u v Hw HSA Hd Hh Hn. exact (st_raw_search w sa data Hw HSA Hd h Hh Hn ix u v). Qed.
Print Assumptions C43_csa_raw_search.
(** The toehold is the first row of the range: Locate reports SA[s], SA[s+1], ..., SA[e-1]. *)
Theorem C44_csa_raw_order : forall w sa data h ix p,
  zero_free w -> is_suffix_array (terminated w) sa -> data = w \/ data = terminated w ->
  0 < h -> S (length w) < 2 ^ 64 ->
  construct_csa_raw (2 * h) data sa = Some ix -> pattern_over w p ->
  exists s e, row_interval p w sa s e /\ csa_raw_locate ix p = Some (rows sa s e).
Proof.
  intros w sa data h ix p Hw HSA Hd Hh Hn Hix Hp.
  destruct (st_raw w sa data Hw HSA Hd h Hh Hn ix p Hix Hp) as (s & e & H1 & H2 & H3 & H4 & H5). eauto.
Qed.
Print Assumptions C44_csa_raw_order.

(** C18: the empty pattern is defined on these classes and locates every position.  With the sample
    of the first BWT run as initial toehold, RCSAWithBWTRun starts the cycle at SA[0] - 1. *)
Theorem C18_rcsa_bwt_empty_pattern : forall w sa data h ix,
  zero_free w -> is_suffix_array (terminated w) sa -> data = w \/ data = terminated w ->
  0 < h -> S (length w) < 2 ^ 64 ->
  construct_rcsa_bwt (2 * h) data sa = Some ix ->
  rcsa_bwt_count ix [] = Some (0, length sa) /\
  exists l, rcsa_bwt_locate ix [] = Some l /\ Permutation l (seq 0 (S (length w))).
Proof. intros w sa data h ix Hw HSA Hd Hh Hn. exact (st_bwt_empty w sa data Hw HSA Hd h Hh Hn ix). Qed.
Print Assumptions C18_rcsa_bwt_empty_pattern.
Theorem C18_rcsa_psi_empty_pattern : forall w sa data h ix,
  zero_free w -> is_suffix_array (terminated w) sa -> data = w \/ data = terminated w ->
  0 < h -> S (length w) < 2 ^ 64 ->
  construct_rcsa_psi (2 * h) data sa = Some ix ->
  rcsa_psi_count ix [] = Some (0, length sa) /\ rcsa_psi_locate ix [] = Some sa.
Proof. intros w sa data h ix Hw HSA Hd Hh Hn. exact (st_psi_empty w sa data Hw HSA Hd h Hh Hn ix). Qed.
Print Assumptions C18_rcsa_psi_empty_pattern.
Theorem C18_csa_raw_empty_pattern : forall w sa data h ix,
  zero_free w -> is_suffix_array (terminated w) sa -> data = w \/ data = terminated w ->
  0 < h -> S (length w) < 2 ^ 64 ->
  construct_csa_raw (2 * h) data sa = Some ix ->
  csa_raw_count ix [] = Some (0, length sa) /\ csa_raw_locate ix [] = Some sa.
Proof. intros w sa data h ix Hw HSA Hd Hh Hn. exact (st_raw_empty w sa data Hw HSA Hd h Hh Hn ix). Qed.
Print Assumptions C18_csa_raw_empty_pattern.

(** C38: phi on the structures of a constructed index: SA[i] -> SA[i+1], cyclically. *)
Theorem C38_phi_forward_bwt : forall w sa data h ix i a,
  zero_free w -> is_suffix_array (terminated w) sa -> data = w \/ data = terminated w ->
  0 < h -> S (length w) < 2 ^ 64 ->
  construct_rcsa_bwt (2 * h) data sa = Some ix -> nth_error sa i = Some a ->
  exists b, csa_phi (length sa) (ca_marks ix) (ca_samples ix) (links_default (ca_links ix) true) sample_validator_default a
    = Some (nth ((i + 1) mod length sa) sa 0, b).
Proof. intros w sa data h ix i a Hw HSA Hd Hh Hn. exact (st_bwt_phi w sa data Hw HSA Hd h Hh Hn ix i a). Qed.
Print Assumptions C38_phi_forward_bwt.
Theorem C38_phi_forward_psi : forall w sa data h ix i a,
  zero_free w -> is_suffix_array (terminated w) sa -> data = w \/ data = terminated w ->
  0 < h -> S (length w) < 2 ^ 64 ->
  construct_rcsa_psi (2 * h) data sa = Some ix -> nth_error sa i = Some a ->
  exists b, csa_phi (length sa) (ca_marks ix) (ca_samples ix) (links_default (ca_links ix) true) sample_validator_default a
    = Some (nth ((i + 1) mod length sa) sa 0, b).
Proof. intros w sa data h ix i a Hw HSA Hd Hh Hn. exact (st_psi_phi w sa data Hw HSA Hd h Hh Hn ix i a). Qed.
Print Assumptions C38_phi_forward_psi.

(** C39.  The link functions between run tails (marks) and run heads (samples) are inverse of each
    other, and a mark and its sample are neighbours in the suffix array. *)
Theorem C39_forward_links_inverse : forall w sa data h b pc,
  zero_free w -> is_suffix_array (terminated w) sa -> data = w \/ data = terminated w ->
  0 < h -> S (length w) < 2 ^ 64 ->
  construct_base data sa = Some b -> construct_psi_core (2 * h) b = Some pc ->
  let f := bi_runs_files b in
  let lf := basic_lf (bi_alpha b) (bi_bwt_rle b) in let psi := core_psi_fn (bi_alpha b) pc in
  (forall k t, nth_error (br_last f) k = Some t -> exists j x m y,
     link_to_sample lf psi (lower_bound (br_first f)) (length sa) t = Some j /\ nth_error (br_first f) j = Some x /\
     link_to_mark lf psi (lower_bound (br_last f)) (length sa) x = Some k /\
     nth_error (br_last_text f) k = Some m /\ nth_error (br_first_text f) j = Some y /\
     exists i, nth_error sa i = Some m /\ nth_error sa ((i + 1) mod length sa) = Some y) /\
  (forall j x, nth_error (br_first f) j = Some x -> exists k t,
     link_to_mark lf psi (lower_bound (br_last f)) (length sa) x = Some k /\ nth_error (br_last f) k = Some t /\
     link_to_sample lf psi (lower_bound (br_first f)) (length sa) t = Some j).
Proof. intros w sa data h b pc Hw HSA Hd Hh Hn. exact (st_links_bwt w sa data Hw HSA Hd h Hh Hn b pc). Qed.
Print Assumptions C39_forward_links_inverse.
(** The stored link tables: a bijection from marks in text order to samples. *)
Theorem C39_link_table_bwt : forall w sa data h ix,
  zero_free w -> is_suffix_array (terminated w) sa -> data = w \/ data = terminated w ->
  0 < h -> S (length w) < 2 ^ 64 ->
  construct_rcsa_bwt (2 * h) data sa = Some ix ->
  NoDup (ca_links ix) /\ length (ca_links ix) = length (ca_samples ix) /\
  forall q l, nth_error (ca_links ix) q = Some l -> exists m x,
    bv_select (ca_marks ix) (S q) = Some m /\ nth_error (ca_samples ix) l = Some x /\
    exists i, nth_error sa i = Some m /\ nth_error sa ((i + 1) mod length sa) = Some x.
Proof. intros w sa data h ix Hw HSA Hd Hh Hn. exact (st_bwt_links w sa data Hw HSA Hd h Hh Hn ix). Qed.
Print Assumptions C39_link_table_bwt.
Theorem C39_link_table_psi : forall w sa data h ix,
  zero_free w -> is_suffix_array (terminated w) sa -> data = w \/ data = terminated w ->
  0 < h -> S (length w) < 2 ^ 64 ->
  construct_rcsa_psi (2 * h) data sa = Some ix ->
  NoDup (ca_links ix) /\ length (ca_links ix) = length (ca_samples ix) /\
  forall q l, nth_error (ca_links ix) q = Some l -> exists m x,
    bv_select (ca_marks ix) (S q) = Some m /\ nth_error (ca_samples ix) l = Some x /\
    exists i, nth_error sa i = Some m /\ nth_error sa ((i + 1) mod length sa) = Some x.
Proof. intros w sa data h ix Hw HSA Hd Hh Hn. exact (st_psi_links w sa data Hw HSA Hd h Hh Hn ix). Qed.
Print Assumptions C39_link_table_psi.

Theorem C39_link_table_rindex : forall w sa data ix,
  zero_free w -> is_suffix_array (terminated w) sa -> data = w \/ data = terminated w ->
  construct_rindex data sa = Some ix ->
  NoDup (ri_links ix) /\ length (ri_links ix) = length (ri_samples ix) /\
  forall q l, nth_error (ri_links ix) q = Some l -> exists m x,
    bv_select (ri_marks ix) (S q) = Some m /\ nth_error (ri_samples ix) l = Some x /\
    exists i a b, nth_error sa i = Some a /\ nth_error sa (cpred (length sa) i) = Some b /\
      m = cpred (length sa) a /\ x = cpred (length sa) b.
Proof. intros w sa data ix Hw HSA Hd. exact (st_ri_links w sa data Hw HSA Hd ix). Qed.
Print Assumptions C39_link_table_rindex.
(** The previous-run and next-run links (construct.h:242-256, sr_index.h submarks, r_csa.h psi runs)
    are inverse of each other. *)
Theorem C39_run_links_inverse : forall r i, i < r -> exists j,
  j < r /\ umod (i + r - 1) r = Some j /\ umod (j + 1) r = Some i /\
  exists k, k < r /\ umod (i + 1) r = Some k /\ umod (k + r - 1) r = Some i.
Proof. exact run_links_inverse. Qed.
Print Assumptions C39_run_links_inverse.

(** Concrete cases: "banana", with the smallest density and with the default one. *)
Definition exc_w : list nat := [98; 97; 110; 97; 110; 97].
Definition exc_sa : list nat := [6; 5; 3; 1; 0; 4; 2].
Lemma exc_small : S (length exc_w) < 2 ^ 64.
Proof. apply Nat.lt_trans with 64; [cbn; repeat constructor|apply Nat.pow_gt_lin_r; repeat constructor]. Qed.
Example exc_hyps : zero_free exc_w /\ is_suffix_array (terminated exc_w) exc_sa /\ pattern_over exc_w [97; 110; 97].
Proof.
  split; [repeat constructor|]. split; [apply sa_check_ok; vm_compute; reflexivity|].
  split; [discriminate|]. cbn. intuition.
Qed.
Example exc_bwt : exists ix, construct_rcsa_bwt (2 * 1) exc_w exc_sa = Some ix /\
  rcsa_bwt_count ix [97; 110; 97] = Some (2, 4) /\ rcsa_bwt_locate ix [97; 110; 97] = Some [3; 1] /\
  rcsa_bwt_locate ix [110; 98] = Some [] /\ rcsa_bwt_locate ix [] = Some [5; 3; 1; 0; 4; 2; 6] /\
  length (ca_links ix) = 5.
Proof. eexists. split; [vm_compute; reflexivity|]. repeat split; vm_compute; reflexivity. Qed.
Example exc_psi : exists ix, construct_rcsa_psi (2 * 32) exc_w exc_sa = Some ix /\
  rcsa_psi_count ix [97; 110; 97] = Some (2, 4) /\ rcsa_psi_locate ix [97; 110; 97] = Some [3; 1] /\
  rcsa_psi_locate ix [110; 98] = Some [] /\ rcsa_psi_locate ix [] = Some exc_sa /\ length (ca_links ix) = 5.
Proof. eexists. split; [vm_compute; reflexivity|]. repeat split; vm_compute; reflexivity. Qed.
Example exc_raw : exists ix, construct_csa_raw (2 * 2) exc_w exc_sa = Some ix /\
  csa_raw_count ix [97; 110; 97] = Some (2, 4) /\ csa_raw_locate ix [97; 110; 97] = Some [3; 1].
Proof. eexists. split; [vm_compute; reflexivity|]. repeat split; vm_compute; reflexivity. Qed.

(** C17 does not hold here either: a byte that is not in the text is searched as the terminator. *)
Theorem C17_csa_absent_byte_refuted : exists w sa p,
  zero_free w /\ is_suffix_array (terminated w) sa /\ S (length w) < 2 ^ 64 /\
  (exists c, In c p /\ ~ In c w) /\ (forall i, ~ occurs_at p w i) /\
  (exists ix, construct_rcsa_bwt (2 * 32) w sa = Some ix /\ rcsa_bwt_count ix p = Some (0, 1) /\ rcsa_bwt_locate ix p = Some [length w]) /\
  (exists ix, construct_rcsa_psi (2 * 32) w sa = Some ix /\ rcsa_psi_count ix p = Some (0, 1) /\ rcsa_psi_locate ix p = Some [length w]) /\
  (exists ix, construct_csa_raw (2 * 32) w sa = Some ix /\ csa_raw_count ix p = Some (0, 1) /\ csa_raw_locate ix p = Some [length w]).
Proof.
  exists exc_w, exc_sa, [120].
  split; [repeat constructor|]. split; [apply sa_check_ok; vm_compute; reflexivity|]. split; [exact exc_small|]. split.
  { exists 120. split; [left; auto|]. cbn. intuition discriminate. }
  split.
  { intros i (u & v & E & _). assert (H : In 120 exc_w) by (rewrite E; apply in_or_app; right; left; auto).
    cbn in H. intuition discriminate. }
  split; [|split]; (eexists; split; [vm_compute; reflexivity|]; split; vm_compute; reflexivity).
Qed.
Print Assumptions C17_csa_absent_byte_refuted.
