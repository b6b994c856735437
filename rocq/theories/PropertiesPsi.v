(** C26-C33: the psi array, the two psi cores, the Psi functor and the encoded vector.

    The psi cores are stated for every sequence [b] over the symbols 0 .. sigma-1, each of which
    occurs, that is shorter than 2^64; the BWT of a text over its compacted alphabet is one.
    [2 * h] is the sample density of the encoded vectors. *)
From Coq Require Import List Arith Bool Permutation Sorted Lia.
From Verif Require Import Spec MBase MRle MConstruct MRIndex MPsi EncProof PsiSpec PsiText.
Import ListNotations.

(** C26: SA[psi[i]] = SA[i] + 1 (mod n) and psi is a permutation, for every text. *)
Theorem C26_psi_of_text : forall w sa data b psi,
  zero_free w -> is_suffix_array (terminated w) sa -> data = w \/ data = terminated w ->
  construct_base data sa = Some b ->
  construct_psi (rle_access (bi_bwt_rle b)) (al_C (bi_alpha b)) = Some psi ->
  Permutation psi (seq 0 (length sa)) /\
  forall i, i < length sa -> exists j a, nth_error psi i = Some j /\ nth_error sa i = Some a /\
    nth_error sa j = Some ((a + 1) mod length sa).
Proof. intros w sa data b psi. exact (text_psi_values w sa data b psi). Qed.
Print Assumptions C26_psi_of_text.

(** C26: the values are the positions grouped by symbol, increasing inside each symbol. *)
Theorem C26_psi_grouped : forall b sigma, dense b sigma ->
  construct_psi (nth_error b) (cumulative b sigma) = Some (grouped b sigma).
Proof. exact ps_grouped. Qed.
Print Assumptions C26_psi_grouped.

Theorem C27_construct_total : forall b sigma h, dense b sigma -> 0 < length b < 2 ^ 64 -> 0 < h ->
  exists pc, psi_rle_of b sigma (2 * h) pc.
Proof. exact ps_total. Qed.
Print Assumptions C27_construct_total.

Theorem C27_select : forall b sigma h pc, dense b sigma -> 0 < length b -> length b < 2 ^ 64 -> 0 < h ->
  psi_rle_of b sigma (2 * h) pc ->
  forall c k, 1 <= k <= occ c b (length b) ->
  exists p, pc_select pc c k = Some p /\ nth_error b p = Some c /\ occ c b p = k - 1.
Proof. exact ps_select. Qed.
Print Assumptions C27_select.

Theorem C27_rank : forall b sigma h pc, dense b sigma -> 0 < length b -> length b < 2 ^ 64 -> 0 < h ->
  psi_rle_of b sigma (2 * h) pc ->
  forall c v, c < sigma -> v <= length b -> pc_rank pc c v = Some (occ c b v).
Proof. exact ps_rank. Qed.
Print Assumptions C27_rank.

Theorem C27_exist : forall b sigma h pc, dense b sigma -> 0 < length b -> length b < 2 ^ 64 -> 0 < h ->
  psi_rle_of b sigma (2 * h) pc ->
  forall c v, c < sigma -> v < length b ->
  exists x, pc_exist pc c v = Some x /\ (x = true <-> nth_error b v = Some c).
Proof. exact ps_exist. Qed.
Print Assumptions C27_exist.

Theorem C27_exist_end : forall b sigma h pc, dense b sigma -> 0 < length b -> length b < 2 ^ 64 -> 0 < h ->
  psi_rle_of b sigma (2 * h) pc ->
  forall c, c < sigma -> pc_exist pc c (length b) = Some false.
Proof. exact ps_exist_end. Qed.
Print Assumptions C27_exist_end.

(** size() and getFirstBWTSymbol() *)
Theorem C27_size : forall b sigma h pc, dense b sigma -> 0 < length b -> length b < 2 ^ 64 -> 0 < h ->
  psi_rle_of b sigma (2 * h) pc -> pc_n pc = length b.
Proof. exact ps_size. Qed.
Print Assumptions C27_size.
Theorem C27_first_symbol : forall b sigma h pc, dense b sigma -> 0 < length b -> length b < 2 ^ 64 -> 0 < h ->
  psi_rle_of b sigma (2 * h) pc -> nth_error b 0 = Some (pc_first pc).
Proof. exact ps_first. Qed.
Print Assumptions C27_first_symbol.

(** C28: the first run of c that ends after v (for v = n, after n - 1), or the end sentinel. *)
Theorem C28_rank_report : forall b sigma h pc, dense b sigma -> 0 < length b -> length b < 2 ^ 64 -> 0 < h ->
  psi_rle_of b sigma (2 * h) pc ->
  forall c v, c < sigma -> v <= length b ->
  (exists s e, maximal_run b s e c /\ Nat.min v (length b - 1) < e /\
     (forall s' e', maximal_run b s' e' c -> Nat.min v (length b - 1) < e' -> s <= s') /\
     pc_rank_report pc c v = Some (occ c b v, s, e, runs_of_before c b s)) \/
  ((forall s' e', maximal_run b s' e' c -> e' <= Nat.min v (length b - 1)) /\
     pc_rank_report pc c v = Some (occ c b v, length b, length b, runs_of_before c b (length b))).
Proof. exact ps_rank_report. Qed.
Print Assumptions C28_rank_report.

Theorem C28_select_report : forall b sigma h pc, dense b sigma -> 0 < length b -> length b < 2 ^ 64 -> 0 < h ->
  psi_rle_of b sigma (2 * h) pc ->
  forall c k, 1 <= k <= occ c b (length b) ->
  exists p s e, maximal_run b s e c /\ s <= p < e /\ occ c b p = k - 1 /\
    pc_select_report pc c k = Some (p, s, e, runs_of_before c b s).
Proof. exact ps_select_report. Qed.
Print Assumptions C28_select_report.

Theorem C29_rank_run : forall b sigma h pc, dense b sigma -> 0 < length b -> length b < 2 ^ 64 -> 0 < h ->
  psi_rle_of b sigma (2 * h) pc ->
  forall v, v <= length b -> pc_rank_run pc v = Some (runs_before b v).
Proof. exact ps_rank_run. Qed.
Print Assumptions C29_rank_run.

Theorem C29_rank_char_run : forall b sigma h pc, dense b sigma -> 0 < length b -> length b < 2 ^ 64 -> 0 < h ->
  psi_rle_of b sigma (2 * h) pc ->
  forall c, c <= sigma -> pc_rank_char_run pc c = Some (runs_below c b).
Proof. exact ps_rank_char_run. Qed.
Print Assumptions C29_rank_char_run.

Theorem C29_count_runs : forall b sigma h pc, dense b sigma -> 0 < length b -> length b < 2 ^ 64 -> 0 < h ->
  psi_rle_of b sigma (2 * h) pc ->
  forall c, c < sigma -> pc_count_runs pc c = Some (runs_of_before c b (length b)).
Proof. exact ps_count_runs. Qed.
Print Assumptions C29_count_runs.

(** rankSoftRun(c, v): runs of c starting at or before v, and the start of the run of c that
    holds v (n when there is none). *)
Theorem C29_rank_soft_run : forall b sigma h pc, dense b sigma -> 0 < length b -> length b < 2 ^ 64 -> 0 < h ->
  psi_rle_of b sigma (2 * h) pc ->
  forall c v, c < sigma -> v < length b -> exists x,
  pc_rank_soft_run_c pc c v = Some (runs_of_before c b (S v), x) /\
  (forall s e, maximal_run b s e c -> s <= v < e -> x = s) /\ (nth_error b v <> Some c -> x = length b).
Proof. exact ps_soft. Qed.
Print Assumptions C29_rank_soft_run.

(** splitInSortedRuns(first, last): the interval cut exactly at the run borders, in order. *)
Theorem C29_split_sorted : forall b sigma h pc, dense b sigma -> 0 < length b -> length b < 2 ^ 64 -> 0 < h ->
  psi_rle_of b sigma (2 * h) pc ->
  forall first last, first < length b -> last <= length b -> exists ps,
  pc_split_in_sorted_runs pc first last = Some ps /\
  flat_map interval ps = seq first (last - first) /\ Forall (run_cut b first last) ps.
Proof. exact ps_split_sorted. Qed.
Print Assumptions C29_split_sorted.

(** splitInRuns(first, last): the same pieces, grouped by symbol. *)
Theorem C29_split : forall b sigma h pc, dense b sigma -> 0 < length b -> length b < 2 ^ 64 -> 0 < h ->
  psi_rle_of b sigma (2 * h) pc ->
  forall first last, first < length b -> last <= length b -> exists ps ps',
  pc_split_in_runs pc first last = Some ps /\ Permutation ps ps' /\
  flat_map interval ps' = seq first (last - first) /\ Forall (run_cut b first last) ps'.
Proof. exact ps_split. Qed.
Print Assumptions C29_split.

Theorem C29_traverse : forall b sigma h pc, dense b sigma -> 0 < length b -> length b < 2 ^ 64 -> 0 < h ->
  psi_rle_of b sigma (2 * h) pc ->
  forall c, c < sigma -> exists l, pc_traverse pc c = Some l /\
  StronglySorted (fun x y => snd x <= fst y) l /\ (forall s e, In (s, e) l <-> maximal_run b s e c).
Proof. exact ps_traverse. Qed.
Print Assumptions C29_traverse.

(** C30: ranks are 1-based in the code: [first_rank, last_rank) = [x + 1, y + 1). *)
Theorem C30_forward_runs : forall b sigma h pc, dense b sigma -> 0 < length b -> length b < 2 ^ 64 -> 0 < h ->
  psi_rle_of b sigma (2 * h) pc ->
  forall c x y, x < y -> y <= occ c b (length b) -> exists ps,
  pc_forward_runs pc c (S x) (S y) = Some ps /\
  flat_map interval ps = firstn (y - x) (skipn x (positions c b)) /\
  Forall (inside_run b) ps /\ Forall (fun p => pi_c p = c) ps /\
  StronglySorted (fun p q => pi_last p < pi_first q) ps.
Proof. exact ps_forward. Qed.
Print Assumptions C30_forward_runs.

Theorem C31_construct_total : forall b sigma, dense b sigma -> 0 < length b -> exists pv, psi_bv_of b sigma pv.
Proof. exact pv_total. Qed.
Print Assumptions C31_construct_total.
Theorem C31_select : forall b sigma pv, dense b sigma -> 0 < length b -> psi_bv_of b sigma pv ->
  forall c k, 1 <= k <= occ c b (length b) ->
  exists p, pv_select pv c k = Some p /\ nth_error b p = Some c /\ occ c b p = k - 1.
Proof. exact pv_select_ok. Qed.
Print Assumptions C31_select.
Theorem C31_rank : forall b sigma pv, dense b sigma -> 0 < length b -> psi_bv_of b sigma pv ->
  forall c v, c < sigma -> v <= length b -> pv_rank pv c v = Some (occ c b v).
Proof. exact pv_rank_ok. Qed.
Print Assumptions C31_rank.
Theorem C31_exist : forall b sigma pv, dense b sigma -> 0 < length b -> psi_bv_of b sigma pv ->
  forall c v, c < sigma -> v < length b ->
  exists x, pv_exist pv c v = Some x /\ (x = true <-> nth_error b v = Some c).
Proof. exact pv_exist_ok. Qed.
Print Assumptions C31_exist.

(** C32: LF of row i is C[c] + rank(c, i) for the symbol c of the row. *)
Theorem C32_psi_of_lf : forall b sigma h pc, dense b sigma -> 0 < length b -> length b < 2 ^ 64 -> 0 < h ->
  psi_rle_of b sigma (2 * h) pc ->
  forall i, i < length b -> exists c cc k, nth_error b i = Some c /\ nth_error (cumulative b sigma) c = Some cc /\
  pc_rank pc c i = Some k /\ psi_fn (pc_select pc) (cumulative b sigma) (cc + k) = Some i.
Proof. exact ps_psi_lf. Qed.
Print Assumptions C32_psi_of_lf.
Theorem C32_lf_of_psi : forall b sigma h pc, dense b sigma -> 0 < length b -> length b < 2 ^ 64 -> 0 < h ->
  psi_rle_of b sigma (2 * h) pc ->
  forall i, i < length b -> exists p c cc k, psi_fn (pc_select pc) (cumulative b sigma) i = Some p /\
  compute_c (cumulative b sigma) i = Some c /\ nth_error b p = Some c /\
  nth_error (cumulative b sigma) c = Some cc /\ pc_rank pc c p = Some k /\ cc + k = i.
Proof. exact ps_lf_psi. Qed.
Print Assumptions C32_lf_of_psi.

(** C33: an encoded vector gives back the values (None outside of it). *)
Theorem C33_enc_vector : forall dens V, 0 < dens ->
  (forall i, S i < length V -> nth i V 0 <= nth (S i) V 0) -> Forall (fun v => v < 2 ^ 64) V ->
  forall i, ev_access dens (ev_construct dens V) i = nth_error V i.
Proof. exact ev_access_ok. Qed.
Print Assumptions C33_enc_vector.
(** The constructor from a buffer (enc_vector.hpp). *)
Theorem C33_enc_vector_buffer : forall dens V, 0 < dens ->
  (forall i, S i < length V -> nth i V 0 <= nth (S i) V 0) -> Forall (fun v => v < 2 ^ 64) V ->
  forall i, ev_access dens (ev_construct_buf dens V) i = nth_error V i.
Proof. exact ev_access_buf_ok. Qed.
Print Assumptions C33_enc_vector_buffer.

(** Concrete cases. *)
Definition ex_b : list nat := [1; 1; 2; 0; 2; 2; 1; 0; 0; 2; 1; 1; 1; 2; 0; 1].
Lemma ex_small : length ex_b < 2 ^ 64.
Proof. apply Nat.lt_trans with 64; [cbn; lia|]. apply Nat.pow_gt_lin_r. lia. Qed.
Example ex_dense : dense ex_b 3 /\ 0 < length ex_b < 2 ^ 64.
Proof.
  split; [|split; [cbn; lia|apply ex_small]]. intros c. split; [|cbn; lia].
  intros H. destruct c as [|[|[|c]]]; cbn; try lia; tauto.
Qed.
Example ex_core : exists pc, psi_rle_of ex_b 3 (2 * 1) pc /\
  pc_select pc 1 4 = Some 10 /\ pc_rank pc 1 11 = Some 4 /\ pc_exist pc 1 11 = Some true /\ pc_exist pc 1 9 = Some false /\
  pc_rank_report pc 2 6 = Some (3, 9, 10, 2) /\ pc_rank_report pc 2 16 = Some (5, 16, 16, 4) /\
  pc_rank_run pc 6 = Some 4 /\ pc_rank_char_run pc 2 = Some 7 /\
  pc_split_in_sorted_runs pc 4 12 =
    Some [mk_piece 4 6 2 1 true; mk_piece 6 7 1 1 true; mk_piece 7 9 0 1 true; mk_piece 9 10 2 2 true; mk_piece 10 12 1 2 true] /\
  pc_forward_runs pc 1 2 6 = Some [mk_piece 1 2 1 0 false; mk_piece 6 7 1 1 true; mk_piece 10 12 1 2 true] /\
  psi_fn (pc_select pc) (cumulative ex_b 3) 7 = Some 10 /\ compute_c (cumulative ex_b 3) 7 = Some 1.
Proof.
  eexists. split; [eexists; split; vm_compute; reflexivity|]. repeat split; vm_compute; reflexivity.
Qed.
Example ex_bv : exists pv, psi_bv_of ex_b 3 pv /\ pv_select pv 1 4 = Some 10 /\ pv_rank pv 1 11 = Some 4 /\
  pv_exist pv 1 11 = Some true.
Proof. eexists. split; [eexists; split; vm_compute; reflexivity|]. repeat split; vm_compute; reflexivity. Qed.
Example ex_enc : ev_access 3 (ev_construct 3 [2; 2; 7; 9; 300; 301; 1000]) 4 = Some 300 /\
  ev_access 3 (ev_construct_buf 3 [2; 2; 7; 9; 300; 301; 1000]) 5 = Some 301 /\
  ev_access 3 (ev_construct 3 [2; 2; 7; 9; 300; 301; 1000]) 7 = None.
Proof. repeat split; vm_compute; reflexivity. Qed.
