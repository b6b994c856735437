(** C25: rle_string answers like the string it was built from.  C54, C55: sparse_sd_vector. *)
From Coq Require Import List Arith Bool Sorted Lia.
From Verif Require Import Spec MBase MRle MOldRle OldRle OldRleSpec.
Import ListNotations.

Theorem C25_construct_total : forall b l, 0 < b -> l <> [] -> zero_free l -> exists s, old_construct b l = Some s.
Proof. exact old_construct_total. Qed.
Print Assumptions C25_construct_total.

(** A string with a zero byte is rejected (assert of the constructor). *)
Theorem C25_zero_byte_rejected : forall b l, In 0 l -> old_construct b l = None.
Proof. exact old_construct_zero. Qed.
Print Assumptions C25_zero_byte_rejected.

Theorem C25_size : forall b l s, zero_free l -> old_construct b l = Some s -> old_size s = length l.
Proof. exact oldsp_size. Qed.
Print Assumptions C25_size.

Theorem C25_number_of_runs : forall b l s, zero_free l -> old_construct b l = Some s ->
  old_number_of_runs s = runs_before l (length l).
Proof. exact oldsp_runs. Qed.
Print Assumptions C25_number_of_runs.

Theorem C25_access : forall b l s, zero_free l -> old_construct b l = Some s ->
  forall i, i < length l -> old_access s i = nth_error l i.
Proof. exact oldsp_access. Qed.
Print Assumptions C25_access.

Theorem C25_to_string : forall b l s, zero_free l -> old_construct b l = Some s -> old_to_string s = Some l.
Proof. exact oldsp_to_string. Qed.
Print Assumptions C25_to_string.

(** rank is defined for every byte, present in the string or not. *)
Theorem C25_rank : forall b l s, zero_free l -> old_construct b l = Some s ->
  forall i c, i <= length l -> c < 256 -> old_rank s i c = Some (occ c l i).
Proof. exact oldsp_rank. Qed.
Print Assumptions C25_rank.

(** select counts from 0. *)
Theorem C25_select : forall b l s, zero_free l -> old_construct b l = Some s ->
  forall k c, k < occ c l (length l) ->
  exists p, old_select s k c = Some p /\ nth_error l p = Some c /\ occ c l p = k.
Proof. exact oldsp_select. Qed.
Print Assumptions C25_select.

(** run_of_position and get_run_of: index of the run, and its last position. *)
Theorem C25_run_of_position : forall b l s, zero_free l -> old_construct b l = Some s ->
  forall i, i < length l ->
  exists st e c, maximal_run l st e c /\ st <= i < e /\
    old_run_of_position s i = Some (runs_before l st) /\ old_run_of s i = Some (runs_before l st, e - 1).
Proof. exact oldsp_position. Qed.
Print Assumptions C25_run_of_position.

Theorem C25_run_range : forall b l s, zero_free l -> old_construct b l = Some s ->
  forall j, j < old_number_of_runs s ->
  exists st e c, maximal_run l st e c /\ runs_before l st = j /\
    old_run_range s j = Some (st, e - 1) /\ old_run_at s j = Some (e - st).
Proof. exact oldsp_run_range. Qed.
Print Assumptions C25_run_range.

(** break_in_runs: every run that meets the range, clipped to it, from left to right, once. *)
Theorem C25_break_in_runs : forall b l s, zero_free l -> old_construct b l = Some s ->
  forall first last, first <= last -> last < length l ->
  exists rs, old_break_in_runs s (first, last) = Some rs /\
    StronglySorted (fun a b => snd (sr_range a) < fst (sr_range b)) rs /\
    forall k c x y, In (mk_string_run k c (x, y)) rs <->
      exists st e, maximal_run l st e c /\ st <= last /\ first < e /\
        k = runs_before l st /\ x = Nat.max st first /\ y = Nat.min (e - 1) last.
Proof. exact oldsp_break_in_runs. Qed.
Print Assumptions C25_break_in_runs.

(** break_range: the same for the runs of one symbol, found at both ends of the range. *)
Theorem C25_break_range : forall b l s, zero_free l -> old_construct b l = Some s ->
  forall first last c, first <= last -> last < length l ->
  nth_error l first = Some c -> nth_error l last = Some c ->
  exists rs, old_break_range s (first, last) c = Some rs /\
    StronglySorted (fun a b => snd a < fst b) rs /\
    forall x y, In (x, y) rs <->
      exists st e, maximal_run l st e c /\ st <= last /\ first < e /\
        x = Nat.max st first /\ y = Nat.min (e - 1) last.
Proof. exact oldsp_break_range. Qed.
Print Assumptions C25_break_range.

(** closest_run_break: for a range with [c] and another symbol, the first position of the range that
    holds [c] and is next to a position of the range that does not. *)
Theorem C25_closest_run_break : forall b l s, zero_free l -> old_construct b l = Some s ->
  forall first last c i d j, first <= i <= last -> first <= j <= last -> last < length l ->
  nth_error l i = Some c -> nth_error l j = Some d -> d <> c ->
  exists p, old_closest_run_break s (first, last) c = Some p /\
    let edge q := first <= q <= last /\ nth_error l q = Some c /\
                  exists q', (q' = q + 1 \/ q' + 1 = q) /\ first <= q' <= last /\ nth_error l q' <> Some c in
    edge p /\ forall q, edge q -> p <= q.
Proof. exact oldsp_closest. Qed.
Print Assumptions C25_closest_run_break.

Definition ex_str : list nat := [2; 2; 5; 5; 5; 1; 2; 2; 2; 5; 9; 9; 7].
Example ex_str_zero_free : zero_free ex_str.
Proof. unfold zero_free, ex_str. repeat constructor; lia. Qed.
Example ex_oldrle : exists s, old_construct 2 ex_str = Some s /\
  old_to_string s = Some ex_str /\
  old_rank s 9 2 = Some 5 /\ old_rank s 13 3 = Some 0 /\ old_rank s 7 200 = Some 0 /\
  old_select s 3 5 = Some 9 /\ old_run_of_position s 7 = Some 3 /\ old_run_of s 7 = Some (3, 8) /\
  old_run_range s 3 = Some (6, 8) /\
  old_break_in_runs s (3, 6) =
    Some [mk_string_run 1 5 (3, 4); mk_string_run 2 1 (5, 5); mk_string_run 3 2 (6, 6)] /\
  old_break_range s (1, 7) 2 = Some [(1, 1); (6, 7)] /\
  old_closest_run_break s (3, 8) 5 = Some 4 /\ old_closest_run_break s (3, 8) 2 = Some 6.
Proof. eexists. vm_compute. repeat split. Qed.

(** ** C54: a sparse_sd_vector built from a vector<bool> answers like it. *)
Theorem C54_sparse_vector : forall bits, bits <> [] ->
  let v := sd_of_bools bits in
  sd_size v = length bits /\
  (forall i, i < length bits -> sd_access v i = nth_error bits i) /\
  (forall i, i <= length bits -> sd_rank v i = Some (length (filter (fun x => x) (firstn i bits)))) /\
  sd_ones v = Some (length (filter (fun x => x) bits)).
Proof. exact sdsp_ops. Qed.
Print Assumptions C54_sparse_vector.

Theorem C54_select : forall bits k, k < length (filter (fun x => x) bits) ->
  exists p, sd_select (sd_of_bools bits) k = Some p /\ nth_error bits p = Some true /\
            length (filter (fun x => x) (firstn p bits)) = k.
Proof. exact sdsp_select. Qed.
Print Assumptions C54_select.

(** The last set position before [i], and its rank. *)
Theorem C54_predecessor : forall bits i p, i <= length bits -> p < i -> nth_error bits p = Some true ->
  (forall q, p < q < i -> nth_error bits q = Some false) ->
  sd_predecessor (sd_of_bools bits) i = Some p /\
  sd_predecessor_rank (sd_of_bools bits) i = Some (length (filter (fun x => x) (firstn p bits))) /\
  sd_predecessor_rank_circular (sd_of_bools bits) i = Some (length (filter (fun x => x) (firstn p bits))).
Proof. exact sdsp_predecessor. Qed.
Print Assumptions C54_predecessor.

(** Without such a position: assert in the plain versions, rank of the last one in the circular one. *)
Theorem C54_no_predecessor : forall bits i, bits <> [] -> i <= length bits ->
  (forall q, q < i -> nth_error bits q = Some false) ->
  sd_predecessor (sd_of_bools bits) i = None /\
  (0 < length (filter (fun x => x) bits) ->
   sd_predecessor_rank_circular (sd_of_bools bits) i = Some (length (filter (fun x => x) bits) - 1)).
Proof. exact sdsp_predecessor_none. Qed.
Print Assumptions C54_no_predecessor.

(** gapAt: distance between consecutive ones, from before the first position. *)
Theorem C54_gap_at : forall bits k p q, sd_select (sd_of_bools bits) k = Some p ->
  (k = 0 /\ q = 0 \/ exists k' q', k = S k' /\ sd_select (sd_of_bools bits) k' = Some q' /\ q = S q') ->
  sd_gap_at (sd_of_bools bits) k = Some (p + 1 - q).
Proof. exact sdsp_gap. Qed.
Print Assumptions C54_gap_at.

(** The same does not hold for the constructor from sdsl::bit_vector, which leaves the length at 0. *)
Theorem C54_from_bit_vector_refuted : ~ forall bits, bits <> [] ->
  sd_size (sd_of_bit_vector bits) = length bits.
Proof. intros H. specialize (H [true] ltac:(discriminate)). discriminate. Qed.
Print Assumptions C54_from_bit_vector_refuted.
Theorem C54_from_bit_vector : forall bits, bits <> [] ->
  sd_size (sd_of_bit_vector bits) = 0 /\ sd_ones (sd_of_bit_vector bits) = Some 0 /\
  sd_assign (sd_of_bit_vector bits) = sd_of_bools bits.
Proof. exact sdsp_bit_vector. Qed.
Print Assumptions C54_from_bit_vector.

Definition ex_bits : list bool := [false; true; true; false; false; true; false].
Example ex_sdv : let v := sd_of_bools ex_bits in
  sd_rank v 5 = Some 2 /\ sd_select v 2 = Some 5 /\ sd_predecessor v 5 = Some 2 /\ sd_predecessor v 1 = None /\
  sd_predecessor_rank_circular v 1 = Some 2 /\ sd_gap_at v 2 = Some 3 /\ sd_gap_at v 0 = Some 2.
Proof. vm_compute. repeat split. Qed.

(** ** C55: objects made by assignment outlive their source; copies made by the implicit copy
    constructor do not. *)
Theorem C55_assigned_object_is_independent : forall h h' dst src bits, bits <> [] -> dst <> src ->
  h src = Some (mk_sdobj (sd_of_bools bits) (Some src)) -> obj_assign h dst src = Some h' ->
  forall i, i <= length bits ->
  obj_rank (obj_destroy h' src) dst i = Some (length (filter (fun x => x) (firstn i bits))).
Proof. exact obj_assign_independent. Qed.
Print Assumptions C55_assigned_object_is_independent.

Theorem C55_copied_object_is_independent_refuted : ~ forall h h' dst src bits, bits <> [] -> dst <> src ->
  h src = Some (mk_sdobj (sd_of_bools bits) (Some src)) -> obj_copy h dst src = Some h' ->
  forall i, i <= length bits ->
  obj_rank (obj_destroy h' src) dst i = Some (length (filter (fun x => x) (firstn i bits))).
Proof.
  intros H.
  assert (Hc : exists h', obj_copy (obj_of_bools (fun _ => None) 0 ex_bits) 1 0 = Some h') by (eexists; reflexivity).
  destruct Hc as [h' Hc].
  pose proof (H (obj_of_bools (fun _ => None) 0 ex_bits) h' 1 0 ex_bits
    ltac:(discriminate) ltac:(lia) eq_refl Hc 5 ltac:(cbn; lia)) as E.
  rewrite (obj_copy_dangles _ h' 1 0 (sd_of_bools ex_bits) ltac:(lia) eq_refl Hc) in E. discriminate.
Qed.
Print Assumptions C55_copied_object_is_independent_refuted.
(** Every copy is unusable after its source is gone. *)
Theorem C55_copied_object_dangles : forall h h' dst src v, dst <> src ->
  h src = Some (mk_sdobj v (Some src)) -> obj_copy h dst src = Some h' ->
  forall i, obj_rank (obj_destroy h' src) dst i = None.
Proof. exact obj_copy_dangles. Qed.
Print Assumptions C55_copied_object_dangles.
Example ex_objects : exists h, obj_assign (obj_of_bools (obj_of_bools (fun _ => None) 0 ex_bits) 1 []) 1 0 = Some h /\
  obj_rank (obj_destroy h 0) 1 6 = Some 3.
Proof. eexists. split; reflexivity. Qed.
