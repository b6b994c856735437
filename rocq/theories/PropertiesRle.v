(** C19-C24, C53: RLEString answers like the plain sequence it was built from. *)
From Coq Require Import List Arith Bool Sorted.
From Verif Require Import Spec MBase MRle RleSpec.
Import ListNotations.

(** The structure can be built for every non-empty sequence and every block size b >= 1. *)
Theorem C19_construct_total : forall b l, 0 < b -> l <> [] -> exists s, rle_construct b l = Some s.
Proof. exact rle_construct_total. Qed.
Print Assumptions C19_construct_total.

Theorem C19_size : forall b l s, rle_construct b l = Some s -> rle_size s = length l.
Proof. exact rle_size_ok. Qed.
Print Assumptions C19_size.

Theorem C19_access : forall b l s, rle_construct b l = Some s ->
  forall i, i < length l -> rle_access s i = nth_error l i.
Proof. exact rle_access_ok. Qed.
Print Assumptions C19_access.

Theorem C20_rank : forall b l s, rle_construct b l = Some s ->
  forall i c, i <= length l -> c <= list_max_symbol l -> rle_rank s i c = Some (occ c l i).
Proof. exact rle_rank_ok. Qed.
Print Assumptions C20_rank.

(** C53: a symbol above the largest one of the sequence makes rank read outside of
    runs_per_symbol_ (no bounds check at rle_string.hpp:763). *)
Theorem C53_rank_beyond_is_undefined : forall b l s, rle_construct b l = Some s ->
  forall i c, list_max_symbol l < c -> rle_rank s i c = None.
Proof. exact rle_rank_beyond. Qed.
Print Assumptions C53_rank_beyond_is_undefined.

Theorem C21_select : forall b l s, rle_construct b l = Some s ->
  forall k c, 1 <= k <= occ c l (length l) ->
  exists p, rle_select s k c = Some p /\ nth_error l p = Some c /\ occ c l p = k - 1.
Proof. exact rle_select_ok. Qed.
Print Assumptions C21_select.

Theorem C21_select_rank : forall b l s, rle_construct b l = Some s ->
  forall k c p, 1 <= k <= occ c l (length l) -> rle_select s k c = Some p ->
  rle_rank s p c = Some (k - 1) /\ rle_rank s (S p) c = Some k.
Proof. exact rle_select_rank. Qed.
Print Assumptions C21_select_rank.

(** rank(i,c,report): rank, number of runs of c starting at or before i, is i inside a run of c. *)
Theorem C22_rank_report_symbol : forall b l s, rle_construct b l = Some s ->
  forall i c, i < length l -> c <= list_max_symbol l ->
  rle_rank_report_c s i c = Some (occ c l i, runs_of_before c l (S i), nth i l 0 =? c).
Proof. exact rle_rank_report_c_ok. Qed.
Print Assumptions C22_rank_report_symbol.

Theorem C22_rank_report_symbol_end : forall b l s, rle_construct b l = Some s ->
  forall c, c <= list_max_symbol l ->
  rle_rank_report_c s (length l) c = Some (occ c l (length l), runs_of_before c l (length l), false).
Proof. exact rle_rank_report_c_end_ok. Qed.
Print Assumptions C22_rank_report_symbol_end.

(** rank(i,report): rank, symbol, run index, run start, run end, index among the runs of the symbol. *)
Theorem C22_rank_report : forall b l s, rle_construct b l = Some s ->
  forall i, i < length l ->
  exists st e c, maximal_run l st e c /\ st <= i < e /\
    rle_rank_report s i = Some (mk_rank_report (occ c l i) c (runs_before l st) st e (runs_of_before c l st)).
Proof. exact rle_rank_report_ok. Qed.
Print Assumptions C22_rank_report.

Theorem C23_split_in_runs : forall b l s, rle_construct b l = Some s ->
  forall first last, first < last -> last <= length l ->
  exists rs, rle_split_in_runs s first last = Some rs /\
    StronglySorted (fun a b => rd_end a <= rd_start b) rs /\
    (forall st e c, (exists k, In (mk_rundata k c st e) rs) <->
                    maximal_run l st e c /\ st < last /\ first < e) /\
    (forall r, In r rs -> rd_rnk r = runs_before l (rd_start r)).
Proof. exact rle_split_ok. Qed.
Print Assumptions C23_split_in_runs.

Theorem C24_select_on_runs : forall b l s, rle_construct b l = Some s ->
  forall k c, 1 <= k <= runs_of_before c l (length l) ->
  exists st e, maximal_run l st e c /\ runs_of_before c l st = k - 1 /\
    rle_select_on_runs s k c = Some (runs_before l st).
Proof. exact rle_select_on_runs_ok. Qed.
Print Assumptions C24_select_on_runs.

(** A concrete structure: the hypotheses above are met, with several runs per block. *)
Definition ex_seq : list nat := [2; 2; 5; 5; 5; 1; 2; 2; 2; 5; 0; 0; 7].
Example ex_rle : exists s, rle_construct 2 ex_seq = Some s /\
  map (rle_access s) (seq 0 13) = map Some ex_seq /\
  rle_rank s 9 2 = Some 5 /\ rle_rank s 13 3 = Some 0 /\ rle_rank s 3 8 = None /\
  rle_select s 4 5 = Some 9 /\
  rle_rank_report_c s 7 2 = Some (3, 2, true) /\ rle_rank_report_c s 5 2 = Some (2, 1, false) /\
  rle_rank_report s 8 = Some (mk_rank_report 4 2 3 6 9 1) /\
  rle_split_in_runs s 3 7 =
    Some [mk_rundata 1 5 2 5; mk_rundata 2 1 5 6; mk_rundata 3 2 6 9] /\
  rle_select_on_runs s 2 5 = Some 4.
Proof. eexists. vm_compute. repeat split. Qed.
Example ex_rle_hyps : 1 <= 4 <= occ 5 ex_seq (length ex_seq) /\ 1 <= 2 <= runs_of_before 5 ex_seq (length ex_seq)
  /\ 3 <= list_max_symbol ex_seq /\ list_max_symbol ex_seq < 8.
Proof. vm_compute. repeat split; repeat constructor. Qed.
