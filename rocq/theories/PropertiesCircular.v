(** C17 and C61: patterns of any bytes.  A byte that is not in the text is searched as the terminator, and the
    search is circular: what Count and Locate answer for every pattern is stated with [circular_at] and [searched]
    (Spec.v) and [circular_answers] (SpecCircular.v).
    Common hypotheses: as in PropertiesRIndex.v, PropertiesSrIndex.v, PropertiesCsa.v and PropertiesSrCsa.v. *)
From Coq Require Import List Arith Bool Lia.
From Verif Require Import Spec SpecCircular MBase MConstruct MPhi MRIndex MSrIndex MPsi MCsa MSrCsa Glue SrCsaGlue CircularProof CircularGlue.
Import ListNotations.

(** On the bytes of the text, the circular matches are the occurrences. *)
Theorem C61_circular_is_occurrence : forall w p i, zero_free w -> pattern_over w p ->
  circular_at (searched w p) (terminated w) i <-> occurs_at p w i.
Proof. intros w p i Hw. exact (circular_occurs w Hw p i). Qed.
Print Assumptions C61_circular_is_occurrence.
(** With an absent byte, a match is an end of the text, the absent byte, and a beginning of the text. *)
Theorem C61_circular_is_wrap : forall w p i, zero_free w -> has_absent w p -> length p <= S (length w) ->
  circular_at (searched w p) (terminated w) i <-> wraps w p i.
Proof. intros w p i Hw. exact (circular_wraps w Hw p i). Qed.
Print Assumptions C61_circular_is_wrap.

(** RIndex *)
Theorem C61_rindex_any_pattern : forall w sa data ix p,
  zero_free w -> is_suffix_array (terminated w) sa -> data = w \/ data = terminated w ->
  construct_rindex data sa = Some ix -> bytes p ->
  circular_answers w sa (rindex_count ix) (rindex_locate ix) p.
Proof.
  intros w sa data ix p Hw HSA Hd Hix Hb.
  exact (circ_rindex w sa data Hw HSA Hd ix p Hix Hb).
Qed.
Print Assumptions C61_rindex_any_pattern.
Theorem C17_rindex_absent_byte_partial : forall w sa data ix p,
  zero_free w -> is_suffix_array (terminated w) sa -> data = w \/ data = terminated w ->
  construct_rindex data sa = Some ix -> bytes p -> has_absent w p -> length p <= S (length w) ->
  exists st e l, rindex_count ix p = Some (st, e) /\ rindex_locate ix p = Some l /\
    length l = e - st /\ length l <= 1 /\ forall i, In i l <-> wraps w p i.
Proof.
  intros w sa data ix p Hw HSA Hd Hix Hb.
  exact (answers_absent w Hw sa _ _ p HSA (C61_rindex_any_pattern w sa data ix p Hw HSA Hd Hix Hb)).
Qed.
Print Assumptions C17_rindex_absent_byte_partial.

(** SrIndex *)
Theorem C61_srindex_any_pattern : forall w sa data s ix p,
  zero_free w -> is_suffix_array (terminated w) sa -> data = w \/ data = terminated w ->
  construct_sri s data sa = Some ix -> bytes p ->
  circular_answers w sa (sr_count ix) (srindex_locate ix) p.
Proof.
  intros w sa data s ix p Hw HSA Hd Hix Hb.
  exact (circ_sri w sa data Hw HSA Hd s ix p Hix Hb).
Qed.
Print Assumptions C61_srindex_any_pattern.
Theorem C17_srindex_absent_byte_partial : forall w sa data s ix p,
  zero_free w -> is_suffix_array (terminated w) sa -> data = w \/ data = terminated w ->
  construct_sri s data sa = Some ix -> bytes p -> has_absent w p -> length p <= S (length w) ->
  exists st e l, sr_count ix p = Some (st, e) /\ srindex_locate ix p = Some l /\
    length l = e - st /\ length l <= 1 /\ forall i, In i l <-> wraps w p i.
Proof.
  intros w sa data s ix p Hw HSA Hd Hix Hb.
  exact (answers_absent w Hw sa _ _ p HSA (C61_srindex_any_pattern w sa data s ix p Hw HSA Hd Hix Hb)).
Qed.
Print Assumptions C17_srindex_absent_byte_partial.

(** SrIndexValidMark *)
Theorem C61_srindex_vm_any_pattern : forall w sa data s ix p,
  zero_free w -> is_suffix_array (terminated w) sa -> data = w \/ data = terminated w ->
  construct_sri_valid s data sa = Some ix -> bytes p ->
  circular_answers w sa (sr_count ix) (srindex_vm_locate ix) p.
Proof.
  intros w sa data s ix p Hw HSA Hd Hix Hb.
  exact (circ_sri_vm w sa data Hw HSA Hd s ix p Hix Hb).
Qed.
Print Assumptions C61_srindex_vm_any_pattern.
Theorem C17_srindex_vm_absent_byte_partial : forall w sa data s ix p,
  zero_free w -> is_suffix_array (terminated w) sa -> data = w \/ data = terminated w ->
  construct_sri_valid s data sa = Some ix -> bytes p -> has_absent w p -> length p <= S (length w) ->
  exists st e l, sr_count ix p = Some (st, e) /\ srindex_vm_locate ix p = Some l /\
    length l = e - st /\ length l <= 1 /\ forall i, In i l <-> wraps w p i.
Proof.
  intros w sa data s ix p Hw HSA Hd Hix Hb.
  exact (answers_absent w Hw sa _ _ p HSA (C61_srindex_vm_any_pattern w sa data s ix p Hw HSA Hd Hix Hb)).
Qed.
Print Assumptions C17_srindex_vm_absent_byte_partial.

(** SrIndexValidArea *)
Theorem C61_srindex_va_any_pattern : forall w sa data s ix p,
  zero_free w -> is_suffix_array (terminated w) sa -> data = w \/ data = terminated w ->
  construct_sri_valid s data sa = Some ix -> bytes p ->
  circular_answers w sa (sr_count ix) (srindex_va_locate ix) p.
Proof.
  intros w sa data s ix p Hw HSA Hd Hix Hb.
  exact (circ_sri_va w sa data Hw HSA Hd s ix p Hix Hb).
Qed.
Print Assumptions C61_srindex_va_any_pattern.
Theorem C17_srindex_va_absent_byte_partial : forall w sa data s ix p,
  zero_free w -> is_suffix_array (terminated w) sa -> data = w \/ data = terminated w ->
  construct_sri_valid s data sa = Some ix -> bytes p -> has_absent w p -> length p <= S (length w) ->
  exists st e l, sr_count ix p = Some (st, e) /\ srindex_va_locate ix p = Some l /\
    length l = e - st /\ length l <= 1 /\ forall i, In i l <-> wraps w p i.
Proof.
  intros w sa data s ix p Hw HSA Hd Hix Hb.
  exact (answers_absent w Hw sa _ _ p HSA (C61_srindex_va_any_pattern w sa data s ix p Hw HSA Hd Hix Hb)).
Qed.
Print Assumptions C17_srindex_va_absent_byte_partial.

(** RCSAWithBWTRun *)
Theorem C61_rcsa_bwt_any_pattern : forall w sa data h ix p,
  zero_free w -> is_suffix_array (terminated w) sa -> data = w \/ data = terminated w ->
  0 < h -> S (length w) < 2 ^ 64 ->
  construct_rcsa_bwt (2 * h) data sa = Some ix -> bytes p ->
  circular_answers w sa (rcsa_bwt_count ix) (rcsa_bwt_locate ix) p.
Proof.
  intros w sa data h ix p Hw HSA Hd Hh Hn Hix Hb.
  exact (circ_bwt w sa data Hw HSA Hd h Hh Hn ix p Hix Hb).
Qed.
Print Assumptions C61_rcsa_bwt_any_pattern.
Theorem C17_rcsa_bwt_absent_byte_partial : forall w sa data h ix p,
  zero_free w -> is_suffix_array (terminated w) sa -> data = w \/ data = terminated w ->
  0 < h -> S (length w) < 2 ^ 64 ->
  construct_rcsa_bwt (2 * h) data sa = Some ix -> bytes p -> has_absent w p -> length p <= S (length w) ->
  exists st e l, rcsa_bwt_count ix p = Some (st, e) /\ rcsa_bwt_locate ix p = Some l /\
    length l = e - st /\ length l <= 1 /\ forall i, In i l <-> wraps w p i.
Proof.
  intros w sa data h ix p Hw HSA Hd Hh Hn Hix Hb.
  exact (answers_absent w Hw sa _ _ p HSA (C61_rcsa_bwt_any_pattern w sa data h ix p Hw HSA Hd Hh Hn Hix Hb)).
Qed.
Print Assumptions C17_rcsa_bwt_absent_byte_partial.

(** RCSAWithPsiRun *)
Theorem C61_rcsa_psi_any_pattern : forall w sa data h ix p,
  zero_free w -> is_suffix_array (terminated w) sa -> data = w \/ data = terminated w ->
  0 < h -> S (length w) < 2 ^ 64 ->
  construct_rcsa_psi (2 * h) data sa = Some ix -> bytes p ->
  circular_answers w sa (rcsa_psi_count ix) (rcsa_psi_locate ix) p.
Proof.
  intros w sa data h ix p Hw HSA Hd Hh Hn Hix Hb.
  exact (circ_psi w sa data Hw HSA Hd h Hh Hn ix p Hix Hb).
Qed.
Print Assumptions C61_rcsa_psi_any_pattern.
Theorem C17_rcsa_psi_absent_byte_partial : forall w sa data h ix p,
  zero_free w -> is_suffix_array (terminated w) sa -> data = w \/ data = terminated w ->
  0 < h -> S (length w) < 2 ^ 64 ->
  construct_rcsa_psi (2 * h) data sa = Some ix -> bytes p -> has_absent w p -> length p <= S (length w) ->
  exists st e l, rcsa_psi_count ix p = Some (st, e) /\ rcsa_psi_locate ix p = Some l /\
    length l = e - st /\ length l <= 1 /\ forall i, In i l <-> wraps w p i.
Proof.
  intros w sa data h ix p Hw HSA Hd Hh Hn Hix Hb.
  exact (answers_absent w Hw sa _ _ p HSA (C61_rcsa_psi_any_pattern w sa data h ix p Hw HSA Hd Hh Hn Hix Hb)).
Qed.
Print Assumptions C17_rcsa_psi_absent_byte_partial.

(** CSARaw *)
Theorem C61_csa_raw_any_pattern : forall w sa data h ix p,
  zero_free w -> is_suffix_array (terminated w) sa -> data = w \/ data = terminated w ->
  0 < h -> S (length w) < 2 ^ 64 ->
  construct_csa_raw (2 * h) data sa = Some ix -> bytes p ->
  circular_answers w sa (csa_raw_count ix) (csa_raw_locate ix) p.
Proof.
  intros w sa data h ix p Hw HSA Hd Hh Hn Hix Hb.
  exact (circ_raw w sa data Hw HSA Hd h Hh Hn ix p Hix Hb).
Qed.
Print Assumptions C61_csa_raw_any_pattern.
Theorem C17_csa_raw_absent_byte_partial : forall w sa data h ix p,
  zero_free w -> is_suffix_array (terminated w) sa -> data = w \/ data = terminated w ->
  0 < h -> S (length w) < 2 ^ 64 ->
  construct_csa_raw (2 * h) data sa = Some ix -> bytes p -> has_absent w p -> length p <= S (length w) ->
  exists st e l, csa_raw_count ix p = Some (st, e) /\ csa_raw_locate ix p = Some l /\
    length l = e - st /\ length l <= 1 /\ forall i, In i l <-> wraps w p i.
Proof.
  intros w sa data h ix p Hw HSA Hd Hh Hn Hix Hb.
  exact (answers_absent w Hw sa _ _ p HSA (C61_csa_raw_any_pattern w sa data h ix p Hw HSA Hd Hh Hn Hix Hb)).
Qed.
Print Assumptions C17_csa_raw_absent_byte_partial.

(** SrCSA *)
Theorem C61_srcsa_any_pattern : forall w sa data h s ix p,
  zero_free w -> is_suffix_array (terminated w) sa -> data = w \/ data = terminated w ->
  0 < h -> S (length w) < 2 ^ 64 ->
  construct_srcsa s (2 * h) data sa = Some ix -> bytes p ->
  circular_answers w sa (srcsa_count ix) (srcsa_locate ix) p.
Proof.
  intros w sa data h s ix p Hw HSA Hd Hh Hn Hix Hb.
  exact (circ_srcsa w sa data Hw HSA Hd s h Hh Hn FRows false false phi_plain ix p Hix Hb (or_introl eq_refl)).
Qed.
Print Assumptions C61_srcsa_any_pattern.
Theorem C17_srcsa_absent_byte_partial : forall w sa data h s ix p,
  zero_free w -> is_suffix_array (terminated w) sa -> data = w \/ data = terminated w ->
  0 < h -> S (length w) < 2 ^ 64 ->
  construct_srcsa s (2 * h) data sa = Some ix -> bytes p -> has_absent w p -> length p <= S (length w) ->
  exists st e l, srcsa_count ix p = Some (st, e) /\ srcsa_locate ix p = Some l /\
    length l = e - st /\ length l <= 1 /\ forall i, In i l <-> wraps w p i.
Proof.
  intros w sa data h s ix p Hw HSA Hd Hh Hn Hix Hb.
  exact (answers_absent w Hw sa _ _ p HSA (C61_srcsa_any_pattern w sa data h s ix p Hw HSA Hd Hh Hn Hix Hb)).
Qed.
Print Assumptions C17_srcsa_absent_byte_partial.

(** SrCSASlim *)
Theorem C61_slim_any_pattern : forall w sa data h s ix p,
  zero_free w -> is_suffix_array (terminated w) sa -> data = w \/ data = terminated w ->
  0 < h -> S (length w) < 2 ^ 64 ->
  construct_srcsa_slim s (2 * h) data sa = Some ix -> bytes p ->
  circular_answers w sa (srcsa_count ix) (slim_locate ix) p.
Proof.
  intros w sa data h s ix p Hw HSA Hd Hh Hn Hix Hb.
  exact (circ_srcsa w sa data Hw HSA Hd s h Hh Hn FRuns false false phi_plain ix p Hix Hb (or_introl eq_refl)).
Qed.
Print Assumptions C61_slim_any_pattern.
Theorem C17_slim_absent_byte_partial : forall w sa data h s ix p,
  zero_free w -> is_suffix_array (terminated w) sa -> data = w \/ data = terminated w ->
  0 < h -> S (length w) < 2 ^ 64 ->
  construct_srcsa_slim s (2 * h) data sa = Some ix -> bytes p -> has_absent w p -> length p <= S (length w) ->
  exists st e l, srcsa_count ix p = Some (st, e) /\ slim_locate ix p = Some l /\
    length l = e - st /\ length l <= 1 /\ forall i, In i l <-> wraps w p i.
Proof.
  intros w sa data h s ix p Hw HSA Hd Hh Hn Hix Hb.
  exact (answers_absent w Hw sa _ _ p HSA (C61_slim_any_pattern w sa data h s ix p Hw HSA Hd Hh Hn Hix Hb)).
Qed.
Print Assumptions C17_slim_absent_byte_partial.

(** SrCSAValidMark<SrCSA> *)
Theorem C61_srcsa_vm_any_pattern : forall w sa data h s ix p,
  zero_free w -> is_suffix_array (terminated w) sa -> data = w \/ data = terminated w ->
  0 < h -> S (length w) < 2 ^ 64 ->
  construct_srcsa_valid s (2 * h) data sa = Some ix -> bytes p ->
  circular_answers w sa (srcsa_count ix) (srcsa_vm_locate ix) p.
Proof.
  intros w sa data h s ix p Hw HSA Hd Hh Hn Hix Hb.
  exact (circ_srcsa w sa data Hw HSA Hd s h Hh Hn FRows true true phi_valid_mark ix p Hix Hb (or_intror (conj eq_refl (or_introl eq_refl)))).
Qed.
Print Assumptions C61_srcsa_vm_any_pattern.
Theorem C17_srcsa_vm_absent_byte_partial : forall w sa data h s ix p,
  zero_free w -> is_suffix_array (terminated w) sa -> data = w \/ data = terminated w ->
  0 < h -> S (length w) < 2 ^ 64 ->
  construct_srcsa_valid s (2 * h) data sa = Some ix -> bytes p -> has_absent w p -> length p <= S (length w) ->
  exists st e l, srcsa_count ix p = Some (st, e) /\ srcsa_vm_locate ix p = Some l /\
    length l = e - st /\ length l <= 1 /\ forall i, In i l <-> wraps w p i.
Proof.
  intros w sa data h s ix p Hw HSA Hd Hh Hn Hix Hb.
  exact (answers_absent w Hw sa _ _ p HSA (C61_srcsa_vm_any_pattern w sa data h s ix p Hw HSA Hd Hh Hn Hix Hb)).
Qed.
Print Assumptions C17_srcsa_vm_absent_byte_partial.

(** SrCSAValidMark<SrCSASlim> *)
Theorem C61_slim_vm_any_pattern : forall w sa data h s ix p,
  zero_free w -> is_suffix_array (terminated w) sa -> data = w \/ data = terminated w ->
  0 < h -> S (length w) < 2 ^ 64 ->
  construct_srcsa_slim_valid s (2 * h) data sa = Some ix -> bytes p ->
  circular_answers w sa (srcsa_count ix) (slim_vm_locate ix) p.
Proof.
  intros w sa data h s ix p Hw HSA Hd Hh Hn Hix Hb.
  exact (circ_srcsa w sa data Hw HSA Hd s h Hh Hn FRuns true true phi_valid_mark ix p Hix Hb (or_intror (conj eq_refl (or_introl eq_refl)))).
Qed.
Print Assumptions C61_slim_vm_any_pattern.
Theorem C17_slim_vm_absent_byte_partial : forall w sa data h s ix p,
  zero_free w -> is_suffix_array (terminated w) sa -> data = w \/ data = terminated w ->
  0 < h -> S (length w) < 2 ^ 64 ->
  construct_srcsa_slim_valid s (2 * h) data sa = Some ix -> bytes p -> has_absent w p -> length p <= S (length w) ->
  exists st e l, srcsa_count ix p = Some (st, e) /\ slim_vm_locate ix p = Some l /\
    length l = e - st /\ length l <= 1 /\ forall i, In i l <-> wraps w p i.
Proof.
  intros w sa data h s ix p Hw HSA Hd Hh Hn Hix Hb.
  exact (answers_absent w Hw sa _ _ p HSA (C61_slim_vm_any_pattern w sa data h s ix p Hw HSA Hd Hh Hn Hix Hb)).
Qed.
Print Assumptions C17_slim_vm_absent_byte_partial.

(** SrCSAValidArea<SrCSA> *)
Theorem C61_srcsa_va_any_pattern : forall w sa data h s ix p,
  zero_free w -> is_suffix_array (terminated w) sa -> data = w \/ data = terminated w ->
  0 < h -> S (length w) < 2 ^ 64 ->
  construct_srcsa_valid s (2 * h) data sa = Some ix -> bytes p ->
  circular_answers w sa (srcsa_count ix) (srcsa_va_locate ix) p.
Proof.
  intros w sa data h s ix p Hw HSA Hd Hh Hn Hix Hb.
  exact (circ_srcsa w sa data Hw HSA Hd s h Hh Hn FRows true true phi_valid_area ix p Hix Hb (or_intror (conj eq_refl (or_intror eq_refl)))).
Qed.
Print Assumptions C61_srcsa_va_any_pattern.
Theorem C17_srcsa_va_absent_byte_partial : forall w sa data h s ix p,
  zero_free w -> is_suffix_array (terminated w) sa -> data = w \/ data = terminated w ->
  0 < h -> S (length w) < 2 ^ 64 ->
  construct_srcsa_valid s (2 * h) data sa = Some ix -> bytes p -> has_absent w p -> length p <= S (length w) ->
  exists st e l, srcsa_count ix p = Some (st, e) /\ srcsa_va_locate ix p = Some l /\
    length l = e - st /\ length l <= 1 /\ forall i, In i l <-> wraps w p i.
Proof.
  intros w sa data h s ix p Hw HSA Hd Hh Hn Hix Hb.
  exact (answers_absent w Hw sa _ _ p HSA (C61_srcsa_va_any_pattern w sa data h s ix p Hw HSA Hd Hh Hn Hix Hb)).
Qed.
Print Assumptions C17_srcsa_va_absent_byte_partial.

(** SrCSAValidArea<SrCSASlim> *)
Theorem C61_slim_va_any_pattern : forall w sa data h s ix p,
  zero_free w -> is_suffix_array (terminated w) sa -> data = w \/ data = terminated w ->
  0 < h -> S (length w) < 2 ^ 64 ->
  construct_srcsa_slim_valid s (2 * h) data sa = Some ix -> bytes p ->
  circular_answers w sa (srcsa_count ix) (slim_va_locate ix) p.
Proof.
  intros w sa data h s ix p Hw HSA Hd Hh Hn Hix Hb.
  exact (circ_srcsa w sa data Hw HSA Hd s h Hh Hn FRuns true true phi_valid_area ix p Hix Hb (or_intror (conj eq_refl (or_intror eq_refl)))).
Qed.
Print Assumptions C61_slim_va_any_pattern.
Theorem C17_slim_va_absent_byte_partial : forall w sa data h s ix p,
  zero_free w -> is_suffix_array (terminated w) sa -> data = w \/ data = terminated w ->
  0 < h -> S (length w) < 2 ^ 64 ->
  construct_srcsa_slim_valid s (2 * h) data sa = Some ix -> bytes p -> has_absent w p -> length p <= S (length w) ->
  exists st e l, srcsa_count ix p = Some (st, e) /\ slim_va_locate ix p = Some l /\
    length l = e - st /\ length l <= 1 /\ forall i, In i l <-> wraps w p i.
Proof.
  intros w sa data h s ix p Hw HSA Hd Hh Hn Hix Hb.
  exact (answers_absent w Hw sa _ _ p HSA (C61_slim_va_any_pattern w sa data h s ix p Hw HSA Hd Hh Hn Hix Hb)).
Qed.
Print Assumptions C17_slim_va_absent_byte_partial.

(** SrCSAWithPsiRun *)
Theorem C61_psi_any_pattern : forall w sa data h s ix p,
  zero_free w -> is_suffix_array (terminated w) sa -> data = w \/ data = terminated w ->
  0 < h -> S (length w) < 2 ^ 64 ->
  construct_srcsa_psi s (2 * h) data sa = Some ix -> bytes p ->
  circular_answers w sa (srcsa_count ix) (slim_locate ix) p.
Proof.
  intros w sa data h s ix p Hw HSA Hd Hh Hn Hix Hb.
  exact (circ_srcsa w sa data Hw HSA Hd s h Hh Hn FPsi false false phi_plain ix p Hix Hb (or_introl eq_refl)).
Qed.
Print Assumptions C61_psi_any_pattern.
Theorem C17_psi_absent_byte_partial : forall w sa data h s ix p,
  zero_free w -> is_suffix_array (terminated w) sa -> data = w \/ data = terminated w ->
  0 < h -> S (length w) < 2 ^ 64 ->
  construct_srcsa_psi s (2 * h) data sa = Some ix -> bytes p -> has_absent w p -> length p <= S (length w) ->
  exists st e l, srcsa_count ix p = Some (st, e) /\ slim_locate ix p = Some l /\
    length l = e - st /\ length l <= 1 /\ forall i, In i l <-> wraps w p i.
Proof.
  intros w sa data h s ix p Hw HSA Hd Hh Hn Hix Hb.
  exact (answers_absent w Hw sa _ _ p HSA (C61_psi_any_pattern w sa data h s ix p Hw HSA Hd Hh Hn Hix Hb)).
Qed.
Print Assumptions C17_psi_absent_byte_partial.

(** SrCSAValidMark<SrCSAWithPsiRun> *)
Theorem C61_psi_vm_any_pattern : forall w sa data h s ix p,
  zero_free w -> is_suffix_array (terminated w) sa -> data = w \/ data = terminated w ->
  0 < h -> S (length w) < 2 ^ 64 ->
  construct_srcsa_psi_valid s (2 * h) data sa = Some ix -> bytes p ->
  circular_answers w sa (srcsa_count ix) (slim_vm_locate ix) p.
Proof.
  intros w sa data h s ix p Hw HSA Hd Hh Hn Hix Hb.
  exact (circ_srcsa w sa data Hw HSA Hd s h Hh Hn FPsi true true phi_valid_mark ix p Hix Hb (or_intror (conj eq_refl (or_introl eq_refl)))).
Qed.
Print Assumptions C61_psi_vm_any_pattern.
Theorem C17_psi_vm_absent_byte_partial : forall w sa data h s ix p,
  zero_free w -> is_suffix_array (terminated w) sa -> data = w \/ data = terminated w ->
  0 < h -> S (length w) < 2 ^ 64 ->
  construct_srcsa_psi_valid s (2 * h) data sa = Some ix -> bytes p -> has_absent w p -> length p <= S (length w) ->
  exists st e l, srcsa_count ix p = Some (st, e) /\ slim_vm_locate ix p = Some l /\
    length l = e - st /\ length l <= 1 /\ forall i, In i l <-> wraps w p i.
Proof.
  intros w sa data h s ix p Hw HSA Hd Hh Hn Hix Hb.
  exact (answers_absent w Hw sa _ _ p HSA (C61_psi_vm_any_pattern w sa data h s ix p Hw HSA Hd Hh Hn Hix Hb)).
Qed.
Print Assumptions C17_psi_vm_absent_byte_partial.

(** SrCSAValidArea<SrCSAWithPsiRun> *)
Theorem C61_psi_va_any_pattern : forall w sa data h s ix p,
  zero_free w -> is_suffix_array (terminated w) sa -> data = w \/ data = terminated w ->
  0 < h -> S (length w) < 2 ^ 64 ->
  construct_srcsa_psi_valid s (2 * h) data sa = Some ix -> bytes p ->
  circular_answers w sa (srcsa_count ix) (slim_va_locate ix) p.
Proof.
  intros w sa data h s ix p Hw HSA Hd Hh Hn Hix Hb.
  exact (circ_srcsa w sa data Hw HSA Hd s h Hh Hn FPsi true true phi_valid_area ix p Hix Hb (or_intror (conj eq_refl (or_intror eq_refl)))).
Qed.
Print Assumptions C61_psi_va_any_pattern.
Theorem C17_psi_va_absent_byte_partial : forall w sa data h s ix p,
  zero_free w -> is_suffix_array (terminated w) sa -> data = w \/ data = terminated w ->
  0 < h -> S (length w) < 2 ^ 64 ->
  construct_srcsa_psi_valid s (2 * h) data sa = Some ix -> bytes p -> has_absent w p -> length p <= S (length w) ->
  exists st e l, srcsa_count ix p = Some (st, e) /\ slim_va_locate ix p = Some l /\
    length l = e - st /\ length l <= 1 /\ forall i, In i l <-> wraps w p i.
Proof.
  intros w sa data h s ix p Hw HSA Hd Hh Hn Hix Hb.
  exact (answers_absent w Hw sa _ _ p HSA (C61_psi_va_any_pattern w sa data h s ix p Hw HSA Hd Hh Hn Hix Hb)).
Qed.
Print Assumptions C17_psi_va_absent_byte_partial.

(** "banana": "nax" ++ "ba" is an end of the text, an absent byte and a beginning of the text, and is reported at
    4; "naxn" is not, and is not reported. *)
Definition exc_w : list nat := [98; 97; 110; 97; 110; 97].
Definition exc_sa : list nat := [6; 5; 3; 1; 0; 4; 2].
Definition exc_p : list nat := [110; 97; 120; 98; 97].
Definition exc_q : list nat := [110; 97; 120; 110].
Definition exc_agrees (count : list nat -> option (nat * nat)) (locate : list nat -> option (list nat)) : Prop :=
  count exc_p = Some (5, 6) /\ locate exc_p = Some [4] /\
  (exists s, count exc_q = Some (s, s)) /\ locate exc_q = Some [] /\
  count [97; 110; 97] = Some (2, 4) /\ (exists a b, locate [97; 110; 97] = Some [a; b] /\ (a = 1 /\ b = 3 \/ a = 3 /\ b = 1)).
Example C17_C61_nonvacuous :
  zero_free exc_w /\ is_suffix_array (terminated exc_w) exc_sa /\ bytes exc_p /\ has_absent exc_w exc_p /\
  length exc_p <= S (length exc_w) /\ wraps exc_w exc_p 4 /\ (forall i, ~ occurs_at exc_p exc_w i) /\
  bytes exc_q /\ has_absent exc_w exc_q /\ (forall i, ~ wraps exc_w exc_q i) /\
  (exists ix, construct_rindex exc_w exc_sa = Some ix /\ exc_agrees (rindex_count ix) (rindex_locate ix)) /\
  (exists ix, construct_sri 2 exc_w exc_sa = Some ix /\ exc_agrees (sr_count ix) (srindex_locate ix)) /\
  (exists ix, construct_sri_valid 2 exc_w exc_sa = Some ix /\ exc_agrees (sr_count ix) (srindex_vm_locate ix) /\
     exc_agrees (sr_count ix) (srindex_va_locate ix)) /\
  (exists ix, construct_rcsa_bwt (2 * 32) exc_w exc_sa = Some ix /\ exc_agrees (rcsa_bwt_count ix) (rcsa_bwt_locate ix)) /\
  (exists ix, construct_rcsa_psi (2 * 32) exc_w exc_sa = Some ix /\ exc_agrees (rcsa_psi_count ix) (rcsa_psi_locate ix)) /\
  (exists ix, construct_csa_raw (2 * 32) exc_w exc_sa = Some ix /\ exc_agrees (csa_raw_count ix) (csa_raw_locate ix)) /\
  (exists ix, construct_srcsa 2 (2 * 32) exc_w exc_sa = Some ix /\ exc_agrees (srcsa_count ix) (srcsa_locate ix)) /\
  (exists ix, construct_srcsa_slim 2 (2 * 32) exc_w exc_sa = Some ix /\ exc_agrees (srcsa_count ix) (slim_locate ix)) /\
  (exists ix, construct_srcsa_valid 2 (2 * 32) exc_w exc_sa = Some ix /\ exc_agrees (srcsa_count ix) (srcsa_vm_locate ix) /\
     exc_agrees (srcsa_count ix) (srcsa_va_locate ix)) /\
  (exists ix, construct_srcsa_slim_valid 2 (2 * 32) exc_w exc_sa = Some ix /\ exc_agrees (srcsa_count ix) (slim_vm_locate ix) /\
     exc_agrees (srcsa_count ix) (slim_va_locate ix)) /\
  (exists ix, construct_srcsa_psi 2 (2 * 32) exc_w exc_sa = Some ix /\ exc_agrees (srcsa_count ix) (slim_locate ix)) /\
  (exists ix, construct_srcsa_psi_valid 2 (2 * 32) exc_w exc_sa = Some ix /\ exc_agrees (srcsa_count ix) (slim_vm_locate ix) /\
     exc_agrees (srcsa_count ix) (slim_va_locate ix)).
Proof.
  assert (A : forall p, In 120 p -> has_absent exc_w p).
  { intros p Hp. exists 120. split; auto. cbn. intuition discriminate. }
  split; [repeat constructor|]. split; [apply sa_check_ok; vm_compute; reflexivity|].
  split; [intros c Hc; cbn in Hc; intuition (subst; apply Nat.ltb_lt; reflexivity)|]. split; [apply A; cbn; auto|]. split; [cbn; lia|].
  split.
  { exists [110; 97], 120, [98; 97]. split; auto. split; [cbn; intuition discriminate|].
    split; [exists [98; 97; 110; 97]; auto|]. split; [exists [110; 97; 110; 97]; auto|]. auto. }
  split.
  { intros i (u & v & E & _). assert (H : In 120 exc_w) by (rewrite E; apply in_or_app; right; apply in_or_app; left; cbn; auto).
    cbn in H. intuition discriminate. }
  split; [intros c Hc; cbn in Hc; intuition (subst; apply Nat.ltb_lt; reflexivity)|]. split; [apply A; cbn; auto|]. split.
  { intros i (u & x & v & E & Nx & _ & (b & Eb) & _). destruct u as [|u0 [|u1 [|u2 [|u3 u]]]]; cbn in E; injection E; intros; subst.
    - apply Nx. cbn. auto.
    - apply Nx. cbn. auto.
    - discriminate Eb.
    - apply Nx. cbn. auto.
    - destruct u; discriminate. }
  assert (P : forall count locate, (count exc_p = Some (5, 6) /\ locate exc_p = Some [4] /\
     (count exc_q = Some (0, 0) \/ exists s, count exc_q = Some (s, s)) /\ locate exc_q = Some [] /\
     count [97; 110; 97] = Some (2, 4) /\ (locate [97; 110; 97] = Some [1; 3] \/ locate [97; 110; 97] = Some [3; 1])) -> exc_agrees count locate).
  { intros count locate (H1 & H2 & H3 & H4 & H5 & H6). repeat split; auto; [destruct H3; eauto|].
    destruct H6 as [H6|H6]; do 2 eexists; (split; [exact H6|]); auto. }
  Ltac go P := apply P; split; [vm_compute; reflexivity|]; split; [vm_compute; reflexivity|];
    split; [right; eexists; vm_compute; reflexivity|]; split; [vm_compute; reflexivity|]; split; [vm_compute; reflexivity|];
    first [left; vm_compute; reflexivity|right; vm_compute; reflexivity].
  repeat (match goal with |- (exists ix, _) /\ _ => split end);
  (eexists; split; [vm_compute; reflexivity|]); first [go P | split; go P].
Qed.
