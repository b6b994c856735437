(** C09-C14 and the parts of C01, C15, C18, C35, C43, C44, C45 about the subsampled CSA indexes.
    Common hypotheses: [w] is the text, any sequence of non-zero bytes; [sa] the suffix array of
    the text with its terminator; [data] the input file, with or without a final zero; [2 * h] the
    sampling density of the encoded vectors (64 in the default types, i.e. h = 32); positions fit
    in 64 bits.  [s] is the subsampling rate, without any restriction. *)
From Coq Require Import List Arith Bool Sorted Permutation.
From Verif Require Import Spec MBase MConstruct MPhi MRIndex MPsi MCsa MSrCsa Glue CsaGlue SrCsaGlue.
Import ListNotations.

(** SrCSA *)
Theorem C09_srcsa_construct_total : forall w sa data h s,
  zero_free w -> is_suffix_array (terminated w) sa -> data = w \/ data = terminated w ->
  0 < h -> S (length w) < 2 ^ 64 ->
  exists ix, construct_srcsa s (2 * h) data sa = Some ix.
Proof. intros w sa data h s Hw HSA Hd Hh Hn. exact (build_total w sa data Hw HSA Hd h Hh Hn s FRows false). Qed.
Print Assumptions C09_srcsa_construct_total.
Theorem C09_srcsa_locate : forall w sa data h s ix p,
  zero_free w -> is_suffix_array (terminated w) sa -> data = w \/ data = terminated w ->
  0 < h -> S (length w) < 2 ^ 64 ->
  construct_srcsa s (2 * h) data sa = Some ix -> pattern_over w p ->
  exists l, srcsa_locate ix p = Some l /\ exact_answer p w l.
Proof.
  intros w sa data h s ix p Hw HSA Hd Hh Hn Hix Hp.
  exact (fwd_exact _ _ _ _ _ (st_answers w sa data Hw HSA Hd h Hh Hn s FRows false false phi_plain ix p Hix Hp (or_introl eq_refl))).
Qed.
Print Assumptions C09_srcsa_locate.
Theorem C15_srcsa : forall w sa data h s ix p,
  zero_free w -> is_suffix_array (terminated w) sa -> data = w \/ data = terminated w ->
  0 < h -> S (length w) < 2 ^ 64 ->
  construct_srcsa s (2 * h) data sa = Some ix -> pattern_over w p ->
  exists l st e, srcsa_locate ix p = Some l /\ srcsa_count ix p = Some (st, e) /\ length l = e - st /\
    ((forall i, ~ occurs_at p w i) -> l = [] /\ st = e).
Proof.
  intros w sa data h s ix p Hw HSA Hd Hh Hn Hix Hp.
  exact (fwd_agree _ _ _ _ _ (st_answers w sa data Hw HSA Hd h Hh Hn s FRows false false phi_plain ix p Hix Hp (or_introl eq_refl))).
Qed.
Print Assumptions C15_srcsa.
(** The toehold is the first row of the range: Locate reports SA[st], SA[st+1], ..., SA[e-1]. *)
Theorem C44_srcsa_order : forall w sa data h s ix p,
  zero_free w -> is_suffix_array (terminated w) sa -> data = w \/ data = terminated w ->
  0 < h -> S (length w) < 2 ^ 64 ->
  construct_srcsa s (2 * h) data sa = Some ix -> pattern_over w p ->
  exists st e, row_interval p w sa st e /\ srcsa_locate ix p = Some (rows sa st e).
Proof.
  intros w sa data h s ix p Hw HSA Hd Hh Hn Hix Hp.
  destruct (st_answers w sa data Hw HSA Hd h Hh Hn s FRows false false phi_plain ix p Hix Hp (or_introl eq_refl))
    as (st & e & H1 & H2 & H3 & H4 & H5). eauto.
Qed.
Print Assumptions C44_srcsa_order.

(** SrCSASlim *)
Theorem C10_slim_construct_total : forall w sa data h s,
  zero_free w -> is_suffix_array (terminated w) sa -> data = w \/ data = terminated w ->
  0 < h -> S (length w) < 2 ^ 64 ->
  exists ix, construct_srcsa_slim s (2 * h) data sa = Some ix.
Proof. intros w sa data h s Hw HSA Hd Hh Hn. exact (build_total w sa data Hw HSA Hd h Hh Hn s FRuns false). Qed.
Print Assumptions C10_slim_construct_total.
Theorem C10_slim_locate : forall w sa data h s ix p,
  zero_free w -> is_suffix_array (terminated w) sa -> data = w \/ data = terminated w ->
  0 < h -> S (length w) < 2 ^ 64 ->
  construct_srcsa_slim s (2 * h) data sa = Some ix -> pattern_over w p ->
  exists l, slim_locate ix p = Some l /\ exact_answer p w l.
Proof.
  intros w sa data h s ix p Hw HSA Hd Hh Hn Hix Hp.
  exact (fwd_exact _ _ _ _ _ (st_answers w sa data Hw HSA Hd h Hh Hn s FRuns false false phi_plain ix p Hix Hp (or_introl eq_refl))).
Qed.
Print Assumptions C10_slim_locate.
Theorem C15_slim : forall w sa data h s ix p,
  zero_free w -> is_suffix_array (terminated w) sa -> data = w \/ data = terminated w ->
  0 < h -> S (length w) < 2 ^ 64 ->
  construct_srcsa_slim s (2 * h) data sa = Some ix -> pattern_over w p ->
  exists l st e, slim_locate ix p = Some l /\ srcsa_count ix p = Some (st, e) /\ length l = e - st /\
    ((forall i, ~ occurs_at p w i) -> l = [] /\ st = e).
Proof.
  intros w sa data h s ix p Hw HSA Hd Hh Hn Hix Hp.
  exact (fwd_agree _ _ _ _ _ (st_answers w sa data Hw HSA Hd h Hh Hn s FRuns false false phi_plain ix p Hix Hp (or_introl eq_refl))).
Qed.
Print Assumptions C15_slim.
(** The toehold is the first row of the range: Locate reports SA[st], SA[st+1], ..., SA[e-1]. *)
Theorem C44_slim_order : forall w sa data h s ix p,
  zero_free w -> is_suffix_array (terminated w) sa -> data = w \/ data = terminated w ->
  0 < h -> S (length w) < 2 ^ 64 ->
  construct_srcsa_slim s (2 * h) data sa = Some ix -> pattern_over w p ->
  exists st e, row_interval p w sa st e /\ slim_locate ix p = Some (rows sa st e).
Proof.
  intros w sa data h s ix p Hw HSA Hd Hh Hn Hix Hp.
  destruct (st_answers w sa data Hw HSA Hd h Hh Hn s FRuns false false phi_plain ix p Hix Hp (or_introl eq_refl))
    as (st & e & H1 & H2 & H3 & H4 & H5). eauto.
Qed.
Print Assumptions C44_slim_order.

(** SrCSAValidMark<SrCSA> *)
Theorem C11_srcsa_vm_construct_total : forall w sa data h s,
  zero_free w -> is_suffix_array (terminated w) sa -> data = w \/ data = terminated w ->
  0 < h -> S (length w) < 2 ^ 64 ->
  exists ix, construct_srcsa_valid s (2 * h) data sa = Some ix.
Proof. intros w sa data h s Hw HSA Hd Hh Hn. exact (build_total w sa data Hw HSA Hd h Hh Hn s FRows true). Qed.
Print Assumptions C11_srcsa_vm_construct_total.
Theorem C11_srcsa_vm_locate : forall w sa data h s ix p,
  zero_free w -> is_suffix_array (terminated w) sa -> data = w \/ data = terminated w ->
  0 < h -> S (length w) < 2 ^ 64 ->
  construct_srcsa_valid s (2 * h) data sa = Some ix -> pattern_over w p ->
  exists l, srcsa_vm_locate ix p = Some l /\ exact_answer p w l.
Proof.
  intros w sa data h s ix p Hw HSA Hd Hh Hn Hix Hp.
  exact (fwd_exact _ _ _ _ _ (st_answers w sa data Hw HSA Hd h Hh Hn s FRows true true phi_valid_mark ix p Hix Hp (or_intror (conj eq_refl (or_introl eq_refl))))).
Qed.
Print Assumptions C11_srcsa_vm_locate.
Theorem C15_srcsa_vm : forall w sa data h s ix p,
  zero_free w -> is_suffix_array (terminated w) sa -> data = w \/ data = terminated w ->
  0 < h -> S (length w) < 2 ^ 64 ->
  construct_srcsa_valid s (2 * h) data sa = Some ix -> pattern_over w p ->
  exists l st e, srcsa_vm_locate ix p = Some l /\ srcsa_count ix p = Some (st, e) /\ length l = e - st /\
    ((forall i, ~ occurs_at p w i) -> l = [] /\ st = e).
Proof.
  intros w sa data h s ix p Hw HSA Hd Hh Hn Hix Hp.
  exact (fwd_agree _ _ _ _ _ (st_answers w sa data Hw HSA Hd h Hh Hn s FRows true true phi_valid_mark ix p Hix Hp (or_intror (conj eq_refl (or_introl eq_refl))))).
Qed.
Print Assumptions C15_srcsa_vm.
(** The toehold is the first row of the range: Locate reports SA[st], SA[st+1], ..., SA[e-1]. *)
Theorem C44_srcsa_vm_order : forall w sa data h s ix p,
  zero_free w -> is_suffix_array (terminated w) sa -> data = w \/ data = terminated w ->
  0 < h -> S (length w) < 2 ^ 64 ->
  construct_srcsa_valid s (2 * h) data sa = Some ix -> pattern_over w p ->
  exists st e, row_interval p w sa st e /\ srcsa_vm_locate ix p = Some (rows sa st e).
Proof.
  intros w sa data h s ix p Hw HSA Hd Hh Hn Hix Hp.
  destruct (st_answers w sa data Hw HSA Hd h Hh Hn s FRows true true phi_valid_mark ix p Hix Hp (or_intror (conj eq_refl (or_introl eq_refl))))
    as (st & e & H1 & H2 & H3 & H4 & H5). eauto.
Qed.
Print Assumptions C44_srcsa_vm_order.

(** SrCSAValidMark<SrCSASlim> *)
Theorem C11_slim_vm_construct_total : forall w sa data h s,
  zero_free w -> is_suffix_array (terminated w) sa -> data = w \/ data = terminated w ->
  0 < h -> S (length w) < 2 ^ 64 ->
  exists ix, construct_srcsa_slim_valid s (2 * h) data sa = Some ix.
Proof. intros w sa data h s Hw HSA Hd Hh Hn. exact (build_total w sa data Hw HSA Hd h Hh Hn s FRuns true). Qed.
Print Assumptions C11_slim_vm_construct_total.
Theorem C11_slim_vm_locate : forall w sa data h s ix p,
  zero_free w -> is_suffix_array (terminated w) sa -> data = w \/ data = terminated w ->
  0 < h -> S (length w) < 2 ^ 64 ->
  construct_srcsa_slim_valid s (2 * h) data sa = Some ix -> pattern_over w p ->
  exists l, slim_vm_locate ix p = Some l /\ exact_answer p w l.
Proof.
  intros w sa data h s ix p Hw HSA Hd Hh Hn Hix Hp.
  exact (fwd_exact _ _ _ _ _ (st_answers w sa data Hw HSA Hd h Hh Hn s FRuns true true phi_valid_mark ix p Hix Hp (or_intror (conj eq_refl (or_introl eq_refl))))).
Qed.
Print Assumptions C11_slim_vm_locate.
Theorem C15_slim_vm : forall w sa data h s ix p,
  zero_free w -> is_suffix_array (terminated w) sa -> data = w \/ data = terminated w ->
  0 < h -> S (length w) < 2 ^ 64 ->
  construct_srcsa_slim_valid s (2 * h) data sa = Some ix -> pattern_over w p ->
  exists l st e, slim_vm_locate ix p = Some l /\ srcsa_count ix p = Some (st, e) /\ length l = e - st /\
    ((forall i, ~ occurs_at p w i) -> l = [] /\ st = e).
Proof.
  intros w sa data h s ix p Hw HSA Hd Hh Hn Hix Hp.
  exact (fwd_agree _ _ _ _ _ (st_answers w sa data Hw HSA Hd h Hh Hn s FRuns true true phi_valid_mark ix p Hix Hp (or_intror (conj eq_refl (or_introl eq_refl))))).
Qed.
Print Assumptions C15_slim_vm.
(** The toehold is the first row of the range: Locate reports SA[st], SA[st+1], ..., SA[e-1]. *)
Theorem C44_slim_vm_order : forall w sa data h s ix p,
  zero_free w -> is_suffix_array (terminated w) sa -> data = w \/ data = terminated w ->
  0 < h -> S (length w) < 2 ^ 64 ->
  construct_srcsa_slim_valid s (2 * h) data sa = Some ix -> pattern_over w p ->
  exists st e, row_interval p w sa st e /\ slim_vm_locate ix p = Some (rows sa st e).
Proof.
  intros w sa data h s ix p Hw HSA Hd Hh Hn Hix Hp.
  destruct (st_answers w sa data Hw HSA Hd h Hh Hn s FRuns true true phi_valid_mark ix p Hix Hp (or_intror (conj eq_refl (or_introl eq_refl))))
    as (st & e & H1 & H2 & H3 & H4 & H5). eauto.
Qed.
Print Assumptions C44_slim_vm_order.

(** SrCSAValidArea<SrCSA> *)
Theorem C12_srcsa_va_construct_total : forall w sa data h s,
  zero_free w -> is_suffix_array (terminated w) sa -> data = w \/ data = terminated w ->
  0 < h -> S (length w) < 2 ^ 64 ->
  exists ix, construct_srcsa_valid s (2 * h) data sa = Some ix.
Proof. intros w sa data h s Hw HSA Hd Hh Hn. exact (build_total w sa data Hw HSA Hd h Hh Hn s FRows true). Qed.
Print Assumptions C12_srcsa_va_construct_total.
Theorem C12_srcsa_va_locate : forall w sa data h s ix p,
  zero_free w -> is_suffix_array (terminated w) sa -> data = w \/ data = terminated w ->
  0 < h -> S (length w) < 2 ^ 64 ->
  construct_srcsa_valid s (2 * h) data sa = Some ix -> pattern_over w p ->
  exists l, srcsa_va_locate ix p = Some l /\ exact_answer p w l.
Proof.
  intros w sa data h s ix p Hw HSA Hd Hh Hn Hix Hp.
  exact (fwd_exact _ _ _ _ _ (st_answers w sa data Hw HSA Hd h Hh Hn s FRows true true phi_valid_area ix p Hix Hp (or_intror (conj eq_refl (or_intror eq_refl))))).
Qed.
Print Assumptions C12_srcsa_va_locate.
Theorem C15_srcsa_va : forall w sa data h s ix p,
  zero_free w -> is_suffix_array (terminated w) sa -> data = w \/ data = terminated w ->
  0 < h -> S (length w) < 2 ^ 64 ->
  construct_srcsa_valid s (2 * h) data sa = Some ix -> pattern_over w p ->
  exists l st e, srcsa_va_locate ix p = Some l /\ srcsa_count ix p = Some (st, e) /\ length l = e - st /\
    ((forall i, ~ occurs_at p w i) -> l = [] /\ st = e).
Proof.
  intros w sa data h s ix p Hw HSA Hd Hh Hn Hix Hp.
  exact (fwd_agree _ _ _ _ _ (st_answers w sa data Hw HSA Hd h Hh Hn s FRows true true phi_valid_area ix p Hix Hp (or_intror (conj eq_refl (or_intror eq_refl))))).
Qed.
Print Assumptions C15_srcsa_va.
(** The toehold is the first row of the range: Locate reports SA[st], SA[st+1], ..., SA[e-1]. *)
Theorem C44_srcsa_va_order : forall w sa data h s ix p,
  zero_free w -> is_suffix_array (terminated w) sa -> data = w \/ data = terminated w ->
  0 < h -> S (length w) < 2 ^ 64 ->
  construct_srcsa_valid s (2 * h) data sa = Some ix -> pattern_over w p ->
  exists st e, row_interval p w sa st e /\ srcsa_va_locate ix p = Some (rows sa st e).
Proof.
  intros w sa data h s ix p Hw HSA Hd Hh Hn Hix Hp.
  destruct (st_answers w sa data Hw HSA Hd h Hh Hn s FRows true true phi_valid_area ix p Hix Hp (or_intror (conj eq_refl (or_intror eq_refl))))
    as (st & e & H1 & H2 & H3 & H4 & H5). eauto.
Qed.
Print Assumptions C44_srcsa_va_order.

(** SrCSAValidArea<SrCSASlim> *)
Theorem C12_slim_va_construct_total : forall w sa data h s,
  zero_free w -> is_suffix_array (terminated w) sa -> data = w \/ data = terminated w ->
  0 < h -> S (length w) < 2 ^ 64 ->
  exists ix, construct_srcsa_slim_valid s (2 * h) data sa = Some ix.
Proof. intros w sa data h s Hw HSA Hd Hh Hn. exact (build_total w sa data Hw HSA Hd h Hh Hn s FRuns true). Qed.
Print Assumptions C12_slim_va_construct_total.
Theorem C12_slim_va_locate : forall w sa data h s ix p,
  zero_free w -> is_suffix_array (terminated w) sa -> data = w \/ data = terminated w ->
  0 < h -> S (length w) < 2 ^ 64 ->
  construct_srcsa_slim_valid s (2 * h) data sa = Some ix -> pattern_over w p ->
  exists l, slim_va_locate ix p = Some l /\ exact_answer p w l.
Proof.
  intros w sa data h s ix p Hw HSA Hd Hh Hn Hix Hp.
  exact (fwd_exact _ _ _ _ _ (st_answers w sa data Hw HSA Hd h Hh Hn s FRuns true true phi_valid_area ix p Hix Hp (or_intror (conj eq_refl (or_intror eq_refl))))).
Qed.
Print Assumptions C12_slim_va_locate.
Theorem C15_slim_va : forall w sa data h s ix p,
  zero_free w -> is_suffix_array (terminated w) sa -> data = w \/ data = terminated w ->
  0 < h -> S (length w) < 2 ^ 64 ->
  construct_srcsa_slim_valid s (2 * h) data sa = Some ix -> pattern_over w p ->
  exists l st e, slim_va_locate ix p = Some l /\ srcsa_count ix p = Some (st, e) /\ length l = e - st /\
    ((forall i, ~ occurs_at p w i) -> l = [] /\ st = e).
Proof.
  intros w sa data h s ix p Hw HSA Hd Hh Hn Hix Hp.
  exact (fwd_agree _ _ _ _ _ (st_answers w sa data Hw HSA Hd h Hh Hn s FRuns true true phi_valid_area ix p Hix Hp (or_intror (conj eq_refl (or_intror eq_refl))))).
Qed.
Print Assumptions C15_slim_va.
(** The toehold is the first row of the range: Locate reports SA[st], SA[st+1], ..., SA[e-1]. *)
Theorem C44_slim_va_order : forall w sa data h s ix p,
  zero_free w -> is_suffix_array (terminated w) sa -> data = w \/ data = terminated w ->
  0 < h -> S (length w) < 2 ^ 64 ->
  construct_srcsa_slim_valid s (2 * h) data sa = Some ix -> pattern_over w p ->
  exists st e, row_interval p w sa st e /\ slim_va_locate ix p = Some (rows sa st e).
Proof.
  intros w sa data h s ix p Hw HSA Hd Hh Hn Hix Hp.
  destruct (st_answers w sa data Hw HSA Hd h Hh Hn s FRuns true true phi_valid_area ix p Hix Hp (or_intror (conj eq_refl (or_intror eq_refl))))
    as (st & e & H1 & H2 & H3 & H4 & H5). eauto.
Qed.
Print Assumptions C44_slim_va_order.

(** SrCSAWithPsiRun *)
Theorem C13_psi_construct_total : forall w sa data h s,
  zero_free w -> is_suffix_array (terminated w) sa -> data = w \/ data = terminated w ->
  0 < h -> S (length w) < 2 ^ 64 ->
  exists ix, construct_srcsa_psi s (2 * h) data sa = Some ix.
Proof. intros w sa data h s Hw HSA Hd Hh Hn. exact (build_total w sa data Hw HSA Hd h Hh Hn s FPsi false). Qed.
Print Assumptions C13_psi_construct_total.
Theorem C13_psi_locate : forall w sa data h s ix p,
  zero_free w -> is_suffix_array (terminated w) sa -> data = w \/ data = terminated w ->
  0 < h -> S (length w) < 2 ^ 64 ->
  construct_srcsa_psi s (2 * h) data sa = Some ix -> pattern_over w p ->
  exists l, slim_locate ix p = Some l /\ exact_answer p w l.
Proof.
  intros w sa data h s ix p Hw HSA Hd Hh Hn Hix Hp.
  exact (fwd_exact _ _ _ _ _ (st_answers w sa data Hw HSA Hd h Hh Hn s FPsi false false phi_plain ix p Hix Hp (or_introl eq_refl))).
Qed.
Print Assumptions C13_psi_locate.
Theorem C15_psi : forall w sa data h s ix p,
  zero_free w -> is_suffix_array (terminated w) sa -> data = w \/ data = terminated w ->
  0 < h -> S (length w) < 2 ^ 64 ->
  construct_srcsa_psi s (2 * h) data sa = Some ix -> pattern_over w p ->
  exists l st e, slim_locate ix p = Some l /\ srcsa_count ix p = Some (st, e) /\ length l = e - st /\
    ((forall i, ~ occurs_at p w i) -> l = [] /\ st = e).
Proof.
  intros w sa data h s ix p Hw HSA Hd Hh Hn Hix Hp.
  exact (fwd_agree _ _ _ _ _ (st_answers w sa data Hw HSA Hd h Hh Hn s FPsi false false phi_plain ix p Hix Hp (or_introl eq_refl))).
Qed.
Print Assumptions C15_psi.
(** The toehold is the first row of the range: Locate reports SA[st], SA[st+1], ..., SA[e-1]. *)
Theorem C44_psi_order : forall w sa data h s ix p,
  zero_free w -> is_suffix_array (terminated w) sa -> data = w \/ data = terminated w ->
  0 < h -> S (length w) < 2 ^ 64 ->
  construct_srcsa_psi s (2 * h) data sa = Some ix -> pattern_over w p ->
  exists st e, row_interval p w sa st e /\ slim_locate ix p = Some (rows sa st e).
Proof.
  intros w sa data h s ix p Hw HSA Hd Hh Hn Hix Hp.
  destruct (st_answers w sa data Hw HSA Hd h Hh Hn s FPsi false false phi_plain ix p Hix Hp (or_introl eq_refl))
    as (st & e & H1 & H2 & H3 & H4 & H5). eauto.
Qed.
Print Assumptions C44_psi_order.

(** SRCSAValidMark over Psi runs *)
Theorem C14_psi_vm_construct_total : forall w sa data h s,
  zero_free w -> is_suffix_array (terminated w) sa -> data = w \/ data = terminated w ->
  0 < h -> S (length w) < 2 ^ 64 ->
  exists ix, construct_srcsa_psi_valid s (2 * h) data sa = Some ix.
Proof. intros w sa data h s Hw HSA Hd Hh Hn. exact (build_total w sa data Hw HSA Hd h Hh Hn s FPsi true). Qed.
Print Assumptions C14_psi_vm_construct_total.
Theorem C14_psi_vm_locate : forall w sa data h s ix p,
  zero_free w -> is_suffix_array (terminated w) sa -> data = w \/ data = terminated w ->
  0 < h -> S (length w) < 2 ^ 64 ->
  construct_srcsa_psi_valid s (2 * h) data sa = Some ix -> pattern_over w p ->
  exists l, slim_vm_locate ix p = Some l /\ exact_answer p w l.
Proof.
  intros w sa data h s ix p Hw HSA Hd Hh Hn Hix Hp.
  exact (fwd_exact _ _ _ _ _ (st_answers w sa data Hw HSA Hd h Hh Hn s FPsi true true phi_valid_mark ix p Hix Hp (or_intror (conj eq_refl (or_introl eq_refl))))).
Qed.
Print Assumptions C14_psi_vm_locate.
Theorem C15_psi_vm : forall w sa data h s ix p,
  zero_free w -> is_suffix_array (terminated w) sa -> data = w \/ data = terminated w ->
  0 < h -> S (length w) < 2 ^ 64 ->
  construct_srcsa_psi_valid s (2 * h) data sa = Some ix -> pattern_over w p ->
  exists l st e, slim_vm_locate ix p = Some l /\ srcsa_count ix p = Some (st, e) /\ length l = e - st /\
    ((forall i, ~ occurs_at p w i) -> l = [] /\ st = e).
Proof.
  intros w sa data h s ix p Hw HSA Hd Hh Hn Hix Hp.
  exact (fwd_agree _ _ _ _ _ (st_answers w sa data Hw HSA Hd h Hh Hn s FPsi true true phi_valid_mark ix p Hix Hp (or_intror (conj eq_refl (or_introl eq_refl))))).
Qed.
Print Assumptions C15_psi_vm.
(** The toehold is the first row of the range: Locate reports SA[st], SA[st+1], ..., SA[e-1]. *)
Theorem C44_psi_vm_order : forall w sa data h s ix p,
  zero_free w -> is_suffix_array (terminated w) sa -> data = w \/ data = terminated w ->
  0 < h -> S (length w) < 2 ^ 64 ->
  construct_srcsa_psi_valid s (2 * h) data sa = Some ix -> pattern_over w p ->
  exists st e, row_interval p w sa st e /\ slim_vm_locate ix p = Some (rows sa st e).
Proof.
  intros w sa data h s ix p Hw HSA Hd Hh Hn Hix Hp.
  destruct (st_answers w sa data Hw HSA Hd h Hh Hn s FPsi true true phi_valid_mark ix p Hix Hp (or_intror (conj eq_refl (or_introl eq_refl))))
    as (st & e & H1 & H2 & H3 & H4 & H5). eauto.
Qed.
Print Assumptions C44_psi_vm_order.

(** SRCSAValidArea over Psi runs *)
Theorem C14_psi_va_construct_total : forall w sa data h s,
  zero_free w -> is_suffix_array (terminated w) sa -> data = w \/ data = terminated w ->
  0 < h -> S (length w) < 2 ^ 64 ->
  exists ix, construct_srcsa_psi_valid s (2 * h) data sa = Some ix.
Proof. intros w sa data h s Hw HSA Hd Hh Hn. exact (build_total w sa data Hw HSA Hd h Hh Hn s FPsi true). Qed.
Print Assumptions C14_psi_va_construct_total.
Theorem C14_psi_va_locate : forall w sa data h s ix p,
  zero_free w -> is_suffix_array (terminated w) sa -> data = w \/ data = terminated w ->
  0 < h -> S (length w) < 2 ^ 64 ->
  construct_srcsa_psi_valid s (2 * h) data sa = Some ix -> pattern_over w p ->
  exists l, slim_va_locate ix p = Some l /\ exact_answer p w l.
Proof.
  intros w sa data h s ix p Hw HSA Hd Hh Hn Hix Hp.
  exact (fwd_exact _ _ _ _ _ (st_answers w sa data Hw HSA Hd h Hh Hn s FPsi true true phi_valid_area ix p Hix Hp (or_intror (conj eq_refl (or_intror eq_refl))))).
Qed.
Print Assumptions C14_psi_va_locate.
Theorem C15_psi_va : forall w sa data h s ix p,
  zero_free w -> is_suffix_array (terminated w) sa -> data = w \/ data = terminated w ->
  0 < h -> S (length w) < 2 ^ 64 ->
  construct_srcsa_psi_valid s (2 * h) data sa = Some ix -> pattern_over w p ->
  exists l st e, slim_va_locate ix p = Some l /\ srcsa_count ix p = Some (st, e) /\ length l = e - st /\
    ((forall i, ~ occurs_at p w i) -> l = [] /\ st = e).
Proof.
  intros w sa data h s ix p Hw HSA Hd Hh Hn Hix Hp.
  exact (fwd_agree _ _ _ _ _ (st_answers w sa data Hw HSA Hd h Hh Hn s FPsi true true phi_valid_area ix p Hix Hp (or_intror (conj eq_refl (or_intror eq_refl))))).
Qed.
Print Assumptions C15_psi_va.
(** The toehold is the first row of the range: Locate reports SA[st], SA[st+1], ..., SA[e-1]. *)
Theorem C44_psi_va_order : forall w sa data h s ix p,
  zero_free w -> is_suffix_array (terminated w) sa -> data = w \/ data = terminated w ->
  0 < h -> S (length w) < 2 ^ 64 ->
  construct_srcsa_psi_valid s (2 * h) data sa = Some ix -> pattern_over w p ->
  exists st e, row_interval p w sa st e /\ slim_va_locate ix p = Some (rows sa st e).
Proof.
  intros w sa data h s ix p Hw HSA Hd Hh Hn Hix Hp.
  destruct (st_answers w sa data Hw HSA Hd h Hh Hn s FPsi true true phi_valid_area ix p Hix Hp (or_intror (conj eq_refl (or_intror eq_refl))))
    as (st & e & H1 & H2 & H3 & H4 & H5). eauto.
Qed.
Print Assumptions C44_psi_va_order.

(** An index of any of these classes. *)
Definition srcsa_built (s h : nat) (data sa : list nat) (ix : srcsa) : Prop :=
  construct_srcsa s (2 * h) data sa = Some ix \/ construct_srcsa_valid s (2 * h) data sa = Some ix \/
  construct_srcsa_slim s (2 * h) data sa = Some ix \/ construct_srcsa_slim_valid s (2 * h) data sa = Some ix \/
  construct_srcsa_psi s (2 * h) data sa = Some ix \/ construct_srcsa_psi_valid s (2 * h) data sa = Some ix.
Lemma srcsa_built_built w sa data (Hw : zero_free w) (HSA : is_suffix_array (terminated w) sa) (Hd : data = w \/ data = terminated w) h s ix :
  srcsa_built s h data sa ix -> built sa data h s ix.
Proof.
  intros [H|[H|[H|[H|[H|H]]]]];
    [exists FRows, false|exists FRows, true|exists FRuns, false|exists FRuns, true|exists FPsi, false|exists FPsi, true]; exact H.
Qed.
Theorem C01_srcsa_count : forall w sa data h s ix p,
  zero_free w -> is_suffix_array (terminated w) sa -> data = w \/ data = terminated w ->
  0 < h -> S (length w) < 2 ^ 64 ->
  srcsa_built s h data sa ix -> pattern_over w p ->
  exists st e, srcsa_count ix p = Some (st, e) /\ row_interval p w sa st e /\
    exists l, exact_answer p w l /\ length l = e - st.
Proof.
  intros w sa data h s ix p Hw HSA Hd Hh Hn Hix Hp.
  destruct (srcsa_built_built w sa data Hw HSA Hd h s ix Hix) as (f & v & E).
  exact (fwd_count _ _ _ _ _ (st_answers w sa data Hw HSA Hd h Hh Hn s f v false phi_plain ix p E Hp (or_introl eq_refl))).
Qed.
Print Assumptions C01_srcsa_count.
(** The range after the symbols of [v] is the interval of [v]; the search of [u ++ v] continues
    from it, and an empty range is final. *)
Theorem C43_srcsa_search : forall w sa data h s ix u v,
  zero_free w -> is_suffix_array (terminated w) sa -> data = w \/ data = terminated w ->
  0 < h -> S (length w) < 2 ^ 64 ->
  srcsa_built s h data sa ix -> pattern_over w v ->
  exists st e, count_loop (csa_lf (sc_alpha ix) (sc_psi ix)) range_of_psi (al_symbol (sc_alpha ix)) range_empty (rev v) (0, length sa) = Some (st, e) /\
    row_interval v w sa st e /\
    srcsa_count ix (u ++ v) =
      count_loop (csa_lf (sc_alpha ix) (sc_psi ix)) range_of_psi (al_symbol (sc_alpha ix)) range_empty (rev u) (st, e) /\
    (st = e -> srcsa_count ix (u ++ v) = Some (st, e)).
Proof.
  intros w sa data h s ix u v Hw HSA Hd Hh Hn Hix.
  exact (st_srcsa_search w sa data Hw HSA Hd h Hh Hn s ix u v (srcsa_built_built w sa data Hw HSA Hd h s ix Hix)).
Qed.
Print Assumptions C43_srcsa_search.
(** C35: the number of samples is bounded by the text length and the rate. *)
Theorem C35_srcsa_samples : forall w sa data h s ix,
  zero_free w -> is_suffix_array (terminated w) sa -> data = w \/ data = terminated w ->
  0 < h -> S (length w) < 2 ^ 64 ->
  srcsa_built s h data sa ix -> length (sc_samples ix) <= 2 * (length w / (s + 1)) + 4.
Proof.
  intros w sa data h s ix Hw HSA Hd Hh Hn Hix.
  exact (st_srcsa_size w sa data Hw HSA Hd h Hh Hn s ix (srcsa_built_built w sa data Hw HSA Hd h s ix Hix)).
Qed.
Print Assumptions C35_srcsa_samples.
(** C45.  The navigation starts from a run head; a sampled row is there or less than [s] Psi steps
    away.  [C45_toehold_fuel] bounds the steps of the loop by its fuel, the rate in these indexes. *)
Theorem C45_srcsa_toehold_navigation : forall w sa data h s ix i,
  zero_free w -> is_suffix_array (terminated w) sa -> data = w \/ data = terminated w ->
  0 < h -> S (length w) < 2 ^ 64 ->
  srcsa_built s h data sa ix ->
  let bwt := bwt_of (terminated w) sa in let n := S (length w) in
  run_head bwt i -> exists l j x, (l = 0 \/ l < s) /\ nth j sa 0 = (nth i sa 0 + l) mod n /\ run_head bwt j /\
    In x (sc_samples ix) /\ (x + 1) mod n = nth j sa 0.
Proof.
  intros w sa data h s ix i Hw HSA Hd Hh Hn Hix bwt n Hi.
  destruct (st_srcsa_toehold_bound w sa data Hw HSA Hd h Hh Hn s ix i (srcsa_built_built w sa data Hw HSA Hd h s ix Hix) Hi)
    as (l & j & H1 & H2 & H3 & x & H4 & H5). exists l, j, x. auto.
Qed.
Print Assumptions C45_srcsa_toehold_navigation.
(** From any row, either a sampled row is less than [s] Psi steps away or phi on the sub-sampled
    marks is right at the row before. *)
Theorem C45_srcsa_range_navigation : forall w sa data h s ix i,
  zero_free w -> is_suffix_array (terminated w) sa -> data = w \/ data = terminated w ->
  0 < h -> S (length w) < 2 ^ 64 ->
  srcsa_built s h data sa ix ->
  let bwt := bwt_of (terminated w) sa in let n := S (length w) in
  S i < length sa ->
  (exists l j x, l < s /\ nth j sa 0 = (nth (S i) sa 0 + l) mod n /\ run_head bwt j /\
    In x (sc_samples ix) /\ (x + 1) mod n = nth j sa 0) \/
  exists b, csa_phi (length sa) (sc_marks ix) (sc_samples ix) (links_default (sc_links ix) false) sample_validator_default
              (nth i sa 0) = Some (nth (S i) sa 0, b).
Proof.
  intros w sa data h s ix i Hw HSA Hd Hh Hn Hix bwt n Hi.
  destruct (st_srcsa_range_bound w sa data Hw HSA Hd h Hh Hn s ix i (srcsa_built_built w sa data Hw HSA Hd h s ix Hix) Hi)
    as [(l & j & H1 & H2 & H3 & x & H4 & H5)|H]; [left; exists l, j, x; auto|right; auto].
Qed.
Print Assumptions C45_srcsa_range_navigation.
(** C18, Count part. *)
Theorem C18_srcsa_empty_count : forall w sa data h s ix,
  zero_free w -> is_suffix_array (terminated w) sa -> data = w \/ data = terminated w ->
  0 < h -> S (length w) < 2 ^ 64 ->
  srcsa_built s h data sa ix -> srcsa_count ix [] = Some (0, length sa).
Proof.
  intros w sa data h s ix Hw HSA Hd Hh Hn Hix.
  exact (st_srcsa_count_empty w sa data Hw HSA Hd h Hh Hn s ix (srcsa_built_built w sa data Hw HSA Hd h s ix Hix)).
Qed.
Print Assumptions C18_srcsa_empty_count.

(** Concrete cases: "abracadabra" with rate 3. *)
Definition exf_w : list nat := [97; 98; 114; 97; 99; 97; 100; 97; 98; 114; 97].
Definition exf_sa : list nat := [11; 10; 7; 0; 3; 5; 8; 1; 4; 6; 9; 2].
Lemma exf_small : S (length exf_w) < 2 ^ 64.
Proof. apply Nat.lt_trans with 64; [cbn; repeat constructor|apply Nat.pow_gt_lin_r; repeat constructor]. Qed.
Example exf_hyps : zero_free exf_w /\ is_suffix_array (terminated exf_w) exf_sa /\ pattern_over exf_w [97; 98; 114].
Proof.
  split; [repeat constructor|]. split; [apply sa_check_ok; vm_compute; reflexivity|].
  split; [discriminate|]. cbn. intuition.
Qed.
Example exf_srcsa : exists ix, construct_srcsa 3 (2 * 2) exf_w exf_sa = Some ix /\
  length (sc_samples ix) < 8 /\ srcsa_count ix [97; 98; 114] = Some (2, 4) /\
  srcsa_locate ix [97; 98; 114] = Some [7; 0] /\ srcsa_locate ix [97] = Some [10; 7; 0; 3; 5] /\ srcsa_locate ix [98; 98] = Some [].
Proof. eexists. split; [vm_compute; reflexivity|]. repeat split; vm_compute; auto 20; try discriminate; repeat constructor. Qed.
Example exf_slim : exists ix, construct_srcsa_slim 3 (2 * 2) exf_w exf_sa = Some ix /\
  length (sc_samples ix) < 8 /\ srcsa_count ix [97; 98; 114] = Some (2, 4) /\
  slim_locate ix [97; 98; 114] = Some [7; 0] /\ slim_locate ix [97] = Some [10; 7; 0; 3; 5] /\ slim_locate ix [98; 98] = Some [].
Proof. eexists. split; [vm_compute; reflexivity|]. repeat split; vm_compute; auto 20; try discriminate; repeat constructor. Qed.
Example exf_psi : exists ix, construct_srcsa_psi 3 (2 * 2) exf_w exf_sa = Some ix /\
  length (sc_samples ix) < 8 /\ srcsa_count ix [97; 98; 114] = Some (2, 4) /\
  slim_locate ix [97; 98; 114] = Some [7; 0] /\ slim_locate ix [97] = Some [10; 7; 0; 3; 5] /\ slim_locate ix [98; 98] = Some [].
Proof. eexists. split; [vm_compute; reflexivity|]. repeat split; vm_compute; auto 20; try discriminate; repeat constructor. Qed.
Example exf_srcsa_valid : exists ix, construct_srcsa_valid 3 (2 * 2) exf_w exf_sa = Some ix /\
  length (sc_samples ix) < 8 /\ srcsa_count ix [97; 98; 114] = Some (2, 4) /\
  srcsa_vm_locate ix [97; 98; 114] = Some [7; 0] /\ srcsa_vm_locate ix [97] = Some [10; 7; 0; 3; 5] /\ srcsa_vm_locate ix [98; 98] = Some [] /\ srcsa_va_locate ix [97; 98; 114] = Some [7; 0] /\ srcsa_va_locate ix [97] = Some [10; 7; 0; 3; 5] /\ srcsa_va_locate ix [98; 98] = Some [] /\ In false (sc_valid ix) /\ sc_areas ix <> [].
Proof. eexists. split; [vm_compute; reflexivity|]. repeat split; vm_compute; auto 20; try discriminate; repeat constructor. Qed.
Example exf_slim_valid : exists ix, construct_srcsa_slim_valid 3 (2 * 2) exf_w exf_sa = Some ix /\
  length (sc_samples ix) < 8 /\ srcsa_count ix [97; 98; 114] = Some (2, 4) /\
  slim_vm_locate ix [97; 98; 114] = Some [7; 0] /\ slim_vm_locate ix [97] = Some [10; 7; 0; 3; 5] /\ slim_vm_locate ix [98; 98] = Some [] /\ slim_va_locate ix [97; 98; 114] = Some [7; 0] /\ slim_va_locate ix [97] = Some [10; 7; 0; 3; 5] /\ slim_va_locate ix [98; 98] = Some [] /\ In false (sc_valid ix) /\ sc_areas ix <> [].
Proof. eexists. split; [vm_compute; reflexivity|]. repeat split; vm_compute; auto 20; try discriminate; repeat constructor. Qed.
Example exf_psi_valid : exists ix, construct_srcsa_psi_valid 3 (2 * 2) exf_w exf_sa = Some ix /\
  length (sc_samples ix) < 8 /\ srcsa_count ix [97; 98; 114] = Some (2, 4) /\
  slim_vm_locate ix [97; 98; 114] = Some [7; 0] /\ slim_vm_locate ix [97] = Some [10; 7; 0; 3; 5] /\ slim_vm_locate ix [98; 98] = Some [] /\ slim_va_locate ix [97; 98; 114] = Some [7; 0] /\ slim_va_locate ix [97] = Some [10; 7; 0; 3; 5] /\ slim_va_locate ix [98; 98] = Some [] /\ In false (sc_valid ix) /\ sc_areas ix <> [].
Proof. eexists. split; [vm_compute; reflexivity|]. repeat split; vm_compute; auto 20; try discriminate; repeat constructor. Qed.

(** C18, Locate part: the initial toehold is not the first row of the full range, so Locate("") of
    every subsampled class is defined but wrong: a position is reported twice and another is missing. *)
Theorem C18_srcsa_empty_locate_refuted : exists w sa,
  zero_free w /\ is_suffix_array (terminated w) sa /\ S (length w) < 2 ^ 64 /\
  (exists ix l, construct_srcsa 3 (2 * 32) w sa = Some ix /\ srcsa_locate ix [] = Some l /\ ~ NoDup l /\ ~ In (length w) l) /\
  (exists ix l, construct_srcsa_slim 3 (2 * 32) w sa = Some ix /\ slim_locate ix [] = Some l /\ ~ NoDup l /\ ~ In (length w) l) /\
  (exists ix l, construct_srcsa_psi 3 (2 * 32) w sa = Some ix /\ slim_locate ix [] = Some l /\ ~ NoDup l /\ ~ In (length w) l) /\
  (exists ix l l', construct_srcsa_valid 3 (2 * 32) w sa = Some ix /\ srcsa_vm_locate ix [] = Some l /\ ~ NoDup l /\
     srcsa_va_locate ix [] = Some l' /\ ~ NoDup l') /\
  (exists ix l l', construct_srcsa_slim_valid 3 (2 * 32) w sa = Some ix /\ slim_vm_locate ix [] = Some l /\ ~ NoDup l /\
     slim_va_locate ix [] = Some l' /\ ~ NoDup l') /\
  (exists ix l l', construct_srcsa_psi_valid 3 (2 * 32) w sa = Some ix /\ slim_vm_locate ix [] = Some l /\ ~ NoDup l /\
     slim_va_locate ix [] = Some l' /\ ~ NoDup l').
Proof.
  exists exf_w, exf_sa. split; [repeat constructor|]. split; [apply sa_check_ok; vm_compute; reflexivity|]. split; [exact exf_small|].
  assert (D : forall l (x : nat) a b c, l = a ++ x :: b ++ x :: c -> ~ NoDup l).
  { intros l x a b c -> H. apply NoDup_remove_2 in H. apply H. rewrite !in_app_iff. cbn. auto. }
  repeat split.
  1-3: (eexists; eexists; split; [vm_compute; reflexivity|]; split; [vm_compute; reflexivity|]; split;
    [apply (D _ 10 [] [] [7; 0; 3; 5; 8; 1; 4; 6; 9; 2]); reflexivity|vm_compute; intuition discriminate]).
  all: (eexists; eexists; eexists; split; [vm_compute; reflexivity|]; split; [vm_compute; reflexivity|];
    split; [apply (D _ 7 [10] [] [0; 3; 5; 8; 1; 4; 6; 9; 2]); reflexivity|];
    split; [vm_compute; reflexivity|apply (D _ 3 [10; 7; 0] [] [5; 8; 1; 4; 6; 9; 2]); reflexivity]).
Qed.
Print Assumptions C18_srcsa_empty_locate_refuted.

(** C17 does not hold here either: a byte that is not in the text is searched as the terminator. *)
Theorem C17_srcsa_absent_byte_refuted : exists w sa p,
  zero_free w /\ is_suffix_array (terminated w) sa /\ S (length w) < 2 ^ 64 /\
  (exists c, In c p /\ ~ In c w) /\ (forall i, ~ occurs_at p w i) /\
  (exists ix, construct_srcsa 3 (2 * 32) w sa = Some ix /\ srcsa_count ix p = Some (0, 1) /\ srcsa_locate ix p = Some [length w]) /\
  (exists ix, construct_srcsa_slim 3 (2 * 32) w sa = Some ix /\ srcsa_count ix p = Some (0, 1) /\ slim_locate ix p = Some [length w]) /\
  (exists ix, construct_srcsa_valid 3 (2 * 32) w sa = Some ix /\ srcsa_count ix p = Some (0, 1) /\ srcsa_vm_locate ix p = Some [length w]) /\
  (exists ix, construct_srcsa_slim_valid 3 (2 * 32) w sa = Some ix /\ srcsa_count ix p = Some (0, 1) /\ slim_vm_locate ix p = Some [length w]) /\
  (exists ix, construct_srcsa_valid 3 (2 * 32) w sa = Some ix /\ srcsa_count ix p = Some (0, 1) /\ srcsa_va_locate ix p = Some [length w]) /\
  (exists ix, construct_srcsa_slim_valid 3 (2 * 32) w sa = Some ix /\ srcsa_count ix p = Some (0, 1) /\ slim_va_locate ix p = Some [length w]) /\
  (exists ix, construct_srcsa_psi 3 (2 * 32) w sa = Some ix /\ srcsa_count ix p = Some (0, 1) /\ slim_locate ix p = Some [length w]) /\
  (exists ix, construct_srcsa_psi_valid 3 (2 * 32) w sa = Some ix /\ srcsa_count ix p = Some (0, 1) /\ slim_vm_locate ix p = Some [length w]) /\
  (exists ix, construct_srcsa_psi_valid 3 (2 * 32) w sa = Some ix /\ srcsa_count ix p = Some (0, 1) /\ slim_va_locate ix p = Some [length w]).
Proof.
  exists exf_w, exf_sa, [120].
  split; [repeat constructor|]. split; [apply sa_check_ok; vm_compute; reflexivity|]. split; [exact exf_small|]. split.
  { exists 120. split; [left; auto|]. cbn. intuition discriminate. }
  split.
  { intros i (u & v & E & _). assert (H : In 120 exf_w) by (rewrite E; apply in_or_app; right; left; auto).
    cbn in H. intuition discriminate. }
  repeat split; (eexists; split; [vm_compute; reflexivity|]; split; vm_compute; reflexivity).
Qed.
Print Assumptions C17_srcsa_absent_byte_refuted.
