(** C18 on the nine subsampled CSA classes: Locate("") is defined on every text, for every rate.  It performs
    no out-of-range access and every loop ends (the model returns a value), and it reports one value per row, each
    of them a position of the terminated text.  It is not a list of all positions: C18_srcsa_empty_locate_refuted
    in PropertiesSrCsa.  The first value is the position before the terminator and not the terminator's, which
    is the one of row 0. *)
From Coq Require Import List Arith Bool Permutation.
From Verif Require Import Spec MBase MConstruct MPhi MRIndex MPsi MCsa MSrCsa Glue CsaGlue SrCsaGlue FwdTotal PropertiesSrCsa.
Import ListNotations.

Definition empty_locate_defined (w : list nat) (answer : option (list nat)) : Prop :=
  exists l, answer = Some l /\ length l = S (length w) /\ (forall x, In x l -> x <= length w) /\
    hd_error l = Some (length w - 1).

Theorem C18_srcsa_empty_locate_defined : forall w sa data h s,
  zero_free w -> is_suffix_array (terminated w) sa -> data = w \/ data = terminated w ->
  0 < h -> S (length w) < 2 ^ 64 ->
  (forall ix, construct_srcsa s (2 * h) data sa = Some ix -> empty_locate_defined w (srcsa_locate ix [])) /\
  (forall ix, construct_srcsa_valid s (2 * h) data sa = Some ix ->
     empty_locate_defined w (srcsa_vm_locate ix []) /\ empty_locate_defined w (srcsa_va_locate ix [])) /\
  (forall ix, construct_srcsa_slim s (2 * h) data sa = Some ix -> empty_locate_defined w (slim_locate ix [])) /\
  (forall ix, construct_srcsa_slim_valid s (2 * h) data sa = Some ix ->
     empty_locate_defined w (slim_vm_locate ix []) /\ empty_locate_defined w (slim_va_locate ix [])) /\
  (forall ix, construct_srcsa_psi s (2 * h) data sa = Some ix -> empty_locate_defined w (slim_locate ix [])) /\
  (forall ix, construct_srcsa_psi_valid s (2 * h) data sa = Some ix ->
     empty_locate_defined w (slim_vm_locate ix []) /\ empty_locate_defined w (slim_va_locate ix [])).
Proof.
  intros w sa data h s Hw HSA Hd Hh Hn.
  pose proof (st_srcsa_locate_empty w sa data Hw HSA Hd h Hh Hn s) as G.
  split; [|split; [|split; [|split; [|split]]]]; intros ix H.
  - exact (G FRows false false phi_plain ix H (or_introl eq_refl)).
  - split; [exact (G FRows true true phi_valid_mark ix H (or_intror (conj eq_refl (or_introl eq_refl))))
          |exact (G FRows true true phi_valid_area ix H (or_intror (conj eq_refl (or_intror eq_refl))))].
  - exact (G FRuns false false phi_plain ix H (or_introl eq_refl)).
  - split; [exact (G FRuns true true phi_valid_mark ix H (or_intror (conj eq_refl (or_introl eq_refl))))
          |exact (G FRuns true true phi_valid_area ix H (or_intror (conj eq_refl (or_intror eq_refl))))].
  - exact (G FPsi false false phi_plain ix H (or_introl eq_refl)).
  - split; [exact (G FPsi true true phi_valid_mark ix H (or_intror (conj eq_refl (or_introl eq_refl))))
          |exact (G FPsi true true phi_valid_area ix H (or_intror (conj eq_refl (or_intror eq_refl))))].
Qed.
Print Assumptions C18_srcsa_empty_locate_defined.

(** "abracadabra" with rate 3: the position 10 is reported twice, the terminator's never. *)
Example C18_empty_nonvacuous : exists ix, construct_srcsa 3 (2 * 2) exf_w exf_sa = Some ix /\
  srcsa_locate ix [] = Some [10; 10; 7; 0; 3; 5; 8; 1; 4; 6; 9; 2].
Proof. eexists. split; [vm_compute; reflexivity|]. vm_compute. reflexivity. Qed.
