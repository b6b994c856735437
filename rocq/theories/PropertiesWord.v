(** C92: the queries of a machine whose std::size_t has 64 bits are those of unlimited numbers, for texts with less than
    half of the positions that fit (and a subsampling rate that fits beside).  The [w_] functions compute every sum,
    difference and product of a query modulo 2^64.  Hypotheses as in PropertiesRIndex.v, PropertiesSrIndex.v and
    PropertiesSrCsa.v. *)
From Coq Require Import List Arith Bool Lia.
From Verif Require Import Spec MBase MConstruct MPhi MRIndex MSrIndex MPsi MCsa MSrCsa Util Glue SrGlue CsaGlue SrCsaGlue
  PropertiesRIndex PropertiesCsa PropertiesSrIndex PropertiesSrCsa MWord WordProof WordGlue.
Import ListNotations.

(** The words are those of 64 bits: the operations are the sum, difference and product modulo 2^64. *)
Theorem C92_words : forall a b, a < 2 ^ 64 -> b < 2 ^ 64 ->
  (addw a b = if a + b <? 2 ^ 64 then a + b else a + b - 2 ^ 64) /\
  (subw a b = if b <=? a then a - b else 2 ^ 64 + a - b) /\
  (exists k, a * b = mulw a b + k * 2 ^ 64) /\ addw a b < 2 ^ 64 /\ subw a b < 2 ^ 64 /\ mulw a b < 2 ^ 64.
Proof. exact words_ok. Qed.
Print Assumptions C92_words.

(** ** RIndex and SrIndex *)
Theorem C92_rindex : forall w sa data ix,
  zero_free w -> is_suffix_array (terminated w) sa -> data = w \/ data = terminated w ->
  2 * S (length w) + 3 <= 2 ^ 64 ->
  construct_rindex data sa = Some ix ->
  (forall p, length p < 2 ^ 64 -> w_rindex_locate ix p = rindex_locate ix p) /\
  (forall p, pattern_over w p -> length p < 2 ^ 64 -> exists l, w_rindex_locate ix p = Some l /\ exact_answer p w l).
Proof.
  intros w sa data ix Hw HSA Hd Hb Hix.
  assert (HE : forall p, length p < 2 ^ 64 -> w_rindex_locate ix p = rindex_locate ix p).
  { intros p Hp. rewrite <- word_eq in Hb, Hp. apply (st_w_rindex w sa data Hw HSA Hd ix p Hix Hb Hp). }
  split; [exact HE|]. intros p Hp Hlp. rewrite (HE p Hlp).
  exact (C02_rindex_locate w sa data ix p Hw HSA Hd Hix Hp).
Qed.
Print Assumptions C92_rindex.
Theorem C92_srindex : forall w sa data s ix,
  zero_free w -> is_suffix_array (terminated w) sa -> data = w \/ data = terminated w ->
  2 * S (length w) + s + 3 <= 2 ^ 64 ->
  construct_sri s data sa = Some ix ->
  (forall p, length p < 2 ^ 64 -> w_srindex_locate ix p = srindex_locate ix p) /\
  (forall p, pattern_over w p -> length p < 2 ^ 64 -> exists l, w_srindex_locate ix p = Some l /\ exact_answer p w l).
Proof.
  intros w sa data s ix Hw HSA Hd Hb Hix.
  assert (HE : forall p, length p < 2 ^ 64 -> w_srindex_locate ix p = srindex_locate ix p).
  { intros p Hp. rewrite <- word_eq in Hb, Hp. exact (st_w_sr w sa data Hw HSA Hd false s ix _ _ p (or_introl Hix) Hb Hp). }
  split; [exact HE|]. intros p Hp Hlp. rewrite (HE p Hlp).
  exact (answers_exact w sa _ _ _ (st_sri w sa data Hw HSA Hd s ix p Hix Hp)).
Qed.
Print Assumptions C92_srindex.
Theorem C92_srindex_vm : forall w sa data s ix,
  zero_free w -> is_suffix_array (terminated w) sa -> data = w \/ data = terminated w ->
  2 * S (length w) + s + 3 <= 2 ^ 64 ->
  construct_sri_valid s data sa = Some ix ->
  (forall p, length p < 2 ^ 64 -> w_srindex_vm_locate ix p = srindex_vm_locate ix p) /\
  (forall p, pattern_over w p -> length p < 2 ^ 64 -> exists l, w_srindex_vm_locate ix p = Some l /\ exact_answer p w l).
Proof.
  intros w sa data s ix Hw HSA Hd Hb Hix.
  assert (HE : forall p, length p < 2 ^ 64 -> w_srindex_vm_locate ix p = srindex_vm_locate ix p).
  { intros p Hp. rewrite <- word_eq in Hb, Hp. exact (st_w_sr w sa data Hw HSA Hd true s ix _ _ p (or_intror Hix) Hb Hp). }
  split; [exact HE|]. intros p Hp Hlp. rewrite (HE p Hlp).
  exact (answers_exact w sa _ _ _ (st_sri_vm w sa data Hw HSA Hd s ix p Hix Hp)).
Qed.
Print Assumptions C92_srindex_vm.
Theorem C92_srindex_va : forall w sa data s ix,
  zero_free w -> is_suffix_array (terminated w) sa -> data = w \/ data = terminated w ->
  2 * S (length w) + s + 3 <= 2 ^ 64 ->
  construct_sri_valid s data sa = Some ix ->
  (forall p, length p < 2 ^ 64 -> w_srindex_va_locate ix p = srindex_va_locate ix p) /\
  (forall p, pattern_over w p -> length p < 2 ^ 64 -> exists l, w_srindex_va_locate ix p = Some l /\ exact_answer p w l).
Proof.
  intros w sa data s ix Hw HSA Hd Hb Hix.
  assert (HE : forall p, length p < 2 ^ 64 -> w_srindex_va_locate ix p = srindex_va_locate ix p).
  { intros p Hp. rewrite <- word_eq in Hb, Hp. exact (st_w_sr w sa data Hw HSA Hd true s ix _ _ p (or_intror Hix) Hb Hp). }
  split; [exact HE|]. intros p Hp Hlp. rewrite (HE p Hlp).
  exact (answers_exact w sa _ _ _ (st_sri_va w sa data Hw HSA Hd s ix p Hix Hp)).
Qed.
Print Assumptions C92_srindex_va.

(** ** The indexes over Psi *)
(** The sampled values of a level are (sample + 1 + n - level + 1) % n: the rate is at most the length of the text. *)
Theorem C92_rcsa_bwt : forall w sa data h ix,
  zero_free w -> is_suffix_array (terminated w) sa -> data = w \/ data = terminated w ->
  0 < h -> 2 * S (length w) + 3 <= 2 ^ 64 ->
  construct_rcsa_bwt (2 * h) data sa = Some ix ->
  (forall p, length p < 2 ^ 64 -> w_rcsa_bwt_locate ix p = rcsa_bwt_locate ix p) /\
  (forall p, pattern_over w p -> length p < 2 ^ 64 -> exists l, w_rcsa_bwt_locate ix p = Some l /\ exact_answer p w l).
Proof.
  intros w sa data h ix Hw HSA Hd Hh Hb Hix. pose proof (half_small _ _ Hb) as Hn.
  assert (HE : forall p, length p < 2 ^ 64 -> w_rcsa_bwt_locate ix p = rcsa_bwt_locate ix p).
  { intros p Hp. rewrite <- word_eq in Hb, Hp. exact (st_w_bwt w sa data Hw HSA Hd h Hh ix p Hix Hb Hp). }
  split; [exact HE|]. intros p Hp Hlp. rewrite (HE p Hlp).
  exact (C06_rcsa_bwt_locate w sa data h ix p Hw HSA Hd Hh Hn Hix Hp).
Qed.
Print Assumptions C92_rcsa_bwt.
Theorem C92_rcsa_psi : forall w sa data h ix,
  zero_free w -> is_suffix_array (terminated w) sa -> data = w \/ data = terminated w ->
  0 < h -> 2 * S (length w) + 3 <= 2 ^ 64 ->
  construct_rcsa_psi (2 * h) data sa = Some ix ->
  (forall p, length p < 2 ^ 64 -> w_rcsa_psi_locate ix p = rcsa_psi_locate ix p) /\
  (forall p, pattern_over w p -> length p < 2 ^ 64 -> exists l, w_rcsa_psi_locate ix p = Some l /\ exact_answer p w l).
Proof.
  intros w sa data h ix Hw HSA Hd Hh Hb Hix. pose proof (half_small _ _ Hb) as Hn.
  assert (HE : forall p, length p < 2 ^ 64 -> w_rcsa_psi_locate ix p = rcsa_psi_locate ix p).
  { intros p Hp. rewrite <- word_eq in Hb, Hp. exact (st_w_psi w sa data Hw HSA Hd h Hh ix p Hix Hb Hp). }
  split; [exact HE|]. intros p Hp Hlp. rewrite (HE p Hlp).
  exact (C07_rcsa_psi_locate w sa data h ix p Hw HSA Hd Hh Hn Hix Hp).
Qed.
Print Assumptions C92_rcsa_psi.
Theorem C92_srcsa : forall w sa data h s ix,
  zero_free w -> is_suffix_array (terminated w) sa -> data = w \/ data = terminated w ->
  0 < h -> 2 * S (length w) + s + 3 <= 2 ^ 64 -> s <= length w + 2 ->
  construct_srcsa s (2 * h) data sa = Some ix ->
  (forall p, length p < 2 ^ 64 -> w_srcsa_locate ix p = srcsa_locate ix p) /\
  (forall p, pattern_over w p -> length p < 2 ^ 64 -> exists l, w_srcsa_locate ix p = Some l /\ exact_answer p w l).
Proof.
  intros w sa data h s ix Hw HSA Hd Hh Hb Hs Hix. pose proof (half_rate _ _ _ Hb) as Hn.
  assert (HE : forall p, length p < 2 ^ 64 -> w_srcsa_locate ix p = srcsa_locate ix p).
  { intros p Hp. rewrite <- word_eq in Hb, Hp. exact (st_w_fwd w sa data Hw HSA Hd h Hh s FRows false false 0 ix p Hix Hb Hs Hp). }
  split; [exact HE|]. intros p Hp Hlp. rewrite (HE p Hlp).
  exact (fwd_exact w sa _ _ _ (st_answers w sa data Hw HSA Hd h Hh Hn s FRows false false phi_plain ix p Hix Hp (or_introl eq_refl))).
Qed.
Print Assumptions C92_srcsa.
Theorem C92_srcsa_vm : forall w sa data h s ix,
  zero_free w -> is_suffix_array (terminated w) sa -> data = w \/ data = terminated w ->
  0 < h -> 2 * S (length w) + s + 3 <= 2 ^ 64 -> s <= length w + 2 ->
  construct_srcsa_valid s (2 * h) data sa = Some ix ->
  (forall p, length p < 2 ^ 64 -> w_srcsa_vm_locate ix p = srcsa_vm_locate ix p) /\
  (forall p, pattern_over w p -> length p < 2 ^ 64 -> exists l, w_srcsa_vm_locate ix p = Some l /\ exact_answer p w l).
Proof.
  intros w sa data h s ix Hw HSA Hd Hh Hb Hs Hix. pose proof (half_rate _ _ _ Hb) as Hn.
  assert (HE : forall p, length p < 2 ^ 64 -> w_srcsa_vm_locate ix p = srcsa_vm_locate ix p).
  { intros p Hp. rewrite <- word_eq in Hb, Hp. exact (st_w_fwd w sa data Hw HSA Hd h Hh s FRows true true 1 ix p Hix Hb Hs Hp). }
  split; [exact HE|]. intros p Hp Hlp. rewrite (HE p Hlp).
  exact (fwd_exact w sa _ _ _ (st_answers w sa data Hw HSA Hd h Hh Hn s FRows true true phi_valid_mark ix p Hix Hp (or_intror (conj eq_refl (or_introl eq_refl))))).
Qed.
Print Assumptions C92_srcsa_vm.
Theorem C92_srcsa_va : forall w sa data h s ix,
  zero_free w -> is_suffix_array (terminated w) sa -> data = w \/ data = terminated w ->
  0 < h -> 2 * S (length w) + s + 3 <= 2 ^ 64 -> s <= length w + 2 ->
  construct_srcsa_valid s (2 * h) data sa = Some ix ->
  (forall p, length p < 2 ^ 64 -> w_srcsa_va_locate ix p = srcsa_va_locate ix p) /\
  (forall p, pattern_over w p -> length p < 2 ^ 64 -> exists l, w_srcsa_va_locate ix p = Some l /\ exact_answer p w l).
Proof.
  intros w sa data h s ix Hw HSA Hd Hh Hb Hs Hix. pose proof (half_rate _ _ _ Hb) as Hn.
  assert (HE : forall p, length p < 2 ^ 64 -> w_srcsa_va_locate ix p = srcsa_va_locate ix p).
  { intros p Hp. rewrite <- word_eq in Hb, Hp. exact (st_w_fwd w sa data Hw HSA Hd h Hh s FRows true true 2 ix p Hix Hb Hs Hp). }
  split; [exact HE|]. intros p Hp Hlp. rewrite (HE p Hlp).
  exact (fwd_exact w sa _ _ _ (st_answers w sa data Hw HSA Hd h Hh Hn s FRows true true phi_valid_area ix p Hix Hp (or_intror (conj eq_refl (or_intror eq_refl))))).
Qed.
Print Assumptions C92_srcsa_va.
Theorem C92_slim : forall w sa data h s ix,
  zero_free w -> is_suffix_array (terminated w) sa -> data = w \/ data = terminated w ->
  0 < h -> 2 * S (length w) + s + 3 <= 2 ^ 64 -> s <= length w + 2 ->
  construct_srcsa_slim s (2 * h) data sa = Some ix ->
  (forall p, length p < 2 ^ 64 -> w_slim_locate ix p = slim_locate ix p) /\
  (forall p, pattern_over w p -> length p < 2 ^ 64 -> exists l, w_slim_locate ix p = Some l /\ exact_answer p w l).
Proof.
  intros w sa data h s ix Hw HSA Hd Hh Hb Hs Hix. pose proof (half_rate _ _ _ Hb) as Hn.
  assert (HE : forall p, length p < 2 ^ 64 -> w_slim_locate ix p = slim_locate ix p).
  { intros p Hp. rewrite <- word_eq in Hb, Hp. exact (st_w_fwd w sa data Hw HSA Hd h Hh s FRuns false false 0 ix p Hix Hb Hs Hp). }
  split; [exact HE|]. intros p Hp Hlp. rewrite (HE p Hlp).
  exact (fwd_exact w sa _ _ _ (st_answers w sa data Hw HSA Hd h Hh Hn s FRuns false false phi_plain ix p Hix Hp (or_introl eq_refl))).
Qed.
Print Assumptions C92_slim.
Theorem C92_slim_vm : forall w sa data h s ix,
  zero_free w -> is_suffix_array (terminated w) sa -> data = w \/ data = terminated w ->
  0 < h -> 2 * S (length w) + s + 3 <= 2 ^ 64 -> s <= length w + 2 ->
  construct_srcsa_slim_valid s (2 * h) data sa = Some ix ->
  (forall p, length p < 2 ^ 64 -> w_slim_vm_locate ix p = slim_vm_locate ix p) /\
  (forall p, pattern_over w p -> length p < 2 ^ 64 -> exists l, w_slim_vm_locate ix p = Some l /\ exact_answer p w l).
Proof.
  intros w sa data h s ix Hw HSA Hd Hh Hb Hs Hix. pose proof (half_rate _ _ _ Hb) as Hn.
  assert (HE : forall p, length p < 2 ^ 64 -> w_slim_vm_locate ix p = slim_vm_locate ix p).
  { intros p Hp. rewrite <- word_eq in Hb, Hp. exact (st_w_fwd w sa data Hw HSA Hd h Hh s FRuns true true 1 ix p Hix Hb Hs Hp). }
  split; [exact HE|]. intros p Hp Hlp. rewrite (HE p Hlp).
  exact (fwd_exact w sa _ _ _ (st_answers w sa data Hw HSA Hd h Hh Hn s FRuns true true phi_valid_mark ix p Hix Hp (or_intror (conj eq_refl (or_introl eq_refl))))).
Qed.
Print Assumptions C92_slim_vm.
Theorem C92_slim_va : forall w sa data h s ix,
  zero_free w -> is_suffix_array (terminated w) sa -> data = w \/ data = terminated w ->
  0 < h -> 2 * S (length w) + s + 3 <= 2 ^ 64 -> s <= length w + 2 ->
  construct_srcsa_slim_valid s (2 * h) data sa = Some ix ->
  (forall p, length p < 2 ^ 64 -> w_slim_va_locate ix p = slim_va_locate ix p) /\
  (forall p, pattern_over w p -> length p < 2 ^ 64 -> exists l, w_slim_va_locate ix p = Some l /\ exact_answer p w l).
Proof.
  intros w sa data h s ix Hw HSA Hd Hh Hb Hs Hix. pose proof (half_rate _ _ _ Hb) as Hn.
  assert (HE : forall p, length p < 2 ^ 64 -> w_slim_va_locate ix p = slim_va_locate ix p).
  { intros p Hp. rewrite <- word_eq in Hb, Hp. exact (st_w_fwd w sa data Hw HSA Hd h Hh s FRuns true true 2 ix p Hix Hb Hs Hp). }
  split; [exact HE|]. intros p Hp Hlp. rewrite (HE p Hlp).
  exact (fwd_exact w sa _ _ _ (st_answers w sa data Hw HSA Hd h Hh Hn s FRuns true true phi_valid_area ix p Hix Hp (or_intror (conj eq_refl (or_intror eq_refl))))).
Qed.
Print Assumptions C92_slim_va.
Theorem C92_srcsa_psi : forall w sa data h s ix,
  zero_free w -> is_suffix_array (terminated w) sa -> data = w \/ data = terminated w ->
  0 < h -> 2 * S (length w) + s + 3 <= 2 ^ 64 -> s <= length w + 2 ->
  construct_srcsa_psi s (2 * h) data sa = Some ix ->
  (forall p, length p < 2 ^ 64 -> w_slim_locate ix p = slim_locate ix p) /\
  (forall p, pattern_over w p -> length p < 2 ^ 64 -> exists l, w_slim_locate ix p = Some l /\ exact_answer p w l).
Proof.
  intros w sa data h s ix Hw HSA Hd Hh Hb Hs Hix. pose proof (half_rate _ _ _ Hb) as Hn.
  assert (HE : forall p, length p < 2 ^ 64 -> w_slim_locate ix p = slim_locate ix p).
  { intros p Hp. rewrite <- word_eq in Hb, Hp. exact (st_w_fwd w sa data Hw HSA Hd h Hh s FPsi false false 0 ix p Hix Hb Hs Hp). }
  split; [exact HE|]. intros p Hp Hlp. rewrite (HE p Hlp).
  exact (fwd_exact w sa _ _ _ (st_answers w sa data Hw HSA Hd h Hh Hn s FPsi false false phi_plain ix p Hix Hp (or_introl eq_refl))).
Qed.
Print Assumptions C92_srcsa_psi.
Theorem C92_srcsa_psi_vm : forall w sa data h s ix,
  zero_free w -> is_suffix_array (terminated w) sa -> data = w \/ data = terminated w ->
  0 < h -> 2 * S (length w) + s + 3 <= 2 ^ 64 -> s <= length w + 2 ->
  construct_srcsa_psi_valid s (2 * h) data sa = Some ix ->
  (forall p, length p < 2 ^ 64 -> w_slim_vm_locate ix p = slim_vm_locate ix p) /\
  (forall p, pattern_over w p -> length p < 2 ^ 64 -> exists l, w_slim_vm_locate ix p = Some l /\ exact_answer p w l).
Proof.
  intros w sa data h s ix Hw HSA Hd Hh Hb Hs Hix. pose proof (half_rate _ _ _ Hb) as Hn.
  assert (HE : forall p, length p < 2 ^ 64 -> w_slim_vm_locate ix p = slim_vm_locate ix p).
  { intros p Hp. rewrite <- word_eq in Hb, Hp. exact (st_w_fwd w sa data Hw HSA Hd h Hh s FPsi true true 1 ix p Hix Hb Hs Hp). }
  split; [exact HE|]. intros p Hp Hlp. rewrite (HE p Hlp).
  exact (fwd_exact w sa _ _ _ (st_answers w sa data Hw HSA Hd h Hh Hn s FPsi true true phi_valid_mark ix p Hix Hp (or_intror (conj eq_refl (or_introl eq_refl))))).
Qed.
Print Assumptions C92_srcsa_psi_vm.
Theorem C92_srcsa_psi_va : forall w sa data h s ix,
  zero_free w -> is_suffix_array (terminated w) sa -> data = w \/ data = terminated w ->
  0 < h -> 2 * S (length w) + s + 3 <= 2 ^ 64 -> s <= length w + 2 ->
  construct_srcsa_psi_valid s (2 * h) data sa = Some ix ->
  (forall p, length p < 2 ^ 64 -> w_slim_va_locate ix p = slim_va_locate ix p) /\
  (forall p, pattern_over w p -> length p < 2 ^ 64 -> exists l, w_slim_va_locate ix p = Some l /\ exact_answer p w l).
Proof.
  intros w sa data h s ix Hw HSA Hd Hh Hb Hs Hix. pose proof (half_rate _ _ _ Hb) as Hn.
  assert (HE : forall p, length p < 2 ^ 64 -> w_slim_va_locate ix p = slim_va_locate ix p).
  { intros p Hp. rewrite <- word_eq in Hb, Hp. exact (st_w_fwd w sa data Hw HSA Hd h Hh s FPsi true true 2 ix p Hix Hb Hs Hp). }
  split; [exact HE|]. intros p Hp Hlp. rewrite (HE p Hlp).
  exact (fwd_exact w sa _ _ _ (st_answers w sa data Hw HSA Hd h Hh Hn s FPsi true true phi_valid_area ix p Hix Hp (or_intror (conj eq_refl (or_intror eq_refl))))).
Qed.
Print Assumptions C92_srcsa_psi_va.

(** ** Longer texts *)
(** A text of 2^63 + 1 symbols with a mark at 0 whose sample is 2^63: after the value 2^63 the sum of the sample and
    the distance is 2^64, and PhiBackward gives 0 in place of 2^63 - 1. *)
Theorem C92_long_text : exists n prev sample, n < 2 ^ 64 /\ prev < n /\ sample < n /\ n = 2 ^ 63 + 1 /\
  phi_backward (fun _ => Some (0, 0)) (fun _ _ => Some (sample, true)) n prev = Some (2 ^ 63 - 1, true) /\
  w_phi_backward (fun _ => Some (0, 0)) (fun _ _ => Some (sample, true)) n prev = Some (0, true).
Proof. exact long_text. Qed.
Print Assumptions C92_long_text.

(** ** Cases *)
Example C92_case_rindex : exists ix, construct_rindex exs_w exs_sa = Some ix /\ 2 * S (length exs_w) + 3 <= 2 ^ 64 /\
  w_rindex_locate ix [97] = Some [5; 3; 0; 7; 10].
Proof.
  assert (Hb : 2 * S (length exs_w) + 3 <= 2 ^ 64) by (apply small_ok; vm_compute; lia).
  destruct (construct_rindex exs_w exs_sa) as [ix|] eqn:E; [|vm_compute in E; discriminate].
  exists ix. split; [reflexivity|]. split; [exact Hb|].
  rewrite (proj1 (C92_rindex exs_w exs_sa exs_w ix (proj1 exs_hyps) (proj1 (proj2 exs_hyps)) (or_introl eq_refl) Hb E) [97]
             (small_lt (length [97]) ltac:(cbn; lia))).
  vm_compute in E. injection E as <-. vm_compute. reflexivity.
Qed.
Example C92_case_slim_va : exists ix, construct_srcsa_slim_valid 3 (2 * 2) exs_w exs_sa = Some ix /\
  2 * S (length exs_w) + 3 + 3 <= 2 ^ 64 /\ w_slim_va_locate ix [97] = Some [10; 7; 0; 3; 5].
Proof.
  assert (Hb : 2 * S (length exs_w) + 3 + 3 <= 2 ^ 64) by (apply small_ok; vm_compute; lia).
  destruct (construct_srcsa_slim_valid 3 (2 * 2) exs_w exs_sa) as [ix|] eqn:E; [|vm_compute in E; discriminate].
  exists ix. split; [reflexivity|]. split; [exact Hb|].
  rewrite (proj1 (C92_slim_va exs_w exs_sa exs_w 2 3 ix (proj1 exs_hyps) (proj1 (proj2 exs_hyps)) (or_introl eq_refl)
             ltac:(lia) Hb ltac:(cbn; lia) E) [97] (small_lt (length [97]) ltac:(cbn; lia))).
  vm_compute in E. injection E as <-. vm_compute. reflexivity.
Qed.
