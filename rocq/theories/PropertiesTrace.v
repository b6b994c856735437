(** C91: the calls that a Locate makes, against the length of the pattern, the subsampling rate and the number of
    reported positions.  [t] lists the calls of one Locate in order.  Hypotheses as in PropertiesSrIndex.v and
    PropertiesSrCsa.v. *)
From Coq Require Import List Arith Bool.
From Verif Require Import Spec MBase MConstruct MPhi MRIndex MSrIndex MPsi MCsa MSrCsa Util Glue SrGlue CsaGlue SrCsaGlue
  PropertiesRIndex PropertiesCsa PropertiesSrIndex PropertiesSrCsa MTrace SpecTrace TraceProof TraceGlue.
Import ListNotations.

(** The recorded functions are those of the model: the values in the calls are the answer of Locate, for every index
    (of whatever contents) and every pattern; a call sequence is missing when Locate has no result. *)
Theorem C91_same_srindex : forall (ix : sri) p,
  srindex_locate ix p = option_map reports (srindex_calls ix p) /\
  srindex_vm_locate ix p = option_map reports (srindex_vm_calls ix p) /\
  srindex_va_locate ix p = option_map reports (srindex_va_calls ix p).
Proof. intros ix p. repeat split; symmetry; apply sr_calls_er. Qed.
Print Assumptions C91_same_srindex.
Theorem C91_same_srcsa : forall (ix : srcsa) p,
  srcsa_locate ix p = option_map reports (srcsa_calls ix p) /\
  srcsa_vm_locate ix p = option_map reports (srcsa_vm_calls ix p) /\
  srcsa_va_locate ix p = option_map reports (srcsa_va_calls ix p) /\
  slim_locate ix p = option_map reports (slim_calls ix p) /\
  slim_vm_locate ix p = option_map reports (slim_vm_calls ix p) /\
  slim_va_locate ix p = option_map reports (slim_va_calls ix p).
Proof. intros ix p. repeat split; symmetry; first [apply srcsa_calls_er|apply slim_calls_er]. Qed.
Print Assumptions C91_same_srcsa.
Theorem C91_same_full : forall (ix : rindex) (jx : csa) p,
  rindex_locate ix p = option_map reports (rindex_calls ix p) /\
  rcsa_bwt_locate jx p = option_map reports (rcsa_bwt_calls jx p) /\
  rcsa_psi_locate jx p = option_map reports (rcsa_psi_calls jx p).
Proof. intros ix jx p. split; [symmetry; apply rindex_calls_er|]. split; symmetry; apply csa_calls_er. Qed.
Print Assumptions C91_same_full.

(** ** The subsampled indexes over LF *)
Theorem C91_srindex : forall w sa data s ix p,
  zero_free w -> is_suffix_array (terminated w) sa -> data = w \/ data = terminated w ->
  construct_sri s data sa = Some ix -> pattern_over w p ->
  exists t, srindex_calls ix p = Some t /\ exact_answer p w (reports t) /\ cheap s (length p) t.
Proof.
  intros w sa data s ix p Hw HSA Hd Hix Hp.
  destruct (st_sr_calls w sa data Hw HSA Hd s false _ (srindex_locate ix) ix p (or_introl Hix)
    (st_sri w sa data Hw HSA Hd s ix p Hix Hp) (sr_calls_er false ix _ p)) as (t & H1 & _ & H2 & H3).
  exists t. auto.
Qed.
Print Assumptions C91_srindex.
Theorem C91_srindex_vm : forall w sa data s ix p,
  zero_free w -> is_suffix_array (terminated w) sa -> data = w \/ data = terminated w ->
  construct_sri_valid s data sa = Some ix -> pattern_over w p ->
  exists t, srindex_vm_calls ix p = Some t /\ exact_answer p w (reports t) /\ cheap s (length p) t.
Proof.
  intros w sa data s ix p Hw HSA Hd Hix Hp.
  destruct (st_sr_calls w sa data Hw HSA Hd s true _ (srindex_vm_locate ix) ix p (or_intror Hix)
    (st_sri_vm w sa data Hw HSA Hd s ix p Hix Hp) (sr_calls_er true ix _ p)) as (t & H1 & _ & H2 & H3).
  exists t. auto.
Qed.
Print Assumptions C91_srindex_vm.
Theorem C91_srindex_va : forall w sa data s ix p,
  zero_free w -> is_suffix_array (terminated w) sa -> data = w \/ data = terminated w ->
  construct_sri_valid s data sa = Some ix -> pattern_over w p ->
  exists t, srindex_va_calls ix p = Some t /\ exact_answer p w (reports t) /\ cheap s (length p) t.
Proof.
  intros w sa data s ix p Hw HSA Hd Hix Hp.
  destruct (st_sr_calls w sa data Hw HSA Hd s true _ (srindex_va_locate ix) ix p (or_intror Hix)
    (st_sri_va w sa data Hw HSA Hd s ix p Hix Hp) (sr_calls_er true ix _ p)) as (t & H1 & _ & H2 & H3).
  exists t. auto.
Qed.
Print Assumptions C91_srindex_va.

(** ** The subsampled indexes over Psi *)
Theorem C91_srcsa : forall w sa data h s ix p,
  zero_free w -> is_suffix_array (terminated w) sa -> data = w \/ data = terminated w ->
  0 < h -> S (length w) < 2 ^ 64 ->
  construct_srcsa s (2 * h) data sa = Some ix -> pattern_over w p ->
  exists t, srcsa_calls ix p = Some t /\ exact_answer p w (reports t) /\ cheap s (length p) t.
Proof.
  intros w sa data h s ix p Hw HSA Hd Hh Hn Hix Hp.
  destruct (st_fwd_calls w sa data Hw HSA Hd h Hh Hn s FRows false false phi_plain ix p Hix Hp (or_introl eq_refl)) as (t & H1 & _ & H2 & H3).
  exists t. auto.
Qed.
Print Assumptions C91_srcsa.
Theorem C91_srcsa_vm : forall w sa data h s ix p,
  zero_free w -> is_suffix_array (terminated w) sa -> data = w \/ data = terminated w ->
  0 < h -> S (length w) < 2 ^ 64 ->
  construct_srcsa_valid s (2 * h) data sa = Some ix -> pattern_over w p ->
  exists t, srcsa_vm_calls ix p = Some t /\ exact_answer p w (reports t) /\ cheap s (length p) t.
Proof.
  intros w sa data h s ix p Hw HSA Hd Hh Hn Hix Hp.
  destruct (st_fwd_calls w sa data Hw HSA Hd h Hh Hn s FRows true true phi_valid_mark ix p Hix Hp (or_intror (conj eq_refl (or_introl eq_refl)))) as (t & H1 & _ & H2 & H3).
  exists t. auto.
Qed.
Print Assumptions C91_srcsa_vm.
Theorem C91_srcsa_va : forall w sa data h s ix p,
  zero_free w -> is_suffix_array (terminated w) sa -> data = w \/ data = terminated w ->
  0 < h -> S (length w) < 2 ^ 64 ->
  construct_srcsa_valid s (2 * h) data sa = Some ix -> pattern_over w p ->
  exists t, srcsa_va_calls ix p = Some t /\ exact_answer p w (reports t) /\ cheap s (length p) t.
Proof.
  intros w sa data h s ix p Hw HSA Hd Hh Hn Hix Hp.
  destruct (st_fwd_calls w sa data Hw HSA Hd h Hh Hn s FRows true true phi_valid_area ix p Hix Hp (or_intror (conj eq_refl (or_intror eq_refl)))) as (t & H1 & _ & H2 & H3).
  exists t. auto.
Qed.
Print Assumptions C91_srcsa_va.
Theorem C91_slim : forall w sa data h s ix p,
  zero_free w -> is_suffix_array (terminated w) sa -> data = w \/ data = terminated w ->
  0 < h -> S (length w) < 2 ^ 64 ->
  construct_srcsa_slim s (2 * h) data sa = Some ix -> pattern_over w p ->
  exists t, slim_calls ix p = Some t /\ exact_answer p w (reports t) /\ cheap s (length p) t.
Proof.
  intros w sa data h s ix p Hw HSA Hd Hh Hn Hix Hp.
  destruct (st_fwd_calls w sa data Hw HSA Hd h Hh Hn s FRuns false false phi_plain ix p Hix Hp (or_introl eq_refl)) as (t & H1 & _ & H2 & H3).
  exists t. auto.
Qed.
Print Assumptions C91_slim.
Theorem C91_slim_vm : forall w sa data h s ix p,
  zero_free w -> is_suffix_array (terminated w) sa -> data = w \/ data = terminated w ->
  0 < h -> S (length w) < 2 ^ 64 ->
  construct_srcsa_slim_valid s (2 * h) data sa = Some ix -> pattern_over w p ->
  exists t, slim_vm_calls ix p = Some t /\ exact_answer p w (reports t) /\ cheap s (length p) t.
Proof.
  intros w sa data h s ix p Hw HSA Hd Hh Hn Hix Hp.
  destruct (st_fwd_calls w sa data Hw HSA Hd h Hh Hn s FRuns true true phi_valid_mark ix p Hix Hp (or_intror (conj eq_refl (or_introl eq_refl)))) as (t & H1 & _ & H2 & H3).
  exists t. auto.
Qed.
Print Assumptions C91_slim_vm.
Theorem C91_slim_va : forall w sa data h s ix p,
  zero_free w -> is_suffix_array (terminated w) sa -> data = w \/ data = terminated w ->
  0 < h -> S (length w) < 2 ^ 64 ->
  construct_srcsa_slim_valid s (2 * h) data sa = Some ix -> pattern_over w p ->
  exists t, slim_va_calls ix p = Some t /\ exact_answer p w (reports t) /\ cheap s (length p) t.
Proof.
  intros w sa data h s ix p Hw HSA Hd Hh Hn Hix Hp.
  destruct (st_fwd_calls w sa data Hw HSA Hd h Hh Hn s FRuns true true phi_valid_area ix p Hix Hp (or_intror (conj eq_refl (or_intror eq_refl)))) as (t & H1 & _ & H2 & H3).
  exists t. auto.
Qed.
Print Assumptions C91_slim_va.
Theorem C91_psi : forall w sa data h s ix p,
  zero_free w -> is_suffix_array (terminated w) sa -> data = w \/ data = terminated w ->
  0 < h -> S (length w) < 2 ^ 64 ->
  construct_srcsa_psi s (2 * h) data sa = Some ix -> pattern_over w p ->
  exists t, slim_calls ix p = Some t /\ exact_answer p w (reports t) /\ cheap s (length p) t.
Proof.
  intros w sa data h s ix p Hw HSA Hd Hh Hn Hix Hp.
  destruct (st_fwd_calls w sa data Hw HSA Hd h Hh Hn s FPsi false false phi_plain ix p Hix Hp (or_introl eq_refl)) as (t & H1 & _ & H2 & H3).
  exists t. auto.
Qed.
Print Assumptions C91_psi.
Theorem C91_psi_vm : forall w sa data h s ix p,
  zero_free w -> is_suffix_array (terminated w) sa -> data = w \/ data = terminated w ->
  0 < h -> S (length w) < 2 ^ 64 ->
  construct_srcsa_psi_valid s (2 * h) data sa = Some ix -> pattern_over w p ->
  exists t, slim_vm_calls ix p = Some t /\ exact_answer p w (reports t) /\ cheap s (length p) t.
Proof.
  intros w sa data h s ix p Hw HSA Hd Hh Hn Hix Hp.
  destruct (st_fwd_calls w sa data Hw HSA Hd h Hh Hn s FPsi true true phi_valid_mark ix p Hix Hp (or_intror (conj eq_refl (or_introl eq_refl)))) as (t & H1 & _ & H2 & H3).
  exists t. auto.
Qed.
Print Assumptions C91_psi_vm.
Theorem C91_psi_va : forall w sa data h s ix p,
  zero_free w -> is_suffix_array (terminated w) sa -> data = w \/ data = terminated w ->
  0 < h -> S (length w) < 2 ^ 64 ->
  construct_srcsa_psi_valid s (2 * h) data sa = Some ix -> pattern_over w p ->
  exists t, slim_va_calls ix p = Some t /\ exact_answer p w (reports t) /\ cheap s (length p) t.
Proof.
  intros w sa data h s ix p Hw HSA Hd Hh Hn Hix Hp.
  destruct (st_fwd_calls w sa data Hw HSA Hd h Hh Hn s FPsi true true phi_valid_area ix p Hix Hp (or_intror (conj eq_refl (or_intror eq_refl)))) as (t & H1 & _ & H2 & H3).
  exists t. auto.
Qed.
Print Assumptions C91_psi_va.

(** ** The indexes that keep every sample: one look-up, then one phi per further report *)
Theorem C91_rindex : forall w sa data ix p,
  zero_free w -> is_suffix_array (terminated w) sa -> data = w \/ data = terminated w ->
  construct_rindex data sa = Some ix -> pattern_over w p ->
  exists t, rindex_calls ix p = Some t /\ exact_answer p w (reports t) /\ direct (length p) t.
Proof.
  intros w sa data ix p Hw HSA Hd Hix Hp. destruct (C02_rindex_locate w sa data ix p Hw HSA Hd Hix Hp) as (l & El & Hl).
  rewrite <- rindex_calls_er in El. destruct (rindex_calls ix p) as [t|] eqn:E; [|discriminate].
  cbn [erl option_map] in El. injection El as <-. exists t. split; auto. split; auto. eapply rindex_calls_direct; eauto.
Qed.
Print Assumptions C91_rindex.
Theorem C91_rcsa_bwt : forall w sa data h ix p,
  zero_free w -> is_suffix_array (terminated w) sa -> data = w \/ data = terminated w ->
  0 < h -> S (length w) < 2 ^ 64 ->
  construct_rcsa_bwt (2 * h) data sa = Some ix -> pattern_over w p ->
  exists t, rcsa_bwt_calls ix p = Some t /\ exact_answer p w (reports t) /\ direct (length p) t.
Proof.
  intros w sa data h ix p Hw HSA Hd Hh Hn Hix Hp.
  destruct (C06_rcsa_bwt_locate w sa data h ix p Hw HSA Hd Hh Hn Hix Hp) as (l & El & Hl).
  unfold rcsa_bwt_locate in El. rewrite <- csa_calls_er in El. fold (rcsa_bwt_calls ix p) in El.
  destruct (rcsa_bwt_calls ix p) as [t|] eqn:E; [|discriminate].
  cbn [erl option_map] in El. injection El as <-. exists t. split; auto. split; auto. eapply csa_calls_direct; eauto.
Qed.
Print Assumptions C91_rcsa_bwt.
Theorem C91_rcsa_psi : forall w sa data h ix p,
  zero_free w -> is_suffix_array (terminated w) sa -> data = w \/ data = terminated w ->
  0 < h -> S (length w) < 2 ^ 64 ->
  construct_rcsa_psi (2 * h) data sa = Some ix -> pattern_over w p ->
  exists t, rcsa_psi_calls ix p = Some t /\ exact_answer p w (reports t) /\ direct (length p) t.
Proof.
  intros w sa data h ix p Hw HSA Hd Hh Hn Hix Hp.
  destruct (C07_rcsa_psi_locate w sa data h ix p Hw HSA Hd Hh Hn Hix Hp) as (l & El & Hl).
  unfold rcsa_psi_locate in El. rewrite <- csa_calls_er in El. fold (rcsa_psi_calls ix p) in El.
  destruct (rcsa_psi_calls ix p) as [t|] eqn:E; [|discriminate].
  cbn [erl option_map] in El. injection El as <-. exists t. split; auto. split; auto. eapply csa_calls_direct; eauto.
Qed.
Print Assumptions C91_rcsa_psi.

(** Concrete cases: "abracadabra"; every kind of call occurs, and a larger rate gives more moves. *)
Example C91_calls_srindex : exists ix jx, construct_sri 3 exs_w exs_sa = Some ix /\ construct_sri 1000 exs_w exs_sa = Some jx /\
  srindex_calls ix [97] = Some [Step; Sample; Move; Sample; Report 5; Split 4; Sample; Move; Split 1; Sample; Report 3;
    Sample; Report 0; Sample; Report 7; Sample; Report 10] /\
  option_map moves (srindex_calls ix [97]) = Some 2 /\ option_map moves (srindex_calls jx [97]) = Some 8.
Proof. do 2 eexists. split; [vm_compute; reflexivity|]. split; [vm_compute; reflexivity|]. repeat split; vm_compute; reflexivity. Qed.
Example C91_calls_srindex_vm : exists ix, construct_sri_valid 3 exs_w exs_sa = Some ix /\
  srindex_vm_calls ix [97] = Some [Step; Sample; Move; Sample; Report 5; Phi; Split 4; Sample; Move; Split 1; Sample;
    Report 3; Phi; Sample; Report 0; Phi; Report 7; Phi; Report 10; Phi].
Proof. eexists. split; [vm_compute; reflexivity|]. vm_compute; reflexivity. Qed.
Example C91_calls_slim_va : exists ix, construct_srcsa_slim_valid 3 4 exs_w exs_sa = Some ix /\
  slim_va_calls ix [97] = Some [Step; Sample; Move; Sample; Report 10; Phi; Split 4; Report 7; Phi; Report 0; Phi;
    Report 3; Phi; Sample; Report 5; Phi].
Proof. eexists. split; [vm_compute; reflexivity|]. vm_compute; reflexivity. Qed.
Example C91_calls_srcsa : exists ix, construct_srcsa 3 4 exs_w exs_sa = Some ix /\
  option_map reports (srcsa_calls ix [97]) = Some [10; 7; 0; 3; 5] /\ option_map moves (srcsa_calls ix [97]) = Some 1.
Proof. eexists. split; [vm_compute; reflexivity|]. split; vm_compute; reflexivity. Qed.
Example C91_calls_rindex : exists ix, construct_rindex exs_w exs_sa = Some ix /\
  rindex_calls ix [97; 98] = Some [Step; Step; Sample; Report 0; Phi; Report 7].
Proof. eexists. split; [vm_compute; reflexivity|]. vm_compute; reflexivity. Qed.
