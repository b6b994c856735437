(** C62: the assemblies on inclusive ranges.  C63: the assembly with all samples.  C64: GetLastValue. *)
From Coq Require Import List Arith Bool Lia.
From Verif Require Import Spec MBase MConstruct MRIndex MClosed Glue ClosedProof ClosedGlue BaseProof.
Import ListNotations.

(** The bytes these assemblies can hold: 0 and 1 stand for the terminator, 255 is past the F table. *)
Definition closed_text (w : list nat) : Prop := Forall (fun c => 1 < c < 255) w.
Definition byte_pattern (p : list nat) : Prop := p <> [] /\ Forall (fun c => c < 256) p.

(** * C62 *)
(** For every text, block size and sampling rate the items are built, and every query with a non-empty pattern of bytes
    is answered: the three Locates list each occurrence once, Count is the inclusive interval of the rows of the
    occurrences, or (1, 0) without occurrences. *)
Theorem C62_exact : forall w sa data b s,
  closed_text w -> is_suffix_array (terminated w) sa -> data = w \/ data = terminated w -> 0 < b ->
  exists x, construct_closed b s data sa = Some x /\
    forall p, byte_pattern p ->
      (exists l, closed_simple_locate x p = Some l /\ exact_answer p w l) /\
      (exists l, closed_marks_locate x p = Some l /\ exact_answer p w l) /\
      (exists l, closed_areas_locate x p = Some l /\ exact_answer p w l) /\
      ((exists st e, st < e /\ row_interval p w sa st e /\ closed_count x p = Some (st, e - 1)) \/
       (closed_count x p = Some (1, 0) /\ forall i, ~ occurs_at p w i)).
Proof.
  intros w sa data b s Hw HSA Hd Hb. destruct (construct_closed_ok w sa data b s Hw HSA Hd Hb) as (x & Ex).
  exists x. split; [exact Ex|]. intros p [Hp HB].
  destruct (closed_answers w sa data b s Hw HSA Hd Hb x p Ex Hp HB) as (H1 & H2 & H3).
  destruct (answers_exact w sa b Hw HSA Hb _ _ p Hp H1) as [A1 A].
  destruct (answers_exact w sa b Hw HSA Hb _ _ p Hp H2) as [A2 _].
  destruct (answers_exact w sa b Hw HSA Hb _ _ p Hp H3) as [A3 _]. auto.
Qed.
Print Assumptions C62_exact.

(** The three assemblies list the positions in the same order: decreasing rows. *)
Theorem C62_order : forall w sa data b s x p st e,
  closed_text w -> is_suffix_array (terminated w) sa -> data = w \/ data = terminated w -> 0 < b ->
  construct_closed b s data sa = Some x -> byte_pattern p -> row_interval p w sa st e ->
  closed_simple_locate x p = Some (rev (rows sa st e)) /\ closed_marks_locate x p = Some (rev (rows sa st e)) /\
  closed_areas_locate x p = Some (rev (rows sa st e)).
Proof.
  intros w sa data b s x p st e Hw HSA Hd Hb Ex [Hp HB] Hr.
  destruct (closed_answers w sa data b s Hw HSA Hd Hb x p Ex Hp HB) as (H1 & H2 & H3).
  assert (G : forall cnt loc, answers w sa cnt loc p -> loc = Some (rev (rows sa st e))).
  { intros cnt loc [(st' & e' & Hlt & Hr' & _ & ->)|(Hn & _ & ->)].
    - rewrite (rows_unique _ _ _ _ _ _ _ Hr Hr'). reflexivity.
    - destruct Hr as [Hr1 Hr2]. destruct (Nat.eq_dec st e) as [->|N].
      + unfold rows. rewrite Nat.sub_diag. reflexivity.
      + destruct (proj1 (Hr2 st) ltac:(lia)) as (a & _ & Ho). destruct (Hn a Ho). }
  split; [exact (G _ _ H1)|]. split; [exact (G _ _ H2)|exact (G _ _ H3)].
Qed.
Print Assumptions C62_order.

(** Without the restriction on the bytes: the byte 255 has no entry, no items are built for any such text. *)
Theorem C62_byte_255_refuted : forall w sa data b s,
  zero_free w -> is_suffix_array (terminated w) sa -> data = w \/ data = terminated w -> In 255 w ->
  construct_closed b s data sa = None.
Proof.
  intros w sa data b s Hw HSA Hd H. destruct (construct_base_ok w sa Hw HSA data Hd) as (ba & R & Eb & F).
  unfold construct_closed. rewrite Eb. cbn [bind]. destruct (MSrIndex.construct_sri_valid s data sa); [|reflexivity]. cbn [bind].
  destruct (MOldRle.old_construct b _); [|reflexivity]. cbn [bind]. rewrite f_table_255; [reflexivity|].
  rewrite (bf_bwt _ _ _ _ F). apply (BW_in w sa Hw HSA). unfold terminated. apply in_or_app. auto.
Qed.
Print Assumptions C62_byte_255_refuted.

(** Text 3 5 3 5 3 4 3 5. *)
Definition ex_cl_w : list nat := [3; 5; 3; 5; 3; 4; 3; 5].
Definition ex_cl_sa : list nat := [8; 4; 6; 2; 0; 5; 7; 3; 1].
Example C62_hyps : closed_text ex_cl_w /\ is_suffix_array (terminated ex_cl_w) ex_cl_sa /\ byte_pattern [3; 5].
Proof.
  split; [repeat constructor|]. split; [apply sa_check_ok; vm_compute; reflexivity|]. split; [discriminate|].
  repeat constructor; lia.
Qed.
Example C62_example : exists x, construct_closed 2 2 ex_cl_w ex_cl_sa = Some x /\
  closed_count x [3; 5] = Some (2, 4) /\ closed_simple_locate x [3; 5] = Some [0; 2; 6] /\
  closed_marks_locate x [3] = Some [0; 2; 6; 4] /\ closed_areas_locate x [5] = Some [1; 3; 7] /\
  closed_count x [5; 5] = Some (1, 0) /\ closed_areas_locate x [7; 5] = Some [].
Proof.
  destruct (construct_closed 2 2 ex_cl_w ex_cl_sa) as [x|] eqn:E; [|vm_compute in E; discriminate].
  exists x. split; [reflexivity|]. vm_compute in E. injection E as <-.
  split; [vm_compute; reflexivity|]. split; [vm_compute; reflexivity|]. split; [vm_compute; reflexivity|].
  split; [vm_compute; reflexivity|]. split; vm_compute; reflexivity.
Qed.
(** Text 3 1 3 1 3 4 3 1: the byte 1 is taken for the terminator as well, 4 rows instead of 3. *)
Definition ex_one_w : list nat := [3; 1; 3; 1; 3; 4; 3; 1].
Definition ex_one_sa : list nat := [8; 7; 1; 3; 6; 0; 2; 4; 5].
Example C62_byte_1_refuted : zero_free ex_one_w /\ is_suffix_array (terminated ex_one_w) ex_one_sa /\
  row_interval [1] ex_one_w ex_one_sa 1 4 /\
  exists x, construct_closed 2 2 ex_one_w ex_one_sa = Some x /\ closed_count x [1] = Some (1, 4).
Proof.
  split; [repeat constructor; lia|]. split; [apply sa_check_ok; vm_compute; reflexivity|]. split.
  - split; [cbn; lia|]. intros i. split.
    + intros Hi. destruct i as [|[|[|[|i]]]]; [lia| | | |lia].
      * exists 7. split; [reflexivity|]. exists [3; 1; 3; 1; 3; 4; 3], []. auto.
      * exists 1. split; [reflexivity|]. exists [3], [3; 1; 3; 4; 3; 1]. auto.
      * exists 3. split; [reflexivity|]. exists [3; 1; 3], [3; 4; 3; 1]. auto.
    + intros (a & Ea & u & v & E & <-).
      assert (Hu : nth_error ex_one_w (length u) = Some 1) by (rewrite E, nth_error_app2, Nat.sub_diag by lia; reflexivity).
      do 9 (destruct i as [|i]; [cbn in Ea; injection Ea as Ea; rewrite <- Ea in Hu; cbn in Hu; first [discriminate|lia]|]).
      destruct i; discriminate.
  - destruct (construct_closed 2 2 ex_one_w ex_one_sa) as [x|] eqn:E; [|vm_compute in E; discriminate].
    exists x. split; [reflexivity|]. vm_compute in E. injection E as <-. vm_compute. reflexivity.
Qed.

(** * C63 *)
(** Locate of the assembly with GetLastValue and ComputeAllValuesWithPhi is not exact. *)
Theorem C63_classic_refuted : exists w sa b x p,
  closed_text w /\ is_suffix_array (terminated w) sa /\ 0 < b /\ construct_cri b w sa = Some x /\ byte_pattern p /\
  exists l, cr_locate x p = Some l /\ ~ exact_answer p w l.
Proof.
  exists ex_cl_w, ex_cl_sa, 2.
  destruct (construct_cri 2 ex_cl_w ex_cl_sa) as [x|] eqn:E; [|vm_compute in E; discriminate].
  exists x, [3]. destruct C62_hyps as (H1 & H2 & _). split; [exact H1|]. split; [exact H2|]. split; [lia|]. split; [reflexivity|].
  split; [split; [discriminate|repeat constructor; lia]|]. vm_compute in E. injection E as <-.
  exists [1; 3; 7; 5]. split; [vm_compute; reflexivity|]. intros [_ H].
  destruct (proj1 (H 1) (or_introl eq_refl)) as (u & v & E & L).
  destruct u as [|a [|a' u]]; cbn in L; discriminate.
Qed.
Print Assumptions C63_classic_refuted.

(** What holds: Count is exact, Locate lists as many positions as there are occurrences, and these are the positions of the
    last rows of the suffix array, whatever the pattern; the last row is reported as n when it holds 0. *)
Theorem C63_classic_partial : forall w sa data b,
  closed_text w -> is_suffix_array (terminated w) sa -> data = w \/ data = terminated w -> 0 < b ->
  exists x, construct_cri b data sa = Some x /\
    forall p, byte_pattern p ->
      (exists st e, st < e /\ row_interval p w sa st e /\ cr_count x p = Some (st, e - 1) /\
         cr_locate x p = Some ((if nth (length sa - 1) sa 0 =? 0 then length sa else nth (length sa - 1) sa 0)
                               :: rev (rows sa (length sa - (e - st)) (length sa - 1)))) \/
      (cr_count x p = Some (1, 0) /\ cr_locate x p = Some [] /\ forall i, ~ occurs_at p w i).
Proof.
  intros w sa data b Hw HSA Hd Hb. destruct (construct_cri_ok w sa data b Hw HSA Hd Hb) as (x & Ex).
  exists x. split; [exact Ex|]. intros p [Hp HB].
  destruct (classic_answers w sa data b Hw HSA Hd Hb x Ex p Hp HB) as [(st & e & H1 & H2 & H3 & H4)|(H1 & H2 & H3)]; [left|right; auto].
  exists st, e. split; [exact H1|]. split; [exact H2|]. split; [exact H3|]. rewrite H4. clear H4.
  assert (L : length sa = FM.len (ctext w sa)) by (rewrite (sa_len (terminated w) sa HSA); symmetry; apply ctext_len).
  rewrite (last_value_init w sa b Hw HSA Hb _ eq_refl). rewrite <- L. reflexivity.
Qed.
Print Assumptions C63_classic_partial.
Example C63_example : exists x, construct_cri 2 ex_cl_w ex_cl_sa = Some x /\
  cr_count x [3; 5] = Some (2, 4) /\ cr_locate x [3; 5] = Some [1; 3; 7] /\ cr_locate x [5] = Some [1; 3; 7].
Proof.
  destruct (construct_cri 2 ex_cl_w ex_cl_sa) as [x|] eqn:E; [|vm_compute in E; discriminate].
  exists x. split; [reflexivity|]. vm_compute in E. injection E as <-.
  split; [vm_compute; reflexivity|]. split; vm_compute; reflexivity.
Qed.

(** * C64 *)
(** Given the position of the last row of the range of [p], GetLastValue returns that of the range of [c p]. *)
Theorem C64_last_value : forall w sa data b x p c st e st' e',
  closed_text w -> is_suffix_array (terminated w) sa -> data = w \/ data = terminated w -> 0 < b ->
  construct_cri b data sa = Some x -> p <> [] ->
  row_interval p w sa st e -> st < e -> row_interval (c :: p) w sa st' e' -> st' < e' ->
  cr_last_value x (st, e - 1) (st', e' - 1) c (nth_error sa (e - 1)) = Some (nth_error sa (e' - 1)).
Proof. intros w sa data b x p c st e st' e' Hw HSA Hd Hb. exact (last_value_rows w sa data b Hw HSA Hd Hb x p c st e st' e'). Qed.
Print Assumptions C64_last_value.

(** The same for the first step, from the initial value of the assembly. *)
Theorem C64_first_value : forall w sa data b x c st e,
  closed_text w -> is_suffix_array (terminated w) sa -> data = w \/ data = terminated w -> 0 < b ->
  construct_cri b data sa = Some x -> row_interval [c] w sa st e -> st < e ->
  cr_last_value x (0, length sa - 1) (st, e - 1) c (cr_initial x) = Some (nth_error sa (e - 1)).
Proof. intros w sa data b x c st e Hw HSA Hd Hb. exact (last_value_first w sa data b Hw HSA Hd Hb x c st e). Qed.
Print Assumptions C64_first_value.

(** The rows 6 to 8 start with 5, the rows 2 to 4 with 3 5. *)
Example C64_example : exists x, construct_cri 2 ex_cl_w ex_cl_sa = Some x /\
  cr_last_value x (0, 8) (6, 8) 5 (cr_initial x) = Some (Some 1) /\
  cr_last_value x (6, 8) (2, 4) 3 (Some 1) = Some (Some 0) /\
  cr_last_value x (1, 4) (7, 8) 5 (Some 0) = Some (Some 1).
Proof.
  destruct (construct_cri 2 ex_cl_w ex_cl_sa) as [x|] eqn:E; [|vm_compute in E; discriminate].
  exists x. split; [reflexivity|]. vm_compute in E. injection E as <-.
  split; [vm_compute; reflexivity|]. split; vm_compute; reflexivity.
Qed.
