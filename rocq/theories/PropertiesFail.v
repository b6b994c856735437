(** C93: a load that failed can be tried again.  C94: sizeSequence tells the length of the text. *)
From Coq Require Import List Arith Bool String.
From Verif Require Import Spec MBase MRIndex MStore MFail Glue SpecStore SpecFail StoreProof StoreClass StoreTrip StoreBuilt StoreRound StoreEnd
  PropertiesSrCsa PropertiesStore FailProof.
Import ListNotations.

(** * C93 *)
(** A load from a cache directory returns exactly when it can end, and throws exactly when it cannot for want of a
    file; an exception leaves the object without an index if it had none. *)
Theorem C93_told : forall tm kd w fs w' ok,
  reached (ob_store (wh_obj w)) -> try_load tm kd w fs = Some (w', ok) ->
  (ok = true -> load_config tm kd (wh_obj w) fs = Some (wh_obj w') /\ wh_index w' = true) /\
  (ok = false -> load_config tm kd (wh_obj w) fs = None /\ wh_index w' = wh_index w).
Proof.
  intros tm kd w fs w' ok HR H. apply reached_wf in HR. split; intros ->; [exact (try_true _ _ _ _ _ HR H)|exact (try_false _ _ _ _ _ HR H)].
Qed.
Print Assumptions C93_told.

(** Any object without an index, whatever its storage holds, and a directory from which it can be loaded so that the
    index answers queries.  Loads from any directories with some of these files, such as the directory at earlier moments
    of a construction, may come before: each returns or throws, and a load from the directory then returns and leaves
    the object that a single load leaves. *)
Theorem C93_retry : forall tm kd o fs o' r fss,
  reached (ob_store o) -> load_config tm kd o fs = Some o' -> obj_count tm kd o' [] = Some (0, r) ->
  Forall (part_of fs) fss ->
  exists w1 w2, tries tm kd (new_whole o) fss = Some w1 /\ try_load tm kd w1 fs = Some (w2, true) /\ wh_obj w2 = o' /\
    (forall p, whole_locate tm kd w2 p = obj_locate tm kd o' p) /\ (forall p, whole_count tm kd w2 p = obj_count tm kd o' p).
Proof.
  intros tm kd o fs o' r fss HR L C HF. apply reached_wf in HR.
  unfold obj_count in C. apply bind_Some in C as (v & V & C).
  pose proof (view_alpha _ _ _ _ V) as HL. pose proof (empty_size _ _ C) as HN.
  destruct (onway_tries tm kd o' fs _ _ HL HN fss _ (onway_start tm kd o o' fs _ HL 0 HR L) HF) as (w1 & T & O).
  destruct (onway_full tm kd o' fs _ _ HL HN w1 O) as (w2 & E & E1 & _ & E3).
  exists w1, w2. unfold whole_locate, whole_count. rewrite E3, E1. auto.
Qed.
Print Assumptions C93_retry.

(** From the text: loads of a new object, of which one is from a directory with all files that a construction wrote and
    the others, before and after, from directories with some of them.  Afterwards all answers are exact. *)
Theorem C93_retry_exact : forall tm kd rate w sa data h v fs fss1 fss2,
  zero_free w -> is_suffix_array (terminated w) sa -> data = w \/ data = terminated w ->
  0 < h -> t_dens tm = 2 * h -> S (List.length w) < 2 ^ 64 ->
  build tm kd rate data sa = Some v -> has_files fs (map (file_of (rate_prefix rate)) (built_files tm kd v)) ->
  Forall (part_of fs) fss1 -> Forall (part_of fs) fss2 ->
  exists x, tries tm kd (new_whole (new_rate rate [])) (fss1 ++ fs :: fss2) = Some x /\
    forall p, pattern_over w p -> exists l r, whole_locate tm kd x p = Some l /\ exact_answer p w l /\
      whole_count tm kd x p = Some r /\ row_interval p w sa (fst r) (snd r).
Proof.
  intros tm kd rate w sa data h v fs fss1 fss2 Hw HSA Hd Hh HD Hn HB HF H1 H2.
  destruct (built_load tm kd rate v (new_rate rate []) fs (fresh_rate rate) eq_refl (build_shape _ _ _ _ _ _ HB) HF) as (o & L & _ & V).
  pose proof (view_alpha _ _ _ _ V) as HL. rewrite trim_alpha in HL.
  pose proof (empty_size _ _ (build_empty tm kd rate w sa data h v Hw HSA Hd Hh HD Hn HB)) as HN.
  destruct (onway_tries tm kd o fs _ _ HL HN fss1 _ (onway_start tm kd (new_rate rate []) o fs _ HL 0 wf_empty L) H1) as (w1 & T & O).
  destruct (onway_full tm kd o fs _ _ HL HN w1 O) as (w2 & E & E1 & E2 & E3).
  destruct (onway_try tm kd o fs _ _ HL HN w1 fs O (part_refl fs)) as (w2' & b & X & O2 & _). rewrite E in X. injection X as <- <-.
  destruct (stay_tries tm kd o fs _ _ fss2 HL HN w2 O2 H2 E1 E3 E2) as (w3 & T3 & F1 & _ & F3).
  exists w3. split.
  - rewrite tries_app. unfold new_whole. rewrite T. cbn [bind tries]. rewrite E. cbn [bind]. exact T3.
  - intros p Hp. destruct (build_exact tm kd rate w sa data h p Hw HSA Hd Hh HD Hn Hp) as (v' & r & l & B & C & LO & X & I).
    rewrite HB in B. injection B as <-. exists l, r. unfold whole_locate, whole_count. rewrite F3, F1. unfold obj_locate, obj_count.
    rewrite V. cbn [bind]. rewrite trim_locate, trim_count. auto.
Qed.
Print Assumptions C93_retry_exact.

(** Concrete cases: "abracadabra" in all classes: the directory with the first [m] files makes the load throw for some
    [m]; afterwards the load from the whole directory returns and Locate is right. *)
Definition ex_step (kd : kind) (m : nat) : option (bool * bool * option (list nat) * bool * nat) :=
  fs <- cache ex_sd kd 3 exf_w exf_sa ;;
  '(w1, b1) <- try_load ex_sd kd (new_whole (new_rate 3 [])) (firstn m fs) ;;
  '(w2, b2) <- try_load ex_sd kd w1 fs ;;
  Some (b1, wh_index w1, whole_locate ex_sd kd w2 [97; 98; 114; 97], b2, whole_size w2).
Example C93_case : forall kd, In kd kinds -> forall m, m = 0 \/ m = 1 \/ m = 2 ->
  ex_step kd m = Some (false, false, Some [7; 0], true, 12) \/ ex_step kd m = Some (false, false, Some [0; 7], true, 12).
Proof.
  intros kd H m Hm. clear H.
  destruct kd, Hm as [->|[->| ->]]; (left; vm_compute; reflexivity) || (right; vm_compute; reflexivity).
Qed.
Lemma find_firstn m : forall fs k h c, file_find (firstn m fs) k h = Some c -> file_find fs k h = Some c.
Proof.
  induction m as [|m IH]; intros [|[[k' h'] c'] fs] k h c; cbn; try discriminate; auto.
  match goal with |- (if ?b then _ else _) = _ -> _ => destruct b end; auto.
  destruct h' as [a|], h as [b|]; auto. destruct (ty_eq_dec a b); auto.
Qed.
Example C93_case_part : forall fs m, part_of fs (firstn m fs).
Proof. intros fs m k h c. apply find_firstn. Qed.

(** But a retry with the directory of another text leaves an object that mixes both.  In every class: the load of the
    index of one text throws because files are missing; the load of the index of another text, which is complete,
    returns; Locate and sizeSequence are wrong for this text. *)
Theorem C93_other_text_refuted : forall kd, exists w1 sa1 w2 sa2 p fs1 f1 fs2 x1 x2,
  (zero_free w1 /\ is_suffix_array (terminated w1) sa1) /\
  (zero_free w2 /\ is_suffix_array (terminated w2) sa2 /\ pattern_over w2 p) /\
  cache ex_sd kd 3 w1 sa1 = Some fs1 /\ part_of fs1 f1 /\ cache ex_sd kd 3 w2 sa2 = Some fs2 /\
  try_load ex_sd kd (new_whole (new_rate 3 [])) f1 = Some (x1, false) /\
  try_load ex_sd kd x1 fs2 = Some (x2, true) /\
  (forall l, whole_locate ex_sd kd x2 p = Some l -> ~ exact_answer p w2 l) /\
  whole_size x2 <> S (List.length w2).
Proof.
  intros kd. exists exf_w, exf_sa, exr_w, exr_sa, [97].
  assert (HW1 : zero_free exf_w) by (repeat constructor).
  assert (HS1 : is_suffix_array (terminated exf_w) exf_sa) by (apply sa_check_ok; vm_compute; reflexivity).
  assert (HW2 : zero_free exr_w) by (repeat constructor).
  assert (HS2 : is_suffix_array (terminated exr_w) exr_sa) by (apply sa_check_ok; vm_compute; reflexivity).
  assert (HP : pattern_over exr_w [97]) by (split; [discriminate|]; cbn; intuition).
  assert (N : forall l : list nat, ~ In 16 l -> ~ exact_answer [97] exr_w l).
  { intros l NI (_ & H). apply NI, H. exists (firstn 16 exr_w), (skipn 17 exr_w). split; reflexivity. }
  destruct (cache ex_sd kd 3 exf_w exf_sa) as [fs1|] eqn:E1; [|destruct kd; vm_compute in E1; discriminate].
  destruct (cache ex_sd kd 3 exr_w exr_sa) as [fs2|] eqn:E2; [|destruct kd; vm_compute in E2; discriminate].
  assert (X : exists x1 x2, try_load ex_sd kd (new_whole (new_rate 3 [])) (firstn 2 fs1) = Some (x1, false) /\
    try_load ex_sd kd x1 fs2 = Some (x2, true) /\ (forall l, whole_locate ex_sd kd x2 [97] = Some l -> ~ In 16 l) /\ whole_size x2 = 12).
  { destruct kd; vm_compute in E1, E2; injection E1 as <-; injection E2 as <-;
      (eexists; eexists; split; [vm_compute; reflexivity|]; split; [vm_compute; reflexivity|]; split; [|reflexivity];
       intros l H; vm_compute in H; try discriminate; injection H as <-; cbn; intuition discriminate). }
  destruct X as (x1 & x2 & T1 & T2 & A & Sz). exists fs1, (firstn 2 fs1), fs2, x1, x2.
  split; [auto|]. split; [auto|]. split; [reflexivity|]. split; [apply C93_case_part|]. split; [reflexivity|].
  split; [exact T1|]. split; [exact T2|]. split; [intros l H; apply N, A, H|]. rewrite Sz. discriminate.
Qed.
Print Assumptions C93_other_text_refuted.

(** * C94 *)
(** sizeSequence: 0 of a new object; the number of bytes of the text and its terminator after a load that returned, also
    after loads that threw and before others, as in [C93_retry_exact]. *)
Theorem C94_size : forall tm kd rate w sa data h v fs fss1 fss2,
  zero_free w -> is_suffix_array (terminated w) sa -> data = w \/ data = terminated w ->
  0 < h -> t_dens tm = 2 * h -> S (List.length w) < 2 ^ 64 ->
  build tm kd rate data sa = Some v -> has_files fs (map (file_of (rate_prefix rate)) (built_files tm kd v)) ->
  Forall (part_of fs) fss1 -> Forall (part_of fs) fss2 ->
  whole_size (new_whole (new_rate rate [])) = 0 /\
  exists x, tries tm kd (new_whole (new_rate rate [])) (fss1 ++ fs :: fss2) = Some x /\ whole_size x = List.length (terminated w).
Proof.
  intros tm kd rate w sa data h v fs fss1 fss2 Hw HSA Hd Hh HD Hn HB HF H1 H2. split; [reflexivity|].
  destruct (built_load tm kd rate v (new_rate rate []) fs (fresh_rate rate) eq_refl (build_shape _ _ _ _ _ _ HB) HF) as (o & L & _ & V).
  pose proof (view_alpha _ _ _ _ V) as HL. rewrite trim_alpha in HL.
  pose proof (empty_size _ _ (build_empty tm kd rate w sa data h v Hw HSA Hd Hh HD Hn HB)) as HN.
  destruct (onway_tries tm kd o fs _ _ HL HN fss1 _ (onway_start tm kd (new_rate rate []) o fs _ HL 0 wf_empty L) H1) as (w1 & T & O).
  destruct (onway_full tm kd o fs _ _ HL HN w1 O) as (w2 & E & E1 & E2 & E3).
  destruct (onway_try tm kd o fs _ _ HL HN w1 fs O (part_refl fs)) as (w2' & b & X & O2 & _). rewrite E in X. injection X as <- <-.
  destruct (stay_tries tm kd o fs _ _ fss2 HL HN w2 O2 H2 E1 E3 E2) as (w3 & T3 & _ & F2 & _).
  exists w3. split.
  - rewrite tries_app. unfold new_whole. rewrite T. cbn [bind tries]. rewrite E. cbn [bind]. exact T3.
  - rewrite F2, (Permutation.Permutation_length (proj1 HSA)). apply seq_length.
Qed.
Print Assumptions C94_size.

(** In all classes but SrCSA and its two variants with valid marks, a load that throws leaves sizeSequence as it was. *)
Theorem C94_failed_load : forall tm kd w fs w',
  kd <> KSrCSA -> kd <> KSrCSAVM -> kd <> KSrCSAVA ->
  reached (ob_store (wh_obj w)) -> try_load tm kd w fs = Some (w', false) -> whole_size w' = whole_size w.
Proof.
  intros tm kd w fs w' N1 N2 N3 HR H. apply (try_false_size tm kd w fs w' (reached_wf _ HR)); [|exact H].
  destruct kd; try reflexivity; congruence.
Qed.
Print Assumptions C94_failed_load.

(** In those three it does not: without the file of the select support of the marks of samples the load throws, the object
    has no index, and sizeSequence is not 0. *)
Definition ex_no_select (kd : kind) : option (bool * bool * nat) :=
  fs <- cache ex_sd kd 3 exf_w exf_sa ;;
  '(w, ok) <- try_load ex_sd kd (new_whole (new_rate 3 []))
                (filter (fun f => match snd (fst f) with
                                  | Some (TySup (SupSelect _)) => negb (fst (fst f) =? realize (rate_prefix 3) (k_idx kd))%string
                                  | _ => true end) fs) ;;
  Some (ok, wh_index w, whole_size w).
Theorem C94_failed_load_refuted : forall kd, kd = KSrCSA \/ kd = KSrCSAVM \/ kd = KSrCSAVA ->
  exists w sa fs f x, zero_free w /\ is_suffix_array (terminated w) sa /\ cache ex_sd kd 3 w sa = Some fs /\ incl f fs /\
    try_load ex_sd kd (new_whole (new_rate 3 [])) f = Some (x, false) /\ wh_index x = false /\ whole_size x <> 0.
Proof.
  intros kd Hk. exists exf_w, exf_sa.
  destruct (cache ex_sd kd 3 exf_w exf_sa) as [fs|] eqn:E; [|destruct kd; vm_compute in E; discriminate].
  assert (Y : ex_no_select kd = Some (false, false, 12)) by (destruct Hk as [->|[->| ->]]; vm_compute; reflexivity).
  unfold ex_no_select in Y. rewrite E in Y. cbn [bind] in Y.
  match type of Y with context [filter ?p fs] => set (f := filter p fs) in Y; assert (I : incl f fs) by (intros y Hy; apply filter_In in Hy; tauto) end.
  apply bind_Some in Y as ([x ok] & T & Y). injection Y as -> YI YS. exists fs, f, x.
  split; [repeat constructor|]. split; [apply sa_check_ok; vm_compute; reflexivity|]. split; [reflexivity|]. split; [exact I|].
  split; [exact T|]. split; [exact YI|]. unfold whole_size in YS. unfold whole_size. rewrite YS. discriminate.
Qed.
Print Assumptions C94_failed_load_refuted.
Example C94_case : forall kd, In kd kinds -> exists fs x, cache ex_sd kd 3 exf_w exf_sa = Some fs /\
  tries ex_sd kd (new_whole (new_rate 3 [])) [firstn 2 fs; fs; firstn 3 fs] = Some x /\ whole_size x = 12 /\ wh_index x = true.
Proof. intros kd H. clear H. destruct kd; (eexists; eexists; split; [vm_compute; reflexivity|]; split; [vm_compute; reflexivity|]; split; reflexivity). Qed.
