(** C46: serialization, the cache and loading give back the index that was built.
    C52: the storage caches items: each is read once, and indexes may share a storage. *)
From Coq Require Import List Arith Bool String.
From Verif Require Import Spec MBase MRle MConstruct MPhi MRIndex MSrIndex MPsi MCsa MSrCsa Glue
  PropertiesSrCsa MStore SpecStore StoreProof StoreClass StoreTrip StoreRound StoreBuilt StoreEnd.
Import ListNotations.

(** * C46 *)
(** An object that was loaded, from files or from a stream, into a storage of any history, is written to
    a stream.  A new object, default-constructed or made with any rate, that reads this stream gives the
    same answers, has the same rate, would be written in the same way, and leaves what follows it in the
    stream.  The two exceptions are refuted below. *)
Theorem C46_round_trip : forall tm kd o0 src o s tgt rest,
  reached (ob_store o0) -> load_from tm kd o0 src = Some (o, s) ->
  (tgt = new_default [] \/ exists r, tgt = new_rate r []) ->
  (kd = KSrCSAVM \/ kd = KSrCSAVA -> t_idx tm = BvSd) ->
  (kd = KSrPsi \/ kd = KSrPsiVM \/ kd = KSrPsiVA -> ob_rate tgt = ob_rate o) ->
  exists o', load_stream tm kd tgt (save tm kd o ++ rest) = Some (o', rest) /\
    (forall p, obj_locate tm kd o' p = obj_locate tm kd o p) /\
    (forall p, obj_count tm kd o' p = obj_count tm kd o p) /\
    (has_idx kd = true -> ob_rate o' = ob_rate o) /\ save tm kd o' = save tm kd o.
Proof.
  intros tm kd o0 src o s tgt rest HR HL HT HO HK.
  destruct (round_trip tm kd o0 src o s tgt rest (reached_wf _ HR) HL) as (o' & E & R & V & S).
  - destruct HT as [->|(r & ->)]; [apply fresh_default | apply fresh_rate].
  - destruct kd; cbn; auto.
  - unfold keeps_rate. destruct kd; cbn; auto 10.
  - exists o'. split; [exact E|]. split; [intros p; unfold obj_locate; rewrite V; reflexivity|].
    split; [intros p; unfold obj_count; rewrite V; reflexivity|]. auto.
Qed.
Print Assumptions C46_round_trip.

(** An object loads what a construction stored, and answers as the constructed index. *)
Theorem C46_cache_load : forall tm kd rate data sa v fs,
  build tm kd rate data sa = Some v ->
  has_files fs (map (file_of (rate_prefix rate)) (built_files tm kd v)) ->
  exists o, load_config tm kd (new_rate rate []) fs = Some o /\
    (forall p, obj_locate tm kd o p = locate_view kd v p) /\ (forall p, obj_count tm kd o p = count_view v p).
Proof.
  intros tm kd rate data sa v fs HB HF.
  destruct (built_load tm kd rate v (new_rate rate []) fs (fresh_rate rate) eq_refl (build_shape _ _ _ _ _ _ HB) HF) as (o & L & _ & V).
  exists o. split; [exact L|]. unfold obj_locate, obj_count. rewrite V. cbn [bind].
  split; intros p; [apply trim_locate | apply trim_count].
Qed.
Print Assumptions C46_cache_load.

(** From the text to the answers: any class is built, loaded from the cache, written to a stream and read
    by another object: Count and Locate are exact. *)
Theorem C46_saved_index_exact : forall tm kd rate w sa data h,
  zero_free w -> is_suffix_array (terminated w) sa -> data = w \/ data = terminated w ->
  0 < h -> t_dens tm = 2 * h -> S (List.length w) < 2 ^ 64 ->
  (kd = KSrCSAVM \/ kd = KSrCSAVA -> t_idx tm = BvSd) ->
  exists v, build tm kd rate data sa = Some v /\
  forall fs tgt rest, has_files fs (map (file_of (rate_prefix rate)) (built_files tm kd v)) ->
  (tgt = new_default [] /\ ~ (kd = KSrPsi \/ kd = KSrPsiVM \/ kd = KSrPsiVA) \/ tgt = new_rate rate []) ->
  exists o o', load_config tm kd (new_rate rate []) fs = Some o /\
    load_stream tm kd tgt (save tm kd o ++ rest) = Some (o', rest) /\
    forall p, pattern_over w p -> exists l s e,
      obj_locate tm kd o p = Some l /\ obj_locate tm kd o' p = Some l /\ exact_answer p w l /\
      obj_count tm kd o' p = Some (s, e) /\ row_interval p w sa s e.
Proof.
  intros tm kd rate w sa data h Hw HSA Hd Hh HD Hn HO.
  assert (HB : exists v, build tm kd rate data sa = Some v).
  { destruct (build_total tm kd rate w sa data h Hw HSA Hd Hh HD Hn) as (v & E). eauto. }
  destruct HB as (v & HB). exists v. split; [exact HB|]. intros fs tgt rest HF HT.
  destruct (built_load tm kd rate v (new_rate rate []) fs (fresh_rate rate) eq_refl (build_shape _ _ _ _ _ _ HB) HF) as (o & L & R & V).
  exists o. pose proof L as L'. unfold load_config in L'. apply bind_Some in L' as ([o1 s1] & L' & E). injection E as ->.
  destruct (C46_round_trip tm kd (new_rate rate []) (SrcFiles fs) o s1 tgt rest reached_empty L') as (o' & E & EL & EC & _).
  - destruct HT as [[-> _]| ->]; eauto.
  - exact HO.
  - intros K. destruct HT as [[_ H]| ->]; [contradiction | cbn; congruence].
  - exists o'. split; [exact L|]. split; [exact E|]. intros p Hp.
    destruct (build_exact tm kd rate w sa data h p Hw HSA Hd Hh HD Hn Hp) as (v' & [s e] & l & B & C & LO & X & RI).
    rewrite HB in B. injection B as <-. exists l, s, e.
    assert (OL : obj_locate tm kd o p = Some l) by (unfold obj_locate; rewrite V; cbn [bind]; rewrite trim_locate; exact LO).
    assert (OC : obj_count tm kd o p = Some (s, e)) by (unfold obj_count; rewrite V; cbn [bind]; rewrite trim_count; exact C).
    rewrite EL, EC. auto.
Qed.
Print Assumptions C46_saved_index_exact.

(** Concrete cases: "abracadabra", every class, rate 3, both kinds of bit vectors; the target is
    default-constructed and the stream goes on. *)
Definition cache (tm : tmpl) (kd : kind) (rate : nat) (w sa : list nat) : option files :=
  option_map (fun v => map (file_of (rate_prefix rate)) (built_files tm kd v)) (build tm kd rate w sa).
Definition trip (tm : tmpl) (kd : kind) (rate : nat) (tgt : obj) (w sa p : list nat) : option (list nat * option (list nat)) :=
  fs <- cache tm kd rate w sa ;;
  o <- load_config tm kd (new_rate rate []) fs ;;
  '(o', rest) <- load_stream tm kd tgt (save tm kd o ++ [TkNum 5]) ;;
  l <- obj_locate tm kd o' p ;;
  match rest with [TkNum 5] => Some (l, obj_locate tm kd o p) | _ => None end.
Definition ex_sd : tmpl := mk_tmpl BvSd BvSd BvSd 4.
Definition ex_plain : tmpl := mk_tmpl BvPlain BvPlain BvPlain 4.
Example C46_all_classes : forallb (fun kd =>
    match trip ex_sd kd 3 (new_rate 3 []) exf_w exf_sa [97; 98; 114] with
    | Some (l, Some l') => (if list_eq_dec Nat.eq_dec l l' then true else false) && (List.length l =? 2) | _ => false end) kinds = true.
Proof. vm_compute. reflexivity. Qed.
Example C46_all_plain_classes : forallb (fun kd =>
    match kd, trip ex_plain kd 3 (new_rate 5 []) exf_w exf_sa [97] with
    | (KSrCSAVM | KSrCSAVA | KSrPsi | KSrPsiVM | KSrPsiVA), _ => true
    | _, Some (l, Some l') => (if list_eq_dec Nat.eq_dec l l' then true else false) && (List.length l =? 5) | _, _ => false end) kinds = true.
Proof. vm_compute. reflexivity. Qed.
Example C46_cache_files : forall kd, In kd kinds -> exists fs, cache ex_sd kd 3 exf_w exf_sa = Some fs /\ has_files fs fs /\ 3 <= List.length fs.
Proof.
  intros kd H. cbn in H.
  repeat (destruct H as [<-|H]; [eexists; split; [vm_compute; reflexivity|]; split; [|vm_compute; repeat constructor];
    intros k h c I; cbn [In] in I; repeat (destruct I as [I|I]; [injection I as <- <- <-; vm_compute; reflexivity|]); contradiction |]).
  contradiction.
Qed.

(** Without the hypothesis on the rate, the property does not hold for the classes of sr_csa_psi.h: a
    default-constructed object reads the stream to its end, and reports a wrong set of positions. *)
Definition exr_w : list nat := [97; 97; 98; 98; 97; 97; 97; 98; 97; 97; 98; 98; 98; 98; 97; 97; 97; 98; 98].
Definition exr_sa : list nat := [19; 4; 14; 5; 15; 0; 8; 6; 16; 1; 9; 18; 3; 13; 7; 17; 2; 12; 11; 10].
Theorem C46_psi_run_rate_refuted : exists w sa p fs o,
  zero_free w /\ is_suffix_array (terminated w) sa /\ pattern_over w p /\
  cache ex_sd KSrPsi 4 w sa = Some fs /\ load_config ex_sd KSrPsi (new_rate 4 []) fs = Some o /\
  (exists l, obj_locate ex_sd KSrPsi o p = Some l /\ exact_answer p w l) /\
  exists o' l', load_stream ex_sd KSrPsi (new_default []) (save ex_sd KSrPsi o) = Some (o', []) /\
    obj_locate ex_sd KSrPsi o' p = Some l' /\ ~ exact_answer p w l'.
Proof.
  assert (HW : zero_free exr_w) by (repeat constructor).
  assert (HSA : is_suffix_array (terminated exr_w) exr_sa) by (apply sa_check_ok; vm_compute; reflexivity).
  assert (HP : pattern_over exr_w [98]) by (split; [discriminate|]; cbn; intuition).
  assert (HN : S (List.length exr_w) < 2 ^ 64).
  { apply Nat.lt_trans with 64; [cbn; repeat constructor|apply Nat.pow_gt_lin_r; repeat constructor]. }
  destruct (build_exact ex_sd KSrPsi 4 exr_w exr_sa exr_w 2 [98] HW HSA (or_introl eq_refl)) as (v & r & l & B & C & LO & X & _); auto.
  exists exr_w, exr_sa, [98]. unfold cache. rewrite B. cbn [option_map].
  pose proof B as B'. vm_compute in B'. injection B' as EV.
  eexists. eexists. split; [exact HW|]. split; [exact HSA|]. split; [exact HP|]. split; [reflexivity|].
  rewrite <- EV. split; [vm_compute; reflexivity|]. split.
  - exists l. split; [|exact X]. rewrite <- LO, <- EV. vm_compute. reflexivity.
  - eexists. eexists. split; [vm_compute; reflexivity|]. split; [vm_compute; reflexivity|].
    intros (_ & H). specialize (H 4). apply proj1 in H. specialize (H ltac:(cbn; auto 20)). destruct H as (u & z & E & N).
    do 4 (destruct u as [|? u]; [discriminate N|]). destruct u; discriminate.
Qed.

Print Assumptions C46_psi_run_rate_refuted.

(** Nor without the hypothesis on the bit vectors for the two classes with validity marks of sr_csa.h: with
    plain bit vectors for the sampled positions the supports are read in another order than written, and
    the index cannot read its own stream. *)
Theorem C46_plain_positions_refuted : forall kd, kd = KSrCSAVM \/ kd = KSrCSAVA -> exists w sa fs o,
  zero_free w /\ is_suffix_array (terminated w) sa /\
  cache ex_plain kd 3 w sa = Some fs /\ load_config ex_plain kd (new_rate 3 []) fs = Some o /\
  load_stream ex_plain kd (new_rate 3 []) (save ex_plain kd o) = None.
Proof.
  intros kd H. exists exf_w, exf_sa. destruct H as [->| ->]; eexists; eexists;
    (split; [repeat constructor|]); (split; [apply sa_check_ok; vm_compute; reflexivity|]);
    (split; [vm_compute; reflexivity|]); (split; vm_compute; reflexivity).
Qed.
Print Assumptions C46_plain_positions_refuted.

(** * C52 *)
(** Whatever the storage holds when a load starts, from files or from a stream: no item is read twice, none
    that the storage has is read, the storage keeps all it had, and it gets nothing but the items read. *)
Theorem C52_load_once : forall tm kd o src o' s,
  reached (ob_store o) -> load_from tm kd o src = Some (o', s) ->
  NoDup (ls_log s) /\ (forall k, In k (ls_log s) -> st_find (ob_store o) k = None) /\
  (forall k e, st_find (ob_store o) k = Some e -> st_find (ob_store o') k = Some e) /\
  (forall k e, st_find (ob_store o') k = Some e -> st_find (ob_store o) k = Some e \/ In k (ls_log s)).
Proof. intros tm kd o src o' s HR H. exact (load_log tm kd o src o' s (reached_wf _ HR) H). Qed.
Print Assumptions C52_load_once.

(** A second load reads nothing, whatever its source is by then, and leaves the object as it is. *)
Theorem C52_reload_noop : forall tm kd o src o' s src2,
  reached (ob_store o) -> load_from tm kd o src = Some (o', s) ->
  load_from tm kd o' src2 = Some (o', mk_lstate (ob_store o') src2 []).
Proof. intros tm kd o src o' s src2 HR H. exact (load_again tm kd o src o' s src2 (reached_wf _ HR) H). Qed.
Print Assumptions C52_reload_noop.

(** Any number of indexes of any classes and rates share one storage over one cache directory, unless they
    are an RIndex and an RCSAWithBWTRun: each loads whenever it would load alone, and answers as alone. *)
Theorem C52_shared_storage : forall tm fs (L : kind -> Prop) st kd rate o1,
  ~ (L KRIndex /\ L KRCSA) -> shared tm fs L st -> L kd ->
  load_config tm kd (new_rate rate []) fs = Some o1 ->
  exists o2, load_config tm kd (new_rate rate st) fs = Some o2 /\
    (forall p, obj_locate tm kd o2 p = obj_locate tm kd o1 p) /\ (forall p, obj_count tm kd o2 p = obj_count tm kd o1 p).
Proof.
  intros tm fs L st kd rate o1 HC Hs HL H.
  destruct (shared_same tm fs L st kd rate o1) as (o2 & E & V); auto.
  - intros a b HA HB. destruct a, b; try reflexivity; exfalso; tauto.
  - exists o2. split; [exact E|]. unfold obj_locate, obj_count. rewrite V. auto.
Qed.
Print Assumptions C52_shared_storage.

(** Concrete cases: all classes but RCSAWithBWTRun load one after the other, with rates 2 and 3, into one storage. *)
Definition all_files (rates : list nat) (w sa : list nat) : files :=
  List.concat (map (fun r => List.concat (map (fun kd => match cache ex_sd kd r w sa with Some fs => fs | None => [] end)
    (filter (fun kd => negb (clash KRIndex kd)) kinds))) rates).
Fixpoint load_seq (l : list (kind * nat)) (fs : files) (st : store) : option (list (option (list nat))) :=
  match l with
  | [] => Some []
  | (kd, r) :: l =>
      o <- load_config ex_sd kd (new_rate r st) fs ;;
      x <- load_seq l fs (ob_store o) ;;
      Some (obj_locate ex_sd kd o [97; 98; 114] :: x)
  end.
Example C52_sharing : option_map (forallb (fun x => match x with Some [0; 7] | Some [7; 0] => true | _ => false end))
  (load_seq (flat_map (fun kd => [(kd, 2); (kd, 3)]) (filter (fun kd => negb (clash KRIndex kd)) kinds))
    (all_files [2; 3] exf_w exf_sa) []) = Some true.
Proof. vm_compute. reflexivity. Qed.

(** The excluded pair: both store another type of item under one key; the second load fails. *)
Theorem C52_shared_clash_refuted : exists w sa fs1 fs2 o,
  zero_free w /\ is_suffix_array (terminated w) sa /\
  cache ex_sd KRIndex 0 w sa = Some fs1 /\ cache ex_sd KRCSA 0 w sa = Some fs2 /\
  load_config ex_sd KRIndex (new_rate 0 []) (fs1 ++ fs2) = Some o /\
  load_config ex_sd KRCSA (new_rate 0 []) (fs1 ++ fs2) <> None /\
  load_config ex_sd KRCSA (new_rate 0 (ob_store o)) (fs1 ++ fs2) = None.
Proof.
  exists exf_w, exf_sa. eexists. eexists. eexists.
  split; [repeat constructor|]. split; [apply sa_check_ok; vm_compute; reflexivity|].
  split; [vm_compute; reflexivity|]. split; [vm_compute; reflexivity|]. split; [vm_compute; reflexivity|].
  split; [vm_compute; discriminate|]. vm_compute. reflexivity.
Qed.
Print Assumptions C52_shared_clash_refuted.
