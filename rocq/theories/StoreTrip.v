(** The contents of a loaded object, loads from the files of a construction, the round trip through a
    stream, and shared storages. *)
From Coq Require Import List Arith Bool Lia ZifyBool String Ascii.
From Verif Require Import MBase MRle MConstruct MPhi MRIndex MSrIndex MPsi MCsa MSrCsa MStore StoreProof StoreClass.
Import ListNotations.

(** * Keys of a class *)
Lemma needs_same_core tm kd r1 r2 : In r1 (class_needs tm kd) -> In r2 (class_needs tm kd) ->
  snd (sq_key r1) = snd (sq_key r2) -> r1 = r2.
Proof.
  pose proof (needs_nodup tm kd) as N. unfold needs_names in N. revert N.
  generalize (class_needs tm kd) as l. induction l as [|a l IH]; [intros _ []|]. cbn [map]. intros N [->|H1] [->|H2] E; auto.
  - exfalso. apply NoDup_cons_iff in N as (N & _). apply N. rewrite E. exact (in_map (fun r => snd (sq_key r)) _ _ H2).
  - exfalso. apply NoDup_cons_iff in N as (N & _). apply N. rewrite <- E. exact (in_map (fun r => snd (sq_key r)) _ _ H1).
  - inversion N; subst. auto.
Qed.
Lemma req_need tm kd r : In r (class_reqs tm kd) ->
  exists r', In r' (class_needs tm kd) /\ sq_key r' = sq_key r /\ sq_ty r' = sq_ty r /\ sq_ptr r' = sq_ptr r.
Proof.
  intros H. apply reqs_in_needs in H. apply in_map_iff in H as (r' & E & H). exists r'. unfold core_of in E.
  injection E as E1 E2 E3. auto.
Qed.
Lemma need_req tm kd r : In r (class_needs tm kd) -> In r (class_reqs tm kd).
Proof. apply sneeded_incl. Qed.
Lemma key_inj tm kd p r1 r2 : good_prefix p -> In r1 (class_needs tm kd) -> In r2 (class_needs tm kd) ->
  realize p (sq_key r1) = realize p (sq_key r2) -> r1 = r2.
Proof.
  intros G H1 H2 E. apply (needs_same_core tm kd); auto. apply (realize_inj p); auto; apply needs_letter in H1, H2; tauto.
Qed.

Lemma needed_map p (K : list srq) rs :
  (forall r1 r2, In r1 K -> In r2 K -> realize p (sq_key r1) = realize p (sq_key r2) <-> snd (sq_key r1) = snd (sq_key r2)) ->
  forall seen, incl rs K -> incl seen K ->
  needed (map (fun r => realize p (sq_key r)) seen) (map (rz_rq p) rs) = map (rz_rq p) (sneeded (map (fun r => snd (sq_key r)) seen) rs).
Proof.
  intros HK. induction rs as [|r rs IH]; intros seen HI HS; cbn [map needed sneeded]; [reflexivity|].
  assert (Hr : In r K) by (apply HI; left; reflexivity).
  assert (HI' : incl rs K) by (intros x Hx; apply HI; right; exact Hx).
  cbn [rz_rq rq_key].
  destruct (in_dec string_dec (realize p (sq_key r)) (map (fun r => realize p (sq_key r)) seen)) as [A|A];
    destruct (in_dec string_dec (snd (sq_key r)) (map (fun r => snd (sq_key r)) seen)) as [B|B].
  - apply IH; auto.
  - exfalso. apply B. apply in_map_iff in A as (x & E & Hx). apply in_map_iff. exists x. split; [|exact Hx].
    apply (HK x r); auto.
  - exfalso. apply A. apply in_map_iff in B as (x & E & Hx). apply in_map_iff. exists x. split; [|exact Hx].
    apply (HK x r); auto.
  - cbn [map]. f_equal. apply (IH (r :: seen)); auto. intros x [<-|Hx]; auto.
Qed.
Lemma needed_class tm kd p : good_prefix p ->
  needed [] (map (rz_rq p) (class_reqs tm kd)) = map (rz_rq p) (class_needs tm kd).
Proof.
  intros G. apply (needed_map p (class_reqs tm kd)) with (seen := []).
  - intros r1 r2 H1 H2.
    destruct (req_need _ _ _ H1) as (q1 & I1 & K1 & _). destruct (req_need _ _ _ H2) as (q2 & I2 & K2 & _).
    rewrite <- K1, <- K2. split; intros E.
    + apply (key_inj tm kd p q1 q2) in E; auto. congruence.
    + apply (needs_same_core tm kd q1 q2) in E; auto. congruence.
  - intros x H. exact H.
  - intros x [].
Qed.

(** * Contents *)
(** The object holds [g r] for every item that its class needs. *)
Definition good_content (tm : tmpl) (kd : kind) (g : srq -> item) : Prop :=
  forall r, In r (class_needs tm kd) -> item_ty (g r) = sq_ty r /\ norm (g r) = g r.
Definition entry_of (p : string) (g : srq -> item) (r : srq) : entry := mk_entry (g r) (option_map (realize p) (sq_ptr r)).
Definition holds (tm : tmpl) (kd : kind) (o : obj) (g : srq -> item) : Prop :=
  forall r, In r (class_needs tm kd) ->
    st_find (ob_store o) (realize (ob_prefix o) (sq_key r)) = Some (entry_of (ob_prefix o) g r).
Definition content (p : string) (g : srq -> item) (rs : list srq) : store :=
  map (fun r => (realize p (sq_key r), entry_of p g r)) rs.
Lemma content_find p g rs : (forall r1 r2, In r1 rs -> In r2 rs -> realize p (sq_key r1) = realize p (sq_key r2) -> r1 = r2) ->
  (forall r, In r rs -> st_find (content p g rs) (realize p (sq_key r)) = Some (entry_of p g r)) /\
  (forall k e, st_find (content p g rs) k = Some e -> exists r, In r rs /\ k = realize p (sq_key r) /\ e = entry_of p g r).
Proof.
  intros H.
  assert (B : forall k e, st_find (content p g rs) k = Some e -> exists r, In r rs /\ k = realize p (sq_key r) /\ e = entry_of p g r).
  { clear H. intros k e. induction rs as [|a rs IH]; cbn; [discriminate|]. destruct (String.eqb_spec (realize p (sq_key a)) k) as [E|E].
    - intros H. injection H as <-. exists a. auto.
    - intros H. destruct (IH H) as (r & ? & ? & ?). exists r. auto. }
  split; [|exact B]. intros r Hr.
  destruct (st_find (content p g rs) (realize p (sq_key r))) as [e|] eqn:E.
  - destruct (B _ _ E) as (r' & H1 & H2 & ->). rewrite (H r r'); auto.
  - exfalso. clear H B. induction rs as [|a rs IH]; [contradiction|]. cbn in E.
    destruct (String.eqb_spec (realize p (sq_key a)) (realize p (sq_key r))) as [E'|E']; [discriminate|].
    destruct Hr as [->|Hr]; [contradiction | auto].
Qed.

Definition fresh (o : obj) : Prop := ob_store o = [] /\ good_prefix (ob_prefix o).
Lemma fresh_default : fresh (new_default []).
Proof. split; exact I || reflexivity. Qed.
Lemma fresh_rate s : fresh (new_rate s []).
Proof. split; [reflexivity | apply rate_prefix_good]. Qed.

(** Loading into a storage that agrees with the contents. *)
Lemma load_content tm kd o g src src' :
  good_prefix (ob_prefix o) -> wf_store (ob_store o) -> good_content tm kd g ->
  (forall r e, In r (class_needs tm kd) -> st_find (ob_store o) (realize (ob_prefix o) (sq_key r)) = Some e ->
     e = entry_of (ob_prefix o) g r) ->
  let U := content (ob_prefix o) g (class_needs tm kd) in
  let seen := map fst (ob_store o) in
  let missing := needed seen (map (rz_rq (ob_prefix o)) (class_reqs tm kd)) in
  feeds U missing src src' ->
  exists o' s, load_from tm kd o src = Some (o', s) /\ ls_src s = src' /\ ls_log s = map rq_key missing /\
    ob_rate o' = ob_rate o /\ ob_prefix o' = ob_prefix o /\ holds tm kd o' g /\ wf_store (ob_store o') /\
    grows (ob_store o) (ob_store o') /\
    (forall k e, st_find (ob_store o') k = Some e -> st_find (ob_store o) k = None ->
       exists r, In r (class_needs tm kd) /\ k = realize (ob_prefix o) (sq_key r) /\ e = entry_of (ob_prefix o) g r).
Proof.
  intros GP W GC HA U seen missing HF.
  assert (HU := content_find (ob_prefix o) g (class_needs tm kd) (fun r1 r2 H1 H2 => key_inj tm kd (ob_prefix o) r1 r2 GP H1 H2)).
  destruct HU as (HU1 & HU2). fold U in HU1, HU2.
  assert (Hin : forall st k, In k (map fst st) <-> st_find st k <> None).
  { intros st k. induction st as [|[x e] st IH]; cbn; [tauto|]. destruct (String.eqb_spec x k) as [->|N].
    - split; [discriminate | auto].
    - rewrite <- IH. split; [intros [H|H]; [contradiction | exact H] | auto]. }
  destruct (do_reqs_ok U (map (rz_rq (ob_prefix o)) (class_reqs tm kd)) seen (mk_lstate (ob_store o) src []) src') as (st' & R & P & G & O).
  - intros r Hr. apply in_map_iff in Hr as (q & <- & Hq). destruct (req_need _ _ _ Hq) as (q' & I' & K & T & Pt).
    exists (entry_of (ob_prefix o) g q'). unfold rz_rq. cbn [rq_key rq_ty rq_ptr].
    rewrite <- K, <- T, <- Pt. split; [auto|]. split; [exact (proj1 (GC _ I')) | reflexivity].
  - intros k e HUk Hs. cbn [ls_store]. destruct (HU2 _ _ HUk) as (r & Hr & -> & ->).
    apply Hin in Hs. destruct (st_find (ob_store o) (realize (ob_prefix o) (sq_key r))) as [e'|] eqn:E; [|contradiction].
    rewrite (HA _ _ Hr E). reflexivity.
  - intros k e HUk Hs. cbn [ls_store]. destruct (st_find (ob_store o) k) eqn:E; [|reflexivity].
    exfalso. apply Hs. apply Hin. rewrite E. discriminate.
  - exact HF.
  - cbn [ls_log ls_store app] in *. fold missing in R.
    destruct (run_reqs (ob_prefix o) (class_cmds tm kd) (mk_lstate (ob_store o) src []) (cmds_ok tm kd) W) as (Q1 & Q2).
    fold (class_reqs tm kd) in Q1. rewrite R in Q1. exists (mk_obj (ob_rate o) (ob_prefix o) st'), (mk_lstate st' src' (map rq_key missing)).
    unfold load_from. fold (class_cmds tm kd). rewrite Q1. cbn [bind ls_store ls_src ls_log ob_rate ob_prefix ob_store].
    do 5 (split; [reflexivity|]). split; [|split; [|split; [exact G|]]].
    + intros r Hr. cbn [ob_prefix ob_store]. apply (P (rz_rq (ob_prefix o) r)); [apply in_map, need_req, Hr | exact (HU1 r Hr)].
    + exact (Q2 _ Q1).
    + intros k e Hk Hn. destruct (O k e Hk Hn) as (_ & HUk). exact (HU2 _ _ HUk).
Qed.

(** What a successful load leaves. *)
Lemma load_holds tm kd o src o' s : wf_store (ob_store o) -> load_from tm kd o src = Some (o', s) ->
  ob_prefix o' = ob_prefix o /\ ob_rate o' = ob_rate o /\ wf_store (ob_store o') /\
  exists g, good_content tm kd g /\ holds tm kd o' g.
Proof.
  intros W H. unfold load_from in H. apply bind_Some in H as (s1 & H & E). injection E as <- <-.
  fold (class_cmds tm kd) in H. cbn [ob_prefix ob_rate ob_store].
  destruct (run_reqs (ob_prefix o) (class_cmds tm kd) (mk_lstate (ob_store o) src []) (cmds_ok tm kd) W) as (Q1 & Q2).
  pose proof (Q2 _ H) as W'. rewrite H in Q1. symmetry in Q1. apply do_reqs_spec in Q1 as (_ & F & _).
  do 2 (split; [reflexivity|]). split; [exact W'|].
  exists (fun r => match st_find (ls_store s1) (realize (ob_prefix o) (sq_key r)) with Some e => en_item e | None => ItInts [] end).
  assert (A : forall r, In r (class_needs tm kd) -> exists e, st_find (ls_store s1) (realize (ob_prefix o) (sq_key r)) = Some e /\
    item_ty (en_item e) = sq_ty r).
  { intros r Hr. destruct (F (rz_rq (ob_prefix o) r)) as (e & He).
    - apply in_map. apply need_req. exact Hr.
    - apply st_get_Some in He. exists e. exact He. }
  split.
  - intros r Hr. destruct (A r Hr) as (e & He & Ht). rewrite He. split; [exact Ht | exact (proj1 (W' _ _ He))].
  - intros r Hr. cbn [ob_store ob_prefix]. destruct (A r Hr) as (e & He & Ht). unfold entry_of. rewrite He. f_equal.
    destruct e as [it ptr]. cbn [en_item] in *. f_equal. pose proof (needs_ptr tm kd r Hr) as HP.
    destruct (sq_ptr r) as [k|].
    + destruct HP as (sp & Hsp & Hk & _). cbn [option_map]. rewrite Hk, realize_suffix in He. rewrite Hsp in Ht.
      pose proof (wf_sup_vec (ls_store s1) (realize (ob_prefix o) k) sp _ W' (proj2 (st_get_Some _ _ _ _) (conj He Ht))) as (Hp & _).
      exact Hp.
    + cbn. pose proof (proj2 (W' _ _ He)) as Hw. cbn in Hw. destruct it; auto. exfalso. exact (HP _ (eq_sym Ht)).
Qed.

(** * Lookups *)
Lemma holds_look tm kd o o' g k t ptr : holds tm kd o g -> holds tm kd o' g -> good_content tm kd g ->
  In (k, t, ptr) (map core_of (class_needs tm kd)) ->
  look o t (realize (ob_prefix o) k) = look o' t (realize (ob_prefix o') k).
Proof.
  intros H H' GC Hin. apply in_map_iff in Hin as (r & E & Hr). unfold core_of in E. injection E as <- <- <-.
  unfold look. destruct (GC r Hr) as (Ht & _).
  rewrite (proj2 (st_get_Some (ob_store o) _ _ _) (conj (H r Hr) Ht)), (proj2 (st_get_Some (ob_store o') _ _ _) (conj (H' r Hr) Ht)).
  unfold entry_of. cbn [bind en_item en_ptr]. destruct (g r) as [| | | | |sp d] eqn:Eg; try reflexivity.
  pose proof (needs_ptr tm kd r Hr) as HP. cbn in Ht. destruct (sq_ptr r) as [k|]; [|exfalso; exact (HP _ (eq_sym Ht))].
  cbn [option_map bind]. destruct HP as (sp' & Hsp & _ & Hv). rewrite <- Ht in Hsp. injection Hsp as <-.
  apply in_map_iff in Hv as (v & E & Hv). unfold core_of in E. injection E as <- Etv Epv.
  destruct (GC v Hv) as (Htv & _). rewrite Etv in Htv.
  rewrite (proj2 (st_get_Some (ob_store o) _ _ _) (conj (H v Hv) Htv)), (proj2 (st_get_Some (ob_store o') _ _ _) (conj (H' v Hv) Htv)).
  reflexivity.
Qed.
Lemma holds_look_item tm kd o o' g t k : holds tm kd o g -> holds tm kd o' g -> good_content tm kd g ->
  In (WItem t k) (save_all tm kd) -> look o t (realize (ob_prefix o) k) = look o' t (realize (ob_prefix o') k).
Proof. intros H H' GC Hin. apply (holds_look tm kd o o' g k t None); auto. exact (save_in_needs tm kd _ Hin). Qed.
Lemma holds_look_sup tm kd o o' g sp k : holds tm kd o g -> holds tm kd o' g -> good_content tm kd g ->
  In (WSup sp k) (save_all tm kd) ->
  look o (TySup sp) (realize (ob_prefix o) k ++ sup_suffix sp)%string = look o' (TySup sp) (realize (ob_prefix o') k ++ sup_suffix sp)%string.
Proof.
  intros H H' GC Hin. rewrite <- !realize_suffix. apply (holds_look tm kd o o' g _ _ (Some k)); auto. exact (save_in_needs tm kd _ Hin).
Qed.
Ltac in_tac := first [left; reflexivity | right; in_tac].
Lemma mmap_ext {A B} (f h : A -> option B) l : (forall x, In x l -> f x = h x) -> mmap f l = mmap h l.
Proof.
  induction l as [|x l IH]; intros E; [reflexivity|]. cbn [mmap]. rewrite (E x (or_introl eq_refl)), IH; [reflexivity|].
  intros y Hy. apply E. right. exact Hy.
Qed.
Lemma holds_view tm kd o o' g : holds tm kd o g -> holds tm kd o' g -> good_content tm kd g ->
  (has_idx kd = true -> ob_rate o = ob_rate o') -> view tm kd o = view tm kd o'.
Proof.
  intros H H' GC HR.
  assert (LI : forall t k, In (WItem t k) (save_all tm kd) -> look o t (realize (ob_prefix o) k) = look o' t (realize (ob_prefix o') k))
    by (intros; eapply holds_look_item; eauto).
  assert (LS : forall sp k, In (WSup sp k) (save_all tm kd) ->
    look o (TySup sp) (realize (ob_prefix o) k ++ sup_suffix sp)%string = look o' (TySup sp) (realize (ob_prefix o') k ++ sup_suffix sp)%string)
    by (intros; eapply holds_look_sup; eauto).
  assert (VA : forall k, In (WItem TyAlpha k) (save_all tm kd) -> look_alpha o k = look_alpha o' k)
    by (intros k Hk; unfold look_alpha; rewrite (LI _ _ Hk); reflexivity).
  assert (VR : forall k, In (WItem TyRle k) (save_all tm kd) -> look_rle o k = look_rle o' k)
    by (intros k Hk; unfold look_rle; rewrite (LI _ _ Hk); reflexivity).
  assert (VP : forall d k, In (WItem (TyPsi d) k) (save_all tm kd) -> look_psi o d k = look_psi o' d k)
    by (intros d k Hk; unfold look_psi; rewrite (LI _ _ Hk); reflexivity).
  assert (VI : forall k, In (WItem TyInts k) (save_all tm kd) -> look_ints o k = look_ints o' k)
    by (intros k Hk; unfold look_ints; rewrite (LI _ _ Hk); reflexivity).
  assert (VB : forall c k sups, In (WItem (TyBv c) k) (save_all tm kd) -> (forall sp, In sp sups -> In (WSup sp k) (save_all tm kd)) ->
    look_bv o c k sups = look_bv o' c k sups).
  { intros c k sups Hk Hs. unfold look_bv. rewrite (LI _ _ Hk).
    rewrite (mmap_ext _ (fun sp => look o' (TySup sp) (realize (ob_prefix o') k ++ sup_suffix sp)%string)); [reflexivity|].
    intros sp Hsp. apply LS. auto. }
  clear H H' GC LI LS. unfold view.
  rewrite (VA k_alpha) by (destruct kd; left; reflexivity).
  destruct kd; cbn [has_idx has_cum has_valid has_areas has_idx_select] in *; try rewrite (HR eq_refl);
    try rewrite (VI k_sa) by (cbn; in_tac); try rewrite (VI (k_samples _)) by (cbn; in_tac); try rewrite (VI (k_links _)) by (cbn; in_tac);
    try rewrite (VI (k_cum _)) by (cbn; in_tac); try rewrite (VI (k_areas _)) by (cbn; in_tac);
    try rewrite (VP _ (k_nav _)) by (cbn; in_tac); try rewrite (VR (k_nav _)) by (cbn; in_tac);
    try rewrite (VB _ (k_marks _)) by (first [cbn; in_tac | intros sp [<-|[<-|[]]]; cbn; in_tac]);
    try rewrite (VB _ (k_idx _)) by (first [cbn; in_tac | intros sp [<-|[]]; cbn; in_tac | intros sp [<-|[<-|[]]]; cbn; in_tac]);
    try rewrite (VB _ (k_valid _)) by (first [cbn; in_tac | intros sp []; cbn; in_tac | intros sp [<-|[]]; cbn; in_tac]);
    reflexivity.
Qed.
