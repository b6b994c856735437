(** C68: a copy of an index is an index of its own.  C69: std::move hands an index over.  C70: objects do not
    disturb each other.

    [m0] is any memory a program can reach, [l0] and [l] are any further operations on any objects.  [None] as
    an answer: the query follows a reference to something that is gone (or there is nothing to query). *)
From Coq Require Import List Arith Bool String Lia.
From Verif Require Import Spec MBase MRle MConstruct MRIndex MSrIndex MPsi MCsa MSrCsa Glue PropertiesSrCsa MStore SpecStore
  StoreProof StoreClass StoreTrip StoreRound StoreBuilt StoreEnd PropertiesStore MLife SpecLife LifeProof LifeEnd.
Import ListNotations.

(** What other objects do is of no importance to an object with a storage of its own: it answers as after
    its load until it is loaded, assigned, moved from or destroyed. *)
Theorem C70_own_storage : forall tm kd m0 x rate src l m,
  reachable tm kd m0 -> steps tm kd m0 (ONew x rate :: OLoad x src :: l) = Some m -> Forall (leaves x) l ->
  exists o, load_any tm kd (fresh rate) src = Some o /\
    (forall p, at_locate tm kd m x p = obj_locate tm kd o p) /\ (forall p, at_count tm kd m x p = obj_count tm kd o p).
Proof.
  intros tm kd m0 x rate src l m R H F. apply reachable_inv in R.
  change (ONew x rate :: OLoad x src :: l) with ([ONew x rate; OLoad x src] ++ l) in H. rewrite steps_app in H.
  apply bind_Some in H as (m1 & H1 & H). destruct (new_load tm kd m0 x rate src m1 R H1) as (o & a & L & I1 & Hx & ns & Hn & S & P).
  exists o. split; [exact L|]. apply reach_obj, looks_reach. eexists. exists a, ns.
  split; [exact (steps_obj tm kd x l _ _ _ I1 H F Hx)|]. split; [reflexivity|]. rewrite (steps_own tm kd x a l _ _ _ I1 H F Hx eq_refl). auto.
Qed.
Print Assumptions C70_own_storage.

(** A copy answers as its original as long as the original is left alone. *)
Theorem C68_copy : forall tm kd m0 x y rate src l0 c l m,
  reachable tm kd m0 -> copies kd y x c -> Forall (leaves x) l0 -> Forall (leaves x) l -> Forall (leaves y) l ->
  steps tm kd m0 ([ONew x rate; OLoad x src] ++ l0 ++ [c] ++ l) = Some m ->
  exists o, load_any tm kd (fresh rate) src = Some o /\
    (forall p, at_locate tm kd m y p = obj_locate tm kd o p) /\ (forall p, at_count tm kd m y p = obj_count tm kd o p).
Proof.
  intros tm kd m0 x y rate src l0 c l m R C F0 Fx Fy H. apply reachable_inv in R. rewrite !steps_app in H.
  apply bind_Some in H as (m1 & H1 & H). rewrite steps_app in H. apply bind_Some in H as (m2 & H2 & H).
  rewrite steps_app in H. apply bind_Some in H as (m3 & H3 & H). cbn [steps] in H3. apply bind_Some in H3 as (m3' & H3 & E). injection E as ->.
  destruct (new_load tm kd m0 x rate src m1 R H1) as (o & a & L & I1 & Hx & ns & Hn & S & P).
  pose proof (proj1 (steps_inv tm kd _ _ _ I1 H2)) as I2. pose proof (kp_inv _ _ _ (step_kept tm kd _ _ _ I2 H3)) as I3.
  pose proof (steps_obj tm kd x l0 _ _ _ I1 H2 F0 Hx) as Hx2. pose proof (steps_own tm kd x a l0 _ _ _ I1 H2 F0 Hx eq_refl) as Hn2.
  destruct (do_copy tm kd m2 y x c m3 _ I2 C Hx2 H3) as (pl & Hy3 & Hx3 & b & _ & _ & Hn3).
  exists o. split; [exact L|]. apply reach_obj, looks_reach. eexists. exists a, ns.
  split; [exact (steps_obj tm kd y l _ _ _ I3 H Fy Hy3)|]. split; [reflexivity|].
  rewrite (steps_own tm kd x a l _ _ _ I3 H Fx Hx3 eq_refl), Hn3, Hn2. auto.
Qed.
Print Assumptions C68_copy.

(** Once the original is destroyed or assigned to, no query of the copy is defined, whatever comes next; for
    all classes.  In the classes that cannot move, this is also what becomes of an object that was moved. *)
Theorem C68_copy_dangles : forall tm kd m0 x y rate src l0 c l1 e l m,
  reachable tm kd m0 -> copies kd y x c -> Forall (leaves x) l0 -> Forall (leaves x) l1 -> Forall (leaves y) l1 ->
  ends x e -> leaves y e -> Forall (leaves y) l ->
  steps tm kd m0 ([ONew x rate; OLoad x src] ++ l0 ++ [c] ++ l1 ++ [e] ++ l) = Some m ->
  (forall p, at_locate tm kd m y p = None) /\ (forall p, at_count tm kd m y p = None).
Proof.
  intros tm kd m0 x y rate src l0 c l1 e l m R C F0 Fx Fy D De Fe H. apply reachable_inv in R. rewrite !steps_app in H.
  apply bind_Some in H as (m1 & H1 & H). rewrite steps_app in H. apply bind_Some in H as (m2 & H2 & H).
  rewrite steps_app in H. apply bind_Some in H as (m3 & H3 & H). cbn [steps] in H3. apply bind_Some in H3 as (m3' & H3 & E). injection E as ->.
  rewrite steps_app in H. apply bind_Some in H as (m4 & H4 & H).
  rewrite steps_app in H. apply bind_Some in H as (m5 & H5 & H). cbn [steps] in H5. apply bind_Some in H5 as (m5' & H5 & E). injection E as ->.
  destruct (new_load tm kd m0 x rate src m1 R H1) as (o & a & L & I1 & Hx & ns & Hn & S & P).
  pose proof (proj1 (steps_inv tm kd _ _ _ I1 H2)) as I2. pose proof (kp_inv _ _ _ (step_kept tm kd _ _ _ I2 H3)) as I3.
  pose proof (steps_obj tm kd x l0 _ _ _ I1 H2 F0 Hx) as Hx2.
  destruct (do_copy tm kd m2 y x c m3 _ I2 C Hx2 H3) as (pl & Hy3 & Hx3 & _).
  pose proof (proj1 (steps_inv tm kd _ _ _ I3 H4)) as I4. pose proof (step_kept tm kd _ _ _ I4 H5) as K5.
  pose proof (steps_obj tm kd x l1 _ _ _ I3 H4 Fx Hx3) as Hx4. pose proof (steps_obj tm kd y l1 _ _ _ I3 H4 Fy Hy3) as Hy4.
  pose proof (do_end tm kd m4 x e m5 _ a I4 D Hx4 eq_refl H5) as Dn.
  assert (Hy5 : me_objs m5 y = me_objs m4 y) by (apply K5; [exact De|congruence]). rewrite Hy4 in Hy5.
  assert (La : a < me_next m5).
  { destruct (inv_obj _ I4 x _ Hx4) as (La & _). cbn in La. pose proof (kp_next _ _ _ K5). lia. }
  apply reach_none. refine (reach_dead tm kd m y _ _ (steps_obj tm kd y l _ _ _ (kp_inv _ _ _ K5) H Fe Hy5) eq_refl _).
  cbn [he_map]. exact (steps_dead tm kd a l _ _ (kp_inv _ _ _ K5) H La Dn).
Qed.
Print Assumptions C68_copy_dangles.

(** In the other classes, the object that takes over another answers as it did, whatever becomes of the
    source. *)
Theorem C69_move : forall tm kd m0 x y rate src l0 c l m,
  reachable tm kd m0 -> takes kd y x c -> Forall (leaves x) l0 -> Forall (leaves y) l ->
  steps tm kd m0 ([ONew x rate; OLoad x src] ++ l0 ++ [c] ++ l) = Some m ->
  exists o, load_any tm kd (fresh rate) src = Some o /\
    (forall p, at_locate tm kd m y p = obj_locate tm kd o p) /\ (forall p, at_count tm kd m y p = obj_count tm kd o p).
Proof.
  intros tm kd m0 x y rate src l0 c l m R C F0 Fy H. apply reachable_inv in R. rewrite !steps_app in H.
  apply bind_Some in H as (m1 & H1 & H). rewrite steps_app in H. apply bind_Some in H as (m2 & H2 & H).
  rewrite steps_app in H. apply bind_Some in H as (m3 & H3 & H). cbn [steps] in H3. apply bind_Some in H3 as (m3' & H3 & E). injection E as ->.
  destruct (new_load tm kd m0 x rate src m1 R H1) as (o & a & L & I1 & Hx & ns & Hn & S & P).
  pose proof (proj1 (steps_inv tm kd _ _ _ I1 H2)) as I2. pose proof (kp_inv _ _ _ (step_kept tm kd _ _ _ I2 H3)) as I3.
  pose proof (steps_obj tm kd x l0 _ _ _ I1 H2 F0 Hx) as Hx2. pose proof (steps_own tm kd x a l0 _ _ _ I1 H2 F0 Hx eq_refl) as Hn2.
  destruct (do_take tm kd m2 y x c m3 _ I2 C Hx2 H3) as (Hy3 & Hn3 & _ & _). cbn [ix_place place_map] in Hn3.
  exists o. split; [exact L|]. apply reach_obj, looks_reach. eexists. exists a, ns.
  split; [exact (steps_obj tm kd y l _ _ _ I3 H Fy Hy3)|]. split; [reflexivity|].
  rewrite (steps_own tm kd y a l _ _ _ I3 H Fy Hy3 eq_refl), Hn3, Hn2. auto.
Qed.
Print Assumptions C69_move.

(** The source of such a move holds no index any more: it answers nothing until it is loaded or assigned to. *)
Theorem C69_source : forall tm kd m0 x y rate src l0 c l m,
  reachable tm kd m0 -> takes kd y x c -> Forall (leaves x) l0 -> Forall (leaves x) l ->
  steps tm kd m0 ([ONew x rate; OLoad x src] ++ l0 ++ [c] ++ l) = Some m ->
  (forall p, at_locate tm kd m x p = None) /\ (forall p, at_count tm kd m x p = None).
Proof.
  intros tm kd m0 x y rate src l0 c l m R C F0 Fx H. apply reachable_inv in R. rewrite !steps_app in H.
  apply bind_Some in H as (m1 & H1 & H). rewrite steps_app in H. apply bind_Some in H as (m2 & H2 & H).
  rewrite steps_app in H. apply bind_Some in H as (m3 & H3 & H). cbn [steps] in H3. apply bind_Some in H3 as (m3' & H3 & E). injection E as ->.
  destruct (new_load tm kd m0 x rate src m1 R H1) as (o & a & L & I1 & Hx & ns & Hn & S & P).
  pose proof (proj1 (steps_inv tm kd _ _ _ I1 H2)) as I2. pose proof (kp_inv _ _ _ (step_kept tm kd _ _ _ I2 H3)) as I3.
  pose proof (steps_obj tm kd x l0 _ _ _ I1 H2 F0 Hx) as Hx2.
  destruct (do_take tm kd m2 y x c m3 _ I2 C Hx2 H3) as (_ & _ & _ & j & Hj & Nj).
  apply reach_none. unfold reach. rewrite (steps_obj tm kd x l _ _ _ I3 H Fx Hj). cbn [bind]. rewrite Nj. reflexivity.
Qed.
Print Assumptions C69_source.

(** With the items in a storage that no object owns, copies and moved objects go on answering, whatever
    becomes of the objects they came from, as long as the storage is there. *)
Theorem C70_outer_storage : forall tm kd m0 x y rate a src m1 l0 c l m,
  reachable tm kd m0 -> steps tm kd m0 [ONewExt x rate a; OLoad x src] = Some m1 ->
  (copies kd y x c \/ takes kd y x c) -> Forall (leaves x) l0 -> Forall (leaves y) l ->
  Forall (keeps_storage a) (l0 ++ [c] ++ l) -> steps tm kd m1 (l0 ++ [c] ++ l) = Some m ->
  (forall p s, at_locate tm kd m1 x p = Some s -> at_locate tm kd m y p = Some s) /\
  (forall p r, at_count tm kd m1 x p = Some r -> at_count tm kd m y p = Some r).
Proof.
  intros tm kd m0 x y rate a src m1 l0 c l m R H1 C F0 Fy Fa H. apply reachable_inv in R.
  pose proof (proj1 (steps_inv tm kd _ _ _ R H1)) as I1.
  assert (A : exists i, me_objs m1 x = Some i /\ ix_place i = Ext a /\ (exists h, ix_held i = Some h /\ he_map h = a) /\
                me_ext m1 a = true /\ exists ns, me_maps m1 a = Some ns).
  { cbn [steps step] in H1. apply bind_Some in H1 as (m' & H1 & H2). apply bind_Some in H1 as (u & Hf & H1).
    destruct (me_ext m0 a) eqn:E; [|discriminate]. injection H1 as <-. apply bind_Some in H2 as (m2 & H2 & E2). injection E2 as ->.
    cbn [set_obj me_objs me_maps] in H2. rewrite upd_same in H2. cbn [bind ix_place place_map] in H2.
    apply bind_Some in H2 as (ns & Hn & H2). apply bind_Some in H2 as (o & Hl & H2). injection H2 as <-.
    eexists. cbn [set_obj set_map me_objs me_maps me_ext]. rewrite upd_same. split; [reflexivity|]. cbn [ix_place ix_held].
    split; [reflexivity|]. split; [eexists; split; reflexivity|]. split; [exact E|]. eexists. apply upd_same. }
  destruct A as (i & Hx & Pi & (h & Hh & Eh) & Ea & ns & Hn).
  assert (Hn' : exists ns', me_maps m a = Some ns' /\ grows (plain ns) (plain ns') /\ selfmade a ns').
  { exact (steps_ext tm kd a (l0 ++ [c] ++ l) m1 m ns I1 H Fa Ea Hn). }
  rewrite steps_app in H. apply bind_Some in H as (m2 & H2 & H). rewrite steps_app in H. apply bind_Some in H as (m3 & H3 & H).
  cbn [steps] in H3. apply bind_Some in H3 as (m3' & H3 & E). injection E as ->.
  pose proof (proj1 (steps_inv tm kd _ _ _ I1 H2)) as I2. pose proof (kp_inv _ _ _ (step_kept tm kd _ _ _ I2 H3)) as I3.
  pose proof (steps_obj tm kd x l0 _ _ _ I1 H2 F0 Hx) as Hx2.
  assert (Hy3 : exists j, me_objs m3 y = Some j /\ ix_held j = Some h).
  { destruct C as [C|C].
    - destruct (do_copy tm kd m2 y x c m3 _ I2 C Hx2 H3) as (pl & Hy3 & _). eexists. split; [exact Hy3|exact Hh].
    - destruct (do_take tm kd m2 y x c m3 _ I2 C Hx2 H3) as (Hy3 & _). eexists. split; [exact Hy3|exact Hh]. }
  destruct Hy3 as (j & Hy3 & Hj). pose proof (steps_obj tm kd y l _ _ _ I3 H Fy Hy3) as Hy.
  destruct Hn' as (ns' & Hn' & G & S').
  assert (V : covers (reach tm kd m1 x) (reach tm kd m y)).
  { unfold reach. rewrite Hx, Hy. cbn [bind]. rewrite Hh, Hj. cbn [bind]. apply see_covers. intros t k. rewrite Eh.
    rewrite (deref_self m1 a ns 0 "" t k Hn (proj2 (inv_ext m1 I1 a Ea) ns Hn)), (deref_self m a ns' 0 "" t k Hn' S').
    apply look_grows. exact G. }
  unfold at_locate, at_count. split; intros p s Q; apply bind_Some in Q as (v & Q1 & Q2); rewrite (V v Q1); exact Q2.
Qed.
Print Assumptions C70_outer_storage.

(** Writing a copy to a stream needs nothing of the original: it gives the stream the original gives, also
    after the end of the original (and the stream can then be read: C46). *)
Theorem C68_save_copy : forall tm kd m0 x y rate src l0 c l m,
  reachable tm kd m0 -> copies kd y x c -> Forall (leaves x) l0 -> Forall (leaves y) l ->
  steps tm kd m0 ([ONew x rate; OLoad x src] ++ l0 ++ [c] ++ l) = Some m ->
  exists o, load_any tm kd (fresh rate) src = Some o /\ at_save tm kd m y = Some (save tm kd o).
Proof.
  intros tm kd m0 x y rate src l0 c l m R C F0 Fy H. apply reachable_inv in R. rewrite !steps_app in H.
  apply bind_Some in H as (m1 & H1 & H). rewrite steps_app in H. apply bind_Some in H as (m2 & H2 & H).
  rewrite steps_app in H. apply bind_Some in H as (m3 & H3 & H). cbn [steps] in H3. apply bind_Some in H3 as (m3' & H3 & E). injection E as ->.
  destruct (new_load tm kd m0 x rate src m1 R H1) as (o & a & L & I1 & Hx & ns & Hn & S & P).
  pose proof (proj1 (steps_inv tm kd _ _ _ I1 H2)) as I2. pose proof (kp_inv _ _ _ (step_kept tm kd _ _ _ I2 H3)) as I3.
  pose proof (steps_obj tm kd x l0 _ _ _ I1 H2 F0 Hx) as Hx2. pose proof (steps_own tm kd x a l0 _ _ _ I1 H2 F0 Hx eq_refl) as Hn2.
  destruct (do_copy tm kd m2 y x c m3 _ I2 C Hx2 H3) as (pl & Hy3 & Hx3 & b & -> & Hb & _). cbn [ix_rate ix_prefix ix_held] in Hy3.
  exists o. split; [exact L|]. unfold at_save. rewrite (steps_obj tm kd y l _ _ _ I3 H Fy Hy3). cbn [bind ix_place place_map ix_rate ix_prefix].
  rewrite (steps_own tm kd y b l _ _ _ I3 H Fy Hy3 eq_refl), Hb, Hn2, Hn. cbn [bind]. rewrite P. destruct o. reflexivity.
Qed.
Print Assumptions C68_save_copy.

(** Loading the copy again after the end of the original succeeds, and makes the index of CSARaw whole; in
    all other classes the supports still have the address of vectors that are gone. *)
Theorem C68_reload : forall tm kd m0 x y rate src l0 c e src2 l m,
  reachable tm kd m0 -> copies kd y x c -> Forall (leaves x) l0 -> ends x e -> leaves y e -> Forall (leaves y) l ->
  steps tm kd m0 ([ONew x rate; OLoad x src] ++ l0 ++ [c; e; OLoad y src2] ++ l) = Some m ->
  exists o, load_any tm kd (fresh rate) src = Some o /\
    (kd <> KCSARaw -> forall p, at_locate tm kd m y p = None) /\
    (kd = KCSARaw -> forall p, at_locate tm kd m y p = obj_locate tm kd o p).
Proof.
  intros tm kd m0 x y rate src l0 c e src2 l m R C F0 D De Fe H. apply reachable_inv in R. rewrite !steps_app in H.
  apply bind_Some in H as (m1 & H1 & H). rewrite steps_app in H. apply bind_Some in H as (m2 & H2 & H).
  cbn [app] in H. cbn [steps] in H. apply bind_Some in H as (m3 & H3 & H). apply bind_Some in H as (m4 & H4 & H). apply bind_Some in H as (m5 & H5 & H).
  destruct (new_load tm kd m0 x rate src m1 R H1) as (o & a & L & I1 & Hx & ns & Hn & S & P).
  pose proof (proj1 (steps_inv tm kd _ _ _ I1 H2)) as I2. pose proof (kp_inv _ _ _ (step_kept tm kd _ _ _ I2 H3)) as I3.
  pose proof (steps_obj tm kd x l0 _ _ _ I1 H2 F0 Hx) as Hx2. pose proof (steps_own tm kd x a l0 _ _ _ I1 H2 F0 Hx eq_refl) as Hn2.
  destruct (do_copy tm kd m2 y x c m3 _ I2 C Hx2 H3) as (pl & Hy3 & Hx3 & b & -> & Hb & _). cbn [ix_rate ix_prefix ix_held] in Hy3.
  pose proof (step_kept tm kd _ _ _ I3 H4) as K4. pose proof (do_end tm kd m3 x e m4 _ a I3 D Hx3 eq_refl H4) as Dn.
  assert (Hy4 : me_objs m4 y = me_objs m3 y) by (apply K4; [exact De|congruence]). rewrite Hy3 in Hy4.
  pose proof (kp_own _ _ _ K4 y _ b Hy3 eq_refl De) as Hb4. rewrite Hb, Hn2, Hn in Hb4.
  assert (La : a < me_next m4).
  { destruct (inv_obj _ I3 x _ Hx3) as (La & _). cbn in La. pose proof (kp_next _ _ _ K4). lia. }
  pose proof (step_kept tm kd _ _ _ (kp_inv _ _ _ K4) H5) as K5.
  cbn [step] in H5. rewrite Hy4 in H5. cbn [bind ix_place place_map ix_rate ix_prefix] in H5. rewrite Hb4 in H5. cbn [bind] in H5.
  apply bind_Some in H5 as (o2 & L2 & H5). injection H5 as <-. rewrite P in L2.
  assert (Rf : reached (ob_store (fresh rate))) by (destruct rate; apply reached_empty).
  pose proof (load_any_again tm kd _ src o _ src2 o2 Rf L L2) as Es.
  set (m5 := set_obj _ _ _) in *.
  assert (Hb5 : me_maps m5 b = Some (retag b ns (ob_store o))) by (cbn; rewrite Es; apply upd_same).
  assert (Dn5 : me_maps m5 a = None) by (cbn; rewrite upd_other; [exact Dn|congruence]).
  assert (Hy5 : me_objs m5 y = Some (mk_idx (ob_rate o2) (ob_prefix o) (Own b) (Some (mk_held (ob_rate o2) (ob_prefix o) b)))) by (cbn; apply upd_same).
  pose proof (steps_obj tm kd y l _ _ _ (kp_inv _ _ _ K5) H Fe Hy5) as Hy.
  pose proof (steps_own tm kd y b l _ _ _ (kp_inv _ _ _ K5) H Fe Hy5 eq_refl) as Hbm. rewrite Hb5 in Hbm.
  assert (Dm : me_maps m a = None).
  { apply (steps_dead tm kd a l m5 m (kp_inv _ _ _ K5) H); [|exact Dn5]. pose proof (kp_next _ _ _ K5). lia. }
  exists o. split; [exact L|]. split.
  - intros K. apply reach_none. apply (reach_dead_sups tm kd m y _ _ (retag b ns (ob_store o)) a K Hy eq_refl); [exact Hbm| |exact Dm].
    intros k cc E. rewrite <- P, retag_again in E. exact (S k cc E).
  - intros ->. apply reach_obj. apply (reach_raw tm m y _ _ (retag b ns (ob_store o)) o Hy eq_refl); [reflexivity|exact Hbm|].
    intros k. rewrite find_retag. destruct (st_find (ob_store o) k); reflexivity.
Qed.
Print Assumptions C68_reload.

(** * Concrete cases, over "abracadabra" *)
Definition life_run (kd : kind) (l : files -> list op) (x : nat) (p : list nat) : option (option (list nat)) :=
  fs <- cache ex_sd kd 3 exf_w exf_sa ;; m <- steps ex_sd kd empty_memory (l fs) ;; Some (at_locate ex_sd kd m x p).
Definition gives (r : option (option (list nat))) (n : nat) : bool :=
  match r with Some (Some s) => List.length s =? n | _ => false end.
Definition dangles (r : option (option (list nat))) : bool :=
  match r with Some None => true | _ => false end.
Example C68_copy_all_classes : forallb (fun kd =>
    gives (life_run kd (fun fs => [ONew 0 (Some 3); OLoad 0 (SrcFiles fs); OCopy 1 0; ONew 2 (Some 3); OLoad 2 (SrcFiles fs); ODestroy 2]) 1 [97]) 5) kinds = true.
Proof. vm_compute. reflexivity. Qed.
Example C68_dangles_all_classes : forallb (fun kd =>
    dangles (life_run kd (fun fs => [ONew 0 (Some 3); OLoad 0 (SrcFiles fs); OCopy 1 0; ODestroy 0]) 1 [97]) &&
    dangles (life_run kd (fun fs => [ONew 0 (Some 3); OLoad 0 (SrcFiles fs); OCopy 1 0; OAssign 0 1]) 1 [97])) kinds = true.
Proof. vm_compute. reflexivity. Qed.
Example C69_move_all_classes : forallb (fun kd =>
    let r := life_run kd (fun fs => [ONew 0 (Some 3); OLoad 0 (SrcFiles fs); ONew 1 None; OMoveAssign 1 0; ODestroy 0]) 1 [97] in
    if moves kd then gives r 5 else dangles r) kinds = true.
Proof. vm_compute. reflexivity. Qed.
Example C70_outer_all_classes : forallb (fun kd =>
    gives (life_run kd (fun fs => [OStorage; ONewExt 0 3 0; OLoad 0 (SrcFiles fs); OMove 1 0; OCopy 2 1; ODestroy 0; ODestroy 1]) 2 [97]) 5) kinds = true.
Proof. vm_compute. reflexivity. Qed.
Example C68_reload_all_classes : forallb (fun kd =>
    let r := life_run kd (fun fs => [ONew 0 (Some 3); OLoad 0 (SrcFiles fs); OCopy 1 0; ODestroy 0; OLoad 1 (SrcFiles fs)]) 1 [97] in
    match kd with KCSARaw => gives r 5 | _ => dangles r end) kinds = true.
Proof. vm_compute. reflexivity. Qed.

(** The copy of an index with exact answers cannot be queried after the end of the original. *)
Lemma copy_ends : forall kd c, In kd kinds -> (c = OCopy 1 0 \/ ~ movable kd /\ c = OMove 1 0) ->
  exists w sa fs o m p l,
  zero_free w /\ is_suffix_array (terminated w) sa /\ pattern_over w p /\
  cache ex_sd kd 3 w sa = Some fs /\ load_config ex_sd kd (new_rate 3 []) fs = Some o /\
  obj_locate ex_sd kd o p = Some l /\ exact_answer p w l /\
  steps ex_sd kd empty_memory [ONew 0 (Some 3); OLoad 0 (SrcFiles fs); c; ODestroy 0] = Some m /\
  at_locate ex_sd kd m 1 p = None.
Proof.
  intros kd c K C.
  assert (HW : zero_free exf_w) by (repeat constructor).
  assert (HSA : is_suffix_array (terminated exf_w) exf_sa) by (apply sa_check_ok; vm_compute; reflexivity).
  assert (HP : pattern_over exf_w [97]) by (split; [discriminate|]; cbn; intuition).
  assert (HN : S (List.length exf_w) < 2 ^ 64).
  { apply Nat.lt_trans with 64; [cbn; repeat constructor|apply Nat.pow_gt_lin_r; repeat constructor]. }
  destruct (build_exact ex_sd kd 3 exf_w exf_sa exf_w 2 [97] HW HSA (or_introl eq_refl)) as (v & r & l & B & _ & LO & X & _); auto.
  destruct (C46_cache_files kd K) as (fs & F & HF & _). pose proof F as F'. unfold cache in F'. rewrite B in F'. injection F' as F'.
  rewrite <- F' in HF at 2. destruct (C46_cache_load ex_sd kd 3 exf_w exf_sa v fs B HF) as (o & L & A & _).
  assert (T : exists m, steps ex_sd kd empty_memory [ONew 0 (Some 3); OLoad 0 (SrcFiles fs); c; ODestroy 0] = Some m).
  { cbn [steps step]. unfold fresh_obj, empty_memory. cbn [bind me_objs alloc me_next me_maps me_ext set_obj].
    rewrite upd_same. cbn [bind ix_place place_map]. rewrite upd_same. cbn [bind load_any ix_rate ix_prefix].
    change (mk_obj 3 (rate_prefix 3) (plain [])) with (new_rate 3 []). rewrite L. cbn [bind].
    destruct C as [->|(M & ->)]; [|apply moves_not_movable in M]; cbn; rewrite ?M; cbn; eauto. }
  destruct T as (m & T). exists exf_w, exf_sa, fs, o, m, [97], l.
  split; [exact HW|]. split; [exact HSA|]. split; [exact HP|]. split; [exact F|]. split; [exact L|]. split; [rewrite A; exact LO|]. split; [exact X|].
  split; [exact T|].
  refine (proj1 (C68_copy_dangles ex_sd kd empty_memory 0 1 (Some 3) (SrcFiles fs) [] c [] (ODestroy 0) [] m _ _ _ _ _ _ _ _ T) [97]);
    auto; try discriminate.
  - exists []. reflexivity.
  - split; [discriminate|]. destruct C as [->|(M & ->)]; auto.
  - left. reflexivity.
Qed.

(** The claim a user would rely on, that a copy is a value, does not hold in any class. *)
Theorem C68_copy_is_value_refuted : forall kd, In kd kinds ->
  exists w sa fs o m p l,
  zero_free w /\ is_suffix_array (terminated w) sa /\ pattern_over w p /\
  cache ex_sd kd 3 w sa = Some fs /\ load_config ex_sd kd (new_rate 3 []) fs = Some o /\
  obj_locate ex_sd kd o p = Some l /\ exact_answer p w l /\
  steps ex_sd kd empty_memory [ONew 0 (Some 3); OLoad 0 (SrcFiles fs); OCopy 1 0; ODestroy 0] = Some m /\
  at_locate ex_sd kd m 1 p = None.
Proof. intros kd K. apply copy_ends; auto. Qed.
Print Assumptions C68_copy_is_value_refuted.

(** Nor does std::move hand an index over in the classes of sr_csa.h and in the classes over runs of Psi
    (r_csa.h:398, sr_csa_psi.h:40). *)
Theorem C69_move_refuted : forall kd, In kd kinds -> ~ movable kd ->
  exists w sa fs o m p l,
  zero_free w /\ is_suffix_array (terminated w) sa /\ pattern_over w p /\
  cache ex_sd kd 3 w sa = Some fs /\ load_config ex_sd kd (new_rate 3 []) fs = Some o /\
  obj_locate ex_sd kd o p = Some l /\ exact_answer p w l /\
  steps ex_sd kd empty_memory [ONew 0 (Some 3); OLoad 0 (SrcFiles fs); OMove 1 0; ODestroy 0] = Some m /\
  at_locate ex_sd kd m 1 p = None.
Proof. intros kd K M. apply copy_ends; auto. Qed.
Print Assumptions C69_move_refuted.
