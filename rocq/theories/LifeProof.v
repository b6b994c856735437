(** Proofs about the life of index objects. *)
From Coq Require Import List Arith Bool String Lia.
From Verif Require Import MBase MStore SpecStore StoreProof StoreClass StoreTrip StoreRound MLife SpecLife.
Import ListNotations.

Lemma upd_same {A} (f : nat -> A) a v : upd f a v a = v.
Proof. unfold upd. rewrite Nat.eqb_refl. reflexivity. Qed.
Lemma upd_other {A} (f : nat -> A) a v x : x <> a -> upd f a v x = f x.
Proof. intros H. unfold upd. apply Nat.eqb_neq in H. rewrite H. reflexivity. Qed.

(** * Nodes *)
Lemma find_plain ns k : st_find (plain ns) k = option_map ce_entry (nd_find ns k).
Proof.
  induction ns as [|[x c] ns IH]; [reflexivity|]. cbn. destruct (String.eqb x k); [reflexivity|exact IH].
Qed.
Lemma find_retag a ns st k : nd_find (retag a ns st) k =
  option_map (fun e => mk_cell e (match nd_find ns k with Some c => ce_home c | None => a end)) (st_find st k).
Proof.
  induction st as [|[x e] st IH]; [reflexivity|]. cbn. destruct (String.eqb_spec x k) as [->|]; [reflexivity|exact IH].
Qed.
Lemma plain_retag a ns st : plain (retag a ns st) = st.
Proof.
  induction st as [|[x e] st IH]; [reflexivity|].
  transitivity ((x, e) :: plain (retag a ns st)); [reflexivity|]. rewrite IH. reflexivity.
Qed.
Lemma retag_again a ns k : nd_find (retag a ns (plain ns)) k = nd_find ns k.
Proof. rewrite find_retag, find_plain. destruct (nd_find ns k) as [[e h]|]; reflexivity. Qed.

(** Every support of the map looks into the map. *)
Definition selfmade (a : nat) (ns : nodes) : Prop := forall k c, nd_find ns k = Some c -> ce_home c = a.
Lemma selfmade_retag a ns st : selfmade a ns -> selfmade a (retag a ns st).
Proof.
  intros H k c. rewrite find_retag. destruct (st_find st k) as [e|]; [|discriminate]. intros E. injection E as <-. cbn.
  destruct (nd_find ns k) as [c|] eqn:E; [apply (H k); exact E|reflexivity].
Qed.
Lemma selfmade_nil a : selfmade a [].
Proof. intros k c H. discriminate. Qed.

Definition nd_grows (ns ns' : nodes) : Prop := forall k c, nd_find ns k = Some c -> nd_find ns' k = Some c.
Lemma retag_grows a ns st : grows (plain ns) st -> nd_grows ns (retag a ns st).
Proof.
  intros G k c H. rewrite find_retag, H. assert (E : st_find (plain ns) k = Some (ce_entry c)) by (rewrite find_plain, H; reflexivity).
  apply G in E. rewrite E. destruct c. reflexivity.
Qed.

(** * Loads *)
Lemma load_any_inv tm kd o src o' : load_any tm kd o src = Some o' -> exists r src' s,
  load_from tm kd (mk_obj r (ob_prefix o) (ob_store o)) src' = Some (o', s).
Proof.
  intros H. destruct src as [fs|i]; cbn [load_any] in H.
  - unfold load_config in H. apply bind_Some in H as ([o1 s] & H & E). injection E as ->.
    exists (ob_rate o), (SrcFiles fs), s. destruct o. exact H.
  - apply bind_Some in H as ([o1 i1] & H & E). injection E as ->. unfold load_stream in H.
    apply bind_Some in H as ([o2 i2] & H1 & H). apply bind_Some in H as ([o3 s] & H & E).
    assert (o3 = o') as -> by (destruct (ls_src s); congruence).
    destruct (writes_rate kd).
    + apply bind_Some in H1 as ([r i3] & _ & E1). injection E1 as <- <-. eauto.
    + injection H1 as <- <-. exists (ob_rate o), (SrcStream i), s. destruct o. exact H.
Qed.
Lemma load_prefix tm kd o src o' s : load_from tm kd o src = Some (o', s) -> ob_prefix o' = ob_prefix o /\ ob_rate o' = ob_rate o.
Proof. intros H. unfold load_from in H. apply bind_Some in H as (s1 & _ & E). injection E as <- _. auto. Qed.
Lemma load_any_spec tm kd o src o' : reached (ob_store o) -> load_any tm kd o src = Some o' ->
  reached (ob_store o') /\ grows (ob_store o) (ob_store o') /\ ob_prefix o' = ob_prefix o.
Proof.
  intros R H. apply load_any_inv in H as (r & src' & s & H). split; [exact (reached_load _ _ (mk_obj r (ob_prefix o) (ob_store o)) _ _ _ R H)|].
  split; [|exact (proj1 (load_prefix _ _ _ _ _ _ H))].
  exact (proj1 (proj2 (proj2 (load_log _ _ (mk_obj r (ob_prefix o) (ob_store o)) _ _ _ (reached_wf _ R) H)))).
Qed.
(** A second load reads nothing and leaves the storage as it is. *)
Lemma load_any_again tm kd o src o1 r src2 o2 : reached (ob_store o) -> load_any tm kd o src = Some o1 ->
  load_any tm kd (mk_obj r (ob_prefix o1) (ob_store o1)) src2 = Some o2 -> ob_store o2 = ob_store o1.
Proof.
  intros R H H2. pose proof (proj1 (load_any_spec _ _ _ _ _ R H)) as R1.
  apply load_any_inv in H as (r1 & s1 & l1 & H). apply load_any_inv in H2 as (r2 & s2 & l2 & H2). cbn [ob_prefix ob_store] in H2.
  assert (A : forall q, exists l, load_from tm kd (mk_obj q (ob_prefix o) (ob_store o)) s1 = Some (mk_obj q (ob_prefix o1) (ob_store o1), l)).
  { intros q. unfold load_from in *. cbn [ob_prefix ob_store ob_rate] in *.
    destruct (run (ob_prefix o) (load_all tm kd ++ load_build tm kd) (mk_lstate (ob_store o) s1 [])) as [s|]; [|discriminate].
    cbn [bind] in *. exists s. injection H as <- _. reflexivity. }
  destruct (A r2) as (l & HA).
  pose proof (load_again tm kd (mk_obj r2 (ob_prefix o) (ob_store o)) s1 _ l s2 (reached_wf _ R) HA) as HG.
  rewrite HG in H2. injection H2 as <- _. reflexivity.
Qed.
Lemma load_files_again tm kd o src o1 r fs : reached (ob_store o) -> load_any tm kd o src = Some o1 ->
  exists o2, load_any tm kd (mk_obj r (ob_prefix o1) (ob_store o1)) (SrcFiles fs) = Some o2.
Proof.
  intros R H. apply load_any_inv in H as (r1 & s1 & l1 & H).
  assert (A : exists l, load_from tm kd (mk_obj r (ob_prefix o) (ob_store o)) s1 = Some (mk_obj r (ob_prefix o1) (ob_store o1), l)).
  { unfold load_from in *. cbn [ob_prefix ob_store ob_rate] in *.
    destruct (run (ob_prefix o) (load_all tm kd ++ load_build tm kd) (mk_lstate (ob_store o) s1 [])) as [s|]; [|discriminate].
    cbn [bind] in *. exists s. injection H as <- _. reflexivity. }
  destruct A as (l & HA).
  pose proof (load_again tm kd (mk_obj r (ob_prefix o) (ob_store o)) s1 _ l (SrcFiles fs) (reached_wf _ R) HA) as HG.
  cbn [load_any]. unfold load_config. rewrite HG. cbn [bind]. eauto.
Qed.

(** * What references denote *)
Lemma see_look tm kd o : see tm kd (look o) (ob_rate o) (ob_prefix o) = view tm kd o.
Proof. destruct kd; reflexivity. Qed.
Lemma mmap_ext {A B} (f g : A -> option B) l : (forall x, f x = g x) -> mmap f l = mmap g l.
Proof. intros H. induction l as [|x l IH]; [reflexivity|]. cbn. rewrite H, IH. reflexivity. Qed.
Lemma see_ext tm kd g g' r p : (forall t k, g t k = g' t k) -> see tm kd g r p = see tm kd g' r p.
Proof.
  intros H.
  assert (Ha : forall k, see_alpha g p k = see_alpha g' p k) by (intros; unfold see_alpha; rewrite H; reflexivity).
  assert (Hr : forall k, see_rle g p k = see_rle g' p k) by (intros; unfold see_rle; rewrite H; reflexivity).
  assert (Hp : forall k, see_psi tm g p k = see_psi tm g' p k) by (intros; unfold see_psi; rewrite H; reflexivity).
  assert (Hi : forall k, see_ints g p k = see_ints g' p k) by (intros; unfold see_ints; rewrite H; reflexivity).
  assert (Hb : forall c k l, see_bv g p c k l = see_bv g' p c k l).
  { intros. unfold see_bv. rewrite H. rewrite (mmap_ext _ (fun sp => g' (TySup sp) (realize p k ++ sup_suffix sp)%string)); [reflexivity|]. intros; apply H. }
  destruct kd; unfold see; cbn; rewrite ?Ha, ?Hr, ?Hp, ?Hi, ?Hb; reflexivity.
Qed.
Definition covers {A} (f g : option A) : Prop := forall x, f = Some x -> g = Some x.
Lemma covers_bind {A B} (f g : option A) (u v : A -> option B) : covers f g -> (forall x, covers (u x) (v x)) ->
  covers (x <- f ;; u x) (x <- g ;; v x).
Proof. intros H K y E. destruct f as [a|]; [|discriminate]. rewrite (H a eq_refl). exact (K a y E). Qed.
Lemma covers_refl {A} (f : option A) : covers f f.
Proof. intros x H. exact H. Qed.
Lemma covers_mmap {A B} (f g : A -> option B) l : (forall x, covers (f x) (g x)) -> covers (mmap f l) (mmap g l).
Proof.
  intros H. induction l as [|x l IH]; [apply covers_refl|]. cbn.
  apply covers_bind; [apply H|]. intros b. apply covers_bind; [exact IH|]. intros; apply covers_refl.
Qed.
Lemma see_covers tm kd g g' r p : (forall t k, covers (g t k) (g' t k)) -> covers (see tm kd g r p) (see tm kd g' r p).
Proof.
  intros H.
  assert (Ha : forall k, covers (see_alpha g p k) (see_alpha g' p k)) by (intros; apply covers_bind; [apply H|intros; apply covers_refl]).
  assert (Hr : forall k, covers (see_rle g p k) (see_rle g' p k)) by (intros; apply covers_bind; [apply H|intros; apply covers_refl]).
  assert (Hp : forall k, covers (see_psi tm g p k) (see_psi tm g' p k)) by (intros; apply covers_bind; [apply H|intros; apply covers_refl]).
  assert (Hi : forall k, covers (see_ints g p k) (see_ints g' p k)) by (intros; apply covers_bind; [apply H|intros; apply covers_refl]).
  assert (Hb : forall c k l, covers (see_bv g p c k l) (see_bv g' p c k l)).
  { intros. apply covers_bind; [apply H|]. intros. apply covers_bind; [apply covers_mmap; intros; apply H|]. intros; apply covers_refl. }
  unfold see. apply covers_bind; [apply Ha|]. intros al.
  destruct kd; cbn; repeat (apply covers_bind; [solve [auto using covers_refl]|intros ?]); apply covers_refl.
Qed.
(** A view without the supports of the marks is no view. *)
Lemma see_no_marks tm kd g r p : kd <> KCSARaw -> (forall sp k, g (TySup sp) k = None) -> see tm kd g r p = None.
Proof.
  intros K H.
  assert (Hb : forall c k sp l, see_bv g p c k (sp :: l) = None).
  { intros. unfold see_bv. cbn [mmap]. rewrite H. destruct (g (TyBv c) (realize p k)); reflexivity. }
  assert (Hm : forall (A : Type) c k sp l (u : list bool -> option A), (x <- see_bv g p c k (sp :: l) ;; u x) = None) by (intros; rewrite Hb; reflexivity).
  unfold see. destruct (see_alpha g p k_alpha); [|reflexivity].
  destruct kd; try contradiction; cbv beta zeta; unfold bind at 1;
    (destruct (see_ints g p _) as [?|]; [|reflexivity]); apply Hm.
Qed.
Lemma see_no_get tm kd g r p : (forall t k, g t k = None) -> see tm kd g r p = None.
Proof. intros H. unfold see, see_alpha. rewrite H. reflexivity. Qed.
(** CSARaw has no supports. *)
Lemma see_raw tm g g' r p : (forall t k, match t with TySup _ => True | _ => g t k = g' t k end) ->
  see tm KCSARaw g r p = see tm KCSARaw g' r p.
Proof.
  intros H. unfold see, see_alpha, see_psi, see_ints. rewrite (H TyAlpha), (H (TyPsi (t_dens tm))), (H TyInts). reflexivity.
Qed.

Lemma deref_self m a ns r p t k : me_maps m a = Some ns -> selfmade a ns ->
  deref m a t k = look (mk_obj r p (plain ns)) t k.
Proof.
  intros H S. unfold deref, look, st_get. rewrite H. cbn [bind ob_store]. rewrite find_plain.
  destruct (nd_find ns k) as [c|] eqn:E; [|reflexivity]. cbn [option_map bind].
  destruct (ty_eq_dec (item_ty (en_item (ce_entry c))) t); [|reflexivity]. cbn [bind].
  rewrite (S k c E), H. reflexivity.
Qed.
(** The view of an object over a map of its own making is that of the object of MStore. *)
Lemma see_self tm kd m a ns r p : me_maps m a = Some ns -> selfmade a ns ->
  see tm kd (deref m a) r p = view tm kd (mk_obj r p (plain ns)).
Proof.
  intros H S. rewrite <- see_look. apply see_ext. intros t k. apply deref_self; auto.
Qed.
Lemma look_grows r p r' p' st st' t k : grows st st' -> covers (look (mk_obj r p st) t k) (look (mk_obj r' p' st') t k).
Proof.
  intros G. unfold look. cbn [ob_store].
  assert (GG : forall t k, covers (st_get st t k) (st_get st' t k)).
  { intros t0 k0. unfold st_get. intros x E. destruct (st_find st k0) as [e|] eqn:F; [|discriminate].
    rewrite (G _ _ F). exact E. }
  apply covers_bind; [apply GG|]. intros e. destruct (en_item e); try apply covers_refl.
  apply covers_bind; [apply covers_refl|]. intros q. apply covers_bind; [apply GG|]. intros; apply covers_refl.
Qed.

(** * Invariants of memories *)
Record inv (m : memory) : Prop := mk_inv {
  inv_map : forall a ns, me_maps m a = Some ns -> a < me_next m /\ reached (plain ns);
  inv_ext : forall a, me_ext m a = true -> a < me_next m /\ (forall ns, me_maps m a = Some ns -> selfmade a ns);
  inv_obj : forall x i, me_objs m x = Some i -> place_map (ix_place i) < me_next m /\
              (forall h, ix_held i = Some h -> he_map h < me_next m) /\
              match ix_place i with Own a => me_ext m a = false /\ me_maps m a <> None | Ext a => me_ext m a = true end;
  inv_own : forall x y i j a, me_objs m x = Some i -> me_objs m y = Some j -> ix_place i = Own a -> ix_place j = Own a -> x = y }.

(** What an operation does to the storage [a]: it stays as it is, it grows by a load, or it ends. *)
Inductive map_change (a : nat) (m m' : memory) : Prop :=
| mc_same : me_maps m' a = me_maps m a -> map_change a m m'
| mc_load : forall ns st, me_maps m a = Some ns -> grows (plain ns) st -> me_maps m' a = Some (retag a ns st) -> map_change a m m'
| mc_end : me_maps m' a = None -> map_change a m m'.

Ltac inv_bind H := match type of H with bind ?f _ = Some _ => apply bind_Some in H as (? & ? & H) end.

Section Steps.
  Variables (tm : tmpl) (kd : kind).
  Notation stp := (step tm kd).

  Lemma inv_empty : inv empty_memory.
  Proof. split; cbn; try discriminate. Qed.

  (** Building blocks. *)
  Lemma inv_alloc m ns : inv m -> reached (plain ns) -> inv (fst (alloc m ns)).
  Proof.
    intros [I1 I2 I3 I4] R. unfold alloc. cbn [fst]. split; cbn [me_next me_maps me_ext me_objs].
    - intros a ms H. destruct (Nat.eq_dec a (me_next m)) as [->|N].
      + rewrite upd_same in H. injection H as <-. split; [lia|exact R].
      + rewrite upd_other in H by exact N. apply I1 in H as (? & ?). split; [lia|auto].
    - intros a H. apply I2 in H as (L & S). split; [lia|]. rewrite upd_other by lia. exact S.
    - intros x i H. apply I3 in H as (L & Hh & P). split; [lia|]. split; [intros h E; apply Hh in E; lia|].
      destruct (ix_place i) as [a|a]; cbn in L; [|exact P]. rewrite upd_other by lia. exact P.
    - exact I4.
  Qed.
  (** An object put at [x]. *)
  Lemma inv_set m x i : inv m ->
    place_map (ix_place i) < me_next m -> (forall h, ix_held i = Some h -> he_map h < me_next m) ->
    match ix_place i with Own a => me_ext m a = false /\ me_maps m a <> None | Ext a => me_ext m a = true end ->
    (forall a y j, ix_place i = Own a -> me_objs m y = Some j -> ix_place j = Own a -> y = x) ->
    inv (set_obj m x (Some i)).
  Proof.
    intros [I1 I2 I3 I4] L Hh P O. split; cbn [set_obj me_next me_maps me_ext me_objs]; auto.
    - intros y j H. destruct (Nat.eq_dec y x) as [->|N].
      + rewrite upd_same in H. injection H as <-. auto.
      + rewrite upd_other in H by exact N. exact (I3 y j H).
    - intros y z j k a Hy Hz Pj Pk. destruct (Nat.eq_dec y x) as [->|Ny], (Nat.eq_dec z x) as [->|Nz]; auto.
      + rewrite upd_same in Hy. rewrite upd_other in Hz by exact Nz. injection Hy as <-. symmetry. eauto.
      + rewrite upd_same in Hz. rewrite upd_other in Hy by exact Ny. injection Hz as <-. eauto.
      + rewrite upd_other in Hy by exact Ny. rewrite upd_other in Hz by exact Nz. eauto.
  Qed.
  Lemma inv_unset m x : inv m -> inv (set_obj m x None).
  Proof.
    intros [I1 I2 I3 I4]. split; cbn [set_obj me_next me_maps me_ext me_objs]; auto.
    - intros y j H. unfold upd in H. destruct (y =? x); [discriminate|]. exact (I3 y j H).
    - intros y z j k a Hy Hz. unfold upd in Hy, Hz. destruct (y =? x); [discriminate|]. destruct (z =? x); [discriminate|]. eauto.
  Qed.
  (** A storage whose owner is gone ends. *)
  Lemma inv_free m pl : inv m -> (forall a y j, pl = Own a -> me_objs m y = Some j -> ix_place j <> Own a) ->
    inv (free_place m pl).
  Proof.
    intros [I1 I2 I3 I4] O. destruct pl as [a|a]; [|split; auto]. cbn [free_place].
    split; cbn [set_map me_next me_maps me_ext me_objs]; auto.
    - intros b ns H. unfold upd in H. destruct (b =? a); [discriminate|]. auto.
    - intros b H. destruct (I2 b H) as (L & S). split; [exact L|]. intros ns E. unfold upd in E. destruct (b =? a); [discriminate|]. auto.
    - intros x i H. destruct (I3 x i H) as (L & Hh & P). split; [exact L|]. split; [exact Hh|].
      destruct (ix_place i) as [b|b] eqn:E; [|exact P]. rewrite upd_other; [exact P|]. intros ->. exact (O a x i eq_refl H E).
  Qed.

  Lemma copy_to_inv m y i m' : inv m -> (forall x, me_objs m x = Some i -> True) ->
    (exists x, me_objs m x = Some i) -> copy_to m y i = Some m' ->
    inv m' /\ (forall x, x <> y -> me_objs m' x = me_objs m x) /\
    (forall a, a < me_next m -> me_maps m' a = me_maps m a) /\ me_next m <= me_next m' /\
    (exists pl, me_objs m' y = Some (mk_idx (ix_rate i) (ix_prefix i) pl (ix_held i)) /\
       match ix_place i with
       | Own a => pl = Own (me_next m) /\ me_maps m' (me_next m) = me_maps m a
       | Ext a => pl = Ext a
       end).
  Proof.
    intros I _ (x & Hx) H. unfold copy_to in H. apply bind_Some in H as ([m1 pl] & H & E). injection E as <-.
    destruct (inv_obj m I x i Hx) as (L & Hh & P).
    destruct (ix_place i) as [a|a] eqn:Ep; cbn [copy_place] in H.
    - apply bind_Some in H as (ns & Hn & H). cbn [alloc] in H. injection H as <- <-.
      pose proof (inv_alloc m ns I (proj2 (inv_map m I _ _ Hn))) as I1. unfold alloc in I1; cbn [fst] in I1.
      split; [|split; [|split; [|split]]].
      + apply inv_set; cbn [ix_place ix_held place_map me_next me_maps me_ext me_objs]; auto.
        * intros h E. apply Hh in E. lia.
        * rewrite upd_same. split; [|discriminate]. destruct (me_ext m (me_next m)) eqn:E; [|reflexivity].
          apply (inv_ext m I) in E as (E & _). lia.
        * intros b z j E Hz Ez. injection E as <-. apply (inv_obj m I) in Hz as (Lz & _). rewrite Ez in Lz. cbn in Lz. lia.
      + intros z Nz. cbn. apply upd_other. exact Nz.
      + intros b Lb. cbn. apply upd_other. lia.
      + cbn. lia.
      + exists (Own (me_next m)). cbn. rewrite !upd_same. auto.
    - injection H as <- <-. split; [|split; [|split; [|split]]].
      + apply inv_set; cbn [ix_place ix_held]; auto. discriminate.
      + intros z Nz. cbn. apply upd_other. exact Nz.
      + auto.
      + cbn. lia.
      + exists (Ext a). cbn. rewrite upd_same. auto.
  Qed.

  Lemma move_to_inv m y x i : inv m -> me_objs m x = Some i -> x <> y ->
    (forall j a, me_objs m y = Some j -> ix_place i = Own a -> ix_place j <> Own a) ->
    let m' := move_to m y x i in
    inv m' /\ (forall z, z <> y -> z <> x -> me_objs m' z = me_objs m z) /\
    (forall a, a < me_next m -> me_maps m' a = me_maps m a) /\ me_next m <= me_next m' /\
    me_objs m' y = Some (mk_idx (ix_rate i) (ix_prefix i) (ix_place i) (ix_held i)) /\
    exists j, me_objs m' x = Some j /\ ix_held j = None /\ (forall a, ix_place j = Own a -> me_next m <= a).
  Proof.
    intros I Hx N Hy m'. subst m'. unfold move_to.
    destruct (inv_obj m I x i Hx) as (L & Hh & P).
    destruct (ix_place i) as [a|a] eqn:Ep; cbn [move_place alloc].
    - set (m1 := mk_memory (S (me_next m)) (upd (me_maps m) (me_next m) (Some [])) (me_ext m) (me_objs m)).
      assert (I1 : inv m1) by exact (inv_alloc m [] I reached_empty).
      split; [|split; [|split; [|split; [|split]]]].
      + split; cbn [set_obj me_next me_maps me_ext me_objs m1].
        * exact (inv_map m1 I1).
        * exact (inv_ext m1 I1).
        * intros z j H. destruct (Nat.eq_dec z x) as [->|Nx].
          { rewrite upd_same in H. injection H as <-. cbn. split; [lia|]. split; [discriminate|]. rewrite upd_same. split; [|discriminate].
            destruct (me_ext m (me_next m)) eqn:E; [|reflexivity]. apply (inv_ext m I) in E as (E & _). lia. }
          rewrite upd_other in H by exact Nx. destruct (Nat.eq_dec z y) as [->|Ny].
          { rewrite upd_same in H. injection H as <-. cbn [ix_place ix_held place_map] in *. split; [lia|].
            split; [intros h E; apply Hh in E; lia|]. rewrite upd_other by lia. exact P. }
          rewrite upd_other in H by exact Ny. exact (inv_obj m1 I1 z j H).
        * assert (A : forall z j b, upd (upd (me_objs m) y (Some (mk_idx (ix_rate i) (ix_prefix i) (Own a) (ix_held i)))) x
              (Some (mk_idx (ix_rate i) "" (Own (me_next m)) None)) z = Some j -> ix_place j = Own b ->
              z = x /\ b = me_next m \/ z = y /\ b = a \/ z <> x /\ z <> y /\ me_objs m z = Some j /\ b < me_next m /\ b <> a).
          { intros z j b H E. destruct (Nat.eq_dec z x) as [->|Nx].
            { rewrite upd_same in H. injection H as <-. injection E as <-. auto. }
            rewrite upd_other in H by exact Nx. destruct (Nat.eq_dec z y) as [->|Ny].
            { rewrite upd_same in H. injection H as <-. injection E as <-. auto. }
            rewrite upd_other in H by exact Ny. right. right. repeat (split; [solve [auto]|]). split.
            - apply (inv_obj m I) in H as (Lz & _). rewrite E in Lz. exact Lz.
            - intros ->. apply Nx. exact (inv_own m I z x j i a H Hx E Ep). }
          cbn in L. intros z1 z2 j1 j2 b H1 H2 E1 E2.
          destruct (A _ _ _ H1 E1) as [(-> & ->)|[(-> & ->)|(N1 & N2 & M1 & L1 & B1)]];
            destruct (A _ _ _ H2 E2) as [(-> & Eb)|[(-> & Eb)|(N3 & N4 & M2 & L2 & B2)]]; try lia; try reflexivity.
          exact (inv_own m I z1 z2 j1 j2 b M1 M2 E1 E2).
      + intros z Ny Nx. cbn. rewrite !upd_other by auto. reflexivity.
      + intros b Lb. cbn. apply upd_other. lia.
      + cbn. lia.
      + cbn. rewrite upd_other by auto. rewrite upd_same. reflexivity.
      + eexists. cbn. rewrite upd_same. split; [reflexivity|]. split; [reflexivity|]. intros b E. injection E as <-. lia.
    - split; [|split; [|split; [|split; [|split]]]].
      + apply inv_set; cbn [ix_place ix_held place_map]; auto; try discriminate.
        apply inv_set; cbn [ix_place ix_held place_map]; auto. discriminate.
      + intros z Ny Nx. cbn. rewrite !upd_other by auto. reflexivity.
      + auto.
      + cbn. lia.
      + cbn. rewrite upd_other by auto. rewrite upd_same. reflexivity.
      + eexists. cbn. rewrite upd_same. split; [reflexivity|]. split; [reflexivity|]. discriminate.
  Qed.

  (** What one operation keeps. *)
  Record kept (o : op) (m m' : memory) : Prop := mk_kept {
    kp_inv : inv m';
    kp_next : me_next m <= me_next m';
    kp_obj : forall x, leaves x o -> me_objs m x <> None -> me_objs m' x = me_objs m x;
    kp_map : forall a, a < me_next m -> map_change a m m';
    kp_own : forall x i a, me_objs m x = Some i -> ix_place i = Own a -> leaves x o -> me_maps m' a = me_maps m a;
    kp_ext : forall a, me_ext m a = true -> me_ext m' a = true /\ (keeps_storage a o -> me_maps m a <> None -> me_maps m' a <> None) }.

  (** Operations that end no storage but perhaps that of an object [y] they take away, and add others. *)
  Lemma kept_free o m m1 j m' pl : inv m -> inv m1 -> me_next m <= me_next m1 ->
    (forall x, leaves x o -> me_objs m x <> None -> me_objs m1 x = me_objs m x) ->
    (forall a, a < me_next m -> me_maps m1 a = me_maps m a) ->
    (forall a, me_ext m1 a = me_ext m a) ->
    m' = free_place m1 pl ->
    (forall a, pl = Own a -> exists y, me_objs m y = Some j /\ ix_place j = Own a /\ ~ leaves y o) ->
    (forall a y i, pl = Own a -> me_objs m1 y = Some i -> ix_place i <> Own a) ->
    kept o m m'.
  Proof.
    intros I I1 Ln Ho Hm He -> Hp Hq.
    assert (En : me_next (free_place m1 pl) = me_next m1) by (destruct pl; reflexivity).
    assert (Ex : me_ext (free_place m1 pl) = me_ext m1) by (destruct pl; reflexivity).
    assert (Eo : me_objs (free_place m1 pl) = me_objs m1) by (destruct pl; reflexivity).
    assert (Em : forall a, pl <> Own a -> me_maps (free_place m1 pl) a = me_maps m1 a).
    { intros a N. destruct pl as [b|b]; [|reflexivity]. cbn. apply upd_other. congruence. }
    assert (D : forall a, pl = Own a \/ pl <> Own a).
    { intros a. destruct pl as [b|b]; [|right; discriminate]. destruct (Nat.eq_dec b a) as [->|N]; [auto|right; congruence]. }
    split.
    - apply inv_free; auto.
    - lia.
    - intros x Hl Hx. rewrite Eo. auto.
    - intros a La. destruct (D a) as [->|N].
      + apply mc_end. cbn. apply upd_same.
      + apply mc_same. rewrite Em by exact N. auto.
    - intros x i a Hx Hp1 Hl. destruct (D a) as [->|N].
      + destruct (Hp a eq_refl) as (y & Hy & Py & Ny). pose proof (inv_own m I x y i j a Hx Hy Hp1 Py) as ->. contradiction.
      + rewrite Em by exact N. apply Hm. apply (inv_obj m I) in Hx as (Lx & _). rewrite Hp1 in Lx. exact Lx.
    - intros a Ea. rewrite Ex, He. split; [exact Ea|]. intros _ Ha. destruct (D a) as [->|N].
      + destruct (Hp a eq_refl) as (y & Hy & Py & _). apply (inv_obj m I) in Hy as (_ & _ & P). rewrite Py in P. destruct P as (P & _). congruence.
      + rewrite Em, Hm; [exact Ha|apply (inv_ext m I); exact Ea|exact N].
  Qed.
  Lemma copy_ext m y i m' : copy_to m y i = Some m' -> me_ext m' = me_ext m.
  Proof.
    unfold copy_to. intros H. apply bind_Some in H as ([m1 pl] & H & E). injection E as <-. cbn.
    destruct (ix_place i); cbn [copy_place] in H.
    - apply bind_Some in H as (ns & _ & H). injection H as <- _. reflexivity.
    - injection H as <- _. reflexivity.
  Qed.
  Lemma move_ext m y x i : me_ext (move_to m y x i) = me_ext m.
  Proof. unfold move_to. destruct (ix_place i); reflexivity. Qed.
  Lemma fresh_objs m x u : fresh_obj m x = Some u -> me_objs m x = None.
  Proof. unfold fresh_obj. destruct (me_objs m x); [discriminate|reflexivity]. Qed.

  Lemma step_kept m o m' : inv m -> stp m o = Some m' -> kept o m m'.
  Proof.
    intros I H. destruct o as [|a|x rate|x rate a|x src|y x|y x|y x|y x|x]; cbn [step] in H.
    - cbn [alloc] in H. injection H as <-. pose proof (inv_alloc m [] I reached_empty) as I1. unfold alloc in I1. cbn [fst] in I1.
      split; cbn [me_next me_maps me_ext me_objs].
      + destruct I1 as [A1 A2 A3 A4]. split; cbn [me_next me_maps me_ext me_objs] in *; auto.
        * intros a E. destruct (Nat.eq_dec a (me_next m)) as [->|N].
          { split; [lia|]. rewrite upd_same. intros ns E1. injection E1 as <-. apply selfmade_nil. }
          rewrite upd_other in E by exact N. auto.
        * intros x i E. destruct (A3 x i E) as (L & Hh & P). split; [exact L|]. split; [exact Hh|].
          destruct (inv_obj m I x i E) as (L' & _).
          destruct (ix_place i) as [a|a]; cbn in L'; rewrite (upd_other (me_ext m)) by lia; exact P.
      + lia.
      + auto.
      + intros a L. apply mc_same. cbn. apply upd_other. lia.
      + intros x i a Hx P _. apply upd_other. apply (inv_obj m I) in Hx as (L & _). rewrite P in L. cbn in L. lia.
      + intros a E. assert (L : a < me_next m) by (apply (inv_ext m I); exact E). rewrite !upd_other by lia. auto.
    - destruct (me_ext m a) eqn:E; [|discriminate]. injection H as <-.
      assert (O : forall x i b, me_objs m x = Some i -> ix_place i = Own b -> b <> a).
      { intros x i b Hx P ->. apply (inv_obj m I) in Hx as (_ & _ & Q). rewrite P in Q. destruct Q. congruence. }
      split; cbn [set_map me_next me_maps me_ext me_objs]; auto.
      + apply (inv_free m (Own a) I). intros b y j Eb Hy P. injection Eb as <-. exact (O y j a Hy P eq_refl).
      + intros b L. destruct (Nat.eq_dec b a) as [->|N]; [apply mc_end; cbn; apply upd_same|apply mc_same; cbn; apply upd_other; exact N].
      + intros x i b Hx P _. apply upd_other. exact (O x i b Hx P).
      + intros b Eb. split; [exact Eb|]. intros K Hb. rewrite upd_other; [exact Hb|]. intros ->. apply K. reflexivity.
    - apply bind_Some in H as (u & Hf & H). apply fresh_objs in Hf. cbn [alloc] in H. injection H as <-.
      pose proof (inv_alloc m [] I reached_empty) as I1. unfold alloc in I1. cbn [fst] in I1.
      set (i := match rate with Some r => mk_idx r (rate_prefix r) (Own (me_next m)) None | None => mk_idx 1 "" (Own (me_next m)) None end).
      assert (Pi : ix_place i = Own (me_next m)) by (destruct rate; reflexivity).
      assert (Hi : ix_held i = None) by (destruct rate; reflexivity).
      split; cbn [set_obj me_next me_maps me_ext me_objs].
      + apply inv_set; auto; cbn [me_next me_maps me_ext me_objs]; rewrite ?Pi, ?Hi.
        * cbn. lia.
        * discriminate.
        * rewrite upd_same. split; [|discriminate]. destruct (me_ext m (me_next m)) eqn:E; [|reflexivity]. apply (inv_ext m I) in E as (E & _). lia.
        * intros b z j E Hz Ez. injection E as <-. apply (inv_obj m I) in Hz as (Lz & _). rewrite Ez in Lz. cbn in Lz. lia.
      + lia.
      + intros z Hl _. apply upd_other. cbn in Hl. auto.
      + intros b L. apply mc_same. cbn. apply upd_other. lia.
      + intros z j b Hz P _. apply upd_other. apply (inv_obj m I) in Hz as (L & _). rewrite P in L. cbn in L. lia.
      + intros b E. assert (L : b < me_next m) by (apply (inv_ext m I); exact E). rewrite !upd_other by lia. auto.
    - apply bind_Some in H as (u & Hf & H). apply fresh_objs in Hf. destruct (me_ext m a) eqn:E; [|discriminate]. injection H as <-.
      split; cbn [set_obj me_next me_maps me_ext me_objs]; auto.
      + apply inv_set; auto; cbn [ix_place ix_held place_map]; [apply (inv_ext m I); exact E|discriminate|discriminate].
      + intros z Hl _. apply upd_other. cbn in Hl. auto.
      + intros b L. apply mc_same. reflexivity.
    - apply bind_Some in H as (i & Hx & H). apply bind_Some in H as (ns & Hn & H). apply bind_Some in H as (o & Hl & H). injection H as <-.
      destruct (inv_obj m I x i Hx) as (L & Hh & P). set (a := place_map (ix_place i)) in *.
      destruct (inv_map m I a ns Hn) as (_ & R).
      destruct (load_any_spec tm kd (mk_obj (ix_rate i) (ix_prefix i) (plain ns)) src o R Hl) as (R' & G & _). cbn [ob_store] in G.
      assert (I1 : inv (set_map m a (Some (retag a ns (ob_store o))))).
      { destruct I as [I1 I2 I3 I4]. split; cbn [set_map me_next me_maps me_ext me_objs]; auto.
        - intros b ms E. destruct (Nat.eq_dec b a) as [->|N].
          + rewrite upd_same in E. injection E as <-. split; [exact L|]. rewrite plain_retag. exact R'.
          + rewrite upd_other in E by exact N. auto.
        - intros b E. destruct (I2 b E) as (Lb & S). split; [exact Lb|]. intros ms Em. destruct (Nat.eq_dec b a) as [->|N].
          + rewrite upd_same in Em. injection Em as <-. apply selfmade_retag. auto.
          + rewrite upd_other in Em by exact N. auto.
        - intros z j E. destruct (I3 z j E) as (Lz & Hz & Pz). split; [exact Lz|]. split; [exact Hz|].
          destruct (ix_place j) as [b|b]; [|exact Pz]. destruct (Nat.eq_dec b a) as [->|N].
          + rewrite upd_same. split; [apply Pz|discriminate].
          + rewrite upd_other by exact N. exact Pz. }
      split; cbn [set_obj set_map me_next me_maps me_ext me_objs]; auto.
      + apply inv_set; auto; cbn [ix_place ix_held set_map me_next me_maps me_ext me_objs].
        * intros h E. injection E as <-. exact L.
        * destruct (ix_place i) as [b|b] eqn:Ep; [|exact P]. cbn in a. subst a. rewrite upd_same. split; [apply P|discriminate].
        * intros b z j E Hz Ez. exact (inv_own m I z x j i b Hz Hx Ez E).
      + intros z Hz _. apply upd_other. cbn in Hz. auto.
      + intros b Lb. destruct (Nat.eq_dec b a) as [->|N].
        * apply (mc_load _ _ _ ns (ob_store o)); auto. cbn. apply upd_same.
        * apply mc_same. cbn. apply upd_other. exact N.
      + intros z j b Hz Pz Nz. apply upd_other. intros ->. cbn in Nz. destruct (ix_place i) as [c|c] eqn:Ep; cbn in a; subst a.
        * apply Nz. exact (inv_own m I x z i j c Hx Hz Ep Pz).
        * apply (inv_obj m I) in Hz as (_ & _ & Q). rewrite Pz in Q. destruct Q. congruence.
      + intros b Eb. split; [exact Eb|]. intros _ Hb. unfold upd. destruct (b =? a); [discriminate|exact Hb].
    - apply bind_Some in H as (u & Hf & H). apply fresh_objs in Hf. apply bind_Some in H as (i & Hx & H).
      pose proof (copy_ext _ _ _ _ H) as Ex. destruct (copy_to_inv m y i m' I (fun _ _ => Logic.I) (ex_intro _ x Hx) H) as (I1 & Ho & Hm & Ln & _).
      apply (kept_free _ m m' i m' (Ext 0)); auto; try discriminate; try (intros z Hz _; cbn in Hz; apply Ho; intuition); try (intros; rewrite ?Ex, ?move_ext; reflexivity).
    - apply bind_Some in H as (u & Hf & H). apply fresh_objs in Hf. apply bind_Some in H as (i & Hx & H).
      assert (N : x <> y) by congruence. destruct (moves kd).
      + injection H as <-. destruct (move_to_inv m y x i I Hx N) as (I1 & Ho & Hm & Ln & _ & _); [congruence|].
        apply (kept_free _ m (move_to m y x i) i _ (Ext 0)); auto; try discriminate; try (intros z Hz _; cbn in Hz; apply Ho; intuition); try (intros; rewrite ?Ex, ?move_ext; reflexivity).
      + pose proof (copy_ext _ _ _ _ H) as Ex. destruct (copy_to_inv m y i m' I (fun _ _ => Logic.I) (ex_intro _ x Hx) H) as (I1 & Ho & Hm & Ln & _).
        apply (kept_free _ m m' i m' (Ext 0)); auto; try discriminate; try (intros z Hz _; cbn in Hz; apply Ho; intuition); try (intros; rewrite ?Ex, ?move_ext; reflexivity).
    - apply bind_Some in H as (j & Hy & H). apply bind_Some in H as (i & Hx & H). destruct (Nat.eqb_spec y x) as [->|N].
      + injection H as <-. apply (kept_free _ m m i m (Ext 0)); auto; discriminate.
      + apply bind_Some in H as (u & Hs & H). apply bind_Some in H as (m1 & H & E). injection E as <-.
        pose proof (copy_ext _ _ _ _ H) as Ex.
        destruct (copy_to_inv m y i m1 I (fun _ _ => Logic.I) (ex_intro _ x Hx) H) as (I1 & Ho & Hm & Ln & pl & Hpl & Q).
        apply (kept_free _ m m1 j _ (ix_place j)); auto; try discriminate; try (intros z Hz _; cbn in Hz; apply Ho; intuition); try (intros; rewrite ?Ex, ?move_ext; reflexivity).
        * intros a Pa. exists y. split; [exact Hy|]. split; [exact Pa|]. cbn. intuition.
        * intros a z k Pa Hz Pz. destruct (Nat.eq_dec z y) as [->|Nz].
          { rewrite Hpl in Hz. injection Hz as <-. cbn in Pz. subst pl. destruct (ix_place i); [|discriminate]. destruct Q as (Q & _). injection Q as ->.
            apply (inv_obj m I) in Hy as (Ly & _). rewrite Pa in Ly. cbn in Ly. lia. }
          rewrite Ho in Hz by exact Nz. apply Nz. exact (inv_own m I z y k j a Hz Hy Pz Pa).
    - apply bind_Some in H as (j & Hy & H). apply bind_Some in H as (i & Hx & H). destruct (Nat.eqb_spec y x) as [->|N]; [discriminate|].
      apply bind_Some in H as (u & Hs & H). destruct (moves kd).
      + injection H as <-. destruct (move_to_inv m y x i I Hx) as (I1 & Ho & Hm & Ln & E1 & E2); [auto| |].
        { intros k a Hk Pi Pk. apply N. exact (inv_own m I y x k i a Hk Hx Pk Pi). }
        apply (kept_free _ m (move_to m y x i) j _ (ix_place j)); auto; try discriminate; try (intros z Hz _; cbn in Hz; apply Ho; intuition); try (intros; rewrite ?Ex, ?move_ext; reflexivity).
        * intros a Pa. exists y. split; [exact Hy|]. split; [exact Pa|]. cbn. intuition.
        * intros a z k Pa Hz Pz. destruct (Nat.eq_dec z y) as [->|Ny].
          { rewrite E1 in Hz. injection Hz as <-. cbn in Pz. apply N. exact (inv_own m I y x j i a Hy Hx Pa Pz). }
          destruct (Nat.eq_dec z x) as [->|Nx].
          { destruct E2 as (k' & Hk & _ & Lk). rewrite Hk in Hz. injection Hz as <-. apply Lk in Pz.
            apply (inv_obj m I) in Hy as (Ly & _). rewrite Pa in Ly. cbn in Ly. lia. }
          rewrite Ho in Hz by auto. apply Ny. exact (inv_own m I z y k j a Hz Hy Pz Pa).
      + apply bind_Some in H as (m1 & H & E). injection E as <-.
        pose proof (copy_ext _ _ _ _ H) as Ex.
        destruct (copy_to_inv m y i m1 I (fun _ _ => Logic.I) (ex_intro _ x Hx) H) as (I1 & Ho & Hm & Ln & pl & Hpl & Q).
        apply (kept_free _ m m1 j _ (ix_place j)); auto; try discriminate; try (intros z Hz _; cbn in Hz; apply Ho; intuition); try (intros; rewrite ?Ex, ?move_ext; reflexivity).
        * intros a Pa. exists y. split; [exact Hy|]. split; [exact Pa|]. cbn. intuition.
        * intros a z k Pa Hz Pz. destruct (Nat.eq_dec z y) as [->|Nz].
          { rewrite Hpl in Hz. injection Hz as <-. cbn in Pz. subst pl. destruct (ix_place i); [|discriminate]. destruct Q as (Q & _). injection Q as ->.
            apply (inv_obj m I) in Hy as (Ly & _). rewrite Pa in Ly. cbn in Ly. lia. }
          rewrite Ho in Hz by exact Nz. apply Nz. exact (inv_own m I z y k j a Hz Hy Pz Pa).
    - apply bind_Some in H as (i & Hx & H). injection H as <-.
      apply (kept_free _ m (set_obj m x None) i _ (ix_place i)); auto.
      + apply inv_unset. exact I.
      + intros z Hz _. cbn. apply upd_other. cbn in Hz. auto.
      + intros a Pa. exists x. split; [exact Hx|]. split; [exact Pa|]. cbn. intuition.
      + intros a z k Pa Hz Pz. cbn in Hz. unfold upd in Hz. destruct (Nat.eqb_spec z x) as [->|Nz]; [discriminate|].
        apply Nz. exact (inv_own m I z x k i a Hz Hx Pz Pa).
  Qed.

  (** Histories. *)
  Notation stps := (steps tm kd).
  Lemma steps_inv l : forall m m', inv m -> stps m l = Some m' -> inv m' /\ me_next m <= me_next m'.
  Proof.
    induction l as [|o l IH]; intros m m' I H; [injection H as <-; auto|].
    cbn [steps] in H. apply bind_Some in H as (m1 & H1 & H). pose proof (step_kept m o m1 I H1) as K.
    destruct (IH m1 m' (kp_inv _ _ _ K) H) as (I' & L). split; [exact I'|]. pose proof (kp_next _ _ _ K). lia.
  Qed.
  Lemma steps_app l1 : forall m l2, stps m (l1 ++ l2) = (m1 <- stps m l1 ;; stps m1 l2).
  Proof.
    induction l1 as [|o l1 IH]; intros m l2; [reflexivity|]. cbn [steps app]. destruct (stp m o); [|reflexivity]. apply IH.
  Qed.
  Lemma reachable_inv m : reachable tm kd m -> inv m.
  Proof. intros (l & H). exact (proj1 (steps_inv l _ _ inv_empty H)). Qed.

  Lemma steps_obj x l : forall m m' i, inv m -> stps m l = Some m' -> Forall (leaves x) l -> me_objs m x = Some i ->
    me_objs m' x = Some i.
  Proof.
    induction l as [|o l IH]; intros m m' i I H F Hx; [injection H as <-; exact Hx|].
    cbn [steps] in H. apply bind_Some in H as (m1 & H1 & H). pose proof (step_kept m o m1 I H1) as K. inversion F as [|? ? F1 F2]; subst.
    apply (IH m1 m'); auto; [apply K|]. rewrite (kp_obj _ _ _ K x F1); [exact Hx|congruence].
  Qed.
  (** An untouched object keeps its own storage as it is. *)
  Lemma steps_own x a l : forall m m' i, inv m -> stps m l = Some m' -> Forall (leaves x) l -> me_objs m x = Some i ->
    ix_place i = Own a -> me_maps m' a = me_maps m a.
  Proof.
    induction l as [|o l IH]; intros m m' i I H F Hx P; [injection H as <-; reflexivity|].
    cbn [steps] in H. apply bind_Some in H as (m1 & H1 & H). pose proof (step_kept m o m1 I H1) as K. inversion F as [|? ? F1 F2]; subst.
    rewrite (IH m1 m' i); auto; [exact (kp_own _ _ _ K x i a Hx P F1)|apply K|]. rewrite (kp_obj _ _ _ K x F1); [exact Hx|congruence].
  Qed.
  (** A storage that no object owns only grows until it is dropped. *)
  Lemma steps_ext a l : forall m m' ns, inv m -> stps m l = Some m' -> Forall (keeps_storage a) l -> me_ext m a = true ->
    me_maps m a = Some ns -> exists ns', me_maps m' a = Some ns' /\ grows (plain ns) (plain ns') /\ selfmade a ns'.
  Proof.
    induction l as [|o l IH]; intros m m' ns I H F E Hn.
    - injection H as <-. exists ns. split; [exact Hn|]. split; [apply grows_refl|]. exact (proj2 (inv_ext m I a E) ns Hn).
    - cbn [steps] in H. apply bind_Some in H as (m1 & H1 & H). pose proof (step_kept m o m1 I H1) as K. inversion F as [|? ? F1 F2]; subst.
      destruct (kp_ext _ _ _ K a E) as (E1 & Q). specialize (Q F1). rewrite Hn in Q. specialize (Q ltac:(discriminate)).
      assert (G : exists ns1, me_maps m1 a = Some ns1 /\ grows (plain ns) (plain ns1)).
      { destruct (kp_map _ _ _ K a (proj1 (inv_ext m I a E))) as [S|ns0 st S G S1|S].
        - exists ns. split; [congruence|apply grows_refl].
        - exists (retag a ns0 st). split; [exact S1|]. rewrite plain_retag. assert (ns0 = ns) as -> by congruence. exact G.
        - congruence. }
      destruct G as (ns1 & Hn1 & G1). destruct (IH m1 m' ns1 (kp_inv _ _ _ K) H F2 E1 Hn1) as (ns' & Hn' & G' & S').
      exists ns'. split; [exact Hn'|]. split; [|exact S']. exact (grows_trans _ _ _ G1 G').
  Qed.
  (** A storage that ended stays ended. *)
  Lemma steps_dead a l : forall m m', inv m -> stps m l = Some m' -> a < me_next m -> me_maps m a = None -> me_maps m' a = None.
  Proof.
    induction l as [|o l IH]; intros m m' I H L D; [injection H as <-; exact D|].
    cbn [steps] in H. apply bind_Some in H as (m1 & H1 & H). pose proof (step_kept m o m1 I H1) as K.
    apply (IH m1 m'); auto; [apply K|pose proof (kp_next _ _ _ K); lia|].
    destruct (kp_map _ _ _ K a L) as [S|ns st S _ _|S]; congruence.
  Qed.
End Steps.
