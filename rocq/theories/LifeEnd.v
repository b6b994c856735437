(** The answers of objects, of their copies and of their successors. *)
From Coq Require Import List Arith Bool String Lia.
From Verif Require Import MBase MStore SpecStore StoreProof StoreClass StoreTrip StoreRound MLife SpecLife LifeProof.
Import ListNotations.

Lemma moves_movable kd : movable kd -> moves kd = true.
Proof. intros H. cbn in H. destruct H as [<-|[<-|[<-|[<-|[<-|[<-|[]]]]]]]; reflexivity. Qed.
Lemma moves_not_movable kd : ~ movable kd -> moves kd = false.
Proof. intros H. destruct kd; try reflexivity; exfalso; apply H; cbn; auto 10. Qed.

Section Answers.
  Variables (tm : tmpl) (kd : kind).

  (** An object whose functors look into a map of its making. *)
  Definition looks (m : memory) (x : nat) (o : obj) : Prop :=
    exists i a ns, me_objs m x = Some i /\ ix_held i = Some (mk_held (ob_rate o) (ob_prefix o) a) /\
      me_maps m a = Some ns /\ selfmade a ns /\ plain ns = ob_store o.
  Lemma looks_reach m x o : looks m x o -> reach tm kd m x = view tm kd o.
  Proof.
    intros (i & a & ns & Hi & Hh & Hn & S & P). unfold reach. rewrite Hi. cbn [bind]. rewrite Hh. cbn [bind he_map he_rate he_prefix].
    rewrite (see_self tm kd m a ns _ _ Hn S), P. destruct o. reflexivity.
  Qed.
  Lemma reach_same m x m' x' : reach tm kd m x = reach tm kd m' x' ->
    (forall p, at_locate tm kd m x p = at_locate tm kd m' x' p) /\ (forall p, at_count tm kd m x p = at_count tm kd m' x' p).
  Proof. intros H. unfold at_locate, at_count. rewrite H. auto. Qed.
  Lemma reach_obj m x o : reach tm kd m x = view tm kd o ->
    (forall p, at_locate tm kd m x p = obj_locate tm kd o p) /\ (forall p, at_count tm kd m x p = obj_count tm kd o p).
  Proof. intros H. unfold at_locate, at_count, obj_locate, obj_count. rewrite H. auto. Qed.
  Lemma reach_none m x : reach tm kd m x = None ->
    (forall p, at_locate tm kd m x p = None) /\ (forall p, at_count tm kd m x p = None).
  Proof. intros H. unfold at_locate, at_count. rewrite H. auto. Qed.

  (** A new object after its first load. *)
  Lemma new_load m0 x rate src m1 : inv m0 -> steps tm kd m0 [ONew x rate; OLoad x src] = Some m1 ->
    exists o a, load_any tm kd (fresh rate) src = Some o /\ inv m1 /\
      me_objs m1 x = Some (mk_idx (ob_rate o) (ob_prefix o) (Own a) (Some (mk_held (ob_rate o) (ob_prefix o) a))) /\
      exists ns, me_maps m1 a = Some ns /\ selfmade a ns /\ plain ns = ob_store o.
  Proof.
    intros I H. pose proof (proj1 (steps_inv tm kd _ _ _ I H)) as I1.
    cbn [steps step] in H. apply bind_Some in H as (m & H & H2). apply bind_Some in H as (u & Hf & H).
    cbn [alloc] in H. injection H as <-. apply bind_Some in H2 as (m2 & H2 & E). injection E as ->.
    set (i := match rate with Some r => mk_idx r (rate_prefix r) (Own (me_next m0)) None | None => mk_idx 1 "" (Own (me_next m0)) None end) in *.
    cbn [set_obj me_objs me_maps] in H2. rewrite upd_same in H2. cbn [bind] in H2.
    assert (Pi : ix_place i = Own (me_next m0)) by (destruct rate; reflexivity). rewrite Pi in H2. cbn [place_map] in H2. rewrite upd_same in H2.
    cbn [bind] in H2. apply bind_Some in H2 as (o & Hl & H2). injection H2 as <-.
    assert (Fi : mk_obj (ix_rate i) (ix_prefix i) (plain []) = fresh rate) by (destruct rate; reflexivity). rewrite Fi in Hl.
    assert (Ep : ob_prefix o = ix_prefix i).
    { assert (R : reached (ob_store (fresh rate))) by (destruct rate; apply reached_empty).
      rewrite (proj2 (proj2 (load_any_spec _ _ _ _ _ R Hl))). rewrite <- Fi. reflexivity. }
    exists o, (me_next m0). split; [exact Hl|]. split; [exact I1|]. cbn [set_obj set_map me_objs me_maps].
    rewrite upd_same, <- Ep. split; [reflexivity|]. rewrite upd_same. eexists. split; [reflexivity|].
    split; [apply selfmade_retag, selfmade_nil|apply plain_retag].
  Qed.

  (** A copy. *)
  Lemma do_copy m y x c m' i : inv m -> copies kd y x c -> me_objs m x = Some i -> step tm kd m c = Some m' ->
    exists pl, me_objs m' y = Some (mk_idx (ix_rate i) (ix_prefix i) pl (ix_held i)) /\ me_objs m' x = Some i /\
      match ix_place i with
      | Own a => exists b, pl = Own b /\ me_maps m' b = me_maps m a /\ me_maps m' a = me_maps m a
      | Ext a => pl = Ext a /\ (me_ext m' a = true) /\ me_maps m' a = me_maps m a
      end.
  Proof.
    intros I (N & C) Hx H.
    assert (C' : c = OCopy y x \/ c = OAssign y x \/ moves kd = false /\ (c = OMove y x \/ c = OMoveAssign y x)) by (pose proof (moves_not_movable kd); intuition).
    clear C. rename C' into C.
    assert (A : exists m1, copy_to m y i = Some m1 /\ (m' = m1 \/ exists j, me_objs m y = Some j /\
               same_storage_type (ix_place j) (ix_place i) = Some tt /\ m' = free_place m1 (ix_place j))).
    { destruct C as [->|[->|(M & [->| ->])]]; cbn [step] in H.
      - apply bind_Some in H as (u & Hf & H). rewrite Hx in H. cbn [bind] in H. eauto.
      - apply bind_Some in H as (j & Hy & H). rewrite Hx in H. cbn [bind] in H. rewrite (proj2 (Nat.eqb_neq y x) N) in H.
        apply bind_Some in H as ([] & Hs & H). apply bind_Some in H as (m1 & H & E). injection E as <-. exists m1. split; [exact H|]. right. eauto.
      - apply bind_Some in H as (u & Hf & H). rewrite Hx in H. cbn [bind] in H. rewrite M in H. eauto.
      - apply bind_Some in H as (j & Hy & H). rewrite Hx in H. cbn [bind] in H. rewrite (proj2 (Nat.eqb_neq y x) N), M in H.
        apply bind_Some in H as ([] & Hs & H). apply bind_Some in H as (m1 & H & E). injection E as <-. exists m1. split; [exact H|]. right. eauto. }
    destruct A as (m1 & H1 & A). pose proof (copy_ext _ _ _ _ H1) as Ex.
    destruct (copy_to_inv m y i m1 I (fun _ _ => Logic.I) (ex_intro _ x Hx) H1) as (I1 & Ho & Hm & Ln & pl & Hpl & Q).
    destruct (inv_obj m I x i Hx) as (Lx & _ & Px).
    exists pl. destruct A as [->|(j & Hy & Hs & ->)].
    - split; [exact Hpl|]. split; [rewrite Ho by auto; exact Hx|]. destruct (ix_place i) as [a|a]; cbn in Lx.
      + destruct Q as (-> & Q). exists (me_next m). auto.
      + rewrite Ex. auto.
    - replace (me_objs (free_place m1 (ix_place j))) with (me_objs m1) by (destruct (ix_place j); reflexivity).
      replace (me_ext (free_place m1 (ix_place j))) with (me_ext m1) by (destruct (ix_place j); reflexivity).
      split; [exact Hpl|]. split; [rewrite Ho by auto; exact Hx|].
      destruct (ix_place j) as [c0|c0] eqn:Pj, (ix_place i) as [a|a] eqn:Pi; cbn in Lx, Hs; try discriminate.
      + destruct Q as (-> & Q). exists (me_next m). split; [reflexivity|]. cbn [free_place set_map me_maps].
        destruct (inv_obj m I y j Hy) as (Ly & _). rewrite Pj in Ly. cbn in Ly. rewrite !upd_other; auto.
        * intros ->. apply N. exact (inv_own m I y x j i c0 Hy Hx Pj Pi).
        * lia.
      + rewrite Ex. cbn [free_place]. auto.
  Qed.

  (** A true move. *)
  Lemma do_take m y x c m' i : inv m -> takes kd y x c -> me_objs m x = Some i -> step tm kd m c = Some m' ->
    me_objs m' y = Some (mk_idx (ix_rate i) (ix_prefix i) (ix_place i) (ix_held i)) /\
    me_maps m' (place_map (ix_place i)) = me_maps m (place_map (ix_place i)) /\ me_ext m' = me_ext m /\
    exists j, me_objs m' x = Some j /\ ix_held j = None.
  Proof.
    intros I (M & C) Hx H. apply moves_movable in M. destruct (inv_obj m I x i Hx) as (Lx & _ & Px). destruct C as [->| ->]; cbn [step] in H.
    - apply bind_Some in H as (u & Hf & H). rewrite Hx in H. cbn [bind] in H. rewrite M in H. injection H as <-.
      apply fresh_objs in Hf. destruct (move_to_inv m y x i I Hx) as (_ & Ho & Hm & Ln & E1 & j0 & E2 & E3 & _); [congruence|congruence|].
      split; [exact E1|]. split; [apply Hm; exact Lx|]. split; [apply move_ext|]. eauto.
    - apply bind_Some in H as (j & Hy & H). rewrite Hx in H. cbn [bind] in H. destruct (Nat.eqb_spec y x) as [->|N]; [discriminate|].
      apply bind_Some in H as (u & Hs & H). rewrite M in H. injection H as <-.
      destruct (move_to_inv m y x i I Hx) as (_ & Ho & Hm & Ln & E1 & j0 & E2 & E3 & _); [auto| |].
      { intros k a Hk Pi Pk. apply N. exact (inv_own m I y x k i a Hk Hx Pk Pi). }
      replace (me_objs (free_place (move_to m y x i) (ix_place j))) with (me_objs (move_to m y x i)) by (destruct (ix_place j); reflexivity).
      replace (me_ext (free_place (move_to m y x i) (ix_place j))) with (me_ext (move_to m y x i)) by (destruct (ix_place j); reflexivity).
      split; [exact E1|]. split; [|split; [apply move_ext|eauto]]. rewrite <- (Hm (place_map (ix_place i)) Lx).
      destruct (ix_place j) as [c0|c0] eqn:Pj; [|reflexivity]. cbn [free_place set_map me_maps]. apply upd_other. intros E.
      destruct (ix_place i) as [a|a] eqn:Pi; cbn in E, Hs; [|discriminate]. subst c0. apply N. exact (inv_own m I y x j i a Hy Hx Pj Pi).
  Qed.

  (** The end of the storage of an object. *)
  Lemma do_end m x c m' i a : inv m -> ends x c -> me_objs m x = Some i -> ix_place i = Own a -> step tm kd m c = Some m' ->
    me_maps m' a = None.
  Proof.
    intros I C Hx P H. destruct C as [->|(z & N & [->| ->])]; cbn [step] in H; rewrite Hx in H; cbn [bind] in H.
    - injection H as <-. rewrite P. cbn. apply upd_same.
    - apply bind_Some in H as (k & Hz & H). rewrite (proj2 (Nat.eqb_neq x z) (not_eq_sym N)) in H.
      apply bind_Some in H as (u & Hs & H). apply bind_Some in H as (m1 & H & E). injection E as <-. rewrite P. cbn. apply upd_same.
    - apply bind_Some in H as (k & Hz & H). rewrite (proj2 (Nat.eqb_neq x z) (not_eq_sym N)) in H.
      apply bind_Some in H as (u & Hs & H). destruct (moves kd).
      + injection H as <-. rewrite P. cbn. apply upd_same.
      + apply bind_Some in H as (m1 & H & E). injection E as <-. rewrite P. cbn. apply upd_same.
  Qed.

  (** Functors whose storage is gone. *)
  Lemma reach_dead m x i h : me_objs m x = Some i -> ix_held i = Some h -> me_maps m (he_map h) = None -> reach tm kd m x = None.
  Proof.
    intros Hi Hh D. unfold reach. rewrite Hi. cbn [bind]. rewrite Hh. cbn [bind]. apply see_no_get.
    intros t k. unfold deref. rewrite D. reflexivity.
  Qed.
  (** Supports whose vectors are gone. *)
  Lemma reach_dead_sups m x i h ns a : kd <> KCSARaw -> me_objs m x = Some i -> ix_held i = Some h ->
    me_maps m (he_map h) = Some ns -> selfmade a ns -> me_maps m a = None -> reach tm kd m x = None.
  Proof.
    intros K Hi Hh Hn S D. unfold reach. rewrite Hi. cbn [bind]. rewrite Hh. cbn [bind]. apply see_no_marks; [exact K|].
    intros sp k. unfold deref. rewrite Hn. cbn [bind]. destruct (nd_find ns k) as [c|] eqn:E; [|reflexivity]. cbn [bind].
    destruct (ty_eq_dec (item_ty (en_item (ce_entry c))) (TySup sp)) as [T|]; [|reflexivity].
    destruct (en_item (ce_entry c)); try discriminate. rewrite (S k c E), D. destruct (en_ptr (ce_entry c)); reflexivity.
  Qed.
End Answers.

(** CSARaw has no supports: it needs only its own items. *)
Lemma reach_raw tm m x i h ns o : me_objs m x = Some i -> ix_held i = Some h -> he_prefix h = ob_prefix o ->
  me_maps m (he_map h) = Some ns -> (forall k, option_map ce_entry (nd_find ns k) = st_find (ob_store o) k) ->
  reach tm KCSARaw m x = view tm KCSARaw o.
Proof.
  intros Hi Hh Hp Hn E. unfold reach. rewrite Hi. cbn [bind]. rewrite Hh. cbn [bind]. rewrite <- see_look, Hp.
  transitivity (see tm KCSARaw (look o) (he_rate h) (ob_prefix o)); [|reflexivity].
  apply see_raw. intros t k. destruct t; try exact Logic.I;
    unfold deref, look, st_get; rewrite Hn; cbn [bind]; rewrite <- E; destruct (nd_find ns k) as [cc|]; try reflexivity; cbn [option_map bind];
    (destruct (ty_eq_dec (item_ty (en_item (ce_entry cc))) _) as [T|]; [|reflexivity]); cbn [bind];
    destruct (en_item (ce_entry cc)); try discriminate; reflexivity.
Qed.
