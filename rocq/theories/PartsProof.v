(** Proofs about the life of RLEString and PsiCoreBV objects. *)
From Coq Require Import List Arith Bool Lia.
From Verif Require Import MBase MParts SpecParts StoreProof.
Import ListNotations.

Section Proofs.
  Variables (A : Type) (cls : part_class).
  Notation pmem := (pmem A). Notation pobj := (pobj A).
  Notation stp := (pstep A cls). Notation stps := (psteps A cls).
  Notation bits := (pm_bits A). Notation objs := (pm_objs A). Notation nxt := (pm_next A).

  Definition homes (l : list slot) : list nat := map sl_home l.
  Record inv (m : pmem) : Prop := mk_inv {
    i_bits : forall a b, bits m a = Some b -> a < nxt m;
    i_obj : forall x o, objs m x = Some o -> NoDup (homes (po_slots A o)) /\ forall h, In h (homes (po_slots A o)) -> bits m h <> None;
    i_dis : forall x y o d h, objs m x = Some o -> objs m y = Some d -> x <> y -> In h (homes (po_slots A o)) -> In h (homes (po_slots A d)) -> False }.
  Lemma inv_empty : inv (empty_pmem A).
  Proof. split; cbn; discriminate. Qed.
  Lemma home_lt m x o h : inv m -> objs m x = Some o -> In h (homes (po_slots A o)) -> h < nxt m.
  Proof.
    intros I H Hh. destruct (i_obj m I x o H) as (_ & L). specialize (L h Hh). destruct (bits m h) eqn:E; [|congruence]. exact (i_bits m I h _ E).
  Qed.

  Lemma alloc_old m bs a : a < nxt m -> bits (fst (alloc_bits A m bs)) a = bits m a.
  Proof. intros H. cbn. replace (nxt m <=? a) with false by (symmetry; apply Nat.leb_gt; exact H). reflexivity. Qed.
  Lemma alloc_new m bs i : i < length bs -> bits (fst (alloc_bits A m bs)) (nxt m + i) = nth_error bs i.
  Proof.
    intros H. unfold alloc_bits. cbn [fst pm_bits]. replace (nxt m <=? nxt m + i) with true by (symmetry; apply Nat.leb_le; lia).
    replace (nxt m + i <? nxt m + length bs) with true by (symmetry; apply Nat.ltb_lt; lia). cbn [andb]. replace (nxt m + i - nxt m) with i by lia. reflexivity.
  Qed.
  Lemma alloc_dead m bs a : inv m -> nxt m + length bs <= a -> bits (fst (alloc_bits A m bs)) a = None.
  Proof.
    intros I H. unfold alloc_bits. cbn [fst pm_bits]. replace (a <? nxt m + length bs) with false by (symmetry; apply Nat.ltb_ge; lia). rewrite andb_false_r.
    destruct (bits m a) eqn:E; [|reflexivity]. apply (i_bits m I) in E. lia.
  Qed.
  Lemma inv_alloc m bs : inv m -> inv (fst (alloc_bits A m bs)).
  Proof.
    intros I. split.
    - intros a b H. cbn [alloc_bits fst pm_next]. destruct (le_lt_dec (nxt m + length bs) a) as [L|L]; [|lia].
      rewrite (alloc_dead m bs a I L) in H. discriminate.
    - intros x o H. change (objs m x = Some o) in H. destruct (i_obj m I x o H) as (N & L). split; [exact N|].
      intros h Hh. rewrite alloc_old; [auto|]. exact (home_lt m x o h I H Hh).
    - exact (i_dis m I).
  Qed.
  Lemma inv_put m x o : inv m -> NoDup (homes (po_slots A o)) -> (forall h, In h (homes (po_slots A o)) -> bits m h <> None) ->
    (forall y d h, y <> x -> objs m y = Some d -> In h (homes (po_slots A o)) -> In h (homes (po_slots A d)) -> False) ->
    inv (put A m x (Some o)).
  Proof.
    intros [I1 I2 I3] N L D. split; cbn [put pm_next pm_bits pm_objs].
    - exact I1.
    - intros y d H. destruct (Nat.eqb_spec y x) as [->|Ny]; [injection H as <-; auto|exact (I2 y d H)].
    - intros y z d e h Hy Hz Nyz Hd He. destruct (Nat.eqb_spec y x) as [->|Ny], (Nat.eqb_spec z x) as [->|Nz].
      + contradiction.
      + injection Hy as <-. exact (D z e h Nz Hz Hd He).
      + injection Hz as <-. exact (D y d h Ny Hy He Hd).
      + exact (I3 y z d e h Hy Hz Nyz Hd He).
  Qed.
  Lemma inv_drop m x : inv m -> inv (put A m x None).
  Proof.
    intros [I1 I2 I3]. split; cbn [put pm_next pm_bits pm_objs].
    - exact I1.
    - intros y d H. destruct (y =? x); [discriminate|exact (I2 y d H)].
    - intros y z d e h Hy Hz. destruct (y =? x); [discriminate|]. destruct (z =? x); [discriminate|]. exact (I3 y z d e h Hy Hz).
  Qed.
  Lemma free_in m l a : In a (homes l) -> bits (free_bits A m l) a = None.
  Proof.
    intros H. cbn. apply in_map_iff in H as (s & E & Hs).
    replace (existsb (fun s => sl_home s =? a) l) with true; [reflexivity|]. symmetry. apply existsb_exists. exists s. split; [exact Hs|]. apply Nat.eqb_eq. exact E.
  Qed.
  Lemma free_out m l a : ~ In a (homes l) -> bits (free_bits A m l) a = bits m a.
  Proof.
    intros H. cbn. destruct (existsb (fun s => sl_home s =? a) l) eqn:E; [|reflexivity].
    apply existsb_exists in E as (s & Hs & E). apply Nat.eqb_eq in E. exfalso. apply H. apply in_map_iff. eauto.
  Qed.
  Lemma inv_free m l : inv m -> (forall y d h, objs m y = Some d -> In h (homes (po_slots A d)) -> ~ In h (homes l)) -> inv (free_bits A m l).
  Proof.
    intros I D. destruct I as [I1 I2 I3]. split.
    - intros a b H. cbn [free_bits pm_next]. cbn in H. destruct (existsb _ l); [discriminate|]. exact (I1 a b H).
    - intros x o H. change (objs m x = Some o) in H. destruct (I2 x o H) as (N & L). split; [exact N|].
      intros h Hh. rewrite free_out; [auto|]. exact (D x o h H Hh).
    - exact I3.
  Qed.

  (** New vectors. *)
  Definition own (m : pmem) (s : slot) (b : list bool) : Prop := bits m (sl_home s) = Some b /\ sl_ptr s = Some (sl_home s) /\ sl_dir s = b.
  Lemma mk_slots_homes {B} (g : nat * B -> slot) (hs : list nat) (l : list B) : (forall x, sl_home (g x) = fst x) -> length hs = length l ->
    homes (map g (combine hs l)) = hs.
  Proof.
    intros G. unfold homes. rewrite map_map. revert l. induction hs as [|h hs IH]; intros [|y l] H; try discriminate; [reflexivity|].
    cbn. rewrite G. cbn. f_equal. apply IH. cbn in H. lia.
  Qed.
  Lemma own_slots_spec m bs m' l : own_slots A m bs = (m', l) ->
    m' = fst (alloc_bits A m bs) /\ homes l = seq (nxt m) (length bs) /\ Forall2 (own m') l bs.
  Proof.
    intros H. unfold own_slots in H. remember (alloc_bits A m bs) as p eqn:Ep. destruct p as [m1 hs]. injection H as <- <-.
    assert (Eh : hs = seq (nxt m) (length bs)) by (change hs with (snd (m1, hs)); rewrite Ep; reflexivity). subst hs.
    assert (m1 = fst (alloc_bits A m bs)) as -> by (rewrite <- Ep; reflexivity). clear Ep.
    split; [reflexivity|]. split; [apply mk_slots_homes; [reflexivity|apply seq_length]|].
    assert (G : forall k, forall cs, skipn k bs = cs -> Forall2 (own (fst (alloc_bits A m bs)))
      (map (fun x => mk_slot (fst x) (Some (fst x)) (snd x)) (combine (seq (nxt m + k) (length cs)) cs)) cs).
    { intros k cs. revert k. induction cs as [|c cs IH]; intros k E; [constructor|].
      assert (Ec : nth_error bs k = Some c).
      { clear -E. revert bs E. induction k; intros [|b bs] E; try discriminate; cbn in *; [congruence|auto]. }
      cbn [length seq combine map]. constructor.
      - split; [|split; reflexivity]. cbn [sl_home fst]. rewrite alloc_new; [exact Ec|]. apply nth_error_Some. congruence.
      - replace (S (nxt m + k)) with (nxt m + S k) by lia. apply IH.
        clear -E. revert bs E. induction k; intros [|b bs] E; try discriminate; cbn in *; [congruence|auto]. }
    specialize (G 0 bs eq_refl). rewrite Nat.add_0_r in G. exact G.
  Qed.
  Lemma copy_slots_spec m l m' l' : copy_slots A cls m l = Some (m', l') -> exists bs,
    mmap (fun s => bits m (sl_home s)) l = Some bs /\ m' = fst (alloc_bits A m bs) /\ length l' = length l /\
    homes l' = seq (nxt m) (length l) /\
    match cls with
    | RleParts => Forall2 (own m') l' bs
    | PsiParts => map sl_ptr l' = map sl_ptr l /\ map sl_dir l' = map sl_dir l /\ Forall2 (fun s b => bits m' (sl_home s) = Some b) l' bs
    end.
  Proof.
    intros H. unfold copy_slots in H. apply bind_Some in H as (bs & Hb & H). exists bs. split; [exact Hb|].
    assert (Len : length bs = length l).
    { clear H. revert bs Hb. induction l as [|s l IH]; intros bs Hb; [injection Hb as <-; reflexivity|].
      cbn in Hb. apply bind_Some in Hb as (b & _ & Hb). apply bind_Some in Hb as (cs & Hc & Hb). injection Hb as <-. cbn. f_equal. auto. }
    destruct cls.
    - destruct (own_slots A m bs) as [m1 l1] eqn:E. injection H as <- <-. destruct (own_slots_spec m bs m1 l1 E) as (E1 & E2 & E3).
      split; [exact E1|]. split; [|split; [rewrite E2, Len; reflexivity|exact E3]].
      apply (f_equal (@length nat)) in E2. unfold homes in E2. rewrite map_length, seq_length in E2. lia.
    - remember (alloc_bits A m bs) as p eqn:Ep. destruct p as [m1 hs]. injection H as <- <-.
      assert (Eh : hs = seq (nxt m) (length l)) by (change hs with (snd (m1, hs)); rewrite Ep, <- Len; reflexivity).
      assert (m1 = fst (alloc_bits A m bs)) as -> by (rewrite <- Ep; reflexivity). clear Ep. split; [reflexivity|].
      assert (Lh : length hs = length l) by (rewrite Eh; apply seq_length).
      assert (Hh : homes (map (fun x : nat * slot => mk_slot (fst x) (sl_ptr (snd x)) (sl_dir (snd x))) (combine hs l)) = hs) by (apply mk_slots_homes; auto).
      split; [rewrite map_length, combine_length; lia|]. split; [congruence|].
      split; [|split].
      + rewrite map_map. clear -Lh. revert l Lh. induction hs as [|h hs IH]; intros [|s l] H; try discriminate; [reflexivity|]. cbn. f_equal. apply IH. cbn in H. lia.
      + rewrite map_map. clear -Lh. revert l Lh. induction hs as [|h hs IH]; intros [|s l] H; try discriminate; [reflexivity|]. cbn. f_equal. apply IH. cbn in H. lia.
      + assert (G : forall i s, nth_error (map (fun x : nat * slot => mk_slot (fst x) (sl_ptr (snd x)) (sl_dir (snd x))) (combine hs l)) i = Some s -> sl_home s = nxt m + i).
        { intros i s E. assert (E2 : nth_error (homes (map (fun x : nat * slot => mk_slot (fst x) (sl_ptr (snd x)) (sl_dir (snd x))) (combine hs l))) i = Some (sl_home s)) by (unfold homes; rewrite nth_error_map, E; reflexivity).
          rewrite Hh, Eh in E2. assert (Li : i < length l) by (rewrite <- (seq_length (length l) (nxt m)); apply nth_error_Some; congruence).
          assert (E3 : nth_error (seq (nxt m) (length l)) i = Some (nth i (seq (nxt m) (length l)) 0)) by (apply nth_error_nth'; rewrite seq_length; exact Li).
          rewrite seq_nth in E3 by exact Li. congruence. }
        assert (Ls : length (map (fun x : nat * slot => mk_slot (fst x) (sl_ptr (snd x)) (sl_dir (snd x))) (combine hs l)) = length bs) by (rewrite map_length, combine_length; lia).
        revert G Ls. generalize (map (fun x : nat * slot => mk_slot (fst x) (sl_ptr (snd x)) (sl_dir (snd x))) (combine hs l)) as l1. intros l1 G Ls.
        assert (Q : forall i s b, nth_error l1 i = Some s -> nth_error bs i = Some b -> bits (fst (alloc_bits A m bs)) (sl_home s) = Some b).
        { intros i s b Es Eb. rewrite (G i s Es), alloc_new; [exact Eb|]. apply nth_error_Some. congruence. }
        clear G. revert Q. generalize (fst (alloc_bits A m bs)) as m2. intros m2 Q. clear -Ls Q. revert bs Ls Q.
        induction l1 as [|s l1 IH]; intros [|b bs] Ls Q; try discriminate; constructor; [exact (Q 0 s b eq_refl eq_refl)|].
        apply IH; [cbn in Ls; lia|]. intros i s' b' E1 E2. exact (Q (S i) s' b' E1 E2).
  Qed.

  Record kept (o : pop A) (m m' : pmem) : Prop := mk_kept {
    k_inv : inv m';
    k_next : nxt m <= nxt m';
    k_obj : forall x, pleaves x o -> objs m x <> None -> objs m' x = objs m x;
    k_bits : forall x d h, objs m x = Some d -> pleaves x o -> In h (homes (po_slots A d)) -> bits m' h = bits m h;
    k_dead : forall a, a < nxt m -> bits m a = None -> bits m' a = None }.

  Lemma no_objs m x u : no_obj A m x = Some u -> objs m x = None.
  Proof. unfold no_obj. destruct (objs m x); [discriminate|reflexivity]. Qed.

  (** [m1]: new vectors and objects were added at the places in [t], which the operation does not leave alone; then
      the vectors [fr], which belong to no object any more, end. *)
  Lemma kept_free o m m1 fr : inv m -> inv m1 -> nxt m <= nxt m1 ->
    (forall x, pleaves x o -> objs m x <> None -> objs m1 x = objs m x) ->
    (forall a, a < nxt m -> bits m1 a = bits m a) ->
    (forall y d h, objs m1 y = Some d -> In h (homes (po_slots A d)) -> ~ In h (homes fr)) ->
    kept o m (free_bits A m1 fr).
  Proof.
    intros I I1 Ln Ho Hb Hf. split.
    - apply inv_free; auto.
    - exact Ln.
    - exact Ho.
    - intros x d h Hx Hl Hh. rewrite free_out.
      + apply Hb. exact (home_lt m x d h I Hx Hh).
      + apply (Hf x d h); [|exact Hh]. rewrite Ho; [exact Hx|exact Hl|congruence].
    - intros a La D. destruct (in_dec Nat.eq_dec a (homes fr)) as [Ia|Na]; [apply free_in; exact Ia|].
      rewrite free_out by exact Na. rewrite Hb by exact La. exact D.
  Qed.
  Lemma free_none m : free_bits A m [] = mk_pmem A (nxt m) (fun a => bits m a) (objs m).
  Proof. reflexivity. Qed.
  Lemma kept_same o m m1 : inv m -> inv m1 -> nxt m <= nxt m1 ->
    (forall x, pleaves x o -> objs m x <> None -> objs m1 x = objs m x) ->
    (forall a, a < nxt m -> bits m1 a = bits m a) -> kept o m m1.
  Proof.
    intros I I1 Ln Ho Hb. destruct (kept_free o m m1 [] I I1 Ln Ho Hb) as [K1 K2 K3 K4 K5]; [intros ? ? ? ? ? []|].
    split; auto.
  Qed.

  Lemma copy_obj_spec m y x o m' : inv m -> objs m x = Some o -> x <> y -> copy_obj A cls m y o = Some m' ->
    inv m' /\ nxt m <= nxt m' /\ (forall a, a < nxt m -> bits m' a = bits m a) /\ (forall z, z <> y -> objs m' z = objs m z) /\
    exists l bs, objs m' y = Some (mk_pobj A (po_meta A o) l) /\ mmap (fun s => bits m (sl_home s)) (po_slots A o) = Some bs /\
      (forall h, In h (homes l) -> nxt m <= h) /\
      match cls with
      | RleParts => Forall2 (own m') l bs
      | PsiParts => map sl_ptr l = map sl_ptr (po_slots A o) /\ map sl_dir l = map sl_dir (po_slots A o) /\ Forall2 (fun s b => bits m' (sl_home s) = Some b) l bs
      end.
  Proof.
    intros I Hx N H. unfold copy_obj in H. apply bind_Some in H as ([m1 l] & H & E). injection E as <-.
    destruct (copy_slots_spec m _ m1 l H) as (bs & Hb & -> & Len & Hh & F).
    assert (I1 : inv (fst (alloc_bits A m bs))) by (apply inv_alloc; exact I).
    assert (Ge : forall h, In h (homes l) -> nxt m <= h) by (intros h Q; rewrite Hh in Q; apply in_seq in Q; lia).
    split; [|split; [|split; [|split]]].
    - apply inv_put; cbn [po_slots]; auto.
      + rewrite Hh. apply seq_NoDup.
      + intros h Q.
        assert (E : exists b, bits (fst (alloc_bits A m bs)) h = Some b).
        { apply in_map_iff in Q as (s & <- & Q). assert (F' : Forall2 (fun s b => bits (fst (alloc_bits A m bs)) (sl_home s) = Some b) l bs).
          { destruct cls; [|apply F]. clear -F. revert F. generalize (fst (alloc_bits A m bs)) as m2. intros m2 F. induction F as [|? ? ? ? (F1 & _)]; constructor; auto. }
          clear -F' Q. revert F'. generalize (fst (alloc_bits A m bs)) as m2. intros m2 F'. induction F' as [|s' b' l' bs' Fs F' IH]; [contradiction|]. destruct Q as [->|Q]; [eauto|auto]. }
        destruct E as (b & ->). discriminate.
      + intros z d h Nz Hz Q1 Q2. apply Ge in Q1. pose proof (home_lt m z d h I Hz Q2). lia.
    - cbn. lia.
    - intros a La. apply alloc_old. exact La.
    - intros z Nz. cbn [put pm_objs]. apply Nat.eqb_neq in Nz. rewrite Nz. reflexivity.
    - exists l, bs. cbn [put pm_objs]. rewrite Nat.eqb_refl. split; [reflexivity|]. split; [exact Hb|]. split; [exact Ge|].
      destruct cls; exact F.
  Qed.
End Proofs.

Section Moves.
  Variables (A : Type).
  Notation pmem := (pmem A). Notation pobj := (pobj A).
  Notation bits := (pm_bits A). Notation objs := (pm_objs A). Notation nxt := (pm_next A).
  Notation inv := (inv A). Notation own := (own A).

  Lemma own_bits m l bs : Forall2 (own m) l bs -> mmap (fun s => bits m (sl_home s)) l = Some bs.
  Proof. intros F. induction F as [|s b l bs (E & _) F IH]; [reflexivity|]. cbn. rewrite E. cbn. rewrite IH. reflexivity. Qed.
  Lemma own_kept m m' l bs : (forall h, In h (homes l) -> bits m' h = bits m h) -> Forall2 (own m) l bs -> Forall2 (own m') l bs.
  Proof.
    intros K F. induction F as [|s b l bs (E1 & E2 & E3) F IH]; constructor.
    - split; [|auto]. rewrite K; [exact E1|]. left. reflexivity.
    - apply IH. intros h Q. apply K. right. exact Q.
  Qed.
  Definition stays (cls : part_class) : nat := match cls with RleParts => 1 | PsiParts => 0 end.
  Lemma move_slots_spec cls m l m' l' r : inv m -> (forall h, In h (homes l) -> h < nxt m) -> move_slots A cls m l = Some (m', l', r) ->
    objs m' = objs m /\ nxt m <= nxt m' /\ (forall a, a < nxt m -> bits m' a = bits m a) /\ inv m' /\
    r = firstn (stays cls) l /\
    (exists ns, homes l' = ns ++ homes (skipn (stays cls) l) /\ NoDup ns /\ forall h, In h ns -> nxt m <= h /\ bits m' h <> None) /\
    forall bs, Forall2 (own m) l bs -> Forall2 (own m') l' bs.
  Proof.
    intros I Lt H. destruct cls; cbn [move_slots stays] in *.
    - apply bind_Some in H as ([m1 l1] & H & E). injection E as <- <- <-.
      destruct (copy_slots_spec A RleParts m _ m1 l1 H) as (bs & Hb & -> & Len & Hh & F).
      split; [reflexivity|]. split; [cbn; lia|]. split; [intros a La; apply alloc_old; exact La|]. split; [apply inv_alloc; exact I|].
      split; [reflexivity|]. split.
      + exists (homes l1). split; [unfold homes; rewrite map_app; reflexivity|]. split; [rewrite Hh; apply seq_NoDup|].
        intros h Q. split; [rewrite Hh in Q; apply in_seq in Q; lia|].
        clear -F Q. revert F. generalize (fst (alloc_bits A m bs)) as m2. intros m2 F.
        induction F as [|s b l bs (E & _) F IH]; [contradiction|]. destruct Q as [<-|Q]; [congruence|auto].
      + intros bs' F'. replace bs' with (bs ++ skipn 1 bs').
        * apply Forall2_app; [exact F|]. apply own_kept with (m := m).
          -- intros h Q. apply alloc_old. apply Lt. unfold homes in *. destruct l as [|s l]; [exact Q|]. right. exact Q.
          -- destruct F'; [constructor|exact F'].
        * destruct F' as [|s b l bs' (E & _) F']; cbn in Hb.
          -- injection Hb as <-. reflexivity.
          -- rewrite E in Hb. cbn in Hb. injection Hb as <-. reflexivity.
    - injection H as <- <- <-. split; [reflexivity|]. split; [lia|]. split; [reflexivity|]. split; [exact I|]. split; [reflexivity|].
      split; [|auto]. exists []. split; [reflexivity|]. split; [constructor|]. intros h [].
  Qed.
  Lemma homes_in_firstn k l h : In h (homes (firstn k l)) -> In h (homes l).
  Proof. unfold homes. rewrite <- firstn_map. intros Q. rewrite <- (firstn_skipn k (map _ l)). apply in_or_app. left. exact Q. Qed.
  Lemma homes_in_skipn k l h : In h (homes (skipn k l)) -> In h (homes l).
  Proof. unfold homes. rewrite <- skipn_map. intros Q. rewrite <- (firstn_skipn k (map _ l)). apply in_or_app. right. exact Q. Qed.
  Lemma nodup_parts (l : list nat) k : NoDup l -> NoDup (firstn k l) /\ NoDup (skipn k l) /\ forall h, In h (firstn k l) -> In h (skipn k l) -> False.
  Proof.
    intros N. rewrite <- (firstn_skipn k l) in N. revert N. generalize (firstn k l) (skipn k l). intros p q N.
    induction p as [|a p IH]; cbn in N; [repeat split; auto; constructor|].
    inversion_clear N as [|? ? Na N']. destruct (IH N') as (P1 & P2 & P3). split; [|split; [exact P2|]].
    - constructor; [|exact P1]. intros Q. apply Na. apply in_or_app. left. exact Q.
    - intros h [<-|Q] Q2; [apply Na, in_or_app; right; exact Q2|eauto].
  Qed.
  Lemma nodup_app (p q : list nat) : NoDup p -> NoDup q -> (forall h, In h p -> In h q -> False) -> NoDup (p ++ q).
  Proof.
    intros Np Nq D. induction p as [|a p IH]; [exact Nq|]. inversion_clear Np as [|? ? Na Np']. cbn. constructor.
    - intros Q. apply in_app_or in Q as [Q|Q]; [exact (Na Q)|]. apply (D a); [left; reflexivity|exact Q].
    - apply IH; [exact Np'|]. intros h Q1 Q2. apply (D h); [right; exact Q1|exact Q2].
  Qed.

  Lemma move_obj_spec cls m y x o m' : inv m -> objs m x = Some o -> x <> y -> move_obj A cls m y x o = Some m' ->
    inv m' /\ nxt m <= nxt m' /\ (forall a, a < nxt m -> bits m' a = bits m a) /\ (forall z, z <> y -> z <> x -> objs m' z = objs m z) /\
    objs m' x = Some (mk_pobj A (po_meta A o) (firstn (stays cls) (po_slots A o))) /\
    exists l, objs m' y = Some (mk_pobj A (po_meta A o) l) /\ (forall h, In h (homes l) -> In h (homes (po_slots A o)) \/ nxt m <= h) /\
      forall bs, Forall2 (own m) (po_slots A o) bs -> Forall2 (own m') l bs.
  Proof.
    intros I Hx N H. unfold move_obj in H. apply bind_Some in H as ([[m1 l] r] & H & E). injection E as <-.
    assert (Lt : forall h, In h (homes (po_slots A o)) -> h < nxt m) by (intros h Q; exact (home_lt A m x o h I Hx Q)).
    destruct (move_slots_spec cls m _ m1 l r I Lt H) as (Eo & Ln & Eb & I1 & -> & (ns & Eh & Nn & Hn) & F).
    destruct (i_obj A m I x o Hx) as (Nd & Al).
    assert (Np : NoDup (homes (firstn (stays cls) (po_slots A o))) /\ NoDup (homes (skipn (stays cls) (po_slots A o))) /\
      forall h, In h (homes (firstn (stays cls) (po_slots A o))) -> In h (homes (skipn (stays cls) (po_slots A o))) -> False).
    { unfold homes in *. rewrite <- firstn_map, <- skipn_map. apply nodup_parts. exact Nd. }
    destruct Np as (N1 & N2 & N3).
    assert (From : forall h, In h (homes l) -> In h (homes (skipn (stays cls) (po_slots A o))) \/ (nxt m <= h /\ bits m1 h <> None)).
    { intros h Q. rewrite Eh in Q. apply in_app_or in Q as [Q|Q]; [right; auto|left; exact Q]. }
    assert (Alive : forall h, In h (homes (po_slots A o)) -> bits m1 h <> None) by (intros h Q; rewrite Eb; auto).
    (* The source first, then the target: the two updates are at different objects. *)
    assert (I2 : inv (put A m1 x (Some (mk_pobj A (po_meta A o) (firstn (stays cls) (po_slots A o)))))).
    { apply inv_put; cbn [po_slots]; auto.
      - intros h Q. apply Alive. exact (homes_in_firstn _ _ _ Q).
      - intros z d h Nz Hz Q1 Q2. rewrite Eo in Hz. apply homes_in_firstn in Q1.
        exact (i_dis A m I z x d o h Hz Hx Nz Q2 Q1). }
    assert (I3 : inv (put A (put A m1 x (Some (mk_pobj A (po_meta A o) (firstn (stays cls) (po_slots A o))))) y (Some (mk_pobj A (po_meta A o) l)))).
    { apply inv_put; cbn [po_slots]; auto.
      - rewrite Eh. apply nodup_app; auto. intros h Q1 Q2. destruct (Hn h Q1) as (G & _).
        apply homes_in_skipn in Q2. apply Lt in Q2. lia.
      - intros h Q. cbn [put pm_bits]. destruct (From h Q) as [Q'|(_ & Q')]; [|exact Q'].
        apply Alive. exact (homes_in_skipn _ _ _ Q').
      - intros z d h Nz Hz Q1 Q2. cbn [put pm_objs] in Hz. rewrite Eo in Hz. destruct (Nat.eqb_spec z x) as [->|Nzx].
        + injection Hz as <-. cbn [po_slots] in Q2. destruct (From h Q1) as [Q'|(G & _)]; [exact (N3 h Q2 Q')|].
          apply homes_in_firstn in Q2. apply Lt in Q2. lia.
        + destruct (From h Q1) as [Q'|(G & _)].
          * apply homes_in_skipn in Q'. exact (i_dis A m I z x d o h Hz Hx Nzx Q2 Q').
          * pose proof (home_lt A m z d h I Hz Q2). lia. }
    split; [|split; [|split; [|split; [|split]]]].
    - destruct I3 as [J1 J2 J3].
      assert (Q : forall z, objs (put A (put A m1 y (Some (mk_pobj A (po_meta A o) l))) x (Some (mk_pobj A (po_meta A o) (firstn (stays cls) (po_slots A o))))) z =
        objs (put A (put A m1 x (Some (mk_pobj A (po_meta A o) (firstn (stays cls) (po_slots A o))))) y (Some (mk_pobj A (po_meta A o) l))) z).
      { intros z. cbn. destruct (Nat.eqb_spec z x) as [->|]; [|reflexivity]. apply Nat.eqb_neq in N. rewrite N. reflexivity. }
      split.
      + exact J1.
      + intros z d Hz. rewrite Q in Hz. exact (J2 z d Hz).
      + intros z w d e h Hz Hw. rewrite Q in Hz, Hw. exact (J3 z w d e h Hz Hw).
    - exact Ln.
    - exact Eb.
    - intros z Ny Nx. cbn [put pm_objs]. apply Nat.eqb_neq in Ny, Nx. rewrite Ny, Nx, Eo. reflexivity.
    - cbn [put pm_objs]. rewrite Nat.eqb_refl. reflexivity.
    - exists l. split; [|split].
      + cbn [put pm_objs]. rewrite Nat.eqb_refl. replace (y =? x) with false; [reflexivity|]. symmetry. apply Nat.eqb_neq. auto.
      + intros h Q. destruct (From h Q) as [Q'|(G & _)]; [left; exact (homes_in_skipn _ _ _ Q')|right; exact G].
      + intros bs Fb. apply own_kept with (m := m1); [reflexivity|]. exact (F bs Fb).
  Qed.

  Lemma new_obj_spec m x v bs m1 l : inv m -> own_slots A m bs = (m1, l) ->
    inv (put A m1 x (Some (mk_pobj A v l))) /\ nxt m <= nxt m1 /\ (forall a, a < nxt m -> bits m1 a = bits m a) /\ objs m1 = objs m /\
    (forall h, In h (homes l) -> nxt m <= h) /\ Forall2 (own m1) l bs.
  Proof.
    intros I H. destruct (own_slots_spec A m bs m1 l H) as (-> & Hh & F).
    assert (Ge : forall h, In h (homes l) -> nxt m <= h) by (intros h Q; rewrite Hh in Q; apply in_seq in Q; lia).
    split; [|split; [cbn; lia|split; [intros a La; apply alloc_old; exact La|split; [reflexivity|split; [exact Ge|exact F]]]]].
    apply inv_put; cbn [po_slots].
    - apply inv_alloc. exact I.
    - rewrite Hh. apply seq_NoDup.
    - intros h Q. clear -F Q. revert F. generalize (fst (alloc_bits A m bs)) as m2. intros m2 F.
      induction F as [|s b l bs (E & _) F IH]; [contradiction|]. destruct Q as [<-|Q]; [congruence|auto].
    - intros z d h Nz Hz Q1 Q2. apply Ge in Q1. pose proof (home_lt A m z d h I Hz Q2). lia.
  Qed.

  Lemma pstep_kept cls m o m' : inv m -> pstep A cls m o = Some m' -> kept A o m m'.
  Proof.
    intros I H. destruct o as [x v bs|x v bs|y x|y x|y x|y x|x]; cbn [pstep] in H.
    - apply bind_Some in H as (u & Hu & H). destruct (own_slots A m bs) as [m1 l] eqn:E. injection H as <-.
      destruct (new_obj_spec m x v bs m1 l I E) as (I1 & Ln & Eb & Eo & _ & _).
      apply kept_same; auto. intros z Hz _. cbn in Hz. cbn [put pm_objs]. rewrite Eo.
      destruct (Nat.eqb_spec z x) as [->|]; [contradiction|reflexivity].
    - apply bind_Some in H as (d & Hd & H). destruct (own_slots A m bs) as [m1 l] eqn:E. injection H as <-.
      destruct (new_obj_spec m x v bs m1 l I E) as (I1 & Ln & Eb & Eo & Ge & _).
      apply kept_free; auto.
      + intros z Hz _. cbn in Hz. cbn [put pm_objs]. rewrite Eo. destruct (Nat.eqb_spec z x) as [->|]; [contradiction|reflexivity].
      + intros z e h Hz Q1 Q2. cbn [put pm_objs] in Hz. rewrite Eo in Hz. destruct (Nat.eqb_spec z x) as [->|Nz].
        * injection Hz as <-. apply Ge in Q1. pose proof (home_lt A m x d h I Hd Q2). lia.
        * exact (i_dis A m I z x e d h Hz Hd Nz Q1 Q2).
    - apply bind_Some in H as (u & Hu & H). apply bind_Some in H as (o & Ho & H). apply no_objs in Hu.
      assert (N : x <> y) by (intros ->; congruence).
      destruct (copy_obj_spec A cls m y x o m' I Ho N H) as (I1 & Ln & Eb & Eo & _).
      apply kept_same; auto.
    - apply bind_Some in H as (u & Hu & H). apply bind_Some in H as (o & Ho & H). apply no_objs in Hu.
      assert (N : x <> y) by (intros ->; congruence).
      destruct (move_obj_spec cls m y x o m' I Ho N H) as (I1 & Ln & Eb & Eo & _).
      apply kept_same; auto. intros z (H1 & H2) _. apply Eo; auto.
    - apply bind_Some in H as (d & Hd & H). apply bind_Some in H as (o & Ho & H). destruct (Nat.eqb_spec y x) as [->|N].
      + injection H as <-. apply kept_same; auto.
      + apply bind_Some in H as (m1 & H & E). injection E as <-.
        assert (N' : x <> y) by auto.
        destruct (copy_obj_spec A cls m y x o m1 I Ho N' H) as (I1 & Ln & Eb & Eo & (l & bs & El & _ & Ge & _)).
        apply kept_free; auto.
        * intros z e h Hz Q1 Q2. destruct (Nat.eq_dec z y) as [->|Nz].
          -- rewrite El in Hz. injection Hz as <-. apply Ge in Q1. pose proof (home_lt A m y d h I Hd Q2). lia.
          -- rewrite Eo in Hz by exact Nz. exact (i_dis A m I z y e d h Hz Hd Nz Q1 Q2).
    - apply bind_Some in H as (d & Hd & H). apply bind_Some in H as (o & Ho & H). destruct (Nat.eqb_spec y x) as [->|N]; [discriminate|].
      apply bind_Some in H as (m1 & H & E). injection E as <-.
      assert (N' : x <> y) by auto.
      destruct (move_obj_spec cls m y x o m1 I Ho N' H) as (I1 & Ln & Eb & Eo & Ex & (l & El & Ge & _)).
      apply kept_free; auto.
      + intros z (H1 & H2) _. apply Eo; auto.
      + intros z e h Hz Q1 Q2. destruct (Nat.eq_dec z y) as [->|Nz]; [|destruct (Nat.eq_dec z x) as [->|Nx]].
        * rewrite El in Hz. injection Hz as <-. destruct (Ge h Q1) as [Q|Q].
          -- exact (i_dis A m I x y o d h Ho Hd N' Q Q2).
          -- pose proof (home_lt A m y d h I Hd Q2). lia.
        * rewrite Ex in Hz. injection Hz as <-. apply homes_in_firstn in Q1. exact (i_dis A m I x y o d h Ho Hd N' Q1 Q2).
        * rewrite Eo in Hz by auto. exact (i_dis A m I z y e d h Hz Hd Nz Q1 Q2).
    - apply bind_Some in H as (d & Hd & H). injection H as <-. apply kept_free; auto.
      + apply inv_drop. exact I.
      + intros z Hz _. cbn in Hz. cbn [put pm_objs]. destruct (Nat.eqb_spec z x) as [->|]; [contradiction|reflexivity].
      + intros z e h Hz Q1 Q2. cbn [put pm_objs] in Hz. destruct (Nat.eqb_spec z x) as [->|Nz]; [discriminate|].
        exact (i_dis A m I z x e d h Hz Hd Nz Q1 Q2).
  Qed.
  Lemma psteps_inv cls l : forall m m', inv m -> psteps A cls m l = Some m' -> inv m'.
  Proof.
    induction l as [|o l IH]; intros m m' I H; [injection H as <-; exact I|].
    apply bind_Some in H as (m1 & H1 & H). apply (IH m1 m'); [|exact H]. exact (k_inv A o m m1 (pstep_kept cls m o m1 I H1)).
  Qed.
  Lemma preach_inv cls m : preachable A cls m -> inv m.
  Proof. intros (l & H). exact (psteps_inv cls l _ m (inv_empty A) H). Qed.

  (** An object with vectors and supports of its own. *)
  Definition whole (m : pmem) (x : nat) (v : A) (bs : list (list bool)) : Prop :=
    exists l, objs m x = Some (mk_pobj A v l) /\ Forall2 (own m) l bs.
  Lemma own_through m s b : own m s b -> through A m s = Some b.
  Proof.
    intros (E1 & E2 & E3). unfold through. rewrite E1. cbn [bind]. destruct b as [|c b]; [reflexivity|]. rewrite E2. cbn [bind]. rewrite E1. cbn [bind]. rewrite E3.
    destruct (list_eq_dec Bool.bool_dec (c :: b) (c :: b)); [reflexivity|contradiction].
  Qed.
  Lemma whole_view m x v bs : whole m x v bs -> pview A m x = Some (v, bs).
  Proof.
    intros (l & E & F). unfold pview. rewrite E. cbn.
    assert (M : mmap (through A m) l = Some bs).
    { clear E. induction F as [|s b l bs Fs F IH]; [reflexivity|]. cbn. rewrite (own_through m s b Fs). cbn. rewrite IH. reflexivity. }
    rewrite M. reflexivity.
  Qed.
  Lemma whole_steps cls l : forall m m' x v bs, inv m -> Forall (pleaves x) l -> psteps A cls m l = Some m' -> whole m x v bs -> whole m' x v bs.
  Proof.
    induction l as [|o l IH]; intros m m' x v bs I Fl H W; [injection H as <-; exact W|].
    apply bind_Some in H as (m1 & H1 & H). inversion_clear Fl as [|? ? Fo Fl'].
    pose proof (pstep_kept cls m o m1 I H1) as K. apply (IH m1 m' x v bs); auto; [exact (k_inv A o m m1 K)|].
    destruct W as (sl & E & F). exists sl. split.
    - rewrite (k_obj A o m m1 K x Fo); [exact E|congruence].
    - apply own_kept with (m := m); [|exact F]. intros h Q. exact (k_bits A o m m1 K x _ h E Fo Q).
  Qed.
  Lemma dead_steps cls l : forall m m' a, inv m -> psteps A cls m l = Some m' -> a < nxt m -> bits m a = None -> bits m' a = None.
  Proof.
    induction l as [|o l IH]; intros m m' a I H La D; [injection H as <-; exact D|].
    apply bind_Some in H as (m1 & H1 & H). pose proof (pstep_kept cls m o m1 I H1) as K.
    apply (IH m1 m' a); [exact (k_inv A o m m1 K)|exact H|pose proof (k_next A o m m1 K); lia|exact (k_dead A o m m1 K a La D)].
  Qed.
  Lemma obj_steps cls l : forall m m' x o, inv m -> Forall (pleaves x) l -> psteps A cls m l = Some m' -> objs m x = Some o ->
    objs m' x = Some o /\ forall h, In h (homes (po_slots A o)) -> bits m' h = bits m h.
  Proof.
    induction l as [|p l IH]; intros m m' x o I Fl H E; [injection H as <-; auto|].
    apply bind_Some in H as (m1 & H1 & H). inversion_clear Fl as [|? ? Fo Fl'].
    pose proof (pstep_kept cls m p m1 I H1) as K.
    assert (E1 : objs m1 x = Some o) by (rewrite (k_obj A p m m1 K x Fo); [exact E|congruence]).
    destruct (IH m1 m' x o (k_inv A p m m1 K) Fl' H E1) as (R1 & R2). split; [exact R1|].
    intros h Q. rewrite R2 by exact Q. exact (k_bits A p m m1 K x o h E Fo Q).
  Qed.

  Lemma new_whole cls m x v bs m' o : inv m -> o = PNew A x v bs \/ o = PLoad A x v bs -> pstep A cls m o = Some m' -> whole m' x v bs.
  Proof.
    intros I Ho H. destruct Ho as [->| ->]; cbn [pstep] in H.
    - apply bind_Some in H as (u & Hu & H). destruct (own_slots A m bs) as [m1 l] eqn:E. injection H as <-.
      destruct (new_obj_spec m x v bs m1 l I E) as (_ & _ & _ & _ & _ & F). exists l. split; [cbn; rewrite Nat.eqb_refl; reflexivity|].
      apply own_kept with (m := m1); [reflexivity|exact F].
    - apply bind_Some in H as (d & Hd & H). destruct (own_slots A m bs) as [m1 l] eqn:E. injection H as <-.
      destruct (new_obj_spec m x v bs m1 l I E) as (_ & _ & _ & _ & Ge & F). exists l. split; [cbn; rewrite Nat.eqb_refl; reflexivity|].
      apply own_kept with (m := m1); [|exact F]. intros h Q. rewrite free_out; [reflexivity|].
      intros Q2. apply Ge in Q. pose proof (home_lt A m x d h I Hd Q2). lia.
  Qed.
  Lemma move_whole cls m y x v bs m' o : inv m -> pmoves y x o -> whole m x v bs -> pstep A cls m o = Some m' -> whole m' y v bs.
  Proof.
    intros I Ho (sx & Ex & Fx) H. destruct Ho as [->| ->]; cbn [pstep] in H.
    - apply bind_Some in H as (u & Hu & H). apply no_objs in Hu. rewrite Ex in H. cbn [bind] in H.
      assert (N : x <> y) by (intros ->; congruence).
      destruct (move_obj_spec cls m y x _ m' I Ex N H) as (_ & _ & _ & _ & _ & (l & El & _ & F)).
      exists l. split; [exact El|]. apply F. exact Fx.
    - apply bind_Some in H as (d & Hd & H). rewrite Ex in H. cbn [bind] in H. destruct (Nat.eqb_spec y x) as [->|N]; [discriminate|].
      apply bind_Some in H as (m1 & H & E). injection E as <-. assert (N' : x <> y) by auto.
      destruct (move_obj_spec cls m y x _ m1 I Ex N' H) as (_ & _ & _ & _ & _ & (l & El & Ge & F)).
      exists l. split; [exact El|]. apply own_kept with (m := m1); [|apply F; exact Fx].
      intros h Q. rewrite free_out; [reflexivity|]. intros Q2. destruct (Ge h Q) as [Q3|Q3].
      + exact (i_dis A m I x y _ d h Ex Hd N' Q3 Q2).
      + pose proof (home_lt A m y d h I Hd Q2). lia.
  Qed.
  Lemma copy_whole_rle m y x v bs m' o : inv m -> pcopies y x o -> whole m x v bs -> pstep A RleParts m o = Some m' -> whole m' y v bs.
  Proof.
    intros I (N & Ho) (sx & Ex & Fx) H. assert (N' : x <> y) by auto. pose proof (own_bits m sx bs Fx) as Hb.
    destruct Ho as [->| ->]; cbn [pstep] in H.
    - apply bind_Some in H as (u & Hu & H). rewrite Ex in H. cbn [bind] in H.
      destruct (copy_obj_spec A RleParts m y x _ m' I Ex N' H) as (_ & _ & _ & _ & (l & bs' & El & Eb & _ & F)).
      cbn [po_slots] in Eb. rewrite Hb in Eb. injection Eb as <-. exists l. split; [exact El|exact F].
    - apply bind_Some in H as (d & Hd & H). rewrite Ex in H. cbn [bind] in H. destruct (Nat.eqb_spec y x) as [->|_]; [contradiction|].
      apply bind_Some in H as (m1 & H & E). injection E as <-.
      destruct (copy_obj_spec A RleParts m y x _ m1 I Ex N' H) as (_ & _ & _ & _ & (l & bs' & El & Eb & Ge & F)).
      cbn [po_slots] in Eb. rewrite Hb in Eb. injection Eb as <-. exists l. split; [exact El|].
      apply own_kept with (m := m1); [|exact F]. intros h Q. rewrite free_out; [reflexivity|].
      intros Q2. apply Ge in Q. pose proof (home_lt A m y d h I Hd Q2). lia.
  Qed.

  (** A copy of a PsiCoreBV: its own vectors, supports of the original. *)
  Definition lean (m : pmem) (y : nat) (v : A) (ptrs : list nat) (bs : list (list bool)) : Prop :=
    exists l, objs m y = Some (mk_pobj A v l) /\ map sl_ptr l = map Some ptrs /\ map sl_dir l = bs /\
      Forall2 (fun s b => bits m (sl_home s) = Some b) l bs.
  Lemma copy_lean m y x v bs m' o : inv m -> pcopies y x o -> whole m x v bs -> pstep A PsiParts m o = Some m' ->
    exists ptrs, (exists l, objs m' x = Some (mk_pobj A v l) /\ homes l = ptrs) /\ lean m' y v ptrs bs.
  Proof.
    intros I (N & Ho) (sx & Ex & Fx) H. assert (N' : x <> y) by auto. pose proof (own_bits m sx bs Fx) as Hb.
    assert (Pt : map sl_ptr sx = map Some (homes sx)).
    { clear -Fx. induction Fx as [|s b l bs (_ & E & _) F IH]; [reflexivity|]. cbn. rewrite E, IH. reflexivity. }
    assert (Dr : map sl_dir sx = bs).
    { clear -Fx. induction Fx as [|s b l bs (_ & _ & E) F IH]; [reflexivity|]. cbn. rewrite E, IH. reflexivity. }
    exists (homes sx). destruct Ho as [->| ->]; cbn [pstep] in H.
    - apply bind_Some in H as (u & Hu & H). rewrite Ex in H. cbn [bind] in H.
      destruct (copy_obj_spec A PsiParts m y x _ m' I Ex N' H) as (_ & _ & _ & Eo & (l & bs' & El & Eb & _ & F1 & F2 & F3)).
      cbn [po_slots] in Eb, F1, F2. rewrite Hb in Eb. injection Eb as <-.
      split; [exists sx; split; [rewrite Eo by exact N'; exact Ex|reflexivity]|].
      exists l. split; [exact El|]. split; [congruence|]. split; [congruence|exact F3].
    - apply bind_Some in H as (d & Hd & H). rewrite Ex in H. cbn [bind] in H. destruct (Nat.eqb_spec y x) as [->|_]; [contradiction|].
      apply bind_Some in H as (m1 & H & E). injection E as <-.
      destruct (copy_obj_spec A PsiParts m y x _ m1 I Ex N' H) as (_ & _ & _ & Eo & (l & bs' & El & Eb & Ge & F1 & F2 & F3)).
      cbn [po_slots] in Eb, F1, F2. rewrite Hb in Eb. injection Eb as <-.
      split; [exists sx; split; [cbn [free_bits pm_objs]; rewrite Eo by exact N'; exact Ex|reflexivity]|].
      exists l. split; [exact El|]. split; [congruence|]. split; [congruence|].
      assert (K : forall h, In h (homes l) -> bits (free_bits A m1 (po_slots A d)) h = bits m1 h).
      { intros h Q. apply free_out. intros Q2. apply Ge in Q. pose proof (home_lt A m y d h I Hd Q2). lia. }
      clear -F3 K. revert K. generalize (bits (free_bits A m1 (po_slots A d))) as f. intros f K.
      induction F3 as [|s b l bs E F IH]; constructor.
      + rewrite K; [exact E|left; reflexivity].
      + apply IH. intros h Q. apply K. right. exact Q.
  Qed.
  Lemma lean_steps cls l m m' y v ptrs bs : inv m -> Forall (pleaves y) l -> psteps A cls m l = Some m' -> lean m y v ptrs bs -> lean m' y v ptrs bs.
  Proof.
    intros I Fl H (sl & E & E1 & E2 & F). destruct (obj_steps cls l m m' y _ I Fl H E) as (R1 & R2). exists sl. split; [exact R1|]. split; [exact E1|].
    split; [exact E2|]. cbn [po_slots] in R2. clear -F R2. revert R2. generalize (bits m') as f. intros f R2.
    induction F as [|s b l bs E F IH]; constructor.
    - rewrite R2; [exact E|left; reflexivity].
    - apply IH. intros h Q. apply R2. right. exact Q.
  Qed.
  Lemma lean_view m y v ptrs bs : lean m y v ptrs bs -> Forall2 (fun p b => bits m p = Some b) ptrs bs -> pview A m y = Some (v, bs).
  Proof.
    intros (l & E & E1 & E2 & F) P. unfold pview. rewrite E. cbn.
    assert (M : mmap (through A m) l = Some bs).
    { clear E. revert ptrs bs E1 E2 F P. induction l as [|s l IH]; intros ptrs [|b bs'] E1 E2 F P; try discriminate; [reflexivity|]. inversion_clear F as [|? ? ? ? F1 F2].
      destruct ptrs as [|p ptrs]; [discriminate|]. cbn in E1. injection E1 as Ep E1. inversion_clear P as [|? ? ? ? P1 P2].
      cbn [mmap]. unfold through at 1. cbn in E2. injection E2 as Hd E2. rewrite F1. cbn [bind].
      assert (T : match b with [] => Some [] | _ :: _ => p0 <- sl_ptr s ;; v0 <- bits m p0 ;; (if list_eq_dec Bool.bool_dec v0 (sl_dir s) then Some v0 else None) end = Some b).
      { destruct b as [|c b]; [reflexivity|]. rewrite Ep. cbn [bind]. rewrite P1. cbn [bind]. rewrite Hd. destruct (list_eq_dec Bool.bool_dec (c :: b) (c :: b)); [reflexivity|contradiction]. }
      rewrite T. cbn. rewrite (IH ptrs bs'); auto. }
    rewrite M. reflexivity.
  Qed.
  Lemma lean_dead m y v ptrs bs : lean m y v ptrs bs -> (forall p, In p ptrs -> bits m p = None) -> (exists b, In b bs /\ b <> []) -> pview A m y = None.
  Proof.
    intros (l & E & E1 & E2 & F) D (b & Hb & Nb). unfold pview. rewrite E. cbn.
    assert (M : mmap (through A m) l = None).
    { clear E. revert ptrs bs E1 E2 F D Hb. induction l as [|s l IH]; intros ptrs [|b' bs'] E1 E2 F D Hb; try discriminate; [contradiction|]. inversion_clear F as [|? ? ? ? F1 F2].
      destruct ptrs as [|p ptrs]; [discriminate|]. cbn in E1. injection E1 as Ep E1. cbn in E2. injection E2 as Hd E2.
      cbn [mmap bind]. destruct Hb as [->|Hb].
      - unfold through at 1. rewrite F1. cbn. destruct b as [|c b]; [contradiction|]. rewrite Ep. cbn. rewrite D by (left; reflexivity). reflexivity.
      - rewrite (IH ptrs bs'); auto; [|intros q Q; apply D; right; exact Q]. destruct (through A m s); reflexivity. }
    rewrite M. reflexivity.
  Qed.
  Lemma whole_ends cls m x v l o m' : inv m -> objs m x = Some (mk_pobj A v l) -> pends x o -> pstep A cls m o = Some m' ->
    forall p, In p (homes l) -> p < nxt m' /\ bits m' p = None.
  Proof.
    intros I Ex Ho H p Q. assert (Lp : p < nxt m) by exact (home_lt A m x _ p I Ex Q).
    pose proof (k_next A o m m' (pstep_kept cls m o m' I H)) as Ln. split; [lia|].
    destruct Ho as [->|[(v' & bs & ->)|(z & Nz & [->| ->])]]; cbn [pstep] in H; rewrite Ex in H; cbn [bind] in H.
    - injection H as <-. apply free_in. exact Q.
    - destruct (own_slots A m bs) as [m1 l1]. injection H as <-. apply free_in. exact Q.
    - apply bind_Some in H as (o & Ho & H). destruct (Nat.eqb_spec x z) as [->|_]; [contradiction|].
      apply bind_Some in H as (m1 & H & E). injection E as <-. apply free_in. exact Q.
    - apply bind_Some in H as (o & Ho & H). destruct (Nat.eqb_spec x z) as [->|_]; [contradiction|].
      apply bind_Some in H as (m1 & H & E). injection E as <-. apply free_in. exact Q.
  Qed.
End Moves.
