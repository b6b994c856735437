(** Loads from the files of a construction. *)
From Coq Require Import List Arith Bool Lia ZifyBool String Ascii.
From Verif Require Import MBase MRle MConstruct MPhi MRIndex MSrIndex MPsi MCsa MSrCsa MStore SpecStore StoreProof StoreClass StoreTrip StoreRound.
Import ListNotations.

(** The index is one of the class, with the rate and the density of the object. *)
Definition shape (tm : tmpl) (kd : kind) (rate : nat) (v : loaded) : Prop :=
  match kd, v with
  | KRIndex, LdR _ => True
  | (KSrIndex | KSrIndexVM | KSrIndexVA), LdSr ix => sr_rate ix = rate
  | (KRCSA | KRCSAPsi), LdCsa ix => pc_dens (ca_psi ix) = t_dens tm
  | KCSARaw, LdRaw ix => pc_dens (cr_psi ix) = t_dens tm
  | (KSrCSA | KSrCSAVM | KSrCSAVA | KSlim | KSlimVM | KSlimVA | KSrPsi | KSrPsiVM | KSrPsiVA), LdSc ix =>
      pc_dens (sc_psi ix) = t_dens tm /\ sc_rate ix = rate
  | _, _ => False
  end.
Definition slot := (skey * bool * ty)%type.
Definition slot_of (f : skey * bool * item) : slot := (fst f, item_ty (snd f)).
Definition dummy_alpha := mk_alphabet [] [] 0.
Definition dummy (tm : tmpl) (kd : kind) : loaded :=
  let pc := mk_psi_core 0 (t_dens tm) 0 [] in
  match kd with
  | KRIndex => LdR (mk_rindex dummy_alpha (mk_rlestr 0 0 [] [] []) [] [] [])
  | KSrIndex | KSrIndexVM | KSrIndexVA => LdSr (mk_sri dummy_alpha (mk_rlestr 0 0 [] [] []) 0 [] [] [] [] [] [])
  | KRCSA | KRCSAPsi => LdCsa (mk_csa dummy_alpha pc [] [] [])
  | KCSARaw => LdRaw (mk_csa_raw dummy_alpha pc [])
  | _ => LdSc (mk_srcsa dummy_alpha pc 0 [] [] [] [] [] [] [])
  end.
Definition slots (tm : tmpl) (kd : kind) : list slot := map slot_of (built_files tm kd (dummy tm kd)).
Lemma built_slots tm kd rate v : shape tm kd rate v -> map slot_of (built_files tm kd v) = slots tm kd.
Proof.
  destruct kd, v; cbn [shape]; try contradiction; intros H; try (match type of H with _ /\ _ => apply proj1 in H end); unfold slots; cbn; unfold slot_of; cbn;
    try rewrite H; reflexivity.
Qed.
Definition re_slot (d : nat) (s : slot) : slot := (fst s, re_ty d (snd s)).
Lemma slots_re tm kd : slots tm kd = map (re_slot (t_dens tm)) (slots (tm0 tm) kd).
Proof. destruct kd; reflexivity. Qed.
Definition slot_eq_dec (a b : slot) : {a = b} + {a <> b}.
Proof.
  destruct a as [[[b1 n1] h1] t1], b as [[[b2 n2] h2] t2].
  destruct (Bool.bool_dec b1 b2); [|right; congruence]. destruct (string_dec n1 n2); [|right; congruence].
  destruct (Bool.bool_dec h1 h2); [|right; congruence]. destruct (ty_eq_dec t1 t2); [left; congruence | right; congruence].
Defined.
Definition same_kt (a b : slot) : bool :=
  if string_dec (snd (fst (fst a))) (snd (fst (fst b))) then (if ty_eq_dec (snd a) (snd b) then true else false) else false.
Fixpoint distinct (l : list slot) : bool :=
  match l with [] => true | a :: r => negb (existsb (same_kt a) r) && distinct r end.
Definition need_slot (r : srq) : slot := (sq_file r, sq_hash r, sq_ty r).
Definition built_check (tm : tmpl) (kd : kind) : bool :=
  let sl := slots tm kd in
  distinct sl && forallb (fun r => if in_dec slot_eq_dec (need_slot r) sl then true else false) (class_needs tm kd).
Lemma built_table tm kd : built_check (tm0 tm) kd = true.
Proof. destruct tm as [a b c d]. unfold tm0. cbn [t_marks t_idx t_valid]. destruct a, b, c, kd; vm_compute; reflexivity. Qed.
Lemma slots_needs tm kd r : In r (class_needs tm kd) -> In (need_slot r) (slots tm kd).
Proof.
  rewrite class_needs_re, slots_re. intros H. apply in_map_iff in H as (q & <- & H).
  pose proof (built_table tm kd) as T. unfold built_check in T. apply andb_true_iff in T as (_ & T). rewrite forallb_forall in T.
  specialize (T q H). destruct (in_dec slot_eq_dec (need_slot q) _) as [I|]; [|discriminate].
  apply (in_map (re_slot (t_dens tm))) in I. exact I.
Qed.
Lemma re_ty_inj d t t' : (forall e, t = TyPsi e -> e = 0) -> (forall e, t' = TyPsi e -> e = 0) -> re_ty d t = re_ty d t' -> t = t'.
Proof.
  intros H H'. destruct t, t'; cbn; try congruence. intros _. rewrite (H _ eq_refl), (H' _ eq_refl). reflexivity.
Qed.
Lemma slots_dens0 tm kd s e : In s (slots (tm0 tm) kd) -> snd s = TyPsi e -> e = 0.
Proof.
  intros H. destruct kd; cbn in H; repeat (destruct H as [<-|H]; [cbn; congruence|]); contradiction.
Qed.
Lemma built_unique tm kd rate v f1 f2 : shape tm kd rate v -> In f1 (built_files tm kd v) -> In f2 (built_files tm kd v) ->
  fst (fst f1) = fst (fst f2) -> item_ty (snd f1) = item_ty (snd f2) -> f1 = f2.
Proof.
  intros HS H1 H2 EK ET.
  assert (D : forall l : list slot, distinct l = true -> (forall s e, In s l -> snd s = TyPsi e -> e = 0) ->
    forall fl : list (skey * bool * item), map slot_of fl = map (re_slot (t_dens tm)) l -> In f1 fl -> In f2 fl -> f1 = f2).
  { induction l as [|a l IH]; intros Hd Hz [|f fl] E I1 I2; try discriminate E; [contradiction|].
    cbn [distinct] in Hd. apply andb_true_iff in Hd as (Hd1 & Hd2). cbn [map] in E.
    assert (Ea : slot_of f = re_slot (t_dens tm) a) by congruence. assert (El : map slot_of fl = map (re_slot (t_dens tm)) l) by congruence. apply negb_true_iff in Hd1.
    assert (X : forall fa fb, slot_of fa = re_slot (t_dens tm) a -> In fb fl -> fst (fst fa) = fst (fst fb) -> item_ty (snd fa) = item_ty (snd fb) -> False).
    { intros fa fb Ha Hb K T. apply (in_map slot_of) in Hb. rewrite El in Hb. apply in_map_iff in Hb as (b & Eb & Hb).
      assert (B : existsb (same_kt a) l = true); [|congruence]. apply existsb_exists. exists b. split; [exact Hb|].
      unfold same_kt. 
      assert (Ha1 : fst fa = fst a) by exact (f_equal fst Ha). assert (Ha2 : item_ty (snd fa) = re_ty (t_dens tm) (snd a)) by exact (f_equal snd Ha).
      assert (Eb1 : fst b = fst fb) by exact (f_equal fst Eb). assert (Eb2 : re_ty (t_dens tm) (snd b) = item_ty (snd fb)) by exact (f_equal snd Eb).
      assert (snd (fst (fst a)) = snd (fst (fst b))) as -> by congruence. destruct (string_dec _ _) as [_|]; [|contradiction].
      assert (snd a = snd b) as ->.
      { apply (re_ty_inj (t_dens tm)); [intros e He; apply (Hz a e); [left; reflexivity | exact He] | intros e He; apply (Hz b e); [right; exact Hb | exact He] | congruence]. }
      destruct (ty_eq_dec _ _); [reflexivity | contradiction]. }
    destruct I1 as [<-|I1], I2 as [<-|I2]; auto.
    - exfalso. apply (X f f2); auto.
    - exfalso. apply (X f f1); auto.
    - apply (IH Hd2 (fun s e Hs => Hz s e (or_intror Hs)) fl El I1 I2). }
  pose proof (built_table tm kd) as T. unfold built_check in T. apply andb_true_iff in T as (T & _).
  apply (D _ T (slots_dens0 tm kd) (built_files tm kd v)); auto. rewrite (built_slots tm kd rate v HS). apply slots_re.
Qed.

Section Built.
Variables (tm : tmpl) (kd : kind) (rate : nat) (v : loaded) (p : string) (fs : files).
Hypothesis (HS : shape tm kd rate v) (HF : has_files fs (map (file_of p) (built_files tm kd v))).
Lemma built_need r : In r (class_needs tm kd) -> exists it, In (sq_file r, sq_hash r, it) (built_files tm kd v) /\ item_ty it = sq_ty r.
Proof.
  intros H. apply slots_needs in H. rewrite <- (built_slots tm kd rate v HS) in H. apply in_map_iff in H as ([[k h] it] & E & H).
  unfold slot_of, need_slot in E. cbn in E. injection E as -> -> E. exists it. auto.
Qed.
Lemma built_file r it : In r (class_needs tm kd) -> In (sq_file r, sq_hash r, it) (built_files tm kd v) -> item_ty it = sq_ty r ->
  file_find fs (realize p (sq_file r)) (file_hash r) = Some (item_tokens it).
Proof.
  intros Hr Hi Ht. apply HF. apply in_map_iff. exists (sq_file r, sq_hash r, it). split; [|exact Hi].
  unfold file_of, file_hash. rewrite Ht. reflexivity.
Qed.
Lemma rd_tokens it : rd_item (item_ty it) (item_tokens it) = Some (norm it, []).
Proof. pose proof (rd_item_tokens it []) as H. rewrite app_nil_r in H. exact H. Qed.
Lemma built_complete : complete tm kd p fs.
Proof.
  intros r Hr. destruct (built_need r Hr) as (it & Hi & Ht). exists (item_tokens it), (norm it), [].
  split; [apply built_file; auto|]. rewrite <- Ht. apply rd_tokens.
Qed.
Lemma built_item k h it : In (k, h, it) (built_files tm kd v) -> forall r, In r (class_needs tm kd) -> sq_file r = k -> sq_ty r = item_ty it ->
  file_item fs p r = norm it.
Proof.
  intros Hi r Hr Hk Ht. destruct (built_need r Hr) as (it' & Hi' & Ht').
  assert (E : (k, h, it) = (sq_file r, sq_hash r, it')).
  { apply (built_unique tm kd rate v); auto; cbn; congruence. }
  injection E as -> -> ->. unfold file_item. rewrite (built_file r it' Hr Hi' Ht'), Ht, rd_tokens. reflexivity.
Qed.
Variable (o : obj).
Hypothesis (HP : ob_prefix o = p) (HR : ob_rate o = rate) (HH : holds tm kd o (file_item fs p)).
Lemma built_look t k h it : In (k, h, it) (built_files tm kd v) -> item_ty it = t -> In (WItem t k) (save_all tm kd) ->
  (forall s, t <> TySup s) -> look o t (realize p k) = Some it.
Proof.
  intros Hi Ht Hw Hs. pose proof (save_in_needs tm kd _ Hw) as C. apply in_map_iff in C as (r & E & Hr). cbn in E. unfold core_of in E.
  injection E as E1 E2 E3. pose proof (HH r Hr) as F. unfold entry_of in F. rewrite HP in F.
  pose proof (reqs_file tm kd r Hr) as RF. unfold file_key in RF. rewrite E3 in RF.
  rewrite (built_item k h it Hi r Hr) in F by congruence.
  unfold look. rewrite E1 in F. rewrite (proj2 (st_get_Some (ob_store o) t (realize p k) _) (conj F (eq_trans (norm_ty it) Ht))).
  cbn [bind en_item]. destruct it as [| | | | |s d]; try reflexivity. exfalso. exact (Hs s (eq_sym Ht)).
Qed.
Lemma built_look_sup sp k h h' b : In (k, h, ItBv (sup_class sp) b) (built_files tm kd v) -> In (k, h', ItSup sp b) (built_files tm kd v) ->
  In (WItem (TyBv (sup_class sp)) k) (save_all tm kd) -> In (WSup sp k) (save_all tm kd) ->
  look o (TySup sp) (realize p k ++ sup_suffix sp)%string <> None.
Proof.
  intros Hv Hi Hwv Hw. pose proof (save_in_needs tm kd _ Hw) as C. apply in_map_iff in C as (r & E & Hr). cbn in E. unfold core_of in E.
  injection E as E1 E2 E3. pose proof (HH r Hr) as F. unfold entry_of in F. rewrite HP, E3, E1, realize_suffix in F.
  pose proof (reqs_file tm kd r Hr) as RF. unfold file_key in RF. rewrite E3 in RF.
  rewrite (built_item k h' _ Hi r Hr) in F by auto. cbn [option_map] in F.
  unfold look. rewrite (proj2 (st_get_Some (ob_store o) (TySup sp) _ _) (conj F (norm_ty (ItSup sp b)))).
  cbn [bind en_item en_ptr norm].
  pose proof (save_in_needs tm kd _ Hwv) as C. apply in_map_iff in C as (rv & E & Hrv). cbn in E. unfold core_of in E.
  injection E as V1 V2 V3. pose proof (HH rv Hrv) as Fv. unfold entry_of in Fv. rewrite HP, V3, V1 in Fv.
  pose proof (reqs_file tm kd rv Hrv) as RFv. unfold file_key in RFv. rewrite V3 in RFv.
  rewrite (built_item k h _ Hv rv Hrv) in Fv by (cbn; congruence). cbn [option_map norm] in Fv.
  rewrite (proj2 (st_get_Some (ob_store o) (TyBv (sup_class sp)) _ _) (conj Fv eq_refl)). cbn [bind en_item].
  destruct (sup_class sp); [discriminate|]. destruct (list_eq_dec _ _ _); [discriminate | contradiction].
Qed.
Lemma built_bv c k b sups : In (k, true, ItBv c b) (built_files tm kd v) -> In (WItem (TyBv c) k) (save_all tm kd) ->
  (forall sp, In sp sups -> sup_class sp = c /\ In (k, true, ItSup sp b) (built_files tm kd v) /\ In (WSup sp k) (save_all tm kd)) ->
  look_bv o c k sups = Some b.
Proof.
  intros Hi Hw Hs. unfold look_bv. rewrite HP. rewrite (built_look (TyBv c) k true (ItBv c b) Hi eq_refl Hw) by discriminate. cbn [bind].
  assert (M : exists l, mmap (fun sp => look o (TySup sp) (realize p k ++ sup_suffix sp)%string) sups = Some l).
  { induction sups as [|sp sups IH]; [exists []; reflexivity|]. cbn [mmap].
    destruct (Hs sp (or_introl eq_refl)) as (Ec & H1 & H2).
    assert (L : look o (TySup sp) (realize p k ++ sup_suffix sp)%string <> None).
    { apply (built_look_sup sp k true true b); auto; rewrite Ec; assumption. }
    destruct (look o (TySup sp) _) as [it|]; [|contradiction]. cbn [bind].
    destruct (IH (fun x Hx => Hs x (or_intror Hx))) as (l & ->). exists (it :: l). reflexivity. }
  destruct M as (l & ->). reflexivity.
Qed.

(** The view of the loaded object is the index, but for the fields that its class does not read. *)
Definition trim (kd : kind) (v : loaded) : loaded :=
  match v with
  | LdSr ix => LdSr (mk_sri (sr_alpha ix) (sr_bwt ix) (sr_rate ix) (sr_samples ix) (sr_marks ix) (sr_links ix) (sr_samples_idx ix)
                       (if has_valid kd then sr_valid_marks ix else []) (if has_areas kd then sr_valid_areas ix else []))
  | LdSc ix => LdSc (mk_srcsa (sc_alpha ix) (sc_psi ix) (sc_rate ix) (sc_samples ix) (sc_marks ix) (sc_links ix) (sc_idx ix)
                       (if has_cum kd then sc_cum ix else [])
                       (if has_valid kd then sc_valid ix else []) (if has_areas kd then sc_areas ix else []))
  | v => v
  end.
Lemma built_view : view tm kd o = Some (trim kd v).
Proof.
  assert (LA : forall k h a, In (k, h, ItAlpha a) (built_files tm kd v) -> In (WItem TyAlpha k) (save_all tm kd) -> look_alpha o k = Some a).
  { intros k h a H1 H2. unfold look_alpha. rewrite HP, (built_look TyAlpha k h (ItAlpha a)); auto. discriminate. }
  assert (LR : forall k h a, In (k, h, ItRle a) (built_files tm kd v) -> In (WItem TyRle k) (save_all tm kd) -> look_rle o k = Some a).
  { intros k h a H1 H2. unfold look_rle. rewrite HP, (built_look TyRle k h (ItRle a)); auto. discriminate. }
  assert (LI : forall k h a, In (k, h, ItInts a) (built_files tm kd v) -> In (WItem TyInts k) (save_all tm kd) -> look_ints o k = Some a).
  { intros k h a H1 H2. unfold look_ints. rewrite HP, (built_look TyInts k h (ItInts a)); auto. discriminate. }
  assert (LP : forall k h a, In (k, h, ItPsi a) (built_files tm kd v) -> In (WItem (TyPsi (t_dens tm)) k) (save_all tm kd) ->
    pc_dens a = t_dens tm -> look_psi o (t_dens tm) k = Some a).
  { intros k h a H1 H2 H3. unfold look_psi. rewrite HP, (built_look (TyPsi (t_dens tm)) k h (ItPsi a)); auto; [|discriminate]. cbn. congruence. }
  pose proof built_bv as LB. revert LA LR LI LP LB HS HR. clear.
  intros LA LR LI LP LB HS HR. unfold view.
  destruct kd, v as [ix|ix|ix|ix|ix]; cbn [shape] in HS; try contradiction;
    cbn [has_idx has_cum has_valid has_areas has_idx_select trim] in *;
    repeat match goal with
    | |- context [look_alpha o ?k] => let E := fresh in eassert (E : look_alpha o k = Some _) by (eapply LA; cbn; in_tac); rewrite E; clear E; cbn [bind]
    | |- context [look_rle o ?k] => let E := fresh in eassert (E : look_rle o k = Some _) by (eapply LR; cbn; in_tac); rewrite E; clear E; cbn [bind]
    | |- context [look_ints o ?k] => let E := fresh in eassert (E : look_ints o k = Some _) by (eapply LI; cbn; in_tac); rewrite E; clear E; cbn [bind]
    | |- context [look_psi o ?d ?k] => let E := fresh in eassert (E : look_psi o d k = Some _) by (eapply LP; [cbn; in_tac | cbn; in_tac | tauto]); rewrite E; clear E; cbn [bind]
    | |- context [look_bv o ?c ?k ?l] => let E := fresh in eassert (E : look_bv o c k l = Some _)
          by (eapply LB; [cbn; in_tac | cbn; in_tac
              | let sp := fresh in intros sp; cbn [In];
                repeat (let H := fresh in intros H; destruct H as [<-|H]; [split; [reflexivity|]; split; cbn; in_tac | revert H]); contradiction]);
          rewrite E; clear E; cbn [bind]
    end.
  all: try (destruct ix; reflexivity).
  all: rewrite HR; first [rewrite <- HS; reflexivity | rewrite <- (proj2 HS); reflexivity].
Qed.
End Built.

Lemma trim_locate kd v p : locate_view kd (trim kd v) p = locate_view kd v p.
Proof. destruct kd, v as [ix|ix|ix|ix|ix]; destruct ix; reflexivity. Qed.
Lemma trim_count kd v p : count_view (trim kd v) p = count_view v p.
Proof. destruct v as [ix|ix|ix|ix|ix]; destruct ix; reflexivity. Qed.

Lemma built_load tm kd rate v o0 fs : fresh o0 -> ob_rate o0 = rate -> shape tm kd rate v ->
  has_files fs (map (file_of (ob_prefix o0)) (built_files tm kd v)) ->
  exists o, load_config tm kd o0 fs = Some o /\ ob_rate o = rate /\ view tm kd o = Some (trim kd v).
Proof.
  intros (E & GP) HR HS HF.
  destruct (load_files tm kd o0 fs GP) as (o & L & R & P & H & W).
  - rewrite E. apply wf_empty.
  - exact (built_complete tm kd rate v (ob_prefix o0) fs HS HF).
  - intros r e _ F. rewrite E in F. discriminate F.
  - exists o. split; [exact L|]. split; [congruence|].
    apply (built_view tm kd rate v (ob_prefix o0) fs HS HF o P); [congruence | exact H].
Qed.

