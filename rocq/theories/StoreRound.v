(** Round trip through a stream, loads from the files of a construction, shared storages. *)
From Coq Require Import List Arith Bool Lia ZifyBool String Ascii.
From Verif Require Import MBase MRle MConstruct MPhi MRIndex MSrIndex MPsi MCsa MSrCsa MStore SpecStore StoreProof StoreClass StoreTrip.
Import ListNotations.

(** * Round trip *)
Lemma write_holds tm kd o g w : holds tm kd o g -> good_content tm kd g -> In w (save_all tm kd) ->
  exists r, In r (class_needs tm kd) /\ core_of r = save_core w /\ write (ob_prefix o) (ob_store o) w = item_tokens (g r).
Proof.
  intros H GC Hw. pose proof (save_in_needs tm kd w Hw) as Hin. apply in_map_iff in Hin as (r & E & Hr).
  exists r. split; [exact Hr|]. split; [exact E|]. pose proof (H r Hr) as F. destruct (GC r Hr) as (T & _).
  destruct w as [t k|sp k]; unfold core_of in E; cbn [save_core] in E; injection E as E1 E2 E3; unfold write.
  - rewrite E1 in F. rewrite <- E2, (proj2 (st_get_Some _ _ _ _) (conj F T)). reflexivity.
  - rewrite E1, realize_suffix in F. rewrite <- E2, (proj2 (st_get_Some _ _ _ _) (conj F T)). reflexivity.
Qed.
Lemma zero_width_tokens r it : item_ty it = sq_ty r -> nzb (core_of r) = false -> item_tokens it = [].
Proof.
  unfold nzb, zero_width, core_of. cbn [fst snd]. intros <- H. destruct it as [| | | | |s d]; try discriminate H.
  cbn in *. unfold sup_tokens. destruct (sup_class s); [reflexivity | discriminate H].
Qed.
Lemma save_tokens tm kd o g : holds tm kd o g -> good_content tm kd g -> order_safe tm kd ->
  flat_map (write (ob_prefix o) (ob_store o)) (save_all tm kd) = flat_map (fun r => item_tokens (g r)) (class_needs tm kd).
Proof.
  intros H GC HS.
  assert (A : forall ws rs, incl ws (save_all tm kd) -> incl rs (class_needs tm kd) ->
    filter nzb (map save_core ws) = filter nzb (map core_of rs) ->
    flat_map (write (ob_prefix o) (ob_store o)) ws = flat_map (fun r => item_tokens (g r)) rs).
  2:{ apply A; [intros x Hx; exact Hx | intros x Hx; exact Hx | apply save_order; exact HS]. }
  induction ws as [|w ws IHw].
  - induction rs as [|r rs IHr]; intros Hws Hrs E; [reflexivity|]. cbn [map filter] in E.
    destruct (nzb (core_of r)) eqn:Z; [discriminate E|]. cbn [flat_map].
    rewrite (zero_width_tokens r (g r) (proj1 (GC r (Hrs r (or_introl eq_refl)))) Z).
    cbn [app]. apply IHr; auto. intros x Hx. apply Hrs. right. exact Hx.
  - intros rs Hws Hrs E. destruct (write_holds tm kd o g w H GC (Hws _ (or_introl eq_refl))) as (rw & Hrw & Cw & Ew).
    assert (Hws' : incl ws (save_all tm kd)) by (intros x Hx; apply Hws; right; exact Hx).
    cbn [flat_map map filter] in *. rewrite Ew. destruct (nzb (save_core w)) eqn:Z.
    + induction rs as [|r rs IHr]; [discriminate E|]. cbn [map filter] in E. cbn [flat_map].
      assert (Hrs' : incl rs (class_needs tm kd)) by (intros x Hx; apply Hrs; right; exact Hx).
      destruct (nzb (core_of r)) eqn:Z'.
      * injection E as E1 E2. assert (r = rw).
        { apply (needs_same_core tm kd); [apply Hrs; left; reflexivity | exact Hrw|]. rewrite <- Cw in E1. unfold core_of in E1. congruence. }
        subst rw. f_equal. apply IHw; auto.
      * rewrite (zero_width_tokens r (g r) (proj1 (GC r (Hrs r (or_introl eq_refl)))) Z'). cbn [app]. apply IHr; auto.
    + rewrite <- Cw in Z. rewrite (zero_width_tokens rw (g rw) (proj1 (GC rw Hrw)) Z). cbn [app]. apply IHw; auto.
Qed.

Lemma flat_map_map {A B C} (f : A -> B) (h : B -> list C) l : flat_map h (map f l) = flat_map (fun x => h (f x)) l.
Proof. induction l as [|a l IH]; cbn; [reflexivity | rewrite IH; reflexivity]. Qed.
Lemma flat_map_ext_in {A B} (f h : A -> list B) l : (forall x, In x l -> f x = h x) -> flat_map f l = flat_map h l.
Proof.
  induction l as [|a l IH]; intros E; [reflexivity|]. cbn. rewrite (E a (or_introl eq_refl)), IH; [reflexivity|].
  intros x Hx. apply E. right. exact Hx.
Qed.

Lemma load_stream_content tm kd tgt g rest : fresh tgt -> good_content tm kd g ->
  exists o' s, load_from tm kd tgt (SrcStream (flat_map (fun r => item_tokens (g r)) (class_needs tm kd) ++ rest)) = Some (o', s) /\
    ls_src s = SrcStream rest /\ ob_rate o' = ob_rate tgt /\ ob_prefix o' = ob_prefix tgt /\ holds tm kd o' g /\ wf_store (ob_store o').
Proof.
  intros (E & GP) GC.
  pose proof (content_find (ob_prefix tgt) g (class_needs tm kd) (fun r1 r2 H1 H2 => key_inj tm kd (ob_prefix tgt) r1 r2 GP H1 H2)) as (HU1 & HU2).
  destruct (load_content tm kd tgt g (SrcStream (flat_map (fun r => item_tokens (g r)) (class_needs tm kd) ++ rest)) (SrcStream rest))
    as (o' & s & L & S & _ & R & P & H & W & _); auto.
  - rewrite E. apply wf_empty.
  - intros r e Hr F. rewrite E in F. discriminate F.
  - rewrite E. cbn [map]. rewrite needed_class by exact GP.
    match goal with |- feeds ?U ?rs _ _ => assert (T : flat_map (fun r => item_tokens (g r)) (class_needs tm kd) = flat_map (tok_of U) rs) end.
    { rewrite flat_map_map. apply flat_map_ext_in. intros r Hr. unfold tok_of, rz_rq. cbn [rq_key]. rewrite (HU1 r Hr). reflexivity. }
    rewrite T. apply feeds_stream.
    + intros q Hq. apply in_map_iff in Hq as (r & <- & Hr). exists (entry_of (ob_prefix tgt) g r).
      unfold rz_rq. cbn [rq_key rq_ty rq_ptr]. split; [exact (HU1 r Hr)|]. split; [exact (proj1 (GC r Hr)) | reflexivity].
    + intros k e He. destruct (HU2 _ _ He) as (r & Hr & _ & ->). exact (proj2 (GC r Hr)).
  - exists o', s. auto 10.
Qed.

Definition keeps_rate (kd : kind) (o tgt : obj) : Prop := writes_rate kd = true \/ has_idx kd = false \/ ob_rate tgt = ob_rate o.
Lemma round_trip tm kd o0 src o s tgt rest :
  wf_store (ob_store o0) -> load_from tm kd o0 src = Some (o, s) -> fresh tgt -> order_safe tm kd -> keeps_rate kd o tgt ->
  exists o', load_stream tm kd tgt (save tm kd o ++ rest) = Some (o', rest) /\
    (has_idx kd = true -> ob_rate o' = ob_rate o) /\ view tm kd o' = view tm kd o /\ save tm kd o' = save tm kd o.
Proof.
  intros W L F HS KR. destruct (load_holds tm kd o0 src o s W L) as (_ & _ & W' & g & GC & H).
  unfold load_stream, save. rewrite save_tokens with (g := g) by auto.
  destruct (writes_rate kd) eqn:WR.
  - cbn [app rd_num bind].
    destruct (load_stream_content tm kd (mk_obj (ob_rate o) (ob_prefix tgt) (ob_store tgt)) g rest F GC) as (o' & s' & E & S & R & P & H' & _).
    rewrite E. cbn [bind]. rewrite S. exists o'. split; [reflexivity|]. split; [intros _; exact R|]. split.
    + apply (holds_view tm kd o' o g); auto.
    + rewrite R. cbn [ob_rate]. f_equal. apply save_tokens; auto.
  - cbn [app bind]. destruct (load_stream_content tm kd tgt g rest F GC) as (o' & s' & E & S & R & P & H' & _).
    rewrite E. cbn [bind]. rewrite S. exists o'. split; [reflexivity|].
    assert (RR : has_idx kd = true -> ob_rate o' = ob_rate o).
    { intros HI. destruct KR as [K|[K|K]]; congruence. }
    split; [exact RR|]. split.
    + apply (holds_view tm kd o' o g); auto.
    + apply save_tokens; auto.
Qed.

(** * Storages *)
Lemma reached_wf st : reached st -> wf_store st.
Proof.
  induction 1 as [|st tm kd p c src log s' Hr IH Hc He]; [apply wf_empty|].
  assert (Hok : cmd_ok c) by (pose proof (cmds_ok tm kd) as A; rewrite Forall_forall in A; auto).
  rewrite exec_reqs in He by auto. exact (do_reqs_cmd_wf p c _ _ Hok He IH).
Qed.
Lemma reached_run st tm kd p cs src log s' : reached st -> incl cs (class_cmds tm kd) ->
  run p cs (mk_lstate st src log) = Some s' -> reached (ls_store s').
Proof.
  revert st src log. induction cs as [|c cs IH]; intros st src log Hr Hi H.
  - injection H as <-. exact Hr.
  - cbn [run] in H. apply bind_Some in H as ([st1 src1 log1] & H1 & H).
    apply (IH st1 src1 log1); auto.
    + change st1 with (ls_store (mk_lstate st1 src1 log1)). apply (reached_step st tm kd p c src log); auto. apply Hi. left. reflexivity.
    + intros x Hx. apply Hi. right. exact Hx.
Qed.
Lemma reached_load tm kd o src o' s : reached (ob_store o) -> load_from tm kd o src = Some (o', s) -> reached (ob_store o').
Proof.
  intros Hr H. unfold load_from in H. apply bind_Some in H as (s1 & H & E). injection E as <- <-. cbn [ob_store].
  apply (reached_run (ob_store o) tm kd (ob_prefix o) (class_cmds tm kd) src []); auto. intros x Hx. exact Hx.
Qed.

(** Every key is read at most once, and only if it was absent; a second load reads nothing. *)
Lemma load_log tm kd o src o' s : wf_store (ob_store o) -> load_from tm kd o src = Some (o', s) ->
  NoDup (ls_log s) /\ (forall k, In k (ls_log s) -> st_find (ob_store o) k = None) /\ grows (ob_store o) (ob_store o') /\
  (forall k e, st_find (ob_store o') k = Some e -> st_find (ob_store o) k = Some e \/ In k (ls_log s)).
Proof.
  intros W H. unfold load_from in H. apply bind_Some in H as (s1 & H & E). injection E as <- <-. cbn [ob_store].
  destruct (run_reqs (ob_prefix o) (class_cmds tm kd) (mk_lstate (ob_store o) src []) (cmds_ok tm kd) W) as (Q1 & Q2).
  fold (class_cmds tm kd) in H. rewrite H in Q1. symmetry in Q1.
  pose proof Q1 as Q. apply do_reqs_spec in Q as (G & F & new & L & N & A). cbn [ls_log app ls_store] in *. rewrite L.
  split; [exact N|]. split; [intros k Hk; apply A; exact Hk|]. split; [exact G|].
  assert (B : forall rs s0 s2, do_reqs rs s0 = Some s2 ->
    (forall k, In k (ls_log s0) -> In k (ls_log s2)) /\
    (forall k e, st_find (ls_store s2) k = Some e -> st_find (ls_store s0) k = Some e \/ In k (ls_log s2))).
  { clear. induction rs as [|r rs IH]; intros s0 s2 H.
    - injection H as <-. auto.
    - cbn [do_reqs] in H. apply bind_Some in H as (sm & H1 & H). destruct (IH _ _ H) as (I1 & I2).
      apply do_req_inv in H1 as [(-> & _)|(HN & it & src' & _ & _ & _ & ->)]; [auto|]. cbn [ls_store ls_log] in *. split.
      + intros k Hk. apply I1. apply in_or_app. auto.
      + intros k e Hk. destruct (I2 k e Hk) as [Hk'|Hk']; [|auto]. cbn in Hk'.
        destruct (String.eqb_spec (rq_key r) k) as [<-|]; [|auto]. right. apply I1. apply in_or_app. right. left. reflexivity. }
  intros k e Hk. destruct (proj2 (B _ _ _ Q1) k e Hk) as [?|?]; [auto|]. rewrite L in H0. auto.
Qed.
Lemma run_idem p cs s : wf_store (ls_store s) -> Forall cmd_ok cs ->
  (forall r, In r (map (rz_rq p) (flat_map reqs cs)) -> exists e, st_get (ls_store s) (rq_ty r) (rq_key r) = Some e) ->
  run p cs s = Some s.
Proof.
  intros W HF HA. rewrite (proj1 (run_reqs p cs s HF W)). revert HA. generalize (map (rz_rq p) (flat_map reqs cs)) as rs.
  induction rs as [|r rs IH]; intros HA; [reflexivity|]. cbn [do_reqs]. unfold do_req.
  destruct (HA r (or_introl eq_refl)) as (e & He). rewrite He. cbn [bind]. apply IH. intros x Hx. apply HA. right. exact Hx.
Qed.
Lemma load_again tm kd o src o' s src2 : wf_store (ob_store o) -> load_from tm kd o src = Some (o', s) ->
  load_from tm kd o' src2 = Some (o', mk_lstate (ob_store o') src2 []).
Proof.
  intros W H. unfold load_from in H. apply bind_Some in H as (s1 & H & E). injection E as <- <-.
  fold (class_cmds tm kd) in H.
  destruct (run_reqs (ob_prefix o) (class_cmds tm kd) (mk_lstate (ob_store o) src []) (cmds_ok tm kd) W) as (Q1 & Q2).
  pose proof (Q2 _ H) as W'. rewrite H in Q1. symmetry in Q1. apply do_reqs_spec in Q1 as (_ & F & _).
  unfold load_from. fold (class_cmds tm kd). cbn [ob_prefix ob_store ob_rate].
  rewrite (run_idem (ob_prefix o) (class_cmds tm kd) (mk_lstate (ls_store s1) src2 [])); auto using cmds_ok.
Qed.

(** * Loads from files *)
Definition file_key (r : srq) : skey := match sq_ptr r with Some k => k | None => sq_key r end.
Lemma reqs_file tm kd r : In r (class_needs tm kd) -> sq_file r = file_key r.
Proof.
  intros H. apply need_req in H. unfold class_reqs in H. apply in_flat_map in H as (c & _ & H).
  destruct c as [t k h|sp k h]; cbn in H.
  - destruct H as [<-|[]]. reflexivity.
  - destruct H as [<-|[<-|[]]]; reflexivity.
Qed.
Definition file_hash (r : srq) : option ty := if sq_hash r then Some (sq_ty r) else None.
Definition file_item (fs : files) (p : string) (r : srq) : item :=
  match file_find fs (realize p (sq_file r)) (file_hash r) with
  | Some c => match rd_item (sq_ty r) c with Some (it, _) => it | None => ItInts [] end
  | None => ItInts []
  end.
Definition complete (tm : tmpl) (kd : kind) (p : string) (fs : files) : Prop :=
  forall r, In r (class_needs tm kd) -> exists c it j,
    file_find fs (realize p (sq_file r)) (file_hash r) = Some c /\ rd_item (sq_ty r) c = Some (it, j).
Lemma complete_content tm kd p fs : complete tm kd p fs -> good_content tm kd (file_item fs p).
Proof.
  intros H r Hr. destruct (H r Hr) as (c & it & j & E1 & E2). unfold file_item. rewrite E1, E2. exact (rd_item_wf _ _ _ _ E2).
Qed.
Lemma needed_mono rs : forall a b, incl a b -> incl (needed b rs) (needed a rs).
Proof.
  induction rs as [|r rs IH]; intros a b Hab x Hx; [exact Hx|]. cbn [needed] in *.
  destruct (in_dec string_dec (rq_key r) a) as [A|A]; destruct (in_dec string_dec (rq_key r) b) as [B|B].
  - exact (IH a b Hab x Hx).
  - exfalso. auto.
  - right. apply (IH (rq_key r :: a) b); [|exact Hx]. intros y [<-|Hy]; auto.
  - destruct Hx as [->|Hx]; [left; reflexivity|]. right. apply (IH (rq_key r :: a) (rq_key r :: b)); [|exact Hx].
    intros y [<-|Hy]; [left; reflexivity | right; auto].
Qed.
Lemma load_files tm kd o fs :
  good_prefix (ob_prefix o) -> wf_store (ob_store o) -> complete tm kd (ob_prefix o) fs ->
  (forall r e, In r (class_needs tm kd) -> st_find (ob_store o) (realize (ob_prefix o) (sq_key r)) = Some e ->
     e = entry_of (ob_prefix o) (file_item fs (ob_prefix o)) r) ->
  exists o', load_config tm kd o fs = Some o' /\ ob_rate o' = ob_rate o /\ ob_prefix o' = ob_prefix o /\
    holds tm kd o' (file_item fs (ob_prefix o)) /\ wf_store (ob_store o').
Proof.
  intros GP W C A.
  destruct (load_content tm kd o (file_item fs (ob_prefix o)) (SrcFiles fs) (SrcFiles fs) GP W (complete_content _ _ _ _ C) A)
    as (o' & s & L & _ & _ & R & P & H & W' & _).
  - pose proof (content_find (ob_prefix o) (file_item fs (ob_prefix o)) (class_needs tm kd)
      (fun r1 r2 H1 H2 => key_inj tm kd (ob_prefix o) r1 r2 GP H1 H2)) as (HU1 & _).
    apply feeds_files. intros q Hq. apply (needed_mono _ [] _ (fun x (Hx : In x []) => match Hx with end)) in Hq.
    rewrite needed_class in Hq by exact GP. apply in_map_iff in Hq as (r & <- & Hr).
    destruct (C r Hr) as (c & it & j & E1 & E2). exists (entry_of (ob_prefix o) (file_item fs (ob_prefix o)) r), c, j.
    unfold rz_rq. cbn [rq_key rq_file rq_hash rq_ty]. split; [exact (HU1 r Hr)|]. split; [exact E1|].
    rewrite E2. unfold entry_of, file_item. rewrite E1, E2. reflexivity.
  - exists o'. unfold load_config. rewrite L. cbn [bind]. auto.
Qed.
(** The entries that a load from files adds. *)
Lemma do_reqs_files fs rs : forall seen s s', do_reqs rs s = Some s' -> ls_src s = SrcFiles fs ->
  (forall k, In k seen -> st_find (ls_store s) k <> None) ->
  forall k e, st_find (ls_store s') k = Some e -> st_find (ls_store s) k = Some e \/
    exists r c j, In r (needed seen rs) /\ rq_key r = k /\
      file_find fs (rq_file r) (if rq_hash r then Some (rq_ty r) else None) = Some c /\
      rd_item (rq_ty r) c = Some (en_item e, j) /\ en_ptr e = rq_ptr r.
Proof.
  induction rs as [|r rs IH]; intros seen s s' H HS HI k e Hk.
  - injection H as <-. auto.
  - cbn [do_reqs] in H. apply bind_Some in H as (s1 & H1 & H). cbn [needed].
    apply do_req_inv in H1 as [(-> & e1 & G1)|(HN & it & src & Fe & _ & _ & ->)].
    + destruct (in_dec string_dec (rq_key r) seen) as [B|B].
      * exact (IH seen _ _ H HS HI k e Hk).
      * destruct (IH (rq_key r :: seen) _ _ H HS) with (k := k) (e := e) as [X|(q & c & j & X1 & X2)]; auto.
        -- intros x [<-|Hx]; [|auto]. apply st_get_Some in G1 as (G1 & _). congruence.
        -- right. exists q, c, j. split; [right; exact X1 | exact X2].
    + rewrite HS in Fe. cbn [fetch] in Fe. apply bind_Some in Fe as (c & F1 & Fe). apply bind_Some in Fe as ([it' j] & F2 & Fe).
      injection Fe as -> <-. destruct (in_dec string_dec (rq_key r) seen) as [B|B]; [exfalso; exact (HI _ B HN)|].
      destruct (IH (rq_key r :: seen) _ _ H eq_refl) with (k := k) (e := e) as [X|(q & c' & j' & X1 & X2)]; auto.
      * cbn [ls_store]. intros x [<-|Hx]; cbn; [rewrite String.eqb_refl; discriminate|].
        destruct (String.eqb (rq_key r) x); [discriminate | auto].
      * cbn in X. destruct (String.eqb_spec (rq_key r) k) as [<-|]; [|auto]. injection X as <-.
        right. exists r, c, j. split; [left; reflexivity|]. auto.
      * right. exists q, c', j'. split; [right; exact X1 | exact X2].
Qed.
Lemma load_config_entries tm kd o fs o' : good_prefix (ob_prefix o) -> wf_store (ob_store o) ->
  load_config tm kd o fs = Some o' ->
  forall k e, st_find (ob_store o') k = Some e -> st_find (ob_store o) k = Some e \/
    exists r c j, In r (class_needs tm kd) /\ k = realize (ob_prefix o) (sq_key r) /\
      file_find fs (realize (ob_prefix o) (sq_file r)) (file_hash r) = Some c /\
      rd_item (sq_ty r) c = Some (en_item e, j) /\ e = entry_of (ob_prefix o) (file_item fs (ob_prefix o)) r.
Proof.
  intros GP W H. unfold load_config in H. apply bind_Some in H as ([o1 s] & H & E). injection E as ->.
  unfold load_from in H. apply bind_Some in H as (s1 & H & E). injection E as <- <-. cbn [ob_store].
  fold (class_cmds tm kd) in H.
  destruct (run_reqs (ob_prefix o) (class_cmds tm kd) (mk_lstate (ob_store o) (SrcFiles fs) []) (cmds_ok tm kd) W) as (Q1 & _).
  rewrite H in Q1. symmetry in Q1. intros k e Hk.
  destruct (do_reqs_files fs _ [] _ _ Q1 eq_refl) with (k := k) (e := e) as [X|(q & c & j & X1 & X2 & X3 & X4 & X5)]; auto.
  fold (class_reqs tm kd) in X1. rewrite needed_class in X1 by exact GP. apply in_map_iff in X1 as (r & <- & Hr).
  right. exists r, c, j. unfold rz_rq in *. cbn [rq_key rq_file rq_hash rq_ty rq_ptr] in *.
  split; [exact Hr|]. split; [auto|]. split; [exact X3|]. split; [exact X4|]. unfold entry_of, file_item.
  unfold file_hash. rewrite X3, X4. destruct e; cbn in *; congruence.
Qed.
Lemma load_config_complete tm kd o fs o' : fresh o -> load_config tm kd o fs = Some o' -> complete tm kd (ob_prefix o) fs.
Proof.
  intros (E & GP) H r Hr.
  assert (W : wf_store (ob_store o)) by (rewrite E; apply wf_empty).
  pose proof H as H'. unfold load_config in H'. apply bind_Some in H' as ([o1 s] & H' & E1). injection E1 as ->.
  destruct (load_holds tm kd o _ _ _ W H') as (P & _ & _ & g & GC & HG).
  destruct (load_config_entries tm kd o fs o' GP W H _ _ (HG r Hr)) as [X|(r' & c & j & H1 & H2 & H3 & H4 & _)].
  - rewrite E in X. discriminate X.
  - rewrite P in H2. apply (key_inj tm kd (ob_prefix o) r r' GP Hr H1) in H2. subst r'. exists c. eauto.
Qed.

(** * Shared storages *)
Definition srq_eq_dec (a b : srq) : {a = b} + {a <> b}.
Proof.
  destruct a as [k t f h p], b as [k' t' f' h' p'].
  destruct (core_eq_dec (k, t, p) (k', t', p')) as [E|]; [|right; congruence].
  destruct (core_eq_dec (f, t, p) (f', t, p)) as [E'|]; [|right; congruence].
  destruct (Bool.bool_dec h h'); [left; congruence | right; congruence].
Defined.
Definition compat (tm : tmpl) (a b : kind) : Prop :=
  forall r r', In r (class_needs tm a) -> In r' (class_needs tm b) -> sq_key r = sq_key r' -> r = r'.
Definition compatb (na nb : list srq) : bool :=
  forallb (fun r => forallb (fun r' =>
    if string_dec (snd (sq_key r)) (snd (sq_key r'))
    then (if Bool.bool_dec (fst (sq_key r)) (fst (sq_key r')) then (if srq_eq_dec r r' then true else false) else true)
    else true) nb) na.
Definition kinds : list kind :=
  [KRIndex; KSrIndex; KSrIndexVM; KSrIndexVA; KRCSA; KCSARaw; KSrCSA; KSrCSAVM; KSrCSAVA; KSlim; KSlimVM; KSlimVA;
   KRCSAPsi; KSrPsi; KSrPsiVM; KSrPsiVA].
(** RIndex and RCSAWithBWTRun use the same keys for items of different types. *)
Definition clash (a b : kind) : bool :=
  match a, b with KRIndex, KRCSA | KRCSA, KRIndex => true | _, _ => false end.
Lemma kinds_all kd : In kd kinds.
Proof. destruct kd; cbn; auto 20. Qed.
Definition compat_tab (tab : list (kind * list srq)) : bool :=
  forallb (fun x => forallb (fun y => clash (fst x) (fst y) || compatb (snd x) (snd y)) tab) tab.
Lemma compat_table tm : compat_tab (map (fun a => (a, class_needs (tm0 tm) a)) kinds) = true.
Proof. destruct tm as [a b c d]. unfold tm0. cbn [t_marks t_idx t_valid]. destruct a, b, c; vm_compute; reflexivity. Qed.
Lemma compat_all tm a b : clash a b = false -> compat tm a b.
Proof.
  intros HC. pose proof (compat_table tm) as T. unfold compat_tab in T. rewrite forallb_forall in T.
  assert (I : forall a, In (a, class_needs (tm0 tm) a) (map (fun a => (a, class_needs (tm0 tm) a)) kinds))
    by (intros x; apply (in_map (fun a => (a, class_needs (tm0 tm) a))), kinds_all).
  specialize (T _ (I a)). rewrite forallb_forall in T. specialize (T _ (I b)). cbn [fst snd] in T. rewrite HC in T. cbn [orb] in T.
  unfold compatb in T. rewrite forallb_forall in T. intros r r' Hr Hr' E.
  rewrite class_needs_re in Hr, Hr'. apply in_map_iff in Hr as (q & <- & Hq). apply in_map_iff in Hr' as (q' & <- & Hq').
  cbn [re_srq sq_key] in E. specialize (T q Hq). rewrite forallb_forall in T. specialize (T q' Hq'). rewrite E in T.
  destruct (string_dec _ _); [|contradiction]. destruct (Bool.bool_dec _ _); [|contradiction].
  destruct (srq_eq_dec q q'); [subst; reflexivity | discriminate].
Qed.

Lemma shared_wf tm fs L st : shared tm fs L st -> wf_store st.
Proof.
  induction 1 as [|st kd rate o Hs IH HL H]; [apply wf_empty|]. unfold load_config in H.
  apply bind_Some in H as ([o1 s] & H & E). injection E as ->.
  destruct (load_holds tm kd (new_rate rate st) _ _ _ IH H) as (_ & _ & W & _). exact W.
Qed.
Lemma shared_entries tm fs L st : shared tm fs L st -> forall k e, st_find st k = Some e ->
  exists kd rate r, L kd /\ In r (class_needs tm kd) /\ k = realize (rate_prefix rate) (sq_key r) /\
    e = entry_of (rate_prefix rate) (file_item fs (rate_prefix rate)) r.
Proof.
  induction 1 as [|st kd rate o Hs IH HL H]; [discriminate|]. intros k e Hk.
  destruct (load_config_entries tm kd (new_rate rate st) fs o (rate_prefix_good rate) (shared_wf _ _ _ _ Hs) H k e Hk)
    as [X|(r & c & j & X1 & X2 & _ & _ & X3)]; auto.
  exists kd, rate, r. auto.
Qed.
Lemma plain_entry tm kd fs r s s' : In r (class_needs tm kd) -> (fst (sq_key r) = true -> s = s') ->
  entry_of (rate_prefix s) (file_item fs (rate_prefix s)) r = entry_of (rate_prefix s') (file_item fs (rate_prefix s')) r.
Proof.
  intros Hr HE. destruct (fst (sq_key r)) eqn:F; [rewrite (HE eq_refl); reflexivity|].
  pose proof (reqs_file tm kd r Hr) as RF. pose proof (needs_ptr tm kd r Hr) as HP. unfold file_key in RF.
  unfold entry_of, file_item. destruct (sq_ptr r) as [k|].
  - destruct HP as (sp & _ & Hk & _). rewrite Hk in F. cbn in F. rewrite RF. cbn [option_map]. unfold realize. rewrite F. reflexivity.
  - rewrite RF. cbn [option_map]. unfold realize. rewrite F. reflexivity.
Qed.
Lemma shared_same tm fs (L : kind -> Prop) st kd rate o1 :
  (forall a b, L a -> L b -> clash a b = false) -> shared tm fs L st -> L kd ->
  load_config tm kd (new_rate rate []) fs = Some o1 ->
  exists o2, load_config tm kd (new_rate rate st) fs = Some o2 /\ view tm kd o2 = view tm kd o1.
Proof.
  intros HC Hs HL H.
  pose proof (load_config_complete tm kd _ fs o1 (fresh_rate rate) H) as C. cbn [new_rate ob_prefix] in C.
  assert (S1 : exists o', load_config tm kd (new_rate rate []) fs = Some o' /\ ob_rate o' = rate /\ ob_prefix o' = rate_prefix rate /\
    holds tm kd o' (file_item fs (rate_prefix rate)) /\ wf_store (ob_store o')).
  { apply (load_files tm kd (new_rate rate []) fs (rate_prefix_good rate) wf_empty C). intros r e _ E. discriminate E. }
  assert (S2 : exists o', load_config tm kd (new_rate rate st) fs = Some o' /\ ob_rate o' = rate /\ ob_prefix o' = rate_prefix rate /\
    holds tm kd o' (file_item fs (rate_prefix rate)) /\ wf_store (ob_store o')).
  { apply (load_files tm kd (new_rate rate st) fs (rate_prefix_good rate) (shared_wf _ _ _ _ Hs) C).
    intros r e Hr E. cbn [new_rate ob_prefix ob_store] in *.
    destruct (shared_entries tm fs L st Hs _ _ E) as (kd' & s' & r' & HL' & Hr' & K & ->).
    apply realize_rate_inj in K as (K & KS).
    - assert (r = r') by (apply (compat_all tm kd kd' (HC _ _ HL HL')); auto). subst r'.
      apply (plain_entry tm kd); auto. intros F. symmetry. apply KS. exact F.
    - apply needs_letter in Hr. tauto.
    - apply needs_letter in Hr'. tauto. }
  destruct S1 as (o' & E1 & R1 & P1 & H1 & W1). rewrite H in E1. injection E1 as <-.
  destruct S2 as (o2 & E2 & R2 & P2 & H2 & W2). exists o2. split; [exact E2|].
  apply (holds_view tm kd o2 o1 (file_item fs (rate_prefix rate))); auto.
  - exact (complete_content _ _ _ _ C).
  - intros _. congruence.
Qed.
