(** Proofs about loads that end with an exception. *)
From Coq Require Import List Arith Bool Lia String.
From Verif Require Import Spec MBase MConstruct MRIndex MSrIndex MCsa MSrCsa MStore MFail SpecStore SpecFail StoreProof StoreClass StoreTrip StoreRound StoreBuilt StoreEnd
  Glue PropertiesRIndex PropertiesSrIndex PropertiesCsa PropertiesSrCsa.
Import ListNotations.

Definition t_req (f : files) (r : rq) (st : store) : tried :=
  match st_get st (rq_ty r) (rq_key r) with
  | Some _ => Some (st, true)
  | None =>
      x <- t_fetch f (rq_ty r) (rq_file r) (rq_hash r) ;;
      match x with
      | None => Some (st, false)
      | Some it => let st := st_emplace st (rq_key r) (mk_entry it (rq_ptr r)) in
                   _ <- st_get st (rq_ty r) (rq_key r) ;; Some (st, true)
      end
  end.
Fixpoint t_reqs (f : files) (rs : list rq) (st : store) : tried :=
  match rs with
  | [] => Some (st, true)
  | r :: t => '(st, ok) <- t_req f r st ;; if ok then t_reqs f t st else Some (st, false)
  end.
Lemma t_reqs_app f a b st : t_reqs f (a ++ b) st = ('(st, ok) <- t_reqs f a st ;; if ok then t_reqs f b st else Some (st, false)).
Proof.
  revert st. induction a as [|r a IH]; intros st; cbn [app t_reqs]; [reflexivity|].
  destruct (t_req f r st) as [[s' []]|]; cbn [bind]; auto.
Qed.
(** A request that returns does what it does in a directory with more files. *)
Lemma t_req_do fs f r st st' log : part_of fs f -> t_req f r st = Some (st', true) ->
  exists log', do_req r (mk_lstate st (SrcFiles fs) log) = Some (mk_lstate st' (SrcFiles fs) log').
Proof.
  intros P. unfold t_req, do_req. cbn [ls_store ls_src ls_log]. destruct (st_get st _ _) as [e|].
  - intros H. injection H as <-. eauto.
  - unfold t_fetch, fetch. destruct (file_find f _ _) as [c|] eqn:E; [|discriminate]. rewrite (P _ _ _ E). cbn [bind].
    destruct (rd_item _ c) as [[it j]|]; cbn [bind]; [|discriminate].
    destruct (st_get _ _ _); cbn [bind]; [|discriminate]. intros H. injection H as <-. eauto.
Qed.
Lemma t_req_threw f r st st' : t_req f r st = Some (st', false) -> st' = st.
Proof.
  unfold t_req. destruct (st_get st _ _); [discriminate|]. destruct (t_fetch _ _ _ _) as [[it|]|]; cbn [bind]; try discriminate.
  - destruct (st_get _ _ _); cbn [bind]; discriminate.
  - congruence.
Qed.
Lemma t_req_total fs f r st log s : part_of fs f -> do_req r (mk_lstate st (SrcFiles fs) log) = Some s ->
  exists st' b, t_req f r st = Some (st', b).
Proof.
  intros P. unfold t_req, do_req. cbn [ls_store ls_src ls_log]. destruct (st_get st _ _) as [e|]; [eauto|].
  unfold t_fetch, fetch. intros H. destruct (file_find f _ _) as [c|] eqn:E; [|cbn; eauto]. rewrite (P _ _ _ E) in H. cbn [bind] in *.
  destruct (rd_item _ c) as [[it j]|]; cbn [bind] in *; [|discriminate].
  destruct (st_get _ _ _); cbn [bind] in *; [eauto|discriminate].
Qed.
Lemma do_reqs_log rs : forall st src l1 l2 s1, do_reqs rs (mk_lstate st src l1) = Some s1 ->
  exists l, do_reqs rs (mk_lstate st src l2) = Some (mk_lstate (ls_store s1) (ls_src s1) l).
Proof.
  induction rs as [|r rs IH]; intros st src l1 l2 s1 H; cbn [do_reqs] in *.
  - injection H as <-. cbn. eauto.
  - apply bind_Some in H as (s & H1 & H). unfold do_req in *. cbn [ls_store ls_src ls_log] in *.
    destruct (st_get st _ _) as [e|].
    + injection H1 as <-. cbn [bind]. exact (IH _ _ _ _ _ H).
    + destruct (fetch _ _ _ _) as [[it sr]|]; cbn [bind] in *; [|discriminate].
      destruct (st_get _ _ _); cbn [bind] in *; [|discriminate]. injection H1 as <-. exact (IH _ _ _ _ _ H).
Qed.
(** What has been loaded is not loaded again. *)
Lemma do_reqs_again rs st src log : (forall r, In r rs -> exists e, st_get st (rq_ty r) (rq_key r) = Some e) ->
  do_reqs rs (mk_lstate st src log) = Some (mk_lstate st src log).
Proof.
  induction rs as [|r rs IH]; intros H; [reflexivity|]. cbn [do_reqs]. unfold do_req at 1. cbn [ls_store].
  destruct (H r (or_introl eq_refl)) as (e & ->). cbn [bind]. apply IH. intros q Hq. apply H. right. exact Hq.
Qed.
(** Requests over a part of the directory, with any end: the storage is that of the requests made before over the
    whole directory, and making all of them then comes to the same end. *)
Lemma t_reqs_part fs f rs : part_of fs f -> forall st log s, do_reqs rs (mk_lstate st (SrcFiles fs) log) = Some s ->
  exists st' b, t_reqs f rs st = Some (st', b) /\ (b = true -> st' = ls_store s) /\
    forall l, exists l', do_reqs rs (mk_lstate st' (SrcFiles fs) l) = Some (mk_lstate (ls_store s) (SrcFiles fs) l').
Proof.
  intros P. induction rs as [|r rs IH]; intros st log s H.
  - cbn in H. injection H as <-. exists st, true. split; [reflexivity|]. split; [reflexivity|]. intros l. exists l. reflexivity.
  - pose proof H as H0. cbn [do_reqs] in H. apply bind_Some in H as (s1 & H1 & H).
    destruct (t_req_total fs f r st log s1 P H1) as (st1 & b & E). cbn [t_reqs]. rewrite E. cbn [bind]. destruct b.
    + destruct (t_req_do fs f r st st1 log P E) as (l1 & E1). rewrite H1 in E1. injection E1 as ->.
      destruct (IH _ _ _ H) as (st' & b & E2 & B & A). exists st', b. split; [exact E2|]. split; [exact B|].
      intros l. cbn [do_reqs].
      assert (F : exists e, st_get st' (rq_ty r) (rq_key r) = Some e).
      { pose proof (do_req_find _ _ _ H1) as (e & F). cbn [ls_store] in F. exists e. apply st_get_Some in F as (F & T).
        apply st_get_Some. split; [|exact T]. clear - E2 F.
        revert st1 F E2. induction rs as [|q rs IH]; intros st1 F E2; cbn [t_reqs] in E2.
        - injection E2 as <- _. exact F.
        - apply bind_Some in E2 as ([st2 ok] & E & E2). assert (G : st_find st2 (rq_key r) = Some e).
          { unfold t_req in E. destruct (st_get st1 _ _); [injection E as <- _; exact F|].
            destruct (t_fetch _ _ _ _) as [[it|]|]; cbn [bind] in E; try discriminate.
            - apply bind_Some in E as (x & _ & E). injection E as <- _. exact (grows_emplace _ _ _ _ _ F).
            - injection E as <- _. exact F. }
          destruct ok; [exact (IH _ G E2)|]. injection E2 as <- _. exact G. }
      destruct F as (e & F). unfold do_req at 1. cbn [ls_store]. rewrite F. cbn [bind]. apply A.
    + exists st, false. rewrite (t_req_threw _ _ _ _ E). split; [reflexivity|]. split; [discriminate|]. intros l.
      destruct (do_reqs_log (r :: rs) _ _ _ l _ H0) as (l' & E'). exists l'. rewrite E'. do 2 f_equal.
      clear - H0. revert st log H0. generalize (r :: rs). induction l as [|q l IH]; intros st log H0; cbn [do_reqs] in H0.
      * injection H0 as <-. reflexivity.
      * apply bind_Some in H0 as (s1 & H1 & H0). apply do_req_inv in H1 as [(-> & _)|(_ & it & src & H1 & _ & _ & ->)]; [exact (IH _ _ H0)|].
        cbn [ls_src fetch] in H1. apply bind_Some in H1 as (c & _ & H1). apply bind_Some in H1 as ([x y] & _ & H1). injection H1 as _ <-.
        exact (IH _ _ H0).
Qed.

(** * Commands *)
Lemma t_exec_reqs p f c st : cmd_ok c -> wf_store st -> t_exec p f c st = t_reqs f (map (rz_rq p) (reqs c)) st.
Proof.
  intros Hok W. destruct c as [t k h|sp k h].
  - cbn [t_exec reqs map t_reqs]. unfold t_raw, t_req, rz_rq. cbn [sq_key sq_ty sq_file sq_hash sq_ptr option_map rq_key rq_ty rq_file rq_hash rq_ptr].
    destruct (st_get st _ _); [reflexivity|]. destruct (t_fetch _ _ _ _) as [[it|]|]; cbn [bind]; try reflexivity.
    destruct (st_get _ _ _); reflexivity.
  - cbn [t_exec reqs map]. unfold rz_rq. cbn [sq_key sq_ty sq_file sq_hash sq_ptr option_map]. rewrite realize_suffix.
    change (mk_rq (realize p k) (TyBv (sup_class sp)) (realize p k) h None) with (vec_rq sp (realize p k) h).
    change (mk_rq (realize p k ++ sup_suffix sp) (TySup sp) (realize p k) h (Some (realize p k))) with (sup_rq sp (realize p k) h).
    generalize (realize p k) as key. intros key. unfold t_sup.
    destruct (st_get st (TySup sp) (key ++ sup_suffix sp)) as [e|] eqn:E.
    + destruct (wf_sup_vec _ _ _ _ W E) as (_ & b & Hb).
      cbn [t_reqs]. unfold t_req at 1. cbn [rq_key rq_ty vec_rq]. rewrite Hb. cbn [bind].
      unfold t_req. cbn [rq_key rq_ty sup_rq]. rewrite E. reflexivity.
    + cbn [t_reqs]. change (t_raw f (TyBv (sup_class sp)) key h st) with (t_req f (vec_rq sp key h) st).
      destruct (t_req f (vec_rq sp key h) st) as [[s1 []]|] eqn:E1; cbn [bind]; try reflexivity.
      assert (HN : st_get s1 (TySup sp) (key ++ sup_suffix sp) = None).
      { unfold t_req in E1. cbn [vec_rq rq_key rq_ty rq_file rq_hash rq_ptr] in E1.
        destruct (st_get st (TyBv _) key); [injection E1 as <-; exact E|].
        destruct (t_fetch _ _ _ _) as [[it|]|]; cbn [bind] in E1; try discriminate.
        apply bind_Some in E1 as (x & _ & E1). injection E1 as <-. unfold st_get in *. rewrite st_find_emplace.
        destruct (String.eqb_spec key (key ++ sup_suffix sp)) as [H|]; [exfalso; exact (suffix_neq _ _ H) | exact E]. }
      unfold t_req. cbn [rq_key rq_ty rq_file rq_hash rq_ptr sup_rq]. rewrite HN.
      destruct (t_fetch f (TySup sp) key h) as [[it|]|]; cbn [bind]; try reflexivity.
      match goal with |- context [st_get ?a ?b ?c] => destruct (st_get a b c) end; reflexivity.
Qed.
Lemma part_refl fs : part_of fs fs.
Proof. intros k h c H. exact H. Qed.
Lemma t_reqs_do f rs : forall st st' log, t_reqs f rs st = Some (st', true) ->
  exists l, do_reqs rs (mk_lstate st (SrcFiles f) log) = Some (mk_lstate st' (SrcFiles f) l).
Proof.
  induction rs as [|r rs IH]; intros st st' log H; cbn [t_reqs] in H.
  - injection H as <-. cbn. eauto.
  - apply bind_Some in H as ([s1 b] & E & H). destruct b; [|discriminate].
    destruct (t_req_do f f r st s1 log (part_refl f) E) as (l & D). cbn [do_reqs]. rewrite D. cbn [bind]. auto.
Qed.
Lemma t_cmd_wf p f c st st' b : cmd_ok c -> t_reqs f (map (rz_rq p) (reqs c)) st = Some (st', b) -> wf_store st -> wf_store st'.
Proof.
  intros Hok H W. destruct b.
  - destruct (t_reqs_do f _ _ _ [] H) as (l & D). pose proof (do_reqs_cmd_wf p c _ _ Hok D W). auto.
  - destruct c as [t k h|sp k h]; cbn [reqs map t_reqs] in H.
    + apply bind_Some in H as ([s1 b] & E & H). destruct b; [discriminate|]. injection H as <-. rewrite (t_req_threw _ _ _ _ E). exact W.
    + apply bind_Some in H as ([s1 b] & E & H). destruct b.
      * apply bind_Some in H as ([s2 b] & E2 & H). destruct b; [discriminate|]. injection H as <-. rewrite (t_req_threw _ _ _ _ E2).
        destruct (t_req_do f f _ _ _ [] (part_refl f) E) as (l & D).
        pose proof (do_req_wf_vec (realize p k) (TyBv (sup_class sp)) h (mk_lstate st (SrcFiles f) []) (mk_lstate s1 (SrcFiles f) l)) as V.
        apply V; [intros x; discriminate|exact D|exact W].
      * injection H as <-. rewrite (t_req_threw _ _ _ _ E). exact W.
Qed.
Lemma t_run_reqs p f cs st : Forall cmd_ok cs -> wf_store st ->
  t_run p f cs st = t_reqs f (map (rz_rq p) (flat_map reqs cs)) st /\
  (forall st' b, t_run p f cs st = Some (st', b) -> wf_store st').
Proof.
  intros HF. revert st. induction HF as [|c cs Hc HF IH]; intros st W.
  - split; [reflexivity|]. intros st' b H. injection H as <- _. exact W.
  - cbn [t_run flat_map]. rewrite map_app, t_reqs_app, t_exec_reqs by auto.
    destruct (t_reqs f (map (rz_rq p) (reqs c)) st) as [[s1 []]|] eqn:E; cbn [bind].
    + apply IH. exact (t_cmd_wf _ _ _ _ _ _ Hc E W).
    + split; [reflexivity|]. intros st' b H. injection H as <- _. exact (t_cmd_wf _ _ _ _ _ _ Hc E W).
    + split; [reflexivity|]. discriminate.
Qed.

(** * Objects *)
Lemma t_reqs_grows f rs : forall st st' b, t_reqs f rs st = Some (st', b) -> grows st st'.
Proof.
  induction rs as [|q rs IH]; intros st st' b H; cbn [t_reqs] in H.
  - injection H as <- _. apply grows_refl.
  - apply bind_Some in H as ([s1 ok] & E & H). assert (G : grows st s1).
    { unfold t_req in E. destruct (st_get st _ _); [injection E as <- _; apply grows_refl|].
      destruct (t_fetch _ _ _ _) as [[it|]|]; cbn [bind] in E; try discriminate.
      - apply bind_Some in E as (x & _ & E). injection E as <- _. apply grows_emplace.
      - injection E as <- _. apply grows_refl. }
    destruct ok; [exact (grows_trans _ _ _ G (IH _ _ _ H))|]. injection H as <- _. exact G.
Qed.
Lemma get_grows st st' t k e : grows st st' -> st_get st t k = Some e -> st_get st' t k = Some e.
Proof. intros G H. apply st_get_Some in H as (H & T). apply st_get_Some. split; [exact (G _ _ H)|exact T]. Qed.
Lemma t_reqs_again f rs st : (forall r, In r rs -> exists e, st_get st (rq_ty r) (rq_key r) = Some e) -> t_reqs f rs st = Some (st, true).
Proof.
  induction rs as [|r rs IH]; intros H; [reflexivity|]. cbn [t_reqs]. unfold t_req.
  destruct (H r (or_introl eq_refl)) as (e & ->). cbn [bind]. apply IH. intros q Hq. apply H. right. exact Hq.
Qed.
Definition all_reqs tm kd p := map (rz_rq p) (flat_map reqs (load_all tm kd)).
Definition build_reqs tm kd p := map (rz_rq p) (flat_map reqs (load_build tm kd)).
Lemma all_ok tm kd : Forall cmd_ok (load_all tm kd).
Proof. pose proof (cmds_ok tm kd) as H. apply Forall_app in H as (H & _). exact H. Qed.
Lemma build_ok tm kd : Forall cmd_ok (load_build tm kd).
Proof. pose proof (cmds_ok tm kd) as H. apply Forall_app in H as (_ & H). exact H. Qed.
Lemma alpha_first tm kd p : In (mk_rq (realize p k_alpha) TyAlpha (realize p k_alpha) false None) (all_reqs tm kd p).
Proof. destruct kd; left; reflexivity. Qed.
Lemma look_alpha_grows o st k : grows (ob_store o) st -> (exists e, st_get (ob_store o) TyAlpha (realize (ob_prefix o) k) = Some e) ->
  look_alpha (with_store o st) k = look_alpha o k.
Proof.
  intros G (e & H). unfold look_alpha, look. cbn [with_store ob_prefix ob_store]. rewrite H, (get_grows _ _ _ _ _ G H). cbn [bind].
  destruct (en_item e) eqn:E; try reflexivity. apply st_get_Some in H as (_ & H). rewrite E in H. discriminate.
Qed.

Section Retry.
Variables (tm : tmpl) (kd : kind) (o0 oF : obj) (fs : files) (al : alphabet) (n : nat).
Hypothesis (HL : look_alpha oF k_alpha = Some al) (HN : al_size al = Some n).
(** All that can be between two loads. *)
Definition onway (w : whole) : Prop :=
  wf_store (ob_store (wh_obj w)) /\ ob_rate (wh_obj w) = ob_rate oF /\ ob_prefix (wh_obj w) = ob_prefix oF /\
  exists l, do_reqs (all_reqs tm kd (ob_prefix oF) ++ build_reqs tm kd (ob_prefix oF)) (mk_lstate (ob_store (wh_obj w)) (SrcFiles fs) [])
    = Some (mk_lstate (ob_store oF) (SrcFiles fs) l).
Lemma do_reqs_src rs : forall st log s, do_reqs rs (mk_lstate st (SrcFiles fs) log) = Some s -> ls_src s = SrcFiles fs.
Proof.
  induction rs as [|q l IH]; intros st log s H0; cbn [do_reqs] in H0.
  - injection H0 as <-. reflexivity.
  - apply bind_Some in H0 as (s1 & H1 & H0). apply do_req_inv in H1 as [(-> & _)|(_ & it & src & H1 & _ & _ & ->)]; [exact (IH _ _ _ H0)|].
    cbn [ls_src fetch] in H1. apply bind_Some in H1 as (c & _ & H1). apply bind_Some in H1 as ([x y] & _ & H1). injection H1 as _ <-.
    exact (IH _ _ _ H0).
Qed.
Lemma onway_try w f : onway w -> part_of fs f -> exists w' b, try_load tm kd w f = Some (w', b) /\ onway w' /\ (whole_size w' = n \/ whole_size w' = whole_size w) /\ wh_index w' = (b || wh_index w)%bool /\ (b = true -> wh_obj w' = oF /\ whole_size w' = n).
Proof.
  destruct w as [[rate p st] sz ix]. intros (W & R & P & l & D) Hf. cbn [wh_obj ob_store ob_rate ob_prefix] in *.
  set (r1 := all_reqs tm kd (ob_prefix oF)) in *. set (r2 := build_reqs tm kd (ob_prefix oF)) in *.
  rewrite do_reqs_app in D. apply bind_Some in D as ([s1 src1 l1] & D1 & D2).
  pose proof (do_reqs_src _ _ _ _ D1) as S1. cbn in S1. subst src1.
  unfold try_load. cbn [wh_obj wh_size wh_index ob_prefix ob_store]. rewrite P.
  destruct (t_run_reqs (ob_prefix oF) f (load_all tm kd) st (all_ok tm kd) W) as (Q & QW). fold (all_reqs tm kd (ob_prefix oF)) in Q. fold r1 in Q.
  destruct (t_reqs_part fs f r1 Hf _ _ _ D1) as (st1 & b & T1 & B1 & A1). rewrite Q, T1 in *. cbn [bind].
  specialize (QW _ _ eq_refl). cbn [ls_store] in *.
  pose proof (do_reqs_spec _ _ _ D2) as (G2 & F2 & _). cbn [ls_store] in G2, F2.
  pose proof (do_reqs_spec _ _ _ D1) as (G1 & F1 & _). cbn [ls_store] in G1, F1.
  destruct b.
  - specialize (B1 eq_refl). subst st1.
    assert (HA : exists e, st_get s1 TyAlpha (realize (ob_prefix oF) k_alpha) = Some e) by exact (F1 _ (alpha_first tm kd _)).
    assert (E : look_alpha (with_store (mk_obj rate (ob_prefix oF) st) s1) k_alpha = Some al).
    { pose proof (look_alpha_grows (mk_obj rate (ob_prefix oF) s1) (ob_store oF) k_alpha G2 HA) as LG.
      unfold with_store in *. cbn [ob_rate ob_prefix] in *. rewrite <- LG, R, <- HL. destruct oF. reflexivity. }
    rewrite E. cbn [bind]. rewrite HN. cbn [bind].
    destruct (t_run_reqs (ob_prefix oF) f (load_build tm kd) s1 (build_ok tm kd) QW) as (Q2 & QW2).
    fold (build_reqs tm kd (ob_prefix oF)) in Q2. fold r2 in Q2.
    destruct (t_reqs_part fs f r2 Hf _ _ _ D2) as (st2 & b & T2 & B2 & A2). rewrite Q2, T2 in *. cbn [bind ls_store] in *.
    exists (mk_whole (mk_obj rate (ob_prefix oF) st2) n (b || ix)), b. split; [reflexivity|]. split; [|split; [|split]].
    + split; [exact (QW2 _ _ eq_refl)|]. split; [exact R|]. split; [reflexivity|]. cbn [wh_obj ob_store].
      rewrite do_reqs_app, do_reqs_again.
      * cbn [bind]. apply A2.
      * intros r Hr. destruct (F1 r Hr) as (e & F). exists e. exact (get_grows _ _ _ _ _ (t_reqs_grows _ _ _ _ _ T2) F).
    + left. reflexivity.
    + reflexivity.
    + intros Hb. specialize (B2 Hb). subst st2. split; [|reflexivity]. cbn [wh_obj]. destruct oF. cbn in *. congruence.
  - exists (mk_whole (mk_obj rate (ob_prefix oF) st1) sz ix), false. split; [reflexivity|]. split; [|split; [|split]].
    + split; [exact QW|]. split; [exact R|]. split; [reflexivity|]. cbn [wh_obj ob_store].
      fold r1 r2. rewrite do_reqs_app. destruct (A1 []) as (l' & A). rewrite A. cbn [bind].
      destruct (do_reqs_log r2 _ _ _ l' _ D2) as (l2 & A3). exists l2. exact A3.
    + right. reflexivity.
    + reflexivity.
    + discriminate.
Qed.
Lemma onway_tries fss : forall w, onway w -> Forall (part_of fs) fss -> exists w', tries tm kd w fss = Some w' /\ onway w'.
Proof.
  induction fss as [|f fss IH]; intros w O H; [exists w; auto|]. inversion H as [|? ? Hf HF]; subst.
  destruct (onway_try w f O Hf) as (w' & b & E & O' & _). cbn [tries]. rewrite E. cbn [bind]. auto.
Qed.
(** A load from the whole directory returns. *)
Lemma onway_full w : onway w -> exists w', try_load tm kd w fs = Some (w', true) /\ wh_obj w' = oF /\ whole_size w' = n /\ wh_index w' = true.
Proof.
  intros O. destruct (onway_try w fs O (part_refl fs)) as (w' & b & E & O' & _ & I & B).
  assert (b = true).
  { destruct b; [reflexivity|]. exfalso. clear B I O' HL HN. destruct w as [[rate p st] sz ix]. destruct O as (W & _ & P & l & D).
    cbn [wh_obj ob_store ob_prefix] in *. rewrite do_reqs_app in D. apply bind_Some in D as ([s1 src1 l1] & D1 & D2).
    pose proof (do_reqs_src _ _ _ _ D1) as S1. cbn in S1. subst src1.
    assert (T : forall rs s log s2, do_reqs rs (mk_lstate s (SrcFiles fs) log) = Some s2 -> t_reqs fs rs s = Some (ls_store s2, true)).
    { clear. induction rs as [|r rs IH]; intros s log s2 H; cbn [do_reqs] in H.
      - injection H as <-. reflexivity.
      - apply bind_Some in H as (s1 & H1 & H). assert (E : t_req fs r s = Some (ls_store s1, true) /\ ls_src s1 = SrcFiles fs).
        { unfold do_req in H1. unfold t_req. cbn [ls_store ls_src ls_log] in H1. destruct (st_get s _ _); [injection H1 as <-; auto|].
          unfold fetch in H1. unfold t_fetch. destruct (file_find _ _ _); cbn [bind] in *; [|discriminate].
          destruct (rd_item _ _) as [[it j]|]; cbn [bind] in *; [|discriminate]. destruct (st_get _ _ _); cbn [bind] in *; [|discriminate].
          injection H1 as <-. auto. }
        destruct E as (E & Es). cbn [t_reqs]. rewrite E. cbn [bind]. destruct s1 as [a b c]. cbn in Es. subst b. exact (IH _ _ _ H). }
    unfold try_load in E. cbn [wh_obj wh_size wh_index ob_prefix ob_store] in E. rewrite P in E.
    destruct (t_run_reqs (ob_prefix oF) fs (load_all tm kd) st (all_ok tm kd) W) as (Q & QW).
    unfold all_reqs in D1. rewrite (T _ _ _ _ D1) in Q. rewrite Q in *. specialize (QW _ _ eq_refl). cbn [bind ls_store] in *.
    apply bind_Some in E as (a & _ & E). apply bind_Some in E as (m & _ & E).
    destruct (t_run_reqs (ob_prefix oF) fs (load_build tm kd) s1 (build_ok tm kd) QW) as (Q2 & _).
    unfold build_reqs in D2. rewrite (T _ _ _ _ D2) in Q2. rewrite Q2 in E. cbn [bind] in E. discriminate. }
  subst b. destruct (B eq_refl) as (B1 & B2). exists w'. rewrite I. auto.
Qed.
Lemma onway_start sz : wf_store (ob_store o0) -> load_config tm kd o0 fs = Some oF -> onway (mk_whole o0 sz false).
Proof.
  intros W L. unfold load_config in L. apply bind_Some in L as ([x s] & L & E). injection E as ->.
  unfold load_from in L. apply bind_Some in L as (s' & L & E). injection E as H _.
  assert (HR : ob_rate oF = ob_rate o0) by (rewrite <- H; reflexivity). assert (HP : ob_prefix oF = ob_prefix o0) by (rewrite <- H; reflexivity).
  assert (HS : ob_store oF = ls_store s') by (rewrite <- H; reflexivity).
  split; [exact W|]. split; [auto|]. split; [auto|]. rewrite HP, HS. cbn [wh_obj ob_prefix ob_store].
  rewrite (proj1 (run_reqs (ob_prefix o0) (load_all tm kd ++ load_build tm kd) (mk_lstate (ob_store o0) (SrcFiles fs) []) (cmds_ok tm kd) W)) in L.
  rewrite flat_map_app, map_app in L. fold (all_reqs tm kd (ob_prefix o0)) in L. fold (build_reqs tm kd (ob_prefix o0)) in L.
  pose proof (do_reqs_src _ _ _ _ L) as S. exists (ls_log s'). rewrite L. destruct s'. cbn in S. subst. reflexivity.
Qed.
End Retry.

(** The size of the text of a built index. *)
Definition alpha_of (v : loaded) : alphabet :=
  match v with
  | LdR ix => ri_alpha ix | LdSr ix => sr_alpha ix | LdCsa ix => ca_alpha ix | LdRaw ix => cr_alpha ix | LdSc ix => sc_alpha ix
  end.
Lemma build_empty tm kd rate w sa data h v :
  zero_free w -> is_suffix_array (terminated w) sa -> data = w \/ data = terminated w ->
  0 < h -> t_dens tm = 2 * h -> S (List.length w) < 2 ^ 64 -> build tm kd rate data sa = Some v -> count_view v [] = Some (0, List.length sa).
Proof.
  intros Hw HSA Hd Hh HD Hn.
  destruct kd; cbn [build] in *; rewrite ?HD in *; intros B; apply bind_Some in B as (ix & E & B); injection B as <-; cbn [count_view].
  all: try (apply (C18_srcsa_empty_count w sa data h rate ix Hw HSA Hd Hh Hn); unfold srcsa_built; auto 10; fail).
  - exact (proj1 (C18_rindex_empty_pattern_refuted w sa data ix Hw HSA Hd E)).
  - exact (proj1 (proj1 (C18_srindex_empty_pattern_refuted w sa data rate Hw HSA Hd) ix E)).
  - exact (proj1 (proj2 (C18_srindex_empty_pattern_refuted w sa data rate Hw HSA Hd) ix E)).
  - exact (proj1 (proj2 (C18_srindex_empty_pattern_refuted w sa data rate Hw HSA Hd) ix E)).
  - exact (proj1 (C18_rcsa_bwt_empty_pattern w sa data h ix Hw HSA Hd Hh Hn E)).
  - exact (proj1 (C18_csa_raw_empty_pattern w sa data h ix Hw HSA Hd Hh Hn E)).
  - exact (proj1 (C18_rcsa_psi_empty_pattern w sa data h ix Hw HSA Hd Hh Hn E)).
Qed.
Lemma empty_size v n : count_view v [] = Some (0, n) -> al_size (alpha_of v) = Some n.
Proof.
  destruct v as [ix|ix|ix|ix|ix]; cbn [count_view alpha_of];
    unfold rindex_count, sr_count, rcsa_bwt_count, csa_raw_count, srcsa_count, csa_count;
    destruct (al_size _) as [m|]; cbn; congruence.
Qed.
Lemma view_alpha tm kd o v : view tm kd o = Some v -> look_alpha o k_alpha = Some (alpha_of v).
Proof.
  unfold view. intros H. apply bind_Some in H as (al & E & H). rewrite E. f_equal.
  destruct kd; repeat (apply bind_Some in H as (? & ? & H)); injection H as <-; reflexivity.
Qed.
Lemma trim_alpha kd v : alpha_of (trim kd v) = alpha_of v.
Proof. destruct v; reflexivity. Qed.

(** Once loaded, nothing changes. *)
Lemma onway_stay tm kd oF fs al n w f : look_alpha oF k_alpha = Some al -> al_size al = Some n ->
  onway tm kd oF fs w -> part_of fs f -> wh_obj w = oF -> wh_index w = true ->
  exists w', try_load tm kd w f = Some (w', true) /\ wh_obj w' = oF /\ whole_size w' = n /\ wh_index w' = true.
Proof.
  intros HL HN O Hf Ho Hi. destruct (onway_try tm kd oF fs al n HL HN w f O Hf) as (w' & b & E & _ & _ & I & B).
  assert (b = true).
  { destruct b; [reflexivity|]. exfalso. clear B I. destruct O as (W & _ & P & l & D). rewrite Ho in *. clear P.
    apply do_reqs_spec in D as (_ & F & _). cbn [ls_store] in F. unfold try_load in E. rewrite Ho in E.
    rewrite (proj1 (t_run_reqs (ob_prefix oF) f (load_all tm kd) (ob_store oF) (all_ok tm kd) W)), t_reqs_again in E
      by (intros r Hr; apply F, in_or_app; left; exact Hr). cbn [bind] in E.
    apply bind_Some in E as (a & _ & E). apply bind_Some in E as (m & _ & E).
    rewrite (proj1 (t_run_reqs (ob_prefix oF) f (load_build tm kd) (ob_store oF) (build_ok tm kd) W)), t_reqs_again in E
      by (intros r Hr; apply F, in_or_app; right; exact Hr). cbn [bind] in E. discriminate. }
  subst b. destruct (B eq_refl) as (B1 & B2). exists w'. rewrite I. auto.
Qed.
Lemma stay_tries tm kd oF fs al n fss : look_alpha oF k_alpha = Some al -> al_size al = Some n ->
  forall w, onway tm kd oF fs w -> Forall (part_of fs) fss -> wh_obj w = oF -> wh_index w = true -> whole_size w = n ->
  exists w', tries tm kd w fss = Some w' /\ wh_obj w' = oF /\ whole_size w' = n /\ wh_index w' = true.
Proof.
  intros HL HN. induction fss as [|f fss IH]; intros w O H Ho Hi Hs; [exists w; auto|]. inversion H as [|? ? Hf HF]; subst.
  destruct (onway_stay tm kd _ fs al _ w f HL HN O Hf eq_refl Hi) as (w' & E & E1 & E2 & E3). cbn [tries]. rewrite E. cbn [bind].
  destruct (onway_try tm kd _ fs al _ HL HN w f O Hf) as (w2 & b & X & O' & _). rewrite E in X. injection X as <- <-.
  destruct (IH w' O' HF E1 E3 E2) as (w3 & T & A). exists w3. auto.
Qed.
Lemma tries_app tm kd a b : forall w, tries tm kd w (a ++ b) = (w <- tries tm kd w a ;; tries tm kd w b).
Proof. induction a as [|f a IH]; intros w; [reflexivity|]. cbn [app tries]. destruct (try_load tm kd w f) as [[x y]|]; cbn [bind]; auto. Qed.

(** A load that returns is a load of MStore. *)
Lemma try_true tm kd w f w' : wf_store (ob_store (wh_obj w)) -> try_load tm kd w f = Some (w', true) ->
  load_config tm kd (wh_obj w) f = Some (wh_obj w') /\ wh_index w' = true.
Proof.
  intros W H. unfold try_load in H.
  destruct (t_run_reqs (ob_prefix (wh_obj w)) f (load_all tm kd) _ (all_ok tm kd) W) as (Q & QW).
  apply bind_Some in H as ([s1 b] & E1 & H). specialize (QW _ _ E1). rewrite Q in E1. destruct b; [|discriminate].
  apply bind_Some in H as (al & _ & H). apply bind_Some in H as (m & _ & H).
  destruct (t_run_reqs (ob_prefix (wh_obj w)) f (load_build tm kd) _ (build_ok tm kd) QW) as (Q2 & _).
  apply bind_Some in H as ([s2 b] & E2 & H). rewrite Q2 in E2. injection H as <- ->. split; [|reflexivity].
  destruct (t_reqs_do f _ _ _ [] E1) as (l1 & D1). destruct (t_reqs_do f _ _ _ l1 E2) as (l2 & D2).
  unfold load_config, load_from. 
  rewrite (proj1 (run_reqs _ (load_all tm kd ++ load_build tm kd) (mk_lstate (ob_store (wh_obj w)) (SrcFiles f) []) (cmds_ok tm kd) W)).
  rewrite flat_map_app, map_app, do_reqs_app, D1. cbn [bind]. rewrite D2. reflexivity.
Qed.
Lemma t_reqs_false f rs : forall st st' log, t_reqs f rs st = Some (st', false) -> do_reqs rs (mk_lstate st (SrcFiles f) log) = None.
Proof.
  induction rs as [|r rs IH]; intros st st' log H; cbn [t_reqs] in H; [discriminate|].
  apply bind_Some in H as ([s1 b] & E & H). cbn [do_reqs]. destruct b.
  - destruct (t_req_do f f r st s1 log (part_refl f) E) as (l & D). rewrite D. cbn [bind]. exact (IH _ _ _ H).
  - unfold t_req in E. unfold do_req. cbn [ls_store ls_src]. destruct (st_get st _ _); [discriminate|].
    unfold t_fetch in E. unfold fetch. destruct (file_find _ _ _); [|reflexivity]. cbn [bind] in *.
    destruct (rd_item _ _) as [[it j]|]; cbn [bind] in *; [|discriminate]. destruct (st_get _ _ _); discriminate.
Qed.
Lemma try_false tm kd w f w' : wf_store (ob_store (wh_obj w)) -> try_load tm kd w f = Some (w', false) ->
  load_config tm kd (wh_obj w) f = None /\ wh_index w' = wh_index w.
Proof.
  intros W H. unfold try_load in H. unfold load_config, load_from.
  rewrite (proj1 (run_reqs _ (load_all tm kd ++ load_build tm kd) (mk_lstate (ob_store (wh_obj w)) (SrcFiles f) []) (cmds_ok tm kd) W)).
  rewrite flat_map_app, map_app, do_reqs_app.
  destruct (t_run_reqs (ob_prefix (wh_obj w)) f (load_all tm kd) _ (all_ok tm kd) W) as (Q & QW).
  apply bind_Some in H as ([s1 b] & E1 & H). specialize (QW _ _ E1). rewrite Q in E1. destruct b.
  - destruct (t_reqs_do f _ _ _ [] E1) as (l1 & D1). rewrite D1. cbn [bind].
    apply bind_Some in H as (al & _ & H). apply bind_Some in H as (m & _ & H).
    destruct (t_run_reqs (ob_prefix (wh_obj w)) f (load_build tm kd) _ (build_ok tm kd) QW) as (Q2 & _).
    apply bind_Some in H as ([s2 b] & E2 & H). rewrite Q2 in E2. injection H as <- ->.
    rewrite (t_reqs_false _ _ _ _ l1 E2). auto.
  - injection H as <-. rewrite (t_reqs_false _ _ _ _ [] E1). auto.
Qed.
(** Where constructIndex loads nothing new, n_ is set only by loads that return. *)
Lemma build_in_all tm kd p : has_idx_select kd = false -> forall r, In r (build_reqs tm kd p) ->
  exists q, In q (all_reqs tm kd p) /\ rq_key q = rq_key r /\ rq_ty q = rq_ty r.
Proof.
  intros H. assert (A : Forall (fun r => Exists (fun q => sq_key q = sq_key r /\ sq_ty q = sq_ty r) (flat_map reqs (load_all tm kd)))
    (flat_map reqs (load_build tm kd))).
  { destruct kd; try discriminate; cbn;
      repeat (apply Forall_cons; [repeat first [apply Exists_cons_hd; split; reflexivity | apply Exists_cons_tl]|]); apply Forall_nil. }
  intros r Hr. unfold build_reqs in Hr. apply in_map_iff in Hr as (r' & <- & Hr). rewrite Forall_forall in A.
  specialize (A r' Hr). apply Exists_exists in A as (q & Hq & E1 & E2). exists (rz_rq p q). split; [apply in_map; exact Hq|].
  unfold rz_rq. cbn. rewrite E1, E2. auto.
Qed.
Lemma try_false_size tm kd w f w' : wf_store (ob_store (wh_obj w)) -> has_idx_select kd = false -> try_load tm kd w f = Some (w', false) ->
  whole_size w' = whole_size w.
Proof.
  intros W HI H. unfold try_load in H.
  destruct (t_run_reqs (ob_prefix (wh_obj w)) f (load_all tm kd) _ (all_ok tm kd) W) as (Q & QW).
  apply bind_Some in H as ([s1 b] & E1 & H). specialize (QW _ _ E1). rewrite Q in E1. destruct b; [|injection H as <-; reflexivity].
  exfalso. apply bind_Some in H as (al & _ & H). apply bind_Some in H as (m & _ & H).
  destruct (t_run_reqs (ob_prefix (wh_obj w)) f (load_build tm kd) _ (build_ok tm kd) QW) as (Q2 & _).
  rewrite Q2, t_reqs_again in H; [discriminate|]. intros r Hr. destruct (build_in_all tm kd _ HI r Hr) as (q & Hq & <- & <-).
  destruct (t_reqs_do f _ _ _ [] E1) as (l1 & D1). apply do_reqs_spec in D1 as (_ & F & _). exact (F q Hq).
Qed.
