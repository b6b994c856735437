(** From histories of a cache directory to indexes. *)
From Coq Require Import List Arith Bool String Lia.
From Verif Require Import Spec MBase MRle MConstruct MPhi MRIndex MSrIndex MPsi MCsa MSrCsa MStore MBwt
  ConstructProof Glue Util SpecStore SpecBwt StoreProof StoreClass StoreTrip StoreRound StoreBuilt StoreEnd BwtProof
  MCache SpecCache CacheIdeal CacheBuilt CacheStep.
Import ListNotations.

(** * Names of files *)
Lemma key_of_str k : key_of (fkey_str k) = k.
Proof. destruct k; vm_compute; reflexivity. Qed.
Lemma fkey_str_inj a b : fkey_str a = fkey_str b -> a = b.
Proof. intros H. rewrite <- (key_of_str a), <- (key_of_str b). now rewrite H. Qed.
Lemma fkey_letter k : letter_name (fkey_str k).
Proof. destruct k; vm_compute; reflexivity. Qed.
Definition name_skey (n : name) : skey := (match nm_rate n with Some _ => true | None => false end, fkey_str (nm_key n)).
Definition name_rate (n : name) : nat := match nm_rate n with Some s => s | None => 0 end.
Lemma name_str_realize n : name_str n = realize (rate_prefix (name_rate n)) (name_skey n).
Proof. unfold name_str, realize, name_skey, name_rate. destruct (nm_rate n); reflexivity. Qed.
Lemma name_str_inj n m : name_str n = name_str m -> nm_hash n = nm_hash m -> n = m.
Proof.
  rewrite !name_str_realize. intros H E. apply realize_rate_inj in H as [H R]; [|apply fkey_letter..].
  destruct n as [r k h], m as [r' k' h']. unfold name_skey, name_rate in *. cbn [nm_rate nm_key nm_hash fst] in *.
  injection H as H1 H2. apply fkey_str_inj in H2. subst k' h'. destruct r, r'; try discriminate; [rewrite R; reflexivity|reflexivity].
Qed.
Definition content_tokens (c : content) : list token := match c with Whole it => item_tokens it | Torn => [] end.
Lemma files_of_find d n : file_find (files_of d) (name_str n) (nm_hash n) = option_map content_tokens (d_find d n).
Proof.
  induction d as [|[m c] d IH]; [reflexivity|]. cbn [files_of map file_find d_find]. fold (files_of d).
  destruct (name_eq_dec m n) as [->|NE].
  - rewrite String.eqb_refl. destruct (nm_hash n) as [t|]; [|reflexivity]. destruct (ty_eq_dec t t); [reflexivity|congruence].
  - destruct (String.eqb_spec (name_str m) (name_str n)) as [E|E]; [|exact IH].
    destruct (nm_hash m) as [t|] eqn:H1, (nm_hash n) as [t'|] eqn:H2; rewrite ?H1, ?H2 in *; try exact IH.
    + destruct (ty_eq_dec t t') as [->|]; [|exact IH]. exfalso. apply NE. apply name_str_inj; congruence.
    + exfalso. apply NE. apply name_str_inj; congruence.
Qed.

(** * The files that the loads read *)
Lemma built_keys tm kd v f : In f (built_files tm kd v) -> fkey_str (key_of (snd (fst (fst f)))) = snd (fst (fst f)).
Proof.
  revert f. apply Forall_forall. destruct kd, v; all_files.
  all: cbn [fst snd k_alpha k_nav k_samples k_marks k_links k_idx k_cum k_valid k_areas k_sa]; try key_eval; reflexivity.
Qed.
Section Names.
Variables (data sa : list nat) (b : base_items) (dens : nat).
Hypothesis HB : construct_base data sa = Some b.
Ltac named := unfold name_of; cbn [fst snd k_alpha k_nav k_samples k_marks k_links k_idx k_cum k_valid k_areas k_sa nav_hash is_psi_run item_ty];
  try key_eval; unfold all_names, route_names, big_names; cbn [class_names];
  cbv [bv_names bv0_names base_names rindex_names sri_names sri_valid_names rcsa_names common_names srcsa_names slim_names
    srcsa_valid_names rcsa_psi_names srpsi_names psi_valid_names]; cbn [app In]; try (repeat (first [left; reflexivity | right]); fail).
Lemma built_names rt tm kd s v : t_dens tm = dens -> build tm kd s data sa = Some v -> (kd = KCSARaw -> rt = Sdsl) ->
  forall f, In f (built_files tm kd v) -> In (name_of s f) (all_names dens rt tm kd s).
Proof.
  intros HD H HK. apply Forall_forall.
  destruct kd; try (rewrite (HK eq_refl)); clear HK; cbn [build] in H; rewrite ?HD in H;
    match type of H with option_map _ ?m = _ => destruct m as [ix|] eqn:E; [|discriminate] end;
    injection H as <-; open_all; rewrite HB in E; cbn [bind] in E.
  all: unpack; cbn [sf_idx sf_samples sf_marks sf_links] in *.
  all: try match goal with H : construct_psi_core _ _ = Some ?pc |- _ => pose proof (psi_core_dens _ _ _ H) as HP end.
  all: all_files.
  all: destruct rt; named.
  all: cbn [ca_psi cr_psi sc_psi set_validity]; rewrite HP; repeat (first [left; reflexivity | right]); fail.
Qed.
End Names.

(** * Steps only add to the directory *)
Definition ext (d d' : disk) : Prop := exists ws, d' = ws ++ d.
Lemma ext_refl d : ext d d.
Proof. now exists []. Qed.
Lemma ext_trans d1 d2 d3 : ext d1 d2 -> ext d2 d3 -> ext d1 d3.
Proof. intros [x ->] [y ->]. exists (y ++ x). apply app_assoc. Qed.
Lemma ext_put d n it p : ext d (pr_disk p) -> ext d (pr_disk (put n it p)).
Proof. intros [ws E]. exists ((resolve p n, Whole it) :: ws). cbn. now rewrite E. Qed.
Lemma ext_create d n p : ext d (pr_disk p) -> ext d (pr_disk (create n p)).
Proof. intros [ws E]. exists ((resolve p n, Torn) :: ws). cbn. now rewrite E. Qed.
Lemma ext_reg d n l p : ext d (pr_disk p) -> ext d (pr_disk (put_registered n l p)).
Proof. intros [ws E]. exists ((with_hash n TyInts, Whole (ItInts l)) :: ws). cbn. now rewrite E. Qed.
Definition grows (f : step) : Prop := forall p p', f p = Some p' -> ext (pr_disk p) (pr_disk p').
Lemma grows_guarded n f : grows f -> grows (guarded n f).
Proof. intros H p p' E. unfold guarded in E. destruct (file_exists p n); [injection E as <-; apply ext_refl|auto]. Qed.
Lemma grows_run l : Forall grows l -> grows (run_steps l).
Proof.
  induction 1 as [|f l Hf _ IH]; intros p p' E; cbn [run_steps] in E; [injection E as <-; apply ext_refl|].
  apply bind_Some in E as (q & E1 & E2). eapply ext_trans; [apply Hf, E1|apply IH, E2].
Qed.
Ltac exts := repeat first [apply ext_put | apply ext_create | apply ext_reg]; first [apply ext_refl | assumption].
Ltac grow := let p := fresh "p" in let p' := fresh "p'" in let E := fresh "E" in
  try apply grows_guarded; intros p p' E; cbv zeta beta in E; dbind E; cbv beta iota in E; injection E as <-;
  unfold put_runs, put_two, put_bv, put_bv0; exts.
Lemma grows_bv c n src size : grows (step_bv c n src size). Proof. unfold step_bv. grow. Qed.
Lemma grows_bv0 c n src size : grows (step_bv0 c n src size). Proof. unfold step_bv0. grow. Qed.
Lemma grows_bv_bwt c n : grows (step_bv_bwt c n).
Proof. intros p p' E. unfold step_bv_bwt in E. apply bind_Some in E as (x & _ & E). exact (grows_bv _ _ _ _ p p' E). Qed.
Lemma grows_read n k a b : grows (read_runs_step n k a b).
Proof.
  intros p p' E. unfold read_runs_step in E. destruct (look_file p k) as [[it|]|]; [|discriminate|injection E as <-; apply ext_refl].
  destruct it; try discriminate. destruct (read_runs n l) as [js ts]. injection E as <-. exts.
Qed.
Lemma grows_base rt sort exe data : Forall grows (base_steps rt sort exe data).
Proof.
  destruct rt; cbn [base_steps]; repeat (apply Forall_cons); try apply Forall_nil.
  all: unfold step_text, step_sa, step_bwt, step_runs, step_alphabet, step_rle, step_big_bwt, step_big_runs; try (grow; fail).
  apply grows_guarded. intros p p' E. apply bind_Some in E as (x & _ & E). apply bind_Some in E as (q & E1 & E2).
  eapply ext_trans; [eapply grows_read, E1|eapply grows_read, E2].
Qed.
Lemma grows_psi_part a b c al s : grows (psi_runs_part a b c al s).
Proof. unfold psi_runs_part. grow. Qed.
Lemma grows_class tm kd s : Forall grows (class_steps tm kd s).
Proof.
  assert (A : Forall grows (rindex_steps tm)).
  { unfold rindex_steps. repeat apply Forall_cons; try apply Forall_nil; [unfold step_links_backward; grow | apply grows_bv_bwt]. }
  assert (B : Forall grows (sri_steps tm s)).
  { unfold sri_steps. repeat apply Forall_cons; try apply Forall_nil; try apply grows_bv; unfold step_sorted, step_subsamples_backward, step_submarks_backward; grow. }
  assert (C : Forall grows (sri_valid_steps tm s)).
  { unfold sri_valid_steps. repeat apply Forall_cons; try apply Forall_nil; try apply grows_bv0. unfold step_validity. grow. }
  assert (P0 : grows (step_psi (t_dens tm))) by (unfold step_psi; grow).
  assert (D : Forall grows (rcsa_steps tm)).
  { unfold rcsa_steps. repeat apply Forall_cons; try apply Forall_nil; [exact P0 | unfold step_links_forward; grow | apply grows_bv_bwt]. }
  assert (Z : grows step_bwt_size) by (unfold step_bwt_size; grow).
  assert (E : Forall grows (srcsa_common_steps tm s)).
  { unfold srcsa_common_steps. repeat apply Forall_cons; try apply Forall_nil; try apply grows_bv; try exact Z;
      unfold step_sorted, step_subsamples_forward, step_submarks_forward; grow. }
  assert (F : Forall grows (srcsa_steps tm s)).
  { unfold srcsa_steps. repeat apply Forall_cons; try apply Forall_nil; try apply grows_bv; try exact Z; unfold step_positions; grow. }
  assert (G : Forall grows (slim_steps tm s)).
  { unfold slim_steps. repeat apply Forall_cons; try apply Forall_nil; try apply grows_bv; unfold step_sorted_alphabet, step_subsamples_alphabet; grow. }
  assert (H : Forall grows (srcsa_valid_steps tm s)).
  { unfold srcsa_valid_steps. repeat apply Forall_cons; try apply Forall_nil; try apply grows_bv0; unfold step_validity_backward; grow. }
  assert (I : Forall grows (rcsa_psi_steps tm)).
  { unfold rcsa_psi_steps. repeat apply Forall_cons; try apply Forall_nil; try apply grows_bv; try exact P0; [|unfold step_links_psi; grow].
    unfold step_psi_runs. apply grows_guarded. intros p p' Q. dbind Q. eapply ext_trans; [eapply grows_psi_part; eassumption|eapply grows_psi_part, Q]. }
  assert (J : Forall grows (srcsa_psi_steps tm s)).
  { unfold srcsa_psi_steps. repeat apply Forall_cons; try apply Forall_nil; try apply grows_bv; [unfold step_sorted; grow|unfold step_subsamples_psi; grow| |
      unfold step_sublinks_psi; grow | unfold step_cumulative_psi; grow].
    unfold step_submarks_psi. apply grows_guarded. intros p p' Q. apply bind_Some in Q as ([sub q] & Q1 & Q2).
    assert (X : ext (pr_disk p) (pr_disk q)).
    { destruct (file_exists p (PT s FPsiTail TyInts)); dbind Q1; injection Q1 as <- <-; exts. }
    dbind Q2. injection Q2 as <-. unfold put_bv. exts. }
  assert (K : grows (step_validity_psi (t_valid tm) s)).
  { unfold step_validity_psi. apply grows_guarded. intros p p' Q. apply bind_Some in Q as (q & Q1 & Q2).
    assert (X : ext (pr_disk p) (pr_disk q)).
    { revert Q1. unfold guarded. destruct (file_exists p _); intros Q1; [injection Q1 as <-; apply ext_refl|]. dbind Q1. injection Q1 as <-. exts. }
    dbind Q2. injection Q2 as <-. unfold put_bv0. exts. }
  assert (L : grows (step_areas_psi s)) by (unfold step_areas_psi; grow).
  destruct kd; cbn [class_steps]; repeat (apply Forall_app; split); auto; repeat (apply Forall_cons; auto).
Qed.

(** * Histories *)
Section History.
Variables (w : list nat) (e : world) (h : nat).
Hypothesis HS : sound_world w e.
Hypothesis Hh : 0 < h.
Hypothesis Hn : S (List.length w) < 2 ^ 64.
Notation sa := (wd_sort e (terminated w)).
Notation data := (wd_data e).
Notation dens := (2 * h).
Notation g := (wd_exe e (wd_data e)).

Lemma world_total tm kd s : t_dens tm = dens -> exists v, build tm kd s data sa = Some v.
Proof. destruct HS as (Hw & Hd & HSA). intros HD. exact (build_total tm kd s w sa data h Hw HSA Hd Hh HD Hn). Qed.
Lemma world_base : exists b, construct_base data sa = Some b.
Proof.
  destruct (world_total (mk_tmpl BvSd BvSd BvSd dens) KRIndex 0 eq_refl) as [v E]. cbn [build] in E. unfold construct_rindex in E.
  destruct (construct_base data sa) as [b|]; [eauto|discriminate].
Qed.
Lemma world_route b r : construct_base data sa = Some b -> run_ready w e dens r -> route_ok data sa b g (input_of e r).
Proof.
  destruct HS as (Hw & Hd & HSA). intros HB [_ HR]. split; [reflexivity|]. cbn [input_of in_route in_sort in_exe].
  destruct (BwtProof.base_parts w sa data Hw HSA Hd b HB) as (rle & _ & Eb).
  destruct (ru_route r); [subst b; reflexivity|]. destruct (HR eq_refl) as (HG & HWS & HL). split; [reflexivity|].
  split; [|].
  - destruct HG as (EG & _). rewrite EG. subst b. cbn [bi_bwt_text]. apply read_symbols_id. intros c I.
    apply (bwt_in (terminated w) sa c (terminated_ok w Hw) HSA) in I. unfold terminated in I. apply in_app_or in I as [I|[<-|[]]]; [apply HWS; exact I|].
    unfold white_space. cbn. lia.
  - rewrite <- (big_runs_base w sa data Hw HSA Hd HL _ _ _ b HG HB). destruct g; reflexivity.
Qed.

Section Inv.
Variable b : base_items.
Hypothesis HB : construct_base data sa = Some b.
Notation INV := (inv sa b dens g).
Lemma total_here : forall kd s, exists v, build (mk_tmpl BvSd BvSd BvSd dens) kd s data sa = Some v.
Proof. intros kd s. now apply world_total. Qed.
Lemma run_oks r : run_ready w e dens r -> oks sa b dens g (base_steps (ru_route r) (wd_sort e) (wd_exe e) data ++ class_steps (ru_tm r) (ru_kd r) (ru_rate r)) []
  (all_names dens (ru_route r) (ru_tm r) (ru_kd r) (ru_rate r)).
Proof. intros HR. exact (ok_build data sa b dens g HB total_here (input_of e r) _ _ _ (world_route b r HB HR) (proj1 HR)). Qed.
Lemma run_ok r : run_ready w e dens r -> ok sa b dens g (run_cache e r) [] (all_names dens (ru_route r) (ru_tm r) (ru_kd r) (ru_rate r)).
Proof. intros HR. apply (run_oks r HR). Qed.
Lemma inv_new p : INV p -> INV (new_proc (pr_disk p)).
Proof. intros [G C M]. split; [exact G|exact C|]. intros r k []. Qed.
Lemma stopped_good d0 d1 d : good sa b dens g d1 -> stopped d0 d1 d -> good sa b dens g d.
Proof.
  intros G [ws todo E|ws todo n c E]; subst d1; apply Forall_app in G as [_ G]; [exact G|]. inversion G; subst. constructor; [exact Logic.I|assumption].
Qed.
Lemma history_inv p : history w e dens p -> INV p.
Proof.
  induction 1 as [|p r p' H IH R E|p H IH|p r p' d H IH R E ST C].
  - split; [constructor|intros n Hn'; exfalso; now apply Hn'|intros r k []].
  - destruct (run_ok r R p IH ltac:(intros ? [])) as [(q & ws & E' & _ & I & _) _]. congruence.
  - now apply inv_new.
  - destruct (run_ok r R p IH ltac:(intros ? [])) as [(q & ws & E' & D & I & _) _]. split; [|exact C|intros r' k []].
    assert (q = p') by congruence. subst q. eapply stopped_good; [apply I|exact ST].
Qed.
Lemma load_views r p : run_ready w e dens r -> (ru_kd r = KCSARaw -> ru_route r = Sdsl) -> INV p ->
  wholes p (all_names dens (ru_route r) (ru_tm r) (ru_kd r) (ru_rate r)) ->
  exists v o, build (ru_tm r) (ru_kd r) (ru_rate r) data sa = Some v /\
    load_config (ru_tm r) (ru_kd r) (new_rate (ru_rate r) []) (files_of (pr_disk p)) = Some o /\
    view (ru_tm r) (ru_kd r) o = Some (trim (ru_kd r) v).
Proof.
  intros HR HK IV' HW.
  destruct (world_total (ru_tm r) (ru_kd r) (ru_rate r) (proj1 HR)) as [v EV].
  assert (HF : has_files (files_of (pr_disk p)) (map (file_of (rate_prefix (ru_rate r))) (built_files (ru_tm r) (ru_kd r) v))).
  { intros k hs c I. apply in_map_iff in I as (f & EF & I).
    pose proof (built_names data sa b dens HB (ru_route r) _ _ (ru_rate r) v (proj1 HR) EV HK f I) as IN.
    pose proof (built_ideal data sa b dens g HB _ _ (ru_rate r) v (proj1 HR) EV f I) as II.
    pose proof (built_keys _ _ _ _ I) as IK.
    assert (EN : name_str (name_of (ru_rate r) f) = k /\ nm_hash (name_of (ru_rate r) f) = hs /\ item_tokens (snd f) = c).
    { destruct f as [[[pre str] hh] it]. unfold file_of in EF. cbn [fst snd] in *. injection EF as <- <- <-. unfold name_str, name_of. cbn [fst snd nm_rate nm_key nm_hash].
      rewrite IK. unfold realize. destruct pre; auto. }
    destruct EN as (<- & <- & <-). rewrite files_of_find.
    destruct (HW _ IN) as [it Eit]. rewrite Eit. cbn [option_map content_tokens]. f_equal. f_equal.
    assert (G : entry_ok sa b dens g (name_of (ru_rate r) f, Whole it)).
    { apply d_find_In in Eit. exact (proj1 (Forall_forall _ _) (inv_good _ _ _ _ _ IV') _ Eit). }
    unfold entry_ok in G. cbn [fst snd] in G. congruence. }
  destruct (built_load (ru_tm r) (ru_kd r) (ru_rate r) v (new_rate (ru_rate r) []) _ (fresh_rate _) eq_refl (build_shape _ _ _ _ _ _ EV) HF) as (o & L & _ & V).
  exists v, o. auto.
Qed.
Lemma run_views r p : run_ready w e dens r -> (ru_kd r = KCSARaw -> ru_route r = Sdsl) -> INV p ->
  exists v o p', build (ru_tm r) (ru_kd r) (ru_rate r) data sa = Some v /\ run_cache e r p = Some p' /\
    load_config (ru_tm r) (ru_kd r) (new_rate (ru_rate r) []) (files_of (pr_disk p')) = Some o /\
    view (ru_tm r) (ru_kd r) o = Some (trim (ru_kd r) v).
Proof.
  intros HR HK IV. destruct (run_ok r HR p IV ltac:(intros ? [])) as [(p' & ws & E & D & IV' & HW & K) _].
  destruct (load_views r p' HR HK IV' HW) as (v & o & EV & L & V). exists v, o, p'. auto.
Qed.
Lemma run_loads r p : run_ready w e dens r -> (ru_kd r = KCSARaw -> ru_route r = Sdsl) -> INV p ->
  exists v o p', build (ru_tm r) (ru_kd r) (ru_rate r) data sa = Some v /\ run_cache e r p = Some p' /\
    run_index e r p = Some (o, p') /\
    (forall x, obj_locate (ru_tm r) (ru_kd r) o x = locate_view (ru_kd r) v x) /\ (forall x, obj_count (ru_tm r) (ru_kd r) o x = count_view v x).
Proof.
  intros HR HK IV. destruct (run_views r p HR HK IV) as (v & o & p' & EV & E & L & V).
  exists v, o, p'. split; [exact EV|]. split; [exact E|]. split.
  - unfold run_index, construct_index. change (build_cache _ _ _ _ p) with (run_cache e r p). rewrite E. cbn [bind]. rewrite L. reflexivity.
  - unfold obj_locate, obj_count. rewrite V. cbn [bind]. split; intros x; [apply trim_locate | apply trim_count].
Qed.
(** A stop between two steps. *)
Lemma run_boundary r p l1 l2 : run_ready w e dens r -> history w e dens p ->
  base_steps (ru_route r) (wd_sort e) (wd_exe e) data ++ class_steps (ru_tm r) (ru_kd r) (ru_rate r) = l1 ++ l2 ->
  (forall c s k, l2 <> step_submarks_psi c s :: k) ->
  exists p1 p', run_steps l1 p = Some p1 /\ run_cache e r p = Some p' /\ stopped (pr_disk p) (pr_disk p') (pr_disk p1) /\
    history w e dens (new_proc (pr_disk p1)).
Proof.
  intros HR H E N. pose proof (history_inv p H) as IV.
  pose proof (proj1 (run_oks r HR)) as O. destruct (oks_part _ _ _ _ _ _ _ (run_oks r HR) l1 l2 E N p IV ltac:(intros ? [])) as (p1 & E1 & IV1).
  destruct (O p IV ltac:(intros ? [])) as [(p' & ws & E2 & _) _].
  assert (E3 : run_cache e r p = Some p') by exact E2.
  assert (GR : Forall grows (l1 ++ l2)) by (rewrite <- E; apply Forall_app; split; [apply grows_base|apply grows_class]).
  apply Forall_app in GR as [G1 G2]. rewrite E, run_app, E1 in E2. cbn [bind] in E2.
  destruct (grows_run l1 G1 _ _ E1) as [w1 D1]. destruct (grows_run l2 G2 _ _ E2) as [w2 D2].
  assert (ST : stopped (pr_disk p) (pr_disk p') (pr_disk p1)).
  { rewrite D1. apply (stop_between _ _ w1 w2). rewrite D2, D1. reflexivity. }
  exists p1, p'. split; [exact E1|]. split; [exact E3|]. split; [exact ST|]. apply (h_stop w e dens p r p'); auto. apply IV1.
Qed.
(** Repeated and interleaved calls. *)
Lemma rerun_idle r p p' : run_ready w e dens r -> INV p -> run_cache e r p = Some p' ->
  forall q, INV q -> (forall n, whole (pr_disk p') n -> whole (pr_disk q) n) -> run_cache e r q = Some q.
Proof.
  intros HR IV E q IQ HQ. destruct (run_ok r HR p IV ltac:(intros ? [])) as [(p2 & ws & E' & _ & _ & HW & _) _].
  assert (p2 = p') by congruence. subst p2. apply (run_ok r HR q IQ ltac:(intros ? [])). intros n Hn'. apply HQ, HW, Hn'.
Qed.
Lemma later_inv p q : INV p -> later w e dens p q -> INV q /\ forall n, whole (pr_disk p) n -> whole (pr_disk q) n.
Proof.
  intros IV. induction 1 as [|q r q' H [IQ HQ] R E|q H [IQ HQ]]; [auto| |].
  - destruct (run_ok r R q IQ ltac:(intros ? [])) as [(q2 & ws & E' & _ & I & _ & K) _]. assert (q2 = q') by congruence. subst q2. auto.
  - split; [now apply inv_new|exact HQ].
Qed.
Lemma later_history p q : history w e dens p -> later w e dens p q -> history w e dens q.
Proof. intros H. induction 1; [exact H|eapply h_run; eauto|now apply h_new]. Qed.
Lemma run_exact r p : run_ready w e dens r -> (ru_kd r = KCSARaw -> ru_route r = Sdsl) -> INV p ->
  exists o p', run_index e r p = Some (o, p') /\ run_cache e r p = Some p' /\ exact_index w e r o.
Proof.
  intros HR HK IV. destruct (run_loads r p HR HK IV) as (v & o & p' & EV & E1 & E2 & L & C). exists o, p'. split; [exact E2|]. split; [exact E1|].
  intros x Hx. destruct HS as (Hw & Hd & HSA).
  destruct (build_exact (ru_tm r) (ru_kd r) (ru_rate r) w sa data h x Hw HSA Hd Hh (proj1 HR) Hn Hx) as (v' & [s t] & l & EV' & EC & EL & A & RI).
  assert (v' = v) by congruence. subst v'. exists l, s, t. rewrite L, C. auto.
Qed.
(** Base items that are there are not made again, whatever the data. *)
Lemma base_idle rt sort exe dat p : map_ok p -> (forall n, In n (route_names rt ++ base_names) -> whole (pr_disk p) n) -> run_steps (base_steps rt sort exe dat) p = Some p.
Proof.
  intros M HW.
  assert (X : forall n f, plain n = true -> In n (route_names rt ++ base_names) -> guarded n f p = Some p).
  { intros n f HP I. unfold guarded. rewrite (exists_whole p n M HP (HW n I)). reflexivity. }
  destruct rt; cbn [base_steps run_steps]; unfold step_text, step_sa, step_bwt, step_runs, step_alphabet, step_rle, step_big_bwt, step_big_runs;
    repeat (rewrite X; [cbn [bind]|reflexivity|cbn; tauto]); reflexivity.
Qed.
Lemma stale_idle r p p' e2 : run_ready w e dens r -> INV p -> run_cache e r p = Some p' -> run_cache e2 r p' = Some p'.
Proof.
  intros HR IV E. destruct (run_ok r HR p IV ltac:(intros ? [])) as [(p2 & ws & E' & _ & IV' & HW & _) _].
  assert (p2 = p') by congruence. subst p2.
  assert (BI : forall sort exe dat, run_steps (base_steps (ru_route r) sort exe dat) p' = Some p').
  { intros sort exe dat. apply base_idle; [apply IV'|]. intros n Hn'. apply HW. unfold all_names. apply in_or_app. now left. }
  pose proof (rerun_idle r p p' HR IV E p' IV' ltac:(auto)) as ID.
  unfold run_cache, build_cache in *. rewrite run_app in *. cbn [input_of in_route in_sort in_exe in_data] in *. rewrite BI in *. exact ID.
Qed.
End Inv.
End History.

(** A decision procedure for [closed]. *)
Definition is_whole (d : disk) (n : name) : bool := match d_find d n with Some (Whole _) => true | _ => false end.
Definition is_closed (dens : nat) (d : disk) : bool := forallb (fun e => forallb (is_whole d) (bundle dens (fst e))) d.
Lemma is_closed_ok dens d : is_closed dens d = true -> closed dens d.
Proof.
  intros H n HP o HO. unfold present in HP. destruct (d_find d n) as [c|] eqn:E; [|congruence]. apply d_find_In in E.
  unfold is_closed in H. rewrite forallb_forall in H. specialize (H _ E). cbn [fst] in H. rewrite forallb_forall in H. specialize (H _ HO).
  unfold is_whole in H. unfold whole. destruct (d_find d o) as [[it|]|]; try discriminate. eauto.
Qed.

