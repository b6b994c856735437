(** The construction programs of benchmark/: what they leave in the directory, and what they report. *)
From Coq Require Import List Arith Bool String Lia.
From Verif Require Import Spec MBase MRle MConstruct MPhi MRIndex MSrIndex MPsi MCsa MSrCsa MStore MBwt
  ConstructProof Glue Util SpecStore SpecBwt StoreProof StoreClass StoreTrip StoreRound StoreBuilt StoreEnd BwtProof
  MCache SpecCache CacheIdeal CacheBuilt CacheStep CacheEnd MFactory SpecFactory MBench SpecBench MBuild SpecBuild BuildSizes.
Import ListNotations.

(** Distinct names of logs. *)
Lemma log_find_last l k n : log_find l k = Some n -> In (k, n) l.
Proof.
  induction l as [|[x m] l IH]; [discriminate|]. cbn [log_find]. destruct (String.eqb_spec x k) as [->|NE]; intros H.
  - injection H as ->. now left.
  - right. auto.
Qed.

Section Builds.
Variables (w : list nat) (e : world) (h : nat).
Hypothesis HS : sound_world w e.
Hypothesis Hh : 0 < h.
Hypothesis Hn : S (List.length w) < 2 ^ 64.
Notation sa := (wd_sort e (terminated w)).
Notation data := (wd_data e).
Notation dens := (2 * h).
Notation g := (wd_exe e (wd_data e)).
Variable b : base_items.
Hypothesis HB : construct_base data sa = Some b.
Notation INV := (inv sa b dens g).
Variables (rt : route) (tm : tmpl).
Hypothesis HD : t_dens tm = dens.
Hypothesis HR : rt = BigBwt -> sound_big w e.
Notation inp := (mk_input rt (wd_sort e) (wd_exe e) (wd_data e)).
Notation names kd s := (all_names dens rt tm kd s).

Lemma ready kd s : run_ready w e dens (mk_run rt tm kd s).
Proof. split; [exact HD|exact HR]. Qed.
(** The files of an index are there when all names of its class are. *)
Lemma files_there kd s p v : (kd = KCSARaw -> rt = Sdsl) -> INV p -> wholes p (names kd s) -> build tm kd s data sa = Some v ->
  has_files (files_of (pr_disk p)) (map (file_of (rate_prefix s)) (built_files tm kd v)).
Proof.
  intros HK IV HW EV k hs c I. apply in_map_iff in I as (f & EF & I).
  pose proof (built_names data sa b dens HB rt _ _ s v HD EV HK f I) as IN.
  pose proof (built_ideal data sa b dens g HB _ _ s v HD EV f I) as II.
  pose proof (built_keys _ _ _ _ I) as IK.
  assert (EN : name_str (name_of s f) = k /\ nm_hash (name_of s f) = hs /\ item_tokens (snd f) = c).
  { destruct f as [[[pre str] hh] it]. unfold file_of in EF. cbn [fst snd] in *. injection EF as <- <- <-. unfold name_str, name_of. cbn [fst snd nm_rate nm_key nm_hash].
    rewrite IK. unfold realize. destruct pre; auto. }
  destruct EN as (<- & <- & <-). rewrite files_of_find.
  destruct (HW _ IN) as [it Eit]. rewrite Eit. cbn [option_map content_tokens]. f_equal. f_equal.
  assert (G : entry_ok sa b dens g (name_of s f, Whole it)).
  { apply d_find_In in Eit. exact (proj1 (Forall_forall _ _) (inv_good _ _ _ _ _ IV) _ Eit). }
  unfold entry_ok in G. cbn [fst snd] in G. congruence.
Qed.

(** The rounds of a call. *)
Lemma again kd s o p q : INV q -> wholes q (names kd s) -> load_config tm kd (new_rate s []) p = Some o ->
  construct_into inp tm kd s (o, q) = Some (o, q).
Proof.
  intros IQ HW L. unfold construct_into. cbn [fst snd].
  assert (E : run_cache e (mk_run rt tm kd s) q = Some q).
  { apply (run_ok w e h HS Hh Hn b HB (mk_run rt tm kd s) (ready kd s) q IQ ltac:(intros ? [])). exact HW. }
  unfold run_cache, input_of in E. cbn [ru_route ru_tm ru_kd ru_rate] in E. rewrite E. cbn [bind].
  unfold load_config in L. apply bind_Some in L as ([o1 s1] & L & Q). injection Q as ->.
  unfold load_config. rewrite (load_again tm kd (new_rate s []) _ _ _ (SrcFiles (files_of (pr_disk q))) (wf_empty) L). reflexivity.
Qed.
Lemma rounds_again k kd s o p q : INV q -> wholes q (names kd s) -> load_config tm kd (new_rate s []) p = Some o ->
  rounds k inp tm kd s (o, q) = Some (o, q).
Proof.
  intros IQ HW L. induction k as [|k IH]; [reflexivity|]. cbn [rounds]. rewrite (again kd s o p q IQ HW L). cbn [bind]. exact IH.
Qed.
Lemma rounds_ok k kd s p : kd <> KCSARaw -> INV p -> exists o p', rounds (S k) inp tm kd s (new_rate s [], p) = Some (o, p') /\
  INV p' /\ wholes p' (names kd s) /\ (forall n, whole (pr_disk p) n -> whole (pr_disk p') n) /\
  run_cache e (mk_run rt tm kd s) p = Some p'.
Proof.
  intros NK IV. destruct (run_ok w e h HS Hh Hn b HB (mk_run rt tm kd s) (ready kd s) p IV ltac:(intros ? [])) as [(p' & ws & E & _ & IV' & HW & K) _].
  cbn [ru_route ru_tm ru_kd ru_rate] in *.
  destruct (world_total w e h HS Hh Hn tm kd s HD) as [v EV].
  pose proof (files_there kd s p' v ltac:(congruence) IV' HW EV) as HF.
  destruct (built_load tm kd s v (new_rate s []) _ (fresh_rate _) eq_refl (build_shape _ _ _ _ _ _ EV) HF) as (o & L & _ & V).
  exists o, p'. split; [|auto]. cbn [rounds]. unfold construct_into. cbn [fst snd].
  assert (E' := E). unfold run_cache, input_of in E'. cbn [ru_route ru_tm ru_kd ru_rate] in E'. rewrite E'. cbn [bind]. rewrite L. cbn [bind].
  exact (rounds_again k kd s o _ p' IV' HW L).
Qed.

(** What a buffer over a file finds. *)
Lemma size_there p n l : INV p -> plain n = true -> whole (pr_disk p) n -> ideal sa b dens g n = Some (ItInts l) -> file_size p n = Some (List.length l).
Proof.
  intros IV PL [it F] I. unfold file_size, look_file. rewrite (resolve_plain p n (inv_map _ _ _ _ _ IV) PL), F.
  assert (G : entry_ok sa b dens g (n, Whole it)).
  { apply d_find_In in F. exact (proj1 (Forall_forall _ _) (inv_good _ _ _ _ _ IV) _ F). }
  unfold entry_ok in G. cbn [fst snd] in G. rewrite I in G. injection G as <-. reflexivity.
Qed.

Section Calls.
Variables (log_name : build_config -> nat -> string) (sub_key : fkey) (configs : list build_config).
Hypothesis no_raw : Forall (fun c => bc_class c <> KCSARaw) configs.
Lemma do_build_ok d j : INV (new_proc d) -> may_build configs j -> exists c p z, nth_error configs (bj_idx j) = Some c /\
  do_build log_name sub_key tm inp configs d j = Some (pr_disk p, log_name c (build_rate c j), z) /\
  INV p /\ wholes p (names (bc_class c) (build_rate c j)) /\ (forall n, whole d n -> whole (pr_disk p) n) /\
  run_cache e (mk_run rt tm (bc_class c) (build_rate c j)) (new_proc d) = Some p /\
  z = (if bc_sampling c then mk_sizes (Some 0) (Some 0) (Some (build_rate c j)) (file_size p (P (build_rate c j) sub_key))
       else mk_sizes (file_size p (N FText)) (file_size p (N FFirst)) (Some 0) (Some 0)).
Proof.
  intros IV [HI HK]. destruct (nth_error configs (bj_idx j)) as [c|] eqn:EC; [|apply nth_error_None in EC; lia].
  assert (NK : bc_class c <> KCSARaw).
  { rewrite Forall_forall in no_raw. apply no_raw. now apply nth_error_In in EC. }
  destruct (bj_iters j) as [|k] eqn:EK; [lia|].
  destruct (rounds_ok k (bc_class c) (build_rate c j) (new_proc d) NK IV) as (o & p & E & IP & HW & K & ER).
  eexists c, p, _. split; [reflexivity|]. split; [|repeat (split; [eassumption|]); reflexivity].
  unfold do_build. rewrite EC. cbn [bind]. rewrite EK. change (if bc_sampling c then bj_rate j else 0) with (build_rate c j).
  rewrite E. cbn [bind]. reflexivity.
Qed.
Lemma do_builds_ok js : forall d k logs, INV (new_proc d) -> Forall (may_build configs) js ->
  exists d' logs' zs, do_builds log_name sub_key tm inp configs d k logs js = Some (d', logs', zs) /\ INV (new_proc d') /\
    (forall n, whole d n -> whole d' n) /\ List.length zs = List.length js /\
    (forall kd s, constructs configs js kd s -> wholes (new_proc d') (names kd s)) /\
    (forall i z, nth_error zs i = Some z -> exists j c p, nth_error js i = Some j /\ nth_error configs (bj_idx j) = Some c /\ INV p /\
       wholes p (names (bc_class c) (build_rate c j)) /\
       z = (if bc_sampling c then mk_sizes (Some 0) (Some 0) (Some (build_rate c j)) (file_size p (P (build_rate c j) sub_key))
            else mk_sizes (file_size p (N FText)) (file_size p (N FFirst)) (Some 0) (Some 0))) /\
    (exists new, logs' = new ++ logs /\ map snd new = rev (seq k (List.length js)) /\
       forall x i, In (x, i) new -> exists j c, nth_error js (i - k) = Some j /\ k <= i /\ nth_error configs (bj_idx j) = Some c /\ x = log_name c (build_rate c j)) /\
    later w e dens (new_proc d) (new_proc d').
Proof.
  induction js as [|j js IH]; intros d k logs IV F.
  - exists d, logs, []. split; [reflexivity|]. split; [exact IV|]. split; [auto|]. split; [reflexivity|]. split; [intros kd s (? & ? & [] & _)|].
    split; [intros [|i] z; discriminate|]. split; [|constructor]. exists []. split; [reflexivity|]. split; [reflexivity|]. intros x i [].
  - inversion F as [|? ? Fj Fs]; subst. destruct (do_build_ok d j IV Fj) as (c & p & z & EC & E & IP & HW & K & ER & EZ).
    destruct (IH (pr_disk p) (S k) ((log_name c (build_rate c j), k) :: logs) (inv_new w e h b p IP) Fs) as (d' & logs' & zs & E' & ID & K' & L & C & Z & (new & LG & LN & LA) & LT).
    exists d', logs', (z :: zs). split; [cbn [do_builds]; rewrite E; cbn [bind]; rewrite E'; reflexivity|].
    split; [exact ID|]. split; [auto|]. split; [cbn; congruence|]. split; [|split; [|split]].
    + intros kd s (j' & c' & [<-|I] & EC' & EK & ES).
      * assert (c' = c) by congruence. subst c' kd s. intros n I. apply K'. now apply HW.
      * apply C. exists j', c'. auto.
    + intros [|i] z' EI; [|apply (Z i z' EI)]. cbn in EI. injection EI as <-. exists j, c, p. split; [reflexivity|]. auto.
    + exists (new ++ [(log_name c (build_rate c j), k)]). split; [rewrite LG, <- app_assoc; reflexivity|]. split.
      * rewrite map_app, LN. cbn [List.length seq rev map snd]. reflexivity.
      * intros x i I. apply in_app_or in I as [I|[I|[]]].
        -- destruct (LA x i I) as (j' & c' & E1 & E2 & E3). exists j', c'. split; [|split; [lia|exact E3]].
           replace (i - k) with (S (i - S k)) by lia. exact E1.
        -- injection I as <- <-. exists j, c. rewrite Nat.sub_diag. split; [reflexivity|]. auto.
    + (* histories *)
      clear -LT ER HD HR. assert (G : forall q q', later w e dens q q' -> forall q0, later w e dens q0 q -> later w e dens q0 q').
      { intros q q' Y. induction Y as [|q1 r q2 Y IH R E|q1 Y IH]; intros q0 X; [exact X|eapply l_run; [apply IH, X|exact R|exact E]|apply l_new, IH, X]. }
      apply (G _ _ LT). apply l_new. eapply l_run; [constructor|exact (ready (bc_class c) (build_rate c j))|exact ER].
Qed.
(** The classes that a program provides. *)
Lemma provides_names js d kd s : (forall kd s, constructs configs js kd s -> wholes (new_proc d) (names kd s)) -> provides configs js kd s ->
  kd <> KCSARaw /\ wholes (new_proc d) (names kd s).
Proof.
  intros C PV. destruct PV as [kd s H|kd kd' s H1 H2 I1 I2].
  - split; [|now apply C]. destruct H as (j & c & _ & EC & <- & _). rewrite Forall_forall in no_raw. apply no_raw. now apply nth_error_In in EC.
  - split; [intros ->; cbn in I1; intuition discriminate|]. pose proof (C _ _ H1) as W1. pose proof (C _ _ H2) as W2. intros n I.
    assert (X : In n (names KSlim s) \/ In n (names KSrCSAVM s)).
    { assert (In n (names KSlimVM s)) as I'.
      { cbn in I1. destruct I1 as [<-|[<-|[]]]; exact I. }
      clear -I'. unfold all_names in *. cbn [class_names] in *. rewrite !in_app_iff in *. tauto. }
    destruct X as [X|X]; [now apply W1|]. apply W2. cbn in I2. destruct I2 as [<-|[<-|[]]]; exact X.
Qed.
Lemma provides_files js d kd s : INV (new_proc d) -> (forall kd s, constructs configs js kd s -> wholes (new_proc d) (names kd s)) ->
  provides configs js kd s -> index_files tm kd s data sa (files_of d).
Proof.
  intros IV C PV. destruct (provides_names js d kd s C PV) as [NK HW].
  destruct (world_total w e h HS Hh Hn tm kd s HD) as [v EV]. exists v. split; [exact EV|].
  exact (files_there kd s (new_proc d) v ltac:(congruence) IV HW EV).
Qed.
End Calls.
End Builds.

(** The sizes that are reported. *)
Lemma mmap_length {A B} (f : A -> option B) l l' : mmap f l = Some l' -> List.length l' = List.length l.
Proof.
  revert l'. induction l as [|a l IH]; intros l' H; cbn [mmap] in H.
  - injection H as <-. reflexivity.
  - apply bind_Some in H as (x & _ & H). apply bind_Some in H as (y & E & H). injection H as <-. cbn. f_equal. auto.
Qed.
Lemma subsamples_length s v l i x : construct_subsamples s v l = Some (i, x) -> List.length i = List.length x.
Proof.
  unfold construct_subsamples. intros H. repeat (apply bind_Some in H as (? & ? & H)). injection H as <- <-. symmetry. eapply mmap_length; eauto.
Qed.
Lemma subsamples_backward_length s v l i x : construct_subsamples_backward s v l = Some (i, x) -> List.length i = List.length x.
Proof.
  unfold construct_subsamples_backward. intros H. repeat (apply bind_Some in H as (? & ? & H)). injection H as <- <-. symmetry. eapply mmap_length; eauto.
Qed.
Section Sizes.
Variables (w : list nat) (e : world) (h : nat).
Hypothesis HS : sound_world w e.
Hypothesis Hh : 0 < h.
Hypothesis Hn : S (List.length w) < 2 ^ 64.
Notation sa := (wd_sort e (terminated w)).
Notation data := (wd_data e).
Notation dens := (2 * h).
Notation g := (wd_exe e (wd_data e)).
Variable b : base_items.
Hypothesis HB : construct_base data sa = Some b.
Variable tm : tmpl.
Hypothesis HD : t_dens tm = dens.
Lemma sub_sri kd s v : In kd [KSrIndex; KSrIndexVM; KSrIndexVA] -> build tm kd s data sa = Some v ->
  exists l, ideal sa b dens g (P s FLastIdx) = Some (ItInts l) /\ List.length l = kept_samples v.
Proof.
  intros I H. cbn in I. destruct I as [<-|[<-|[<-|[]]]]; cbn [build] in H;
    match type of H with option_map _ ?m = _ => destruct m as [ix|] eqn:E; [|discriminate] end;
    injection H as <-; open_all; rewrite HB in E; cbn [bind] in E; unpack; cbn [sf_idx sf_samples sf_marks sf_links] in *.
  all: cbn [ideal ints P nm_hash nm_rate nm_key]; unfold v_sb, v_lb; use_eqs; eexists; split; [reflexivity|];
    cbn [kept_samples sr_samples]; eapply subsamples_length; eassumption.
Qed.
Lemma sub_csa kd s v : In kd [KSrCSA; KSrCSAVM; KSrCSAVA; KSlim] -> build tm kd s data sa = Some v ->
  exists l, ideal sa b dens g (P s FFirstIdx) = Some (ItInts l) /\ List.length l = kept_samples v.
Proof.
  intros I H. destruct HS as (Hw & Hd & HSA). cbn in I.
  assert (X : kd = KSlim \/ In kd [KSrCSA; KSrCSAVM; KSrCSAVA]) by (cbn; intuition). clear I. destruct X as [->|I].
  - cbn [build] in H. rewrite HD in H. destruct (construct_srcsa_slim s dens data sa) as [ix|] eqn:E; [|discriminate]. injection H as <-.
    unfold construct_srcsa_slim in E. apply bind_Some in E as (c & EC & EI).
    pose proof (BuildSizes.slim_count w sa data Hw HSA Hd h Hh Hn s c ix EC EI) as L.
    cbn [kept_samples]. rewrite L. unfold construct_srcsa_commons in EC. rewrite HB in EC. cbn [bind] in EC. unpack.
    cbn [fst snd sf_idx]. cbn [ideal ints P nm_hash nm_rate nm_key]. unfold v_sf, v_lf, v_pc. use_eqs. eexists. split; reflexivity.
  - cbn in I. destruct I as [<-|[<-|[<-|[]]]]; cbn [build] in H; rewrite HD in H;
    match type of H with option_map _ ?m = _ => destruct m as [ix|] eqn:E; [|discriminate] end;
    injection H as <-; open_all; rewrite HB in E; cbn [bind] in E; unpack; cbn [sf_idx sf_samples sf_marks sf_links] in *.
    all: cbn [ideal ints P nm_hash nm_rate nm_key]; unfold v_sf, v_lf, v_pc; use_eqs; eexists; split; [reflexivity|];
      cbn [kept_samples sc_samples set_validity]; eapply subsamples_backward_length; eassumption.
Qed.
Lemma size_text : exists l, ideal sa b dens g (N FText) = Some (ItInts l) /\ List.length l = S (List.length w).
Proof.
  destruct HS as (Hw & Hd & HSA). destruct (BwtProof.base_parts w sa data Hw HSA Hd b HB) as (rle & _ & Eb).
  exists (terminated w). split; [subst b; reflexivity|]. unfold terminated. rewrite app_length. cbn. lia.
Qed.
Lemma size_runs : exists l, ideal sa b dens g (N FFirst) = Some (ItInts l) /\ lists_in_order l (run_head (bwt_of (terminated w) sa)).
Proof.
  destruct HS as (Hw & Hd & HSA). destruct (BwtProof.base_parts w sa data Hw HSA Hd b HB) as (rle & _ & Eb).
  exists (hrows (terminated w) sa). split; [subst b; reflexivity|]. apply (heads_in_order (bwt_of (terminated w) sa)).
Qed.
End Sizes.
