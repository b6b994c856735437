(** A cache directory without the files of the text and of the suffix array. *)
From Coq Require Import List Arith Bool String Lia.
From Verif Require Import Spec MBase MRle MConstruct MPhi MRIndex MSrIndex MPsi MCsa MSrCsa MStore MBwt
  ConstructProof Glue Util SpecStore SpecBwt StoreProof StoreClass StoreTrip StoreRound StoreBuilt StoreEnd BwtProof
  MCache SpecCache CacheIdeal CacheBuilt CacheStep CacheEnd CacheTwo.
Import ListNotations.

Definition no_text (k : fkey) : Prop := k <> FSa /\ k <> FText.
Definition clean_disk (d : disk) : Prop := Forall (fun x => no_text (nm_key (fst x))) d.
Definition clean (p : proc) : Prop := clean_disk (pr_disk p).
Definition omits (f : step) : Prop := forall p p', f p = Some p' -> clean p -> clean p'.
Lemma clean_put n it p : no_text (nm_key n) -> clean p -> clean (put n it p).
Proof. intros H C. apply Forall_cons; [cbn [fst]; now rewrite resolve_key|exact C]. Qed.
Lemma clean_create n p : no_text (nm_key n) -> clean p -> clean (create n p).
Proof. intros H C. apply Forall_cons; [cbn [fst]; now rewrite resolve_key|exact C]. Qed.
Lemma clean_reg n l p : nm_key n = FPsiHeadIdx -> clean p -> clean (put_registered n l p).
Proof. intros H C. apply Forall_cons; [cbn; rewrite H; split; discriminate|exact C]. Qed.
Lemma omits_guarded n f : omits f -> omits (guarded n f).
Proof. intros H p p' E S. unfold guarded in E. destruct (file_exists p n); [now injection E as <-|eauto]. Qed.
Lemma omits_run l : Forall omits l -> omits (run_steps l).
Proof.
  induction 1 as [|f l Hf _ IH]; intros p p' E S; cbn [run_steps] in E; [now injection E as <-|].
  apply bind_Some in E as (q & E1 & E2). eauto.
Qed.
Ltac adds := repeat first [apply clean_put; [cbn; split; discriminate|] | apply clean_create; [cbn; split; discriminate|] | apply clean_reg; [reflexivity|]]; assumption.
Ltac keep := let p := fresh "p" in let p' := fresh "p'" in let E := fresh "E" in let S := fresh "S" in
  try apply omits_guarded; intros p p' E S; cbv zeta beta in E; dbind E; cbv beta iota in E; injection E as <-;
  unfold put_runs, put_two, put_bv, put_bv0; adds.
Lemma omits_bv c n src size : no_text (nm_key n) -> omits (step_bv c n src size).
Proof.
  intros K. unfold step_bv. apply omits_guarded. intros p p' E S. dbind E. injection E as <-. unfold put_bv.
  repeat (apply clean_put; [exact K|]). exact S.
Qed.
Lemma omits_bv0 c n src size : no_text (nm_key n) -> omits (step_bv0 c n src size).
Proof.
  intros K. unfold step_bv0. apply omits_guarded. intros p p' E S. dbind E. injection E as <-. unfold put_bv0.
  repeat (apply clean_put; [exact K|]). exact S.
Qed.
Lemma omits_bv_bwt c n : no_text (nm_key n) -> omits (step_bv_bwt c n).
Proof. intros K p p' E. unfold step_bv_bwt in E. apply bind_Some in E as (x & _ & E). exact (omits_bv _ _ _ _ K p p' E). Qed.
Lemma omits_read n k a b : no_text (nm_key a) -> no_text (nm_key b) -> omits (read_runs_step n k a b).
Proof.
  intros A B p p' E S. unfold read_runs_step in E. destruct (look_file p k) as [[it|]|]; [|discriminate|now injection E as <-].
  destruct it; try discriminate. destruct (read_runs n l) as [js ts]. injection E as <-.
  apply clean_put; [exact B|]. apply clean_put; [exact A|]. apply clean_create; [exact B|]. apply clean_create; [exact A|exact S].
Qed.
Lemma omits_big sort exe data : Forall omits (base_steps BigBwt sort exe data).
Proof.
  cbn [base_steps]; repeat (apply Forall_cons); try apply Forall_nil.
  all: unfold step_alphabet, step_rle, step_big_bwt, step_big_runs; try (keep; fail).
  apply omits_guarded. intros p p' E S. apply bind_Some in E as (x & _ & E). apply bind_Some in E as (q & E1 & E2).
  eapply omits_read; [| |exact E2|]; [cbn; split; discriminate..|]. eapply omits_read; [| |exact E1|exact S]; cbn; split; discriminate.
Qed.
Lemma omits_psi_part a b c al s : no_text c -> omits (psi_runs_part a b c al s).
Proof.
  intros K p p' E S. unfold psi_runs_part in E. dbind E. injection E as <-.
  apply clean_put; [exact K|]. apply clean_create; [exact K|exact S].
Qed.
Lemma omits_psi d : omits (step_psi d).
Proof. unfold step_psi. keep. Qed.
Lemma omits_class tm kd s : Forall omits (class_steps tm kd s).
Proof.
  assert (A : Forall omits (rindex_steps tm)).
  { unfold rindex_steps. repeat apply Forall_cons; try apply Forall_nil; [unfold step_links_backward; keep | apply omits_bv_bwt; cbn; split; discriminate]. }
  assert (B : Forall omits (sri_steps tm s)).
  { unfold sri_steps. repeat apply Forall_cons; try apply Forall_nil; try (apply omits_bv; cbn; split; discriminate); unfold step_sorted, step_subsamples_backward, step_submarks_backward; keep. }
  assert (C : Forall omits (sri_valid_steps tm s)).
  { unfold sri_valid_steps. repeat apply Forall_cons; try apply Forall_nil; try (apply omits_bv0; cbn; split; discriminate). unfold step_validity. keep. }
  pose proof (omits_psi (t_dens tm)) as P0.
  assert (D : Forall omits (rcsa_steps tm)).
  { unfold rcsa_steps. repeat apply Forall_cons; try apply Forall_nil; [exact P0 | unfold step_links_forward; keep | apply omits_bv_bwt; cbn; split; discriminate]. }
  assert (Z : omits step_bwt_size) by (unfold step_bwt_size; keep).
  assert (E : Forall omits (srcsa_common_steps tm s)).
  { unfold srcsa_common_steps. repeat apply Forall_cons; try apply Forall_nil; try (apply omits_bv; cbn; split; discriminate); try exact Z;
      unfold step_sorted, step_subsamples_forward, step_submarks_forward; keep. }
  assert (F : Forall omits (srcsa_steps tm s)).
  { unfold srcsa_steps. repeat apply Forall_cons; try apply Forall_nil; try (apply omits_bv; cbn; split; discriminate); try exact Z; unfold step_positions; keep. }
  assert (G : Forall omits (slim_steps tm s)).
  { unfold slim_steps. repeat apply Forall_cons; try apply Forall_nil; try (apply omits_bv; cbn; split; discriminate); unfold step_sorted_alphabet, step_subsamples_alphabet; keep. }
  assert (H : Forall omits (srcsa_valid_steps tm s)).
  { unfold srcsa_valid_steps. repeat apply Forall_cons; try apply Forall_nil; try (apply omits_bv0; cbn; split; discriminate); unfold step_validity_backward; keep. }
  assert (I : Forall omits (rcsa_psi_steps tm)).
  { unfold rcsa_psi_steps. repeat apply Forall_cons; try apply Forall_nil; try (apply omits_bv; cbn; split; discriminate); try exact P0; [|unfold step_links_psi; keep].
    unfold step_psi_runs. apply omits_guarded. intros p p' Q S. dbind Q.
    eapply omits_psi_part; [|exact Q|]; [split; discriminate|]. eapply omits_psi_part; [|eassumption|exact S]; split; discriminate. }
  assert (J : Forall omits (srcsa_psi_steps tm s)).
  { unfold srcsa_psi_steps. repeat apply Forall_cons; try apply Forall_nil; try (apply omits_bv; cbn; split; discriminate); [unfold step_sorted; keep|unfold step_subsamples_psi; keep| |
      unfold step_sublinks_psi; keep | unfold step_cumulative_psi; keep].
    unfold step_submarks_psi. apply omits_guarded. intros p p' Q S. apply bind_Some in Q as ([sub q] & Q1 & Q2).
    assert (X : clean q).
    { destruct (file_exists p (PT s FPsiTail TyInts)); dbind Q1; injection Q1 as <- <-; adds. }
    dbind Q2. injection Q2 as <-. unfold put_bv. adds. }
  assert (K : omits (step_validity_psi (t_valid tm) s)).
  { unfold step_validity_psi. apply omits_guarded. intros p p' Q S. apply bind_Some in Q as (q & Q1 & Q2).
    assert (X : clean q).
    { revert Q1. unfold guarded. destruct (file_exists p _); intros Q1; [now injection Q1 as <-|]. dbind Q1. injection Q1 as <-. adds. }
    dbind Q2. injection Q2 as <-. unfold put_bv0. adds. }
  assert (L : omits (step_areas_psi s)) by (unfold step_areas_psi; keep).
  destruct kd; cbn [class_steps]; repeat (apply Forall_app; split); auto; repeat (apply Forall_cons; auto).
Qed.


Lemma big_clean i tm kd s : in_route i = BigBwt -> omits (build_cache i tm kd s).
Proof. intros R. unfold build_cache. rewrite R. apply omits_run, Forall_app. split; [apply omits_big|apply omits_class]. Qed.
Lemma clean_stopped d0 d1 d : clean_disk d1 -> stopped d0 d1 d -> clean_disk d.
Proof.
  unfold clean_disk. intros C H. destruct H as [ws todo E|ws todo n c E]; rewrite E in C; apply Forall_app in C as [_ C]; [exact C|].
  inversion C; subst. now apply Forall_cons.
Qed.
(** A load that asks for the suffix array throws. *)
Lemma run_none pre l1 : forall l2 s, (forall s', MStore.run pre l1 s = Some s' -> MStore.run pre l2 s' = None) -> MStore.run pre (l1 ++ l2) s = None.
Proof.
  induction l1 as [|c l1 IH]; intros l2 s H; [now apply H|]. cbn [app MStore.run] in *.
  destruct (exec pre c s) as [s1|]; [|reflexivity]. cbn [bind] in *. now apply IH.
Qed.
Lemma clean_load p tm s : clean p -> load_config tm KCSARaw (new_rate s []) (files_of (pr_disk p)) = None.
Proof.
  intros C.
  assert (F : file_find (files_of (pr_disk p)) "sa" None = None).
  { change (file_find (files_of (pr_disk p)) "sa"%string None) with (file_find (files_of (pr_disk p)) (name_str (N FSa)) (nm_hash (N FSa))).
    rewrite files_of_find. destruct (d_find (pr_disk p) (N FSa)) eqn:E; [|reflexivity]. apply d_find_In in E.
    apply (proj1 (Forall_forall _ _) C) in E. now destruct E. }
  unfold load_config, load_from. cbn [new_rate ob_prefix ob_store load_all app].
  set (fs := files_of (pr_disk p)) in *.
  change (LItem TyAlpha k_alpha false :: LItem (nav_ty tm KCSARaw) (k_nav KCSARaw) true :: LItem TyInts k_sa false :: load_build tm KCSARaw)
    with ([LItem TyAlpha k_alpha false; LItem (nav_ty tm KCSARaw) (k_nav KCSARaw) true] ++ (LItem TyInts k_sa false :: load_build tm KCSARaw)).
  rewrite run_none; [reflexivity|]. intros s' E. cbn [MStore.run exec realize k_alpha k_nav k_sa fst snd nav_ty] in *.
  apply bind_Some in E as (s1 & E1 & E). apply bind_Some in E as (s2 & E2 & E). injection E as <-.
  assert (X1 : ls_src s1 = SrcFiles fs /\ forall t, st_get (ls_store s1) t "sa" = None /\ st_get (ls_store s1) t "psi" = None).
  { revert E1. unfold load_raw. cbn [ls_store ls_src st_get st_find bind]. intros E1. apply bind_Some in E1 as ([it src] & A & B).
    cbn [fetch] in A. dbind A. injection A as <- <-. apply bind_Some in B as (en & _ & B). injection B as <-. split; reflexivity || (intros t; split; reflexivity). }
  destruct X1 as [S1 N1].
  assert (X2 : ls_src s2 = SrcFiles fs /\ st_get (ls_store s2) TyInts "sa" = None).
  { revert E2. unfold load_raw. rewrite S1. destruct (N1 (TyPsi (t_dens tm))) as [_ ->]. intros E2. apply bind_Some in E2 as ([it src] & A & B).
    cbn [fetch] in A. dbind A. injection A as <- <-. apply bind_Some in B as (en & _ & B). injection B as <-. split; [reflexivity|].
    cbn [ls_store]. unfold st_emplace. destruct (st_find (ls_store s1) "psi"); [apply (N1 TyInts)|]. apply (N1 TyInts). }
  destruct X2 as [S2 N2]. unfold load_raw. rewrite N2, S2. cbn [fetch]. rewrite F. reflexivity.
Qed.
Lemma clean_raw i tm s p : in_route i = BigBwt -> clean p -> construct_index i tm KCSARaw s p = None.
Proof.
  intros R C. unfold construct_index. destruct (build_cache i tm KCSARaw s p) as [q|] eqn:E; [|reflexivity]. cbn [bind].
  rewrite (clean_load q tm s); [reflexivity|]. exact (big_clean i tm KCSARaw s R p q E C).
Qed.
