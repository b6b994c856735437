(** A cache directory with the Psi of one density, and a class with another density. *)
From Coq Require Import List Arith Bool String Lia.
From Verif Require Import Spec MBase MRle MConstruct MPhi MRIndex MSrIndex MPsi MCsa MSrCsa MStore MBwt
  ConstructProof Glue Util SpecStore SpecBwt StoreProof StoreClass StoreTrip StoreRound StoreBuilt StoreEnd BwtProof
  MCache SpecCache CacheIdeal CacheBuilt CacheStep CacheEnd.
Import ListNotations.

Lemma resolve_key p n : nm_key (resolve p n) = nm_key n.
Proof. unfold resolve. destruct (nm_hash n); [reflexivity|]. destruct (existsb _ _); reflexivity. Qed.
Lemma d_find_skip m c d n : nm_key m <> nm_key n -> d_find ((m, c) :: d) n = d_find d n.
Proof. intros H. cbn [d_find]. destruct (name_eq_dec m n) as [->|]; [now destruct H|reflexivity]. Qed.

(** * Steps of a class whose Psi is missing while the file of the uncompressed Psi is there *)
Section Stuck.
Variable d2 : nat.
Definition stuck (p : proc) : Prop :=
  d_find (pr_disk p) (N FPsi) <> None /\ (forall it, d_find (pr_disk p) (NT FPsi (TyPsi d2)) <> Some (Whole it)) /\ map_ok p.
Definition keeps (f : step) : Prop := forall p p', f p = Some p' -> stuck p -> stuck p'.
Lemma stuck_add p m c : nm_key m <> FPsi -> stuck p -> stuck (mk_proc ((m, c) :: pr_disk p) (pr_map p)).
Proof. intros H (A & B & C). unfold stuck. cbn [pr_disk pr_map]. rewrite !d_find_skip by exact H. auto. Qed.
Lemma stuck_put n it p : nm_key n <> FPsi -> stuck p -> stuck (put n it p).
Proof. intros H. apply stuck_add. now rewrite resolve_key. Qed.
Lemma stuck_create n p : nm_key n <> FPsi -> stuck p -> stuck (create n p).
Proof. intros H. apply stuck_add. now rewrite resolve_key. Qed.
Lemma stuck_reg n l p : nm_key n = FPsiHeadIdx -> stuck p -> stuck (put_registered n l p).
Proof.
  intros H (A & B & C). unfold stuck, put_registered. cbn [pr_disk pr_map]. rewrite !d_find_skip by (cbn; rewrite H; discriminate).
  split; [exact A|]. split; [exact B|]. intros r k [E|I]; [injection E as _ <-; exact H|exact (C r k I)].
Qed.
Lemma keeps_guarded n f : keeps f -> keeps (guarded n f).
Proof. intros H p p' E S. unfold guarded in E. destruct (file_exists p n); [now injection E as <-|eauto]. Qed.
Lemma keeps_run l : Forall keeps l -> keeps (run_steps l).
Proof.
  induction 1 as [|f l Hf _ IH]; intros p p' E S; cbn [run_steps] in E; [now injection E as <-|].
  apply bind_Some in E as (q & E1 & E2). eauto.
Qed.
Ltac adds := repeat first [apply stuck_put; [cbn; discriminate|] | apply stuck_create; [cbn; discriminate|] | apply stuck_reg; [reflexivity|]]; assumption.
Ltac keep := let p := fresh "p" in let p' := fresh "p'" in let E := fresh "E" in let S := fresh "S" in
  try apply keeps_guarded; intros p p' E S; cbv zeta beta in E; dbind E; cbv beta iota in E; injection E as <-;
  unfold put_runs, put_two, put_bv, put_bv0; adds.
Lemma keeps_bv c n src size : nm_key n <> FPsi -> keeps (step_bv c n src size).
Proof.
  intros K. unfold step_bv. apply keeps_guarded. intros p p' E S. dbind E. injection E as <-. unfold put_bv.
  repeat (apply stuck_put; [exact K|]). exact S.
Qed.
Lemma keeps_bv0 c n src size : nm_key n <> FPsi -> keeps (step_bv0 c n src size).
Proof.
  intros K. unfold step_bv0. apply keeps_guarded. intros p p' E S. dbind E. injection E as <-. unfold put_bv0.
  repeat (apply stuck_put; [exact K|]). exact S.
Qed.
Lemma keeps_bv_bwt c n : nm_key n <> FPsi -> keeps (step_bv_bwt c n).
Proof. intros K p p' E. unfold step_bv_bwt in E. apply bind_Some in E as (x & _ & E). exact (keeps_bv _ _ _ _ K p p' E). Qed.
Lemma keeps_read n k a b : nm_key a <> FPsi -> nm_key b <> FPsi -> keeps (read_runs_step n k a b).
Proof.
  intros A B p p' E S. unfold read_runs_step in E. destruct (look_file p k) as [[it|]|]; [|discriminate|now injection E as <-].
  destruct it; try discriminate. destruct (read_runs n l) as [js ts]. injection E as <-.
  apply stuck_put; [exact B|]. apply stuck_put; [exact A|]. apply stuck_create; [exact B|]. apply stuck_create; [exact A|exact S].
Qed.
Lemma keeps_base rt sort exe data : Forall keeps (base_steps rt sort exe data).
Proof.
  destruct rt; cbn [base_steps]; repeat (apply Forall_cons); try apply Forall_nil.
  all: unfold step_text, step_sa, step_bwt, step_runs, step_alphabet, step_rle, step_big_bwt, step_big_runs; try (keep; fail).
  apply keeps_guarded. intros p p' E S. apply bind_Some in E as (x & _ & E). apply bind_Some in E as (q & E1 & E2).
  eapply keeps_read; [| |exact E2|]; [cbn; discriminate..|]. eapply keeps_read; [| |exact E1|exact S]; cbn; discriminate.
Qed.
Lemma keeps_psi_part a b c al s : c <> FPsi -> keeps (psi_runs_part a b c al s).
Proof.
  intros K p p' E S. unfold psi_runs_part in E. dbind E. injection E as <-.
  apply stuck_put; [exact K|]. apply stuck_create; [exact K|exact S].
Qed.
(** The step of Psi does nothing: the file of the uncompressed Psi says that Psi is there. *)
Lemma keeps_psi d : keeps (step_psi d).
Proof.
  intros p p' E S. unfold step_psi, guarded, file_exists, look_file in E.
  rewrite (resolve_plain p (N FPsi) (proj2 (proj2 S)) eq_refl) in E.
  destruct (d_find (pr_disk p) (N FPsi)) eqn:F; [now injection E as <-|]. destruct S as [S _]. now destruct S.
Qed.
Lemma keeps_class tm kd s : Forall keeps (class_steps tm kd s).
Proof.
  assert (A : Forall keeps (rindex_steps tm)).
  { unfold rindex_steps. repeat apply Forall_cons; try apply Forall_nil; [unfold step_links_backward; keep | apply keeps_bv_bwt; cbn; discriminate]. }
  assert (B : Forall keeps (sri_steps tm s)).
  { unfold sri_steps. repeat apply Forall_cons; try apply Forall_nil; try (apply keeps_bv; cbn; discriminate); unfold step_sorted, step_subsamples_backward, step_submarks_backward; keep. }
  assert (C : Forall keeps (sri_valid_steps tm s)).
  { unfold sri_valid_steps. repeat apply Forall_cons; try apply Forall_nil; try (apply keeps_bv0; cbn; discriminate). unfold step_validity. keep. }
  pose proof (keeps_psi (t_dens tm)) as P0.
  assert (D : Forall keeps (rcsa_steps tm)).
  { unfold rcsa_steps. repeat apply Forall_cons; try apply Forall_nil; [exact P0 | unfold step_links_forward; keep | apply keeps_bv_bwt; cbn; discriminate]. }
  assert (Z : keeps step_bwt_size) by (unfold step_bwt_size; keep).
  assert (E : Forall keeps (srcsa_common_steps tm s)).
  { unfold srcsa_common_steps. repeat apply Forall_cons; try apply Forall_nil; try (apply keeps_bv; cbn; discriminate); try exact Z;
      unfold step_sorted, step_subsamples_forward, step_submarks_forward; keep. }
  assert (F : Forall keeps (srcsa_steps tm s)).
  { unfold srcsa_steps. repeat apply Forall_cons; try apply Forall_nil; try (apply keeps_bv; cbn; discriminate); try exact Z; unfold step_positions; keep. }
  assert (G : Forall keeps (slim_steps tm s)).
  { unfold slim_steps. repeat apply Forall_cons; try apply Forall_nil; try (apply keeps_bv; cbn; discriminate); unfold step_sorted_alphabet, step_subsamples_alphabet; keep. }
  assert (H : Forall keeps (srcsa_valid_steps tm s)).
  { unfold srcsa_valid_steps. repeat apply Forall_cons; try apply Forall_nil; try (apply keeps_bv0; cbn; discriminate); unfold step_validity_backward; keep. }
  assert (I : Forall keeps (rcsa_psi_steps tm)).
  { unfold rcsa_psi_steps. repeat apply Forall_cons; try apply Forall_nil; try (apply keeps_bv; cbn; discriminate); try exact P0; [|unfold step_links_psi; keep].
    unfold step_psi_runs. apply keeps_guarded. intros p p' Q S. dbind Q.
    eapply keeps_psi_part; [|exact Q|]; [discriminate|]. eapply keeps_psi_part; [|eassumption|exact S]; discriminate. }
  assert (J : Forall keeps (srcsa_psi_steps tm s)).
  { unfold srcsa_psi_steps. repeat apply Forall_cons; try apply Forall_nil; try (apply keeps_bv; cbn; discriminate); [unfold step_sorted; keep|unfold step_subsamples_psi; keep| |
      unfold step_sublinks_psi; keep | unfold step_cumulative_psi; keep].
    unfold step_submarks_psi. apply keeps_guarded. intros p p' Q S. apply bind_Some in Q as ([sub q] & Q1 & Q2).
    assert (X : stuck q).
    { destruct (file_exists p (PT s FPsiTail TyInts)); dbind Q1; injection Q1 as <- <-; adds. }
    dbind Q2. injection Q2 as <-. unfold put_bv. adds. }
  assert (K : keeps (step_validity_psi (t_valid tm) s)).
  { unfold step_validity_psi. apply keeps_guarded. intros p p' Q S. apply bind_Some in Q as (q & Q1 & Q2).
    assert (X : stuck q).
    { revert Q1. unfold guarded. destruct (file_exists p _); intros Q1; [now injection Q1 as <-|]. dbind Q1. injection Q1 as <-. adds. }
    dbind Q2. injection Q2 as <-. unfold put_bv0. adds. }
  assert (L : keeps (step_areas_psi s)) by (unfold step_areas_psi; keep).
  destruct kd; cbn [class_steps]; repeat (apply Forall_app; split); auto; repeat (apply Forall_cons; auto).
Qed.

(** The load of Psi throws. *)
Lemma stuck_load p tm kd s : stuck p -> t_dens tm = d2 -> nav_ty tm kd = TyPsi d2 -> load_config tm kd (new_rate s []) (files_of (pr_disk p)) = None.
Proof.
  intros (_ & S & _) HD HN.
  assert (F : forall a, fetch (SrcFiles (files_of (pr_disk p))) (TyPsi d2) "psi" true = Some a -> False).
  { intros a E. cbn [fetch] in E.
    change (file_find (files_of (pr_disk p)) "psi"%string (Some (TyPsi d2)))
      with (file_find (files_of (pr_disk p)) (name_str (NT FPsi (TyPsi d2))) (nm_hash (NT FPsi (TyPsi d2)))) in E.
    rewrite (files_of_find (pr_disk p) (NT FPsi (TyPsi d2))) in E.
    destruct (d_find (pr_disk p) (NT FPsi (TyPsi d2))) as [[it|]|] eqn:Q; [|discriminate|discriminate]. now apply (S it). }
  assert (R : forall rest, MStore.run (rate_prefix s) (LItem TyAlpha k_alpha false :: LItem (TyPsi d2) (false, "psi"%string) true :: rest)
                 (mk_lstate [] (SrcFiles (files_of (pr_disk p))) []) = None).
  { intros rest. cbn [MStore.run exec realize k_alpha fst snd]. unfold load_raw at 1. cbn [ls_store ls_src st_get st_find bind].
    destruct (fetch (SrcFiles (files_of (pr_disk p))) TyAlpha "alphabet" false) as [[it src]|] eqn:E; [|reflexivity]. cbn [bind].
    assert (src = SrcFiles (files_of (pr_disk p))) as ->.
    { cbn [fetch] in E. dbind E. now injection E as _ <-. }
    cbn [st_emplace st_find st_get en_item bind ls_log app String.eqb Ascii.eqb Bool.eqb]. destruct (ty_eq_dec (item_ty it) TyAlpha); [|reflexivity]. cbn [bind].
    unfold load_raw. cbn [ls_store ls_src st_get st_find bind String.eqb Ascii.eqb Bool.eqb].
    destruct (fetch (SrcFiles (files_of (pr_disk p))) (TyPsi d2) "psi" true) as [a|] eqn:E2; [destruct (F a eq_refl)|reflexivity]. }
  unfold load_config, load_from. cbn [new_rate ob_prefix ob_store]. unfold load_all.
  destruct kd; cbn [nav_ty] in HN; try discriminate HN; rewrite ?HN; cbn [nav_ty k_nav nav_hash app]; rewrite ?HD, R; reflexivity.
Qed.
Lemma stuck_index i tm kd s p : stuck p -> t_dens tm = d2 -> nav_ty tm kd = TyPsi d2 -> construct_index i tm kd s p = None.
Proof.
  intros S HD HN. unfold construct_index. destruct (build_cache i tm kd s p) as [q|] eqn:E; [|reflexivity]. cbn [bind].
  rewrite (stuck_load q tm kd s); [reflexivity| |exact HD|exact HN].
  refine (keeps_run _ _ p q E S). apply Forall_app. split; [apply keeps_base|apply keeps_class].
Qed.
End Stuck.
