(** A cache directory without the files of sampled run indices: the classes without subsampling and those over runs
    of Psi do not write them. *)
From Coq Require Import List Arith Bool String Lia.
From Verif Require Import Spec MBase MRle MConstruct MPhi MRIndex MSrIndex MPsi MCsa MSrCsa MStore MBwt
  StoreProof MCache SpecCache CacheIdeal CacheBuilt CacheStep CacheEnd CacheTwo.
Import ListNotations.

Definition bare_disk (d : disk) : Prop := Forall (fun x => nm_key (fst x) <> FFirstIdx) d.
Definition bare (p : proc) : Prop := bare_disk (pr_disk p).
Definition spares (f : step) : Prop := forall p p', f p = Some p' -> bare p -> bare p'.
Lemma bare_put n it p : nm_key n <> FFirstIdx -> bare p -> bare (put n it p).
Proof. intros H C. apply Forall_cons; [cbn [fst]; now rewrite resolve_key|exact C]. Qed.
Lemma bare_create n p : nm_key n <> FFirstIdx -> bare p -> bare (create n p).
Proof. intros H C. apply Forall_cons; [cbn [fst]; now rewrite resolve_key|exact C]. Qed.
Lemma bare_reg n l p : nm_key n = FPsiHeadIdx -> bare p -> bare (put_registered n l p).
Proof. intros H C. apply Forall_cons; [cbn; rewrite H; discriminate|exact C]. Qed.
Lemma spares_guarded n f : spares f -> spares (guarded n f).
Proof. intros H p p' E S. unfold guarded in E. destruct (file_exists p n); [now injection E as <-|eauto]. Qed.
Lemma spares_run l : Forall spares l -> spares (run_steps l).
Proof.
  induction 1 as [|f l Hf _ IH]; intros p p' E S; cbn [run_steps] in E; [now injection E as <-|].
  apply bind_Some in E as (q & E1 & E2). eauto.
Qed.
Ltac adds := repeat first [apply bare_put; [cbn; discriminate|] | apply bare_create; [cbn; discriminate|] | apply bare_reg; [reflexivity|]]; assumption.
Ltac keep := let p := fresh "p" in let p' := fresh "p'" in let E := fresh "E" in let S := fresh "S" in
  try apply spares_guarded; intros p p' E S; cbv zeta beta in E; dbind E; cbv beta iota in E; injection E as <-;
  unfold put_runs, put_two, put_bv, put_bv0; adds.
Lemma spares_bv c n src size : nm_key n <> FFirstIdx -> spares (step_bv c n src size).
Proof.
  intros K. unfold step_bv. apply spares_guarded. intros p p' E S. dbind E. injection E as <-. unfold put_bv.
  repeat (apply bare_put; [exact K|]). exact S.
Qed.
Lemma spares_bv_bwt c n : nm_key n <> FFirstIdx -> spares (step_bv_bwt c n).
Proof. intros K p p' E. unfold step_bv_bwt in E. apply bind_Some in E as (x & _ & E). exact (spares_bv _ _ _ _ K p p' E). Qed.
Lemma spares_read n k a b : nm_key a <> FFirstIdx -> nm_key b <> FFirstIdx -> spares (read_runs_step n k a b).
Proof.
  intros A B p p' E S. unfold read_runs_step in E. destruct (look_file p k) as [[it|]|]; [|discriminate|now injection E as <-].
  destruct it; try discriminate. destruct (read_runs n l) as [js ts]. injection E as <-.
  apply bare_put; [exact B|]. apply bare_put; [exact A|]. apply bare_create; [exact B|]. apply bare_create; [exact A|exact S].
Qed.
Lemma spares_base rt sort exe data : Forall spares (base_steps rt sort exe data).
Proof.
  destruct rt; cbn [base_steps]; repeat (apply Forall_cons); try apply Forall_nil.
  all: unfold step_text, step_sa, step_bwt, step_runs, step_alphabet, step_rle, step_big_bwt, step_big_runs; try (keep; fail).
  apply spares_guarded. intros p p' E S. apply bind_Some in E as (x & _ & E). apply bind_Some in E as (q & E1 & E2).
  eapply spares_read; [| |exact E2|]; [cbn; discriminate..|]. eapply spares_read; [| |exact E1|exact S]; cbn; discriminate.
Qed.
Lemma spares_psi_part a b c al s : c <> FFirstIdx -> spares (psi_runs_part a b c al s).
Proof.
  intros K p p' E S. unfold psi_runs_part in E. dbind E. injection E as <-.
  apply bare_put; [exact K|]. apply bare_create; [exact K|exact S].
Qed.
Definition no_run_indices (kd : kind) : bool :=
  match kd with KRCSA | KRCSAPsi | KSrPsi | KSrPsiVM | KSrPsiVA => true | _ => false end.
Lemma spares_class tm kd s : no_run_indices kd = true -> Forall spares (class_steps tm kd s).
Proof.
  intros HK. assert (P0 : spares (step_psi (t_dens tm))) by (unfold step_psi; keep).
  assert (D : Forall spares (rcsa_steps tm)).
  { unfold rcsa_steps. repeat apply Forall_cons; try apply Forall_nil; [exact P0 | unfold step_links_forward; keep | apply spares_bv_bwt; cbn; discriminate]. }
  assert (I : Forall spares (rcsa_psi_steps tm)).
  { unfold rcsa_psi_steps. repeat apply Forall_cons; try apply Forall_nil; try (apply spares_bv; cbn; discriminate); try exact P0; [|unfold step_links_psi; keep].
    unfold step_psi_runs. apply spares_guarded. intros p p' Q S. dbind Q.
    eapply spares_psi_part; [|exact Q|]; [discriminate|]. eapply spares_psi_part; [|eassumption|exact S]; discriminate. }
  assert (J : Forall spares (srcsa_psi_steps tm s)).
  { unfold srcsa_psi_steps. repeat apply Forall_cons; try apply Forall_nil; try (apply spares_bv; cbn; discriminate); [unfold step_sorted; keep|unfold step_subsamples_psi; keep| |
      unfold step_sublinks_psi; keep | unfold step_cumulative_psi; keep].
    unfold step_submarks_psi. apply spares_guarded. intros p p' Q S. apply bind_Some in Q as ([sub q] & Q1 & Q2).
    assert (X : bare q).
    { destruct (file_exists p (PT s FPsiTail TyInts)); dbind Q1; injection Q1 as <- <-; adds. }
    dbind Q2. injection Q2 as <-. unfold put_bv. adds. }
  assert (K : spares (step_validity_psi (t_valid tm) s)).
  { unfold step_validity_psi. apply spares_guarded. intros p p' Q S. apply bind_Some in Q as (q & Q1 & Q2).
    assert (X : bare q).
    { revert Q1. unfold guarded. destruct (file_exists p _); intros Q1; [now injection Q1 as <-|]. dbind Q1. injection Q1 as <-. adds. }
    dbind Q2. injection Q2 as <-. unfold put_bv0. adds. }
  assert (L : spares (step_areas_psi s)) by (unfold step_areas_psi; keep).
  destruct kd; try discriminate HK; cbn [class_steps]; repeat (apply Forall_app; split); auto; repeat (apply Forall_cons; auto).
Qed.
Lemma psi_bare i tm kd s : no_run_indices kd = true -> spares (build_cache i tm kd s).
Proof. intros R. unfold build_cache. apply spares_run, Forall_app. split; [apply spares_base|now apply spares_class]. Qed.
Lemma bare_find p s : bare p -> look_file p (P s FFirstIdx) = None.
Proof.
  intros C. unfold look_file. destruct (d_find (pr_disk p) (resolve p (P s FFirstIdx))) as [x|] eqn:D; [|reflexivity]. exfalso. apply d_find_In in D.
  apply (proj1 (Forall_forall _ _) C) in D. cbn [fst] in D. rewrite resolve_key in D. now destruct D.
Qed.
