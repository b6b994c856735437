(** Files that stand for others: what construction leaves in front of the others, and what never comes back. *)
From Coq Require Import List Arith Bool String Lia.
From Verif Require Import Spec MBase MRle MConstruct MPhi MRIndex MSrIndex MPsi MCsa MSrCsa MStore MBwt
  ConstructProof Glue Util SpecStore SpecBwt StoreProof StoreClass StoreTrip StoreRound StoreBuilt StoreEnd BwtProof
  MCache SpecCache CacheIdeal CacheBuilt CacheStep CacheEnd CacheTwo CacheRaw.
Import ListNotations.

Definition no_sup (n : name) : Prop := forall sp, nm_hash n <> Some (TySup sp).
Lemma no_sup_resolve p n : no_sup n -> no_sup (resolve p n).
Proof. intros H sp. unfold resolve. destruct (nm_hash n) eqn:E; [rewrite E; rewrite <- E; apply H|]. destruct (existsb _ _); cbn; [discriminate|rewrite E; discriminate]. Qed.
Lemma resolve_hash p n t : resolve p (with_hash n t) = with_hash n t.
Proof. reflexivity. Qed.

(** * A property of processes that every write keeps is kept by every step *)
Section Kept.
Variable Q : proc -> Prop.
Hypothesis Hput : forall n it p, no_sup n -> nm_key n <> FPsi -> Q p -> Q (put n it p).
Hypothesis Hcreate : forall n p, no_sup n -> nm_key n <> FPsi -> Q p -> Q (create n p).
Hypothesis Hreg : forall n l p, nm_key n = FPsiHeadIdx -> Q p -> Q (put_registered n l p).
Hypothesis Hpsi : forall d x y p, file_exists p (N FPsi) = false -> Q p -> Q (put (NT FPsi (TyPsi d)) y (put (N FPsi) x p)).
Hypothesis Hbv : forall c n b p0 p, nm_key n <> FPsi -> file_exists p0 (with_hash n (TyBv c)) = false -> Q p0 -> Q p -> Q (put_bv c n b p).
Hypothesis Hbv0 : forall c n b p, nm_key n <> FPsi -> Q p -> Q (put_bv0 c n b p).
Definition kept (f : step) : Prop := forall p p', f p = Some p' -> Q p -> Q p'.
Lemma kept_guarded n f : kept f -> kept (guarded n f).
Proof. intros H p p' E S. unfold guarded in E. destruct (file_exists p n); [now injection E as <-|eauto]. Qed.
Lemma kept_run l : Forall kept l -> kept (run_steps l).
Proof.
  induction 1 as [|f l Hf _ IH]; intros p p' E S; cbn [run_steps] in E; [now injection E as <-|].
  apply bind_Some in E as (q & E1 & E2). eauto.
Qed.
Ltac nosup := first [intros ?; discriminate | cbn; discriminate].
Ltac adds := repeat first [apply Hput; [intros ?; discriminate|cbn; discriminate|] | apply Hcreate; [intros ?; discriminate|cbn; discriminate|] | apply Hreg; [reflexivity|]]; assumption.
Ltac keep := let p := fresh "p" in let p' := fresh "p'" in let E := fresh "E" in let S := fresh "S" in
  try apply kept_guarded; intros p p' E S; cbv zeta beta in E; dbind E; cbv beta iota in E; injection E as <-;
  unfold put_runs, put_two; adds.
Lemma kept_bv c n src size : nm_key n <> FPsi -> kept (step_bv c n src size).
Proof.
  intros K p p' E S. unfold step_bv, guarded in E. destruct (file_exists p (with_hash n (TyBv c))) eqn:F; [now injection E as <-|].
  dbind E. injection E as <-. now apply (Hbv c n _ p p).
Qed.
Lemma kept_bv0 c n src size : nm_key n <> FPsi -> kept (step_bv0 c n src size).
Proof.
  intros K. unfold step_bv0. apply kept_guarded. intros p p' E S. dbind E. injection E as <-. now apply Hbv0.
Qed.
Lemma kept_bv_bwt c n : nm_key n <> FPsi -> kept (step_bv_bwt c n).
Proof. intros K p p' E. unfold step_bv_bwt in E. apply bind_Some in E as (x & _ & E). exact (kept_bv _ _ _ _ K p p' E). Qed.
Lemma kept_read n k a b : nm_key a <> FPsi -> nm_key b <> FPsi -> no_sup a -> no_sup b -> kept (read_runs_step n k a b).
Proof.
  intros A B A' B' p p' E S. unfold read_runs_step in E. destruct (look_file p k) as [[it|]|]; [|discriminate|now injection E as <-].
  destruct it; try discriminate. destruct (read_runs n l) as [js ts]. injection E as <-.
  apply Hput; [exact B'|exact B|]. apply Hput; [exact A'|exact A|]. apply Hcreate; [exact B'|exact B|]. apply Hcreate; [exact A'|exact A|exact S].
Qed.
Lemma kept_base rt sort exe data : Forall kept (base_steps rt sort exe data).
Proof.
  destruct rt; cbn [base_steps]; repeat (apply Forall_cons); try apply Forall_nil.
  all: unfold step_text, step_sa, step_bwt, step_runs, step_alphabet, step_rle, step_big_bwt, step_big_runs; try (keep; fail).
  apply kept_guarded. intros p p' E S. apply bind_Some in E as (x & _ & E). apply bind_Some in E as (q & E1 & E2).
  eapply kept_read; [| | | |exact E2|]; [cbn; discriminate|cbn; discriminate|intros ?; discriminate|intros ?; discriminate|].
  eapply kept_read; [| | | |exact E1|exact S]; [cbn; discriminate|cbn; discriminate|intros ?; discriminate|intros ?; discriminate].
Qed.
Lemma kept_psi_part a b c al s : c <> FPsi -> kept (psi_runs_part a b c al s).
Proof.
  intros K p p' E S. unfold psi_runs_part in E. dbind E. injection E as <-.
  apply Hput; [intros ?; discriminate|exact K|]. apply Hcreate; [intros ?; discriminate|exact K|exact S].
Qed.
Lemma kept_psi d : kept (step_psi d).
Proof.
  intros p p' E S. unfold step_psi, guarded in E. destruct (file_exists p (N FPsi)) eqn:F; [now injection E as <-|].
  cbv zeta in E. dbind E. injection E as <-. now apply Hpsi.
Qed.
Lemma kept_class tm kd s : Forall kept (class_steps tm kd s).
Proof.
  assert (A : Forall kept (rindex_steps tm)).
  { unfold rindex_steps. repeat apply Forall_cons; try apply Forall_nil; [unfold step_links_backward; keep | apply kept_bv_bwt; cbn; discriminate]. }
  assert (B : Forall kept (sri_steps tm s)).
  { unfold sri_steps. repeat apply Forall_cons; try apply Forall_nil; try (apply kept_bv; cbn; discriminate); unfold step_sorted, step_subsamples_backward, step_submarks_backward; keep. }
  assert (C : Forall kept (sri_valid_steps tm s)).
  { unfold sri_valid_steps. repeat apply Forall_cons; try apply Forall_nil; try (apply kept_bv0; cbn; discriminate). unfold step_validity. keep. }
  pose proof (kept_psi (t_dens tm)) as P0.
  assert (D : Forall kept (rcsa_steps tm)).
  { unfold rcsa_steps. repeat apply Forall_cons; try apply Forall_nil; [exact P0 | unfold step_links_forward; keep | apply kept_bv_bwt; cbn; discriminate]. }
  assert (Z : kept step_bwt_size) by (unfold step_bwt_size; keep).
  assert (E : Forall kept (srcsa_common_steps tm s)).
  { unfold srcsa_common_steps. repeat apply Forall_cons; try apply Forall_nil; try (apply kept_bv; cbn; discriminate); try exact Z;
      unfold step_sorted, step_subsamples_forward, step_submarks_forward; keep. }
  assert (F : Forall kept (srcsa_steps tm s)).
  { unfold srcsa_steps. repeat apply Forall_cons; try apply Forall_nil; try (apply kept_bv; cbn; discriminate); try exact Z; unfold step_positions; keep. }
  assert (G : Forall kept (slim_steps tm s)).
  { unfold slim_steps. repeat apply Forall_cons; try apply Forall_nil; try (apply kept_bv; cbn; discriminate); unfold step_sorted_alphabet, step_subsamples_alphabet; keep. }
  assert (H : Forall kept (srcsa_valid_steps tm s)).
  { unfold srcsa_valid_steps. repeat apply Forall_cons; try apply Forall_nil; try (apply kept_bv0; cbn; discriminate); unfold step_validity_backward; keep. }
  assert (I : Forall kept (rcsa_psi_steps tm)).
  { unfold rcsa_psi_steps. repeat apply Forall_cons; try apply Forall_nil; try (apply kept_bv; cbn; discriminate); try exact P0; [|unfold step_links_psi; keep].
    unfold step_psi_runs. apply kept_guarded. intros p p' R S. dbind R.
    eapply kept_psi_part; [|exact R|]; [discriminate|]. eapply kept_psi_part; [|eassumption|exact S]; discriminate. }
  assert (J : Forall kept (srcsa_psi_steps tm s)).
  { unfold srcsa_psi_steps. repeat apply Forall_cons; try apply Forall_nil; try (apply kept_bv; cbn; discriminate); [unfold step_sorted; keep|unfold step_subsamples_psi; keep| |
      unfold step_sublinks_psi; keep | unfold step_cumulative_psi; keep].
    intros p p' R S. unfold step_submarks_psi, guarded in R. destruct (file_exists p (PT s FPsiTail (TyBv (t_marks tm)))) eqn:FE; [now injection R as <-|].
    apply bind_Some in R as ([sub q] & Q1 & Q2).
    assert (X : Q q).
    { destruct (file_exists p (PT s FPsiTail TyInts)); dbind Q1; injection Q1 as <- <-; adds. }
    dbind Q2. injection Q2 as <-. apply (Hbv _ _ _ p q); [cbn; discriminate|exact FE|exact S|exact X]. }
  assert (K : kept (step_validity_psi (t_valid tm) s)).
  { unfold step_validity_psi. apply kept_guarded. intros p p' R S. apply bind_Some in R as (q & Q1 & Q2).
    assert (X : Q q).
    { revert Q1. unfold guarded. destruct (file_exists p _); intros Q1; [now injection Q1 as <-|]. dbind Q1. injection Q1 as <-. adds. }
    dbind Q2. injection Q2 as <-. apply Hbv0; [cbn; discriminate|exact X]. }
  assert (L : kept (step_areas_psi s)) by (unfold step_areas_psi; keep).
  destruct kd; cbn [class_steps]; repeat (apply Forall_app; split); auto; repeat (apply Forall_cons; auto).
Qed.

Lemma kept_call i tm kd s : kept (build_cache i tm kd s).
Proof. apply kept_run, Forall_app. split; [apply kept_base|apply kept_class]. Qed.
End Kept.

(** * Two files, of which the second is never written after the first one alone is there *)
Section Pair.
Variables G X : name.
Definition halted (p : proc) : Prop := In G (map fst (pr_disk p)) /\ ~ In X (map fst (pr_disk p)) /\ map_ok p.
Definition seen (p : proc) : Prop := (forall todo x ws, pr_disk p = todo ++ (X, x) :: ws -> In G (map fst ws)) /\ map_ok p.
Lemma halted_add p n c : n <> X -> halted p -> halted (mk_proc ((n, c) :: pr_disk p) (pr_map p)).
Proof. intros H (A & B & C). split; [now right|]. split; [|exact C]. intros [E|E]; [now apply H|now apply B]. Qed.
Lemma seen_add p n c : n <> X -> seen p -> seen (mk_proc ((n, c) :: pr_disk p) (pr_map p)).
Proof.
  intros H (A & C). split; [|exact C]. cbn [pr_disk]. intros [|e todo] x ws E; cbn [app] in E; [injection E as E1 E2 E3; congruence|injection E as E1 E2; eauto].
Qed.
Lemma seen_both p n c : In G (map fst (pr_disk p)) -> seen p -> seen (mk_proc ((n, c) :: pr_disk p) (pr_map p)).
Proof.
  intros H (A & C). split; [|exact C]. cbn [pr_disk]. intros [|e todo] x ws E; cbn [app] in E; [injection E as E1 E2 E3; now rewrite <- E3|injection E as E1 E2; eauto].
Qed.
Lemma halted_reg p n l : nm_key n = FPsiHeadIdx -> with_hash n TyInts <> X -> halted p -> halted (put_registered n l p).
Proof.
  intros K H (A & B & C). split; [now right|]. split; [intros [E|E]; [now apply H|now apply B]|].
  intros r k [E|I]; [injection E as _ <-; exact K|exact (C r k I)].
Qed.
Lemma seen_reg p n l : nm_key n = FPsiHeadIdx -> with_hash n TyInts <> X -> seen p -> seen (put_registered n l p).
Proof.
  intros K H (A & C). split.
  - cbn [put_registered pr_disk]. intros [|e todo] x ws E; cbn [app] in E; [injection E as E1 E2 E3; congruence|injection E as E1 E2; eauto].
  - intros r k [E|I]; [injection E as _ <-; exact K|exact (C r k I)].
Qed.
Lemma seen_empty : seen (new_proc []).
Proof. split; [intros [|? ?] ? ? E; discriminate|intros ? ? []]. Qed.
(** The first moment at which the second file is about to be written *)
Lemma seen_stop p : seen p -> In X (map fst (pr_disk p)) -> exists d todo, pr_disk p = todo ++ d /\ halted (new_proc d).
Proof.
  intros [A _]. assert (L : forall d : disk, In X (map fst d) -> exists todo x ws, d = todo ++ (X, x) :: ws /\ ~ In X (map fst ws)).
  { clear A. induction d as [|[n c] d IH]; [intros []|]. intros H. destruct (in_dec name_eq_dec X (map fst d)) as [I|N].
    - destruct (IH I) as (todo & x & ws & -> & N). exists ((n, c) :: todo), x, ws. auto.
    - destruct H as [E|H]; [|contradiction]. cbn in E. subst n. exists [], c, d. auto. }
  intros I. destruct (L _ I) as (todo & x & ws & E & N). exists ws, (todo ++ [(X, x)]). split; [rewrite E, <- app_assoc; reflexivity|].
  split; [exact (A _ _ _ E)|]. split; [exact N|intros ? ? []].
Qed.
Lemma halted_stopped p d1 d : halted p -> ~ In X (map fst d1) -> stopped (pr_disk p) d1 d -> halted (new_proc d).
Proof.
  intros (A & _ & _) N H. split; [|split; [|intros ? ? []]]; destruct H as [ws todo E|ws todo n c E]; subst d1; cbn [new_proc pr_disk map].
  - rewrite map_app. apply in_or_app. now right.
  - rewrite map_app. right. apply in_or_app. now right.
  - intros I. apply N. rewrite map_app. apply in_or_app. now right.
  - intros I. apply N. rewrite map_app. apply in_or_app. right. exact I.
Qed.
End Pair.

(** ** A bit vector and its rank support *)
Section Bv.
Variables (m : name) (c : bvclass).
Hypothesis Hm : nm_key m <> FPsi.
Notation G := (with_hash m (TyBv c)).
Notation X := (with_hash m (TySup (SupRank c true))).
Lemma nosup_not n : no_sup n -> n <> X.
Proof. intros H ->. now apply (H (SupRank c true)). Qed.
Lemma bv_other c' n b q : with_hash n (TyBv c') <> G -> halted G X q -> halted G X (put_bv c' n b q).
Proof.
  intros NE H. unfold put_bv, put. rewrite !resolve_hash.
  apply (halted_add G X (mk_proc _ (pr_map q))); [discriminate|]. apply (halted_add G X (mk_proc _ (pr_map q))).
  - intros E. injection E as E1 E2 E3. apply NE. unfold with_hash. now rewrite E1, E2, E3.
  - apply halted_add; [discriminate|exact H].
Qed.
Lemma bv_halted i tm kd s : kept (halted G X) (build_cache i tm kd s).
Proof.
  apply kept_call.
  - intros n it p A _ H. apply halted_add; [|exact H]. now apply nosup_not, no_sup_resolve.
  - intros n p A _ H. apply halted_add; [|exact H]. now apply nosup_not, no_sup_resolve.
  - intros n l p K H. apply halted_reg; [exact K|discriminate|exact H].
  - intros d x y p _ H. apply (halted_add G X (put (N FPsi) x p)); [discriminate|]. apply halted_add; [|exact H]. apply nosup_not, no_sup_resolve. intros ?; discriminate.
  - intros c' n b p0 p _ F (A & _) H. apply bv_other; [|exact H]. intros E. unfold file_exists, look_file in F. rewrite resolve_hash, E in F.
    destruct (d_find (pr_disk p0) G) eqn:D; [discriminate|]. now apply (d_find_names (pr_disk p0) G).
  - intros c' n b p _ H. unfold put_bv0, put. rewrite !resolve_hash. apply (halted_add G X (mk_proc _ (pr_map p))); [discriminate|]. apply halted_add; [discriminate|exact H].
Qed.
Lemma bv_seen i tm kd s : kept (seen G X) (build_cache i tm kd s).
Proof.
  apply kept_call.
  - intros n it p A _ H. apply seen_add; [|exact H]. now apply nosup_not, no_sup_resolve.
  - intros n p A _ H. apply seen_add; [|exact H]. now apply nosup_not, no_sup_resolve.
  - intros n l p K H. apply seen_reg; [exact K|discriminate|exact H].
  - intros d x y p _ H. apply (seen_add G X (put (N FPsi) x p)); [discriminate|]. apply seen_add; [|exact H]. apply nosup_not, no_sup_resolve. intros ?; discriminate.
  - intros c' n b p0 p _ _ _ H. unfold put_bv, put. rewrite !resolve_hash.
    apply (seen_add G X (mk_proc _ (pr_map p))); [discriminate|].
    destruct (name_eq_dec (with_hash n (TyBv c')) G) as [E|NE].
    + apply (seen_both G X (mk_proc _ (pr_map p))); [left; exact E|]. apply seen_add; [discriminate|exact H].
    + apply (seen_add G X (mk_proc _ (pr_map p))); [|apply seen_add; [discriminate|exact H]].
      intros E. injection E as E1 E2 E3. apply NE. unfold with_hash. now rewrite E1, E2, E3.
  - intros c' n b p _ H. unfold put_bv0, put. rewrite !resolve_hash. apply (seen_add G X (mk_proc _ (pr_map p))); [discriminate|]. apply seen_add; [discriminate|exact H].
Qed.
End Bv.

(** ** The uncompressed and the compressed Psi *)
Section PsiPair.
Variable d : nat.
Notation G := (N FPsi).
Notation X := (NT FPsi (TyPsi d)).
Lemma key_not n : nm_key n <> FPsi -> n <> X.
Proof. intros H ->. now apply H. Qed.
Lemma psi_halted i tm kd s : kept (halted G X) (build_cache i tm kd s).
Proof.
  apply kept_call.
  - intros n it p _ A H. apply halted_add; [|exact H]. apply key_not. now rewrite resolve_key.
  - intros n p _ A H. apply halted_add; [|exact H]. apply key_not. now rewrite resolve_key.
  - intros n l p K H. apply halted_reg; [exact K|apply key_not; cbn; rewrite K; discriminate|exact H].
  - intros d' x y p F (A & _ & C). exfalso. unfold file_exists, look_file in F. rewrite (resolve_plain p G C eq_refl) in F.
    destruct (d_find (pr_disk p) G) eqn:D; [discriminate|]. now apply (d_find_names (pr_disk p) G).
  - intros c' n b p0 p K _ _ H. unfold put_bv, put. rewrite !resolve_hash.
    do 2 (apply (halted_add G X (mk_proc _ (pr_map p))); [now apply key_not|]). apply halted_add; [now apply key_not|exact H].
  - intros c' n b p K H. unfold put_bv0, put. rewrite !resolve_hash.
    apply (halted_add G X (mk_proc _ (pr_map p))); [now apply key_not|]. apply halted_add; [now apply key_not|exact H].
Qed.
Lemma psi_seen i tm kd s : kept (seen G X) (build_cache i tm kd s).
Proof.
  apply kept_call.
  - intros n it p _ A H. apply seen_add; [|exact H]. apply key_not. now rewrite resolve_key.
  - intros n p _ A H. apply seen_add; [|exact H]. apply key_not. now rewrite resolve_key.
  - intros n l p K H. apply seen_reg; [exact K|apply key_not; cbn; rewrite K; discriminate|exact H].
  - intros d' x y p _ H. apply (seen_both G X (put (N FPsi) x p)).
    + left. cbn [fst]. apply resolve_plain; [apply H|reflexivity].
    + apply seen_add; [|exact H]. rewrite (resolve_plain p G (proj2 H) eq_refl). discriminate.
  - intros c' n b p0 p K _ _ H. unfold put_bv, put. rewrite !resolve_hash.
    do 2 (apply (seen_add G X (mk_proc _ (pr_map p))); [now apply key_not|]). apply seen_add; [now apply key_not|exact H].
  - intros c' n b p K H. unfold put_bv0, put. rewrite !resolve_hash.
    apply (seen_add G X (mk_proc _ (pr_map p))); [now apply key_not|]. apply seen_add; [now apply key_not|exact H].
Qed.
Lemma psi_halted_index i tm kd s p : halted G X p -> t_dens tm = d -> nav_ty tm kd = TyPsi d -> construct_index i tm kd s p = None.
Proof.
  intros (A & B & C) HD HN. apply (stuck_index d); [|exact HD|exact HN]. split; [now apply d_find_names|]. split; [|exact C].
  intros it F. apply B, names_d_find. now rewrite F.
Qed.
End PsiPair.

(** * Loads of a class without the rank support of its marks *)
Definition marks_name (kd : kind) (s : nat) : name :=
  match kd with
  | KRIndex => N FFirstPos
  | KSrIndex | KSrIndexVM | KSrIndexVA => P s FFirstByLast
  | KRCSA | KCSARaw => N FLastPos
  | KSrCSA | KSrCSAVM | KSrCSAVA | KSlim | KSlimVM | KSlimVA => P s FLastByFirst
  | KRCSAPsi => N FPsiTail
  | KSrPsi | KSrPsiVM | KSrPsiVA => P s FPsiTail
  end.
Lemma marks_str kd s : realize (rate_prefix s) (k_marks kd) = name_str (marks_name kd s).
Proof. destruct kd; reflexivity. Qed.
Definition sup_free (st : store) : Prop := forall k e sp, st_find st k = Some e -> item_ty (en_item e) <> TySup sp.
Lemma rd_item_ty t i it r : rd_item t i = Some (it, r) -> match t with TyPsi _ => exists d, item_ty it = TyPsi d | _ => item_ty it = t end.
Proof. destruct t; cbn [rd_item]; intros E; apply bind_Some in E as ([x y] & _ & E); injection E as <- _; cbn; eauto. Qed.
Lemma raw_free fs t k h st log s : (forall sp, t <> TySup sp) -> sup_free st -> load_raw t k h (mk_lstate st (SrcFiles fs) log) = Some s ->
  sup_free (ls_store s) /\ ls_src s = SrcFiles fs.
Proof.
  intros HT HF E. unfold load_raw in E. cbn [ls_store ls_src] in E. destruct (st_get st t k); [injection E as <-; auto|].
  apply bind_Some in E as ([it src] & A & B). cbn [fetch] in A. apply bind_Some in A as (cc & _ & A). apply bind_Some in A as ([it' r] & A & A').
  injection A' as <- <-. apply bind_Some in B as (en & _ & B). injection B as <-. cbn [ls_store ls_src]. split; [|reflexivity].
  unfold st_emplace. destruct (st_find st k); [exact HF|]. intros k' e sp E. cbn [st_find] in E.
  destruct (String.eqb k k'); [|exact (HF _ _ _ E)]. injection E as <-. cbn [en_item]. apply rd_item_ty in A.
  destruct t; try (rewrite A; discriminate); [destruct A as [dd ->]; discriminate|now destruct (HT s)].
Qed.
Lemma bv_load tm kd s p : kd <> KCSARaw -> ~ In (with_hash (marks_name kd s) (TySup (SupRank (t_marks tm) true))) (map fst (pr_disk p)) ->
  load_config tm kd (new_rate s []) (files_of (pr_disk p)) = None.
Proof.
  intros HK HX. set (X := with_hash _ _) in HX. set (fs := files_of (pr_disk p)).
  assert (F : file_find fs (realize (rate_prefix s) (k_marks kd)) (Some (TySup (SupRank (t_marks tm) true))) = None).
  { rewrite marks_str. change (name_str (marks_name kd s)) with (name_str X).
    change (Some (TySup (SupRank (t_marks tm) true))) with (nm_hash X). unfold fs. rewrite files_of_find.
    destruct (d_find (pr_disk p) X) eqn:D; [|reflexivity]. exfalso. apply HX, names_d_find. now rewrite D. }
  assert (A : exists rest, load_all tm kd ++ load_build tm kd =
    [LItem TyAlpha k_alpha false; LItem (nav_ty tm kd) (k_nav kd) (nav_hash kd); LItem TyInts (k_samples kd) (is_psi_run kd); LItem (TyBv (t_marks tm)) (k_marks kd) true]
    ++ LSup (SupRank (t_marks tm) true) (k_marks kd) true :: rest).
  { destruct kd; try (now destruct HK); eexists; reflexivity. }
  destruct A as [rest A]. unfold load_config, load_from. cbn [new_rate ob_prefix ob_store]. rewrite A.
  rewrite run_none; [reflexivity|]. intros s4 E. cbn [MStore.run exec] in E.
  apply bind_Some in E as (s1 & E1 & E). apply bind_Some in E as (s2 & E2 & E). apply bind_Some in E as (s3 & E3 & E). apply bind_Some in E as (s4' & E4 & E). injection E as ->.
  apply raw_free in E1 as [F1 S1]; [|discriminate|intros ? ? ? Q; discriminate Q].
  destruct s1 as [st1 src1 l1]. cbn [ls_store ls_src] in *. subst src1. apply raw_free in E2 as [F2 S2]; [|destruct kd; discriminate|exact F1].
  destruct s2 as [st2 src2 l2]. cbn [ls_store ls_src] in *. subst src2. apply raw_free in E3 as [F3 S3]; [|discriminate|exact F2].
  destruct s3 as [st3 src3 l3]. cbn [ls_store ls_src] in *. subst src3. apply raw_free in E4 as [F4 S4]; [|discriminate|exact F3].
  destruct s4 as [st4 src4 l4]. cbn [ls_store ls_src] in *. subst src4. cbn [MStore.run exec].
  unfold load_sup. cbn [ls_store ls_src sup_class].
  destruct (st_get st4 (TySup (SupRank (t_marks tm) true)) _) as [en|] eqn:ST.
  { exfalso. unfold st_get in ST. apply bind_Some in ST as (en' & ST & T). destruct (ty_eq_dec _ _) as [T'|]; [|discriminate]. exact (F4 _ _ _ ST T'). }
  destruct (load_raw (TyBv (t_marks tm)) (realize (rate_prefix s) (k_marks kd)) true (mk_lstate st4 (SrcFiles fs) l4)) as [s5|] eqn:E5; [|reflexivity]. cbn [bind].
  apply raw_free in E5 as [_ S5]; [|discriminate|exact F4]. rewrite S5. cbn [fetch]. rewrite F. reflexivity.
Qed.
Lemma bv_halted_index i tm kd s p : kd <> KCSARaw ->
  halted (with_hash (marks_name kd s) (TyBv (t_marks tm))) (with_hash (marks_name kd s) (TySup (SupRank (t_marks tm) true))) p ->
  construct_index i tm kd s p = None.
Proof.
  intros HK H. unfold construct_index. destruct (build_cache i tm kd s p) as [q|] eqn:E; [|reflexivity]. cbn [bind].
  rewrite (bv_load tm kd s q HK); [reflexivity|].
  refine (proj1 (proj2 (bv_halted (marks_name kd s) (t_marks tm) i tm kd s p q E H))).
Qed.
