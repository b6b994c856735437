(** Proofs about the run of Big-BWT by the command interpreter. *)
From Coq Require Import List Arith Bool Lia String Ascii.
From Verif Require Import Spec MBase MConstruct MBwt MStore StoreProof MCache SpecCache MShell SpecShell.
Import ListNotations.

(** * Words *)
Lemma append_nil_right a : (a ++ "")%string = a.
Proof. induction a as [|c a IH]; cbn; [reflexivity|]. rewrite IH. reflexivity. Qed.
Lemma blank_iff c : blank c = true <-> (c = " "%char \/ c = "009"%char \/ c = "010"%char).
Proof.
  unfold blank. split.
  - intros H. rewrite <- (ascii_nat_embedding c). apply orb_true_iff in H as [H|H]; [apply orb_true_iff in H as [H|H]|];
      apply Nat.eqb_eq in H; rewrite H; auto.
  - intros [-> | [-> | ->]]; reflexivity.
Qed.
Lemma blank_in s : has_blank s <-> existsb blank (list_ascii_of_string s) = true.
Proof.
  unfold has_blank. rewrite existsb_exists. split; intros (c & H & B); exists c; split; auto; apply blank_iff; exact B.
Qed.
Lemma words_app cur a s : words cur (a ++ String " " s) = words cur a ++ words EmptyString s.
Proof.
  revert cur. induction a as [|c a IH]; intros cur.
  - cbn. destruct cur; reflexivity.
  - cbn [append words]. destruct (blank c); [|apply IH]. destruct cur; [apply IH|]. rewrite IH. reflexivity.
Qed.
Lemma words_plain a cur : existsb blank (list_ascii_of_string a) = false -> (cur ++ a)%string <> EmptyString -> words cur a = [(cur ++ a)%string].
Proof.
  revert cur. induction a as [|c a IH]; intros cur B N.
  - cbn. rewrite append_nil_right in *. destruct cur; [contradiction|reflexivity].
  - cbn in B. apply orb_false_iff in B as [B1 B2]. cbn [words]. rewrite B1. rewrite IH; [|exact B2|].
    + rewrite append_assoc. reflexivity.
    + rewrite append_assoc. exact N.
Qed.
Lemma words_no_blank s cur x : existsb blank (list_ascii_of_string cur) = false -> In x (words cur s) ->
  existsb blank (list_ascii_of_string x) = false.
Proof.
  revert cur. induction s as [|c s IH]; intros cur B H.
  - cbn in H. destruct cur; [destruct H|]. destruct H as [<-|[]]. exact B.
  - cbn [words] in H. destruct (blank c) eqn:E.
    + destruct cur; [exact (IH _ B H)|]. destruct H as [<-|H]; [exact B|]. apply (IH EmptyString); auto.
    + apply (IH (cur ++ String c "")%string); [|exact H]. clear -B E. induction cur as [|d cur IH]; cbn in *; [rewrite E; reflexivity|].
      apply orb_false_iff in B as [B1 B2]. rewrite B1. exact (IH B2).
Qed.
Lemma command_words exe path : arguments (big_command exe path) = words EmptyString exe ++ "-s"%string :: "-e"%string :: words EmptyString path.
Proof.
  unfold arguments, big_command.
  assert (E : words EmptyString (exe ++ " -s -e " ++ path ++ " > /dev/null 2>&1")%string
    = (words EmptyString exe ++ "-s"%string :: "-e"%string :: words EmptyString path) ++ [">"; "/dev/null"; "2>&1"]%string).
  { change (" -s -e " ++ path ++ " > /dev/null 2>&1")%string with (String " " ("-s -e " ++ path ++ String " " "> /dev/null 2>&1"))%string.
    rewrite words_app. rewrite <- app_assoc. f_equal. 
    assert (Q : forall x, words EmptyString ("-s -e " ++ x)%string = "-s"%string :: "-e"%string :: words EmptyString x) by reflexivity.
    rewrite Q. cbn [app]. do 2 f_equal.
    rewrite words_app. reflexivity. }
  rewrite E, app_length. cbn [List.length]. rewrite Nat.add_sub, firstn_app, firstn_all, Nat.sub_diag. cbn [firstn]. apply app_nil_r.
Qed.
Lemma no_blank s : ~ has_blank s -> existsb blank (list_ascii_of_string s) = false.
Proof. intros H. destruct (existsb blank _) eqn:E; [|reflexivity]. exfalso. apply H, blank_in, E. Qed.
Lemma run_big_plain sy path data : runs_on sy path data -> run_big sy path = Some (sy_big sy data).
Proof.
  intros (I & E1 & E2 & P1 & P2 & F). unfold run_big. rewrite I, command_words.
  rewrite (words_plain (sy_exe sy) EmptyString (no_blank _ E2) E1), (words_plain path EmptyString (no_blank _ P2) P1). cbn [append app].
  cbn. rewrite F. cbn. destruct (string_dec path path); [reflexivity|contradiction].
Qed.
Lemma run_big_none sy path : sy_installed sy = false \/ has_blank path -> run_big sy path = None.
Proof.
  intros H. unfold run_big. destruct (sy_installed sy) eqn:I; [|reflexivity]. destruct H as [H|H]; [discriminate|].
  destruct (big_main sy _) as [[f g]|] eqn:E; [|reflexivity]. cbn. destruct (string_dec f path) as [->|]; [|reflexivity]. exfalso.
  assert (Q : In path (words EmptyString (big_command (sy_exe sy) path))).
  { unfold arguments in E. rewrite <- (firstn_skipn (List.length (words EmptyString (big_command (sy_exe sy) path)) - 3)
      (words EmptyString (big_command (sy_exe sy) path))). apply in_or_app. left.
    destruct (firstn _ _) as [|a [|b [|c [|d [|x y]]]]]; try discriminate E. cbn in E.
    destruct (string_dec b "-s"); [|discriminate]. destruct (string_dec c "-e"); [|discriminate].
    apply bind_Some in E as (z & _ & E). injection E as <- _. cbn. auto. }
  apply blank_in in H. apply (words_no_blank _ EmptyString path eq_refl) in Q. congruence.
Qed.

(** * Construction *)
Lemma d_find_head n c d : d_find ((n, c) :: d) n = Some c.
Proof. cbn. destruct (name_eq_dec n n); [reflexivity|contradiction]. Qed.
Lemma exists_put n m it p : file_exists p n = true -> file_exists (put m it p) n = true.
Proof.
  unfold file_exists, look_file. cbn [put pr_disk]. change (resolve (put m it p) n) with (resolve p n). intros H.
  cbn [d_find]. destruct (name_eq_dec _ _); [reflexivity|exact H].
Qed.
Lemma exists_create n m p : file_exists p n = true -> file_exists (create m p) n = true.
Proof.
  unfold file_exists, look_file. cbn [create pr_disk]. change (resolve (create m p) n) with (resolve p n). intros H.
  cbn [d_find]. destruct (name_eq_dec _ _); [reflexivity|exact H].
Qed.
Lemma exists_own n it p : file_exists (put n it p) n = true.
Proof. unfold file_exists, look_file. cbn [put pr_disk]. change (resolve (put n it p) n) with (resolve p n). rewrite d_find_head. reflexivity. Qed.
Lemma big_bwt_exists exe data p q : step_big_bwt exe data p = Some q -> file_exists q (N FBigBwt) = true.
Proof.
  unfold step_big_bwt, guarded. destruct (file_exists p (N FBigBwt)) eqn:E; [intros H; injection H as <-; exact E|].
  cbv zeta. intros H. apply bind_Some in H as (b & _ & H). injection H as <-.
  apply exists_put, exists_create, exists_put, exists_put, exists_own.
Qed.
Lemma sh_same sy path data sort r p : sy_files sy path = Some data ->
  (ru_route r = BigBwt -> file_exists p (N FBigBwt) = true \/ run_big sy path = Some (sy_big sy data)) ->
  sh_cache sy path sort r p = option_map (fun q => (q, true)) (run_cache (mk_world data sort (sy_big sy)) r p).
Proof.
  intros F H. unfold sh_cache, run_cache, build_cache, input_of. cbn [in_route in_sort in_exe in_data wd_data wd_sort wd_exe].
  destruct (ru_route r) eqn:RT.
  - rewrite F. cbn [bind].
    destruct (run_steps _ p); reflexivity.
  - set (L := [step_alphabet; step_rle] ++ class_steps (ru_tm r) (ru_kd r) (ru_rate r)).
    change (run_steps (base_steps BigBwt sort (sy_big sy) data ++ class_steps (ru_tm r) (ru_kd r) (ru_rate r)) p)
      with (q <- step_big_bwt (sy_big sy) data p ;; q <- step_big_runs q ;; run_steps L q).
    assert (E : sh_big_bwt sy path p = step_big_bwt (sy_big sy) data p).
    { unfold sh_big_bwt, step_big_bwt, guarded. destruct (file_exists p (N FBigBwt)); [reflexivity|].
      destruct (H eq_refl) as [X|X]; [discriminate|]. rewrite X. reflexivity. }
    rewrite E. destruct (step_big_bwt (sy_big sy) data p) as [q|] eqn:Q; [|reflexivity]. cbn [bind].
    apply big_bwt_exists in Q. unfold sh_big_runs. rewrite Q.
    destruct (file_exists q (N FFirst)) eqn:FF.
    + assert (X : step_big_runs q = Some q) by (unfold step_big_runs, guarded; rewrite FF; reflexivity).
      rewrite X. cbn [bind]. destruct (run_steps L q); reflexivity.
    + destruct (step_big_runs q) as [q'|]; [|reflexivity]. cbn [bind]. destruct (run_steps L q'); reflexivity.
Qed.

Lemma sh_thrown sy path sort r d : sy_installed sy = false \/ has_blank path -> ru_route r = BigBwt ->
  d_find d (N FBigBwt) = None -> d_find d (N FFirst) = None ->
  sh_index sy path sort r (new_proc d) = Some (None, new_proc ((N FBwt, Whole (ItInts [])) :: (N FBwt, Torn) :: d)).
Proof.
  intros H RT B F. unfold sh_index, sh_cache. rewrite RT. unfold sh_big_bwt, guarded, file_exists, look_file. cbn [resolve nm_hash N new_proc pr_map existsb pr_disk].
  change (mk_name None FBigBwt None) with (N FBigBwt). rewrite B. rewrite (run_big_none _ _ H). cbn [bind].
  unfold put, create. cbn [pr_disk pr_map resolve nm_hash N existsb new_proc].
  unfold sh_big_runs, file_exists, look_file. cbn [pr_disk pr_map resolve nm_hash N existsb].
  change (mk_name None FFirst None) with (N FFirst). change (mk_name None FBigBwt None) with (N FBigBwt).
  cbn [d_find]. destruct (name_eq_dec _ (N FFirst)) as [X|_]; [discriminate|]. rewrite F.
  destruct (name_eq_dec _ (N FBigBwt)) as [X|_]; [discriminate|]. rewrite B. reflexivity.
Qed.

(** An empty BWT stops the SDSL route. *)
Definition no_bwt (p : proc) : Prop :=
  pr_map p = [] /\ d_find (pr_disk p) (N FBwt) = Some (Whole (ItInts [])) /\ d_find (pr_disk p) (N FFirst) = None.
Lemma look_plain p k : pr_map p = [] -> look_file p (N k) = d_find (pr_disk p) (N k).
Proof. intros M. unfold look_file, resolve. cbn [nm_hash N nm_rate nm_key]. rewrite M. reflexivity. Qed.
Lemma no_bwt_put p k it : k <> FBwt -> k <> FFirst -> no_bwt p -> no_bwt (put (N k) it p).
Proof.
  intros K1 K2 (M & B & F). split; [exact M|]. unfold put, resolve. cbn [nm_hash N nm_rate nm_key]. rewrite M. cbn [existsb pr_disk d_find].
  split.
  - destruct (name_eq_dec _ (N FBwt)) as [X|_]; [injection X as X; congruence|exact B].
  - destruct (name_eq_dec _ (N FFirst)) as [X|_]; [injection X as X; congruence|exact F].
Qed.
Lemma no_bwt_stops sort data more p : no_bwt p ->
  run_steps (step_text data :: step_sa sort :: step_bwt :: step_runs :: more) p = None.
Proof.
  intros NB. cbn [run_steps].
  assert (A : forall q, step_text data p = Some q -> no_bwt q).
  { unfold step_text, guarded. intros q E. destruct (file_exists p _); [injection E as <-; exact NB|].
    apply bind_Some in E as (t & _ & E). injection E as <-. apply no_bwt_put; [discriminate|discriminate|exact NB]. }
  destruct (step_text data p) as [q|]; [|reflexivity]. specialize (A q eq_refl). cbn [bind].
  assert (A2 : forall q', step_sa sort q = Some q' -> no_bwt q').
  { unfold step_sa, guarded. intros q' E. destruct (file_exists q _); [injection E as <-; exact A|].
    apply bind_Some in E as (t & _ & E). injection E as <-. apply no_bwt_put; [discriminate|discriminate|exact A]. }
  destruct (step_sa sort q) as [q'|]; [|reflexivity]. specialize (A2 q' eq_refl). cbn [bind]. destruct A2 as (M & B & F).
  unfold step_bwt, guarded, file_exists. rewrite (look_plain q' FBwt M), B. cbn [bind].
  unfold step_runs, guarded, file_exists. rewrite (look_plain q' FFirst M), F.
  unfold load_ints. rewrite (look_plain q' FBwt M), B. cbn [bind].
  destruct (match look_file q' (N FSa) with Some (Whole (ItInts l)) => Some l | None => Some [] | _ => None end) as [sa|]; reflexivity.
Qed.
Lemma no_bwt_cache e r p : no_bwt p -> ru_route r = Sdsl -> run_cache e r p = None.
Proof.
  intros NB RT. unfold run_cache, build_cache, input_of. cbn [in_route in_sort in_exe in_data]. rewrite RT.
  cbn [base_steps app]. apply no_bwt_stops. exact NB.
Qed.
Lemma no_bwt_sdsl e r p : no_bwt p -> ru_route r = Sdsl -> run_index e r p = None.
Proof.
  intros NB RT. pose proof (no_bwt_cache e r p NB RT) as H. unfold run_cache in H. unfold run_index, construct_index. rewrite H. reflexivity.
Qed.
Lemma no_bwt_shell sy path sort r p : no_bwt p -> ru_route r = Sdsl -> sh_index sy path sort r p = None.
Proof.
  intros NB RT. unfold sh_index, sh_cache. rewrite RT. destruct (sy_files sy path) as [data|]; [|reflexivity]. cbn [bind].
  rewrite no_bwt_cache; [reflexivity|exact NB|exact RT].
Qed.
Lemma thrown_no_bwt d : d_find d (N FFirst) = None -> no_bwt (new_proc ((N FBwt, Whole (ItInts [])) :: (N FBwt, Torn) :: d)).
Proof.
  intros F. split; [reflexivity|]. cbn [pr_disk new_proc]. split; [apply d_find_head|].
  cbn [d_find]. destruct (name_eq_dec _ (N FFirst)) as [X|_]; [discriminate|exact F].
Qed.
