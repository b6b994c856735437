(** C96: construction through Big-BWT when the program may not run on the data file.

    [sh_index sy path sort r p]: a call of construct for the data file [path]; [Some (None, p')]: it throws and leaves
    [p'].  [runs_on sy path data] (SpecShell.v): the program is there and neither its name nor the path has a blank. *)
From Coq Require Import List Arith Bool String Ascii Lia.
From Verif Require Import Spec MBase Util MConstruct MStore MBwt StoreProof StoreClass StoreRound SpecBwt Glue BwtProof MCache SpecCache CacheEnd
  PropertiesSrCsa PropertiesStore PropertiesCache MShell SpecShell ShellProof.
Import ListNotations.

(** If Big-BWT runs on the data file, or its files are there from an earlier call, a call of construct returns an index
    that is exact on the text, from every directory that calls for this text can leave. *)
Theorem C96_runs_partial : forall w e h sy path r p,
  sound_world w e -> 0 < h -> S (List.length w) < 2 ^ 64 -> history w e (2 * h) p ->
  run_ready w e (2 * h) r -> (ru_kd r = KCSARaw -> ru_route r = Sdsl) ->
  sy_files sy path = Some (wd_data e) -> sy_big sy = wd_exe e ->
  (ru_route r = BigBwt -> runs_on sy path (wd_data e) \/ file_exists p (N FBigBwt) = true) ->
  exists o p', sh_index sy path (wd_sort e) r p = Some (Some o, p') /\ exact_index w e r o /\ history w e (2 * h) p'.
Proof.
  intros w e h sy path r p HS Hh Hn H HR HK F B HB.
  destruct (C47_resume_partial w e h p r HS Hh Hn H HR HK) as (o & p' & E & X & H').
  exists o, p'. split; [|split; [exact X|exact H']].
  unfold run_index, construct_index in E. apply bind_Some in E as (q & E1 & E2). apply bind_Some in E2 as (o2 & E2 & E3).
  injection E3 as -> ->.
  assert (EC : run_cache (mk_world (wd_data e) (wd_sort e) (sy_big sy)) r p = Some p') by (rewrite B; destruct e; exact E1).
  unfold sh_index. rewrite (sh_same sy path (wd_data e) (wd_sort e) r p F); [rewrite EC; cbn [option_map bind]; rewrite E2; reflexivity|].
  intros RT. destruct (HB RT) as [R|R]; [right; exact (run_big_plain _ _ _ R)|left; exact R].
Qed.
Print Assumptions C96_runs_partial.

(** If the program is not there, or the path has a blank, the first call through Big-BWT throws, and leaves an empty BWT. *)
Theorem C96_thrown : forall sy path sort r d,
  sy_installed sy = false \/ has_blank path -> ru_route r = BigBwt ->
  d_find d (N FBigBwt) = None -> d_find d (N FFirst) = None ->
  exists d', sh_index sy path sort r (new_proc d) = Some (None, new_proc d') /\
    d_find d' (N FBwt) = Some (Whole (ItInts [])) /\ (forall n, n <> N FBwt -> d_find d' n = d_find d n).
Proof.
  intros sy path sort r d H RT B F. eexists. split; [exact (sh_thrown sy path sort r d H RT B F)|]. split; [apply d_find_head|].
  intros n NE. cbn [d_find]. destruct (name_eq_dec _ n) as [X|_]; [congruence|reflexivity].
Qed.
Print Assumptions C96_thrown.

(** After that no call through the SDSL route, of any index class and rate, succeeds in this directory. *)
Theorem C96_poisoned : forall sy path sort r d d' e r',
  sy_installed sy = false \/ has_blank path -> ru_route r = BigBwt ->
  d_find d (N FBigBwt) = None -> d_find d (N FFirst) = None ->
  sh_index sy path sort r (new_proc d) = Some (None, new_proc d') ->
  ru_route r' = Sdsl -> run_index e r' (new_proc d') = None /\
    (forall sy' path' sort', sh_index sy' path' sort' r' (new_proc d') = None).
Proof.
  intros sy path sort r d d' e r' H RT B F E RT'. rewrite (sh_thrown sy path sort r d H RT B F) in E. injection E as <-.
  pose proof (thrown_no_bwt d F) as NB. split; [exact (no_bwt_sdsl e r' _ NB RT')|].
  intros sy' path' sort'. exact (no_bwt_shell sy' path' sort' r' _ NB RT').
Qed.
Print Assumptions C96_poisoned.

(** * Concrete cases *)
Definition ex_system (inst : bool) (path : string) : system :=
  mk_system "bigbwt" inst (fun f => if string_dec f path then Some (wd_data exf_world) else None) (wd_exe exf_world).
Lemma ex_runs : runs_on (ex_system true "/data/foo") "/data/foo" (wd_data exf_world).
Proof.
  assert (Q : forall s, existsb blank (list_ascii_of_string s) = false -> ~ has_blank s).
  { intros s E H. apply blank_in in H. congruence. }
  split; [reflexivity|]. split; [discriminate|]. split; [apply Q; reflexivity|]. split; [discriminate|]. split; [apply Q; reflexivity|]. reflexivity.
Qed.
(** The result of a call and the answer of its index; [Some None]: it throws *)
Definition sh_answer (sy : system) (path : string) (r : run) (p : proc) (x : list nat) : option (option (option (list nat))) :=
  match sh_index sy path (wd_sort exf_world) r p with
  | Some (Some o, _) => Some (Some (obj_locate (ru_tm r) (ru_kd r) o x)) | Some (None, _) => Some None | None => None end.
Example C96_example :
  runs_on (ex_system true "/data/foo") "/data/foo" (wd_data exf_world) /\
  run_ready exf_w exf_world (2 * 2) (ex_run BigBwt KSrIndexVA 3) /\ history exf_w exf_world (2 * 2) (new_proc []) /\
  sh_answer (ex_system true "/data/foo") "/data/foo" (ex_run BigBwt KSrIndexVA 3) (new_proc []) [97; 98; 114] = Some (Some (Some [0; 7])) /\
  (has_blank "/my data/foo") /\
  sh_answer (ex_system true "/my data/foo") "/my data/foo" (ex_run BigBwt KSrIndexVA 3) (new_proc []) [97; 98; 114] = Some None /\
  sh_answer (ex_system true "/my data/foo") "/my data/foo" (ex_run Sdsl KSrIndexVA 3) (new_proc []) [97; 98; 114] = Some (Some (Some [0; 7])).
Proof.
  split; [exact ex_runs|]. split; [apply ex_ready|]. split; [apply h_empty|]. split; [vm_compute; reflexivity|].
  split; [exists " "%char; split; [cbn; auto 10|left; reflexivity]|]. split; vm_compute; reflexivity.
Qed.

(** * What fails *)
(** "A call of construct for a readable file either returns an exact index, or throws and leaves a directory in which
    the SDSL route still works" is false. *)
Theorem C96_refuted : ~ (forall w e h sy path r p r', sound_world w e -> 0 < h -> S (List.length w) < 2 ^ 64 ->
  history w e (2 * h) p -> run_ready w e (2 * h) r -> run_ready w e (2 * h) r' -> ru_kd r <> KCSARaw -> ru_route r' = Sdsl ->
  sy_files sy path = Some (wd_data e) -> sy_big sy = wd_exe e ->
  exists o p', sh_index sy path (wd_sort e) r p = Some (o, p') /\
    match o with
    | Some o => exact_index w e r o
    | None => exists o' p'', sh_index sy path (wd_sort e) r' p' = Some (Some o', p'') /\ exact_index w e r' o'
    end).
Proof.
  intros H.
  assert (B : has_blank "/my data/foo") by (exists " "%char; split; [cbn; auto 10|left; reflexivity]).
  destruct (H exf_w exf_world 2 (ex_system true "/my data/foo") "/my data/foo"%string (ex_run BigBwt KSrIndexVA 3) (new_proc [])
    (ex_run Sdsl KSrIndexVA 3) exf_sound ltac:(lia) exf_small (h_empty _ _ _) (ex_ready _ _ _) (ex_ready _ _ _) ltac:(discriminate) eq_refl
    eq_refl eq_refl) as (o & p' & E & X).
  pose proof (sh_thrown (ex_system true "/my data/foo") "/my data/foo" (wd_sort exf_world) (ex_run BigBwt KSrIndexVA 3) [] (or_intror B) eq_refl eq_refl eq_refl) as T.
  rewrite T in E. injection E as <- <-. destruct X as (o' & p'' & E & _).
  pose proof (no_bwt_shell (ex_system true "/my data/foo") "/my data/foo" (wd_sort exf_world) (ex_run Sdsl KSrIndexVA 3) _ (thrown_no_bwt [] eq_refl) eq_refl) as Q.
  rewrite Q in E. discriminate.
Qed.
Print Assumptions C96_refuted.

(** Nor is the result of a call that returns a sign that the directory is in order.  After a complete construction
    through the SDSL route, a call through Big-BWT without the program returns an exact index, and leaves the BWT empty:
    the next class cannot be constructed, although it could without that call. *)
Definition silent (sy : system) (path : string) (e : world) (r r' r'' : run) : bool :=
  match run_cache e r (new_proc []) with
  | Some p =>
      match sh_index sy path (wd_sort e) r' (new_proc (pr_disk p)) with
      | Some (Some _, p') =>
          match d_find (pr_disk p') (N FBwt), run_index e r'' (new_proc (pr_disk p')) with
          | Some (Whole (ItInts [])), None => true | _, _ => false end
      | _ => false
      end
  | None => false
  end.
Lemma silent_ok w e h sy path r r' r'' : sound_world w e -> 0 < h -> S (List.length w) < 2 ^ 64 -> run_ready w e (2 * h) r ->
  run_ready w e (2 * h) r'' -> ru_kd r'' <> KCSARaw -> silent sy path e r r' r'' = true ->
  exists p p', run_cache e r (new_proc []) = Some p /\
    (exists o, sh_index sy path (wd_sort e) r' (new_proc (pr_disk p)) = Some (Some o, p')) /\
    d_find (pr_disk p') (N FBwt) = Some (Whole (ItInts [])) /\
    run_index e r'' (new_proc (pr_disk p')) = None /\
    (exists o p'', run_index e r'' (new_proc (pr_disk p)) = Some (o, p'') /\ exact_index w e r'' o).
Proof.
  unfold silent. intros HS Hh Hn HR HR'' NK C. destruct (run_cache e r (new_proc [])) as [p|] eqn:E; [|discriminate].
  destruct (sh_index sy path (wd_sort e) r' (new_proc (pr_disk p))) as [[[o|] p']|] eqn:E'; [|discriminate|discriminate].
  exists p, p'. split; [reflexivity|]. split; [exists o; exact E'|].
  destruct (d_find (pr_disk p') (N FBwt)) as [[[ | | |[|] | |]|]|] eqn:D; try discriminate.
  destruct (run_index e r'' (new_proc (pr_disk p'))) as [|] eqn:E''; [discriminate|]. split; [reflexivity|]. split; [reflexivity|].
  assert (H : history w e (2 * h) (new_proc (pr_disk p))).
  { apply h_new. apply (h_run w e (2 * h) (new_proc []) r p); [apply h_empty|exact HR|exact E]. }
  destruct (C47_resume_partial w e h _ r'' HS Hh Hn H HR'' ltac:(intros X; contradiction)) as (o2 & p2 & E2 & X & _).
  exists o2, p2. split; [exact E2|exact X].
Qed.
Theorem C96_silent_refuted :
  exists w e h sy path r r' r'', sound_world w e /\ 0 < h /\ S (List.length w) < 2 ^ 64 /\
    sy_files sy path = Some (wd_data e) /\ sy_big sy = wd_exe e /\ sy_installed sy = false /\
    run_ready w e (2 * h) r /\ run_ready w e (2 * h) r' /\ run_ready w e (2 * h) r'' /\ ru_route r'' = Sdsl /\
    exists p p', run_cache e r (new_proc []) = Some p /\
      (exists o, sh_index sy path (wd_sort e) r' (new_proc (pr_disk p)) = Some (Some o, p')) /\
      d_find (pr_disk p') (N FBwt) = Some (Whole (ItInts [])) /\
      run_index e r'' (new_proc (pr_disk p')) = None /\
      (exists o p'', run_index e r'' (new_proc (pr_disk p)) = Some (o, p'') /\ exact_index w e r'' o).
Proof.
  exists exf_w, exf_world, 2, (ex_system false "/data/foo"), "/data/foo"%string, (ex_run Sdsl KRIndex 3), (ex_run BigBwt KRIndex 3), (ex_run Sdsl KSrCSA 3).
  split; [exact exf_sound|]. split; [lia|]. split; [exact exf_small|]. split; [reflexivity|]. split; [reflexivity|]. split; [reflexivity|].
  split; [apply ex_ready|]. split; [apply ex_ready|]. split; [apply ex_ready|]. split; [reflexivity|].
  apply (silent_ok exf_w exf_world 2); [exact exf_sound|lia|exact exf_small|apply ex_ready|apply ex_ready|discriminate|vm_compute; reflexivity].
Qed.
Print Assumptions C96_silent_refuted.
