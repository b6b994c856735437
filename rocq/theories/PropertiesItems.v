(** C84 to C87: the first pair of benchmark programs, bm_build_ri_items and bm_locate. *)
From Coq Require Import List Arith Bool String Lia.
From Verif Require Import Spec SpecBwt MBase MConstruct MOldRle MClosed FM Glue ClosedGlue MBench SpecBench BenchProof MItems SpecItems ItemsProof ItemsEnd ItemsMarks.
Import ListNotations.

Lemma item_parts data sa sort : item_data data -> sorted_by sort data sa -> exists bwt f,
  old_construct 2 (map replace_zero (BW (terminated (zero_as_two data)) sa)) = Some bwt /\ f_table (BW (terminated (zero_as_two data)) sa) = Some f.
Proof.
  intros HD HS. destruct (items (zero_as_two data) sa 2 (whole_w data HD) (proj2 HS) (Nat.lt_0_succ 1)) as (R & bwt & f & E1 & _ & _ & E4 & _).
  exists bwt, f. auto.
Qed.
Lemma counters_ok {A B} (P : A -> B -> Prop) (g : A -> B) l : (forall a, In a l -> P a (g a)) -> Forall2 P l (map g l).
Proof. induction l as [|a l IH]; intros H; constructor; [apply H; left; auto|apply IH; intros; apply H; right; auto]. Qed.

(** * C84: what the construction program writes *)
(** With --rebuild over any directory, or over an empty one, for any numbers of rounds and calls: the run ends, all files are
    there with the right contents, and every call leaves the right counters. *)
Theorem C84_build : forall data sa sort d rebuild calls, item_data data -> sorted_by sort data sa -> rebuild = true \/ d = [] ->
  exists d' cs, build_items sort data rebuild calls d = Some (d', cs) /\ complete d' /\
    bwt_files data sa d' /\ order_files d' /\ Forall (sampled_files d') rates /\ Forall (marked_files d') rates /\
    Forall2 (fun call co => counted data sa d' (fst call) co) (calls_of calls item_functions) cs.
Proof.
  intros data sa sort d rebuild calls HD HS HR. destruct (item_parts data sa sort HD HS) as (bwt & f & Eb & Ef).
  assert (X : exists d' cs, build_items sort data rebuild calls d = Some (d', cs) /\ holds (zero_as_two data) sa bwt f d' all_files /\
    cs = map (fun c => counts (zero_as_two data) sa (fst c)) (calls_of calls all_fns)).
  { destruct (rebuild_ok data sa sort bwt f HD HS Eb Ef calls d) as (d' & cs & E & H & C & _). destruct rebuild; [eauto|].
    destruct HR as [HR|HR]; [discriminate|]. subst d. exists d', cs. split; [|auto]. unfold build_items in *. rewrite registered_empty. rewrite registered_rebuild in E. exact E. }
  destruct X as (d' & cs & E & H & C). exists d', cs. split; [exact E|]. split; [intros k Hk; unfold present; rewrite (H k Hk); discriminate|].
  split; [exact (holds_bwt data sa sort bwt f HD HS Ef d' H)|]. split; [exact (holds_order data sa sort bwt f HD HS d' H)|].
  split; [exact (holds_sampled data sa sort bwt f HD HS d' H)|]. split; [exact (holds_marked data sa sort bwt f HD HS d' H)|].
  rewrite C, <- all_functions. apply counters_ok. intros c Hc. apply (counts_counted data sa sort bwt f HD HS d' (fst c) H).
  apply (in_map fst) in Hc. rewrite calls_in in Hc. exact Hc.
Qed.
Print Assumptions C84_build.
(** The files do not depend on the numbers of rounds and calls, nor on what was there before. *)
Theorem C84_same : forall data sa sort calls calls' d e d' e' cs cs', item_data data -> sorted_by sort data sa ->
  build_items sort data true calls d = Some (d', cs) -> build_items sort data true calls' e = Some (e', cs') ->
  forall k, In k all_files -> fget d' k = fget e' k.
Proof.
  intros data sa sort calls calls' d e d' e' cs cs' HD HS E1 E2 k Hk. destruct (item_parts data sa sort HD HS) as (bwt & f & Eb & Ef).
  destruct (rebuild_ok data sa sort bwt f HD HS Eb Ef calls d) as (d1 & c1 & F1 & H1 & _). destruct (rebuild_ok data sa sort bwt f HD HS Eb Ef calls' e) as (d2 & c2 & F2 & H2 & _).
  rewrite E1 in F1. rewrite E2 in F2. injection F1 as <- _. injection F2 as <- _. rewrite (H1 k Hk), (H2 k Hk). reflexivity.
Qed.
Print Assumptions C84_same.

Definition ex_it_data : list nat := [3; 0; 5; 3; 5; 0; 3; 4; 3; 5].
Definition ex_it_sa : list nat := [10; 5; 1; 0; 6; 8; 3; 7; 9; 4; 2].
Definition ex_it_sort (t : list nat) : option (list nat) := if list_eq_dec Nat.eq_dec t (terminated (zero_as_two ex_it_data)) then Some ex_it_sa else None.
Definition ex_it_calls (fn : item_fn) : nat * list nat := match fn with FBwt => (1, [2]) | FTails _ => (0, [1]) | _ => (0, []) end.
Definition ex_it_dir : idir := match build_items ex_it_sort ex_it_data false ex_it_calls [] with Some (d, _) => d | None => [] end.
Example C84_met : item_data ex_it_data /\ sorted_by ex_it_sort ex_it_data ex_it_sa.
Proof.
  split; [split; [discriminate|repeat (constructor; [lia|]); constructor]|]. split; [vm_compute; reflexivity|].
  apply sa_check_ok. vm_compute. reflexivity.
Qed.
Example C84_run : match build_items ex_it_sort ex_it_data false ex_it_calls [] with
  | Some (d, cs) => (map (fun k => match fget d k with Some (INums l) => l | _ => [] end) [KBwt; KTails; KTailsText; KSampledIdxVec 4; KSampled 4; KAreas 4],
                     map (fun co => (ic_n co, ic_r co, ic_r' co)) (firstn 4 cs))
  | None => ([], [])
  end = ([[5; 5; 3; 0; 2; 4; 5; 3; 3; 3; 2]; [1; 2; 3; 4; 5; 6; 9; 10]; [4; 0; 10; 5; 7; 2; 3; 1]; [0; 1; 2; 4]; [4; 0; 10; 7]; [2; 2]],
         [(10, 0, 0); (0, 0, 0); (0, 8, 0); (0, 8, 0)]).
Proof. vm_compute. reflexivity. Qed.
(** Distinct files have distinct names. *)
Theorem C84_names : NoDup (map key_name all_files).
Proof.
  assert (E : forall l : list string, (if list_eq_dec string_dec (nodup string_dec l) l then true else false) = true -> NoDup l).
  { intros l H. destruct (list_eq_dec string_dec (nodup string_dec l) l) as [E|]; [rewrite <- E; apply NoDup_nodup|discriminate]. }
  apply E. vm_compute. reflexivity.
Qed.
(** Data without bytes, and the byte 255, are not served: the run fails. *)
Definition ex_once (fn : item_fn) : nat * list nat := (0, []).
Definition ex_sorter (t sa : list nat) (u : list nat) : option (list nat) := if list_eq_dec Nat.eq_dec u t then Some sa else None.
Theorem C84_other_data_refuted : ~ (forall data sa sort calls, Forall (fun c => c < 256) data -> sorted_by sort data sa ->
    exists d cs, build_items sort data true calls [] = Some (d, cs)) /\
  (forall data, In data [[]; [255; 3]] -> exists sa sort, sorted_by sort data sa /\ build_items sort data true ex_once [] = None).
Proof.
  assert (W : forall data, In data [[]; [255; 3]] -> exists sa sort, sorted_by sort data sa /\ build_items sort data true ex_once [] = None).
  { intros data [<-|[<-|[]]].
    - exists [0], (ex_sorter [0] [0]). split; [split; [reflexivity|apply sa_check_ok; vm_compute; reflexivity]|]. vm_compute. reflexivity.
    - exists [2; 1; 0], (ex_sorter [255; 3; 0] [2; 1; 0]). split; [split; [vm_compute; reflexivity|apply sa_check_ok; vm_compute; reflexivity]|]. vm_compute. reflexivity. }
  split; [|exact W]. intros H. destruct (W [] (or_introl eq_refl)) as (sa & sort & HS & E). destruct (H [] sa sort ex_once ltac:(constructor) HS) as (d & cs & E'). congruence.
Qed.
Print Assumptions C84_other_data_refuted.

(** * C85: the query program after it *)
Theorem C85_locate_partial : forall data sa sort sz d file ps js, item_data data -> sorted_by sort data sa -> item_dirs sort data d -> complete d ->
  line_patterns file ps -> Forall (fun p => Forall (fun c => c < 256) (pt_decoded p)) ps -> Forall (fun j => rj_idx j < List.length ri_configs) js ->
  exists rs outs, ri_program sz d file js = Some (rs, outs) /\ Forall2 (fun j r => ri_reported data ps r) js rs /\
    forall j c, In j js -> rj_print j = true -> nth_error ri_configs (rj_idx j) = Some c ->
      exists out, out_find outs (ri_output (fst c)) = Some out /\
        (rj_idx j <> 0 -> report_of (zero_as_two data) ps out) /\
        (exists ls, Forall2 (fun p l => occurrences (zero_as_two data) p (List.length l)) (map pt_decoded ps) ls /\ report (map pt_encoded ps) ls out).
Proof.
  intros data sa sort sz d file ps js HD HS HI HC HL HB HJ. destruct (item_parts data sa sort HD HS) as (bwt & f & Eb & Ef).
  pose proof (complete_holds data sa sort bwt f HD HS Eb Ef d HI HC) as H.
  destruct (program_ok data sa sort bwt f HD HS Eb Ef sz d file ps js H HL HB HJ) as (rs & outs & E & F & P & G). exists rs, outs. split; [exact E|]. split.
  - clear - F. induction F as [|j r js rs [F _] _ IH]; constructor; auto.
  - intros j c Hj Hp Ec. destruct (P j c Hj Hp Ec) as (out & Eo). exists out. split; [exact Eo|]. destruct (G _ _ _ Ec Eo) as [G1 G2]. split; [intros N; apply G1; lia|exact G2].
Qed.
Print Assumptions C85_locate_partial.
Definition ex_it_sz : sizes :=
  mk_sizes (@List.length _) (@List.length _) (fun _ => 1) (@List.length _) (fun _ => 1) (fun _ => 1) (@List.length _) (fun _ => 1).
Definition ex_it_file : list nat := [3; 10; 5; 10; 10; 9].
Definition ex_it_patterns : list pattern := [mk_pattern [3] [3]; mk_pattern [5] [5]; mk_pattern [9] [9]].
Lemma ex_it_dirs : item_dirs ex_it_sort ex_it_data ex_it_dir /\ complete ex_it_dir.
Proof.
  destruct (C84_build ex_it_data ex_it_sa ex_it_sort [] false ex_it_calls (proj1 C84_met) (proj2 C84_met) (or_intror eq_refl)) as (d & cs & E & C & _).
  assert (X : ex_it_dir = d) by (unfold ex_it_dir; rewrite E; reflexivity). rewrite X. split; [|exact C].
  apply (id_run _ _ [] false ex_it_calls d cs); [constructor| |exact E]. right. intros g ks _ H. exfalso. apply H. reflexivity.
Qed.
Lemma ex_it_lines : line_patterns ex_it_file ex_it_patterns.
Proof.
  exists [[3]; [5]; []; [9]]. split; [|reflexivity].
  split; [discriminate|]. split; [|reflexivity]. repeat (constructor; [cbn; intuition lia|]). constructor.
Qed.
Example C85_met : item_data ex_it_data /\ sorted_by ex_it_sort ex_it_data ex_it_sa /\ item_dirs ex_it_sort ex_it_data ex_it_dir /\ complete ex_it_dir /\
  line_patterns ex_it_file ex_it_patterns /\ Forall (fun p => Forall (fun c => c < 256) (pt_decoded p)) ex_it_patterns.
Proof.
  split; [apply C84_met|]. split; [apply C84_met|]. split; [apply ex_it_dirs|]. split; [apply ex_it_dirs|]. split; [exact ex_it_lines|].
  repeat (constructor; [repeat (constructor; [cbn; lia|]); constructor|]). constructor.
Qed.
Example C85_run : ri_program ex_it_sz ex_it_dir ex_it_file [mk_ri_job 1 true 0; mk_ri_job 9 false 2; mk_ri_job 0 true 1] =
  Some ([mk_ri_counters 11 287 (mk_counters 3 7); mk_ri_counters 11 288 (mk_counters 3 7); mk_ri_counters 11 286 (mk_counters 3 7)],
    [("result-R-Index.txt"%string, [3; 10; 32; 32; 50; 10; 32; 32; 52; 10; 32; 32; 55; 10; 32; 32; 57; 10; 5; 10; 32; 32; 50; 10; 32; 32; 52; 10; 32; 32; 57; 10; 9; 10]);
     ("result-R-Index-WS_4.txt"%string, [3; 10; 32; 32; 48; 10; 32; 32; 51; 10; 32; 32; 54; 10; 32; 32; 56; 10; 5; 10; 32; 32; 50; 10; 32; 32; 52; 10; 32; 32; 57; 10; 9; 10])]).
Proof. vm_compute. reflexivity. Qed.
(** Of the index without sampling the file has other positions. *)
Lemma ex_numeral c n : 48 <= c <= 57 -> n = c - 48 -> numeral [c] n.
Proof. intros H ->. split; [discriminate|]. split; [constructor; [exact H|constructor]|]. split; [cbn; intros ->; reflexivity|reflexivity]. Qed.
Theorem C85_locate_refuted : ~ (forall data sa sort sz d file ps js, item_data data -> sorted_by sort data sa -> item_dirs sort data d -> complete d ->
  line_patterns file ps -> Forall (fun p => Forall (fun c => c < 256) (pt_decoded p)) ps -> Forall (fun j => rj_idx j < List.length ri_configs) js ->
  exists rs outs, ri_program sz d file js = Some (rs, outs) /\
    forall j c, In j js -> rj_print j = true -> nth_error ri_configs (rj_idx j) = Some c ->
      exists out, out_find outs (ri_output (fst c)) = Some out /\ report_of (zero_as_two data) ps out).
Proof.
  intros H. destruct (H ex_it_data ex_it_sa ex_it_sort ex_it_sz ex_it_dir [5; 10; 3] [mk_pattern [5] [5]; mk_pattern [3] [3]] [mk_ri_job 0 true 0]) as (rs & outs & E & F); clear H.
  - apply C84_met.
  - apply C84_met.
  - apply ex_it_dirs.
  - apply ex_it_dirs.
  - exists [[5]; [3]]. split; [|reflexivity]. split; [discriminate|]. split; [|reflexivity].
    repeat (constructor; [cbn; intuition lia|]). constructor.
  - repeat (constructor; [repeat (constructor; [cbn; lia|]); constructor|]). constructor.
  - constructor; [cbn; lia|constructor].
  - assert (E' : ri_program ex_it_sz ex_it_dir [5; 10; 3] [mk_ri_job 0 true 0] = Some ([mk_ri_counters 11 286 (mk_counters 2 7)],
      [("result-R-Index.txt"%string, [5; 10; 32; 32; 50; 10; 32; 32; 52; 10; 32; 32; 57; 10; 3; 10; 32; 32; 50; 10; 32; 32; 52; 10; 32; 32; 55; 10; 32; 32; 57; 10])])) by (vm_compute; reflexivity).
    rewrite E' in E. injection E as <- <-.
    destruct (F (mk_ri_job 0 true 0) (nth 0 ri_configs ("", (IRIndex, 0))%string) (or_introl eq_refl) eq_refl eq_refl) as (out & Eo & ls & A & R).
    vm_compute in Eo. injection Eo as <-.
    assert (R' : report [[5]; [3]] [[2; 4; 9]; [2; 4; 7; 9]] ([5; 10; 32; 32; 50; 10; 32; 32; 52; 10; 32; 32; 57; 10] ++ [3; 10; 32; 32; 50; 10; 32; 32; 52; 10; 32; 32; 55; 10; 32; 32; 57; 10] ++ [])).
    { constructor; [|constructor; [|constructor]]; apply entry_lines.
      - exists [[50]; [52]; [57]]. split; [repeat (constructor; [apply ex_numeral; lia|]); constructor|reflexivity].
      - exists [[50]; [52]; [55]; [57]]. split; [repeat (constructor; [apply ex_numeral; lia|]); constructor|reflexivity]. }
    assert (Q : Forall (fun q => q <> [] /\ hd 0 q <> 32) [[5]; [3]]) by (repeat (constructor; [split; [discriminate|cbn; lia]|]); constructor).
    pose proof (report_reads [[5]; [3]] _ _ Q R' _ R) as X. subst ls. clear R R'.
    inversion A as [|? ? ? ? _ A2]; subst. inversion A2 as [|? ? ? ? A3 _]; subst. destruct A3 as [[_ A3] _].
    destruct (proj1 (A3 2) ltac:(cbn; auto)) as (u & v & A4 & A5). destruct u as [|? [|? [|? ?]]]; try discriminate A5. vm_compute in A4. discriminate.
Qed.
Print Assumptions C85_locate_refuted.
(** With the byte 1 in the data also the numbers of occurrences are wrong. *)
Theorem C85_byte_one : exists data sa sort d cs rs outs, Forall (fun c => 0 < c < 255) data /\ sorted_by sort data sa /\
  build_items sort data true ex_once [] = Some (d, cs) /\ ri_program ex_it_sz d [1] [mk_ri_job 1 false 0] = Some (rs, outs) /\
  occurrences (zero_as_two data) [1] 2 /\ map (fun r => co_occurrences (rc_queries r)) rs = [3].
Proof.
  exists [3; 1; 5; 1; 3], [5; 3; 1; 4; 0; 2], (ex_sorter [3; 1; 5; 1; 3; 0] [5; 3; 1; 4; 0; 2]).
  destruct (build_items (ex_sorter [3; 1; 5; 1; 3; 0] [5; 3; 1; 4; 0; 2]) [3; 1; 5; 1; 3] true ex_once []) as [[d cs]|] eqn:E; [|vm_compute in E; discriminate].
  exists d, cs. vm_compute in E. injection E as <- <-.
  do 2 eexists. split; [repeat (constructor; [lia|]); constructor|]. split; [split; [vm_compute; reflexivity|apply sa_check_ok; vm_compute; reflexivity]|].
  split; [reflexivity|]. split; [vm_compute; reflexivity|]. split; [|reflexivity].
  exists [1; 3]. split; [|reflexivity]. split; [repeat (constructor; [cbn; intuition lia|]); constructor|].
  intros i. split; [intros [<-|[<-|[]]]; [exists [3], [5; 1; 3]|exists [3; 1; 5], [3]]; auto|].
  intros (u & v & E & <-). cbn in E. do 6 (destruct u as [|? u]; [cbn in E |- *; try discriminate E; auto|cbn in E; first [discriminate E|injection E as _ E]]).
Qed.

(** * C86: runs over what earlier runs have left *)
(** Over complete groups a run adds what is missing, and the files are those of a run from scratch; it calls nothing if all is there. *)
Theorem C86_resume_partial : forall data sa sort d calls, item_data data -> sorted_by sort data sa -> item_dirs sort data d -> no_torn_group d ->
  exists d' cs, build_items sort data false calls d = Some (d', cs) /\ complete d' /\ item_dirs sort data d' /\
    (forall k, present d k -> fget d' k = fget d k) /\
    (forall e rebuilt cs', build_items sort data true e [] = Some (rebuilt, cs') -> forall k, In k all_files -> fget d' k = fget rebuilt k) /\
    (complete d -> d' = d /\ cs = []).
Proof.
  intros data sa sort d calls HD HS HI HT. destruct (item_parts data sa sort HD HS) as (bwt & f & Eb & Ef).
  pose proof (dirs_right data sa sort bwt f HD HS Eb Ef d HI) as HR.
  destruct (resume_ok data sa sort bwt f HD HS Eb Ef calls d HR HT) as (d' & cs & E & H & C & K). exists d', cs. split; [exact E|].
  split; [intros k Hk; unfold present; rewrite (H k Hk); discriminate|]. split; [apply (id_run _ _ d false calls d' cs); auto|]. split.
  { intros k Hk. destruct (in_dec ikey_dec k all_files) as [I|N]; [rewrite (H k I), (HR k I Hk); reflexivity|apply K; exact N]. }
  split.
  { intros e rebuilt cs' E' k Hk. destruct (rebuild_ok data sa sort bwt f HD HS Eb Ef e []) as (d2 & c2 & F & H2 & _). rewrite F in E'. injection E' as <- _.
    rewrite (H k Hk), (H2 k Hk). reflexivity. }
  intros HC. pose proof (holds_registered data sa bwt f d (complete_holds data sa sort bwt f HD HS Eb Ef d HI HC)) as X.
  unfold build_items in E. rewrite X in E. cbn in E. injection E as <- <-. auto.
Qed.
Print Assumptions C86_resume_partial.
(** In a group that is not complete, of which the tested file is there, no finished run without --rebuild ever writes a missing file. *)
Theorem C86_torn : forall sort data calls d d' cs g ks k, In (g, ks) groups -> present d g -> In k ks -> ~ present d k ->
  build_items sort data false calls d = Some (d', cs) -> ~ present d' k /\ ~ complete d'.
Proof.
  intros sort data calls d d' cs g ks k HG Hg Hk Nk E. pose proof HG as HG'. rewrite <- stages_groups in HG'. apply in_map_iff in HG' as ((g' & fns) & EQ & HI). cbn [fst snd] in EQ. injection EQ as <- <-.
  pose proof (torn_stays sort data calls d d' cs g' fns k HI Hg Hk E) as X.
  assert (N : ~ present d' k) by (unfold present; rewrite X; exact Nk). split; [exact N|]. intros C. apply N, C. apply in_flat_map. eauto.
Qed.
Print Assumptions C86_torn.
(** What a run leaves that is stopped while the function of number [n] stores its file of number [k]. *)
Definition ex_left (n k : nat) : idir :=
  match run_calls ex_it_sort ex_it_data (calls_of ex_once (firstn n item_functions)) [] with
  | Some (d, _) => match item_call ex_it_sort ex_it_data (nth n item_functions FText) 0 d with Some (l, _) => fputs d (firstn k l) | None => [] end
  | None => []
  end.
Lemma ex_left_stopped n k :
  calls_of ex_once item_functions = calls_of ex_once (firstn n item_functions) ++ (nth n item_functions FText, 0) :: skipn (S n) (calls_of ex_once item_functions) ->
  match run_calls ex_it_sort ex_it_data (calls_of ex_once (firstn n item_functions)) [] with
  | Some (d, _) => match item_call ex_it_sort ex_it_data (nth n item_functions FText) 0 d with Some _ => true | None => false end
  | None => false
  end = true -> stopped ex_it_sort ex_it_data false ex_once [] (ex_left n k).
Proof.
  intros E1 E2. unfold ex_left. destruct (run_calls ex_it_sort ex_it_data (calls_of ex_once (firstn n item_functions)) []) as [[d cs]|] eqn:E3; [|discriminate].
  destruct (item_call ex_it_sort ex_it_data (nth n item_functions FText) 0 d) as [[ws co]|] eqn:E4; [|discriminate].
  exists (calls_of ex_once (firstn n item_functions)), (nth n item_functions FText, 0), (skipn (S n) (calls_of ex_once item_functions)), (d, cs), ws, co, k.
  split; [rewrite registered_empty, <- all_functions; exact E1|]. auto.
Qed.
Theorem C86_resume_refuted :
  ~ (forall data sa sort d, item_data data -> sorted_by sort data sa -> stopped sort data false ex_once [] d ->
       exists d' cs, build_items sort data false ex_once d = Some (d', cs) /\ complete d') /\
  (exists data sa sort d, item_data data /\ sorted_by sort data sa /\ stopped sort data false ex_once [] d /\ build_items sort data false ex_once d = None) /\
  (exists data sa sort d, item_data data /\ sorted_by sort data sa /\ stopped sort data false ex_once [] d /\
     (forall calls, build_items sort data false calls d = Some (d, [])) /\ ~ complete d /\
     ri_program ex_it_sz d ex_it_file [mk_ri_job 9 false 0] = None).
Proof.
  assert (S1 : stopped ex_it_sort ex_it_data false ex_once [] (ex_left 2 1)).
  { apply ex_left_stopped; vm_compute; reflexivity. }
  assert (S2 : stopped ex_it_sort ex_it_data false ex_once [] (ex_left 17 0)).
  { apply ex_left_stopped; vm_compute; reflexivity. }
  assert (N : build_items ex_it_sort ex_it_data false ex_once (ex_left 2 1) = None) by (vm_compute; reflexivity).
  destruct C84_met as [M1 M2]. split; [|split].
  - intros H. destruct (H ex_it_data ex_it_sa ex_it_sort _ M1 M2 S1) as (d' & cs & E & _). congruence.
  - exists ex_it_data, ex_it_sa, ex_it_sort, (ex_left 2 1). auto.
  - exists ex_it_data, ex_it_sa, ex_it_sort, (ex_left 17 0). split; [exact M1|]. split; [exact M2|]. split; [exact S2|]. split; [|split].
    + intros calls. unfold build_items. replace (registered false (ex_left 17 0)) with (@nil item_fn) by (vm_compute; reflexivity). reflexivity.
    + intros C. apply (C (KAreas 32)); [vm_compute; auto 90|vm_compute; reflexivity].
    + vm_compute. reflexivity.
Qed.
Print Assumptions C86_resume_refuted.
Notation ex_half := (ex_left 3 0).
Lemma whole_groups d : forallb (fun p => negb (fexists d (fst p)) || forallb (fexists d) (snd p)) groups = true -> no_torn_group d.
Proof.
  intros B g ks HG Hg k Hk. rewrite forallb_forall in B. specialize (B _ HG). cbn [fst snd] in B. unfold fexists in B. unfold present in *.
  destruct (fget d g); [|congruence]. cbn [negb orb] in B. rewrite forallb_forall in B. specialize (B k Hk). destruct (fget d k); [discriminate|discriminate B].
Qed.
Lemma there d k : fexists d k = true -> present d k.
Proof. unfold present, fexists. destruct (fget d k); discriminate. Qed.
Example C86_met : item_dirs ex_it_sort ex_it_data ex_half /\ no_torn_group ex_half /\ ~ complete ex_half /\ present ex_half KBwt.
Proof.
  split; [|split; [|split]].
  - apply (id_stopped _ _ [] false ex_once); [constructor|right; intros g ks _ H; exfalso; apply H; reflexivity|]. apply ex_left_stopped; vm_compute; reflexivity.
  - apply whole_groups. vm_compute. reflexivity.
  - intros C. assert (E : fget ex_half KRle = None) by (vm_compute; reflexivity). apply (C KRle); [cbn; auto 20|exact E].
  - apply there. vm_compute. reflexivity.
Qed.
Example C86_torn_met : exists ks, In (KSampledHeadsBv 16, ks) groups /\ present (ex_left 17 0) (KSampledHeadsBv 16) /\ In (KAreas 32) ks /\ ~ present (ex_left 17 0) (KAreas 32).
Proof.
  eexists. split; [unfold groups; do 7 right; left; reflexivity|]. split; [unfold present; vm_compute; discriminate|]. split; [vm_compute; auto 40|]. unfold present. vm_compute. auto.
Qed.

(** * C87: the sizes that are reported *)
Theorem C87_sizes_partial : forall data sa sort sz d file ps js, item_data data -> sorted_by sort data sa -> item_dirs sort data d -> complete d ->
  line_patterns file ps -> Forall (fun p => Forall (fun c => c < 256) (pt_decoded p)) ps -> Forall (fun j => rj_idx j < List.length ri_configs) js ->
  exists rs outs, ri_program sz d file js = Some (rs, outs) /\
    Forall2 (fun j r => exists c, nth_error ri_configs (rj_idx j) = Some c /\
      (fst (snd c) <> IAreas -> sized sz d c (rc_size r)) /\
      (fst (snd c) = IAreas -> exists x, sampled_in d (snd (snd c)) x /\ rc_size r + sz_rank0 sz (cx_valid x) = size_with_areas sz x)) js rs.
Proof.
  intros data sa sort sz d file ps js HD HS HI HC HL HB HJ. destruct (item_parts data sa sort HD HS) as (bwt & f & Eb & Ef).
  pose proof (complete_holds data sa sort bwt f HD HS Eb Ef d HI HC) as H.
  destruct (program_ok data sa sort bwt f HD HS Eb Ef sz d file ps js H HL HB HJ) as (rs & outs & E & F & _). exists rs, outs. split; [exact E|].
  clear - F H HD HS Eb Ef. induction F as [|j r js rs (_ & c & locate & Ec & I) _ IH]; constructor; [|exact IH]. exists c. split; [exact Ec|].
  pose proof (index_sizes data sa sort bwt f HD HS Eb Ef sz d c locate (rc_size r) H (nth_error_In _ _ Ec) I) as X.
  destruct (fst (snd c)); (split; [intros N|intros N]); try congruence; exact X.
Qed.
Print Assumptions C87_sizes_partial.
(** For an index with trusted areas the size of a structure that it queries is left out. *)
Theorem C87_sizes_refuted : exists data sa sort d rs outs c, item_data data /\ sorted_by sort data sa /\ item_dirs sort data d /\ complete d /\
  ri_program ex_it_sz d ex_it_file [mk_ri_job 15 false 0] = Some (rs, outs) /\ nth_error ri_configs 15 = Some c /\
  Forall (fun r => ~ sized ex_it_sz d c (rc_size r)) rs /\ rs <> [].
Proof.
  exists ex_it_data, ex_it_sa, ex_it_sort, ex_it_dir, [mk_ri_counters 11 290 (mk_counters 3 7)], [], ("R-Index-WS-TA/64"%string, (IAreas, 64)).
  split; [apply C84_met|]. split; [apply C84_met|]. split; [apply ex_it_dirs|]. split; [apply ex_it_dirs|]. split; [vm_compute; reflexivity|]. split; [vm_compute; reflexivity|].
  split; [|discriminate]. constructor; [|constructor]. intros ([bwt f0 rate samples idx marks links valid areas] & (E1 & E2 & E3 & E4 & E5 & E6 & E7 & E8) & S).
  cbn [cx_bwt cx_f cx_samples cx_idx cx_marks cx_links cx_valid cx_areas rc_size] in *.
  vm_compute in E1, E2, E3, E4, E5, E6, E7, E8. injection E1 as <-. injection E2 as <-. injection E3 as <-. injection E4 as <-. injection E5 as <-. injection E6 as <-.
  injection E7 as <-. injection E8 as <-. vm_compute in S. discriminate S.
Qed.
Print Assumptions C87_sizes_refuted.
Example C87_met : item_data ex_it_data /\ sorted_by ex_it_sort ex_it_data ex_it_sa /\ item_dirs ex_it_sort ex_it_data ex_it_dir /\ complete ex_it_dir /\
  line_patterns ex_it_file ex_it_patterns /\ Forall (fun j => rj_idx j < List.length ri_configs) [mk_ri_job 1 true 0; mk_ri_job 9 false 2; mk_ri_job 0 true 1].
Proof.
  split; [apply C84_met|]. split; [apply C84_met|]. split; [apply ex_it_dirs|]. split; [apply ex_it_dirs|]. split; [exact ex_it_lines|].
  repeat (constructor; [cbn; lia|]). constructor.
Qed.
(** The entry with which a call reports is the one of its index: the name tells the kind and the rate that are queried, no two
    entries have the same, and all kinds are there for the rates 4 to 64. *)
Theorem C87_entries : (forall c, In c ri_configs -> fst c = entry_name (fst (snd c)) (snd (snd c))) /\ NoDup (map fst ri_configs) /\
  In IRIndex (map (fun c => fst (snd c)) ri_configs) /\
  forall k s, k <> IRIndex -> In s [4; 8; 16; 32; 64] -> In (entry_name k s, (k, s)) ri_configs.
Proof.
  split; [|split; [|split]].
  - assert (X : forallb (fun c => String.eqb (fst c) (entry_name (fst (snd c)) (snd (snd c)))) ri_configs = true) by (vm_compute; reflexivity).
    intros c I. apply String.eqb_eq, (proj1 (forallb_forall _ _) X c I).
  - assert (E : forall l : list string, (if list_eq_dec string_dec (nodup string_dec l) l then true else false) = true -> NoDup l).
    { intros l H. destruct (list_eq_dec string_dec (nodup string_dec l) l) as [E|]; [rewrite <- E; apply NoDup_nodup|discriminate]. }
    apply E. vm_compute. reflexivity.
  - vm_compute. auto.
  - intros k s HK HI. cbn [In] in HI. destruct k; [congruence| | |]; repeat (destruct HI as [<-|HI]; [vm_compute; auto 20|]); destruct HI.
Qed.
Print Assumptions C87_entries.
