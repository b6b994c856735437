(** C79 to C81: the construction programs of the benchmarks, and the query programs after them. *)
From Coq Require Import List Arith Bool Ascii String Lia Sorted Permutation.
From Verif Require Import Spec MBase MRle MConstruct MPhi MRIndex MBwt SpecBwt MStore SpecStore StoreRound StoreEnd PropertiesSrCsa PropertiesStore
  MCache SpecCache CacheIdeal CacheStep CacheEnd CacheRaw CacheIdx PropertiesCache MFactory SpecFactory PropertiesFactory MBench SpecBench BenchProof PropertiesBench
  MBuild SpecBuild BuildSizes BuildProof.
Import ListNotations.

Lemma Forall2_weak {A B} (P Q : A -> B -> Prop) l l' : (forall a b, P a b -> Q a b) -> Forall2 P l l' -> Forall2 Q l l'.
Proof. induction 2; constructor; auto. Qed.

(** * C79: construct, then query *)
(** What the construction program leaves, for the query programs. *)
Lemma program_ok (log_name : build_config -> nat -> string) (sub_key : fkey) (configs : list build_config) w e h rt tm d0 bjs :
  Forall (fun c => bc_class c <> KCSARaw) configs ->
  sound_world w e -> 0 < h -> S (List.length w) < 2 ^ 64 -> t_dens tm = 2 * h -> (rt = BigBwt -> sound_big w e) ->
  SpecCache.history w e (2 * h) (new_proc d0) -> Forall (may_build configs) bjs ->
  exists d logs zs, build_program log_name sub_key tm (mk_input rt (wd_sort e) (wd_exe e) (wd_data e)) configs d0 bjs = Some (d, logs, zs) /\
    later w e (2 * h) (new_proc d0) (new_proc d) /\ List.length zs = List.length bjs /\
    (forall d' kd s, later w e (2 * h) (new_proc d) (new_proc d') -> provides configs bjs kd s ->
       index_files tm kd s (wd_data e) (wd_sort e (terminated w)) (files_of d')).
Proof.
  intros NR HS Hh Hn HD HR H F. destruct (world_base w e h HS Hh Hn) as [b HB].
  pose proof (history_inv w e h HS Hh Hn b HB _ H) as IV.
  destruct (do_builds_ok w e h HS Hh Hn b HB rt tm HD HR log_name sub_key configs NR bjs d0 0 [] IV F) as (d & logs & zs & E & ID & K & L & C & _ & _ & LT).
  exists d, logs, zs. split; [exact E|]. split; [exact LT|]. split; [exact L|]. intros d' kd s LD PV.
  destruct (later_inv w e h HS Hh Hn b HB _ _ ID LD) as [ID' K'].
  apply (provides_files w e h HS Hh Hn b HB rt tm HD configs NR bjs d' kd s ID'); [|exact PV].
  intros kd' s' C' n I. apply K'. exact (C _ _ C' n I).
Qed.

(** After any calls of the construction program, over an empty directory or one with a history, the query programs report exact
    answers for every class and rate that was constructed; also when other calls of construct come in between. *)
Theorem C79_csa : forall w e h rt tm d0 bjs,
  sound_world w e -> 0 < h -> S (List.length w) < 2 ^ 64 -> t_dens tm = 2 * h -> (rt = BigBwt -> sound_big w e) ->
  SpecCache.history w e (2 * h) (new_proc d0) -> Forall (may_build csa_builds) bjs ->
  exists d logs zs, csa_build_program tm (mk_input rt (wd_sort e) (wd_exe e) (wd_data e)) csa_builds d0 bjs = Some (d, logs, zs) /\
    later w e (2 * h) (new_proc d0) (new_proc d) /\
    forall d' flag file ps, later w e (2 * h) (new_proc d) (new_proc d') ->
      read_patterns flag file = Some ps -> Forall (fun p => pattern_over w (pt_decoded p)) ps ->
      (forall js, Forall (may_query csa_class csa_builds bjs csa_configs ps) js ->
         exists outs rs, locate_program csa_enum csa_rank csa_kind tm csa_configs flag file (files_of d') js = Some (outs, rs) /\
           List.length rs = List.length js /\ (forall i co, nth_error rs i = Some co -> reported w ps js i co) /\
           (forall j c, In j js -> jb_bench j = BPrint -> nth_error csa_configs (jb_idx j) = Some c ->
              exists out, out_find outs (result_name c (jb_rate j)) = Some out /\ report_of w ps out)) /\
      (constructs csa_builds bjs KRCSA 0 -> forall js, Forall (fun '(i, _, iters) => i < List.length csa_count_types /\ 0 < iters) js ->
         exists rs, count_program csa_enum csa_rank csa_kind tm csa_count_types flag file (files_of d') js = Some rs /\
           Forall2 (fun _ r => co_patterns (re_counters r) = List.length ps /\ all_occurrences w (map pt_decoded ps) (co_occurrences (re_counters r))) js rs).
Proof.
  intros w e h rt tm d0 bjs HS Hh Hn HD HR H F.
  assert (NR : Forall (fun c => bc_class c <> KCSARaw) csa_builds) by (repeat (apply Forall_cons; [discriminate|]); apply Forall_nil).
  destruct (program_ok csa_log FFirstIdx csa_builds w e h rt tm d0 bjs NR HS Hh Hn HD HR H F) as (d & logs & zs & E & LT & _ & X).
  exists d, logs, zs. split; [exact E|]. split; [exact LT|]. intros d' flag file ps LD Rp G. destruct HS as (Hw & Hd & HSA). split.
  - intros js Q. apply (C76_locate_csa tm w _ _ h (files_of d') flag file ps js Hw HSA Hd Hh HD Hn Rp G).
    eapply Forall_impl; [|exact Q]. intros j (c & EC & PV & I & M). exists c. split; [exact EC|]. split; [now apply X|]. auto.
  - intros C js Q. destruct (C76_count_csa tm w _ _ h (files_of d') flag file ps js Hw HSA Hd Hh HD Hn Rp G) as (rs & ER & FR); [|exact Q|].
    + apply Forall_cons; [|apply Forall_nil]. apply X; [exact LD|]. now apply pv_built.
    + exists rs. split; [exact ER|]. eapply Forall2_weak; [|exact FR]. intros [[i pr] it] r (A & B & _). auto.
Qed.
Print Assumptions C79_csa.
Theorem C79_sri : forall w e h rt tm d0 bjs,
  sound_world w e -> 0 < h -> S (List.length w) < 2 ^ 64 -> t_dens tm = 2 * h -> (rt = BigBwt -> sound_big w e) ->
  SpecCache.history w e (2 * h) (new_proc d0) -> Forall (may_build sri_builds) bjs ->
  exists d logs zs, sri_build_program tm (mk_input rt (wd_sort e) (wd_exe e) (wd_data e)) sri_builds d0 bjs = Some (d, logs, zs) /\
    later w e (2 * h) (new_proc d0) (new_proc d) /\
    forall d' flag file ps, later w e (2 * h) (new_proc d) (new_proc d') ->
      read_patterns flag file = Some ps -> Forall (fun p => pattern_over w (pt_decoded p)) ps ->
      (forall js, Forall (may_query sri_class sri_builds bjs sri_configs ps) js ->
         exists outs rs, locate_program sri_enum sri_rank sri_kind tm sri_configs flag file (files_of d') js = Some (outs, rs) /\
           List.length rs = List.length js /\ (forall i co, nth_error rs i = Some co -> reported w ps js i co) /\
           (forall j c, In j js -> jb_bench j = BPrint -> nth_error sri_configs (jb_idx j) = Some c ->
              exists out, out_find outs (result_name c (jb_rate j)) = Some out /\ report_of w ps out)) /\
      (constructs sri_builds bjs KRIndex 0 -> forall js, Forall (fun '(i, _, iters) => i < List.length sri_count_types /\ 0 < iters) js ->
         exists rs, count_program sri_enum sri_rank sri_kind tm sri_count_types flag file (files_of d') js = Some rs /\
           Forall2 (fun _ r => co_patterns (re_counters r) = List.length ps /\ all_occurrences w (map pt_decoded ps) (co_occurrences (re_counters r))) js rs).
Proof.
  intros w e h rt tm d0 bjs HS Hh Hn HD HR H F.
  assert (NR : Forall (fun c => bc_class c <> KCSARaw) sri_builds) by (repeat (apply Forall_cons; [discriminate|]); apply Forall_nil).
  destruct (program_ok sri_log FLastIdx sri_builds w e h rt tm d0 bjs NR HS Hh Hn HD HR H F) as (d & logs & zs & E & LT & _ & X).
  exists d, logs, zs. split; [exact E|]. split; [exact LT|]. intros d' flag file ps LD Rp G. destruct HS as (Hw & Hd & HSA). split.
  - intros js Q. apply (C76_locate_sri tm w _ _ h (files_of d') flag file ps js Hw HSA Hd Hh HD Hn Rp G).
    eapply Forall_impl; [|exact Q]. intros j (c & EC & PV & I & M). exists c. split; [exact EC|]. split; [now apply X|]. auto.
  - intros C js Q. destruct (C76_count_sri tm w _ _ h (files_of d') flag file ps js Hw HSA Hd Hh HD Hn Rp G) as (rs & ER & FR); [|exact Q|].
    + apply Forall_cons; [|apply Forall_nil]. apply X; [exact LD|]. now apply pv_built.
    + exists rs. split; [exact ER|]. eapply Forall2_weak; [|exact FR]. intros [[i pr] it] r (A & B & _). auto.
Qed.
Print Assumptions C79_sri.

(** All functions of both programs, with two rates, over the same directory: the construction of the second program starts from
    what the first one left. *)
Definition bd_input (rt : route) : input := mk_input rt (wd_sort exf_world) (wd_exe exf_world) (wd_data exf_world).
Definition bd_csa_jobs : list build_job :=
  map (fun '(i, s) => mk_build_job i s 2) [(0, 0); (1, 0); (2, 2); (3, 2); (4, 2); (5, 2); (6, 2); (7, 2); (8, 2); (3, 3); (7, 3)].
Definition bd_sri_jobs : list build_job := map (fun '(i, s) => mk_build_job i s 1) [(0, 0); (1, 2); (2, 3); (3, 2)].
Definition bd_csa (rt : route) : option (disk * list (string * nat) * list sizes) := csa_build_program ex_sd4 (bd_input rt) csa_builds [] bd_csa_jobs.
Definition bd_disk {A} (r : option (disk * A * list sizes)) : disk := match r with Some (d, _, _) => d | None => [] end.
Definition bd_sizes {A} (r : option (disk * A * list sizes)) : list sizes := match r with Some (_, _, zs) => zs | None => [] end.
Lemma some_build l n js : forallb (fun j => (bj_idx j <? n) && (0 <? bj_iters j)) js = true -> n = List.length l -> Forall (may_build l) js.
Proof. intros H ->. apply Forall_forall. intros j I. rewrite forallb_forall in H. specialize (H j I). apply andb_prop in H as [H1 H2]. split; now apply Nat.ltb_lt. Qed.
Example C79_built_met : Forall (may_build csa_builds) bd_csa_jobs /\ Forall (may_build sri_builds) bd_sri_jobs /\
  SpecCache.history exf_w exf_world (2 * 2) (new_proc []) /\ bd_csa Sdsl <> None /\ bd_csa BigBwt <> None /\
  sri_build_program ex_sd4 (bd_input BigBwt) sri_builds (bd_disk (bd_csa BigBwt)) bd_sri_jobs <> None.
Proof.
  split; [apply (some_build _ 9); reflexivity|]. split; [apply (some_build _ 4); reflexivity|]. split; [constructor|].
  repeat split; vm_compute; discriminate.
Qed.
(** A function of a construction program makes the index of its name, upper and lower case alike, queryable. *)
Theorem C79_same_name : forall ps j s,
  0 < jb_iters j -> (jb_bench j = BMicro -> ps <> []) -> jb_rate j = s ->
  (forall c b bjs, nth_error sri_configs (jb_idx j) = Some c -> In b sri_builds -> upper (bc_name b) = upper (ic_name c) ->
     (exists bj, In bj bjs /\ nth_error sri_builds (bj_idx bj) = Some b /\ bj_rate bj = s) ->
     may_query sri_class sri_builds bjs sri_configs ps j) /\
  (forall c b bjs, nth_error csa_configs (jb_idx j) = Some c -> In b csa_builds -> upper (bc_name b) = upper (ic_name c) ->
     (exists bj, In bj bjs /\ nth_error csa_builds (bj_idx bj) = Some b /\ bj_rate bj = s) ->
     may_query csa_class csa_builds bjs csa_configs ps j).
Proof.
  intros ps j s K M ES. split; intros c b bjs E B N (bj & I & EB & R); exists c; (split; [exact E|]; split; [|auto]); apply nth_error_In in E;
    apply pv_built; exists bj, b; (split; [exact I|]; split; [exact EB|]); unfold build_rate; rewrite ES, R; clear I EB R;
    cbn in E, B; repeat destruct E as [E|E]; try (destruct E; fail); subst c; repeat destruct B as [B|B]; try (destruct B; fail); subst b;
    vm_compute in N; try discriminate N; split; reflexivity.
Qed.
Print Assumptions C79_same_name.
(** After all the functions of a construction program, with the rate of the query where they take one, every index of the
    query program can be queried. *)
Theorem C79_all : forall ps j s bjs,
  0 < jb_iters j -> (jb_bench j = BMicro -> ps <> []) -> jb_rate j = s ->
  ((forall i, i < List.length sri_builds -> exists bj, In bj bjs /\ bj_idx bj = i /\ bj_rate bj = s) -> jb_idx j < List.length sri_configs ->
     may_query sri_class sri_builds bjs sri_configs ps j) /\
  ((forall i, i < List.length csa_builds -> exists bj, In bj bjs /\ bj_idx bj = i /\ bj_rate bj = s) -> jb_idx j < List.length csa_configs ->
     may_query csa_class csa_builds bjs csa_configs ps j).
Proof.
  intros ps j s bjs K M ES. split; intros A L.
  - assert (B : forall i b, nth_error sri_builds i = Some b -> constructs sri_builds bjs (bc_class b) (if bc_sampling b then s else 0)).
    { intros i b E. destruct (A i) as (bj & I & EI & R); [apply nth_error_Some; congruence|]. exists bj, b. rewrite EI. unfold build_rate. rewrite R. auto. }
    destruct (nth_error sri_configs (jb_idx j)) as [c|] eqn:E; [|apply nth_error_None in E; lia]. exists c. split; [exact E|]. split; [|auto]. rewrite ES.
    apply nth_error_In in E. cbn in E. repeat destruct E as [E|E]; try (destruct E; fail); subst c; apply pv_built;
      [apply (B 0 _ eq_refl)|apply (B 1 _ eq_refl)|apply (B 2 _ eq_refl)|apply (B 3 _ eq_refl)].
  - assert (B : forall i b, nth_error csa_builds i = Some b -> constructs csa_builds bjs (bc_class b) (if bc_sampling b then s else 0)).
    { intros i b E. destruct (A i) as (bj & I & EI & R); [apply nth_error_Some; congruence|]. exists bj, b. rewrite EI. unfold build_rate. rewrite R. auto. }
    destruct (nth_error csa_configs (jb_idx j)) as [c|] eqn:E; [|apply nth_error_None in E; lia]. exists c. split; [exact E|]. split; [|auto]. rewrite ES.
    pose proof (B 3 _ eq_refl) as S3. pose proof (B 5 _ eq_refl) as S5. pose proof (B 7 _ eq_refl) as S7.
    apply nth_error_In in E. cbn in E. repeat destruct E as [E|E]; try (destruct E; fail); subst c;
      [apply pv_built, (B 0 _ eq_refl)|apply pv_built, (B 1 _ eq_refl)|apply pv_built, (B 2 _ eq_refl)|apply pv_built, S5|apply pv_built, S7|apply pv_built, S3
      |eapply pv_slim; [exact S3|exact S5|cbn; auto|cbn; auto]|eapply pv_slim; [exact S3|exact S5|cbn; auto|cbn; auto]
      |apply pv_built, (B 4 _ eq_refl)|apply pv_built, (B 6 _ eq_refl)|apply pv_built, (B 8 _ eq_refl)].
Qed.
Print Assumptions C79_all.
(** The names that are the same: all the four, and nine of eleven. *)
Example C79_same_name_met :
  map (fun c => List.length (filter (fun b => String.eqb (upper (bc_name b)) (upper (ic_name c))) sri_builds)) sri_configs = [1; 1; 1; 1] /\
  map (fun c => List.length (filter (fun b => String.eqb (upper (bc_name b)) (upper (ic_name c))) csa_builds)) csa_configs = [1; 1; 1; 1; 1; 1; 0; 0; 1; 1; 1].
Proof. split; vm_compute; reflexivity. Qed.
(** Calls of the query program that read what was constructed; SR-CSA-Slim-VM (number 6) is not constructed as such. *)
Definition bd_queries : list job := [mk_job 0 0 BMacro 2; mk_job 3 2 BPrint 1; mk_job 5 3 BMicro 1; mk_job 6 3 BMacro 1; mk_job 8 2 BPrint 1].
Example C79_queries_met : Forall (may_query csa_class csa_builds bd_csa_jobs csa_configs bm_patterns) bd_queries.
Proof.
  assert (B : forall i s c, In (mk_build_job i s 2) bd_csa_jobs -> nth_error csa_builds i = Some c -> constructs csa_builds bd_csa_jobs (bc_class c) (build_rate c (mk_build_job i s 2))).
  { intros i s c I E. exists (mk_build_job i s 2), c. auto. }
  unfold bd_queries. repeat (apply Forall_cons; [|]); try apply Forall_nil.
  - exists (mk_idx_config "R-CSA-BWT-RUNS" E_R_CSA false). split; [reflexivity|]. split; [|split; [apply Nat.ltb_lt; reflexivity|discriminate]].
    apply pv_built. apply (B 0 0 (mk_build_config "R-CSA-BWT-Runs" KRCSA false)); [cbn; auto 15|reflexivity].
  - exists (mk_idx_config "SR-CSA-VM" E_SR_CSA_VM true). split; [reflexivity|]. split; [|split; [apply Nat.ltb_lt; reflexivity|discriminate]].
    apply pv_built. apply (B 5 2 (mk_build_config "SR-CSA-VM" KSrCSAVM true)); [cbn; auto 15|reflexivity].
  - exists (mk_idx_config "SR-CSA-Slim" E_SR_CSA_SLIM true). split; [reflexivity|]. split; [|split; [apply Nat.ltb_lt; reflexivity|discriminate]].
    apply pv_built. apply (B 3 3 (mk_build_config "SR-CSA-Slim" KSlim true)); [cbn; auto 15|reflexivity].
  - exists (mk_idx_config "SR-CSA-Slim-VM" E_SR_CSA_SLIM_VM true). split; [reflexivity|]. split; [|split; [apply Nat.ltb_lt; reflexivity|discriminate]].
    apply (pv_slim _ _ _ KSrCSAVA).
    + apply (B 3 3 (mk_build_config "SR-CSA-Slim" KSlim true)); [cbn; auto 15|reflexivity].
    + apply (B 7 3 (mk_build_config "SR-CSA-VA" KSrCSAVA true)); [cbn; auto 15|reflexivity].
    + cbn. auto.
    + cbn. auto.
  - exists (mk_idx_config "SR-CSA-PSI-RUNS" E_SR_CSA_PSI_RUNS true). split; [reflexivity|]. split; [|split; [apply Nat.ltb_lt; reflexivity|discriminate]].
    apply pv_built. apply (B 4 2 (mk_build_config "SR-CSA-Psi-Runs" KSrPsi true)); [cbn; auto 15|reflexivity].
Qed.
Example C79_run : locate_program csa_enum csa_rank csa_kind ex_sd4 csa_configs "PLAIN" bm_file (files_of (bd_disk (bd_csa BigBwt))) bd_queries =
  Some ([("result-SR-CSA-PSI-RUNS-2.txt"%string, bm_report); ("result-SR-CSA-VM-2.txt"%string, bm_report)],
        [mk_counters 2 7; mk_counters 2 7; mk_counters 1 2; mk_counters 2 7; mk_counters 2 7]).
Proof. vm_compute. reflexivity. Qed.
(** A class that was not constructed cannot be queried: the hypothesis of C79 is needed. *)
Example C79_other_rate : locate_program csa_enum csa_rank csa_kind ex_sd4 csa_configs "PLAIN" bm_file (files_of (bd_disk (bd_csa BigBwt))) [mk_job 3 4 BMacro 1] = None.
Proof. vm_compute. reflexivity. Qed.

(** * C80: the sizes that are reported *)
Lemma counters_ok (log_name : build_config -> nat -> string) (sub_key : fkey) (configs : list build_config) (good : kind -> bool) w e h rt tm d0 bjs d logs zs :
  Forall (fun c => bc_class c <> KCSARaw) configs ->
  sound_world w e -> 0 < h -> S (List.length w) < 2 ^ 64 -> t_dens tm = 2 * h -> (rt = BigBwt -> sound_big w e) ->
  SpecCache.history w e (2 * h) (new_proc d0) -> Forall (may_build configs) bjs ->
  build_program log_name sub_key tm (mk_input rt (wd_sort e) (wd_exe e) (wd_data e)) configs d0 bjs = Some (d, logs, zs) ->
  (forall b kd s v, construct_base (wd_data e) (wd_sort e (terminated w)) = Some b -> good kd = true -> build tm kd s (wd_data e) (wd_sort e (terminated w)) = Some v ->
     In (P s sub_key) (class_names (2 * h) tm kd s) /\ plain (P s sub_key) = true /\
     exists l, ideal (wd_sort e (terminated w)) b (2 * h) (wd_exe e (wd_data e)) (P s sub_key) = Some (ItInts l) /\ List.length l = kept_samples v) ->
  List.length zs = List.length bjs /\
  forall i z j c, nth_error zs i = Some z -> nth_error bjs i = Some j -> nth_error configs (bj_idx j) = Some c ->
    if bc_sampling c
    then sz_n z = Some 0 /\ sz_r z = Some 0 /\ sz_s z = Some (bj_rate j) /\
         (good (bc_class c) = true -> exists v, build tm (bc_class c) (bj_rate j) (wd_data e) (wd_sort e (terminated w)) = Some v /\ sz_sub z = Some (kept_samples v))
    else sz_s z = Some 0 /\ sz_sub z = Some 0 /\
         (exists l, lists_in_order l (run_head (bwt_of (terminated w) (wd_sort e (terminated w)))) /\ sz_r z = Some (List.length l)) /\
         (rt = Sdsl -> sz_n z = Some (S (List.length w))).
Proof.
  intros NR HS Hh Hn HD HR H F EP HG. destruct (world_base w e h HS Hh Hn) as [b HB].
  pose proof (history_inv w e h HS Hh Hn b HB _ H) as IV.
  destruct (do_builds_ok w e h HS Hh Hn b HB rt tm HD HR log_name sub_key configs NR bjs d0 0 [] IV F) as (d' & logs' & zs' & E & _ & _ & L & _ & Z & _).
  unfold build_program in EP. rewrite E in EP. injection EP as -> -> ->. split; [exact L|]. intros i z j c Ez Ej Ec.
  destruct (Z i z Ez) as (j' & c' & p & Ej' & Ec' & IP & W & ->). rewrite Ej in Ej'. injection Ej' as <-. rewrite Ec in Ec'. injection Ec' as <-.
  destruct (bc_sampling c) eqn:B; cbn [sz_n sz_r sz_s sz_sub].
  - split; [reflexivity|]. split; [reflexivity|]. split; [unfold build_rate; rewrite B; reflexivity|]. intros G.
    assert (RT : build_rate c j = bj_rate j) by (unfold build_rate; now rewrite B). rewrite RT in *.
    destruct (world_total w e h HS Hh Hn tm (bc_class c) (bj_rate j) HD) as [v EV]. exists v. split; [exact EV|].
    destruct (HG b _ _ v HB G EV) as (IN & PL & l & Il & <-).
    apply (size_there w e h b p (P (bj_rate j) sub_key) l IP PL); [|exact Il]. apply W. unfold all_names. apply in_or_app. now right.
  - split; [reflexivity|]. split; [reflexivity|]. split.
    + destruct (size_runs w e h HS b HB) as (l & Il & Hl). exists l. split; [exact Hl|].
      apply (size_there w e h b p (N FFirst) l IP eq_refl); [|exact Il]. apply W. unfold all_names, base_names. rewrite !in_app_iff. left. right. cbn. auto.
    + intros ->. destruct (size_text w e h HS Hh Hn b HB tm HD) as (l & Il & <-).
      apply (size_there w e h b p (N FText) l IP eq_refl); [|exact Il]. apply W. unfold all_names, route_names. rewrite !in_app_iff. left. left. cbn. auto.
Qed.
(** The classes for which the counter of samples is read from a file of the class. *)
Definition own_samples (kd : kind) : bool :=
  match kd with KSrCSA | KSrCSAVM | KSrCSAVA | KSlim | KSrIndex | KSrIndexVM | KSrIndexVA => true | _ => false end.
Theorem C80_csa_partial : forall w e h rt tm d0 bjs d logs zs,
  sound_world w e -> 0 < h -> S (List.length w) < 2 ^ 64 -> t_dens tm = 2 * h -> (rt = BigBwt -> sound_big w e) ->
  SpecCache.history w e (2 * h) (new_proc d0) -> Forall (may_build csa_builds) bjs ->
  csa_build_program tm (mk_input rt (wd_sort e) (wd_exe e) (wd_data e)) csa_builds d0 bjs = Some (d, logs, zs) ->
  List.length zs = List.length bjs /\
  forall i z j c, nth_error zs i = Some z -> nth_error bjs i = Some j -> nth_error csa_builds (bj_idx j) = Some c ->
    if bc_sampling c
    then sz_n z = Some 0 /\ sz_r z = Some 0 /\ sz_s z = Some (bj_rate j) /\
         (own_samples (bc_class c) = true -> exists v, build tm (bc_class c) (bj_rate j) (wd_data e) (wd_sort e (terminated w)) = Some v /\ sz_sub z = Some (kept_samples v))
    else sz_s z = Some 0 /\ sz_sub z = Some 0 /\
         (exists l, lists_in_order l (run_head (bwt_of (terminated w) (wd_sort e (terminated w)))) /\ sz_r z = Some (List.length l)) /\
         (rt = Sdsl -> sz_n z = Some (S (List.length w))).
Proof.
  intros w e h rt tm d0 bjs d logs zs HS Hh Hn HD HR H F E.
  assert (NR : Forall (fun c => bc_class c <> KCSARaw) csa_builds) by (repeat (apply Forall_cons; [discriminate|]); apply Forall_nil).
  pose (good kd := match kd with KSrCSA | KSrCSAVM | KSrCSAVA | KSlim => true | _ => false end).
  destruct (counters_ok csa_log FFirstIdx csa_builds good w e h rt tm d0 bjs d logs zs NR HS Hh Hn HD HR H F E) as [L Z].
  { intros b kd s v HB G EV. split; [destruct kd; try discriminate G; cbn [class_names]; unfold common_names; rewrite !in_app_iff; cbn; auto 10|]. split; [reflexivity|].
    apply (sub_csa w e h HS Hh Hn b HB tm HD kd s v); [destruct kd; try discriminate G; cbn; auto|exact EV]. }
  split; [exact L|]. intros i z j c Ez Ej Ec. specialize (Z i z j c Ez Ej Ec). destruct (bc_sampling c); [|exact Z].
  destruct Z as (Z1 & Z2 & Z3 & Z4). repeat (split; [assumption|]). intros G. apply Z4.
  apply nth_error_In in Ec. cbn in Ec. repeat (destruct Ec as [<-|Ec]; [exact G|]). contradiction.
Qed.
Print Assumptions C80_csa_partial.
Theorem C80_sri_partial : forall w e h rt tm d0 bjs d logs zs,
  sound_world w e -> 0 < h -> S (List.length w) < 2 ^ 64 -> t_dens tm = 2 * h -> (rt = BigBwt -> sound_big w e) ->
  SpecCache.history w e (2 * h) (new_proc d0) -> Forall (may_build sri_builds) bjs ->
  sri_build_program tm (mk_input rt (wd_sort e) (wd_exe e) (wd_data e)) sri_builds d0 bjs = Some (d, logs, zs) ->
  List.length zs = List.length bjs /\
  forall i z j c, nth_error zs i = Some z -> nth_error bjs i = Some j -> nth_error sri_builds (bj_idx j) = Some c ->
    if bc_sampling c
    then sz_n z = Some 0 /\ sz_r z = Some 0 /\ sz_s z = Some (bj_rate j) /\
         exists v, build tm (bc_class c) (bj_rate j) (wd_data e) (wd_sort e (terminated w)) = Some v /\ sz_sub z = Some (kept_samples v)
    else sz_s z = Some 0 /\ sz_sub z = Some 0 /\
         (exists l, lists_in_order l (run_head (bwt_of (terminated w) (wd_sort e (terminated w)))) /\ sz_r z = Some (List.length l)) /\
         (rt = Sdsl -> sz_n z = Some (S (List.length w))).
Proof.
  intros w e h rt tm d0 bjs d logs zs HS Hh Hn HD HR H F E.
  assert (NR : Forall (fun c => bc_class c <> KCSARaw) sri_builds) by (repeat (apply Forall_cons; [discriminate|]); apply Forall_nil).
  pose (good kd := match kd with KSrIndex | KSrIndexVM | KSrIndexVA => true | _ => false end).
  destruct (counters_ok sri_log FLastIdx sri_builds good w e h rt tm d0 bjs d logs zs NR HS Hh Hn HD HR H F E) as [L Z].
  { intros b kd s v HB G EV. split; [destruct kd; try discriminate G; cbn [class_names]; unfold sri_names; rewrite !in_app_iff; cbn; auto 10|]. split; [reflexivity|].
    apply (sub_sri w e h b HB tm kd s v); [destruct kd; try discriminate G; cbn; auto|exact EV]. }
  split; [exact L|]. intros i z j c Ez Ej Ec. specialize (Z i z j c Ez Ej Ec). destruct (bc_sampling c) eqn:B; [|exact Z].
  destruct Z as (Z1 & Z2 & Z3 & Z4). repeat (split; [assumption|]). apply Z4.
  apply nth_error_In in Ec. cbn in Ec. repeat (destruct Ec as [<-|Ec]; [first [reflexivity|discriminate B]|]). contradiction.
Qed.
Print Assumptions C80_sri_partial.
Example C80_met : map (fun z => (sz_n z, sz_r z, sz_s z, sz_sub z)) (bd_sizes (bd_csa Sdsl)) =
  [(Some 12, Some 8, Some 0, Some 0); (Some 12, Some 8, Some 0, Some 0); (Some 0, Some 0, Some 2, Some 6); (Some 0, Some 0, Some 2, Some 6);
   (Some 0, Some 0, Some 2, Some 6); (Some 0, Some 0, Some 2, Some 6); (Some 0, Some 0, Some 2, Some 6); (Some 0, Some 0, Some 2, Some 6);
   (Some 0, Some 0, Some 2, Some 6); (Some 0, Some 0, Some 3, Some 5); (Some 0, Some 0, Some 3, Some 5)] /\
  map (fun z => (sz_n z, sz_r z, sz_s z, sz_sub z)) (bd_sizes (sri_build_program ex_sd4 (bd_input Sdsl) sri_builds [] bd_sri_jobs)) =
  [(Some 12, Some 8, Some 0, Some 0); (Some 0, Some 0, Some 2, Some 6); (Some 0, Some 0, Some 3, Some 5); (Some 0, Some 0, Some 2, Some 6)].
Proof. vm_compute. auto. Qed.
(** With the algorithm BIG_BWT there is no file of the text to take the length from. *)
Theorem C80_length_big_refuted : ~ (forall w e h tm bjs d logs zs,
  sound_world w e -> 0 < h -> S (List.length w) < 2 ^ 64 -> t_dens tm = 2 * h -> sound_big w e -> Forall (may_build csa_builds) bjs ->
  csa_build_program tm (mk_input BigBwt (wd_sort e) (wd_exe e) (wd_data e)) csa_builds [] bjs = Some (d, logs, zs) ->
  forall i z j c, nth_error zs i = Some z -> nth_error bjs i = Some j -> nth_error csa_builds (bj_idx j) = Some c -> bc_sampling c = false ->
    sz_n z = Some (S (List.length w))).
Proof.
  intros H. pose (js := [mk_build_job 0 0 1]).
  destruct (csa_build_program ex_sd4 (bd_input BigBwt) csa_builds [] js) as [[[d logs] zs]|] eqn:E; [|vm_compute in E; discriminate E].
  assert (Z : zs = [mk_sizes None (Some 8) (Some 0) (Some 0)]).
  { transitivity (bd_sizes (csa_build_program ex_sd4 (bd_input BigBwt) csa_builds [] js)); [rewrite E; reflexivity|vm_compute; reflexivity]. }
  specialize (H exf_w exf_world 2 ex_sd4 js d logs zs exf_sound ltac:(repeat constructor) exf_small eq_refl exf_big ltac:(apply (some_build _ 9); reflexivity) E
    0 (mk_sizes None (Some 8) (Some 0) (Some 0)) (mk_build_job 0 0 1) (mk_build_config "R-CSA-BWT-Runs" KRCSA false)).
  rewrite Z in H. specialize (H eq_refl eq_refl eq_refl eq_refl). discriminate H.
Qed.
Print Assumptions C80_length_big_refuted.
(** This is so for every data file and any calls: over an empty directory the length is never reported. *)
Lemma rounds_keep (Q : proc -> Prop) k i tm kd s : (forall p p', build_cache i tm kd s p = Some p' -> Q p -> Q p') ->
  forall st st', rounds k i tm kd s st = Some st' -> Q (snd st) -> Q (snd st').
Proof.
  intros R. induction k as [|k IH]; intros st st' E C; cbn [rounds] in E; [now injection E as <-|].
  apply StoreProof.bind_Some in E as (s1 & E1 & E2). apply (IH _ _ E2). unfold construct_into in E1.
  apply StoreProof.bind_Some in E1 as (p & E1 & E3). apply StoreProof.bind_Some in E3 as (o & _ & E3). injection E3 as <-. cbn [snd].
  exact (R _ _ E1 C).
Qed.
Lemma builds_clean log_name sub_key tm i configs : in_route i = BigBwt -> forall js d k logs d' logs' zs,
  do_builds log_name sub_key tm i configs d k logs js = Some (d', logs', zs) -> clean_disk d ->
  forall m z j c, nth_error zs m = Some z -> nth_error js m = Some j -> nth_error configs (bj_idx j) = Some c -> bc_sampling c = false -> sz_n z = None.
Proof.
  intros R. induction js as [|j0 js IH]; intros d k logs d' logs' zs E C m z j c Ez Ej Ec B; cbn [do_builds] in E.
  - destruct m; discriminate Ej.
  - apply StoreProof.bind_Some in E as ([[d1 log] z1] & E1 & E). apply StoreProof.bind_Some in E as ([[d2 logs2] zs2] & E2 & E). injection E as <- <- <-.
    unfold do_build in E1. apply StoreProof.bind_Some in E1 as (c0 & E0 & E1). apply StoreProof.bind_Some in E1 as ([o p] & ER & E1). injection E1 as <- <- <-.
    assert (CP : clean p) by exact (rounds_keep clean _ _ _ _ _ (big_clean i tm (bc_class c0) _ R) _ _ ER C).
    destruct m as [|m]; cbn [nth_error] in Ez, Ej; [|exact (IH _ _ _ _ _ _ E2 CP m z j c Ez Ej Ec B)].
    injection Ez as <-. injection Ej as <-. rewrite E0 in Ec. injection Ec as <-. rewrite B. cbn [sz_n]. unfold file_size, look_file.
    destruct (d_find (pr_disk p) (resolve p (N FText))) as [x|] eqn:D; [|reflexivity]. exfalso. apply d_find_In in D.
    apply (proj1 (Forall_forall _ _) CP) in D. cbn [fst] in D. rewrite CacheTwo.resolve_key in D. now destruct D as [_ []].
Qed.
Theorem C80_length_big : forall i tm bjs d logs zs m z j c,
  in_route i = BigBwt -> nth_error zs m = Some z -> nth_error bjs m = Some j -> bc_sampling c = false ->
  (csa_build_program tm i csa_builds [] bjs = Some (d, logs, zs) /\ nth_error csa_builds (bj_idx j) = Some c) \/
  (sri_build_program tm i sri_builds [] bjs = Some (d, logs, zs) /\ nth_error sri_builds (bj_idx j) = Some c) ->
  sz_n z = None.
Proof.
  intros i tm bjs d logs zs m z j c R Ez Ej B [[E Ec]|[E Ec]]; exact (builds_clean _ _ _ _ _ R _ _ _ _ _ _ _ E (Forall_nil _) m z j c Ez Ej Ec B).
Qed.
Print Assumptions C80_length_big.
(** The number of samples of the classes over runs of Psi is read from a file of other classes, which need not be there. *)
Theorem C80_psi_samples_refuted : ~ (forall w e h rt tm bjs d logs zs,
  sound_world w e -> 0 < h -> S (List.length w) < 2 ^ 64 -> t_dens tm = 2 * h -> (rt = BigBwt -> sound_big w e) -> Forall (may_build csa_builds) bjs ->
  csa_build_program tm (mk_input rt (wd_sort e) (wd_exe e) (wd_data e)) csa_builds [] bjs = Some (d, logs, zs) ->
  forall i z j c, nth_error zs i = Some z -> nth_error bjs i = Some j -> nth_error csa_builds (bj_idx j) = Some c -> bc_sampling c = true ->
    exists v, build tm (bc_class c) (bj_rate j) (wd_data e) (wd_sort e (terminated w)) = Some v /\ sz_sub z = Some (kept_samples v)).
Proof.
  intros H. pose (js := [mk_build_job 4 2 1]).
  destruct (csa_build_program ex_sd4 (bd_input Sdsl) csa_builds [] js) as [[[d logs] zs]|] eqn:E; [|vm_compute in E; discriminate E].
  assert (Z : zs = [mk_sizes (Some 0) (Some 0) (Some 2) None]).
  { transitivity (bd_sizes (csa_build_program ex_sd4 (bd_input Sdsl) csa_builds [] js)); [rewrite E; reflexivity|vm_compute; reflexivity]. }
  specialize (H exf_w exf_world 2 Sdsl ex_sd4 js d logs zs exf_sound ltac:(repeat constructor) exf_small eq_refl ltac:(discriminate) ltac:(apply (some_build _ 9); reflexivity) E
    0 (mk_sizes (Some 0) (Some 0) (Some 2) None) (mk_build_job 4 2 1) (mk_build_config "SR-CSA-Psi-Runs" KSrPsi true)).
  rewrite Z in H. destruct (H eq_refl eq_refl eq_refl eq_refl) as (v & _ & Q). discriminate Q.
Qed.
Print Assumptions C80_psi_samples_refuted.
(** This is so for every data file and both algorithms: if no call builds one of these other classes, the number is never
    reported. *)
Lemma builds_bare log_name tm i configs : forall js d k logs d' logs' zs,
  (forall j c, In j js -> nth_error configs (bj_idx j) = Some c -> no_run_indices (bc_class c) = true) ->
  do_builds log_name FFirstIdx tm i configs d k logs js = Some (d', logs', zs) -> bare_disk d ->
  forall m z j c, nth_error zs m = Some z -> nth_error js m = Some j -> nth_error configs (bj_idx j) = Some c -> bc_sampling c = true -> sz_sub z = None.
Proof.
  induction js as [|j0 js IH]; intros d k logs d' logs' zs R E C m z j c Ez Ej Ec B; cbn [do_builds] in E.
  - destruct m; discriminate Ej.
  - apply StoreProof.bind_Some in E as ([[d1 log] z1] & E1 & E). apply StoreProof.bind_Some in E as ([[d2 logs2] zs2] & E2 & E). injection E as <- <- <-.
    unfold do_build in E1. apply StoreProof.bind_Some in E1 as (c0 & E0 & E1). apply StoreProof.bind_Some in E1 as ([o p] & ER & E1). injection E1 as <- <- <-.
    assert (CP : bare p) by exact (rounds_keep bare _ _ _ _ _ (psi_bare i tm (bc_class c0) _ (R j0 c0 (or_introl eq_refl) E0)) _ _ ER C).
    destruct m as [|m]; cbn [nth_error] in Ez, Ej; [|exact (IH _ _ _ _ _ _ (fun j c I => R j c (or_intror I)) E2 CP m z j c Ez Ej Ec B)].
    injection Ez as <-. injection Ej as <-. rewrite E0 in Ec. injection Ec as <-. rewrite B. cbn [sz_sub]. unfold file_size. now rewrite bare_find.
Qed.
Theorem C80_psi_samples : forall i tm bjs d logs zs,
  (forall j c, In j bjs -> nth_error csa_builds (bj_idx j) = Some c -> own_samples (bc_class c) = false) ->
  csa_build_program tm i csa_builds [] bjs = Some (d, logs, zs) ->
  forall m z j c, nth_error zs m = Some z -> nth_error bjs m = Some j -> nth_error csa_builds (bj_idx j) = Some c -> bc_sampling c = true ->
    sz_sub z = None.
Proof.
  intros i tm bjs d logs zs H E. refine (builds_bare _ _ _ _ _ _ _ _ _ _ _ _ E (Forall_nil _)). intros j c I Ec. specialize (H j c I Ec).
  apply nth_error_In in Ec. cbn in Ec. repeat (destruct Ec as [<-|Ec]; [first [reflexivity|discriminate H]|]). contradiction.
Qed.
Print Assumptions C80_psi_samples.
(** Two rates of the classes over runs of Psi and RCSA, two rounds each. *)
Example C80_psi_met : exists d logs zs, csa_build_program ex_sd4 (bd_input Sdsl) csa_builds [] [mk_build_job 0 0 2; mk_build_job 4 2 2; mk_build_job 6 3 1] = Some (d, logs, zs) /\
  map sz_sub zs = [Some 0; None; None].
Proof.
  assert (X : bd_sizes (csa_build_program ex_sd4 (bd_input Sdsl) csa_builds [] [mk_build_job 0 0 2; mk_build_job 4 2 2; mk_build_job 6 3 1]) =
    [mk_sizes (Some 12) (Some 8) (Some 0) (Some 0); mk_sizes (Some 0) (Some 0) (Some 2) None; mk_sizes (Some 0) (Some 0) (Some 3) None]) by (vm_compute; reflexivity).
  destruct (csa_build_program _ _ _ _ _) as [[[d logs] zs]|]; [|discriminate X]. exists d, logs, zs. split; [reflexivity|]. cbn in X. rewrite X. reflexivity.
Qed.

(** * C81: the memory logs *)
Definition log_stem (c : build_config) : string := after_slash (bc_name c).
Lemma csa_logs_distinct i j c c' r r' : nth_error csa_builds i = Some c -> nth_error csa_builds j = Some c' -> csa_log c r = csa_log c' r' ->
  i = j /\ (bc_sampling c = true -> r = r').
Proof.
  intros Hi Hj H.
  assert (N : NoDup (map log_stem csa_builds)).
  { vm_compute. repeat (apply NoDup_cons; [cbn; intuition discriminate|]). apply NoDup_nil. }
  assert (Q : log_stem c = log_stem c' -> i = j).
  { intros Es. rewrite NoDup_nth_error in N. apply N; [rewrite map_length; apply nth_error_Some; congruence|]. rewrite !nth_error_map, Hi, Hj. cbn. f_equal. exact Es. }
  assert (D : forall x, In x csa_builds -> bc_sampling x = false -> is_digit (last (list_ascii_of_string (log_stem x)) "-"%char) = false).
  { intros x I. cbn in I. repeat (destruct I as [<-|I]; [first [discriminate|intros _; vm_compute; reflexivity]|]). contradiction. }
  pose proof (D c (nth_error_In _ _ Hi)) as Fc. pose proof (D c' (nth_error_In _ _ Hj)) as Fc'.
  unfold csa_log in H. fold (log_stem c) (log_stem c') in H. apply (f_equal list_ascii_of_string) in H.
  destruct (rate_digits r) as [D1 D2]. destruct (rate_digits r') as [D1' D2'].
  assert (LD : forall x n, last (x ++ ["-"%char] ++ list_ascii_of_string (to_string n)) "-"%char = last (list_ascii_of_string (to_string n)) "-"%char /\
    is_digit (last (list_ascii_of_string (to_string n)) "-"%char) = true).
  { intros x n. destruct (rate_digits n) as [G1 G2]. destruct (exists_last G2) as (y & z & Ez). rewrite Ez in *. split.
    - cbn [app]. rewrite app_comm_cons, app_assoc, !last_last. reflexivity.
    - rewrite last_last. apply Forall_app in G1 as [_ G1]. inversion G1; assumption. }
  destruct (bc_sampling c), (bc_sampling c'); rewrite !chars_app in H; apply app_inv_head in H; cbn [list_ascii_of_string] in H.
  - destruct (dash_split _ _ _ _ D1 D1' H) as [H1 H2]. split; [apply Q, chars_inj, H1|]. intros _. apply rate_inj, chars_inj, H2.
  - exfalso. specialize (Fc' eq_refl). rewrite <- H in Fc'. destruct (LD (list_ascii_of_string (log_stem c)) r) as [L1 L2]. congruence.
  - exfalso. specialize (Fc eq_refl). rewrite H in Fc. destruct (LD (list_ascii_of_string (log_stem c')) r') as [L1 L2]. congruence.
  - split; [apply Q, chars_inj, H|discriminate].
Qed.
Lemma log_find_first (l : list (string * nat)) k n : forall m x, map snd l = rev (seq m n) -> In (k, x) l ->
  exists y, log_find l k = Some y /\ In (k, y) l /\ x <= y.
Proof.
  intros m x. revert n. induction l as [|[a b] l IH]; intros n E I; [contradiction|].
  destruct n as [|n]; [discriminate|]. rewrite seq_S, rev_app_distr in E. cbn [rev app map snd] in E. injection E as E1 E2.
  cbn [log_find]. destruct (String.eqb_spec a k) as [->|NE].
  - exists b. split; [reflexivity|]. split; [now left|]. destruct I as [Q|I]; [injection Q as ->; lia|].
    apply (in_map snd) in I. rewrite E2 in I. cbn in I. apply in_rev, in_seq in I. lia.
  - destruct I as [Q|I]; [injection Q as -> ->; contradiction|]. destruct (IH n E2 I) as (y & F & J & LE). exists y. split; [exact F|]. split; [now right|exact LE].
Qed.
(** Every function and rate has log files of its own: they hold what the last call of this function with this rate wrote. *)
Theorem C81_csa : forall w e h rt tm d0 bjs d logs zs,
  sound_world w e -> 0 < h -> S (List.length w) < 2 ^ 64 -> t_dens tm = 2 * h -> (rt = BigBwt -> sound_big w e) ->
  SpecCache.history w e (2 * h) (new_proc d0) -> Forall (may_build csa_builds) bjs ->
  csa_build_program tm (mk_input rt (wd_sort e) (wd_exe e) (wd_data e)) csa_builds d0 bjs = Some (d, logs, zs) ->
  forall i j c, nth_error bjs i = Some j -> nth_error csa_builds (bj_idx j) = Some c ->
    exists i' j', log_find logs (csa_log c (build_rate c j)) = Some i' /\ nth_error bjs i' = Some j' /\
      bj_idx j' = bj_idx j /\ build_rate c j' = build_rate c j /\ i <= i'.
Proof.
  intros w e h rt tm d0 bjs d logs zs HS Hh Hn HD HR H F EP i j c Ej Ec. destruct (world_base w e h HS Hh Hn) as [b HB].
  pose proof (history_inv w e h HS Hh Hn b HB _ H) as IV.
  assert (NR : Forall (fun c => bc_class c <> KCSARaw) csa_builds) by (repeat (apply Forall_cons; [discriminate|]); apply Forall_nil).
  destruct (do_builds_ok w e h HS Hh Hn b HB rt tm HD HR csa_log FFirstIdx csa_builds NR bjs d0 0 [] IV F) as (d' & logs' & zs' & E & _ & _ & _ & _ & _ & (new & EN & ES & EI) & _).
  unfold csa_build_program, build_program in EP. rewrite E in EP. injection EP as -> -> ->. rewrite app_nil_r in EN. subst new.
  assert (I : In i (map snd logs)).
  { rewrite ES. apply -> in_rev. apply in_seq. assert (i < List.length bjs) by (apply nth_error_Some; congruence). lia. }
  apply in_map_iff in I as ([x k] & Q & I). cbn in Q. subst k.
  destruct (EI x i I) as (j1 & c1 & E1 & _ & C1 & ->). rewrite Nat.sub_0_r, Ej in E1. injection E1 as <-. rewrite Ec in C1. injection C1 as <-.
  destruct (log_find_first logs _ (List.length bjs) 0 i ES I) as (y & FY & IY & LE).
  destruct (EI _ y IY) as (j2 & c2 & E2 & _ & C2 & EL). rewrite Nat.sub_0_r in E2. exists y, j2.
  destruct (csa_logs_distinct _ _ _ _ _ _ Ec C2 EL) as [EX ER]. split; [exact FY|]. split; [exact E2|]. split; [now symmetry|]. split; [|exact LE].
  rewrite <- EX, Ec in C2. injection C2 as <-. unfold build_rate in *. destruct (bc_sampling c); [symmetry; now apply ER|reflexivity].
Qed.
Print Assumptions C81_csa.
Definition bd_logs (r : option (disk * list (string * nat) * list sizes)) : list (string * nat) := match r with Some (_, l, _) => l | None => [] end.
Example C81_met : log_find (bd_logs (bd_csa Sdsl)) "construction-SR-CSA-Psi-Runs-VA-2" = Some 8 /\
  log_find (bd_logs (csa_build_program ex_sd4 (bd_input Sdsl) csa_builds [] [mk_build_job 2 2 1; mk_build_job 3 2 1; mk_build_job 2 2 4])) "construction-SR-CSA-2" = Some 2.
Proof. vm_compute. auto. Qed.
(** In the program for the r-index the three classes that subsample share their log files. *)
Theorem C81_sri_refuted : ~ (forall w e h rt tm bjs d logs zs,
  sound_world w e -> 0 < h -> S (List.length w) < 2 ^ 64 -> t_dens tm = 2 * h -> (rt = BigBwt -> sound_big w e) -> Forall (may_build sri_builds) bjs ->
  sri_build_program tm (mk_input rt (wd_sort e) (wd_exe e) (wd_data e)) sri_builds [] bjs = Some (d, logs, zs) ->
  forall i j c, nth_error bjs i = Some j -> nth_error sri_builds (bj_idx j) = Some c ->
    exists f i' j', log_find logs f = Some i' /\ nth_error bjs i' = Some j' /\ bj_idx j' = bj_idx j).
Proof.
  intros H. pose (js := [mk_build_job 1 2 1; mk_build_job 2 2 1]).
  destruct (sri_build_program ex_sd4 (bd_input Sdsl) sri_builds [] js) as [[[d logs] zs]|] eqn:E; [|vm_compute in E; discriminate E].
  assert (L : logs = [("construction-sr-index-2"%string, 1); ("construction-sr-index-2"%string, 0)]).
  { transitivity (bd_logs (sri_build_program ex_sd4 (bd_input Sdsl) sri_builds [] js)); [rewrite E; reflexivity|vm_compute; reflexivity]. }
  destruct (H exf_w exf_world 2 Sdsl ex_sd4 js d logs zs exf_sound ltac:(repeat constructor) exf_small eq_refl ltac:(discriminate) ltac:(apply (some_build _ 4); reflexivity) E
    0 (mk_build_job 1 2 1) (mk_build_config "SR-Index" KSrIndex true) eq_refl eq_refl) as (f & i' & j' & FF & EJ & EX).
  rewrite L in FF. cbn [log_find] in FF. destruct (String.eqb "construction-sr-index-2" f); [|discriminate]. injection FF as <-.
  cbn in EJ. injection EJ as <-. discriminate EX.
Qed.
Print Assumptions C81_sri_refuted.
(** This is so for every text: the log of a call is lost with the next call of a class that subsamples with the same rate,
    whatever the two classes are, and that of the last call is there. *)
Lemma log_find_In l f : forall i, log_find l f = Some i -> In (f, i) l.
Proof.
  induction l as [|[a b] l IH]; intros i E; cbn [log_find] in E; [discriminate|].
  destruct (String.eqb_spec a f) as [->|]; [injection E as <-; now left|right; auto].
Qed.
Theorem C81_sri_lost : forall w e h rt tm d0 bjs d logs zs,
  sound_world w e -> 0 < h -> S (List.length w) < 2 ^ 64 -> t_dens tm = 2 * h -> (rt = BigBwt -> sound_big w e) ->
  SpecCache.history w e (2 * h) (new_proc d0) -> Forall (may_build sri_builds) bjs ->
  sri_build_program tm (mk_input rt (wd_sort e) (wd_exe e) (wd_data e)) sri_builds d0 bjs = Some (d, logs, zs) ->
  (forall i i' j j' c c', i < i' -> nth_error bjs i = Some j -> nth_error bjs i' = Some j' ->
     nth_error sri_builds (bj_idx j) = Some c -> nth_error sri_builds (bj_idx j') = Some c' ->
     bc_sampling c = true -> bc_sampling c' = true -> bj_rate j = bj_rate j' ->
     forall f, log_find logs f <> Some i) /\
  (forall j c, nth_error bjs (List.length bjs - 1) = Some j -> nth_error sri_builds (bj_idx j) = Some c ->
     log_find logs (sri_log c (build_rate c j)) = Some (List.length bjs - 1)).
Proof.
  intros w e h rt tm d0 bjs d logs zs HS Hh Hn HD HR H F EP. destruct (world_base w e h HS Hh Hn) as [b HB].
  pose proof (history_inv w e h HS Hh Hn b HB _ H) as IV.
  assert (NR : Forall (fun c => bc_class c <> KCSARaw) sri_builds) by (repeat (apply Forall_cons; [discriminate|]); apply Forall_nil).
  destruct (do_builds_ok w e h HS Hh Hn b HB rt tm HD HR sri_log FLastIdx sri_builds NR bjs d0 0 [] IV F) as (d' & logs' & zs' & E & _ & _ & _ & _ & _ & (new & EN & ES & EI) & _).
  unfold sri_build_program, build_program in EP. rewrite E in EP. injection EP as -> -> ->. rewrite app_nil_r in EN. subst new.
  assert (THERE : forall i j c, nth_error bjs i = Some j -> nth_error sri_builds (bj_idx j) = Some c -> In (sri_log c (build_rate c j), i) logs).
  { intros i j c Ej Ec. assert (I : In i (map snd logs)).
    { rewrite ES. apply -> in_rev. apply in_seq. assert (X : i < List.length bjs) by (apply nth_error_Some; rewrite Ej; discriminate). clear - X. lia. }
    apply in_map_iff in I as ([x k] & Q & I). cbn in Q. subst k.
    destruct (EI x i I) as (j1 & c1 & E1 & _ & C1 & ->). rewrite Nat.sub_0_r, Ej in E1. injection E1 as <-. rewrite Ec in C1. injection C1 as <-. exact I. }
  split.
  - intros i i' j j' c c' L Ej Ej' Ec Ec' B B' R f X. pose proof (log_find_In _ _ _ X) as I.
    destruct (EI f i I) as (j1 & c1 & E1 & _ & C1 & ->). rewrite Nat.sub_0_r, Ej in E1. injection E1 as <-. rewrite Ec in C1. injection C1 as <-.
    assert (N : sri_log c (build_rate c j) = sri_log c' (build_rate c' j')) by (unfold sri_log, build_rate; rewrite B, B', R; reflexivity).
    destruct (log_find_first logs (sri_log c (build_rate c j)) (List.length bjs) 0 i' ES) as (y & FY & _ & LE); [rewrite N; exact (THERE _ _ _ Ej' Ec')|].
    rewrite FY in X. injection X as ->. clear - L LE. lia.
  - intros j c Ej Ec. destruct (log_find_first logs (sri_log c (build_rate c j)) (List.length bjs) 0 _ ES (THERE _ _ _ Ej Ec)) as (y & FY & IY & LE).
    rewrite FY. f_equal. assert (I : In y (map snd logs)) by exact (in_map snd logs _ IY).
    rewrite ES in I. apply in_rev, in_seq in I. clear - I LE. lia.
Qed.
Print Assumptions C81_sri_lost.
