(** C74 to C78: the query programs of the benchmarks. *)
From Coq Require Import List Arith Bool String Lia Sorted Permutation.
From Verif Require Import Spec MBase MRle MConstruct MPhi MRIndex MStore SpecStore StoreRound StoreEnd PropertiesSrCsa PropertiesStore
  MFactory SpecFactory PropertiesFactory MBench SpecBench Base64Proof BenchProof.
Import ListNotations.

(** * C74: base 64 *)
(** With an unsigned int of 32 bits, fewer than 2^32 bytes are encoded as RFC 4648 says, and there is only one such text. *)
Theorem C74_encode : forall bs, Forall is_byte bs -> List.length bs < 2 ^ 32 ->
  (exists s, base64_encode (2 ^ 32) false bs = Some s /\ forall s', base64_text standard_alphabet 61 bs s' <-> s' = s) /\
  (exists s, base64_encode (2 ^ 32) true bs = Some s /\ forall s', base64_text url_alphabet 46 bs s' <-> s' = s).
Proof.
  intros bs F L. change (2 ^ 32) with (2 ^ (2 * 16)) in *.
  split; [exists (text false bs)|exists (text true bs)]; (split; [apply encode_ok; assumption|]); intros s'; split.
  - apply (text_unique false bs s' F).
  - intros ->. apply (text_base64 false bs F).
  - apply (text_unique true bs s' F).
  - intros ->. apply (text_base64 true bs F).
Qed.
Print Assumptions C74_encode.
(** From 2^32 bytes on the position wraps around and the loop does not end, however many rounds it is given. *)
Theorem C74_encode_never_ends : forall url bs, Forall is_byte bs -> 2 ^ 32 <= List.length bs -> forall rounds, encode_loop (2 ^ 32) rounds url bs 0 [] = None.
Proof.
  intros url bs F L rounds. assert (0 < 2 ^ 32) as P by (apply Nat.neq_0_lt_0, Nat.pow_nonzero; discriminate). revert P L. generalize (2 ^ 32). intros u P L.
  apply encode_loops; assumption.
Qed.
Print Assumptions C74_encode_never_ends.
(** A text of the standard or the URL alphabet, padded or not, is decoded to the bytes it stands for. *)
Theorem C74_decode : forall bs s, Forall is_byte bs -> lenient_text bs s -> base64_decode s false = Some bs.
Proof. exact decode_ok. Qed.
Print Assumptions C74_decode.
Theorem C74_round_trip : forall url bs s, Forall is_byte bs -> List.length bs < 2 ^ 32 -> base64_encode (2 ^ 32) url bs = Some s ->
  base64_decode s false = Some bs.
Proof.
  intros url bs s F L H. apply decode_ok; [exact F|]. change (2 ^ 32) with (2 ^ (2 * 16)) in *. rewrite (encode_ok 16 url bs F L) in H. injection H as <-.
  apply (base64_lenient url), text_base64, F.
Qed.
Print Assumptions C74_round_trip.
(** On texts without padding characters the decoder accepts nothing else. *)
Theorem C74_decode_only : forall s, Forall (fun c => c <> 61 /\ c <> 46) s ->
  forall bs, base64_decode s false = Some bs <-> Forall is_byte bs /\ lenient_text bs s.
Proof. intros s F bs. split; [apply decode_sound, F|]. intros [B T]. apply decode_ok; assumption. Qed.
Print Assumptions C74_decode_only.
(** The variants for PEM and MIME put line feeds after every [d] characters, and the decoder removes them if it is told to. *)
Theorem C74_line_breaks : forall d bs s, 0 < d -> Forall is_byte bs -> List.length bs < 2 ^ 32 -> base64_encode (2 ^ 32) false bs = Some s ->
  exists t ls, encode_with_line_breaks (2 ^ 32) d bs = Some t /\ lines_of t ls /\ List.concat ls = s /\
    Forall (fun l => List.length l <= d) ls /\ Forall (fun l => List.length l = d) (removelast ls) /\ base64_decode t true = Some bs.
Proof.
  intros d bs s D F L H. pose proof (C74_round_trip false bs s F L H) as R. unfold encode_with_line_breaks. rewrite H. cbn [bind].
  assert (~ In 10 s) as N. { change (2 ^ 32) with (2 ^ (2 * 16)) in *. rewrite (encode_ok 16 false bs F L) in H. injection H as <-. apply text_no_nl, F. }
  destruct (insert_ok d s D N) as (t & ls & E & T & C & B1 & B2). exists t, ls. repeat (split; [assumption|]).
  unfold base64_decode in R |- *. rewrite (filter_lines t ls T), C. exact R.
Qed.
Print Assumptions C74_line_breaks.
Example C74_met : List.length (codes "abracadabra!") < 2 ^ 32 /\ base64_encode (2 ^ 6) false (codes "abracadabra") = Some (codes "YWJyYWNhZGFicmE=") /\
  base64_encode (2 ^ 6) true (codes "abracadabra") = Some (codes "YWJyYWNhZGFicmE.") /\ base64_decode (codes "YWJyYWNhZGFicmE") false = Some (codes "abracadabra") /\
  encode_with_line_breaks (2 ^ 6) 6 (codes "abracadabra") = Some (codes "YWJyYW" ++ [10] ++ codes "NhZGFi" ++ [10] ++ codes "cmE=") /\
  encode_loop 4 100 false (codes "abracadabra") 0 [] = None.
Proof.
  split; [|vm_compute; auto]. apply Nat.lt_le_trans with (2 ^ 6); [apply Nat.ltb_lt; reflexivity|]. apply Nat.pow_le_mono_r; lia.
Qed.
(** What follows a first padding character is not looked at: this text stands for nothing, and is accepted. *)
Theorem C74_padding_unchecked : base64_decode (codes "QQ=x") false = Some (codes "A") /\ forall bs, ~ lenient_text bs (codes "QQ=x").
Proof.
  split; [vm_compute; reflexivity|]. intros bs (ds & cs & z & pads & _ & _ & S2 & E & FP & _).
  assert (In 120 pads \/ In 61 cs) as [I|I].
  { destruct pads as [|q pads _] using rev_ind; [right; rewrite app_nil_r in E; rewrite <- E; vm_compute; auto|]. left.
    assert (codes "QQ=x" = codes "QQ=" ++ [120]) as Q by reflexivity. rewrite Q, app_assoc in E. apply app_inj_tail in E as [_ <-]. apply in_or_app. right. left. reflexivity. }
  - rewrite Forall_forall in FP. destruct (FP _ I); discriminate.
  - clear E. induction S2 as [|d c ds cs H _ IH]; [contradiction|]. destruct I as [->|I]; [|auto].
    assert (~ In 61 standard_alphabet /\ ~ In 61 url_alphabet) as [N1 N2].
    { assert (forall l, existsb (Nat.eqb 61) l = false -> ~ In 61 l) as Q.
      { intros l H' J. assert (existsb (Nat.eqb 61) l = true) as T by (apply existsb_exists; exists 61; split; [exact J|reflexivity]). congruence. }
      split; apply Q; vm_compute; reflexivity. }
    destruct H as [H|H]; apply nth_error_In in H; auto.
Qed.
Print Assumptions C74_padding_unchecked.

(** * C75: the file of patterns *)
(** Every file has lines, and only one list of them. *)
Theorem C75_lines : forall file, exists ls, lines_of file ls /\ forall ls', lines_of file ls' -> ls' = ls.
Proof. intros file. destruct (lines_exist file) as (ls & H). exists ls. split; [exact H|]. intros ls' H'. exact (lines_unique _ _ _ H' H). Qed.
Print Assumptions C75_lines.
(** The patterns are the lines that are not empty, in the order of the file; in base 64, the bytes they stand for. *)
Theorem C75_plain : forall file ls, lines_of file ls ->
  read_patterns "PLAIN" file = Some (map (fun l => mk_pattern l l) (filter (fun l => negb (List.length l =? 0)) ls)).
Proof. intros file ls H. rewrite (read_lines "PLAIN" CPlain _ _ eq_refl H). apply mmap_plain. Qed.
Print Assumptions C75_plain.
Theorem C75_base64 : forall file ls bss, lines_of file ls -> Forall (Forall is_byte) bss ->
  Forall2 lenient_text bss (filter (fun l => negb (List.length l =? 0)) ls) ->
  exists ps, read_patterns "BASE64" file = Some ps /\ map pt_encoded ps = filter (fun l => negb (List.length l =? 0)) ls /\ map pt_decoded ps = bss.
Proof.
  intros file ls bss H F T. rewrite (read_lines "BASE64" CBase64 _ _ eq_refl H). change (filter nonempty ls) with (filter (fun l => negb (List.length l =? 0)) ls).
  revert T. generalize (filter (fun l => negb (List.length l =? 0)) ls) as ne. intros ne T. rewrite (mmap_base64 bss ne F T).
  eexists. split; [reflexivity|]. assert (List.length bss = List.length ne) as L by (clear -T; induction T; cbn; auto). clear H F T. revert ne L. induction bss as [|b bss IH]; intros [|n ne] L; try discriminate L; [auto|].
  destruct (IH ne) as [E1 E2]; [cbn in L; lia|]. cbn. split; f_equal; assumption.
Qed.
Print Assumptions C75_base64.
(** A file written with a line for each pattern is read back. *)
Theorem C75_plain_round_trip : forall qs, Forall (fun q => q <> [] /\ ~ In 10 q) qs ->
  read_patterns "PLAIN" (flat_map (fun q => q ++ [10]) qs) = Some (map (fun q => mk_pattern q q) qs).
Proof.
  intros qs F. rewrite (C75_plain _ (qs ++ [[]])).
  - f_equal. f_equal. apply filter_nonempty_all. eapply Forall_impl; [|exact F]. intros q [H _]. exact H.
  - apply written_lines. eapply Forall_impl; [|exact F]. intros q [_ H]. exact H.
Qed.
Print Assumptions C75_plain_round_trip.
Theorem C75_base64_round_trip : forall bss ss, Forall (fun bs => bs <> [] /\ Forall is_byte bs) bss ->
  Forall2 (base64_text standard_alphabet 61) bss ss ->
  exists ps, read_patterns "BASE64" (flat_map (fun s => s ++ [10]) ss) = Some ps /\ map pt_encoded ps = ss /\ map pt_decoded ps = bss.
Proof.
  intros bss ss F T. assert (Forall (fun s => s <> [] /\ ~ In 10 s) ss) as Fs.
  { revert F. induction T as [|bs s bss ss H _ IH]; intros F; [constructor|]. inversion F as [|? ? [F1 F2] F']; subst. constructor; [|auto].
    rewrite (text_unique false bs s F2 H). split; [apply text_nonempty, F1|apply text_no_nl, F2]. }
  assert (filter (fun l => negb (List.length l =? 0)) (ss ++ [[]]) = ss) as Ef.
  { apply filter_nonempty_all. eapply Forall_impl; [|exact Fs]. intros q [H _]. exact H. }
  destruct (C75_base64 (flat_map (fun s => s ++ [10]) ss) (ss ++ [[]]) bss) as (ps & R & E1 & E2).
  - apply written_lines. eapply Forall_impl; [|exact Fs]. intros q [_ H]. exact H.
  - eapply Forall_impl; [|exact F]. intros q [_ H]. exact H.
  - rewrite Ef. clear Ef Fs. revert F. induction T; intros F; [constructor|]. inversion F; subst. constructor; [apply (base64_lenient false); assumption|auto].
  - exists ps. rewrite Ef in E1. auto.
Qed.
Print Assumptions C75_base64_round_trip.
Example C75_met : read_patterns "BASE64" (codes "YWJy" ++ [10; 10] ++ codes "YQ==") =
    Some [mk_pattern (codes "YWJy") (codes "abr"); mk_pattern (codes "YQ==") (codes "a")] /\
  read_patterns "PLAIN" (codes "abr" ++ [10; 10] ++ codes " a") = Some [mk_pattern (codes "abr") (codes "abr"); mk_pattern (codes " a") (codes " a")] /\
  read_patterns "BASE64" (codes "a b") = None /\ read_patterns "plain" (codes "abr") = None.
Proof. vm_compute. auto. Qed.

(** * C76: what the programs report *)
(** Any calls of the benchmarks of any indexes of the program, with any rates and numbers of rounds, in any order. *)
Theorem C76_locate_csa : forall tm w sa data h dir flag file ps js,
  zero_free w -> is_suffix_array (terminated w) sa -> data = w \/ data = terminated w ->
  0 < h -> t_dens tm = 2 * h -> S (List.length w) < 2 ^ 64 ->
  read_patterns flag file = Some ps -> Forall (fun p => pattern_over w (pt_decoded p)) ps ->
  Forall (may_call csa_class tm data sa dir csa_configs ps) js ->
  exists outs rs, locate_program csa_enum csa_rank csa_kind tm csa_configs flag file dir js = Some (outs, rs) /\
    List.length rs = List.length js /\ (forall i co, nth_error rs i = Some co -> reported w ps js i co) /\
    (forall j c, In j js -> jb_bench j = BPrint -> nth_error csa_configs (jb_idx j) = Some c ->
       exists out, out_find outs (result_name c (jb_rate j)) = Some out /\ report_of w ps out).
Proof.
  intros tm w sa data h dir flag file ps js Hw HSA Hd Hh HD Hn Rp G F.
  apply (locate_program_ok csa_enum csa_rank csa_kind csa_class) with (sa := sa) (data := data) (h := h); try assumption.
  - intros a b. destruct a, b; (reflexivity || discriminate).
  - intros a b. destruct a, b; reflexivity.
  - intros a. destruct a; reflexivity.
Qed.
Print Assumptions C76_locate_csa.
Theorem C76_locate_sri : forall tm w sa data h dir flag file ps js,
  zero_free w -> is_suffix_array (terminated w) sa -> data = w \/ data = terminated w ->
  0 < h -> t_dens tm = 2 * h -> S (List.length w) < 2 ^ 64 ->
  read_patterns flag file = Some ps -> Forall (fun p => pattern_over w (pt_decoded p)) ps ->
  Forall (may_call sri_class tm data sa dir sri_configs ps) js ->
  exists outs rs, locate_program sri_enum sri_rank sri_kind tm sri_configs flag file dir js = Some (outs, rs) /\
    List.length rs = List.length js /\ (forall i co, nth_error rs i = Some co -> reported w ps js i co) /\
    (forall j c, In j js -> jb_bench j = BPrint -> nth_error sri_configs (jb_idx j) = Some c ->
       exists out, out_find outs (result_name c (jb_rate j)) = Some out /\ report_of w ps out).
Proof.
  intros tm w sa data h dir flag file ps js Hw HSA Hd Hh HD Hn Rp G F.
  apply (locate_program_ok sri_enum sri_rank sri_kind sri_class) with (sa := sa) (data := data) (h := h); try assumption.
  - intros a b. destruct a, b; (reflexivity || discriminate).
  - intros a b. destruct a, b; reflexivity.
  - intros a. destruct a; reflexivity.
Qed.
Print Assumptions C76_locate_sri.
(** The argument of a benchmark is the rate of the index that it queries, for every index of a class with sub-sampling. *)
Theorem C76_rate : (forall c rate, In c csa_configs -> cf_rate (fac_config _ c rate) = if subsamples (csa_class (ic_type c)) then rate else 0) /\
                   (forall c rate, In c sri_configs -> cf_rate (fac_config _ c rate) = if subsamples (sri_class (ic_type c)) then rate else 0).
Proof. split; intros c rate I; vm_compute in I; repeat (destruct I as [<-|I]; [reflexivity|]); contradiction. Qed.
Print Assumptions C76_rate.
(** The files of different indexes, and of different rates of an index, have different names. *)
Theorem C76_names_csa : forall i j c c' r r', nth_error csa_configs i = Some c -> nth_error csa_configs j = Some c' ->
  result_name c r = result_name c' r' -> i = j /\ (ic_sampling c = true -> r = r').
Proof.
  apply names_distinct.
  - vm_compute. repeat (constructor; [intros I; repeat (destruct I as [I|I]; [discriminate I|]); exact I|]). constructor.
  - apply Forall_forall. intros c I. vm_compute in I. repeat (destruct I as [<-|I]; [vm_compute; auto|]). contradiction.
Qed.
Print Assumptions C76_names_csa.
Theorem C76_names_sri : forall i j c c' r r', nth_error sri_configs i = Some c -> nth_error sri_configs j = Some c' ->
  result_name c r = result_name c' r' -> i = j /\ (ic_sampling c = true -> r = r').
Proof.
  apply names_distinct.
  - vm_compute. repeat (constructor; [intros I; repeat (destruct I as [I|I]; [discriminate I|]); exact I|]). constructor.
  - apply Forall_forall. intros c I. vm_compute in I. repeat (destruct I as [<-|I]; [vm_compute; auto|]). contradiction.
Qed.
Print Assumptions C76_names_sri.
(** The counting programs. *)
Theorem C76_count_csa : forall tm w sa data h dir flag file ps js,
  zero_free w -> is_suffix_array (terminated w) sa -> data = w \/ data = terminated w ->
  0 < h -> t_dens tm = 2 * h -> S (List.length w) < 2 ^ 64 ->
  read_patterns flag file = Some ps -> Forall (fun p => pattern_over w (pt_decoded p)) ps ->
  Forall (fun t => index_files tm (csa_class t) 0 data sa dir) csa_count_types ->
  Forall (fun '(i, _, iters) => i < List.length csa_count_types /\ 0 < iters) js ->
  exists rs, count_program csa_enum csa_rank csa_kind tm csa_count_types flag file dir js = Some rs /\
    Forall2 (fun '(_, print, _) r => co_patterns (re_counters r) = List.length ps /\ all_occurrences w (map pt_decoded ps) (co_occurrences (re_counters r)) /\
      match re_file r with
      | None => print = false
      | Some out => print = true /\ exists table rows, out = (codes "pattern,count,range_start,range_end" ++ [10]) ++ table /\
          Forall2 (fun p '(s, e) => row_interval p w sa s e) (map pt_decoded ps) rows /\ count_table (map pt_encoded ps) rows table
      end) js rs.
Proof.
  intros tm w sa data h dir flag file ps js Hw HSA Hd Hh HD Hn Rp G F J.
  apply (count_program_ok csa_enum csa_rank csa_kind csa_class) with (sa := sa) (data := data) (h := h); try assumption.
  - intros a b. destruct a, b; (reflexivity || discriminate).
  - intros a b. destruct a, b; reflexivity.
  - intros a. destruct a; reflexivity.
Qed.
Print Assumptions C76_count_csa.
Theorem C76_count_sri : forall tm w sa data h dir flag file ps js,
  zero_free w -> is_suffix_array (terminated w) sa -> data = w \/ data = terminated w ->
  0 < h -> t_dens tm = 2 * h -> S (List.length w) < 2 ^ 64 ->
  read_patterns flag file = Some ps -> Forall (fun p => pattern_over w (pt_decoded p)) ps ->
  Forall (fun t => index_files tm (sri_class t) 0 data sa dir) sri_count_types ->
  Forall (fun '(i, _, iters) => i < List.length sri_count_types /\ 0 < iters) js ->
  exists rs, count_program sri_enum sri_rank sri_kind tm sri_count_types flag file dir js = Some rs /\
    Forall2 (fun '(_, print, _) r => co_patterns (re_counters r) = List.length ps /\ all_occurrences w (map pt_decoded ps) (co_occurrences (re_counters r)) /\
      match re_file r with
      | None => print = false
      | Some out => print = true /\ exists table rows, out = (codes "pattern,count,range_start,range_end" ++ [10]) ++ table /\
          Forall2 (fun p '(s, e) => row_interval p w sa s e) (map pt_decoded ps) rows /\ count_table (map pt_encoded ps) rows table
      end) js rs.
Proof.
  intros tm w sa data h dir flag file ps js Hw HSA Hd Hh HD Hn Rp G F J.
  apply (count_program_ok sri_enum sri_rank sri_kind sri_class) with (sa := sa) (data := data) (h := h); try assumption.
  - intros a b. destruct a, b; (reflexivity || discriminate).
  - intros a b. destruct a, b; reflexivity.
  - intros a. destruct a; reflexivity.
Qed.
Print Assumptions C76_count_sri.

(** Concrete cases, over "abracadabra". *)
Definition bm_dir : files := Eval vm_compute in
  fac_dir ++ match cache ex_sd (csa_class E_R_CSA) 0 exf_w exf_sa with Some fs => fs | None => [] end.
Definition bm_file : list nat := codes "abr" ++ [10; 10] ++ codes "a".
Definition bm_patterns : list pattern := [mk_pattern (codes "abr") (codes "abr"); mk_pattern (codes "a") (codes "a")].
Definition bm_jobs : list job :=
  [mk_job 3 2 BMacro 7; mk_job 3 2 BMicro 10; mk_job 0 5 BPrint 1; mk_job 3 2 BMicro 10; mk_job 7 3 BPrint 1; mk_job 3 3 BMicro 10].
Example C76_patterns_met : read_patterns "PLAIN" bm_file = Some bm_patterns /\ Forall (fun p => pattern_over exf_w (pt_decoded p)) bm_patterns.
Proof.
  split; [vm_compute; reflexivity|]. apply Forall_forall. intros p [<-|[<-|[]]]; (split; [discriminate|]); intros c I; vm_compute in I |- *; intuition.
Qed.
Example C76_calls_met : Forall (may_call csa_class ex_sd exf_w exf_sa bm_dir csa_configs bm_patterns) bm_jobs.
Proof.
  assert (forall c v, In c [mk_cfg E_R_CSA 0; mk_cfg E_SR_CSA_VM 2; mk_cfg E_SR_CSA_VM 3; mk_cfg E_SR_CSA_SLIM_VA 3] ->
    build ex_sd (csa_class (cf_type c)) (cf_rate c) exf_w exf_sa = Some v ->
    has_files bm_dir (map (file_of (rate_prefix (cf_rate c))) (built_files ex_sd (csa_class (cf_type c)) v))) as K.
  { intros c v Hc B. cbn [In] in Hc.
    repeat (destruct Hc as [<-|Hc];
      [cbn [cf_type cf_rate csa_class] in B; vm_compute in B; injection B as <-;
       match goal with |- has_files _ ?l => let l' := eval vm_compute in l in change (has_files bm_dir l') end;
       intros k h d I; cbn [In] in I; repeat (destruct I as [I|I]; [injection I as <- <- <-; vm_compute; reflexivity|]); contradiction|]).
    contradiction. }
  assert (forall c, In c [mk_cfg E_R_CSA 0; mk_cfg E_SR_CSA_VM 2; mk_cfg E_SR_CSA_VM 3; mk_cfg E_SR_CSA_SLIM_VA 3] ->
    index_files ex_sd (csa_class (cf_type c)) (cf_rate c) exf_w exf_sa bm_dir) as X.
  { intros c Hc. destruct (build ex_sd (csa_class (cf_type c)) (cf_rate c) exf_w exf_sa) as [v|] eqn:B; [exists v; split; [exact B|apply K; assumption]|].
    exfalso. cbn [In] in Hc. repeat (destruct Hc as [<-|Hc]; [vm_compute in B; discriminate B|]). contradiction. }
  unfold bm_jobs. repeat (apply Forall_cons; [|]); try apply Forall_nil.
  - exists (mk_idx_config "SR-CSA-VM" E_SR_CSA_VM true). split; [reflexivity|]. split; [apply (X (mk_cfg E_SR_CSA_VM 2)); cbn; auto|]. split; [apply Nat.ltb_lt; reflexivity|discriminate].
  - exists (mk_idx_config "SR-CSA-VM" E_SR_CSA_VM true). split; [reflexivity|]. split; [apply (X (mk_cfg E_SR_CSA_VM 2)); cbn; auto|]. split; [apply Nat.ltb_lt; reflexivity|discriminate].
  - exists (mk_idx_config "R-CSA-BWT-RUNS" E_R_CSA false). split; [reflexivity|]. split; [apply (X (mk_cfg E_R_CSA 0)); cbn; auto|]. split; [apply Nat.ltb_lt; reflexivity|discriminate].
  - exists (mk_idx_config "SR-CSA-VM" E_SR_CSA_VM true). split; [reflexivity|]. split; [apply (X (mk_cfg E_SR_CSA_VM 2)); cbn; auto|]. split; [apply Nat.ltb_lt; reflexivity|discriminate].
  - exists (mk_idx_config "SR-CSA-Slim-VA" E_SR_CSA_SLIM_VA true). split; [reflexivity|]. split; [apply (X (mk_cfg E_SR_CSA_SLIM_VA 3)); cbn; auto|]. split; [apply Nat.ltb_lt; reflexivity|discriminate].
  - exists (mk_idx_config "SR-CSA-VM" E_SR_CSA_VM true). split; [reflexivity|]. split; [apply (X (mk_cfg E_SR_CSA_VM 3)); cbn; auto|]. split; [apply Nat.ltb_lt; reflexivity|discriminate].
Qed.
Definition bm_report : list nat := codes "abr" ++ [10] ++ codes "  0" ++ [10] ++ codes "  7" ++ [10] ++ codes "a" ++ [10] ++ codes "  0" ++ [10] ++
  codes "  3" ++ [10] ++ codes "  5" ++ [10] ++ codes "  7" ++ [10] ++ codes "  10" ++ [10].
Example C76_run : locate_program csa_enum csa_rank csa_kind ex_sd csa_configs "PLAIN" bm_file bm_dir bm_jobs =
  Some ([("result-SR-CSA-Slim-VA-3.txt"%string, bm_report); ("result-R-CSA-BWT-RUNS.txt"%string, bm_report)],
        [mk_counters 2 7; mk_counters 1 2; mk_counters 2 7; mk_counters 1 5; mk_counters 2 7; mk_counters 1 2]).
Proof. vm_compute. reflexivity. Qed.
Example C76_count_run : count_program csa_enum csa_rank csa_kind ex_sd csa_count_types "PLAIN" bm_file bm_dir [(0, false, 5); (0, true, 1)] =
  Some [mk_result (mk_counters 2 7) None;
        mk_result (mk_counters 2 7) (Some (codes "pattern,count,range_start,range_end" ++ [10; 34] ++ codes "abr" ++ [34] ++ codes ",2,2,4" ++ [10; 34] ++ codes "a" ++ [34] ++ codes ",5,1,6" ++ [10]))].
Proof. vm_compute. reflexivity. Qed.

(** * C77: the benchmark that takes one pattern at a time *)
(** As many calls in a row as there are patterns answer each pattern once, whatever calls have been made before (the
    library makes some to find the number of rounds). *)
Theorem C77_each_pattern_once : forall w ps js rs idx a b c,
  List.length rs = List.length js -> (forall i co, nth_error rs i = Some co -> reported w ps js i co) ->
  js = a ++ b ++ c -> Forall (fun j => jb_idx j = idx /\ jb_bench j = BMicro) b -> List.length b = List.length ps ->
  exists ps', Permutation ps' ps /\
    Forall2 (fun p co => co_patterns co = 1 /\ occurrences w (pt_decoded p) (co_occurrences co)) ps' (firstn (List.length ps) (skipn (List.length a) rs)).
Proof. intros w ps js rs idx a b c L R -> B Lb. exact (consecutive w ps idx a b c rs L R B Lb). Qed.
Print Assumptions C77_each_pattern_once.
Theorem C77_csa : forall tm w sa data h dir flag file ps idx a b c,
  zero_free w -> is_suffix_array (terminated w) sa -> data = w \/ data = terminated w ->
  0 < h -> t_dens tm = 2 * h -> S (List.length w) < 2 ^ 64 ->
  read_patterns flag file = Some ps -> Forall (fun p => pattern_over w (pt_decoded p)) ps ->
  Forall (may_call csa_class tm data sa dir csa_configs ps) (a ++ b ++ c) ->
  Forall (fun j => jb_idx j = idx /\ jb_bench j = BMicro) b -> List.length b = List.length ps ->
  exists outs rs ps', locate_program csa_enum csa_rank csa_kind tm csa_configs flag file dir (a ++ b ++ c) = Some (outs, rs) /\ Permutation ps' ps /\
    Forall2 (fun p co => co_patterns co = 1 /\ occurrences w (pt_decoded p) (co_occurrences co)) ps' (firstn (List.length ps) (skipn (List.length a) rs)).
Proof.
  intros tm w sa data h dir flag file ps idx a b c Hw HSA Hd Hh HD Hn Rp G F B L.
  destruct (C76_locate_csa tm w sa data h dir flag file ps _ Hw HSA Hd Hh HD Hn Rp G F) as (outs & rs & E & Lr & R & _).
  destruct (C77_each_pattern_once w ps _ rs idx a b c Lr R eq_refl B L) as (ps' & P & X). exists outs, rs, ps'. auto.
Qed.
Print Assumptions C77_csa.
Theorem C77_sri : forall tm w sa data h dir flag file ps idx a b c,
  zero_free w -> is_suffix_array (terminated w) sa -> data = w \/ data = terminated w ->
  0 < h -> t_dens tm = 2 * h -> S (List.length w) < 2 ^ 64 ->
  read_patterns flag file = Some ps -> Forall (fun p => pattern_over w (pt_decoded p)) ps ->
  Forall (may_call sri_class tm data sa dir sri_configs ps) (a ++ b ++ c) ->
  Forall (fun j => jb_idx j = idx /\ jb_bench j = BMicro) b -> List.length b = List.length ps ->
  exists outs rs ps', locate_program sri_enum sri_rank sri_kind tm sri_configs flag file dir (a ++ b ++ c) = Some (outs, rs) /\ Permutation ps' ps /\
    Forall2 (fun p co => co_patterns co = 1 /\ occurrences w (pt_decoded p) (co_occurrences co)) ps' (firstn (List.length ps) (skipn (List.length a) rs)).
Proof.
  intros tm w sa data h dir flag file ps idx a b c Hw HSA Hd Hh HD Hn Rp G F B L.
  destruct (C76_locate_sri tm w sa data h dir flag file ps _ Hw HSA Hd Hh HD Hn Rp G F) as (outs & rs & E & Lr & R & _).
  destruct (C77_each_pattern_once w ps _ rs idx a b c Lr R eq_refl B L) as (ps' & P & X). exists outs, rs, ps'. auto.
Qed.
Print Assumptions C77_sri.
(** Not so if the calls of two rates of an index take turns, as the library does on demand: the counter is shared, and
    here the calls of the rate 2 take the same pattern twice. *)
Definition turns : list job := [mk_job 3 2 BMicro 10; mk_job 3 3 BMicro 10; mk_job 3 2 BMicro 10; mk_job 3 3 BMicro 10].
Theorem C77_interleaved_refuted : ~ (forall js outs rs, Forall (may_call csa_class ex_sd exf_w exf_sa bm_dir csa_configs bm_patterns) js ->
  locate_program csa_enum csa_rank csa_kind ex_sd csa_configs "PLAIN" bm_file bm_dir js = Some (outs, rs) ->
  forall idx rate, let mine := filter (fun '(j, co) => (jb_idx j =? idx) && (jb_rate j =? rate)) (combine js rs) in
    Forall (fun j => jb_bench j = BMicro) js -> List.length mine = List.length bm_patterns ->
    exists ps', Permutation ps' bm_patterns /\ Forall2 (fun p '(_, co) => occurrences exf_w (pt_decoded p) (co_occurrences co)) ps' mine).
Proof.
  intros H. specialize (H turns [] [mk_counters 1 2; mk_counters 1 5; mk_counters 1 2; mk_counters 1 5]).
  assert (Forall (may_call csa_class ex_sd exf_w exf_sa bm_dir csa_configs bm_patterns) turns) as M.
  { pose proof C76_calls_met as C. unfold bm_jobs in C. rewrite Forall_forall in C.
    unfold turns. repeat (apply Forall_cons; [apply C; cbn; auto 10|]). apply Forall_nil. }
  assert (locate_program csa_enum csa_rank csa_kind ex_sd csa_configs "PLAIN" bm_file bm_dir turns =
    Some ([], [mk_counters 1 2; mk_counters 1 5; mk_counters 1 2; mk_counters 1 5])) as R by (vm_compute; reflexivity).
  specialize (H M R 3 2). destruct H as (ps' & P & F).
  - repeat (apply Forall_cons; [reflexivity|]). apply Forall_nil.
  - reflexivity.
  - cbn [combine filter turns jb_idx jb_rate Nat.eqb andb] in F.
    assert (In (mk_pattern (codes "a") (codes "a")) ps') as I by (eapply Permutation_in; [symmetry; exact P|right; left; reflexivity]).
    assert (occurrences exf_w (codes "a") 2) as O.
    { inversion F as [|p1 q1 r1 t1 O1 F1]; subst. inversion F1 as [|p2 q2 r2 t2 O2 F2]; subst. inversion F2; subst. destruct I as [->|[->|[]]]; assumption. }
    apply occurrences_number in O; [vm_compute in O; discriminate O|discriminate].
Qed.
Print Assumptions C77_interleaved_refuted.
Example C77_met : Forall (fun j => jb_idx j = 3 /\ jb_bench j = BMicro) (firstn 2 turns) /\ List.length (firstn 2 turns) = List.length bm_patterns.
Proof. split; [repeat (apply Forall_cons; [split; reflexivity|]); apply Forall_nil|reflexivity]. Qed.

(** * C78: a printed report can be read *)
(** With patterns in base 64, texts with the same report have the same occurrences of all patterns. *)
Theorem C78_report_readable : forall file ps w w' out, read_patterns "BASE64" file = Some ps -> report_of w ps out -> report_of w' ps out ->
  forall p i, In p ps -> (occurs_at (pt_decoded p) w i <-> occurs_at (pt_decoded p) w' i).
Proof.
  intros file ps w w' out R (ls & S1 & R1) (ls' & S2 & R2). destruct (lines_exist file) as (lines & Hl).
  rewrite (read_lines "BASE64" CBase64 _ _ eq_refl Hl) in R. destruct (mmap_encoded _ _ _ R) as [En De].
  assert (Forall (fun q => q <> [] /\ hd 0 q <> 32) (map pt_encoded ps)) as F.
  { apply Forall_forall. intros q Iq. assert (q <> []) as NE.
    { rewrite En in Iq. apply filter_In in Iq as [_ Z]. intros ->. discriminate Z. }
    split; [exact NE|]. apply in_map_iff in Iq as (p & <- & Ip). rewrite Forall_forall in De. exact (decode_first _ _ NE (De p Ip)). }
  pose proof (report_reads _ _ _ F R1 _ R2) as <-. clear -S1 S2. revert ls S1 S2.
  induction ps as [|p ps IH]; intros ls S1 S2 q i I; [contradiction|]. inversion S1 as [|? l ? ? A1 T1]; subst. inversion S2 as [|? ? ? ? A2 T2]; subst.
  destruct I as [<-|I]; [|exact (IH _ T1 T2 q i I)]. destruct A1 as [[_ A1] _], A2 as [[_ A2] _]. rewrite <- A1, <- A2. reflexivity.
Qed.
Print Assumptions C78_report_readable.
(** Not so with plain patterns: one that looks like a line of a position can stand for one. *)
Definition plain_file : list nat := codes "ab" ++ [10] ++ codes "  5".
Theorem C78_plain_refuted : ~ (forall file ps w w' out, read_patterns "PLAIN" file = Some ps ->
  Forall (fun p => pattern_over w (pt_decoded p)) ps -> Forall (fun p => pattern_over w' (pt_decoded p)) ps -> report_of w ps out -> report_of w' ps out ->
  forall p i, In p ps -> (occurs_at (pt_decoded p) w i <-> occurs_at (pt_decoded p) w' i)).
Proof.
  intros H. specialize (H plain_file [mk_pattern (codes "ab") (codes "ab"); mk_pattern (codes "  5") (codes "  5")] (codes "5 5 5ab") (codes "5ba5b  5")
    (codes "ab" ++ [10] ++ codes "  5" ++ [10] ++ codes "  5" ++ [10]) eq_refl).
  assert (forall w, (forall c, In c (codes "ab" ++ codes "  5") -> In c w) ->
    Forall (fun p => pattern_over w (pt_decoded p)) [mk_pattern (codes "ab") (codes "ab"); mk_pattern (codes "  5") (codes "  5")]) as G.
  { intros w W. repeat (apply Forall_cons; [split; [discriminate|intros c I; apply W, in_or_app; cbn [pt_decoded] in I; auto]|]). apply Forall_nil. }
  assert (forall d, In d [48; 49; 50; 51; 52; 53; 54; 55; 56; 57] -> numeral [d] (d - 48)) as D.
  { intros d I. split; [discriminate|]. split; [apply Forall_cons; [|constructor]|split; [intros Q; cbn in Q; congruence|reflexivity]].
    cbn [In] in I. repeat (destruct I as [<-|I]; [split; apply Nat.leb_le; reflexivity|]). contradiction. }
  specialize (D 53). specialize (D ltac:(cbn; auto 10)). change (53 - 48) with 5 in D.
  assert (forall q, report_entry q [] (q ++ [10])) as R0 by (intros q; constructor).
  assert (forall q, report_entry q [5] ((q ++ [10]) ++ codes "  5" ++ [10])) as R1 by (intros q; exact (re_more q [] (q ++ [10]) 5 [53] (re_none q) D)).
  destruct (H (G (codes "5 5 5ab") ltac:(intros c I; vm_compute in I |- *; intuition)) (G (codes "5ba5b  5") ltac:(intros c I; vm_compute in I |- *; intuition))) with
    (p := mk_pattern (codes "ab") (codes "ab")) (i := 5) as [K _].
  - exists [[5]; []]. split.
    + constructor; [exact (find_all_ok (codes "ab") (codes "5 5 5ab") ltac:(discriminate))|]. constructor; [exact (find_all_ok (codes "  5") (codes "5 5 5ab") ltac:(discriminate))|constructor].
    + change (codes "ab" ++ [10] ++ codes "  5" ++ [10] ++ codes "  5" ++ [10]) with (((codes "ab" ++ [10]) ++ codes "  5" ++ [10]) ++ (codes "  5" ++ [10]) ++ []).
      constructor; [apply R1|]. constructor; [apply R0|constructor].
  - exists [[]; [5]]. split.
    + constructor; [exact (find_all_ok (codes "ab") (codes "5ba5b  5") ltac:(discriminate))|]. constructor; [exact (find_all_ok (codes "  5") (codes "5ba5b  5") ltac:(discriminate))|constructor].
    + change (codes "ab" ++ [10] ++ codes "  5" ++ [10] ++ codes "  5" ++ [10]) with ((codes "ab" ++ [10]) ++ ((codes "  5" ++ [10]) ++ codes "  5" ++ [10]) ++ []).
      constructor; [apply R0|]. constructor; [apply R1|constructor].
  - left. reflexivity.
  - cbn [pt_decoded] in K. rewrite <- !find_at_ok in K by discriminate. vm_compute in K. specialize (K eq_refl). discriminate K.
Qed.
Print Assumptions C78_plain_refuted.
Example C78_met : read_patterns "BASE64" (codes "YWJy" ++ [10] ++ codes "YQ==") = Some [mk_pattern (codes "YWJy") (codes "abr"); mk_pattern (codes "YQ==") (codes "a")] /\
  print_round (fun p => Some (find_all p exf_w)) [mk_pattern (codes "YWJy") (codes "abr"); mk_pattern (codes "YQ==") (codes "a")] =
  Some (7, codes "YWJy" ++ [10] ++ codes "  0" ++ [10] ++ codes "  7" ++ [10] ++ codes "YQ==" ++ [10] ++ codes "  0" ++ [10] ++
    codes "  3" ++ [10] ++ codes "  5" ++ [10] ++ codes "  7" ++ [10] ++ codes "  10" ++ [10]).
Proof. vm_compute. auto. Qed.
