(** The runs of bm_build_ri_items.cpp, and the factory and the queries on what they leave. *)
From Coq Require Import List Arith Bool Lia ZifyBool ZifyNat Permutation String.
From Verif Require Import Spec MBase Lists FM MRle Runs RleSpec RleProof MConstruct MPhi MRIndex MSrIndex MOldRle OldRle MBwt MClosed MBench MItems Util Phi
  ConstructProof Glue Nav PhiProof BaseProof SamplingProof BackRange SubsProof ValidProof SrValid SrRuns SrProof RIndexProof BwtProof ClosedProof ClosedGlue
  SpecBwt SpecBench BenchProof SpecItems ItemsProof SrGlue.
Import ListNotations.
Notation length := List.length.

(** * Registration *)
Definition stages : list (ikey * list item_fn) :=
  [(KText, [FText]); (KSA, [FSA]); (KBwt, [FBwt]); (KRle, [FRle]); (KTailsSorted, [FSortTails]); (KHeadsSorted, [FSortHeads]);
   (KSampled 16, map FTails item_rates); (KSampledHeadsBv 16, map FHeads item_rates)].
Definition all_fns : list item_fn := flat_map snd stages.
Definition keys_of (fns : list item_fn) : list ikey := flat_map writes fns.
Lemma stages_groups : map (fun st => (fst st, keys_of (snd st))) stages = groups.
Proof. reflexivity. Qed.
Lemma all_functions : all_fns = item_functions.
Proof. reflexivity. Qed.
Lemma all_keys : keys_of all_fns = all_files.
Proof. reflexivity. Qed.
Lemma registered_stages rebuild d :
  registered rebuild d = flat_map (fun st => if negb (fexists d (fst st)) || rebuild then snd st else []) stages.
Proof. unfold registered, stages. cbn [flat_map fst snd]. rewrite app_nil_r. reflexivity. Qed.
Lemma registered_rebuild d : registered true d = all_fns.
Proof. rewrite registered_stages. unfold stages, all_fns, stages. cbn [flat_map fst snd]. rewrite !orb_true_r. reflexivity. Qed.
Lemma registered_empty : registered false [] = all_fns.
Proof. reflexivity. Qed.

Fixpoint readyb (have : list ikey) (fns : list item_fn) : bool :=
  match fns with
  | [] => true
  | fn :: fns => forallb (fun k => if in_dec ikey_dec k have then true else false) (needs fn) && readyb (writes fn ++ have) fns
  end.
Lemma readyb_ok fns : forall have, readyb have fns = true -> ready have fns.
Proof.
  induction fns as [|fn fns IH]; intros have H; cbn in *; [exact I|]. apply andb_true_iff in H. destruct H as [H1 H2]. split; [|auto].
  intros k Hk. rewrite forallb_forall in H1. specialize (H1 k Hk). destruct (in_dec ikey_dec k have); [assumption|discriminate].
Qed.
Lemma ready_all : ready [] all_fns.
Proof. apply readyb_ok. vm_compute. reflexivity. Qed.
Lemma ready_app a : forall have b, ready have (a ++ b) <-> ready have a /\ ready (keys_of a ++ have) b.
Proof.
  induction a as [|fn a IH]; intros have b; cbn [app ready keys_of flat_map]; [tauto|]. rewrite IH. split.
  - intros (H1 & H2 & H3). split; [auto|]. eapply ready_mono; [|exact H3]. intros k. rewrite !in_app_iff. tauto.
  - intros ((H1 & H2) & H3). split; [auto|]. split; [auto|]. eapply ready_mono; [|exact H3]. intros k. rewrite !in_app_iff. tauto.
Qed.
Lemma ready_skip (sel : ikey * list item_fn -> bool) : forall sts have have', incl have have' -> ready have (flat_map snd sts) ->
  (forall st, In st sts -> sel st = false -> incl (keys_of (snd st)) have') ->
  ready have' (flat_map (fun st => if sel st then snd st else []) sts).
Proof.
  induction sts as [|st sts IH]; intros have have' Hi R H; [exact I|]. cbn [flat_map] in *. apply ready_app in R. destruct R as [R1 R2].
  destruct (sel st) eqn:E.
  - apply ready_app. split; [eapply ready_mono; eauto|]. apply (IH (keys_of (snd st) ++ have)); [|exact R2|].
    + intros k. rewrite !in_app_iff. intros [?|?]; auto.
    + intros st' Hs Es k Hk. apply in_app_iff. right. apply (H st' (or_intror Hs) Es k Hk).
  - apply (IH (keys_of (snd st) ++ have)); [|exact R2|].
    + intros k. rewrite in_app_iff. intros [?|?]; [|auto]. apply (H st (or_introl eq_refl) E k); auto.
    + intros st' Hs Es. apply H; auto. right; auto.
Qed.

(** * What any run writes *)
Ltac inv_bind H := repeat match type of H with
  | bind ?m _ = Some _ => let E := fresh "E" in destruct m eqn:E; cbn [bind] in H; [|discriminate H]
  | (let '(_, _) := ?p in _) = Some _ => destruct p
  end.
Lemma call_keys sort data fn more d l co : item_call sort data fn more d = Some (l, co) -> map fst l = writes fn.
Proof.
  destruct fn; cbn [item_call]; intros H;
    [unfold bm_text in H|unfold bm_sa in H|unfold bm_bwt in H|unfold bm_rle in H|unfold bm_sort_tails in H|unfold bm_sort_heads in H|unfold bm_tails in H|unfold bm_heads in H];
    inv_bind H; injection H as <- _; reflexivity.
Qed.
Lemma fget_fputs_out l : forall d k, ~ In k (map fst l) -> fget (fputs d l) k = fget d k.
Proof.
  unfold fputs. induction l as [|[a c] l IH]; intros d k H; [reflexivity|]. cbn [fold_left map fst] in *. rewrite IH by (intros G; apply H; right; auto).
  cbn [fget]. destruct (ikey_dec k a) as [->|N]; [exfalso; apply H; left; auto|reflexivity].
Qed.
Lemma run_unwritten sort data : forall calls d acc d' cs k, mfold (run_call sort data) calls (d, acc) = Some (d', cs) ->
  (forall fn, In fn (map fst calls) -> ~ In k (writes fn)) -> fget d' k = fget d k.
Proof.
  induction calls as [|[fn more] calls IH]; intros d acc d' cs k H Hk; [injection H as <- _; reflexivity|].
  cbn [mfold] in H. unfold run_call at 1 in H. cbn [fst snd] in H.
  destruct (item_call sort data fn more d) as [[l co]|] eqn:E; [|discriminate]. cbn [bind] in H.
  rewrite (IH _ _ _ _ k H) by (intros fn' Hf; apply Hk; right; auto).
  apply fget_fputs_out. rewrite (call_keys _ _ _ _ _ _ _ E). apply Hk. left; auto.
Qed.
Lemma disjoint_stages k : forall sts : list (ikey * list item_fn), NoDup (flat_map (fun st => keys_of (snd st)) sts) -> forall st st', In st sts -> In st' sts ->
  In k (keys_of (snd st)) -> In k (keys_of (snd st')) -> st = st'.
Proof.
  induction sts as [|s sts IH]; cbn [flat_map]; intros N st st' H H' K K'; [destruct H|].
  assert (D : forall x, In x sts -> In k (keys_of (snd s)) -> In k (keys_of (snd x)) -> False).
  { intros x Hx A B. revert N. generalize (keys_of (snd s)) A. intros l Al N. induction l as [|a l IHl]; [destruct Al|].
    cbn [app] in N. inversion N as [|? ? N1 N2]; subst. destruct Al as [->|Al]; [|auto].
    apply N1, in_app_iff. right. apply in_flat_map. exists x. auto. }
  assert (N' : NoDup (flat_map (fun st => keys_of (snd st)) sts)).
  { revert N. generalize (keys_of (snd s)). intros l N. induction l as [|a l IHl]; [exact N|]. cbn [app] in N. inversion N; subst; auto. }
  destruct H as [->|H], H' as [->|H']; auto; [exfalso; eauto|exfalso; eauto].
Qed.
Fixpoint nodupb (l : list ikey) : bool :=
  match l with [] => true | a :: l => (if in_dec ikey_dec a l then false else true) && nodupb l end.
Lemma nodupb_ok l : nodupb l = true -> NoDup l.
Proof.
  induction l as [|a l IH]; cbn; intros H; [constructor|]. apply andb_true_iff in H. destruct H as [H1 H2].
  destruct (in_dec ikey_dec a l); [discriminate|]. constructor; auto.
Qed.
Lemma stages_NoDup : NoDup (flat_map (fun st => keys_of (snd st)) stages).
Proof. apply nodupb_ok. vm_compute. reflexivity. Qed.
(** A file of a group that is not registered is not written. *)
Lemma torn_stays sort data calls d d' cs g fns k : In (g, fns) stages -> fget d g <> None -> In k (keys_of fns) ->
  build_items sort data false calls d = Some (d', cs) -> fget d' k = fget d k.
Proof.
  intros Hs Hg Hk H. unfold build_items, run_calls in H. eapply run_unwritten; [exact H|]. intros fn Hf Hw.
  rewrite calls_in, registered_stages in Hf. apply in_flat_map in Hf. destruct Hf as ([g' fns'] & Hs' & Hf). cbn [fst snd] in Hf.
  destruct (negb (fexists d g') || false) eqn:E; [|destruct Hf].
  assert (K' : In k (keys_of fns')) by (apply in_flat_map; exists fn; auto).
  pose proof (disjoint_stages k stages stages_NoDup _ _ Hs Hs' Hk K') as G. injection G as <- <-.
  unfold fexists in E. destruct (fget d g); [discriminate|congruence].
Qed.

(** * Runs over right files *)
Definition build_from (data sa : list nat) (d : idir) : Prop := bwt_files data sa d /\ Forall (sampled_files d) rates.
Section Whole.
  Variables (data sa : list nat) (sort : list nat -> option (list nat)) (bwt : oldrle) (f : list nat).
  Hypothesis HD : item_data data.
  Hypothesis HSo : sorted_by sort data sa.
  Let w := zero_as_two data.
  Hypothesis Ebwt : old_construct 2 (map replace_zero (BW (terminated w) sa)) = Some bwt.
  Hypothesis Ef : f_table (BW (terminated w) sa) = Some f.
  Lemma whole_w : Forall (fun c => 1 < c < 255) w.
  Proof.
    destruct HD as [_ H]. unfold w, zero_as_two. apply Forall_map. eapply Forall_impl; [|exact H]. cbn beta. intros c [->|Hc]; [cbn; lia|].
    destruct (Nat.eqb_spec c 0); lia.
  Qed.
  Lemma whole_ne : w <> [].
  Proof. destruct HD as [H _]. unfold w, zero_as_two. destruct data; [congruence|discriminate]. Qed.
  Let HSA : is_suffix_array (terminated w) sa := proj2 HSo.
  Let H2 : 0 < 2 := Nat.lt_0_succ 1.
  Let Hz : zero_free w := Hw w 2 whole_w H2.
  Let T := ctext w sa.
  Let n := len T.
  Let HT : text_ok T := ctext_ok w sa Hz HSA.
  Let HS : is_suffix_array T sa := ctext_sa w sa Hz HSA.
  Let r := length (hrows T sa).
  Notation content := (content w sa bwt f).
  Notation holds := (holds w sa bwt f).
  Definition right_files (d : idir) : Prop := forall k, In k all_files -> present d k -> fget d k = Some (content k).

  Lemma runs_whole calls fns d have : ready have fns -> holds d have ->
    exists d' cs, run_calls sort data (calls_of calls fns) d = Some (d', cs) /\
      cs = map (fun c => counts w sa (fst c)) (calls_of calls fns) /\
      holds d' have /\ (forall fn, In fn fns -> holds d' (writes fn)) /\
      (forall k, (forall fn, In fn fns -> ~ In k (writes fn)) -> fget d' k = fget d k).
  Proof. apply (runs_ok w sa data sort bwt f whole_w HSA whole_ne eq_refl (proj1 HSo) Ebwt Ef). Qed.
  Lemma in_all k : In k all_files <-> exists fn, In fn all_fns /\ In k (writes fn).
  Proof. rewrite <- all_keys. unfold keys_of. rewrite in_flat_map. reflexivity. Qed.
  Lemma rated_fns s : In s rates -> In (FTails s) all_fns /\ In (FHeads s) all_fns.
  Proof.
    intros Hs. split; apply in_flat_map; [exists (KSampled 16, map FTails item_rates)|exists (KSampledHeadsBv 16, map FHeads item_rates)];
      (split; [cbn; auto 12|apply in_map; exact Hs]).
  Qed.
  (** A run with --rebuild, or over an empty directory. *)
  Lemma rebuild_ok calls d : exists d' cs, build_items sort data true calls d = Some (d', cs) /\ holds d' all_files /\
    cs = map (fun c => counts w sa (fst c)) (calls_of calls all_fns) /\ (forall k, ~ In k all_files -> fget d' k = fget d k).
  Proof.
    unfold build_items. rewrite registered_rebuild. destruct (runs_whole calls all_fns d [] ready_all ltac:(intros k [])) as (d' & cs & E & Ec & _ & B & C).
    exists d', cs. split; [exact E|]. split; [|split; [exact Ec|]].
    - intros k Hk. apply in_all in Hk. destruct Hk as (fn & H1 & H3). exact (B fn H1 k H3).
    - intros k Hk. apply C. intros fn Hf Hw. apply Hk, in_all. eauto.
  Qed.
  (** A run that starts with what an earlier one left. *)
  Lemma resume_ok calls d : right_files d -> no_torn_group d ->
    exists d' cs, build_items sort data false calls d = Some (d', cs) /\ holds d' all_files /\
      cs = map (fun c => counts w sa (fst c)) (calls_of calls (registered false d)) /\ (forall k, ~ In k all_files -> fget d' k = fget d k).
  Proof.
    intros HR HN. set (have := filter (fun k => fexists d k) all_files).
    assert (Hh : forall k, In k have <-> In k all_files /\ present d k).
    { intros k. unfold have. rewrite filter_In. unfold present, fexists. destruct (fget d k); intuition (try discriminate; congruence). }
    assert (Hc : holds d have) by (intros k Hk; apply Hh in Hk; apply HR; tauto).
    assert (Hsel : forall st, In st stages -> negb (fexists d (fst st)) || false = false -> incl (keys_of (snd st)) have).
    { intros [g fns] Hs E k Hk. cbn [fst snd] in E, Hk. assert (Hg : In (g, keys_of fns) groups) by (rewrite <- stages_groups; apply in_map_iff; exists (g, fns); auto).
      apply Hh. split; [apply in_flat_map; exists (g, keys_of fns); auto|]. apply (HN g _ Hg); [|exact Hk].
      unfold present. unfold fexists in E. destruct (fget d g); [discriminate|discriminate]. }
    unfold build_items. rewrite registered_stages. set (sel := fun st : ikey * list item_fn => negb (fexists d (fst st)) || false).
    pose proof (ready_skip sel stages [] have ltac:(intros k []) ready_all Hsel) as R.
    destruct (runs_whole calls _ d have R Hc) as (d' & cs & E & Ec & A & B & C). exists d', cs. split; [exact E|]. split; [|split; [exact Ec|]].
    - intros k Hk. rewrite <- all_keys in Hk. apply in_flat_map in Hk. destruct Hk as (fn & H1 & H3). unfold all_fns in H1. apply in_flat_map in H1.
      destruct H1 as (st & Hs & Hf). destruct (sel st) eqn:Es.
      + apply (B fn); [|exact H3]. apply in_flat_map. exists st. rewrite Es. auto.
      + apply A. apply (Hsel st Hs Es). apply in_flat_map. exists fn. auto.
    - intros k Hk. apply C. intros fn Hf Hw. apply Hk, in_all. exists fn. split; [|exact Hw].
      apply in_flat_map in Hf. destruct Hf as (st & Hs & Hf). destruct (sel st); [|destruct Hf]. apply in_flat_map. exists st. auto.
  Qed.
  Lemma holds_right d : holds d all_files -> right_files d /\ no_torn_group d.
  Proof.
    intros H. split; [intros k Hk _; apply H, Hk|]. intros g ks Hg _ k Hk. unfold present. rewrite H; [discriminate|].
    apply in_flat_map. exists (g, ks). auto.
  Qed.
  Lemma holds_registered d : holds d all_files -> registered false d = [].
  Proof.
    intros H. rewrite registered_stages. assert (X : forall st, In st stages -> fexists d (fst st) = true).
    { intros st Hs. unfold fexists. rewrite H; [reflexivity|]. cbn in Hs. repeat destruct Hs as [<-|Hs]; try contradiction; vm_compute; tauto. }
    unfold stages in *. cbn [flat_map]. rewrite !X by (cbn; auto 12). reflexivity.
  Qed.
  (** A directory in which a run over right files was stopped. *)
  Lemma stopped_right rebuild calls d d' : right_files d -> rebuild = true \/ no_torn_group d -> stopped sort data rebuild calls d d' -> right_files d'.
  Proof.
    intros HR HN (before & call & after & st & l & co & k & E1 & E2 & E3 & ->). set (have := filter (fun k => fexists d k) all_files).
    assert (Hh : forall k, In k have <-> In k all_files /\ present d k).
    { intros k'. unfold have. rewrite filter_In. unfold present, fexists. destruct (fget d k'); intuition (try discriminate; congruence). }
    assert (Hc : holds d have) by (intros k' Hk; apply Hh in Hk; apply HR; tauto).
    assert (R : ready have (registered rebuild d)).
    { destruct rebuild.
      - rewrite registered_rebuild. eapply ready_mono; [|exact ready_all]. intros k' [].
      - rewrite registered_stages. destruct HN as [HN|HN]; [discriminate|].
        apply (ready_skip (fun st => negb (fexists d (fst st)) || false) stages [] have ltac:(intros ? []) ready_all).
        intros [g fns] Hs E k' Hk. cbn [fst snd] in E, Hk. assert (Hg : In (g, keys_of fns) groups) by (rewrite <- stages_groups; apply in_map_iff; exists (g, fns); auto).
        apply Hh. split; [apply in_flat_map; exists (g, keys_of fns); auto|]. apply (HN g _ Hg); [|exact Hk].
        unfold present. unfold fexists in E. destruct (fget d g); [discriminate|discriminate]. }
    apply (ready_calls (fun fn => length (snd (calls fn)))) in R. rewrite <- calls_of_fst, E1, map_app in R. apply ready_app in R. destruct R as [R1 R2].
    destruct (run_ok w sa data sort bwt f whole_w HSA whole_ne eq_refl (proj1 HSo) Ebwt Ef before d [] have R1 Hc) as (d1 & F1 & A & B & C).
    unfold run_calls in E2. rewrite F1 in E2. injection E2 as <-. cbn [fst] in *. cbn [map ready] in R2. destruct R2 as [R2 _].
    assert (Hall : forall c, In c (calls_of calls (registered rebuild d)) -> incl (writes (fst c)) all_files).
    { intros c Hc' k' Hk. apply in_all. exists (fst c). split; [|exact Hk]. apply (in_map fst), calls_in in Hc'. clear - Hc'.
      destruct rebuild; [rewrite registered_rebuild in Hc'; exact Hc'|]. rewrite registered_stages in Hc'. apply in_flat_map in Hc'. destruct Hc' as (st & Hs & Hf).
      destruct (negb _ || _); [|destruct Hf]. apply in_flat_map. exists st. auto. }
    assert (Hd1 : holds d1 (keys_of (map fst before) ++ have)).
    { intros k' Hk. apply in_app_iff in Hk. destruct Hk as [Hk|Hk]; [|auto]. apply in_flat_map in Hk. destruct Hk as (fn & H1 & H3). exact (B fn H1 k' H3). }
    rewrite (call_ok w sa data sort bwt f whole_w HSA whole_ne eq_refl (proj1 HSo) Ebwt Ef (fst call) (snd call) d1) in E3 by (intros k' Hk; apply Hd1, R2, Hk).
    injection E3 as <- _. intros k' Hk Hp. rewrite firstn_map in *. unfold present in Hp. rewrite fget_fputs in *.
    destruct (in_dec ikey_dec k' (firstn k (writes (fst call)))) as [I|I]; [reflexivity|].
    destruct (in_dec ikey_dec k' (keys_of (map fst before))) as [J|J]; [apply Hd1, in_app_iff; auto|].
    rewrite C in * by (intros fn Hf Hw; apply J, in_flat_map; eauto). apply HR; auto.
  Qed.

  Lemma new_right : right_files [].
  Proof. intros k _ H. exfalso. apply H. reflexivity. Qed.
  Lemma dirs_right d : item_dirs sort data d -> right_files d.
  Proof.
    induction 1 as [|d rebuild calls d' cs _ IH HN E|d rebuild calls d' _ IH HN St]; [apply new_right| |exact (stopped_right _ _ _ _ IH HN St)].
    assert (X : holds d' all_files).
    { destruct rebuild.
      - destruct (rebuild_ok calls d) as (e & c & Ee & He & _). rewrite E in Ee. injection Ee as <- _. exact He.
      - destruct HN as [HN|HN]; [discriminate|]. destruct (resume_ok calls d IH HN) as (e & c & Ee & He & _). rewrite E in Ee. injection Ee as <- _. exact He. }
    apply holds_right, X.
  Qed.
  Lemma complete_holds d : item_dirs sort data d -> complete d -> holds d all_files.
  Proof. intros H C k Hk. apply dirs_right; auto. Qed.

  (** ** The contents *)
  Lemma counts_counted d fn : holds d all_files -> In fn all_fns -> counted data sa d fn (counts w sa fn).
  Proof.
    intros H Hf. assert (G : forall k, In k (writes fn) -> fget d k = Some (content k)) by (intros k Hk; apply H, in_all; eauto).
    destruct fn as [| | | | | |s|s]; cbn [counted counts]; auto.
    - unfold w, zero_as_two. rewrite map_length. reflexivity.
    - f_equal. unfold number_of_runs. rewrite RleSpec.runs_before_headb. unfold count.
      rewrite <- (ctext_hrows w sa Hz HSA). reflexivity.
    - exists (map (fun k => tpos T sa (nth k (trows T sa) 0)) (ksub w sa s)). split; [apply (G (KSampled s)); cbn; auto|]. rewrite map_length. reflexivity.
    - exists (map (fun k => tpos T sa (nth k (trows T sa) 0)) (ksub w sa s)), (vbits T sa (ksub w sa s)). split; [|split].
      + rewrite (H (KSampled s)); [reflexivity|]. apply in_all. exists (FTails s). split; [|cbn; auto]. clear - Hf. revert Hf. unfold all_fns.
        rewrite !in_flat_map. intros (st & Hs & Hf). exists (KSampled 16, map FTails item_rates). split; [cbn; auto 12|]. cbn [snd].
        cbn in Hs. repeat destruct Hs as [<-|Hs]; try contradiction; cbn [snd] in Hf; try (cbn in Hf; repeat destruct Hf as [Hf|Hf]; try discriminate Hf; contradiction).
        cbn in Hf. repeat destruct Hf as [Hf|Hf]; try contradiction; injection Hf as <-; cbn; auto 12.
      + apply (G (KMarkedBv s)). cbn; auto 12.
      + rewrite map_length. reflexivity.
  Qed.
  Lemma bits_of_at l m : (forall i, In i l -> i < m) -> bits_at (bits_of l m) m l.
  Proof.
    intros H. unfold bits_of. split; [rewrite map_length, seq_length; reflexivity|]. intros i. destruct (Nat.lt_ge_cases i m) as [Hi|Hi].
    - rewrite (nth_map_seq (memb l)) by exact Hi. unfold memb. rewrite existsb_exists. split.
      + intros (x & Hx & E). apply Nat.eqb_eq in E. congruence.
      + intros Hl. exists i. split; [exact Hl|apply Nat.eqb_refl].
    - rewrite nth_overflow by (rewrite map_length, seq_length; exact Hi). split; [discriminate|]. intros Hl. specialize (H i Hl). lia.
  Qed.
  Lemma hmark_before h : tpos T sa h = cpred (length (terminated w)) (nth h sa 0).
  Proof. unfold T. rewrite <- (ctext_tpos w sa). reflexivity. Qed.
  Lemma mark_lt h : cpred (length (terminated w)) (nth h sa 0) < length (terminated w).
  Proof. unfold cpred. apply Nat.mod_upper_bound. unfold terminated. rewrite app_length. cbn. lia. Qed.
  Lemma holds_bwt d : holds d all_files -> bwt_files data sa d.
  Proof.
    intros H. assert (G : forall k, In k (writes FBwt) -> fget d k = Some (content k)) by (intros k Hk; apply H, in_all; exists FBwt; cbn; auto 12).
    assert (EH : hmarks T sa = map (fun i => cpred (length (terminated w)) (nth i sa 0)) (hrows (terminated w) sa)).
    { unfold hmarks, T. rewrite <- (ctext_hrows w sa Hz HSA). apply map_ext. intros i. apply hmark_before. }
    assert (ET : tmarks T sa = map (fun i => cpred (length (terminated w)) (nth i sa 0)) (trows (terminated w) sa)).
    { unfold tmarks, T. rewrite <- (ctext_trows w sa Hz HSA). apply map_ext. intros i. apply hmark_before. }
    assert (EN : len T = length (terminated w)) by (apply (ctext_len w sa)).
    unfold bwt_files. fold w. split; [rewrite H; [reflexivity|cbn; auto]|]. split; [rewrite H; [reflexivity|cbn; auto]|]. split; [rewrite G; [reflexivity|cbn; auto]|].
    split; [|split].
    - exists (hrows (terminated w) sa). split; [apply heads_in_order|]. unfold run_files. split.
      + rewrite G by (cbn; auto 12). cbn [ItemsProof.content]. rewrite (ctext_hrows w sa Hz HSA). reflexivity.
      + split.
        * intros k [<-|[<-|[]]]; rewrite G by (cbn; auto 12); cbn [ItemsProof.content]; fold T; rewrite EH; reflexivity.
        * intros k Hk. exists (bits_of (hmarks T sa) (len T)). split; [destruct Hk as [<-|[<-|[]]]; rewrite G by (cbn; auto 12); reflexivity|].
          rewrite EH, EN. apply bits_of_at. intros i Hi. apply in_map_iff in Hi. destruct Hi as (h & <- & _). apply mark_lt.
    - exists (trows (terminated w) sa). split; [apply tails_in_order|]. unfold run_files. split.
      + rewrite G by (cbn; auto 12). cbn [ItemsProof.content]. rewrite (ctext_trows w sa Hz HSA). reflexivity.
      + split; [|intros k []].
        intros k [<-|[<-|[]]]; rewrite G by (cbn; auto 12); cbn [ItemsProof.content]; fold T; rewrite ET; reflexivity.
    - exists f. split; [rewrite G by (cbn; auto 12); reflexivity|].
      destruct (f_table_ok (BW (terminated w) sa) (bwl_lt w sa 2 whole_w HSA H2)) as (f' & F1 & F2 & F3). rewrite Ef in F1. injection F1 as <-. auto.
  Qed.
  Lemma holds_sampled d : holds d all_files -> Forall (sampled_files d) rates.
  Proof.
    intros H. apply Forall_forall. intros s Hs. assert (G : forall k, In k (writes (FTails s)) -> fget d k = Some (content k)).
    { intros k Hk. apply H, in_all. exists (FTails s). split; [apply rated_fns, Hs|exact Hk]. }
    destruct (ksub_ok w sa whole_w HSA s) as [_ F]. fold T in F. set (ks := ksub w sa s) in *.
    assert (LT : length (tmarks T sa) = r) by apply (tmarks_length T sa HT HS).
    assert (EA : forall k, k < r -> nth k (tmarks T sa) 0 = tpos T sa (nth k (trows T sa) 0)).
    { intros k Hk. unfold tmarks. rewrite (nth_indep _ 0 (tpos T sa 0)) by (rewrite map_length; unfold tmarks in LT; rewrite map_length in LT; lia). apply map_nth. }
    exists (tmarks T sa), ks. split; [rewrite H; [reflexivity|cbn; auto 12]|]. split; [rewrite G; [reflexivity|cbn; auto]|]. cbv zeta. rewrite LT. split; [|split; [|split; [|split]]].
    - split; [|reflexivity]. intros i j a b Hij Ha Hb. pose proof (sf_sorted _ _ _ _ F) as SS.
      assert (Lj : j < length ks) by (apply nth_error_Some; congruence).
      pose proof (ssorted_nth ks SS i j Hij Lj) as L. rewrite (nth_error_nth _ _ 0 Ha), (nth_error_nth _ _ 0 Hb) in L. exact L.
    - apply (sf_lt _ _ _ _ F).
    - rewrite G by (cbn; auto). cbn [ItemsProof.content]. fold T. fold ks. f_equal. f_equal. apply map_ext_in. intros k Hk.
      symmetry. apply EA. apply (sf_lt _ _ _ _ F). exact Hk.
    - intros k Hk. exists (bits_of ks r). split; [destruct Hk as [<-|[<-|[]]]; rewrite G by (cbn; auto); reflexivity|].
      apply bits_of_at. apply (sf_lt _ _ _ _ F).
    - intros k Hk Nk. destruct (sf_cover _ _ _ _ F k Hk Nk) as (j & q & Hj & Hq & A & B & C & D). exists j, q.
      pose proof (sf_lt _ _ _ _ F j Hj) as Lj. rewrite !EA by assumption. split; [exact Hj|]. split; [exact Hq|]. split; [auto|]. split; [|exact D].
      intros x Hx. rewrite EA by exact Hx. intros [X Y]. specialize (C x Hx X). lia.
  Qed.

  (** ** The factory *)
  Lemma closed_parts s : construct_closed 2 s w sa =
    Some (mk_cix bwt f s (map (fun k => tpos T sa (nth k (trows T sa) 0)) (ksub w sa s)) (bits_of (ksub w sa s) r)
            (bits_of (msub w sa s) n) (sort_indices (msub w sa s)) (vbits T sa (ksub w sa s))
            (map (varea T sa (ksub w sa s)) (vinvs T sa (ksub w sa s)))).
  Proof.
    destruct (ksub_ok w sa whole_w HSA s) as [E F]. fold T in E, F. set (ks := ksub w sa s) in *.
    destruct (construct_base_ok w sa Hz HSA w (or_introl eq_refl)) as (b & R & Eb & Fb).
    pose proof (construct_submarks_ok T sa HT HS s ks F) as E2.
    unfold construct_closed. rewrite Eb. cbn [bind]. unfold construct_sri_valid. rewrite Eb. cbn [bind].
    unfold construct_sri_files_of. rewrite (bf_runs _ _ _ _ Fb). cbn [br_first_text br_last_text br_first br_last]. fold T.
    rewrite (construct_links_backward_ok T sa HT HS). cbn [bind]. unfold construct_sri_files. cbn [br_first_text br_last_text br_first br_last].
    rewrite E. cbn [bind]. rewrite E2. cbn [bind sf_idx sf_marks sf_samples sf_links].
    rewrite construct_bits by (intros k Hk; rewrite (PhiProof.rows_length T sa HT HS); apply (sf_lt _ _ _ _ F); exact Hk). cbn [bind].
    rewrite (bf_bwt _ _ _ _ Fb), (BW_length _ sa HSA), <- (ctext_len w sa). fold T.
    rewrite construct_bits by (intros m Hm; eapply (smarks_lt T sa HT HS s ks F); eauto). cbn [bind].
    rewrite (construct_validity_ok T sa HT HS s ks F). cbn [bind]. rewrite map_length, construct_vbits. cbn [bind].
    rewrite Ebwt. cbn [bind]. rewrite Ef. cbn [bind sr_rate sr_samples sr_samples_idx sr_marks sr_links sr_valid_marks sr_valid_areas].
    rewrite (PhiProof.rows_length T sa HT HS). reflexivity.
  Qed.
  Lemma classic_parts : construct_cri 2 w sa = Some (mk_cri bwt f (tmarks T sa) (bits_of (hmarks T sa) n) (blinks T sa)).
  Proof.
    destruct (construct_base_ok w sa Hz HSA w (or_introl eq_refl)) as (b & R & Eb & Fb).
    destruct (construct_rindex_ok w sa w Hz HSA (or_introl eq_refl)) as (ix & R1 & Ei & _ & _ & _ & E1 & E2 & E3).
    unfold construct_cri. rewrite Eb. cbn [bind]. rewrite Ei. cbn [bind]. rewrite (bf_bwt _ _ _ _ Fb), Ebwt. cbn [bind]. rewrite Ef. cbn [bind].
    rewrite E1, E2, E3. reflexivity.
  Qed.
  Lemma factory_ok sz d : holds d all_files -> exists fa, make_factory sz d = Some fa /\ it_val (if_bwt fa) = bwt /\
    (exists p, pack_at fa 0 = Some p /\ construct_cri 2 w sa = Some (cri_of fa p) /\ size_basic fa + size_pack p = size_classic sz (cri_of fa p)) /\
    (forall s, In s rates -> exists p x, pack_at fa s = Some p /\ construct_closed 2 s w sa = Some x /\ cix_of fa s p = wider 1 x /\
       size_basic fa + size_pack p = size_sampled sz (wider 1 x) /\ size_basic fa + size_marks p = size_with_marks sz (wider 1 x) /\
       size_basic fa + size_areas p + sz_rank0 sz (cx_valid x) = size_with_areas sz (wider 1 x)).
  Proof.
    intros H.
    assert (P : forall s, In s rates -> exists p, load_pack sz d s = Some p /\ forall b0 f0 ps, b0 = mk_item bwt (sz_rle sz bwt) -> f0 = mk_item f (sz_vector sz f) ->
      exists x, construct_closed 2 s w sa = Some x /\ let fa := mk_ifactory b0 f0 ps in cix_of fa s p = wider 1 x /\
        size_basic fa + size_pack p = size_sampled sz (wider 1 x) /\ size_basic fa + size_marks p = size_with_marks sz (wider 1 x) /\
        size_basic fa + size_areas p + sz_rank0 sz (cx_valid x) = size_with_areas sz (wider 1 x)).
    { intros s Hs. destruct (rated_fns s Hs) as [R1 R2].
      assert (G : forall k, In k (writes (FTails s)) \/ In k (writes (FHeads s)) -> fget d k = Some (content k)) by (intros k [Hk|Hk]; apply H, in_all; eauto).
      unfold load_pack, load_item.
      rewrite (load_nums_ok _ _ _ (G (KSampled s) ltac:(cbn; auto 12))). cbn [bind].
      rewrite (load_bits_ok _ _ _ (G (KSampledHeadsBvSd s) ltac:(cbn; auto 12))). cbn [bind].
      rewrite (load_nums_ok _ _ _ (G (KSampledLinks s) ltac:(cbn; auto 12))). cbn [bind].
      rewrite (load_bits_ok _ _ _ (G (KSampledIdxBvSd s) ltac:(cbn; auto 12))). cbn [bind].
      rewrite (load_bits_ok _ _ _ (G (KMarkedBv s) ltac:(cbn; auto 12))). cbn [bind].
      rewrite (load_nums_ok _ _ _ (G (KAreas s) ltac:(cbn; auto 12))). cbn [bind].
      eexists. split; [reflexivity|]. intros b0 f0 ps -> ->. rewrite closed_parts. eexists. split; [reflexivity|]. cbv zeta.
      match goal with |- ?z = ?y /\ _ => assert (EW : z = y) end.
      { unfold cix_of, wider. cbn [if_bwt if_f it_val pk_tails pk_idx pk_heads pk_links pk_marked pk_areas cx_bwt cx_f cx_rate cx_samples cx_idx cx_marks cx_links cx_valid cx_areas].
        rewrite map_map. reflexivity. }
      split; [exact EW|]. rewrite <- EW. clear. unfold T.
      unfold size_with_areas, size_with_marks, size_sampled, size_basic, size_pack, size_marks, size_areas, size_pack, cix_of, computed.
      cbn [if_bwt if_f it_val it_size pk_tails pk_idx pk_heads pk_links pk_marked pk_areas pk_rank_heads pk_select_heads pk_rank_idx pk_rank_marked
        cx_bwt cx_f cx_rate cx_samples cx_idx cx_marks cx_links cx_valid cx_areas]. lia. }
    unfold make_factory. rewrite (H KRle) by (cbn; auto 20). cbn [ItemsProof.content bind]. unfold load_item.
    rewrite (load_nums_ok _ _ _ (H KF ltac:(cbn; auto 20))). cbn [bind]. unfold load_pack0, load_item.
    rewrite (load_nums_ok _ _ _ (H KTailsText ltac:(cbn; auto 20))). cbn [bind].
    rewrite (load_bits_ok _ _ _ (H KHeadsBvSd ltac:(cbn; auto 20))). cbn [bind].
    rewrite (load_nums_ok _ _ _ (H KLinks ltac:(cbn; auto 20))). cbn [bind].
    change (doubling 10 4 512) with rates.
    assert (Q : forall l, incl l rates -> exists packs, mmap (fun s => p <- load_pack sz d s ;; Some (s, p)) l = Some packs /\
      forall s, In s l -> exists p, find (fun sp => fst sp =? s) packs = Some (s, p) /\ load_pack sz d s = Some p).
    { induction l as [|s l IH]; intros Hl; [exists []; split; [reflexivity|intros s []]|]. destruct (P s (Hl s (or_introl eq_refl))) as (p & Ep & _).
      destruct IH as (packs & E & Hf); [intros x Hx; apply Hl; right; exact Hx|]. exists ((s, p) :: packs). cbn [mmap]. rewrite Ep. cbn [bind]. rewrite E. split; [reflexivity|].
      intros s' Hs. cbn [find fst]. destruct (Nat.eqb_spec s s') as [<-|N]; [eauto|]. destruct Hs as [|Hs]; [congruence|auto]. }
    destruct (Q rates ltac:(intros x; auto)) as (packs & E & Hf). rewrite E. cbn [bind]. eexists. split; [reflexivity|]. split; [reflexivity|]. split.
    - eexists. split; [reflexivity|]. split; [rewrite classic_parts; reflexivity|]. clear.
      unfold size_classic, size_basic, size_pack, cri_of, computed, fresh.
      cbn [if_bwt if_f it_val it_size pk_tails pk_idx pk_heads pk_links pk_marked pk_areas pk_rank_heads pk_select_heads pk_rank_idx pk_rank_marked
        cr_bwt cr_f cr_samples cr_marks cr_links]. lia.
    - intros s Hs. destruct (Hf s Hs) as (p & F1 & F2). exists p. unfold pack_at. cbn [if_packs find fst].
      replace (0 =? s) with false by (symmetry; apply Nat.eqb_neq; cbn in Hs; intuition lia).
      destruct (P s Hs) as (p' & F3 & X). rewrite F2 in F3. injection F3 as <-.
      destruct (X (mk_item bwt (sz_rle sz bwt)) (mk_item f (sz_vector sz f)) ((0, mk_ipack (mk_item (tmarks T sa) (sz_nums sz (tmarks T sa))) (mk_item (bits_of (hmarks T sa) (len T)) (sz_sd sz (bits_of (hmarks T sa) (len T))))
        (computed (sz_rank_sd sz) (bits_of (hmarks T sa) (len T))) (computed (sz_select_sd sz) (bits_of (hmarks T sa) (len T)))
        (mk_item (blinks T sa) (sz_nums sz (blinks T sa))) fresh fresh fresh fresh fresh) :: packs) eq_refl eq_refl) as (x & X1 & X2).
      exists x. rewrite F1. split; [reflexivity|]. split; [exact X1|]. exact X2.
  Qed.
End Whole.

(** * Queries *)
Section Counting.
  Variables (w : list nat) (over : list nat -> Prop) (locate : list nat -> option (list nat)).
  Hypothesis locate_ok : forall p, over p -> exists l, locate p = Some l /\ occurrences w p (length l).
  Notation good := (Forall (fun p => over (pt_decoded p))).
  Lemma macro_count k ps : 0 < k -> good ps -> exists n, macro_locate locate k ps = Some (mk_counters (length ps) n) /\ all_occurrences w (map pt_decoded ps) n.
  Proof.
    intros K G. assert (Q : forall t, exists n, mfold (fun total p => occs <- locate (pt_decoded p) ;; Some (total + length occs)) ps t = Some (t + n) /\
      all_occurrences w (map pt_decoded ps) n).
    { induction G as [|p ps Hp G IH]; intros t; [exists 0; split; [cbn; f_equal; lia|exists []; split; [constructor|reflexivity]]|].
      destruct (locate_ok _ Hp) as (l & L & X). destruct (IH (t + length l)) as (n & E & ns & F & S). exists (length l + n).
      cbn [mfold]. rewrite L. cbn [bind]. rewrite E. split; [f_equal; lia|]. exists (length l :: ns). split; [constructor; [exact X|exact F]|rewrite sum_cons; lia]. }
    destruct (Q 0) as (n & E & H). exists n. split; [|exact H]. unfold macro_locate, macro_round. rewrite E, mfold_rounds by exact K. reflexivity.
  Qed.
  Lemma print_count k ps : 0 < k -> good ps -> exists n out ls, print_locate locate k ps = Some (mk_counters (length ps) n, out) /\
    all_occurrences w (map pt_decoded ps) n /\ Forall2 (fun p l => occurrences w p (length l)) (map pt_decoded ps) ls /\ report (map pt_encoded ps) ls out.
  Proof.
    intros K G. assert (Q : forall t o, exists n out ls, mfold (print_step locate) ps (t, o) = Some (t + n, o ++ out) /\
      all_occurrences w (map pt_decoded ps) n /\ Forall2 (fun p l => occurrences w p (length l)) (map pt_decoded ps) ls /\ report (map pt_encoded ps) ls out).
    { induction G as [|p ps Hp G IH]; intros t o.
      - exists 0, [], []. split; [cbn; f_equal; f_equal; [lia|rewrite app_nil_r; reflexivity]|]. split; [exists []; split; [constructor|reflexivity]|]. split; constructor.
      - destruct (locate_ok _ Hp) as (l & L & X). assert (PP : Permutation (std_sort Nat.ltb l) l) by (apply (std_sort_perm (fun x => x))).
        set (b := pt_encoded p ++ [10] ++ flat_map (fun item => [32; 32] ++ shown item ++ [10]) (std_sort Nat.ltb l)).
        destruct (IH (t + length l) (o ++ b)) as (n & out & ls & E & (ns & F & S) & A & R).
        exists (length l + n), (b ++ out), (std_sort Nat.ltb l :: ls). cbn [mfold print_step]. rewrite L. cbn [bind]. fold b. rewrite E.
        split; [f_equal; f_equal; [lia|rewrite app_assoc; reflexivity]|]. split.
        { exists (length l :: ns). split; [constructor; [exact X|exact F]|rewrite sum_cons; lia]. }
        split; [constructor; [rewrite (Permutation_length PP); exact X|exact A]|].
        constructor; [|exact R]. apply entry_lines. exists (map shown (std_sort Nat.ltb l)). split.
        + generalize (std_sort Nat.ltb l). clear. induction l; constructor; auto using shown_numeral.
        + unfold b. f_equal. f_equal. clear. induction (std_sort Nat.ltb l) as [|x r IH]; [reflexivity|]. cbn [flat_map map]. rewrite IH. reflexivity. }
    destruct (Q 0 []) as (n & out & ls & E & H). exists n, out, ls. split; [|exact H].
    unfold print_locate, print_round. rewrite E, mfold_rounds by exact K. reflexivity.
  Qed.
End Counting.

Definition byte_query (p : list nat) : Prop := p <> [] /\ Forall (fun c => c < 256) p.
Section Locating.
  Variables (data sa : list nat) (sort : list nat -> option (list nat)) (bwt : oldrle) (f : list nat).
  Hypothesis HD : item_data data.
  Hypothesis HSo : sorted_by sort data sa.
  Let w := zero_as_two data.
  Hypothesis Ebwt : old_construct 2 (map replace_zero (BW (terminated w) sa)) = Some bwt.
  Hypothesis Ef : f_table (BW (terminated w) sa) = Some f.
  Let Hw2 : Forall (fun c => 1 < c < 255) w := whole_w data HD.
  Let HSA : is_suffix_array (terminated w) sa := proj2 HSo.
  Let H2 : 0 < 2 := Nat.lt_0_succ 1.
  Variable sz : sizes.

  (** What an index of the program is. *)
  Definition is_index (k : ikind) (s : nat) (locate : list nat -> option (list nat)) (size : nat) : Prop :=
    match k with
    | IRIndex => exists c, construct_cri 2 w sa = Some c /\ locate = cr_locate c /\ size = size_classic sz c
    | ISampled => exists y, construct_closed 2 s w sa = Some y /\ locate = closed_simple_locate (wider 1 y) /\ size = size_sampled sz (wider 1 y)
    | IMarks => exists y, construct_closed 2 s w sa = Some y /\ locate = closed_marks_locate (wider 1 y) /\ size = size_with_marks sz (wider 1 y)
    | IAreas => exists y, construct_closed 2 s w sa = Some y /\ locate = closed_areas_locate (wider 1 y) /\ size + sz_rank0 sz (cx_valid y) = size_with_areas sz (wider 1 y)
    end.
  Lemma indexes_ok d : holds w sa bwt f d all_files -> exists fa xs, make_factory sz d = Some fa /\ it_val (if_bwt fa) = bwt /\ ri_indexes fa = Some xs /\
    Forall2 (fun c x => rx_name x = fst c /\ is_index (fst (snd c)) (snd (snd c)) (rx_locate x) (rx_size x)) ri_configs xs.
  Proof.
    intros H. destruct (factory_ok data sa sort bwt f HD HSo Ebwt Ef sz d H) as (fa & E1 & E2 & (p0 & P0 & C0 & S0) & P). exists fa.
    assert (Q : forall l, incl l ri_configs -> exists xs, mmap (fun '(name, (k, s)) => '(ix, size) <- make_index fa k s ;; Some (mk_ri_index name ix size)) l = Some xs /\
      Forall2 (fun c x => rx_name x = fst c /\ is_index (fst (snd c)) (snd (snd c)) (rx_locate x) (rx_size x)) l xs).
    { induction l as [|[nm [k s]] l IH]; intros Hl; [exists []; split; [reflexivity|constructor]|].
      destruct IH as (xs & E & F); [intros c Hc; apply Hl; right; exact Hc|].
      assert (Hs : k <> IRIndex -> In s rates).
      { intros N. pose proof (Hl _ (or_introl eq_refl)) as I. cbn in I. repeat destruct I as [I|I]; try contradiction; injection I as _ <- <-; try congruence; cbn; auto 12. }
      assert (X : exists ix size, make_index fa k s = Some (ix, size) /\ is_index k s ix size).
      { unfold make_index, is_index. destruct k.
        - rewrite P0. cbn [bind]. do 2 eexists. split; [reflexivity|]. eauto.
        - destruct (P s (Hs ltac:(discriminate))) as (p & y & Q1 & Q2 & Q3 & Q4 & Q5 & Q6). rewrite Q1. cbn [bind]. do 2 eexists. split; [reflexivity|]. rewrite Q3. eauto.
        - destruct (P s (Hs ltac:(discriminate))) as (p & y & Q1 & Q2 & Q3 & Q4 & Q5 & Q6). rewrite Q1. cbn [bind]. do 2 eexists. split; [reflexivity|]. rewrite Q3. eauto.
        - destruct (P s (Hs ltac:(discriminate))) as (p & y & Q1 & Q2 & Q3 & Q4 & Q5 & Q6). rewrite Q1. cbn [bind]. do 2 eexists. split; [reflexivity|]. rewrite Q3. eauto. }
      destruct X as (ix & size & Ei & Hi). cbn [mmap]. rewrite Ei. cbn [bind]. rewrite E. eexists. split; [reflexivity|].
      constructor; [split; [reflexivity|exact Hi]|exact F]. }
    destruct (Q ri_configs ltac:(intros c; auto)) as (xs & E & F). exists xs. auto.
  Qed.
  Lemma sampled_exact k s locate size : is_index k s locate size -> k <> IRIndex -> forall p, byte_query p -> exists l, locate p = Some l /\ exact_answer p w l.
  Proof.
    intros H N p [Hp HB].
    destruct k; [congruence| | |]; destruct H as (y & Ey & -> & _);
      pose proof (closed_answers_wider w sa w 2 s Hw2 HSA (or_introl eq_refl) H2 1 y p ltac:(lia) Ey Hp HB) as (A1 & A2 & A3).
    - exact (proj1 (ClosedGlue.answers_exact w sa 2 Hw2 HSA H2 _ _ p Hp A1)).
    - exact (proj1 (ClosedGlue.answers_exact w sa 2 Hw2 HSA H2 _ _ p Hp A2)).
    - exact (proj1 (ClosedGlue.answers_exact w sa 2 Hw2 HSA H2 _ _ p Hp A3)).
  Qed.
  Lemma any_counts k s locate size : is_index k s locate size -> forall p, byte_query p -> exists l, locate p = Some l /\ occurrences w p (length l).
  Proof.
    intros H p Hq. assert (D : k = IRIndex \/ k <> IRIndex) by (destruct k; auto; right; discriminate). destruct D as [->|N].
    - destruct H as (c & Ec & -> & _). destruct Hq as [Hp HB].
      destruct (classic_answers w sa w 2 Hw2 HSA (or_introl eq_refl) H2 c Ec p Hp HB) as [(st & e & Hl & HI & _ & ->)|(HN & _ & ->)].
      + eexists. split; [reflexivity|]. assert (L : length sa = FM.len (ctext w sa)) by (rewrite (sa_length _ sa HSA); symmetry; apply ctext_len).
        cbn [length]. rewrite rev_length, Glue.rows_length by (destruct HI as [HI _]; lia).
        replace (S _) with (e - st) by (destruct HI as [HI _]; lia). exact (rows_occurrences p w sa st e HSA HI).
      + exists []. split; [reflexivity|]. exists []. split; [|reflexivity]. split; [constructor|]. intros i. split; [intros []|intros X; destruct (HN i X)].
    - destruct (sampled_exact k s locate size H N p Hq) as (l & E & X). exists l. split; [exact E|]. exists l. auto.
  Qed.

  Lemma bwt_size : old_size bwt = S (length data).
  Proof.
    destruct (items w sa 2 Hw2 HSA H2) as (R & b & g & E1 & E2 & E3 & _). rewrite Ebwt in E1. injection E1 as <-.
    rewrite (bx_size (ctext w sa) sa (ctext_sa w sa (Hw w 2 Hw2 H2) HSA) 2 R bwt E2 (cdec w sa) (ci_D w sa 2 Hw2 HSA H2 R E3)).
    rewrite (ctext_len w sa). unfold FM.len, terminated, w, zero_as_two. rewrite app_length, map_length. cbn. lia.
  Qed.
  Lemma outputs_distinct : forall i j c c', nth_error ri_configs i = Some c -> nth_error ri_configs j = Some c' -> ri_output (fst c) = ri_output (fst c') -> i = j.
  Proof.
    assert (N : NoDup (map (fun c => ri_output (fst c)) ri_configs)).
    { repeat (constructor; [vm_compute; intuition discriminate|]). constructor. }
    intros i j c c' Ei Ej E. rewrite NoDup_nth_error in N. apply N.
    - rewrite map_length. apply nth_error_Some. congruence.
    - rewrite !nth_error_map, Ei, Ej. cbn [option_map]. f_equal. exact E.
  Qed.
  Lemma Forall2_nth {A B} (P : A -> B -> Prop) l m : Forall2 P l m -> forall i x, nth_error l i = Some x -> exists y, nth_error m i = Some y /\ P x y.
  Proof. induction 1; intros [|i] z E; cbn in *; try discriminate; [injection E as <-; eauto|auto]. Qed.

  Lemma program_ok d file ps js : holds w sa bwt f d all_files -> line_patterns file ps -> Forall (fun p => Forall (fun c => c < 256) (pt_decoded p)) ps ->
    Forall (fun j => rj_idx j < length ri_configs) js ->
    exists rs outs, ri_program sz d file js = Some (rs, outs) /\
      Forall2 (fun j r => ri_reported data ps r /\
        exists c locate, nth_error ri_configs (rj_idx j) = Some c /\ is_index (fst (snd c)) (snd (snd c)) locate (rc_size r)) js rs /\
      (forall j c, In j js -> rj_print j = true -> nth_error ri_configs (rj_idx j) = Some c -> exists out, out_find outs (ri_output (fst c)) = Some out) /\
      (forall i c out, nth_error ri_configs i = Some c -> out_find outs (ri_output (fst c)) = Some out ->
         (0 < i -> report_of w ps out) /\
         exists ls, Forall2 (fun p l => occurrences w p (length l)) (map pt_decoded ps) ls /\ report (map pt_encoded ps) ls out).
  Proof.
    intros H (ls & HL & EP) HB HJ.
    assert (Eps : ri_patterns file = Some ps).
    { unfold ri_patterns. destruct HL as (NE & F & ->). destruct ls as [|l ls]; [contradiction|]. inversion F; subst.
      rewrite patterns_loop_ok; auto. rewrite mmap_plain. reflexivity. }
    assert (HG : Forall (fun p => byte_query (pt_decoded p)) ps).
    { rewrite Forall_forall in HB |- *. intros p Hp. split; [|apply HB, Hp]. subst ps. apply in_map_iff in Hp. destruct Hp as (l & <- & Hl). apply filter_In in Hl.
      destruct l; [destruct Hl; discriminate|discriminate]. }
    destruct (indexes_ok d H) as (fa & xs & E1 & E2 & E3 & F). unfold ri_program. rewrite Eps. cbn [bind]. rewrite E1. cbn [bind]. rewrite E3. cbn [bind].
    set (good_out := fun nm out => forall i c, nth_error ri_configs i = Some c -> nm = ri_output (fst c) ->
      (0 < i -> report_of w ps out) /\ exists ls, Forall2 (fun p l => occurrences w p (length l)) (map pt_decoded ps) ls /\ report (map pt_encoded ps) ls out).
    assert (C : forall j, rj_idx j < length ri_configs -> exists c r os, nth_error ri_configs (rj_idx j) = Some c /\ ri_call fa xs ps j = Some (r, os) /\
      ri_reported data ps r /\ (exists locate, is_index (fst (snd c)) (snd (snd c)) locate (rc_size r)) /\
      Forall (fun o => good_out (fst o) (snd o)) os /\ (rj_print j = true -> exists out, os = [(ri_output (fst c), out)])).
    { intros j Hj. destruct (nth_error ri_configs (rj_idx j)) as [c|] eqn:Ec; [|apply nth_error_None in Ec; lia].
      destruct (Forall2_nth _ _ _ F _ _ Ec) as (x & Ex & Nx & Ix). exists c. unfold ri_call. rewrite Ex. cbn [bind]. rewrite E2, bwt_size.
      destruct (rj_print j) eqn:EPr.
      - destruct (print_count w byte_query (rx_locate x) (any_counts _ _ _ _ Ix) (S (rj_more j)) ps ltac:(lia) HG) as (m & out & lr & Ep & A & B & R).
        rewrite Ep. cbn [bind]. do 2 eexists. split; [reflexivity|]. split; [reflexivity|]. split; [split; [reflexivity|split; [reflexivity|exact A]]|].
        split; [exists (rx_locate x); exact Ix|]. split; [|intros _; rewrite Nx; eauto].
        constructor; [|constructor]. intros i c' Ei Eo. cbn [fst snd] in *. rewrite Nx in Eo.
        pose proof (outputs_distinct _ _ _ _ Ec Ei Eo) as <-. split; [|exists lr; auto]. intros Hi.
        assert (NI : fst (snd c) <> IRIndex).
        { clear - Hi Ec. revert Hi Ec. generalize (rj_idx j). intros i Hi Ec. destruct i as [|i]; [lia|].
          assert (A : Forall (fun c => fst (snd c) <> IRIndex) (tl ri_configs)) by (cbn [tl ri_configs]; repeat (apply Forall_cons; [discriminate|]); apply Forall_nil).
          rewrite Forall_forall in A. apply A. exact (nth_error_In _ i Ec). }
        destruct (print_ok w byte_query (rx_locate x) (sampled_exact _ _ _ _ Ix NI) (S (rj_more j)) ps ltac:(lia) HG) as (m' & out' & lr' & Ep' & A' & B' & R').
        rewrite Ep in Ep'. injection Ep' as _ <-. exists lr'. auto.
      - destruct (macro_count w byte_query (rx_locate x) (any_counts _ _ _ _ Ix) (S (rj_more j)) ps ltac:(lia) HG) as (m & Em & A).
        rewrite Em. cbn [bind]. do 2 eexists. split; [reflexivity|]. split; [reflexivity|]. split; [split; [reflexivity|split; [reflexivity|exact A]]|].
        split; [exists (rx_locate x); exact Ix|]. split; [constructor|discriminate]. }
    assert (Q : forall js, Forall (fun j => rj_idx j < length ri_configs) js -> forall rs0 outs0, Forall (fun o => good_out (fst o) (snd o)) outs0 ->
      exists rs outs, mfold (ri_step fa xs ps) js (rs0, outs0) = Some (rs0 ++ rs, outs ++ outs0) /\
        Forall2 (fun j r => ri_reported data ps r /\ exists c locate, nth_error ri_configs (rj_idx j) = Some c /\ is_index (fst (snd c)) (snd (snd c)) locate (rc_size r)) js rs /\
        Forall (fun o => good_out (fst o) (snd o)) (outs ++ outs0) /\
        (forall j c, In j js -> rj_print j = true -> nth_error ri_configs (rj_idx j) = Some c -> In (ri_output (fst c)) (map fst outs))).
    { clear js HJ. induction js as [|j js IH]; intros HJ rs0 outs0 G0.
      - exists [], []. cbn [mfold app]. rewrite app_nil_r. split; [reflexivity|]. split; [constructor|]. split; [exact G0|]. intros j c [].
      - inversion HJ as [|? ? Hj HJ']; subst. destruct (C j Hj) as (c & r & os & Ec & Er & Rr & (lc & Il) & Go & Pr). cbn [mfold]. unfold ri_step at 1. rewrite Er. cbn [bind fst snd].
        destruct (IH HJ' (rs0 ++ [r]) (os ++ outs0)) as (rs & outs & E & Fr & G & P); [apply Forall_app; auto|].
        exists (r :: rs), (outs ++ os). rewrite E, <- !app_assoc. split; [reflexivity|]. split; [constructor; [split; [exact Rr|eauto]|exact Fr]|]. split; [exact G|].
        intros j' c' [<-|Hj'] Hp Ec'; rewrite map_app; apply in_app_iff.
        + right. destruct (Pr Hp) as (out & ->). rewrite Ec in Ec'. injection Ec' as <-. left. reflexivity.
        + left. eapply P; eauto. }
    destruct (Q js HJ [] [] ltac:(constructor)) as (rs & outs & E & Fr & G & P). cbn [app] in E. rewrite app_nil_r in E, G. exists rs, outs. split; [exact E|]. split; [exact Fr|]. split.
    - intros j c Hj Hp Ec. specialize (P j c Hj Hp Ec). clear - P. induction outs as [|[x o] outs IH]; [destruct P|]. cbn [out_find]. destruct (String.eqb_spec x (ri_output (fst c))) as [|N]; [eauto|].
      apply IH. destruct P as [P|P]; [contradiction|exact P].
    - intros i c out Ei Eo. assert (I : In (ri_output (fst c), out) outs).
      { clear - Eo. induction outs as [|[x o] outs IH]; [discriminate|]. cbn [out_find] in Eo. destruct (String.eqb_spec x (ri_output (fst c))) as [<-|N]; [injection Eo as <-; left; auto|right; auto]. }
      rewrite Forall_forall in G. exact (G _ I i c Ei eq_refl).
  Qed.

  Lemma index_sizes d c locate size : holds w sa bwt f d all_files -> In c ri_configs -> is_index (fst (snd c)) (snd (snd c)) locate size ->
    match fst (snd c) with
    | IAreas => exists x, sampled_in d (snd (snd c)) x /\ size + sz_rank0 sz (cx_valid x) = size_with_areas sz x
    | _ => sized sz d c size
    end.
  Proof.
    intros H Hc I. destruct c as [nm [k s]]. cbn [fst snd] in *.
    assert (Hs : k <> IRIndex -> In s rates).
    { intros N. cbn in Hc. repeat destruct Hc as [Hc|Hc]; try contradiction; injection Hc as _ <- <-; try congruence; cbn; auto 12. }
    assert (HI : forall y, k <> IRIndex -> construct_closed 2 s w sa = Some y -> sampled_in d s (wider 1 y)).
    { intros y N Ey. unfold w in Ey. rewrite (closed_parts data sa sort bwt f HD HSo Ebwt Ef s) in Ey. injection Ey as <-. destruct (rated_fns s (Hs N)) as [R1 R2].
      assert (G : forall k, In k (writes (FTails s)) \/ In k (writes (FHeads s)) -> fget d k = Some (content w sa bwt f k)) by (intros k' [Hk|Hk]; apply H, in_all; eauto).
      unfold sampled_in, wider. cbn [cx_bwt cx_f cx_samples cx_idx cx_marks cx_links cx_valid cx_areas].
      rewrite (H KRle) by (cbn; auto 20). rewrite (H KF) by (cbn; auto 20).
      rewrite (G (KSampled s)) by (cbn; auto 12). rewrite (G (KSampledIdxBvSd s)) by (cbn; auto 12). rewrite (G (KSampledHeadsBvSd s)) by (cbn; auto 12).
      rewrite (G (KSampledLinks s)) by (cbn; auto 12). rewrite (G (KMarkedBv s)) by (cbn; auto 12). rewrite (G (KAreas s)) by (cbn; auto 14).
      rewrite map_map. repeat split; reflexivity. }
    destruct k; cbn [sized].
    - destruct I as (x & Ex & _ & ->). exists x. split; [|reflexivity]. unfold w in Ex. rewrite (classic_parts data sa sort bwt f HD HSo Ebwt Ef) in Ex. injection Ex as <-.
      unfold classic_in. cbn [cr_bwt cr_f cr_samples cr_marks cr_links].
      rewrite (H KRle) by (cbn; auto 20). rewrite (H KF) by (cbn; auto 20). rewrite (H KTailsText) by (cbn; auto 20).
      rewrite (H KHeadsBvSd) by (cbn; auto 20). rewrite (H KLinks) by (cbn; auto 20). repeat split; reflexivity.
    - destruct I as (y & Ey & _ & ->). exists (wider 1 y). split; [apply HI; [discriminate|exact Ey]|reflexivity].
    - destruct I as (y & Ey & _ & ->). exists (wider 1 y). split; [apply HI; [discriminate|exact Ey]|reflexivity].
    - destruct I as (y & Ey & _ & E). exists (wider 1 y). split; [apply HI; [discriminate|exact Ey]|exact E].
  Qed.
End Locating.
