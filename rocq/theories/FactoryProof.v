(** Proofs about the factories of the benchmarks. *)
From Coq Require Import List Arith Bool String Lia.
From Verif Require Import Spec MBase MRle MConstruct MPhi MRIndex MStore SpecStore StoreProof StoreClass StoreTrip StoreRound StoreBuilt StoreEnd
  MFactory SpecFactory.
Import ListNotations.

(** * What a load leaves *)
Lemma run_app p a : forall b s, run p (a ++ b) s = bind (run p a s) (run p b).
Proof. induction a as [|c a IH]; intros b s; [reflexivity|]. cbn. destruct (exec p c s); [cbn; apply IH|reflexivity]. Qed.
Lemma run_left_prefix p cs : Forall cmd_ok cs -> forall s, exists cs' rest, Forall cmd_ok cs' /\ run p cs' s = Some (run_left p cs s) /\
  flat_map reqs cs = flat_map reqs cs' ++ rest.
Proof.
  induction 1 as [|c cs Hc HF IH]; intros s; [exists [], []; repeat split; constructor|]. cbn [run_left].
  destruct (exec p c s) as [s1|] eqn:E.
  - destruct (IH s1) as (cs' & rest & F & R & P). exists (c :: cs'), rest. split; [constructor; auto|]. split; [cbn; rewrite E; exact R|].
    cbn. rewrite P, app_assoc. reflexivity.
  - unfold exec_left. rewrite E. destruct c as [t k h|sp k h].
    + exists [], (flat_map reqs (LItem t k h :: cs)). repeat split; constructor.
    + destruct (load_raw (TyBv (sup_class sp)) (realize p k) h s) as [s1|] eqn:E1.
      * exists [LItem (TyBv (sup_class sp)) k h], (mk_srq (add_suffix k (sup_suffix sp)) (TySup sp) k h (Some k) :: flat_map reqs cs).
        split; [repeat constructor|]. split; [cbn; rewrite E1; reflexivity|]. reflexivity.
      * exists [], (flat_map reqs (LSup sp k h :: cs)). repeat split; constructor.
Qed.
Lemma needed_prefix a b : forall seen, incl (needed seen a) (needed seen (a ++ b)).
Proof.
  induction a as [|r a IH]; intros seen x Hx; [destruct Hx|]. cbn [needed app] in *.
  destruct (in_dec string_dec (rq_key r) seen); [exact (IH _ x Hx)|]. destruct Hx as [->|Hx]; [left; reflexivity|right; exact (IH _ x Hx)].
Qed.

Section Proofs.
  Variables (E : Type) (rank_of : E -> nat) (kind_of : E -> kind) (tm : tmpl).
  Hypothesis rank_inj : forall a b, rank_of a = rank_of b -> a = b.
  Hypothesis no_clash : forall a b, clash (kind_of a) (kind_of b) = false.
  Notation mk := (make E rank_of kind_of tm).
  Notation find := (made_find E rank_of).

  Lemma cfg_equiv (a b : cfg E) : negb (cfg_lt E rank_of a b) && negb (cfg_lt E rank_of b a) = true <-> a = b.
  Proof.
    unfold cfg_lt. destruct a as [ea ra], b as [eb rb]; cbn [cf_type cf_rate]. split.
    - intros H. apply andb_prop in H as (H1 & H2). apply negb_true_iff, orb_false_iff in H1 as (A1 & A2), H2 as (B1 & B2).
      apply Nat.ltb_ge in A1, B1. assert (rank_of ea = rank_of eb) by lia.
      rewrite H in *. rewrite Nat.eqb_refl in *. cbn in A2, B2. apply Nat.ltb_ge in A2, B2. f_equal; [auto|lia].
    - intros H. injection H as -> ->. rewrite Nat.ltb_irrefl, Nat.eqb_refl, Nat.ltb_irrefl. reflexivity.
  Qed.
  Lemma find_in l c h : find l c = Some h -> In (c, h) l.
  Proof.
    induction l as [|[x h'] l IH]; [discriminate|]. cbn [made_find].
    destruct (negb (cfg_lt E rank_of x c) && negb (cfg_lt E rank_of c x)) eqn:Q.
    - intros H. injection H as ->. apply cfg_equiv in Q as ->. left. reflexivity.
    - intros H. right. auto.
  Qed.
  Lemma find_cons c h l : find ((c, h) :: l) c = Some h.
  Proof. cbn [made_find]. rewrite (proj2 (cfg_equiv c c) eq_refl). reflexivity. Qed.
  Lemma find_other c d h l : c <> d -> find ((c, h) :: l) d = find l d.
  Proof.
    intros N. cbn [made_find]. destruct (negb (cfg_lt E rank_of c d) && negb (cfg_lt E rank_of d c)) eqn:Q; [|reflexivity].
    apply cfg_equiv in Q. contradiction.
  Qed.

  Notation L := (fun kd => exists e, kd = kind_of e).
  (** Each item of the storage is what a file of the directory has for a request of one of the classes. *)
  Definition entries (fs : files) (st : store) : Prop := forall k e, st_find st k = Some e ->
    exists kd rate r, L kd /\ In r (class_needs tm kd) /\ k = realize (rate_prefix rate) (sq_key r) /\
      e = entry_of (rate_prefix rate) (file_item fs (rate_prefix rate)) r /\
      exists c it j, file_find fs (realize (rate_prefix rate) (sq_file r)) (file_hash r) = Some c /\ rd_item (sq_ty r) c = Some (it, j).
  Lemma file_item_extends fs fs' p r c it j : extends fs fs' -> file_find fs (realize p (sq_file r)) (file_hash r) = Some c ->
    rd_item (sq_ty r) c = Some (it, j) -> file_item fs' p r = file_item fs p r.
  Proof. intros X F R. unfold file_item. rewrite F, (X _ _ _ F). reflexivity. Qed.
  Lemma entries_extends fs fs' st : extends fs fs' -> entries fs st -> entries fs' st.
  Proof.
    intros X H k e Hk. destruct (H k e Hk) as (kd & rate & r & HL & Hr & K & Ee & c & it & j & F & R).
    exists kd, rate, r. split; [exact HL|]. split; [exact Hr|]. split; [exact K|].
    split; [|exists c, it, j; split; [apply X; exact F|exact R]]. rewrite Ee. unfold entry_of. f_equal.
    symmetry. exact (file_item_extends fs fs' _ r c it j X F R).
  Qed.
  Lemma complete_extends fs fs' kd p : extends fs fs' -> complete tm kd p fs -> complete tm kd p fs'.
  Proof. intros X H r Hr. destruct (H r Hr) as (c & it & j & F & R). exists c, it, j. split; [apply X; exact F|exact R]. Qed.
  (** The entry a class finds under one of its keys. *)
  Lemma entry_right fs st kd rate r e : entries fs st -> L kd -> In r (class_needs tm kd) ->
    st_find st (realize (rate_prefix rate) (sq_key r)) = Some e ->
    e = entry_of (rate_prefix rate) (file_item fs (rate_prefix rate)) r /\
    exists c it j, file_find fs (realize (rate_prefix rate) (sq_file r)) (file_hash r) = Some c /\ rd_item (sq_ty r) c = Some (it, j).
  Proof.
    intros H (t & ->) Hr He. destruct (H _ _ He) as (kd' & s' & r' & (t' & ->) & Hr' & K & Ee & Q).
    apply realize_rate_inj in K as (K & KS); [|apply needs_letter in Hr; tauto|apply needs_letter in Hr'; tauto].
    assert (r = r') by (apply (compat_all tm (kind_of t) (kind_of t') (no_clash _ _)); auto). subst r'.
    destruct (fst (sq_key r)) eqn:Fk; [rewrite (KS eq_refl) in *; auto|].
    split.
    - rewrite Ee. apply (plain_entry tm (kind_of t)); auto. congruence.
    - pose proof (reqs_file tm _ r Hr) as RF. unfold file_key in RF. pose proof (needs_ptr tm _ r Hr) as HP.
      replace (realize (rate_prefix rate) (sq_file r)) with (realize (rate_prefix s') (sq_file r)); [exact Q|]. unfold realize.
      replace (fst (sq_file r)) with false; [reflexivity|]. rewrite RF. destruct (sq_ptr r) as [k|]; [|auto].
      destruct HP as (sp & _ & Hk & _). rewrite Hk in Fk. cbn in Fk. auto.
  Qed.
  (** Any part of a load keeps the storage in order. *)
  Lemma part_entries fs st kd rate cs rest s : wf_store st -> entries fs st -> L kd -> Forall cmd_ok cs ->
    class_reqs tm kd = flat_map reqs cs ++ rest -> run (rate_prefix rate) cs (mk_lstate st (SrcFiles fs) []) = Some s ->
    wf_store (ls_store s) /\ grows st (ls_store s) /\ entries fs (ls_store s).
  Proof.
    intros W H HL F P R. destruct (run_reqs (rate_prefix rate) cs (mk_lstate st (SrcFiles fs) []) F W) as (Q1 & Q2).
    split; [exact (Q2 s R)|]. rewrite R in Q1. symmetry in Q1. pose proof (do_reqs_spec _ _ _ Q1) as (G & _). split; [exact G|].
    intros k e Hk. destruct (do_reqs_files fs _ [] _ _ Q1 eq_refl) with (k := k) (e := e) as [X|(q & c & j & X1 & X2 & X3 & X4 & X5)]; auto.
    apply (needed_prefix _ (map (rz_rq (rate_prefix rate)) rest)) in X1. rewrite <- map_app, <- P, needed_class in X1 by apply rate_prefix_good.
    apply in_map_iff in X1 as (r & <- & Hr). unfold rz_rq in *. cbn [rq_key rq_file rq_hash rq_ty rq_ptr] in *.
    exists kd, rate, r. split; [exact HL|]. split; [exact Hr|]. split; [auto|]. split.
    - unfold entry_of, file_item, file_hash. rewrite X3, X4. destruct e; cbn in *; congruence.
    - exists c, (en_item e), j. split; [exact X3|exact X4].
  Qed.
  Lemma left_ok fs st kd rate : wf_store st -> entries fs st -> L kd -> let st' := load_left tm kd (new_rate rate st) fs in
    wf_store st' /\ grows st st' /\ entries fs st'.
  Proof.
    intros W H HL. cbn zeta. unfold load_left. cbn [new_rate ob_prefix ob_store].
    destruct (run_left_prefix (rate_prefix rate) (load_all tm kd ++ load_build tm kd) (cmds_ok tm kd) (mk_lstate st (SrcFiles fs) [])) as (cs & rest & F & R & P).
    exact (part_entries fs st kd rate cs rest _ W H HL F P R).
  Qed.
  Lemma load_in fs st kd rate o : wf_store st -> entries fs st -> L kd -> load_config tm kd (new_rate rate st) fs = Some o ->
    (wf_store (ob_store o) /\ grows st (ob_store o) /\ entries fs (ob_store o)) /\ ob_rate o = rate /\ ob_prefix o = rate_prefix rate /\
    complete tm kd (rate_prefix rate) fs /\ holds tm kd o (file_item fs (rate_prefix rate)).
  Proof.
    intros W H HL Lo. unfold load_config in Lo. apply bind_Some in Lo as ([o' s] & Lo & Q). injection Q as ->.
    destruct (load_holds tm kd (new_rate rate st) _ _ _ W Lo) as (P & R & _ & g & GC & Ho). cbn [new_rate ob_rate ob_prefix] in P, R.
    unfold load_from in Lo. apply bind_Some in Lo as (s1 & Lo & Q). injection Q as <- <-. cbn [ob_store ob_prefix ob_rate] in *. cbn [new_rate ob_prefix ob_store] in Lo, Ho.
    assert (A : wf_store (ls_store s1) /\ grows st (ls_store s1) /\ entries fs (ls_store s1)).
    { apply (part_entries fs st kd rate (class_cmds tm kd) [] s1 W H HL (cmds_ok tm kd)); [rewrite app_nil_r; reflexivity|exact Lo]. }
    split; [exact A|]. split; [reflexivity|]. split; [reflexivity|].
    assert (B : forall r, In r (class_needs tm kd) -> _) by (intros r Hr; exact (entry_right fs (ls_store s1) kd rate r _ (proj2 (proj2 A)) HL Hr (Ho r Hr))).
    split.
    - intros r Hr. exact (proj2 (B r Hr)).
    - intros r Hr. cbn [ob_store ob_prefix]. rewrite <- (proj1 (B r Hr)). exact (Ho r Hr).
  Qed.
  Lemma load_ok fs st kd rate : wf_store st -> entries fs st -> L kd -> complete tm kd (rate_prefix rate) fs ->
    exists o, load_config tm kd (new_rate rate st) fs = Some o.
  Proof.
    intros W H HL C. destruct (load_files tm kd (new_rate rate st) fs (rate_prefix_good rate) W C) as (o & Lo & _); [|eauto].
    intros r e Hr He. exact (proj1 (entry_right fs st kd rate r e H HL Hr He)).
  Qed.

  (** The index was loaded, and what it needs is in the storage. *)
  Definition serves (fs : files) (st : store) (c : cfg E) (h : handle) : Prop :=
    ha_kind h = kind_of (cf_type c) /\ ha_rate h = cf_rate c /\ ha_prefix h = rate_prefix (cf_rate c) /\
    complete tm (kind_of (cf_type c)) (rate_prefix (cf_rate c)) fs /\
    holds tm (kind_of (cf_type c)) (mk_obj (cf_rate c) (rate_prefix (cf_rate c)) st) (file_item fs (rate_prefix (cf_rate c))).
  Record finv (f : factory E) : Prop := mk_finv {
    fi_wf : wf_store (fa_store E f);
    fi_entries : entries (fa_files E f) (fa_store E f);
    fi_made : forall c h, In (c, h) (fa_made E f) -> serves (fa_files E f) (fa_store E f) c h }.
  Lemma finv_new fs : finv (new_factory E fs).
  Proof. split; [apply wf_empty|intros k e H; discriminate H|]. intros c h []. Qed.
  Lemma serves_grows fs st st' c h : grows st st' -> serves fs st c h -> serves fs st' c h.
  Proof.
    intros G (A & B & C & D & H). split; [exact A|]. split; [exact B|]. split; [exact C|]. split; [exact D|].
    intros r Hr. apply G. exact (H r Hr).
  Qed.
  Lemma serves_extends fs fs' st c h : extends fs fs' -> serves fs st c h -> serves fs' st c h.
  Proof.
    intros X (A & B & C & D & H). split; [exact A|]. split; [exact B|]. split; [exact C|].
    split; [exact (complete_extends fs fs' _ _ X D)|]. intros r Hr. rewrite (H r Hr). destruct (D r Hr) as (d & it & j & F & R).
    unfold entry_of. rewrite (file_item_extends fs fs' _ r d it j X F R). reflexivity.
  Qed.

  Lemma make_ok f c f' r : finv f -> mk f c = (f', r) ->
    finv f' /\ fa_files E f' = fa_files E f /\
    (forall d x, find (fa_made E f) d = Some x -> find (fa_made E f') d = Some x) /\
    (forall h, r = Some h -> find (fa_made E f') c = Some h) /\
    (complete tm (kind_of (cf_type c)) (rate_prefix (cf_rate c)) (fa_files E f) -> r <> None).
  Proof.
    intros I H. unfold make in H. destruct (find (fa_made E f) c) as [h|] eqn:F.
    - injection H as <- <-. split; [exact I|]. split; [reflexivity|]. split; [auto|]. split; [congruence|congruence].
    - assert (HL : L (kind_of (cf_type c))) by eauto.
      destruct (load_config tm (kind_of (cf_type c)) (new_rate (cf_rate c) (fa_store E f)) (fa_files E f)) as [o|] eqn:Lo; injection H as <- <-.
      + destruct (load_in _ _ _ _ _ (fi_wf f I) (fi_entries f I) HL Lo) as ((W & G & En) & R & P & C & Ho).
        split; [|split; [reflexivity|split; [|split; [|congruence]]]]; cbn [fa_files fa_store fa_made].
        * split; cbn [fa_files fa_store fa_made]; auto. intros d h [Q|Q].
          -- injection Q as <- <-. split; [reflexivity|]. split; [exact R|]. split; [exact P|]. split; [exact C|].
             intros q Hq. cbn [ob_store ob_prefix]. specialize (Ho q Hq). rewrite P in Ho. exact Ho.
          -- exact (serves_grows _ _ _ d h G (fi_made f I d h Q)).
        * intros d x Q. rewrite find_other; [exact Q|]. intros ->. congruence.
        * intros h Q. injection Q as <-. apply find_cons.
      + destruct (left_ok (fa_files E f) (fa_store E f) (kind_of (cf_type c)) (cf_rate c) (fi_wf f I) (fi_entries f I) HL) as (W & G & En).
        split; [|split; [reflexivity|split; [auto|split; [discriminate|]]]].
        * split; cbn [fa_files fa_store fa_made]; auto. intros d h Q. exact (serves_grows _ _ _ d h G (fi_made f I d h Q)).
        * intros C. destruct (load_ok _ _ _ (cf_rate c) (fi_wf f I) (fi_entries f I) HL C) as (o & Q). congruence.
  Qed.
  Lemma history_ok l : forall f, finv f -> only_adds (fa_files E f) l -> forall f' rs, history E rank_of kind_of tm f l = (f', rs) ->
    finv f' /\ extends (fa_files E f) (fa_files E f') /\
    (forall d x, find (fa_made E f) d = Some x -> find (fa_made E f') d = Some x) /\
    forall i c, nth_error l i = Some (FMake c) ->
      extends (dir_after (fa_files E f) (firstn i l)) (fa_files E f') /\
      exists r, nth_error rs i = Some r /\ (forall h, r = Some h -> find (fa_made E f') c = Some h) /\
        (complete tm (kind_of (cf_type c)) (rate_prefix (cf_rate c)) (dir_after (fa_files E f) (firstn i l)) -> r <> None).
  Proof.
    induction l as [|e l IH]; intros f I A f' rs H.
    - injection H as <- <-. split; [exact I|]. split; [intros k h c Q; exact Q|]. split; [auto|]. intros [|i] c Q; discriminate Q.
    - cbn [history] in H. destruct (happen E rank_of kind_of tm f e) as [f1 r] eqn:Ev. destruct (history E rank_of kind_of tm f1 l) as [f2 rs2] eqn:Hs.
      injection H as <- <-. destruct e as [c|fs'].
      + cbn [happen] in Ev. cbn [only_adds] in A. destruct (make_ok f c f1 r I Ev) as (I1 & Ff & K & M & C).
        rewrite <- Ff in A. destruct (IH f1 I1 A f2 rs2 Hs) as (I2 & X & K2 & N). rewrite Ff in *.
        split; [exact I2|]. split; [exact X|]. split; [auto|]. intros [|i] d Q; cbn in Q.
        * injection Q as <-. cbn [firstn dir_after]. split; [exact X|]. exists r. split; [reflexivity|]. split; [|exact C].
          intros h Er. apply K2. apply M. exact Er.
        * cbn [firstn dir_after nth_error]. exact (N i d Q).
      + cbn [happen] in Ev. cbn [only_adds] in A. destruct A as (A1 & A2). injection Ev as <- <-.
        assert (I1 : finv (mk_factory E fs' (fa_store E f) (fa_made E f))).
        { split; cbn [fa_files fa_store fa_made]; [exact (fi_wf f I)|exact (entries_extends _ _ _ A1 (fi_entries f I))|].
          intros d h Q. exact (serves_extends _ _ _ d h A1 (fi_made f I d h Q)). }
        destruct (IH _ I1 A2 f2 rs2 Hs) as (I2 & X & K2 & N). cbn [fa_files fa_made] in *.
        split; [exact I2|]. split; [intros k h c Q; apply X, A1; exact Q|]. split; [exact K2|].
        intros [|i] d Q; cbn in Q; [discriminate|]. cbn [firstn dir_after nth_error]. exact (N i d Q).
  Qed.
  Lemma make_memo f c h : find (fa_made E f) c = Some h -> mk f c = (f, Some h).
  Proof. intros H. unfold make. rewrite H. reflexivity. Qed.
End Proofs.

(** From the text to the answers. *)
Lemma factory_exact (E : Type) (rank_of : E -> nat) (kind_of class_of : E -> kind) :
  (forall a b, rank_of a = rank_of b -> a = b) -> (forall a b, clash (kind_of a) (kind_of b) = false) -> (forall a, kind_of a = class_of a) ->
  forall tm w sa data h fs evs f rs,
  zero_free w -> is_suffix_array (terminated w) sa -> data = w \/ data = terminated w ->
  0 < h -> t_dens tm = 2 * h -> S (List.length w) < 2 ^ 64 -> only_adds fs evs ->
  history E rank_of kind_of tm (new_factory E fs) evs = (f, rs) ->
  forall i c v, nth_error evs i = Some (FMake c) -> build tm (class_of (cf_type c)) (cf_rate c) data sa = Some v ->
    has_files (dir_after fs (firstn i evs)) (map (file_of (rate_prefix (cf_rate c))) (built_files tm (class_of (cf_type c)) v)) ->
    exists hd, nth_error rs i = Some (Some hd) /\
      ha_kind hd = class_of (cf_type c) /\ ha_rate hd = cf_rate c /\ make E rank_of kind_of tm f c = (f, Some hd) /\
      forall p, pattern_over w p -> exists l s e,
        ask_locate E tm f hd p = Some l /\ exact_answer p w l /\ ask_count E tm f hd p = Some (s, e) /\ row_interval p w sa s e.
Proof.
  intros HI HC HK tm w sa data h fs evs f rs Hw HSA Hd Hh HD Hn HA HH i c v Hc B HF. rewrite <- HK in B, HF |- *.
  destruct (history_ok E rank_of kind_of tm HI HC evs (new_factory E fs) (finv_new E kind_of tm fs) HA f rs HH) as (I & _ & _ & N).
  destruct (N i c Hc) as (X & r & Er & M & C). cbn [new_factory fa_files] in X, C.
  assert (Cd : complete tm (kind_of (cf_type c)) (rate_prefix (cf_rate c)) (dir_after fs (firstn i evs))).
  { destruct (built_load tm (kind_of (cf_type c)) (cf_rate c) v (new_rate (cf_rate c) []) _ (fresh_rate (cf_rate c)) eq_refl
      (build_shape _ _ _ _ _ _ B) HF) as (o & L & _). exact (load_config_complete tm _ _ _ o (fresh_rate (cf_rate c)) L). }
  destruct r as [hd|]; [|exfalso; apply (C Cd); reflexivity]. exists hd. split; [exact Er|].
  pose proof (M hd eq_refl) as F. assert (Fi : In (c, hd) (fa_made E f)) by (eapply find_in; eauto).
  destruct (fi_made _ _ _ f I c hd Fi) as (K & R & P & Cf & Ho).
  split; [exact K|]. split; [exact R|]. split; [apply make_memo; exact F|]. intros p Hp.
  assert (HF' : has_files (fa_files E f) (map (file_of (rate_prefix (cf_rate c))) (built_files tm (kind_of (cf_type c)) v))) by (intros k y d Q; apply X, HF; exact Q).
  destruct (built_load tm (kind_of (cf_type c)) (cf_rate c) v (new_rate (cf_rate c) []) _ (fresh_rate (cf_rate c)) eq_refl
      (build_shape _ _ _ _ _ _ B) HF') as (o & L & Ro & V).
  destruct (load_files tm (kind_of (cf_type c)) (new_rate (cf_rate c) []) (fa_files E f) (rate_prefix_good (cf_rate c)) wf_empty Cf) as (o' & L' & R' & P' & H' & _).
  { intros q e _ Q. discriminate Q. }
  rewrite L in L'. injection L' as <-.
  assert (V' : view tm (kind_of (cf_type c)) (mk_obj (ha_rate hd) (ha_prefix hd) (fa_store E f)) = Some (trim (kind_of (cf_type c)) v)).
  { rewrite <- V. rewrite R, P. apply (holds_view tm _ _ _ (file_item (fa_files E f) (rate_prefix (cf_rate c)))); auto.
    exact (complete_content _ _ _ _ Cf). }
  destruct (build_exact tm (kind_of (cf_type c)) (cf_rate c) w sa data h p Hw HSA Hd Hh HD Hn Hp) as (v' & [s e] & l & B' & Cn & LO & XA & RI).
  rewrite B in B'. injection B' as <-. exists l, s, e. unfold ask_locate, ask_count, obj_locate, obj_count. rewrite K, V'. cbn [bind].
  rewrite trim_locate, trim_count. auto.
Qed.
