(** The calls of a Locate: without them the functions are those of the model, and their number is bounded
    by the number of reports. *)
From Coq Require Import List Arith Bool Lia.
From Verif Require Import MBase MRle MConstruct MPhi MRIndex MSrIndex MPsi MCsa MSrCsa MTrace SpecTrace.
Import ListNotations.

Lemma total_app f a b : total f (a ++ b) = total f a + total f b.
Proof. unfold total. induction a as [|x a IH]; cbn [fold_right app]; auto. rewrite IH. lia. Qed.
Lemma steps_app a b : steps (a ++ b) = steps a + steps b. Proof. apply total_app. Qed.
Lemma samples_app a b : samples (a ++ b) = samples a + samples b. Proof. apply total_app. Qed.
Lemma moves_app a b : moves (a ++ b) = moves a + moves b. Proof. apply total_app. Qed.
Lemma phis_app a b : phis (a ++ b) = phis a + phis b. Proof. apply total_app. Qed.
Lemma pieces_app a b : pieces (a ++ b) = pieces a + pieces b. Proof. apply total_app. Qed.
Lemma reports_app a b : reports (a ++ b) = reports a ++ reports b. Proof. apply flat_map_app. Qed.
Definition rp (t : list call) : nat := length (reports t).
Lemma rp_app a b : rp (a ++ b) = rp a + rp b. Proof. unfold rp. rewrite reports_app, app_length. auto. Qed.

Lemma rp_cons c t : rp (c :: t) = match c with Report _ => 1 | _ => 0 end + rp t.
Proof. destruct c; reflexivity. Qed.
Lemma steps_cons c t : steps (c :: t) = match c with Step => 1 | _ => 0 end + steps t. Proof. reflexivity. Qed.
Lemma samples_cons c t : samples (c :: t) = match c with Sample => 1 | _ => 0 end + samples t. Proof. reflexivity. Qed.
Lemma moves_cons c t : moves (c :: t) = match c with Move => 1 | _ => 0 end + moves t. Proof. reflexivity. Qed.
Lemma phis_cons c t : phis (c :: t) = match c with Phi => 1 | _ => 0 end + phis t. Proof. reflexivity. Qed.
Lemma pieces_cons c t : pieces (c :: t) = match c with Split k => k | _ => 0 end + pieces t. Proof. reflexivity. Qed.
Lemma nil_counts : rp [] = 0 /\ steps [] = 0 /\ samples [] = 0 /\ moves [] = 0 /\ phis [] = 0 /\ pieces [] = 0.
Proof. repeat split. Qed.
Ltac cnt := destruct nil_counts as (?N1 & ?N2 & ?N3 & ?N4 & ?N5 & ?N6);
  repeat (rewrite ?rp_app, ?phis_app, ?samples_app, ?moves_app, ?pieces_app, ?steps_app,
    ?rp_cons, ?phis_cons, ?samples_cons, ?moves_cons, ?pieces_cons, ?steps_cons); cbv beta iota.

(** ** Without the calls *)
Definition er {A} (x : traced A) : out A := match x with Some (v, t) => Some (v, reports t) | None => None end.
Definition erl (x : option (list call)) : option (list nat) := option_map reports x.

Section Back.
  Context {Range Run : Type}.
  Variable phi : nat -> option nat.
  Variable get_sample : Run -> option (option nat).
  Variable split_range : Range -> option (list Run).
  Variable split_run : Run -> option (list Run).
  Variable navigate : Run -> option Run.
  Variable s n : nat.
  Variable is_range_empty : Range -> bool.
  Variable update_run : Run -> Run.
  Variable is_run_empty : Run -> bool.
  Variable loop_fuel : nat.
  Variable phiv : nat -> option (nat * bool).

  Lemma tb_phi_er : forall f r v, er (tb_phi_loop phi update_run is_run_empty f r v) =
    pb_phi_loop phi update_run is_run_empty f r v.
  Proof.
    induction f as [|f IH]; intros r v; cbn [tb_phi_loop pb_phi_loop]; auto.
    destruct (phi v) as [v'|]; cbn [bind]; auto. destruct (negb _); auto. rewrite <- IH.
    destruct (tb_phi_loop _ _ _ _ _ _) as [[p t]|]; auto.
  Qed.
  Lemma tb_runs_er : forall f rs v L,
    er (tb_runs phi get_sample split_run navigate s n update_run is_run_empty loop_fuel f rs v L) =
    pb_runs phi get_sample split_run navigate s n update_run is_run_empty loop_fuel f rs v L.
  Proof.
    induction f as [|f IH]; intros rs v L; [reflexivity|].
    cbn [tb_runs pb_runs]. revert v.
    match goal with |- forall v, er (?g rs v) = ?h rs v => set (go1 := g); set (go2 := h) end.
    induction rs as [|r rs IHr]; intros v; [reflexivity|].
    unfold go1, go2; cbn fix beta iota; fold go1 go2.
    destruct (get_sample r) as [sa|]; cbn [bind]; auto.
    assert (G : forall r1 v1 t1,
      er (if is_run_empty r1 then '(p, t2) <- go1 rs v1 ;; Some (p, t1 ++ t2)
          else run' <- navigate r1 ;;
               '(v, t2) <- (if s <=? S L then tb_phi_loop phi update_run is_run_empty loop_fuel run' v1
                            else runs' <- split_run run' ;;
                                 '(p, t) <- tb_runs phi get_sample split_run navigate s n update_run is_run_empty loop_fuel f (rev runs') v1 (S L) ;;
                                 Some (p, Split (length runs') :: t)) ;;
               '(p, t3) <- go1 rs v ;; Some (p, t1 ++ Move :: t2 ++ t3)) =
      (if is_run_empty r1 then '(p, o2) <- go2 rs v1 ;; Some (p, reports t1 ++ o2)
       else run' <- navigate r1 ;;
            '(v, o2) <- (if s <=? S L then pb_phi_loop phi update_run is_run_empty loop_fuel run' v1
                         else runs' <- split_run run' ;;
                              pb_runs phi get_sample split_run navigate s n update_run is_run_empty loop_fuel f (rev runs') v1 (S L)) ;;
            '(p, o3) <- go2 rs v ;; Some (p, reports t1 ++ o2 ++ o3))).
    { intros r1 v1 t1. destruct (is_run_empty r1).
      - rewrite <- IHr. match goal with |- context [bind ?m _] => destruct m as [[p t]|] end; cbn [bind er]; auto.
        rewrite reports_app. auto.
      - destruct (navigate r1) as [r2|]; cbn [bind]; auto.
        match goal with |- er (bind ?X ?F) = bind ?Y ?G => assert (E : er X = Y) end.
        { destruct (s <=? S L); [apply tb_phi_er|]. destruct (split_run r2) as [rs2|]; cbn [bind]; auto.
          rewrite <- IH. destruct (tb_runs _ _ _ _ _ _ _ _ _ _ _ _ _) as [[p t]|]; auto. }
        rewrite <- E.
        match goal with |- er (bind ?X _) = _ => destruct X as [[v2 t2]|] end; cbn [bind er]; auto.
        rewrite <- IHr. match goal with |- context [bind ?m _] => destruct m as [[p t]|] end; cbn [bind er]; auto.
        rewrite reports_app. cbn [reports flat_map app]. fold (reports (t2 ++ t)). rewrite reports_app. auto. }
    destruct sa as [x|]; cbn [bind].
    - destruct (umod (x + 1 + L) n) as [v1|]; cbn [bind]; auto. apply (G (update_run r) v1 [Sample; Report v1]).
    - apply (G r v [Sample]).
  Qed.
  Lemma tb_range_er f r v :
    erl (tb_range phi get_sample split_range split_run navigate s n is_range_empty update_run is_run_empty loop_fuel f r v) =
    pb_range phi get_sample split_range split_run navigate s n is_range_empty update_run is_run_empty loop_fuel f r v.
  Proof.
    unfold tb_range, pb_range. destruct (is_range_empty r); auto. destruct (split_range r) as [rs|]; cbn [bind]; auto.
    rewrite <- tb_runs_er. destruct (tb_runs _ _ _ _ _ _ _ _ _ _ _ _ _) as [[p t]|]; auto.
  Qed.

  Lemma tbv_phi_er : forall f r v, er (tbv_phi_loop update_run is_run_empty phiv f r v) =
    pbv_phi_loop update_run is_run_empty phiv f r v.
  Proof.
    induction f as [|f IH]; intros r v; cbn [tbv_phi_loop pbv_phi_loop]; auto.
    destruct (phiv v) as [v'|]; cbn [bind]; auto. destruct (negb _); auto. rewrite <- IH.
    destruct (tbv_phi_loop _ _ _ _ _ _) as [[p t]|]; auto.
  Qed.
  Lemma tbv_valid_er : forall f r v, er (tbv_valid_loop update_run is_run_empty phiv f r v) =
    pbv_valid_loop update_run is_run_empty phiv f r v.
  Proof.
    induction f as [|f IH]; intros r v; cbn [tbv_valid_loop pbv_valid_loop]; destruct (negb _ && _); auto.
    destruct (phiv (fst v)) as [v'|]; cbn [bind]; auto. rewrite <- IH.
    destruct (tbv_valid_loop _ _ _ _ _ _) as [[p t]|]; auto.
  Qed.
  Lemma tbv_do_er : forall f L r v, er (tbv_do_loop get_sample n update_run is_run_empty loop_fuel phiv f L r v) =
    pbv_do_loop get_sample n update_run is_run_empty loop_fuel phiv f L r v.
  Proof.
    induction f as [|f IH]; intros L r v; cbn [tbv_do_loop pbv_do_loop]; auto.
    rewrite <- tbv_valid_er. destruct (tbv_valid_loop _ _ _ _ _ _) as [[[r1 v1] t1]|]; cbn [bind er]; auto.
    destruct (is_run_empty r1); auto. destruct (get_sample r1) as [sa|]; cbn [bind]; auto.
    match goal with |- context [bind ?m _] => destruct m as [v2|] end; cbn [bind]; auto.
    destruct (snd v2).
    - rewrite <- IH. destruct (tbv_do_loop _ _ _ _ _ _ _ _ _ _) as [[p t]|]; cbn [bind er]; auto. rewrite reports_app. auto.
    - cbn [er]. rewrite reports_app. cbn [reports flat_map]. rewrite app_nil_r. auto.
  Qed.
  Lemma tbv_runs_er : forall f rs v L,
    er (tbv_runs get_sample split_run navigate s n update_run is_run_empty loop_fuel phiv f rs v L) =
    pbv_runs get_sample split_run navigate s n update_run is_run_empty loop_fuel phiv f rs v L.
  Proof.
    induction f as [|f IH]; intros rs v L; [reflexivity|].
    cbn [tbv_runs pbv_runs]. revert v.
    match goal with |- forall v, er (?g rs v) = ?h rs v => set (go1 := g); set (go2 := h) end.
    induction rs as [|r rs IHr]; intros v; [reflexivity|].
    unfold go1, go2; cbn fix beta iota; fold go1 go2.
    rewrite <- tbv_do_er. destruct (tbv_do_loop _ _ _ _ _ _ _ _ _ _) as [[[r1 v1] t1]|]; cbn [bind er]; auto.
    destruct (negb (is_run_empty r1)).
    - destruct (navigate r1) as [r2|]; cbn [bind]; auto.
      match goal with |- er (bind ?X ?F) = bind ?Y ?G => assert (E : er X = Y) end.
      { destruct (s <=? S L); [apply tbv_phi_er|]. destruct (split_run r2) as [rs2|]; cbn [bind]; auto.
        rewrite <- IH. destruct (tbv_runs _ _ _ _ _ _ _ _ _ _ _ _ _) as [[p t]|]; auto. }
      rewrite <- E.
        match goal with |- er (bind ?X _) = _ => destruct X as [[v2 t2]|] end; cbn [bind er]; auto.
      rewrite <- IHr. match goal with |- context [bind ?m _] => destruct m as [[p t]|] end; cbn [bind er]; auto.
      rewrite reports_app. cbn [reports flat_map app]. fold (reports (t2 ++ t)). rewrite reports_app. auto.
    - rewrite <- IHr. match goal with |- context [bind ?m _] => destruct m as [[p t]|] end; cbn [bind er]; auto.
      rewrite reports_app. auto.
  Qed.
  Lemma tbv_range_er f r v :
    erl (tbv_range get_sample split_range split_run navigate s n is_range_empty update_run is_run_empty loop_fuel phiv f r v) =
    pbv_range get_sample split_range split_run navigate s n is_range_empty update_run is_run_empty loop_fuel phiv f r v.
  Proof.
    unfold tbv_range, pbv_range. destruct (is_range_empty r); auto. destruct (phiv v) as [vv|]; cbn [bind]; auto.
    destruct (split_range r) as [rs|]; cbn [bind]; auto.
    rewrite <- tbv_runs_er. destruct (tbv_runs _ _ _ _ _ _ _ _ _ _ _ _ _) as [[p t]|]; auto.
  Qed.

  (** ** Bounds *)
  Variables P N : Run -> Prop.
  Hypothesis HPe : forall r, P r -> is_run_empty r = false.
  Hypothesis HPu : forall r, P r -> is_run_empty (update_run r) = false -> P (update_run r).
  Hypothesis Hnav : forall r r', P r -> navigate r = Some r' -> N r'.
  Hypothesis Hsplit : forall r rs, N r -> split_run r = Some rs -> rs <> [] /\ Forall P rs.

  Lemma tb_phi_cost : forall f r v v' t, tb_phi_loop phi update_run is_run_empty f r v = Some (v', t) ->
    1 <= rp t /\ phis t = rp t /\ samples t = 0 /\ moves t = 0 /\ pieces t = 0 /\ steps t = 0.
  Proof.
    induction f as [|f IH]; intros r v v' t E; cbn [tb_phi_loop] in E; [discriminate|].
    destruct (phi v) as [v1|]; cbn [bind] in E; [|discriminate]. destruct (negb _).
    - destruct (tb_phi_loop _ _ _ _ _ _) as [[p t1]|] eqn:E1; cbn [bind] in E; [|discriminate]. injection E as <- <-.
      destruct (IH _ _ _ _ E1) as (H1 & H2 & H3 & H4 & H5 & H6). cnt; lia.
    - injection E as <- <-. cbn. auto 8.
  Qed.
  Lemma tb_runs_cost : forall f L rs v v' t, Forall P rs ->
    tb_runs phi get_sample split_run navigate s n update_run is_run_empty loop_fuel f rs v L = Some (v', t) ->
    length rs <= rp t /\ phis t <= rp t /\ samples t <= S (s - S L) * rp t /\ moves t <= S (s - S L) * rp t /\
    pieces t <= (s - S L) * rp t /\ steps t = 0.
  Proof.
    induction f as [|f IH]; intros L rs v v' t HP E; [discriminate|].
    cbn [tb_runs] in E. revert v t HP E.
    match goal with |- forall v t, _ -> ?g rs v = _ -> _ => set (go := g) end.
    induction rs as [|r rs IHr]; intros v t HP E.
    - injection E as <- <-. cbn. lia.
    - unfold go in E; cbn fix beta iota in E; fold go in E. inversion HP as [|? ? Pr HP']; subst. specialize (fun v t => IHr v t HP').
      destruct (get_sample r) as [sa|]; cbn [bind] in E; [|discriminate].
      assert (G : forall r1 v1 t1 t', (is_run_empty r1 = false -> P r1) -> rp t1 <= 1 -> phis t1 = 0 -> samples t1 = 1 ->
        moves t1 = 0 -> pieces t1 = 0 -> steps t1 = 0 -> (is_run_empty r1 = true -> rp t1 = 1) ->
        (if is_run_empty r1 then '(p, t2) <- go rs v1 ;; Some (p, t1 ++ t2)
          else run' <- navigate r1 ;;
               '(v, t2) <- (if s <=? S L then tb_phi_loop phi update_run is_run_empty loop_fuel run' v1
                            else runs' <- split_run run' ;;
                                 '(p, t) <- tb_runs phi get_sample split_run navigate s n update_run is_run_empty loop_fuel f (rev runs') v1 (S L) ;;
                                 Some (p, Split (length runs') :: t)) ;;
               '(p, t3) <- go rs v ;; Some (p, t1 ++ Move :: t2 ++ t3)) = Some (v', t') ->
        S (length rs) <= rp t' /\ phis t' <= rp t' /\ samples t' <= S (s - S L) * rp t' /\ moves t' <= S (s - S L) * rp t' /\
          pieces t' <= (s - S L) * rp t' /\ steps t' = 0).
      { intros r1 v1 t1 t' HP1 Q1 Q2 Q3 Q4 Q5 Q6 Q7 E'. destruct (is_run_empty r1) eqn:Ee.
        - destruct (go rs v1) as [[p t2]|] eqn:E2; cbn [bind] in E'; [|discriminate]. injection E' as -> <-.
          destruct (IHr _ _ E2) as (H1 & H2 & H3 & H4 & H5 & H6). specialize (Q7 eq_refl).
          rewrite rp_app, phis_app, samples_app, moves_app, pieces_app, steps_app. rewrite Q2, Q3, Q4, Q5, Q6, Q7.
          repeat split; nia.
        - destruct (navigate r1) as [r2|] eqn:En; cbn [bind] in E'; [|discriminate].
          pose proof (Hnav _ _ (HP1 eq_refl) En) as HN.
          assert (B2 : forall v2 t2, (if s <=? S L then tb_phi_loop phi update_run is_run_empty loop_fuel r2 v1
                            else runs' <- split_run r2 ;;
                                 '(p, t) <- tb_runs phi get_sample split_run navigate s n update_run is_run_empty loop_fuel f (rev runs') v1 (S L) ;;
                                 Some (p, Split (length runs') :: t)) = Some (v2, t2) ->
             1 <= rp t2 /\ phis t2 <= rp t2 /\ samples t2 <= (s - S L) * rp t2 /\ moves t2 <= (s - S L) * rp t2 /\
             pieces t2 <= (s - S L) * rp t2 /\ steps t2 = 0).
          { intros v2 t2 E2. destruct (Nat.leb_spec s (S L)) as [Hs|Hs].
            - apply tb_phi_cost in E2. lia.
            - destruct (split_run r2) as [rs2|] eqn:Es; cbn [bind] in E2; [|discriminate].
              destruct (Hsplit _ _ HN Es) as [Hne HP2].
              destruct (tb_runs _ _ _ _ _ _ _ _ _ _ _ _ _) as [[p t3]|] eqn:E3; cbn [bind] in E2; [|discriminate].
              injection E2 as <- <-. apply IH in E3; [|apply Forall_rev; auto]. rewrite rev_length in E3.
              destruct E3 as (H1 & H2 & H3 & H4 & H5 & H6).
              assert (1 <= length rs2) by (destruct rs2; [congruence|cbn; lia]).
              replace (s - S L) with (S (s - S (S L))) by lia.
              cnt. repeat split; nia. }
          destruct (if s <=? S L then _ else _) as [[v2 t2]|] eqn:E2; cbn [bind] in E'; [|discriminate].
          destruct (B2 _ _ eq_refl) as (K1 & K2 & K3 & K4 & K5 & K6).
          destruct (go rs v2) as [[p t3]|] eqn:E3; cbn [bind] in E'; [|discriminate]. injection E' as -> <-.
          destruct (IHr _ _ E3) as (H1 & H2 & H3 & H4 & H5 & H6).
          change (t1 ++ Move :: t2 ++ t3) with (t1 ++ [Move] ++ t2 ++ t3).
          rewrite !rp_app, !phis_app, !samples_app, !moves_app, !pieces_app, !steps_app.
          change (rp [Move]) with 0. change (phis [Move]) with 0. change (samples [Move]) with 0. change (moves [Move]) with 1.
          change (pieces [Move]) with 0. change (steps [Move]) with 0. rewrite Q2, Q3, Q4, Q5, Q6.
          repeat split; nia. }
      cbn [length]. destruct sa as [x|]; cbn [bind] in E.
      + destruct (umod (x + 1 + L) n) as [v1|]; cbn [bind] in E; [|discriminate].
        apply (G _ _ [Sample; Report v1] t) in E; auto.
      + apply (G _ _ [Sample] t) in E; auto. rewrite (HPe _ Pr). discriminate.
  Qed.
  Lemma tb_range_cost f r v t : (forall rs, is_range_empty r = false -> split_range r = Some rs -> Forall P rs) ->
    tb_range phi get_sample split_range split_run navigate s n is_range_empty update_run is_run_empty loop_fuel f r v = Some t ->
    phis t <= rp t /\ samples t <= S (s - 1) * rp t /\ moves t <= S (s - 1) * rp t /\ pieces t <= S (s - 1) * rp t /\ steps t = 0.
  Proof.
    unfold tb_range. intros HP E. destruct (is_range_empty r) eqn:Er; [injection E as <-; cbn; lia|].
    destruct (split_range r) as [rs|] eqn:Es; cbn [bind] in E; [|discriminate].
    destruct (tb_runs _ _ _ _ _ _ _ _ _ _ _ _ _) as [[p t3]|] eqn:E3; cbn [bind] in E; [|discriminate].
    injection E as <-. apply tb_runs_cost in E3; [|apply Forall_rev; apply HP; auto]. rewrite rev_length in E3.
    destruct E3 as (H1 & H2 & H3 & H4 & H5 & H6).
    cnt. repeat split; nia.
  Qed.

  Lemma tbv_phi_cost : forall f r v v' t, tbv_phi_loop update_run is_run_empty phiv f r v = Some (v', t) ->
    1 <= rp t /\ phis t = rp t /\ samples t = 0 /\ moves t = 0 /\ pieces t = 0 /\ steps t = 0.
  Proof.
    induction f as [|f IH]; intros r v v' t E; cbn [tbv_phi_loop] in E; [discriminate|].
    destruct (phiv v) as [v1|]; cbn [bind] in E; [|discriminate]. destruct (negb _).
    - destruct (tbv_phi_loop _ _ _ _ _ _) as [[p t1]|] eqn:E1; cbn [bind] in E; [|discriminate]. injection E as <- <-.
      destruct (IH _ _ _ _ E1) as (H1 & H2 & H3 & H4 & H5 & H6). cnt; lia.
    - injection E as <- <-. cbn. auto 8.
  Qed.
  Definition good (r : Run) : Prop := is_run_empty r = false -> P r.
  Lemma tbv_valid_cost : forall f r v r' v' t, good r ->
    tbv_valid_loop update_run is_run_empty phiv f r v = Some ((r', v'), t) ->
    good r' /\ (is_run_empty r = false -> is_run_empty r' = true \/ snd v = true -> 1 <= rp t) /\
    phis t = rp t /\ samples t = 0 /\ moves t = 0 /\ pieces t = 0 /\ steps t = 0.
  Proof.
    induction f as [|f IH]; intros r v r' v' t HG E; cbn [tbv_valid_loop] in E.
    - destruct (negb (is_run_empty r) && snd v) eqn:Ev; [discriminate|]. injection E as <- <- <-.
      split; auto. split; [|cbn; auto 8]. intros H [H1|H1]; [congruence|]. rewrite H, H1 in Ev. discriminate.
    - destruct (negb (is_run_empty r) && snd v) eqn:Ev.
      + destruct (phiv (fst v)) as [v1|]; cbn [bind] in E; [|discriminate].
        destruct (tbv_valid_loop _ _ _ _ _ _) as [[p t1]|] eqn:E1; cbn [bind] in E; [|discriminate]. injection E as -> <-.
        apply andb_prop in Ev as [Ev _]. apply negb_true_iff in Ev.
        apply IH in E1; [|intros H; apply HPu; auto]. destruct E1 as (G & _ & H2 & H3 & H4 & H5 & H6).
        split; auto. cnt. split; [lia|]. lia.
      + injection E as <- <- <-.
        split; auto. split; [|cbn; auto 8]. intros H [H1|H1]; [congruence|]. rewrite H, H1 in Ev. discriminate.
  Qed.
  Lemma tbv_do_cost : forall f L r v r' v' t, good r ->
    tbv_do_loop get_sample n update_run is_run_empty loop_fuel phiv f L r v = Some ((r', v'), t) ->
    good r' /\ (is_run_empty r = false -> is_run_empty r' = true \/ snd v = true -> 1 <= rp t) /\
    (is_run_empty r = false -> samples t <= S (rp t) /\ (snd v = true -> samples t <= rp t)) /\
    phis t = rp t /\ moves t = 0 /\ pieces t = 0 /\ steps t = 0.
  Proof.
    induction f as [|f IH]; intros L r v r' v' t HG E; cbn [tbv_do_loop] in E; [discriminate|].
    destruct (tbv_valid_loop _ _ _ _ _ _) as [[[r1 v1] t1]|] eqn:E1; cbn [bind] in E; [|discriminate].
    apply tbv_valid_cost in E1; [|auto]. destruct E1 as (G1 & Q1 & Q2 & Q3 & Q4 & Q5 & Q6).
    destruct (is_run_empty r1) eqn:Ee.
    { injection E as <- <- <-. split; auto. split; [auto|]. split; [rewrite Q3; lia|auto]. }
    destruct (get_sample r1) as [sa|]; cbn [bind] in E; [|discriminate].
    match type of E with context [bind ?m _] => destruct m as [v2|] end; cbn [bind] in E; [|discriminate].
    destruct (snd v2) eqn:Ev2.
    - destruct (tbv_do_loop _ _ _ _ _ _ _ _ _ _) as [[p t2]|] eqn:E2; cbn [bind] in E; [|discriminate].
      injection E as -> <-. apply IH in E2; [|auto]. destruct E2 as (G2 & K1 & K2 & K3 & K4 & K5 & K6).
      specialize (K1 Ee (or_intror Ev2)). destruct (K2 Ee) as [_ K2']. specialize (K2' Ev2).
      change (t1 ++ Sample :: t2) with (t1 ++ [Sample] ++ t2).
      rewrite !rp_app, !phis_app, !samples_app, !moves_app, !pieces_app, !steps_app.
      change (rp [Sample]) with 0. change (phis [Sample]) with 0. change (samples [Sample]) with 1. change (moves [Sample]) with 0.
      change (pieces [Sample]) with 0. change (steps [Sample]) with 0.
      split; auto. split; [intros; lia|]. split; [|lia]. intros He. rewrite Q3. split; [lia|].
      intros Hv. specialize (Q1 He (or_intror Hv)). lia.
    - injection E as <- <- <-. rewrite !rp_app, !phis_app, !samples_app, !moves_app, !pieces_app, !steps_app.
      change (rp [Sample]) with 0. change (phis [Sample]) with 0. change (samples [Sample]) with 1. change (moves [Sample]) with 0.
      change (pieces [Sample]) with 0. change (steps [Sample]) with 0.
      split; auto. split.
      + intros He [H|H]; [congruence|]. specialize (Q1 He (or_intror H)). lia.
      + split; [|lia]. intros He. rewrite Q3. split; [lia|]. intros Hv. specialize (Q1 He (or_intror Hv)). lia.
  Qed.
  Lemma tbv_runs_cost : forall f L rs v v' t, Forall P rs ->
    tbv_runs get_sample split_run navigate s n update_run is_run_empty loop_fuel phiv f rs v L = Some (v', t) ->
    length rs <= rp t /\ phis t <= rp t /\ samples t <= S (S (s - S L)) * rp t /\ moves t <= S (s - S L) * rp t /\
    pieces t <= (s - S L) * rp t /\ steps t = 0.
  Proof.
    induction f as [|f IH]; intros L rs v v' t HP E; [discriminate|].
    cbn [tbv_runs] in E. revert v t HP E.
    match goal with |- forall v t, _ -> ?g rs v = _ -> _ => set (go := g) end.
    induction rs as [|r rs IHr]; intros v t HP E.
    - injection E as <- <-. cbn. lia.
    - unfold go in E; cbn fix beta iota in E; fold go in E. inversion HP as [|? ? Pr HP']; subst. specialize (fun v t => IHr v t HP').
      destruct (tbv_do_loop _ _ _ _ _ _ _ _ _ _) as [[[r1 v1] t1]|] eqn:E1; cbn [bind] in E; [|discriminate].
      apply tbv_do_cost in E1; [|intros _; auto]. destruct E1 as (G1 & Q1 & Q2 & Q3 & Q4 & Q5 & Q6).
      specialize (Q1 (HPe _ Pr)). destruct (Q2 (HPe _ Pr)) as [Q2' _]. cbn [length].
      destruct (is_run_empty r1) eqn:Ee; cbn [negb] in E.
      + destruct (go rs v1) as [[p t2]|] eqn:E2; cbn [bind] in E; [|discriminate]. injection E as -> <-.
        destruct (IHr _ _ E2) as (H1 & H2 & H3 & H4 & H5 & H6). specialize (Q1 (or_introl eq_refl)).
        rewrite rp_app, phis_app, samples_app, moves_app, pieces_app, steps_app. rewrite Q3, Q4, Q5, Q6.
        repeat split; nia.
      + destruct (navigate r1) as [r2|] eqn:En; cbn [bind] in E; [|discriminate].
        pose proof (Hnav _ _ (G1 Ee) En) as HN.
        assert (B2 : forall v2 t2, (if s <=? S L then tbv_phi_loop update_run is_run_empty phiv loop_fuel r2 (fst v1)
                            else runs' <- split_run r2 ;;
                                 '(p, t) <- tbv_runs get_sample split_run navigate s n update_run is_run_empty loop_fuel phiv f (rev runs') v1 (S L) ;;
                                 Some (p, Split (length runs') :: t)) = Some (v2, t2) ->
             1 <= rp t2 /\ phis t2 <= rp t2 /\ samples t2 <= S (s - S L) * rp t2 /\ moves t2 <= (s - S L) * rp t2 /\
             pieces t2 <= (s - S L) * rp t2 /\ steps t2 = 0).
        { intros v2 t2 E2. destruct (Nat.leb_spec s (S L)) as [Hs|Hs].
          - apply tbv_phi_cost in E2. lia.
          - destruct (split_run r2) as [rs2|] eqn:Es; cbn [bind] in E2; [|discriminate].
            destruct (Hsplit _ _ HN Es) as [Hne HP2].
            destruct (tbv_runs _ _ _ _ _ _ _ _ _ _ _ _ _) as [[p t3]|] eqn:E3; cbn [bind] in E2; [|discriminate].
            injection E2 as <- <-. apply IH in E3; [|apply Forall_rev; auto]. rewrite rev_length in E3.
            destruct E3 as (H1 & H2 & H3 & H4 & H5 & H6).
            assert (1 <= length rs2) by (destruct rs2; [congruence|cbn; lia]).
            replace (s - S L) with (S (s - S (S L))) by lia.
            cnt. repeat split; nia. }
        destruct (if s <=? S L then _ else _) as [[v2 t2]|] eqn:E2; cbn [bind] in E; [|discriminate].
        destruct (B2 _ _ eq_refl) as (K1 & K2 & K3 & K4 & K5 & K6).
        destruct (go rs v2) as [[p t3]|] eqn:E3; cbn [bind] in E; [|discriminate]. injection E as -> <-.
        destruct (IHr _ _ E3) as (H1 & H2 & H3 & H4 & H5 & H6).
        change (t1 ++ Move :: t2 ++ t3) with (t1 ++ [Move] ++ t2 ++ t3).
        rewrite !rp_app, !phis_app, !samples_app, !moves_app, !pieces_app, !steps_app.
        change (rp [Move]) with 0. change (phis [Move]) with 0. change (samples [Move]) with 0. change (moves [Move]) with 1.
        change (pieces [Move]) with 0. change (steps [Move]) with 0. rewrite Q3, Q4, Q5, Q6.
        repeat split; nia.
  Qed.
  Lemma tbv_range_cost f r v t : (forall rs, is_range_empty r = false -> split_range r = Some rs -> Forall P rs) ->
    tbv_range get_sample split_range split_run navigate s n is_range_empty update_run is_run_empty loop_fuel phiv f r v = Some t ->
    phis t <= S (rp t) /\ samples t <= S (S (s - 1)) * rp t /\ moves t <= S (s - 1) * rp t /\ pieces t <= S (s - 1) * rp t /\
    steps t = 0.
  Proof.
    unfold tbv_range. intros HP E. destruct (is_range_empty r) eqn:Er; [injection E as <-; cbn; lia|].
    destruct (phiv v) as [vv|]; cbn [bind] in E; [|discriminate].
    destruct (split_range r) as [rs|] eqn:Es; cbn [bind] in E; [|discriminate].
    destruct (tbv_runs _ _ _ _ _ _ _ _ _ _ _ _ _) as [[p t3]|] eqn:E3; cbn [bind] in E; [|discriminate].
    injection E as <-. apply tbv_runs_cost in E3; [|apply Forall_rev; apply HP; auto]. rewrite rev_length in E3.
    destruct E3 as (H1 & H2 & H3 & H4 & H5 & H6).
    cnt. repeat split; nia.
  Qed.
End Back.

Lemma traced_fold_er {A R} (f : R -> A -> traced A) g rs : (forall r v, er (f r v) = g r v) ->
  forall v, er (traced_fold f rs v) = out_fold g rs v.
Proof.
  intros H. induction rs as [|r rs IH]; intros v; [reflexivity|]. cbn [traced_fold out_fold]. rewrite <- H.
  destruct (f r v) as [[v1 t1]|]; cbn [bind er]; auto. rewrite <- IH.
  destruct (traced_fold f rs v1) as [[v2 t2]|]; cbn [bind er]; auto. rewrite reports_app. auto.
Qed.

Section Forward.
  Context {Range Run : Type}.
  Variable phi : nat -> option nat.
  Variable get_sample : Run -> option (option nat).
  Variable split_range : Range -> option (list Run).
  Variable split_run : Run -> option (list Run).
  Variable s n : nat.
  Variable is_range_empty : Range -> bool.
  Variable update_run : Run -> Run.
  Variable is_run_empty : Run -> bool.
  Variable loop_fuel : nat.
  Variable phiv : nat -> option (nat * bool).

  Lemma tf_phi_er : forall f r v, er (tf_phi_loop phi update_run is_run_empty f r v) =
    pf_phi_loop phi update_run is_run_empty f r v.
  Proof.
    induction f as [|f IH]; intros r v; cbn [tf_phi_loop pf_phi_loop]; auto.
    destruct (phi v) as [v'|]; cbn [bind]; auto. destruct (negb _); auto. rewrite <- IH.
    destruct (tf_phi_loop _ _ _ _ _ _) as [[p t]|]; auto.
  Qed.
  Lemma tf_compute_er : forall f r v L,
    er (tf_compute phi get_sample split_run s n update_run is_run_empty loop_fuel f r v L) =
    pf_compute phi get_sample split_run s n update_run is_run_empty loop_fuel f r v L.
  Proof.
    induction f as [|f IH]; intros r v L; [reflexivity|].
    cbn [tf_compute pf_compute]. destruct (s <? L); [apply tf_phi_er|].
    destruct (get_sample r) as [sa|]; cbn [bind]; auto.
    assert (G : forall r1 v1 t1,
      er (if is_run_empty r1 then Some (v1, t1)
          else runs <- split_run r1 ;;
            '(p, t2) <- traced_fold (fun run v => tf_compute phi get_sample split_run s n update_run is_run_empty loop_fuel f run v (S L)) runs v1 ;;
            Some (p, t1 ++ Move :: Split (length runs) :: t2)) =
      (if is_run_empty r1 then Some (v1, reports t1)
       else runs <- split_run r1 ;;
            '(p, o2) <- out_fold (fun run v => pf_compute phi get_sample split_run s n update_run is_run_empty loop_fuel f run v (S L)) runs v1 ;;
            Some (p, reports t1 ++ o2))).
    { intros r1 v1 t1. destruct (is_run_empty r1); auto. destruct (split_run r1) as [rs|]; cbn [bind]; auto.
      rewrite <- (traced_fold_er (fun run v => tf_compute phi get_sample split_run s n update_run is_run_empty loop_fuel f run v (S L)))
        by auto. destruct (traced_fold _ _ _) as [[p t]|]; cbn [bind er]; auto. rewrite reports_app. auto. }
    destruct sa as [x|]; cbn [bind].
    - destruct (sample_value n x L) as [v1|]; cbn [bind]; auto. apply (G (update_run r) v1 [Sample; Report v1]).
    - apply (G r v [Sample]).
  Qed.
  Lemma tf_range_er f r v :
    erl (tf_range phi get_sample split_range split_run s n is_range_empty update_run is_run_empty loop_fuel f r v) =
    pf_range phi get_sample split_range split_run s n is_range_empty update_run is_run_empty loop_fuel f r v.
  Proof.
    unfold tf_range, pf_range. destruct (is_range_empty r); auto. destruct (split_range r) as [rs|]; cbn [bind]; auto.
    rewrite <- (traced_fold_er (fun run v => tf_compute phi get_sample split_run s n update_run is_run_empty loop_fuel f run v 1))
      by (intros; apply tf_compute_er). destruct (traced_fold _ _ _) as [[p t]|]; auto.
  Qed.

  Lemma tfv_phi_er : forall f r v, er (tfv_phi_loop update_run is_run_empty phiv f r v) =
    pfv_phi_loop update_run is_run_empty phiv f r v.
  Proof.
    induction f as [|f IH]; intros r v; cbn [tfv_phi_loop pfv_phi_loop]; auto.
    destruct (phiv v) as [v'|]; cbn [bind]; auto. destruct (negb _); auto. rewrite <- IH.
    destruct (tfv_phi_loop _ _ _ _ _ _) as [[p t]|]; auto.
  Qed.
  Lemma tfv_valid_er : forall f r v, er (tfv_valid_loop update_run is_run_empty phiv f r v) =
    pfv_valid_loop update_run is_run_empty phiv f r v.
  Proof.
    induction f as [|f IH]; intros r v; cbn [tfv_valid_loop pfv_valid_loop]; destruct (negb _ && _); auto.
    destruct (phiv (fst v)) as [v'|]; cbn [bind]; auto. rewrite <- IH.
    destruct (tfv_valid_loop _ _ _ _ _ _) as [[p t]|]; auto.
  Qed.
  Lemma tfv_do_er : forall f L r v, er (tfv_do_loop get_sample n update_run is_run_empty loop_fuel phiv f L r v) =
    pfv_do_loop get_sample n update_run is_run_empty loop_fuel phiv f L r v.
  Proof.
    induction f as [|f IH]; intros L r v; cbn [tfv_do_loop pfv_do_loop]; auto.
    rewrite <- tfv_valid_er. destruct (tfv_valid_loop _ _ _ _ _ _) as [[[r1 v1] t1]|]; cbn [bind er]; auto.
    destruct (is_run_empty r1); auto. destruct (get_sample r1) as [sa|]; cbn [bind]; auto.
    match goal with |- context [bind ?m _] => destruct m as [v2|] end; cbn [bind]; auto.
    destruct (snd v2).
    - rewrite <- IH. destruct (tfv_do_loop _ _ _ _ _ _ _ _ _ _) as [[p t]|]; cbn [bind er]; auto. rewrite reports_app. auto.
    - cbn [er]. rewrite reports_app. cbn [reports flat_map]. rewrite app_nil_r. auto.
  Qed.
  Lemma tfv_compute_er : forall f r v L,
    er (tfv_compute get_sample split_run s n update_run is_run_empty loop_fuel phiv f r v L) =
    pfv_compute get_sample split_run s n update_run is_run_empty loop_fuel phiv f r v L.
  Proof.
    induction f as [|f IH]; intros r v L; [reflexivity|].
    cbn [tfv_compute pfv_compute]. destruct (s <? L); [apply tfv_phi_er|].
    rewrite <- tfv_do_er. destruct (tfv_do_loop _ _ _ _ _ _ _ _ _ _) as [[[r1 v1] t1]|]; cbn [bind er]; auto.
    destruct (is_run_empty r1); auto. destruct (split_run r1) as [rs|]; cbn [bind]; auto.
    rewrite <- (traced_fold_er (fun run v => tfv_compute get_sample split_run s n update_run is_run_empty loop_fuel phiv f run v (S L)))
      by auto. destruct (traced_fold _ _ _) as [[p t]|]; cbn [bind er]; auto. rewrite reports_app. auto.
  Qed.
  Lemma tfv_range_er f r v :
    erl (tfv_range get_sample split_range split_run s n is_range_empty update_run is_run_empty loop_fuel phiv f r v) =
    pfv_range get_sample split_range split_run s n is_range_empty update_run is_run_empty loop_fuel phiv f r v.
  Proof.
    unfold tfv_range, pfv_range. destruct (is_range_empty r); auto. destruct (phiv v) as [vv|]; cbn [bind]; auto.
    destruct (split_range r) as [rs|]; cbn [bind]; auto.
    rewrite <- (traced_fold_er (fun run v => tfv_compute get_sample split_run s n update_run is_run_empty loop_fuel phiv f run v 1))
      by (intros; apply tfv_compute_er). destruct (traced_fold _ _ _) as [[p t]|]; auto.
  Qed.

  (** ** Bounds *)
  Variable P : Run -> Prop.
  Hypothesis HPe : forall r, P r -> is_run_empty r = false.
  Hypothesis HPu : forall r, P r -> is_run_empty (update_run r) = false -> P (update_run r).
  Hypothesis Hsplit : forall r rs, P r -> split_run r = Some rs -> rs <> [] /\ Forall P rs.

  (** Calls of a list of runs from those of each. *)
  Lemma fold_cost {A} (F : Run -> A -> traced A) K1 K2 K3 :
    (forall r v v' t, P r -> F r v = Some (v', t) -> 1 <= rp t /\ phis t <= rp t /\ samples t <= K1 * rp t /\
       moves t <= K2 * rp t /\ pieces t <= K3 * rp t /\ steps t = 0) ->
    forall rs v v' t, Forall P rs -> traced_fold F rs v = Some (v', t) ->
      length rs <= rp t /\ phis t <= rp t /\ samples t <= K1 * rp t /\ moves t <= K2 * rp t /\ pieces t <= K3 * rp t /\
      steps t = 0.
  Proof.
    clear HPe HPu Hsplit. intros HF. induction rs as [|r rs IH]; intros v v' t HP E; cbn [traced_fold] in E.
    - injection E as <- <-. cbn. lia.
    - inversion HP as [|? ? Pr HP']; subst. destruct (F r v) as [[v1 t1]|] eqn:E1; cbn [bind] in E; [|discriminate].
      destruct (traced_fold F rs v1) as [[v2 t2]|] eqn:E2; cbn [bind] in E; [|discriminate]. injection E as <- <-.
      apply HF in E1; [|auto]. apply IH in E2; [|auto]. cbn [length]. cnt. nia.
  Qed.

  Lemma tf_phi_cost : forall f r v v' t, tf_phi_loop phi update_run is_run_empty f r v = Some (v', t) ->
    1 <= rp t /\ phis t = rp t /\ samples t = 0 /\ moves t = 0 /\ pieces t = 0 /\ steps t = 0.
  Proof.
    clear HPe HPu Hsplit. induction f as [|f IH]; intros r v v' t E; cbn [tf_phi_loop] in E; [discriminate|].
    destruct (phi v) as [v1|]; cbn [bind] in E; [|discriminate]. destruct (negb _).
    - destruct (tf_phi_loop _ _ _ _ _ _) as [[p t1]|] eqn:E1; cbn [bind] in E; [|discriminate]. injection E as <- <-.
      destruct (IH _ _ _ _ E1) as (H1 & H2 & H3 & H4 & H5 & H6). cnt; lia.
    - injection E as <- <-. cbn. auto 8.
  Qed.
  Lemma tf_compute_cost : forall f L r v v' t, P r ->
    tf_compute phi get_sample split_run s n update_run is_run_empty loop_fuel f r v L = Some (v', t) ->
    1 <= rp t /\ phis t <= rp t /\ samples t <= (S s - L) * rp t /\ moves t <= (S s - L) * rp t /\
    pieces t <= (S s - L) * rp t /\ steps t = 0.
  Proof.
    induction f as [|f IH]; intros L r v v' t HP E; [discriminate|].
    cbn [tf_compute] in E. destruct (Nat.ltb_spec s L) as [Hs|Hs].
    - apply tf_phi_cost in E. replace (S s - L) with 0 by lia. lia.
    - destruct (get_sample r) as [sa|]; cbn [bind] in E; [|discriminate].
      assert (G : forall r1 v1 t1 t', (is_run_empty r1 = false -> P r1) -> rp t1 <= 1 -> phis t1 = 0 -> samples t1 = 1 ->
        moves t1 = 0 -> pieces t1 = 0 -> steps t1 = 0 -> (is_run_empty r1 = true -> rp t1 = 1) ->
        (if is_run_empty r1 then Some (v1, t1)
          else runs <- split_run r1 ;;
            '(p, t2) <- traced_fold (fun run v => tf_compute phi get_sample split_run s n update_run is_run_empty loop_fuel f run v (S L)) runs v1 ;;
            Some (p, t1 ++ Move :: Split (length runs) :: t2)) = Some (v', t') ->
        1 <= rp t' /\ phis t' <= rp t' /\ samples t' <= (S s - L) * rp t' /\ moves t' <= (S s - L) * rp t' /\
        pieces t' <= (S s - L) * rp t' /\ steps t' = 0).
      { intros r1 v1 t1 t' HP1 Q1 Q2 Q3 Q4 Q5 Q6 Q7 E'. replace (S s - L) with (S (S s - S L)) by lia.
        destruct (is_run_empty r1) eqn:Ee.
        - injection E' as <- <-. specialize (Q7 eq_refl). nia.
        - destruct (split_run r1) as [rs|] eqn:Es; cbn [bind] in E'; [|discriminate].
          destruct (Hsplit _ _ (HP1 eq_refl) Es) as [Hne HPs].
          destruct (traced_fold _ _ _) as [[p t2]|] eqn:E2; cbn [bind] in E'; [|discriminate]. injection E' as <- <-.
          apply (fold_cost _ (S s - S L) (S s - S L) (S s - S L)) in E2; [|intros r2 v2 v2' t2' HP2; apply IH; auto|auto].
          destruct E2 as (H1 & H2 & H3 & H4 & H5 & H6).
          assert (1 <= length rs) by (destruct rs; [congruence|cbn; lia]).
          cnt. rewrite Q2, Q3, Q4, Q5, Q6. repeat split; nia. }
      destruct sa as [x|]; cbn [bind] in E.
      + destruct (sample_value n x L) as [v1|]; cbn [bind] in E; [|discriminate].
        apply (G _ _ [Sample; Report v1] t) in E; auto.
      + apply (G _ _ [Sample] t) in E; auto. rewrite (HPe _ HP). discriminate.
  Qed.
  Lemma tf_range_cost f r v t : (forall rs, is_range_empty r = false -> split_range r = Some rs -> Forall P rs) ->
    tf_range phi get_sample split_range split_run s n is_range_empty update_run is_run_empty loop_fuel f r v = Some t ->
    phis t <= rp t /\ samples t <= s * rp t /\ moves t <= s * rp t /\ pieces t <= S s * rp t /\ steps t = 0.
  Proof.
    unfold tf_range. intros HP E. destruct (is_range_empty r) eqn:Er; [injection E as <-; cbn; lia|].
    destruct (split_range r) as [rs|] eqn:Es; cbn [bind] in E; [|discriminate].
    destruct (traced_fold _ _ _) as [[p t2]|] eqn:E2; cbn [bind] in E; [|discriminate]. injection E as <-.
    apply (fold_cost _ (S s - 1) (S s - 1) (S s - 1)) in E2; [|intros r2 v2 v2' t2' HP2; apply tf_compute_cost; auto|auto].
    replace (S s - 1) with s in E2 by lia. destruct E2 as (H1 & H2 & H3 & H4 & H5 & H6). cnt. repeat split; nia.
  Qed.

  Lemma tfv_phi_cost : forall f r v v' t, tfv_phi_loop update_run is_run_empty phiv f r v = Some (v', t) ->
    1 <= rp t /\ phis t = rp t /\ samples t = 0 /\ moves t = 0 /\ pieces t = 0 /\ steps t = 0.
  Proof.
    clear HPe HPu Hsplit. induction f as [|f IH]; intros r v v' t E; cbn [tfv_phi_loop] in E; [discriminate|].
    destruct (phiv v) as [v1|]; cbn [bind] in E; [|discriminate]. destruct (negb _).
    - destruct (tfv_phi_loop _ _ _ _ _ _) as [[p t1]|] eqn:E1; cbn [bind] in E; [|discriminate]. injection E as <- <-.
      destruct (IH _ _ _ _ E1) as (H1 & H2 & H3 & H4 & H5 & H6). cnt; lia.
    - injection E as <- <-. cbn. auto 8.
  Qed.
  Definition fgood (r : Run) : Prop := is_run_empty r = false -> P r.
  Lemma tfv_valid_cost : forall f r v r' v' t, fgood r ->
    tfv_valid_loop update_run is_run_empty phiv f r v = Some ((r', v'), t) ->
    fgood r' /\ (is_run_empty r = false -> is_run_empty r' = true \/ snd v = true -> 1 <= rp t) /\
    phis t = rp t /\ samples t = 0 /\ moves t = 0 /\ pieces t = 0 /\ steps t = 0.
  Proof.
    induction f as [|f IH]; intros r v r' v' t HG E; cbn [tfv_valid_loop] in E.
    - destruct (negb (is_run_empty r) && snd v) eqn:Ev; [discriminate|]. injection E as <- <- <-.
      split; auto. split; [|cbn; auto 8]. intros H [H1|H1]; [congruence|]. rewrite H, H1 in Ev. discriminate.
    - destruct (negb (is_run_empty r) && snd v) eqn:Ev.
      + destruct (phiv (fst v)) as [v1|]; cbn [bind] in E; [|discriminate].
        destruct (tfv_valid_loop _ _ _ _ _ _) as [[p t1]|] eqn:E1; cbn [bind] in E; [|discriminate]. injection E as -> <-.
        apply andb_prop in Ev as [Ev _]. apply negb_true_iff in Ev.
        apply IH in E1; [|intros H; apply HPu; auto]. destruct E1 as (G & _ & H2 & H3 & H4 & H5 & H6).
        split; auto. cnt. split; [lia|]. lia.
      + injection E as <- <- <-.
        split; auto. split; [|cbn; auto 8]. intros H [H1|H1]; [congruence|]. rewrite H, H1 in Ev. discriminate.
  Qed.
  Lemma tfv_do_cost : forall f L r v r' v' t, fgood r ->
    tfv_do_loop get_sample n update_run is_run_empty loop_fuel phiv f L r v = Some ((r', v'), t) ->
    fgood r' /\ (is_run_empty r = false -> is_run_empty r' = true \/ snd v = true -> 1 <= rp t) /\
    (is_run_empty r = false -> samples t <= S (rp t) /\ (snd v = true -> samples t <= rp t)) /\
    phis t = rp t /\ moves t = 0 /\ pieces t = 0 /\ steps t = 0.
  Proof.
    induction f as [|f IH]; intros L r v r' v' t HG E; cbn [tfv_do_loop] in E; [discriminate|].
    destruct (tfv_valid_loop _ _ _ _ _ _) as [[[r1 v1] t1]|] eqn:E1; cbn [bind] in E; [|discriminate].
    apply tfv_valid_cost in E1; [|auto]. destruct E1 as (G1 & Q1 & Q2 & Q3 & Q4 & Q5 & Q6).
    destruct (is_run_empty r1) eqn:Ee.
    { injection E as <- <- <-. split; auto. split; [auto|]. split; [rewrite Q3; lia|auto]. }
    destruct (get_sample r1) as [sa|]; cbn [bind] in E; [|discriminate].
    match type of E with context [bind ?m _] => destruct m as [v2|] end; cbn [bind] in E; [|discriminate].
    destruct (snd v2) eqn:Ev2.
    - destruct (tfv_do_loop _ _ _ _ _ _ _ _ _ _) as [[p t2]|] eqn:E2; cbn [bind] in E; [|discriminate].
      injection E as -> <-. apply IH in E2; [|auto]. destruct E2 as (G2 & K1 & K2 & K3 & K4 & K5 & K6).
      specialize (K1 Ee (or_intror Ev2)). destruct (K2 Ee) as [_ K2']. specialize (K2' Ev2). cnt.
      split; auto. split; [intros; lia|]. split; [|lia]. intros He. rewrite Q3. split; [lia|].
      intros Hv. specialize (Q1 He (or_intror Hv)). lia.
    - injection E as <- <- <-. cnt. split; auto. split.
      + intros He [H|H]; [congruence|]. specialize (Q1 He (or_intror H)). lia.
      + split; [|lia]. intros He. rewrite Q3. split; [lia|]. intros Hv. specialize (Q1 He (or_intror Hv)). lia.
  Qed.
  Lemma tfv_compute_cost : forall f L r v v' t, P r ->
    tfv_compute get_sample split_run s n update_run is_run_empty loop_fuel phiv f r v L = Some (v', t) ->
    1 <= rp t /\ phis t <= rp t /\ samples t <= S (S s - L) * rp t /\ moves t <= (S s - L) * rp t /\
    pieces t <= (S s - L) * rp t /\ steps t = 0.
  Proof.
    induction f as [|f IH]; intros L r v v' t HP E; [discriminate|].
    cbn [tfv_compute] in E. destruct (Nat.ltb_spec s L) as [Hs|Hs].
    - apply tfv_phi_cost in E. replace (S s - L) with 0 by lia. lia.
    - destruct (tfv_do_loop _ _ _ _ _ _ _ _ _ _) as [[[r1 v1] t1]|] eqn:E1; cbn [bind] in E; [|discriminate].
      apply tfv_do_cost in E1; [|intros _; auto]. destruct E1 as (G1 & Q1 & Q2 & Q3 & Q4 & Q5 & Q6).
      specialize (Q1 (HPe _ HP)). destruct (Q2 (HPe _ HP)) as [Q2' _]. replace (S s - L) with (S (S s - S L)) by lia.
      destruct (is_run_empty r1) eqn:Ee.
      + injection E as <- <-. specialize (Q1 (or_introl eq_refl)). repeat split; nia.
      + destruct (split_run r1) as [rs|] eqn:Es; cbn [bind] in E; [|discriminate].
        destruct (Hsplit _ _ (G1 Ee) Es) as [Hne HPs].
        destruct (traced_fold _ _ _) as [[p t2]|] eqn:E2; cbn [bind] in E; [|discriminate]. injection E as <- <-.
        apply (fold_cost _ (S (S s - S L)) (S s - S L) (S s - S L)) in E2; [|intros r2 v2 v2' t2' HP2; apply IH; auto|auto].
        destruct E2 as (H1 & H2 & H3 & H4 & H5 & H6).
        assert (1 <= length rs) by (destruct rs; [congruence|cbn; lia]).
        cnt. rewrite Q3, Q4, Q5, Q6. repeat split; nia.
  Qed.
  Lemma tfv_range_cost f r v t : (forall rs, is_range_empty r = false -> split_range r = Some rs -> Forall P rs) ->
    tfv_range get_sample split_range split_run s n is_range_empty update_run is_run_empty loop_fuel phiv f r v = Some t ->
    phis t <= S (rp t) /\ samples t <= S s * rp t /\ moves t <= s * rp t /\ pieces t <= S s * rp t /\ steps t = 0.
  Proof.
    unfold tfv_range. intros HP E. destruct (is_range_empty r) eqn:Er; [injection E as <-; cbn; lia|].
    destruct (phiv v) as [vv|]; cbn [bind] in E; [|discriminate].
    destruct (split_range r) as [rs|] eqn:Es; cbn [bind] in E; [|discriminate].
    destruct (traced_fold _ _ _) as [[p t2]|] eqn:E2; cbn [bind] in E; [|discriminate]. injection E as <-.
    apply (fold_cost _ (S (S s - 1)) (S s - 1) (S s - 1)) in E2; [|intros r2 v2 v2' t2' HP2; apply tfv_compute_cost; auto|auto].
    replace (S s - 1) with s in E2 by lia. destruct E2 as (H1 & H2 & H3 & H4 & H5 & H6). cnt. repeat split; nia.
  Qed.
End Forward.

(** ** Toehold and engine *)
Lemma t_sa_value_er {D} (gs : D -> option (option nat)) nav n bw : forall f k d,
  option_map fst (t_sa_value f gs nav n bw k d) = compute_sa_value f gs nav n bw k d.
Proof.
  induction f as [|f IH]; intros k d; cbn [t_sa_value compute_sa_value];
    (destruct (gs d) as [[x|]|]; cbn [bind]; auto; try (destruct (umod _ _); reflexivity)).
  destruct (nav d) as [d'|]; cbn [bind]; auto. rewrite <- IH. destruct (t_sa_value _ _ _ _ _ _ _) as [[v t]|]; auto.
Qed.
Lemma t_sa_value_cost {D} (gs : D -> option (option nat)) nav n bw : forall f k d v t,
  t_sa_value f gs nav n bw k d = Some (v, t) ->
  reports t = [] /\ samples t <= S f /\ moves t <= f /\ phis t = 0 /\ pieces t = 0 /\ steps t = 0.
Proof.
  induction f as [|f IH]; intros k d v t E; cbn [t_sa_value] in E;
    (destruct (gs d) as [[x|]|]; cbn [bind] in E; try discriminate;
     try (destruct (umod _ _); cbn [bind] in E; [|discriminate]; injection E as <- <-; cbn; repeat split; lia)).
  destruct (nav d) as [d'|]; cbn [bind] in E; [|discriminate].
  destruct (t_sa_value _ _ _ _ _ _ _) as [[v' t']|] eqn:E1; cbn [bind] in E; [|discriminate]. injection E as <- <-.
  apply IH in E1. destruct E1 as (H0 & H). split; [exact H0|]. cnt. lia.
Qed.
Lemma t_toehold_er {D} (g : D -> traced nat) h n d : (forall x, option_map fst (g x) = h x) ->
  option_map fst (t_toehold g n d) = compute_toehold h n d.
Proof.
  intros H. unfold t_toehold, compute_toehold. rewrite <- H. destruct (g (sd_run d)) as [[v t]|]; cbn [bind option_map fst]; auto.
  destruct (umod _ _); auto.
Qed.
Lemma t_all_er {Range Data} pr qr (toe : Data -> traced nat) toe' (upd : Range -> Range) r d :
  (forall r v, erl (pr r v) = qr r v) -> (forall d, option_map fst (toe d) = toe' d) ->
  (forall v t, toe d = Some (v, t) -> reports t = []) ->
  erl (t_all_values pr toe upd r d) = compute_all_values qr toe' upd r d.
Proof.
  intros H1 H2 H3. unfold t_all_values, compute_all_values. rewrite <- H2. destruct (toe d) as [[v t]|]; cbn [bind option_map fst]; auto.
  rewrite <- H1. destruct (pr (upd r) v) as [t2|]; cbn [bind erl option_map]; auto. rewrite reports_app, (H3 v t) by auto. auto.
Qed.
Section Engine.
  Context {Range Next Data : Type}.
  Variable lf : Range -> nat -> option Next.
  Variable to_range : Next -> Range.
  Variable upd : Range -> Next -> nat -> nat -> Data -> Data.
  Variable size : nat.
  Variable init : Data.
  Variable sym : nat -> option nat.
  Variable full : nat -> Range.
  Variable empty : Range -> bool.
  Lemma t_loop_er : forall p r i d,
    option_map fst (t_locate_loop lf to_range upd sym empty p r i d) = locate_loop lf to_range upd sym empty p r i d.
  Proof.
    induction p as [|c p IH]; intros r i d; cbn [t_locate_loop locate_loop]; auto. destruct (empty r); auto.
    destruct (sym c) as [c'|]; cbn [bind]; auto. destruct (lf r c') as [nx|]; cbn [bind]; auto. rewrite <- IH.
    destruct (t_locate_loop _ _ _ _ _ _ _ _ _) as [[x t]|]; auto.
  Qed.
  Lemma t_loop_cost : forall p r i d x t, t_locate_loop lf to_range upd sym empty p r i d = Some (x, t) ->
    steps t <= length p /\ reports t = [] /\ samples t = 0 /\ moves t = 0 /\ phis t = 0 /\ pieces t = 0.
  Proof.
    induction p as [|c p IH]; intros r i d x t E; cbn [t_locate_loop] in E; [injection E as <- <-; cbn; auto 8|].
    destruct (empty r); [injection E as <- <-; cbn; repeat split; lia|].
    destruct (sym c) as [c'|]; cbn [bind] in E; [|discriminate]. destruct (lf r c') as [nx|]; cbn [bind] in E; [|discriminate].
    destruct (t_locate_loop _ _ _ _ _ _ _ _ _) as [[x1 t1]|] eqn:E1; cbn [bind] in E; [|discriminate]. injection E as <- <-.
    apply IH in E1. destruct E1 as (H1 & H2 & H3). cbn [length]. split; [cnt; lia|]. split; [exact H2|]. cnt. lia.
  Qed.
  Lemma t_engine_er tall all p : (forall r d, erl (tall r d) = all r d) ->
    erl (t_engine lf to_range upd tall size init sym full empty p) = engine_locate lf to_range upd all size init sym full empty p.
  Proof.
    intros H. unfold t_engine, engine_locate. rewrite <- t_loop_er.
    destruct (t_locate_loop _ _ _ _ _ _ _ _ _) as [[[r d] t]|] eqn:E; cbn [bind option_map fst]; auto.
    apply t_loop_cost in E. destruct E as (_ & E & _). destruct (empty r); [cbn; congruence|]. rewrite <- H.
    destruct (tall r d); cbn [bind erl option_map]; auto. rewrite reports_app, E. auto.
  Qed.
  (** The calls of a query: those of the search, and those of the enumeration of its range. *)
  Lemma t_engine_cost tall p t : t_engine lf to_range upd tall size init sym full empty p = Some t ->
    exists r d t1, locate_loop lf to_range upd sym empty (rev p) (full size) (length p - 1) init = Some (r, d) /\
      steps t1 <= length p /\ reports t1 = [] /\ samples t1 = 0 /\ moves t1 = 0 /\ phis t1 = 0 /\ pieces t1 = 0 /\
      ((empty r = true /\ t = t1) \/ (empty r = false /\ exists t2, tall r d = Some t2 /\ t = t1 ++ t2)).
  Proof.
    unfold t_engine. intros E. rewrite <- t_loop_er.
    destruct (t_locate_loop _ _ _ _ _ _ _ _ _) as [[[r d] t1]|] eqn:E1; cbn [bind] in E; [|discriminate].
    apply t_loop_cost in E1. rewrite rev_length in E1. exists r, d, t1. split; auto.
    destruct E1 as (H1 & H2 & H3 & H4 & H5 & H6). repeat (split; auto).
    destruct (empty r); [injection E as <-; auto|]. right. split; auto.
    destruct (tall r d) as [t2|]; cbn [bind] in E; [|discriminate]. injection E as <-. eauto.
  Qed.
End Engine.
