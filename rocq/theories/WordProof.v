(** With words of 64 bits the queries are those of unlimited numbers, for an index whose samples are positions of a
    text that is short enough. *)
From Coq Require Import List Arith Bool Lia ZifyBool ZifyNat.
From Verif Require Import MBase MRle MConstruct MPhi MRIndex MSrIndex MPsi MCsa MSrCsa MWord Lists.
Import ListNotations.

Section Arith.
  Variable W : nat.
  Lemma add_gen a b : a + b < W -> (a + b) mod W = a + b.
  Proof. apply Nat.mod_small. Qed.
  Lemma sub_gen a b : a < W -> b < W -> (a + (W - b mod W)) mod W = if b <=? a then a - b else a + W - b.
  Proof.
    intros Ha Hb. rewrite (Nat.mod_small b W) by auto. destruct (Nat.leb_spec b a).
    - replace (a + (W - b)) with (a - b + 1 * W) by lia. rewrite Nat.mod_add, Nat.mod_small; lia.
    - rewrite Nat.mod_small; lia.
  Qed.
  Lemma neg_gen a b : a < W -> b < W -> (a + ((W - 1) * b) mod W) mod W = if b <=? a then a - b else a + W - b.
  Proof.
    intros Ha Hb. rewrite <- sub_gen by auto. rewrite (Nat.mod_small b W) by auto. rewrite Nat.add_mod_idemp_r by lia.
    destruct b as [|b].
    - rewrite Nat.mul_0_r, Nat.sub_0_r, Nat.add_0_r. replace (a + W) with (a + 1 * W) by lia. rewrite Nat.mod_add by lia. auto.
    - replace (a + (W - 1) * S b) with (a + (W - S b) + b * W) by nia. apply Nat.mod_add. lia.
  Qed.
End Arith.
Lemma addw_small a b : a + b < word -> addw a b = a + b.
Proof. apply add_gen. Qed.
Lemma word_eq : word = 2 ^ 64.
Proof. unfold word. reflexivity. Qed.
Lemma sub64_eq a b : sub64 a b = if b <=? a then a - b else a + word - b.
Proof. unfold sub64. generalize word_eq. generalize word. generalize (2 ^ 64). intros x y ->. reflexivity. Qed.
Opaque word.
Lemma subw_small a b : a < word -> b < word -> subw a b = sub64 a b.
Proof. intros. rewrite sub64_eq. unfold subw. apply sub_gen; auto. Qed.
Lemma negw_small a b : a < word -> b < word -> addw a (mulw (word - 1) b) = sub64 a b.
Proof. intros. rewrite sub64_eq. unfold addw, mulw. apply neg_gen; auto. Qed.
Lemma mulw_one b : b < word -> mulw 1 b = b.
Proof. intros. unfold mulw. rewrite Nat.mul_1_l. apply Nat.mod_small; auto. Qed.
Lemma sub64_le a b : b <= a -> sub64 a b = a - b.
Proof. intros. rewrite sub64_eq. destruct (Nat.leb_spec b a); lia. Qed.
Lemma sub64_word a b : a < word -> b < word -> sub64 a b < word.
Proof. intros. rewrite sub64_eq. destruct (Nat.leb_spec b a); lia. Qed.

Opaque addw subw mulw sub64.

(** Two computations with the same result, which satisfies [P]. *)
Definition keeps {B} (P : B -> Prop) (x y : option B) : Prop := x = y /\ forall b, y = Some b -> P b.
Lemma keeps_bind {A B} (P : A -> Prop) (Q : B -> Prop) x y f g :
  keeps P x y -> (forall a, P a -> keeps Q (f a) (g a)) -> keeps Q (bind x f) (bind y g).
Proof.
  intros [-> H] H2. destruct y as [a|]; cbn [bind]; [apply H2, H; auto|]. split; [auto|discriminate].
Qed.
Lemma keeps_ret {B} (P : B -> Prop) b : P b -> keeps P (Some b) (Some b).
Proof. intros H. split; auto. intros b' E. injection E as <-. auto. Qed.
Lemma keeps_none {B} (P : B -> Prop) : keeps P None None.
Proof. split; auto. discriminate. Qed.
Lemma keeps_self {B} (e : option B) : keeps (fun b => e = Some b) e e.
Proof. split; auto. Qed.
Lemma keeps_any {B} (P : B -> Prop) x y : keeps P x y -> x = y.
Proof. intros [H _]. auto. Qed.
Lemma keeps_umod (a b n : nat) : a = b -> keeps (fun v => v < n) (umod a n) (umod b n).
Proof.
  intros ->. split; auto. intros v E. unfold umod in E. destruct (Nat.eqb_spec n 0); [discriminate|]. injection E as <-.
  apply Nat.mod_upper_bound. auto.
Qed.
Ltac self := eapply keeps_bind; [apply keeps_self|intros].

Section Loops.
  Context {Range Run : Type}.
  Variables (n s : nat).
  Hypothesis Hb : 2 * n + s + 3 <= word.
  Variable get_sample : Run -> option (option nat).
  Hypothesis Hget : forall r x, get_sample r = Some (Some x) -> x < n.
  Variable split_range : Range -> option (list Run).
  Variable split_run : Run -> option (list Run).
  Variable navigate : Run -> option Run.
  Variable is_range_empty : Range -> bool.
  Variable update_run : Run -> Run.
  Variable is_run_empty : Run -> bool.
  Variable loop_fuel : nat.
  Variables phi phi' : nat -> option nat.
  Hypothesis Hphi : forall v, v < n -> keeps (fun y => y < n) (phi' v) (phi v).
  Variables phiv phiv' : nat -> option (nat * bool).
  Hypothesis Hphiv : forall v, v < n -> keeps (fun y => fst y < n) (phiv' v) (phiv v).

  Definition fine {A} (p : nat * A) : Prop := fst p < n.
  Definition finev {A} (p : (nat * bool) * A) : Prop := fst (fst p) < n.
  Definition finer {A R} (p : (R * (nat * bool)) * A) : Prop := fst (snd (fst p)) < n.

  Lemma wb_phi : forall f run v, v < n ->
    keeps fine (pb_phi_loop phi' update_run is_run_empty f run v) (pb_phi_loop phi update_run is_run_empty f run v).
  Proof.
    induction f as [|f IH]; intros run v Hv; cbn [pb_phi_loop]; [apply keeps_none|].
    eapply keeps_bind; [apply Hphi; auto|]. intros y Hy. cbn beta in *. destruct (negb _); [|apply keeps_ret; exact Hy].
    eapply keeps_bind; [apply IH; auto|]. intros [p o] Hp. apply keeps_ret. exact Hp.
  Qed.
  Lemma wb_runs_keeps : forall f rs v level, level + f <= S s -> v < n ->
    keeps fine (wb_runs phi' get_sample split_run navigate s n update_run is_run_empty loop_fuel f rs v level)
               (pb_runs phi get_sample split_run navigate s n update_run is_run_empty loop_fuel f rs v level).
  Proof.
    induction f as [|f IH]; intros rs v level Hl Hv; [apply keeps_none|]. cbn [wb_runs pb_runs].
    rewrite (addw_small level 1), Nat.add_1_r by lia.
    revert v Hv. induction rs as [|r rs IHr]; intros v Hv; [apply keeps_ret; exact Hv|].
    eapply keeps_bind; [apply keeps_self|]. intros sample Es.
    apply (keeps_bind (fun p => fst (fst p) < n)).
    { destruct sample as [x|]; [|apply keeps_ret; exact Hv]. apply Hget in Es.
      eapply keeps_bind; [apply keeps_umod; rewrite (addw_small x 1), addw_small; auto; lia|].
      intros y Hy. apply keeps_ret. exact Hy. }
    intros [[v1 o1] r1] H1. cbn [fst] in H1. destruct (is_run_empty r1).
    - eapply keeps_bind; [apply IHr; auto|]. intros [p o] Hp. apply keeps_ret. exact Hp.
    - eapply keeps_bind; [apply keeps_self|]. intros r2 E2.
      apply (keeps_bind fine).
      + destruct (s <=? S level); [apply wb_phi; auto|]. eapply keeps_bind; [apply keeps_self|]. intros rs' _.
        apply IH; auto. lia.
      + intros [v2 o2] H2. eapply keeps_bind; [apply IHr; exact H2|]. intros [p o] Hp. apply keeps_ret. exact Hp.
  Qed.
  Lemma wb_range_same r v : v < n ->
    wb_range phi' get_sample split_range split_run navigate s n is_range_empty update_run is_run_empty loop_fuel (S s) r v =
    pb_range phi get_sample split_range split_run navigate s n is_range_empty update_run is_run_empty loop_fuel (S s) r v.
  Proof.
    intros Hv. unfold wb_range, pb_range. destruct (is_range_empty r); [reflexivity|].
    apply (keeps_any (fun _ => True)). eapply keeps_bind; [apply keeps_self|]. intros rs _.
    eapply keeps_bind; [apply wb_runs_keeps; auto; lia|]. intros [p o] _. apply keeps_ret. auto.
  Qed.

  Lemma wbv_phi : forall f run v, v < n ->
    keeps finev (pbv_phi_loop update_run is_run_empty phiv' f run v) (pbv_phi_loop update_run is_run_empty phiv f run v).
  Proof.
    induction f as [|f IH]; intros run v Hv; cbn [pbv_phi_loop]; [apply keeps_none|].
    eapply keeps_bind; [apply Hphiv; auto|]. intros y Hy. cbn beta in *. destruct (negb _); [|apply keeps_ret; exact Hy].
    eapply keeps_bind; [apply IH; auto|]. intros [p o] Hp. apply keeps_ret. exact Hp.
  Qed.
  Lemma wbv_valid : forall f run vv, fst vv < n ->
    keeps finer (pbv_valid_loop update_run is_run_empty phiv' f run vv) (pbv_valid_loop update_run is_run_empty phiv f run vv).
  Proof.
    induction f as [|f IH]; intros run vv Hv; cbn [pbv_valid_loop].
    { destruct (_ && _); [apply keeps_none|apply keeps_ret; exact Hv]. }
    destruct (_ && _); [|apply keeps_ret; exact Hv].
    eapply keeps_bind; [apply Hphiv; auto|]. intros y Hy. eapply keeps_bind; [apply IH; exact Hy|].
    intros [p o] Hp. apply keeps_ret. exact Hp.
  Qed.
  Lemma wbv_do level : level <= s -> forall f run vv, fst vv < n ->
    keeps finer (wbv_do_loop get_sample n update_run is_run_empty loop_fuel phiv' f level run vv)
                (pbv_do_loop get_sample n update_run is_run_empty loop_fuel phiv f level run vv).
  Proof.
    intros Hl. induction f as [|f IH]; intros run vv Hv; cbn [wbv_do_loop pbv_do_loop]; [apply keeps_none|].
    eapply keeps_bind; [apply wbv_valid; auto|]. intros [[r1 v1] o1] H1. destruct (is_run_empty r1); [apply keeps_ret; exact H1|].
    eapply keeps_bind; [apply keeps_self|]. intros sample Es. apply (keeps_bind (fun p => fst p < n)).
    { destruct sample as [x|]; [|apply keeps_ret; exact H1]. apply Hget in Es.
      eapply keeps_bind; [apply keeps_umod; rewrite (addw_small x 1), addw_small; auto; lia|].
      intros y Hy. apply keeps_ret. exact Hy. }
    intros v2 H2. destruct (snd v2); [|apply keeps_ret; exact H2].
    eapply keeps_bind; [apply IH; auto|]. intros [p o] Hp. apply keeps_ret. exact Hp.
  Qed.
  Lemma wbv_runs_keeps : forall f rs vv level, level + f <= S s -> fst vv < n ->
    keeps finev (wbv_runs get_sample split_run navigate s n update_run is_run_empty loop_fuel phiv' f rs vv level)
                (pbv_runs get_sample split_run navigate s n update_run is_run_empty loop_fuel phiv f rs vv level).
  Proof.
    induction f as [|f IH]; intros rs v level Hl Hv; [apply keeps_none|]. cbn [wbv_runs pbv_runs].
    rewrite (addw_small level 1), Nat.add_1_r by lia.
    revert v Hv. induction rs as [|r rs IHr]; intros v Hv; [apply keeps_ret; exact Hv|].
    eapply keeps_bind; [apply wbv_do; auto; lia|]. intros [[r1 v1] o1] H1. destruct (negb (is_run_empty r1)).
    - eapply keeps_bind; [apply keeps_self|]. intros r2 E2.
      apply (keeps_bind finev).
      + destruct (s <=? S level); [apply wbv_phi; auto|]. eapply keeps_bind; [apply keeps_self|]. intros rs' _.
        apply IH; auto. lia.
      + intros [v2 o2] H2. eapply keeps_bind; [apply IHr; exact H2|]. intros [p o] Hp. apply keeps_ret. exact Hp.
    - eapply keeps_bind; [apply IHr; exact H1|]. intros [p o] Hp. apply keeps_ret. exact Hp.
  Qed.
  Lemma wbv_range_same r v : v < n ->
    wbv_range get_sample split_range split_run navigate s n is_range_empty update_run is_run_empty loop_fuel phiv' (S s) r v =
    pbv_range get_sample split_range split_run navigate s n is_range_empty update_run is_run_empty loop_fuel phiv (S s) r v.
  Proof.
    intros Hv. unfold wbv_range, pbv_range. destruct (is_range_empty r); [reflexivity|].
    apply (keeps_any (fun _ => True)). eapply keeps_bind; [apply Hphiv; auto|]. intros vv Hvv.
    eapply keeps_bind; [apply keeps_self|]. intros rs _.
    eapply keeps_bind; [apply wbv_runs_keeps; auto; lia|]. intros [p o] _. apply keeps_ret. auto.
  Qed.

  (** Forward *)
  Lemma fold_keeps {A} (P : A -> Prop) (f g : Run -> A -> out A) :
    (forall r v, P v -> keeps (fun p => P (fst p)) (f r v) (g r v)) ->
    forall rs v, P v -> keeps (fun p => P (fst p)) (out_fold f rs v) (out_fold g rs v).
  Proof.
    intros H. induction rs as [|r rs IH]; intros v Hv; cbn [out_fold]; [apply keeps_ret; exact Hv|].
    eapply keeps_bind; [apply H; auto|]. intros [v1 o1] H1. eapply keeps_bind; [apply IH; exact H1|].
    intros [v2 o2] H2. apply keeps_ret. exact H2.
  Qed.
  Lemma sample_value_keeps x level : x < n -> level <= S n -> keeps (fun v => v < n) (w_sample_value n x level) (sample_value n x level).
  Proof.
    intros Hx Hl. apply keeps_umod. 
    assert (E1 : addw x 1 = x + 1) by (apply addw_small; lia). rewrite E1.
    assert (E2 : addw (x + 1) n = x + 1 + n) by (apply addw_small; lia).
    assert (E3 : subw (x + 1 + n) level = x + 1 + n - level) by (rewrite subw_small by lia; apply sub64_le; lia).
    rewrite E2.
    rewrite E3, addw_small by lia. rewrite sub64_le by lia. reflexivity.
  Qed.
  Hypothesis Hs : s <= S n.
  Lemma wf_phi : forall f run v, v < n ->
    keeps fine (pf_phi_loop phi' update_run is_run_empty f run v) (pf_phi_loop phi update_run is_run_empty f run v).
  Proof.
    induction f as [|f IH]; intros run v Hv; cbn [pf_phi_loop]; [apply keeps_none|].
    eapply keeps_bind; [apply Hphi; auto|]. intros y Hy. cbn beta in *. destruct (negb _); [|apply keeps_ret; exact Hy].
    eapply keeps_bind; [apply IH; auto|]. intros [p o] Hp. apply keeps_ret. exact Hp.
  Qed.
  Lemma wf_compute_keeps : forall f run level v, v < n ->
    keeps fine (wf_compute phi' get_sample split_run s n update_run is_run_empty loop_fuel f run v level)
               (pf_compute phi get_sample split_run s n update_run is_run_empty loop_fuel f run v level).
  Proof.
    induction f as [|f IH]; intros run level v Hv; cbn [wf_compute pf_compute]; [apply keeps_none|].
    destruct (Nat.ltb_spec s level) as [Hl|Hl]; [apply wf_phi; auto|].
    rewrite (addw_small level 1), Nat.add_1_r by lia.
    eapply keeps_bind; [apply keeps_self|]. intros sample Es. apply (keeps_bind (fun p => fst (fst p) < n)).
    { destruct sample as [x|]; [|apply keeps_ret; exact Hv]. apply Hget in Es.
      eapply keeps_bind; [apply sample_value_keeps; auto; lia|]. intros y Hy. apply keeps_ret. exact Hy. }
    intros [[v1 o1] r1] H1. cbn [fst] in H1. destruct (is_run_empty r1); [apply keeps_ret; exact H1|].
    eapply keeps_bind; [apply keeps_self|]. intros rs _.
    eapply keeps_bind; [apply (fold_keeps (fun v => v < n)); [intros r v2 H2; apply IH; auto|exact H1]|].
    intros [p o] Hp. apply keeps_ret. exact Hp.
  Qed.
  Lemma wf_range_same r v : v < n ->
    wf_range phi' get_sample split_range split_run s n is_range_empty update_run is_run_empty loop_fuel (S s) r v =
    pf_range phi get_sample split_range split_run s n is_range_empty update_run is_run_empty loop_fuel (S s) r v.
  Proof.
    intros Hv. unfold wf_range, pf_range. destruct (is_range_empty r); [reflexivity|].
    apply (keeps_any (fun _ => True)). eapply keeps_bind; [apply keeps_self|]. intros rs _.
    eapply keeps_bind; [apply (fold_keeps (fun v => v < n)); [intros r2 v2 H2; apply wf_compute_keeps; auto|exact Hv]|].
    intros [p o] _. apply keeps_ret. auto.
  Qed.

  Lemma wfv_phi : forall f run v, v < n ->
    keeps finev (pfv_phi_loop update_run is_run_empty phiv' f run v) (pfv_phi_loop update_run is_run_empty phiv f run v).
  Proof.
    induction f as [|f IH]; intros run v Hv; cbn [pfv_phi_loop]; [apply keeps_none|].
    eapply keeps_bind; [apply Hphiv; auto|]. intros y Hy. cbn beta in *. destruct (negb _); [|apply keeps_ret; exact Hy].
    eapply keeps_bind; [apply IH; auto|]. intros [p o] Hp. apply keeps_ret. exact Hp.
  Qed.
  Lemma wfv_valid : forall f run vv, fst vv < n ->
    keeps finer (pfv_valid_loop update_run is_run_empty phiv' f run vv) (pfv_valid_loop update_run is_run_empty phiv f run vv).
  Proof.
    induction f as [|f IH]; intros run vv Hv; cbn [pfv_valid_loop].
    { destruct (_ && _); [apply keeps_none|apply keeps_ret; exact Hv]. }
    destruct (_ && _); [|apply keeps_ret; exact Hv].
    eapply keeps_bind; [apply Hphiv; auto|]. intros y Hy. eapply keeps_bind; [apply IH; exact Hy|].
    intros [p o] Hp. apply keeps_ret. exact Hp.
  Qed.
  Lemma wfv_do level : level <= s -> forall f run vv, fst vv < n ->
    keeps finer (wfv_do_loop get_sample n update_run is_run_empty loop_fuel phiv' f level run vv)
                (pfv_do_loop get_sample n update_run is_run_empty loop_fuel phiv f level run vv).
  Proof.
    intros Hl. induction f as [|f IH]; intros run vv Hv; cbn [wfv_do_loop pfv_do_loop]; [apply keeps_none|].
    eapply keeps_bind; [apply wfv_valid; auto|]. intros [[r1 v1] o1] H1. destruct (is_run_empty r1); [apply keeps_ret; exact H1|].
    eapply keeps_bind; [apply keeps_self|]. intros sample Es. apply (keeps_bind (fun p => fst p < n)).
    { destruct sample as [x|]; [|apply keeps_ret; exact H1]. apply Hget in Es.
      eapply keeps_bind; [apply sample_value_keeps; auto; lia|]. intros y Hy. apply keeps_ret. exact Hy. }
    intros v2 H2. destruct (snd v2); [|apply keeps_ret; exact H2].
    eapply keeps_bind; [apply IH; auto|]. intros [p o] Hp. apply keeps_ret. exact Hp.
  Qed.
  Lemma wfv_compute_keeps : forall f run level vv, fst vv < n ->
    keeps finev (wfv_compute get_sample split_run s n update_run is_run_empty loop_fuel phiv' f run vv level)
                (pfv_compute get_sample split_run s n update_run is_run_empty loop_fuel phiv f run vv level).
  Proof.
    induction f as [|f IH]; intros run level v Hv; cbn [wfv_compute pfv_compute]; [apply keeps_none|].
    destruct (Nat.ltb_spec s level) as [Hl|Hl]; [apply wfv_phi; auto|].
    rewrite (addw_small level 1), Nat.add_1_r by lia.
    eapply keeps_bind; [apply wfv_do; auto|]. intros [[r1 v1] o1] H1. destruct (is_run_empty r1); [apply keeps_ret; exact H1|].
    eapply keeps_bind; [apply keeps_self|]. intros rs _.
    eapply keeps_bind; [apply (fold_keeps (fun v => fst v < n)); [intros r v2 H2; apply IH; auto|exact H1]|].
    intros [p o] Hp. apply keeps_ret. exact Hp.
  Qed.
  Lemma wfv_range_same r v : v < n ->
    wfv_range get_sample split_range split_run s n is_range_empty update_run is_run_empty loop_fuel phiv' (S s) r v =
    pfv_range get_sample split_range split_run s n is_range_empty update_run is_run_empty loop_fuel phiv (S s) r v.
  Proof.
    intros Hv. unfold wfv_range, pfv_range. destruct (is_range_empty r); [reflexivity|].
    apply (keeps_any (fun _ => True)). eapply keeps_bind; [apply Hphiv; auto|]. intros vv Hvv.
    eapply keeps_bind; [apply keeps_self|]. intros rs _.
    eapply keeps_bind; [apply (fold_keeps (fun v => fst v < n)); [intros r2 v2 H2; apply wfv_compute_keeps; auto|exact Hvv]|].
    intros [p o] _. apply keeps_ret. auto.
  Qed.
End Loops.

(** ** Phi *)
Section Phi.
  Variable n : nat.
  Hypothesis Hb : 2 * n + 3 <= word.
  Variable marks : list bool.
  Hypothesis Hm : length marks <= n.
  Variable samples : list nat.
  Hypothesis Hsm : Forall (fun x => x < n) samples.
  Variable links : nat -> option (nat * bool).
  Variable validator : nat -> nat -> bool -> option bool.
  Lemma rank_le_len i k : bv_rank marks i = Some k -> k <= n.
  Proof.
    unfold bv_rank. destruct (Nat.leb_spec i (length marks)); [|discriminate]. intros E. injection E as <-.
    pose proof (rankP_le idb marks i). lia.
  Qed.
  Lemma select_lt k j : bv_select marks k = Some j -> j < n.
  Proof.
    unfold bv_select. destruct k as [|k]; [discriminate|]. intros E. apply select0_lt in E. lia.
  Qed.
  Lemma samples_lt i x : nth_error samples i = Some x -> x < n.
  Proof. intros E. apply nth_error_In in E. rewrite Forall_forall in Hsm. auto. Qed.
  Lemma get_keeps pos delta : keeps (fun p => fst p < n) (get_sample_for_phi links (nth_error samples) validator pos delta)
                                    (get_sample_for_phi links (nth_error samples) validator pos delta).
  Proof.
    unfold get_sample_for_phi. eapply keeps_bind; [apply keeps_self|]. intros [i b] _.
    eapply keeps_bind; [apply keeps_self|]. intros x Ex. eapply keeps_bind; [apply keeps_self|]. intros ok _. apply keeps_ret.
    cbn [fst]. apply (samples_lt i). exact Ex.
  Qed.
  Lemma w_ri_phi_keeps v : v < n -> keeps (fun p => fst p < n) (w_ri_phi n marks samples links validator v) (ri_phi n marks samples links validator v).
  Proof.
    intros Hv. unfold w_ri_phi, ri_phi, w_phi_backward, phi_backward, phi_fn. apply (keeps_bind (fun p => snd p < n)).
    { unfold w_predecessor, circular_predecessor. eapply keeps_bind; [apply keeps_self|]. intros k Ek. apply rank_le_len in Ek.
      eapply keeps_bind; [apply keeps_self|]. intros r Er. apply rank_le_len in Er.
      apply (keeps_bind (fun _ => True)).
      - unfold umod. destruct (Nat.eqb_spec k 0); [apply keeps_none|].
        assert (E1 : addw r k = r + k) by (apply addw_small; lia). rewrite E1.
        assert (E2 : subw (r + k) 1 = r + k - 1) by (rewrite subw_small by lia; apply sub64_le; lia).
        rewrite E2. apply keeps_ret. exact I.
      - intros o _. eapply keeps_bind; [apply keeps_self|]. intros j Ej. apply keeps_ret. exact (select_lt _ _ Ej). }
    intros [o rel] Hr. cbn [snd] in Hr.
    assert (Ed : (if rel <? v then subw v rel else addw v 1) = (if rel <? v then v - rel else v + 1)).
    { destruct (Nat.ltb_spec rel v); [rewrite subw_small by lia; apply sub64_le; lia|apply addw_small; lia]. }
    rewrite Ed. set (d := if rel <? v then v - rel else v + 1).
    assert (Hd : d <= n) by (unfold d; destruct (Nat.ltb_spec rel v); lia).
    eapply keeps_bind; [apply get_keeps|]. intros [x b] Hx. cbn [fst] in Hx.
    eapply keeps_bind; [apply keeps_umod; apply addw_small; lia|]. intros y Hy. apply keeps_ret. exact Hy.
  Qed.
  Lemma w_csa_phi_keeps v : v < n -> keeps (fun p => fst p < n) (w_csa_phi n marks samples links validator v) (csa_phi n marks samples links validator v).
  Proof.
    intros Hv. unfold w_csa_phi, csa_phi, w_phi_forward, phi_forward, phi_fn. apply (keeps_bind (fun p => snd p < n)).
    { unfold circular_soft_successor. eapply keeps_bind; [apply keeps_self|]. intros k Ek.
      eapply keeps_bind; [apply keeps_self|]. intros r Er. eapply keeps_bind; [apply keeps_self|]. intros o _.
      eapply keeps_bind; [apply keeps_self|]. intros j Ej. apply keeps_ret. exact (select_lt _ _ Ej). }
    intros [o rel] Hr. cbn [snd] in Hr. rewrite (subw_small rel v) by lia.
    pose proof (sub64_word rel v ltac:(lia) ltac:(lia)) as Hd. set (d := sub64 rel v) in *. clearbody d.
    eapply keeps_bind; [apply get_keeps|]. intros [x b] Hx. cbn [fst] in Hx.
    assert (E1 : addw x n = x + n) by (apply addw_small; lia).
    assert (E2 : subw (x + n) d = sub64 (x + n) d) by (apply subw_small; lia).
    eapply keeps_bind; [apply keeps_umod; rewrite E1; exact E2|]. intros y Hy. apply keeps_ret. exact Hy.
  Qed.
End Phi.

(** ** The first position and the sequence *)
Lemma w_sa_value_keeps {D} n bw gs (nav : D -> option D) : (forall d x, gs d = Some (Some x) -> x < n) ->
  forall f j d, 2 * n + j + f + 2 <= word ->
  keeps (fun v => v < n) (w_sa_value f gs nav n bw j d) (compute_sa_value f gs nav n bw j d).
Proof.
  intros Hg. induction f as [|f IH]; intros j d Hj; cbn [w_sa_value compute_sa_value];
    (eapply keeps_bind; [apply keeps_self|]); intros [x|] Es.
  - apply Hg in Es. apply keeps_umod.
    assert (E1 : addw x 1 = x + 1) by (apply addw_small; lia). rewrite E1.
    assert (E2 : addw (x + 1) n = x + 1 + n) by (apply addw_small; lia). rewrite E2. destruct bw.
    + assert (E3 : mulw 1 j = j) by (apply mulw_one; lia). rewrite E3. apply addw_small. lia.
    + apply negw_small; lia.
  - apply keeps_none.
  - apply Hg in Es. apply keeps_umod.
    assert (E1 : addw x 1 = x + 1) by (apply addw_small; lia). rewrite E1.
    assert (E2 : addw (x + 1) n = x + 1 + n) by (apply addw_small; lia). rewrite E2. destruct bw.
    + assert (E3 : mulw 1 j = j) by (apply mulw_one; lia). rewrite E3. apply addw_small. lia.
    + apply negw_small; lia.
  - assert (E1 : addw j 1 = S j) by (rewrite addw_small by lia; lia). rewrite E1.
    eapply keeps_bind; [apply keeps_self|]. intros d' _. apply IH. lia.
Qed.
Lemma w_toehold_keeps {D} n n' (g g' : D -> option nat) d :
  (forall x, keeps (fun v => v <= n) (g' x) (g x)) -> n' <= n -> 2 * n + 2 <= word -> sd_step d < word ->
  keeps (fun v => v < n') (w_toehold g' n' d) (compute_toehold g n' d).
Proof.
  intros Hg Hn Hw Hd. unfold w_toehold, compute_toehold. eapply keeps_bind; [apply Hg|]. intros v Hv. cbn beta in Hv.
  apply keeps_umod. assert (E1 : addw v n' = v + n') by (apply addw_small; lia). rewrite E1.
  assert (E2 : subw (v + n') (sd_step d) = sub64 (v + n') (sd_step d)) by (apply subw_small; lia). rewrite E2.
  apply subw_small; [apply sub64_word; lia|lia].
Qed.
Lemma phi_iter_same n (phi phi' : nat -> option (nat * bool)) :
  (forall v, v < n -> keeps (fun y => fst y < n) (phi' v) (phi v)) ->
  forall k v, v < n -> phi_iter phi' k v = phi_iter phi k v.
Proof.
  intros H. induction k as [|k IH]; intros v Hv; [reflexivity|]. cbn [phi_iter].
  apply (keeps_any (fun _ => True)). eapply keeps_bind; [apply H; exact Hv|]. intros [y b] Hy. cbn [fst] in Hy.
  rewrite (IH y Hy). eapply keeps_bind; [apply keeps_self|]. intros l _. apply keeps_ret. exact I.
Qed.
Lemma fst_keeps n (phi phi' : nat -> option (nat * bool)) v :
  keeps (fun y => fst y < n) (phi' v) (phi v) ->
  keeps (fun y => y < n) ('(x, _) <- phi' v ;; Some x) ('(x, _) <- phi v ;; Some x).
Proof. intros H. eapply keeps_bind; [exact H|]. intros [y b] Hy. apply keeps_ret. exact Hy. Qed.
Lemma all_same {Range D} n (pr pr' : Range -> nat -> option (list nat)) (toe toe' : D -> option nat) upd r d :
  keeps (fun v => v < n) (toe' d) (toe d) -> (forall r v, v < n -> pr' r v = pr r v) ->
  compute_all_values pr' toe' upd r d = compute_all_values pr toe upd r d.
Proof.
  intros Ht Hp. unfold compute_all_values. apply (keeps_any (fun _ => True)). eapply keeps_bind; [exact Ht|].
  intros k Hk. cbn beta in Hk. rewrite (Hp _ k Hk). eapply keeps_bind; [apply keeps_self|]. intros l _. apply keeps_ret. exact I.
Qed.
Section Engine.
  Context {Range Next D : Type}.
  Variable lf : Range -> nat -> option Next.
  Variable to_range : Next -> Range.
  Variable trivial : Range -> nat -> Next -> bool.
  Variable create : Range -> nat -> Next -> nat -> step_data D.
  Hypothesis Hcreate : forall r c nx k, sd_step (create r c nx k) = k.
  Variable size : nat.
  Variable sym : nat -> option nat.
  Variable full : nat -> Range.
  Variable empty : Range -> bool.
  Lemma step_small W : forall rp r i d r' d', i < W -> sd_step d < W ->
    locate_loop lf to_range (compute_step_data trivial create) sym empty rp r i d = Some (r', d') -> sd_step d' < W.
  Proof.
    induction rp as [|c rp IH]; intros r i d r' d' Hi Hd E; cbn [locate_loop] in E; [injection E as <- <-; exact Hd|].
    destruct (empty r); [injection E as <- <-; exact Hd|]. destruct (sym c) as [k|]; cbn [bind] in E; [|discriminate].
    destruct (lf r k) as [nx|]; cbn [bind] in E; [|discriminate]. apply IH in E; auto; [lia|].
    unfold compute_step_data. destruct (_ || _); [rewrite Hcreate|]; auto.
  Qed.
  Lemma engine_same all all' init p : sd_step init = 0 -> length p < word ->
    (forall r d, sd_step d < word -> all' r d = all r d) ->
    engine_locate lf to_range (compute_step_data trivial create) all' size init sym full empty p =
    engine_locate lf to_range (compute_step_data trivial create) all size init sym full empty p.
  Proof.
    intros Hi Hp H. unfold engine_locate.
    destruct (locate_loop _ _ _ _ _ _ _ _ _) as [[r d]|] eqn:E; [|reflexivity]. cbn [bind].
    apply (step_small word) in E; [|lia|lia]. destruct (empty r); [reflexivity|]. apply H. exact E.
  Qed.
End Engine.

(** ** The indexes *)
(** Samples are positions of a text of n symbols, and the marks are those of such a text. *)
Definition fits (n : nat) (marks : list bool) (samples : list nat) : Prop :=
  length marks <= n /\ Forall (fun x => x < n) samples.

Lemma w_rindex_same ix n p : al_size (ri_alpha ix) = Some n -> rle_size (ri_bwt ix) = n -> fits n (ri_marks ix) (ri_samples ix) ->
  2 * n + 3 <= word -> length p < word -> w_rindex_locate ix p = rindex_locate ix p.
Proof.
  intros En Er [Hm Hs] Hb Hp. unfold w_rindex_locate, rindex_locate. rewrite En. cbn [bind].
  apply engine_same; [reflexivity|reflexivity|exact Hp|]. intros r d Hd. apply (all_same n).
  - unfold w_ri_toehold, ri_toehold. rewrite Er. apply (w_toehold_keeps n); try lia. intros x.
    eapply keeps_bind; [apply keeps_self|]. intros k _. eapply keeps_bind; [apply keeps_self|]. intros y Ey.
    apply (samples_lt n (ri_samples ix) Hs) in Ey. assert (E1 : addw y 1 = y + 1) by (apply addw_small; lia). rewrite E1.
    apply keeps_ret. lia.
  - intros r' v Hv. unfold ri_phi_for_range. apply (phi_iter_same n); auto. intros v' Hv'. apply w_ri_phi_keeps; auto.
Qed.
Lemma sr_samples_lt ix n run x : Forall (fun x => x < n) (sr_samples ix) -> sr_get_sample ix run = Some (Some x) -> x < n.
Proof.
  intros Hs E. unfold sr_get_sample in E. destruct (nth_error _ _) as [[|]|]; cbn [bind] in E; try discriminate.
  destruct (bv_rank _ _) as [k|]; cbn [bind] in E; [|discriminate].
  destruct (nth_error _ _) as [y|] eqn:Ey; cbn [bind] in E; [|discriminate]. injection E as <-.
  apply nth_error_In in Ey. rewrite Forall_forall in Hs. auto.
Qed.
Lemma w_sr_same valid ix n phi phi' p : al_size (sr_alpha ix) = Some n -> rle_size (sr_bwt ix) = n ->
  Forall (fun x => x < n) (sr_samples ix) ->
  (forall v, v < n -> keeps (fun y => fst y < n) (phi' n v) (phi n v)) ->
  2 * n + sr_rate ix + 3 <= word -> length p < word ->
  w_sr_locate valid ix phi' p =
  sr_locate ix (fun n => if valid then sr_phi_for_range_valid ix n (phi n) else sr_phi_for_range ix n (phi n)) p.
Proof.
  intros En Er Hs Hphi Hb Hp. unfold w_sr_locate, sr_locate. rewrite En. cbn [bind].
  assert (Hg : forall r x, sr_get_sample_run ix r = Some (Some x) -> x < n).
  { intros r x E. unfold sr_get_sample_run in E. destruct (su_is_end r); [|discriminate]. exact (sr_samples_lt _ _ _ _ Hs E). }
  apply engine_same; [reflexivity|reflexivity|exact Hp|]. intros r d Hd. apply (all_same n).
  - unfold w_sr_toehold, sr_toehold. rewrite Er. apply (w_toehold_keeps n); try lia. intros x.
    eapply keeps_bind; [apply keeps_self|]. intros k _.
    assert (K : forall d, keeps (fun v => v < n) (w_sa_value (sr_rate ix) (sr_get_sample_data ix) (sr_lf_run_data ix) n true 0 d)
      (compute_sa_value (sr_rate ix) (sr_get_sample_data ix) (sr_lf_run_data ix) n true 0 d)).
    { intros d'. apply w_sa_value_keeps; [|lia]. intros d2 y E. unfold sr_get_sample_data in E.
      destruct (re_end d2); [|discriminate]. exact (sr_samples_lt _ _ _ _ Hs E). }
    destruct (K (mk_run_data_ext (re_c x) k (re_end x) (re_next x))) as [K1 K2]. split; [exact K1|].
    intros b Eb. apply K2 in Eb. lia.
  - intros r' v Hv. unfold w_sr_range, sr_phi_for_range_valid, sr_phi_for_range. destruct valid.
    + apply wbv_range_same with (phi := fun v => '(x, _) <- phi n v ;; Some x) (phi' := fun v => '(x, _) <- phi' n v ;; Some x);
        try assumption. intros v' Hv'. apply fst_keeps. apply Hphi. exact Hv'.
    + apply wb_range_same with (phiv := phi n) (phiv' := phi' n); try assumption. intros v' Hv'. apply fst_keeps. apply Hphi. exact Hv'.
Qed.
Lemma w_csa_same {D} al pc create (init : D) ix n f f' m p : al_size al = Some n -> m <= n -> fits n (ca_marks ix) (ca_samples ix) ->
  (forall x, keeps (fun v => v <= n) (f' x) (f x)) -> m = n ->
  2 * n + 3 <= word -> length p < word ->
  csa_locate al pc create init (fun n => compute_all_values (w_csa_range ix n) (w_toehold f' m) csa_update_range) p =
  csa_locate al pc create init (fun n => compute_all_values (csa_phi_for_range ix n) (compute_toehold f m) csa_update_range) p.
Proof.
  intros En Hm [H1 H2] Hf Em Hb Hp. unfold csa_locate. rewrite En. cbn [bind].
  apply engine_same; [reflexivity|reflexivity|exact Hp|]. intros r d Hd. apply (all_same n).
  - subst m. apply (w_toehold_keeps n); auto. lia.
  - intros r' v Hv. unfold w_csa_range, csa_phi_for_range, ri_phi_for_range. apply (phi_iter_same n); auto.
    intros v' Hv'. apply w_csa_phi_keeps; auto.
Qed.
Lemma w_rcsa_bwt_same ix n p : al_size (ca_alpha ix) = Some n -> pc_n (ca_psi ix) = n -> fits n (ca_marks ix) (ca_samples ix) ->
  2 * n + 3 <= word -> length p < word -> w_rcsa_bwt_locate ix p = rcsa_bwt_locate ix p.
Proof.
  intros En Er Hf Hb Hp. unfold w_rcsa_bwt_locate, rcsa_bwt_locate, rcsa_bwt_toehold.
  apply (w_csa_same _ _ _ _ ix n); auto; try lia. intros x.
  eapply keeps_bind; [apply keeps_self|]. intros k _. eapply keeps_bind; [apply keeps_self|]. intros y Ey.
  apply (samples_lt n (ca_samples ix) (proj2 Hf)) in Ey. assert (E1 : addw y 1 = y + 1) by (apply addw_small; lia). rewrite E1.
  apply keeps_ret. lia.
Qed.
Lemma w_rcsa_psi_same ix n p : al_size (ca_alpha ix) = Some n -> pc_n (ca_psi ix) = n -> fits n (ca_marks ix) (ca_samples ix) ->
  2 * n + 3 <= word -> length p < word -> w_rcsa_psi_locate ix p = rcsa_psi_locate ix p.
Proof.
  intros En Er Hf Hb Hp. unfold w_rcsa_psi_locate, rcsa_psi_locate, rcsa_psi_toehold.
  apply (w_csa_same _ _ _ _ ix n); auto; try lia. intros [c x].
  eapply keeps_bind; [apply keeps_self|]. intros k _. eapply keeps_bind; [apply keeps_self|]. intros y Ey.
  apply (samples_lt n (ca_samples ix) (proj2 Hf)) in Ey. assert (E1 : addw y 1 = y + 1) by (apply addw_small; lia). rewrite E1.
  apply keeps_ret. lia.
Qed.
Lemma w_fwd_range_same {Run} valid (gs : Run -> option (option nat)) srg srn rate n upd emp phi phi' r v :
  (forall x y, gs x = Some (Some y) -> y < n) -> (forall v, v < n -> keeps (fun y => fst y < n) (phi' v) (phi v)) ->
  2 * n + rate + 3 <= word -> rate <= S n -> v < n ->
  w_fwd_range valid gs srg srn rate n upd emp phi' r v = fwd_range valid gs srg srn rate n upd emp phi r v.
Proof.
  intros Hg Hphi Hb Hr Hv. unfold w_fwd_range, fwd_range. destruct valid.
  - apply wfv_range_same with (phi := fun v => '(x, _) <- phi v ;; Some x) (phi' := fun v => '(x, _) <- phi' v ;; Some x);
      try assumption; [exact Some|]. intros v' Hv'. apply fst_keeps. apply Hphi. exact Hv'.
  - apply wf_range_same with (phiv := phi) (phiv' := phi'); try assumption; [exact Some|]. intros v' Hv'. apply fst_keeps. apply Hphi. exact Hv'.
Qed.
Section Srcsa.
  Variables (ix : srcsa) (n : nat) (p : list nat) (valid : bool).
  Variables (phi phi' : srcsa -> nat -> nat -> option (nat * bool)).
  Hypothesis En : al_size (sc_alpha ix) = Some n.
  Hypothesis Hs : Forall (fun x => x < n) (sc_samples ix).
  Hypothesis Hphi : forall v, v < n -> keeps (fun y => fst y < n) (phi' ix n v) (phi ix n v).
  Hypothesis Hb : 2 * n + sc_rate ix + 3 <= word.
  Hypothesis Hr : sc_rate ix <= S n.
  Hypothesis Hp : length p < word.
  Lemma w_srcsa_same : w_srcsa_locate_with valid phi' ix p = srcsa_locate_with valid phi ix p.
  Proof.
    assert (Hg : forall x y, srcsa_get_sample ix x = Some (Some y) -> y < n).
    { intros x y E. unfold srcsa_get_sample in E. destruct (nth_error _ _) as [[|]|]; cbn [bind] in E; try discriminate.
      destruct (bv_rank _ _) as [k|]; cbn [bind] in E; [|discriminate].
      destruct (nth_error _ _) as [z|] eqn:Ez; cbn [bind] in E; [|discriminate]. injection E as <-.
      apply nth_error_In in Ez. rewrite Forall_forall in Hs. auto. }
    unfold w_srcsa_locate_with, srcsa_locate_with, csa_locate. rewrite En. cbn [bind].
    apply engine_same; [reflexivity|reflexivity|exact Hp|]. intros r d Hd. apply (all_same n).
    - unfold srcsa_toehold. apply (w_toehold_keeps n); try lia. intros x.
      destruct (w_sa_value_keeps n false (srcsa_get_sample ix) (srcsa_psi ix) Hg (sc_rate ix) 0 x ltac:(lia)) as [K1 K2].
      split; [exact K1|]. intros b Eb. apply K2 in Eb. lia.
    - intros r' v Hv. apply w_fwd_range_same; auto. intros x y E. eapply Hg. exact E.
  Qed.
  Lemma w_slim_same : w_slim_locate_with valid phi' ix p = slim_locate_with valid phi ix p.
  Proof.
    assert (Hg : forall a b c y, slim_get_sample ix a b c = Some (Some y) -> y < n).
    { intros a b c y E. unfold slim_get_sample in E. destruct (negb c); [discriminate|].
      destruct (if 0 <? a then _ else _) as [cc|]; cbn [bind] in E; [|discriminate].
      destruct (nth_error _ _) as [[|]|]; cbn [bind] in E; try discriminate.
      destruct (bv_rank _ _) as [k|]; cbn [bind] in E; [|discriminate].
      destruct (nth_error _ _) as [z|] eqn:Ez; cbn [bind] in E; [|discriminate]. injection E as <-.
      apply nth_error_In in Ez. rewrite Forall_forall in Hs. auto. }
    unfold w_slim_locate_with, slim_locate_with, csa_locate. rewrite En. cbn [bind].
    apply engine_same; [reflexivity|reflexivity|exact Hp|]. intros r d Hd. apply (all_same n).
    - unfold slim_toehold. apply (w_toehold_keeps n); try lia. intros x.
      destruct (w_sa_value_keeps n false (fun d => slim_get_sample ix (pd_c d) (pd_rank d) (pd_start d)) (slim_psi ix)
        (fun d y E => Hg _ _ _ y E) (Nat.max 1 (sc_rate ix)) 0 x ltac:(lia)) as [K1 K2].
      split; [exact K1|]. intros b Eb. apply K2 in Eb. lia.
    - intros r' v Hv. apply w_fwd_range_same; auto. intros x y E. eapply Hg. exact E.
  Qed.
End Srcsa.

(** ** Words *)
Transparent addw subw mulw.
Lemma words_gen W a b : a < W -> b < W ->
  ((a + b) mod W = if a + b <? W then a + b else a + b - W) /\
  ((a + (W - b mod W)) mod W = if b <=? a then a - b else W + a - b) /\
  (exists k, a * b = (a * b) mod W + k * W) /\ (a + b) mod W < W /\ (a + (W - b mod W)) mod W < W /\ (a * b) mod W < W.
Proof.
  intros Ha Hb. assert (H0 : W <> 0) by lia. split; [|split; [|split]].
  - destruct (Nat.ltb_spec (a + b) W); [apply Nat.mod_small; auto|].
    replace (a + b) with (a + b - W + 1 * W) at 1 by lia. rewrite Nat.mod_add by auto. apply Nat.mod_small. lia.
  - rewrite sub_gen by auto. destruct (Nat.leb_spec b a); lia.
  - exists (a * b / W). rewrite (Nat.div_mod (a * b) W) at 1 by auto. rewrite (Nat.mul_comm W). apply Nat.add_comm.
  - repeat split; apply Nat.mod_upper_bound; auto.
Qed.
Lemma words_ok : forall a b, a < 2 ^ 64 -> b < 2 ^ 64 ->
  (addw a b = if a + b <? 2 ^ 64 then a + b else a + b - 2 ^ 64) /\
  (subw a b = if b <=? a then a - b else 2 ^ 64 + a - b) /\
  (exists k, a * b = mulw a b + k * 2 ^ 64) /\ addw a b < 2 ^ 64 /\ subw a b < 2 ^ 64 /\ mulw a b < 2 ^ 64.
Proof. rewrite <- word_eq. intros a b Ha Hb. unfold addw, subw, mulw. apply words_gen; auto. Qed.
Lemma half_small a W : 2 * a + 3 <= W -> a < W.
Proof. lia. Qed.
Lemma half_rate a s W : 2 * a + s + 3 <= W -> a < W.
Proof. lia. Qed.
Lemma long_gen W a : W = 2 * a -> 2 <= a ->
  (let k := if 0 <? a then a - 0 else a + 1 in umod (a + k) (a + 1) = Some (a - 1)) /\
  (if 0 <? a then (a + (W - 0 mod W)) mod W else (a + 1) mod W) = a /\ (a + a) mod W = 0.
Proof.
  intros -> Ha. destruct (Nat.ltb_spec 0 a); [|lia]. rewrite Nat.sub_0_r. split; [|split].
  - cbv zeta. unfold umod. destruct (Nat.eqb_spec (a + 1) 0); [lia|]. f_equal.
    replace (a + a) with (a - 1 + 1 * (a + 1)) by lia. rewrite Nat.mod_add by lia. apply Nat.mod_small. lia.
  - rewrite Nat.mod_0_l, Nat.sub_0_r by lia. replace (a + 2 * a) with (a + 1 * (2 * a)) by lia.
    rewrite Nat.mod_add by lia. apply Nat.mod_small. lia.
  - replace (a + a) with (2 * a) by lia. apply Nat.mod_same. lia.
Qed.
Lemma long_text : exists n prev sample, n < 2 ^ 64 /\ prev < n /\ sample < n /\ n = 2 ^ 63 + 1 /\
  phi_backward (fun _ => Some (0, 0)) (fun _ _ => Some (sample, true)) n prev = Some (2 ^ 63 - 1, true) /\
  w_phi_backward (fun _ => Some (0, 0)) (fun _ _ => Some (sample, true)) n prev = Some (0, true).
Proof.
  assert (E : 2 ^ 64 = 2 * 2 ^ 63) by (change 64 with (S 63); apply Nat.pow_succ_r').
  assert (H2 : 2 <= 2 ^ 63) by (change 2 with (2 ^ 1) at 1; apply Nat.pow_le_mono_r; lia).
  unfold phi_backward, w_phi_backward, phi_fn. cbn [bind]. unfold addw, subw. rewrite word_eq.
  revert E H2. generalize (2 ^ 64) (2 ^ 63). intros W a E H2. exists (a + 1), a, a.
  destruct (long_gen W a E H2) as (L1 & L2 & L3).
  split; [lia|]. split; [lia|]. split; [lia|]. split; [auto|]. cbv zeta in L1. split.
  - rewrite L1. reflexivity.
  - rewrite L2, L3. unfold umod. destruct (Nat.eqb_spec (a + 1) 0); [lia|]. rewrite Nat.mod_0_l by lia. reflexivity.
Qed.
Lemma small_ok a : a <= 128 -> a <= 2 ^ 64.
Proof. intros H. apply (Nat.le_trans _ (2 ^ 7)); [exact H|]. apply Nat.pow_le_mono_r; lia. Qed.
Lemma small_lt a : a < 128 -> a < 2 ^ 64.
Proof. intros H. apply (Nat.lt_le_trans _ (2 ^ 7)); [exact H|]. apply Nat.pow_le_mono_r; lia. Qed.
