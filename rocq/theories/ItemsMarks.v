(** The files of the sorted heads and tails, and of the kept heads. *)
From Coq Require Import List Arith Bool String Sorting.Sorted Lia Permutation.
From Verif Require Import Spec MBase Lists FM MRle Runs RleSpec RleProof MConstruct MPhi MRIndex MSrIndex MOldRle OldRle MBwt MClosed MBench MItems Util Phi
  ConstructProof Glue Nav PhiProof BaseProof SamplingProof BackRange SubsProof ValidProof SrValid SrRuns SrProof RIndexProof BwtProof ClosedProof ClosedGlue
  SpecBwt SpecBench BenchProof SpecItems ItemsProof SrGlue ItemsEnd.
Import ListNotations.
Notation length := List.length.

Lemma order_indices pos : NoDup pos -> in_text_order pos (sort_indices pos).
Proof.
  intros N. split; [intros i; apply sort_indices_lt|]. pose proof (sorted_values_sorted pos N) as S. unfold sorted_values, ssorted in S.
  induction (sort_indices pos) as [|i l IH]; [constructor|]. cbn [map] in S. inversion S as [|? ? S1 S2]; subst. constructor; [auto|].
  rewrite Forall_map in S2. exact S2.
Qed.
Lemma seq_sorted m : forall a, ssorted (seq a m).
Proof. induction m as [|m IH]; intros a; constructor; [apply IH|]. apply Forall_forall. intros x Hx. apply in_seq in Hx. unfold Nat.lt. lia. Qed.
Section Marks.
  Variables (data sa : list nat) (sort : list nat -> option (list nat)) (bwt : oldrle) (f : list nat).
  Hypothesis HD : item_data data.
  Hypothesis HSo : sorted_by sort data sa.
  Let w := zero_as_two data.
  Let HSA : is_suffix_array (terminated w) sa := proj2 HSo.
  Let Hw2 : Forall (fun c => 1 < c < 255) w := whole_w data HD.
  Let Hz : zero_free w := Hw w 2 Hw2 (Nat.lt_0_succ 1).
  Let T := ctext w sa.
  Let HT : text_ok T := ctext_ok w sa Hz HSA.
  Let HS : is_suffix_array T sa := ctext_sa w sa Hz HSA.
  Let r := length (hrows T sa).
  Notation holds := (holds w sa bwt f).
  Lemma marks_ne : w <> [].
  Proof. pose proof (proj1 HD) as X. unfold w, zero_as_two. intros E. apply map_eq_nil in E. contradiction. Qed.
  Lemma holds_order d : holds d all_files -> order_files d.
  Proof.
    intros H. exists (hmarks T sa), (tmarks T sa), (sort_indices (hmarks T sa)), (sort_indices (tmarks T sa)).
    split; [rewrite H by (cbn; auto 20); reflexivity|]. split; [rewrite H by (cbn; auto 20); reflexivity|].
    split; [rewrite H by (cbn; auto 20); reflexivity|]. split; [apply order_indices, (hmarks_NoDup T sa HT HS)|].
    split; [rewrite H by (cbn; auto 20); reflexivity|]. split; [apply order_indices, (tmarks_NoDup T sa HT HS)|].
    rewrite H by (cbn; auto 20). cbn [content]. rewrite (hmarks_length T sa). reflexivity.
  Qed.
  Lemma holds_marked d : holds d all_files -> Forall (marked_files d) rates.
  Proof.
    intros H. apply Forall_forall. intros s Hs. destruct (rated_fns s Hs) as [R1 R2].
    assert (G : forall k, In k (writes (FTails s)) \/ In k (writes (FHeads s)) -> fget d k = Some (content w sa bwt f k)) by (intros k [Hk|Hk]; apply H, in_all; eauto).
    destruct (ksub_ok w sa Hw2 HSA s) as [_ F]. fold T in F. set (ks := ksub w sa s) in *.
    set (sm := msub w sa s). set (ms := sorted_values sm).
    assert (EK : map (fun k => nth ((k + 1) mod length (hmarks T sa)) (hmarks T sa) 0) ks = sm).
    { rewrite (hmarks_length T sa). apply (nth_ext _ _ 0 0); [unfold sm, msub; rewrite !map_length; reflexivity|].
      intros i Hi. rewrite map_length in Hi. pose proof (follow_hp w sa Hw2 HSA marks_ne s ks F i Hi) as E. etransitivity; [|exact E].
      rewrite !(nth_map_lt _ _ _ 0) by exact Hi. reflexivity. }
    assert (LM : length sm = length ks) by apply map_length.
    assert (AT : forall i, i < length ks -> nth (nth i (sort_indices sm) 0) sm 0 = nth i ms 0).
    { intros i Hi. unfold ms. rewrite sorted_values_nth by lia. reflexivity. }
    exists (terminated w), (hmarks T sa), ks, (sort_indices sm), (vbits T sa ks), (map (fun j => varea T sa ks j + 1) (vinvs T sa ks)).
    split; [rewrite H by (cbn; auto 20); reflexivity|]. split; [rewrite H by (cbn; auto 20); reflexivity|].
    split; [rewrite G by (cbn; auto 20); reflexivity|]. cbv zeta. rewrite EK.
    split; [rewrite G by (cbn; auto 20); reflexivity|]. split; [apply order_indices, (smarks_NoDup T sa HT HS s ks F)|].
    split.
    { intros k Hk. exists (bits_of sm (len T)). split; [destruct Hk as [<-|[<-|[]]]; rewrite G by (cbn; auto 12); reflexivity|].
      change (length (terminated w)) with (len (terminated w)). rewrite <- (ctext_len w sa). fold T. apply (bits_of_at data sa). intros i Hi. exact (smarks_lt T sa HT HS s ks F i Hi). }
    split; [intros k [<-|[<-|[<-|[]]]]; rewrite G by (cbn; auto 12); reflexivity|].
    split; [unfold vbits; rewrite map_length, seq_length; reflexivity|].
    assert (NB : forall i, nth i (vbits T sa ks) true = false <-> In i (vinvs T sa ks)).
    { intros i. unfold vbits. destruct (Nat.lt_ge_cases i (length ks)) as [L|L].
      - rewrite (nth_map_lt _ _ _ 0) by (rewrite seq_length; exact L). rewrite seq_nth by exact L. cbn [Nat.add]. unfold vbit. rewrite negb_false_iff. apply memb_In.
      - rewrite nth_overflow by (rewrite map_length, seq_length; exact L). split; [discriminate|]. intros Hi. apply (vinvs_lt T sa ks) in Hi. lia. }
    assert (IV : forall i, In i (vinvs T sa ks) <-> S i < length ks /\ above (sorted_values (hmarks T sa)) (nth i ms 0) <> nth (S i) ms 0).
    { intros i. unfold vinvs. rewrite filter_In, in_seq. unfold vinv. rewrite negb_true_iff, Nat.eqb_neq. pose proof (ks_pos T sa s ks F) as K.
      fold sm. assert (E : S i < length ks <-> i < length ks - 1) by lia. unfold ms, sm. intuition lia. }
    assert (FI : forall x, In x (sorted_values (hmarks T sa)) <-> In x (hmarks T sa)) by (intros x; apply sorted_values_in).
    pose proof (sorted_values_sorted _ (hmarks_NoDup T sa HT HS)) as FS.
    assert (NX : forall i, S i < length ks -> In (nth (S i) ms 0) (hmarks T sa) /\ nth i ms 0 < nth (S i) ms 0).
    { intros i Hi. assert (LS : length ms = length ks) by (unfold ms; rewrite sorted_values_length; exact LM). split.
      - apply (hmarks_in T sa HT HS), (smarks_hmark T sa HT HS s ks F). change (In (nth (S i) ms 0) sm). unfold ms. rewrite <- sorted_values_in. apply nth_In. fold ms. lia.
      - apply (ssorted_nth ms); [apply sorted_values_sorted, (smarks_NoDup T sa HT HS s ks F)|lia|lia]. }
    assert (AB : forall i, S i < length ks -> nth i ms 0 < above (sorted_values (hmarks T sa)) (nth i ms 0) <= nth (S i) ms 0 /\
      In (above (sorted_values (hmarks T sa)) (nth i ms 0)) (hmarks T sa) /\
      forall x, In x (hmarks T sa) -> nth i ms 0 < x -> above (sorted_values (hmarks T sa)) (nth i ms 0) <= x).
    { intros i Hi. destruct (NX i Hi) as [N1 N2]. destruct (above_le _ _ _ FS (proj2 (FI _) N1) N2) as [A1 A2]. split; [auto|]. split.
      - apply FI. unfold above in *. destruct (filter _ (sorted_values (hmarks T sa))) as [|y l] eqn:E; [cbn in A1; lia|]. cbn [hd].
        assert (X : In y (filter (fun y => nth i ms 0 <? y) (sorted_values (hmarks T sa)))) by (rewrite E; left; reflexivity). apply filter_In in X. tauto.
      - intros x Hx L. apply (above_le _ _ _ FS (proj2 (FI _) Hx) L). }
    split.
    { intros i Hi. rewrite NB, IV. split; intros [L X]; (split; [exact L|]); destruct (AB i L) as ([B1 B2] & B3 & B4).
      - exists (above (sorted_values (hmarks T sa)) (nth i ms 0)). rewrite !AT by lia. split; [exact B3|lia].
      - destruct X as (h & Hh & X). rewrite !AT in X by lia. specialize (B4 h Hh ltac:(lia)). lia. }
    split; [rewrite G by (cbn; auto 20); reflexivity|].
    exists (vinvs T sa ks). split.
    { split; [|intros i; rewrite NB; reflexivity]. intros i j a b Hij Ha Hb.
      assert (SS : ssorted (vinvs T sa ks)) by (apply ssorted_filter, seq_sorted).
      assert (Lj : j < length (vinvs T sa ks)) by (apply nth_error_Some; congruence).
      pose proof (ssorted_nth _ SS i j Hij Lj) as L. rewrite (nth_error_nth _ _ 0 Ha), (nth_error_nth _ _ 0 Hb) in L. exact L. }
    assert (Q : forall l, incl l (vinvs T sa ks) -> Forall2 (fun i area => exists h, In h (hmarks T sa) /\ nth (nth i (sort_indices sm) 0) sm 0 < h /\
      (forall x, In x (hmarks T sa) -> nth (nth i (sort_indices sm) 0) sm 0 < x -> h <= x) /\ area = h - nth (nth i (sort_indices sm) 0) sm 0 + 1) l (map (fun j => varea T sa ks j + 1) l)).
    { induction l as [|i l IH]; intros Hl; constructor; [|apply IH; intros x Hx; apply Hl; right; exact Hx].
      destruct (proj1 (IV i) (Hl i (or_introl eq_refl))) as [L _]. destruct (AB i L) as ([B1 B2] & B3 & B4). rewrite AT by lia.
      eexists. split; [exact B3|]. split; [exact B1|]. split; [exact B4|]. reflexivity. }
    apply Q. intros x; auto.
  Qed.
End Marks.
