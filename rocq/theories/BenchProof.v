(** Proofs about the query programs in benchmark/. *)
From Coq Require Import Decimal DecimalString DecimalNat List Arith Bool String Ascii Lia Sorted Permutation.
From Verif Require Import Spec MBase MRle MConstruct MRIndex MStore SpecStore StoreRound MFactory SpecFactory FactoryProof Util Glue SubsProof CircularProof MBench SpecBench Base64Proof.
Import ListNotations.

(** * Reading patterns *)
Definition nonempty (l : list nat) : bool := negb (List.length l =? 0).
Definition as_pattern (code : pattern_code) (l : list nat) : option pattern := d <- decode_pattern code l ;; Some (mk_pattern l d).
Lemma getline_app l r : ~ In 10 l -> getline (l ++ 10 :: r) = (l, r).
Proof.
  induction l as [|c l IH]; intros N; [reflexivity|]. cbn [app getline]. destruct (Nat.eqb_spec c 10) as [->|]; [exfalso; apply N; left; reflexivity|].
  rewrite IH; [reflexivity|]. intros I. apply N. right. exact I.
Qed.
Lemma getline_all l : ~ In 10 l -> getline l = (l, []).
Proof.
  induction l as [|c l IH]; intros N; [reflexivity|]. cbn [getline]. destruct (Nat.eqb_spec c 10) as [->|]; [exfalso; apply N; left; reflexivity|].
  rewrite IH; [reflexivity|]. intros I. apply N. right. exact I.
Qed.
Lemma patterns_loop_ok code : forall ls l, ~ In 10 l -> Forall (fun l => ~ In 10 l) ls -> forall fuel ps,
  List.length (l ++ flat_map (fun l => 10 :: l) ls) < fuel ->
  patterns_loop fuel code (l ++ flat_map (fun l => 10 :: l) ls) ps = option_map (app ps) (mmap (as_pattern code) (filter nonempty (l :: ls))).
Proof.
  induction ls as [|m ls IH]; intros l N F fuel ps L; (destruct fuel as [|fuel]; [lia|]).
  - cbn [flat_map patterns_loop]. rewrite app_nil_r in *. destruct l as [|c l]; [cbn; rewrite app_nil_r; reflexivity|].
    cbn [patterns_loop]. rewrite getline_all by exact N. cbn [List.length Nat.eqb filter nonempty negb mmap]. unfold as_pattern.
    destruct (decode_pattern code (c :: l)) as [d|]; [|reflexivity]. cbn [bind option_map]. destruct fuel as [|fuel]; [cbn in L; lia|]. reflexivity.
  - inversion F as [|? ? Fm Fls]; subst. cbn [flat_map] in *. cbn [app] in L |- *.
    remember (l ++ 10 :: m ++ flat_map (fun l0 => 10 :: l0) ls) as bs eqn:Eb.
    assert (getline bs = (l, m ++ flat_map (fun l0 => 10 :: l0) ls)) as G by (subst bs; apply getline_app, N).
    destruct bs as [|b bs]; [destruct l; discriminate|]. cbn [patterns_loop]. rewrite G.
    rewrite Eb, app_length in L. cbn [List.length] in L. cbn [filter]. destruct l as [|c l].
    + cbn [List.length Nat.eqb nonempty negb]. apply IH; auto. cbn [List.length] in L. lia.
    + cbn [List.length Nat.eqb nonempty negb mmap]. unfold as_pattern at 1. destruct (decode_pattern code (c :: l)) as [d|]; [|reflexivity]. cbn [bind].
      rewrite IH; auto; [|cbn [List.length] in L; lia]. cbn [filter]. destruct (mmap _ _) as [r|]; [|reflexivity]. cbn. rewrite <- app_assoc. reflexivity.
Qed.
Lemma read_lines flag code file ls : to_pattern_code flag = Some code -> lines_of file ls ->
  read_patterns flag file = mmap (as_pattern code) (filter nonempty ls).
Proof.
  intros C (NE & F & ->). destruct ls as [|l ls]; [contradiction|]. inversion F; subst. unfold read_patterns. rewrite C. cbn [bind].
  rewrite patterns_loop_ok; auto. destruct (mmap _ _); reflexivity.
Qed.
Lemma lines_exist : forall file, exists ls, lines_of file ls.
Proof.
  induction file as [|c file (ls & NE & F & E)].
  - exists [[]]. repeat split; [discriminate|]. constructor; auto.
  - destruct ls as [|l ls]; [contradiction|]. inversion F; subst. destruct (Nat.eq_dec c 10) as [->|N].
    + exists ([] :: l :: ls). repeat split; [discriminate|]. constructor; auto.
    + exists ((c :: l) :: ls). repeat split; [discriminate|]. constructor; auto. intros [|]; [congruence|contradiction].
Qed.
Lemma lines_unique : forall ls ls' file, lines_of file ls -> lines_of file ls' -> ls = ls'.
Proof.
  induction ls as [|l ls IH]; intros ls' file (NE & F & E) (NE' & F' & E'); [contradiction|]. destruct ls' as [|l' ls']; [contradiction|].
  inversion F as [|? ? Fl Fls]; inversion F' as [|? ? Fl' Fls']; subst.
  assert (forall (l l' : list nat) ls ls', ~ In 10 l -> ~ In 10 l' -> l ++ flat_map (fun l => 10 :: l) ls = l' ++ flat_map (fun l => 10 :: l) ls' ->
    l = l' /\ flat_map (fun l => 10 :: l) ls = flat_map (fun l => 10 :: l) ls') as Q.
  { clear. induction l as [|c l IH]; intros l' ls ls' N N' H; destruct l' as [|c' l'].
    - auto.
    - destruct ls as [|m ls]; cbn in H; [discriminate|]. injection H as <- H. exfalso. apply N'. left. reflexivity.
    - destruct ls' as [|m ls']; cbn in H; [discriminate|]. injection H as -> H. exfalso. apply N. left. reflexivity.
    - cbn in H. injection H as -> H. destruct (IH l' ls ls') as [-> ?]; auto; [intros I; apply N; right; exact I|intros I; apply N'; right; exact I]. }
  apply Q in E' as [<- E']; auto. f_equal. destruct ls as [|m ls], ls' as [|m' ls']; cbn in E'; try discriminate; [reflexivity|].
  injection E' as E'. apply (IH (m' :: ls') (m ++ flat_map (fun l => 10 :: l) ls)); (split; [discriminate|]; split; auto).
Qed.
Lemma mmap_plain : forall ls, mmap (as_pattern CPlain) ls = Some (map (fun l => mk_pattern l l) ls).
Proof. induction ls as [|l ls IH]; [reflexivity|]. cbn. cbn in IH. rewrite IH. reflexivity. Qed.
Lemma mmap_base64 : forall bss ls, Forall (Forall is_byte) bss -> Forall2 lenient_text bss ls ->
  mmap (as_pattern CBase64) ls = Some (map (fun '(l, bs) => mk_pattern l bs) (combine ls bss)).
Proof.
  intros bss ls F H. induction H as [|bs l bss ls H _ IH]; [reflexivity|]. inversion F; subst. cbn [mmap combine map].
  unfold as_pattern at 1, decode_pattern. rewrite (decode_ok bs l) by assumption. cbn [bind]. rewrite IH by assumption. reflexivity.
Qed.
Lemma filter_nonempty_all ls : Forall (fun l => l <> []) ls -> filter nonempty (ls ++ [[]]) = ls.
Proof. induction 1 as [|l ls H _ IH]; [reflexivity|]. cbn [app filter]. destruct l; [contradiction|]. cbn. f_equal. exact IH. Qed.
Lemma written_lines ls : Forall (fun l => ~ In 10 l) ls -> lines_of (flat_map (fun l => l ++ [10]) ls) (ls ++ [[]]).
Proof.
  intros F. split; [destruct ls; discriminate|]. split; [apply Forall_app; split; [exact F|constructor; auto]|].
  induction ls as [|l ls IH]; [reflexivity|]. inversion F; subst. cbn [flat_map app]. rewrite <- app_assoc. f_equal. cbn [app]. rewrite IH by assumption.
  destruct ls; reflexivity.
Qed.
Lemma text_nonempty url bs : bs <> [] -> text url bs <> [].
Proof. destruct bs as [|a [|b [|c r]]]; [contradiction|discriminate..]. Qed.
(** In base 64 every pattern starts with a symbol. *)
Lemma decode_first l d : l <> [] -> base64_decode l false = Some d -> hd 0 l <> 32.
Proof.
  intros N H E. unfold base64_decode in H. destruct l as [|c l]; [contradiction|]. cbn [hd] in E. subst c. cbn [List.length Nat.eqb decode_loop] in H.
  cbn [Nat.ltb Nat.leb] in H. unfold decode_chunk at 1 in H. cbn [Nat.add nth_error bind] in H.
  destruct l as [|a l]; [discriminate|]. cbn [bind] in H. destruct (pos_of_char a); [|discriminate]. cbn [bind] in H. discriminate.
Qed.
Lemma mmap_encoded code : forall ls ps, mmap (as_pattern code) ls = Some ps -> map pt_encoded ps = ls /\ Forall (fun p => decode_pattern code (pt_encoded p) = Some (pt_decoded p)) ps.
Proof.
  induction ls as [|l ls IH]; intros ps H; [injection H as <-; split; constructor|]. cbn [mmap] in H. unfold as_pattern at 1 in H.
  destruct (decode_pattern code l) as [d|] eqn:D; [|discriminate]. cbn [bind] in H. destruct (mmap (as_pattern code) ls) as [r|]; [|discriminate]. injection H as <-.
  destruct (IH r eq_refl) as [E F]. split; [cbn; congruence|constructor; auto].
Qed.

(** * Numerals *)
Fixpoint uvalue (v : nat) (d : uint) : nat :=
  match d with
  | Nil => v | D0 d => uvalue (10 * v) d | D1 d => uvalue (10 * v + 1) d | D2 d => uvalue (10 * v + 2) d | D3 d => uvalue (10 * v + 3) d
  | D4 d => uvalue (10 * v + 4) d | D5 d => uvalue (10 * v + 5) d | D6 d => uvalue (10 * v + 6) d | D7 d => uvalue (10 * v + 7) d
  | D8 d => uvalue (10 * v + 8) d | D9 d => uvalue (10 * v + 9) d
  end.
Lemma tail_mul_ten v : Nat.tail_mul 10 v = 10 * v.
Proof. rewrite Nat.tail_mul_spec. reflexivity. Qed.
Lemma of_uint_value d : forall v, Nat.of_uint_acc d v = uvalue v d.
Proof.
  induction d; intros v; [reflexivity|..]; cbn [Nat.of_uint_acc uvalue]; rewrite tail_mul_ten, IHd; f_equal; lia.
Qed.
Definition digits_of (d : uint) : list nat := bytes_of (NilEmpty.string_of_uint d).
Lemma digits_value d : forall v, fold_left (fun v c => 10 * v + (c - 48)) (digits_of d) v = uvalue v d.
Proof.
  induction d; intros v; [reflexivity|..]; unfold digits_of, bytes_of; cbn [NilEmpty.string_of_uint list_ascii_of_string map fold_left uvalue];
    (match goal with |- context [nat_of_ascii ?c] => let x := eval vm_compute in (nat_of_ascii c) in change (nat_of_ascii c) with x end);
    cbn [Nat.sub]; change (map nat_of_ascii (list_ascii_of_string (NilEmpty.string_of_uint d))) with (digits_of d); rewrite IHd; f_equal; lia.
Qed.
Lemma digits_range d : Forall (fun c => 48 <= c <= 57) (digits_of d).
Proof.
  induction d; [constructor|..]; unfold digits_of, bytes_of; cbn [NilEmpty.string_of_uint list_ascii_of_string map];
    (match goal with |- context [nat_of_ascii ?c] => let x := eval vm_compute in (nat_of_ascii c) in change (nat_of_ascii c) with x end);
    (constructor; [lia|exact IHd]).
Qed.
Lemma unorm_nz d : unorm d = d -> hd 0 (digits_of d) = 48 -> digits_of d = [48].
Proof.
  intros U H. destruct d; try (vm_compute in H; discriminate). destruct d; [reflexivity|exfalso; cbn [unorm nzhead] in U..];
    try discriminate U.
  assert (forall d e, unorm d = D0 (D0 e) -> False) as Q.
  { clear. intros d. unfold unorm. induction d; cbn [nzhead]; intros e H; try discriminate H. exact (IHd e H). }
  exact (Q (D0 (D0 d)) d U).
Qed.
Lemma to_uint_norm n : unorm (Nat.to_uint n) = Nat.to_uint n.
Proof. rewrite <- Unsigned.to_of. rewrite Unsigned.of_to. reflexivity. Qed.
Lemma shown_numeral n : numeral (shown n) n.
Proof.
  change (shown n) with (digits_of (Nat.to_uint n)). split; [|split; [apply digits_range|split]].
  - intros H. pose proof (to_uint_norm n) as U. destruct (Nat.to_uint n); try discriminate H. discriminate U.
  - apply unorm_nz, to_uint_norm.
  - rewrite digits_value, <- of_uint_value. exact (Unsigned.of_to n).
Qed.
Lemma numeral_no_nl d n : numeral d n -> ~ In 10 d.
Proof. intros (_ & F & _) I. rewrite Forall_forall in F. specialize (F 10 I). lia. Qed.

(** * Reports *)
Definition report_line (d : list nat) : list nat := [32; 32] ++ d ++ [10].
Lemma entry_lines q l out : report_entry q l out <-> exists ds, Forall2 numeral ds l /\ out = q ++ [10] ++ flat_map report_line ds.
Proof.
  split.
  - induction 1 as [|l out i d _ (ds & F & ->) N]; [exists []; split; [constructor|reflexivity]|].
    exists (ds ++ [d]). split; [apply Forall2_app; auto|]. rewrite flat_map_app, <- !app_assoc. cbn. rewrite app_nil_r. reflexivity.
  - intros (ds & F & ->). revert l F. induction ds as [|d ds IH] using rev_ind; intros l F.
    + inversion F; subst. cbn. constructor.
    + apply Forall2_app_inv_l in F as (l1 & l2 & F1 & F2 & ->). inversion F2 as [|? i ? ? N F3]; inversion F3; subst.
      rewrite flat_map_app. cbn [flat_map]. rewrite app_nil_r. replace (q ++ [10] ++ flat_map report_line ds ++ report_line d) with ((q ++ [10] ++ flat_map report_line ds) ++ [32; 32] ++ d ++ [10]) by (unfold report_line; rewrite <- !app_assoc; reflexivity).
      constructor; auto.
Qed.
Lemma nl_split : forall a b x y : list nat, ~ In 10 a -> ~ In 10 b -> a ++ 10 :: x = b ++ 10 :: y -> a = b /\ x = y.
Proof.
  induction a as [|c a IH]; intros b x y Na Nb H; destruct b as [|d b]; cbn in H.
  - injection H as ->. auto.
  - injection H as <- _. exfalso. apply Nb. left. reflexivity.
  - injection H as -> _. exfalso. apply Na. left. reflexivity.
  - injection H as -> H. destruct (IH b x y) as [-> ->]; auto; [intros I; apply Na; right; exact I|intros I; apply Nb; right; exact I].
Qed.
Definition starts_entry (r : list nat) : Prop := r = [] \/ hd 32 r <> 32.
Lemma lines_split : forall ds ds' r r', Forall (fun d => ~ In 10 d) ds -> Forall (fun d => ~ In 10 d) ds' -> starts_entry r -> starts_entry r' ->
  flat_map report_line ds ++ r = flat_map report_line ds' ++ r' -> ds = ds' /\ r = r'.
Proof.
  induction ds as [|d ds IH]; intros ds' r r' F F' S S' H; destruct ds' as [|d' ds'].
  - auto.
  - cbn in H. subst r. destruct S as [S|S]; [discriminate|]. exfalso. apply S. reflexivity.
  - cbn in H. subst r'. destruct S' as [S'|S']; [discriminate|]. exfalso. apply S'. reflexivity.
  - inversion F; inversion F'; subst. cbn in H. injection H as H. rewrite <- !app_assoc in H. cbn [app] in H. apply nl_split in H as [-> H]; auto.
    destruct (IH ds' r r') as [-> ->]; auto.
Qed.
Lemma numeral_fun ds l : Forall2 numeral ds l -> forall l', Forall2 numeral ds l' -> l = l'.
Proof.
  induction 1 as [|d i ds l N _ IH]; intros l' F; inversion F as [|? j ? ? N' F']; subst; [reflexivity|]. f_equal; [|auto].
  destruct N as (_ & _ & _ & <-), N' as (_ & _ & _ & <-). reflexivity.
Qed.
Lemma numerals_no_nl ds l : Forall2 numeral ds l -> Forall (fun d => ~ In 10 d) ds.
Proof. induction 1; constructor; auto. eapply numeral_no_nl; eauto. Qed.
Lemma report_starts qs ls out : Forall (fun q => q <> [] /\ hd 0 q <> 32) qs -> report qs ls out -> starts_entry out.
Proof.
  intros F R. destruct R as [|q qs l ls out outs E R]; [left; reflexivity|]. right. inversion F as [|? ? [Q1 Q2] _]; subst.
  apply entry_lines in E as (ds & _ & ->). destruct q; [contradiction|]. exact Q2.
Qed.
Lemma report_inv q qs ls o : report (q :: qs) ls o -> exists l lr out outs, ls = l :: lr /\ o = out ++ outs /\ report_entry q l out /\ report qs lr outs.
Proof. intros R. inversion R; subst. eauto 10. Qed.
Lemma report_reads qs ls out : Forall (fun q => q <> [] /\ hd 0 q <> 32) qs -> report qs ls out -> forall ls', report qs ls' out -> ls = ls'.
Proof.
  intros F R. induction R as [|q qs l ls out outs E R IH]; intros ls' R'; [inversion R'; reflexivity|].
  inversion F as [|? ? Q F']; subst. apply report_inv in R' as (l' & lr & out' & outs' & -> & H1 & E' & R'').
  apply entry_lines in E as (ds & D & ->), E' as (ds' & D' & ->). rewrite <- !app_assoc in H1. apply app_inv_head in H1. cbn [app] in H1. injection H1 as H1.
  apply lines_split in H1 as [-> ->]; eauto using numerals_no_nl, report_starts. f_equal; [eapply numeral_fun; eauto|]. apply IH; auto.
Qed.
Lemma sorted_unique l l' : StronglySorted lt l -> StronglySorted lt l' -> (forall x, In x l <-> In x l') -> l = l'.
Proof. intros S S' H. apply ssorted_unique; auto. Qed.

(** * Rows *)
Lemma rows_in sa s e a : In a (rows sa s e) <-> exists i, s <= i < e /\ nth_error sa i = Some a.
Proof.
  unfold rows. split.
  - intros H. apply In_nth_error in H as (k & H). assert (k < e - s) as K.
    { assert (k < List.length (firstn (e - s) (skipn s sa))) by (apply nth_error_Some; congruence). rewrite firstn_length in H0. lia. }
    exists (s + k). split; [lia|]. rewrite <- H. rewrite nth_error_firstn by exact K. rewrite nth_error_skipn. reflexivity.
  - intros (i & H & E). apply (nth_error_In _ (i - s)). rewrite nth_error_firstn by lia. rewrite nth_error_skipn. replace (s + (i - s)) with i by lia. exact E.
Qed.
Lemma NoDup_both {A} (a b : list A) : NoDup (a ++ b) -> NoDup a /\ NoDup b.
Proof.
  induction a as [|x a IH]; intros N; [split; [constructor|exact N]|]. inversion N as [|? ? X N']; subst. destruct (IH N') as [H1 H2]. split; [|exact H2].
  constructor; [|exact H1]. intros I. apply X, in_or_app. left. exact I.
Qed.
Lemma NoDup_firstn {A} (l : list A) : NoDup l -> forall k, NoDup (firstn k l).
Proof. intros N k. rewrite <- (firstn_skipn k l) in N. apply NoDup_both in N. apply N. Qed.
Lemma NoDup_skipn {A} (l : list A) : NoDup l -> forall k, NoDup (skipn k l).
Proof. intros N k. rewrite <- (firstn_skipn k l) in N. apply NoDup_both in N. apply N. Qed.
Lemma rows_occurrences p w sa s e : is_suffix_array (terminated w) sa -> row_interval p w sa s e -> occurrences w p (e - s).
Proof.
  intros [HP _] [B H]. exists (rows sa s e). split; [|apply rows_length; lia]. split.
  - unfold rows. apply NoDup_firstn, NoDup_skipn. eapply Permutation_NoDup; [symmetry; exact HP|apply seq_NoDup].
  - intros a. rewrite rows_in. split.
    + intros (i & Hi & E). apply H in Hi as (a' & E' & O). congruence.
    + intros O. assert (In a sa) as I.
      { eapply Permutation_in; [symmetry; exact HP|]. apply in_seq. unfold terminated. rewrite app_length. destruct O as (u & v & -> & <-). rewrite app_length. cbn. lia. }
      apply In_nth_error in I as (i & E). exists i. split; [|exact E]. apply H. eauto.
Qed.

(** * Queries *)
Lemma sum_cons a l : list_sum (a :: l) = a + list_sum l.
Proof. reflexivity. Qed.
Lemma mfold_app {A S} (f : S -> A -> option S) l : forall l' s, mfold f (l ++ l') s = bind (mfold f l s) (mfold f l').
Proof. induction l as [|a l IH]; intros l' s; [reflexivity|]. cbn [app mfold]. destruct (f s a); [cbn [bind]; apply IH|reflexivity]. Qed.
Lemma mfold_rounds {S} (m : S) : forall k s0 b, 0 < k -> mfold (fun (_ : S) (_ : nat) => Some m) (seq b k) s0 = Some m.
Proof. induction k as [|k IH]; intros s0 b H; [lia|]. cbn [seq mfold bind]. destruct k; [reflexivity|]. apply IH. lia. Qed.

Section Locates.
  Variables (w : list nat) (over : list nat -> Prop) (locate : list nat -> option (list nat)).
  Hypothesis locate_ok : forall p, over p -> exists l, locate p = Some l /\ exact_answer p w l.
  Notation good := (Forall (fun p => over (pt_decoded p))).

  Lemma macro_round_ok ps : good ps -> exists n, macro_round locate ps = Some n /\ all_occurrences w (map pt_decoded ps) n.
  Proof.
    unfold macro_round. intros G. assert (forall t, exists n, mfold (fun total p => occs <- locate (pt_decoded p) ;; Some (total + List.length occs)) ps t = Some (t + n) /\
      all_occurrences w (map pt_decoded ps) n) as Q.
    { induction G as [|p ps Hp G IH]; intros t; [exists 0; split; [cbn; f_equal; lia|exists []; split; [constructor|reflexivity]]|].
      destruct (locate_ok _ Hp) as (l & L & X). destruct (IH (t + List.length l)) as (n & E & ns & F & S). exists (List.length l + n).
      cbn [mfold]. rewrite L. cbn [bind]. rewrite E. split; [f_equal; lia|]. exists (List.length l :: ns). split; [constructor; [exists l; auto|exact F]|rewrite sum_cons; lia]. }
    destruct (Q 0) as (n & E & H). exists n. auto.
  Qed.
  Lemma macro_ok k ps : 0 < k -> good ps -> exists n, macro_locate locate k ps = Some (mk_counters (List.length ps) n) /\ all_occurrences w (map pt_decoded ps) n.
  Proof.
    intros K G. destruct (macro_round_ok ps G) as (n & E & H). exists n. split; [|exact H]. unfold macro_locate. rewrite E, mfold_rounds by exact K. reflexivity.
  Qed.
  Lemma micro_ok k ps i p : 0 < k -> good ps -> nth_error ps i = Some p -> exists n, occurrences w (pt_decoded p) n /\
    micro_locate locate k ps i = Some (mk_counters 1 n, (i + 1) mod List.length ps).
  Proof.
    intros K G E. assert (i < List.length ps) as I by (apply nth_error_Some; congruence).
    rewrite Forall_forall in G. destruct (locate_ok _ (G p (nth_error_In _ _ E))) as (l & L & X). exists (List.length l). split; [exists l; auto|].
    unfold micro_locate. rewrite E. cbn [bind]. rewrite L. cbn [bind]. rewrite mfold_rounds by exact K. cbn [bind]. f_equal. f_equal.
    destruct (Nat.eqb_spec (S i) (List.length ps)) as [Q|Q]; [rewrite Nat.add_1_r, Q, Nat.mod_same by lia; reflexivity|]. rewrite Nat.mod_small by lia. lia.
  Qed.
  Lemma print_round_ok ps : good ps -> exists n out ls, print_round locate ps = Some (n, out) /\ all_occurrences w (map pt_decoded ps) n /\
    Forall2 (sorted_answer w) (map pt_decoded ps) ls /\ report (map pt_encoded ps) ls out.
  Proof.
    unfold print_round. intros G. assert (forall t o, exists n out ls, mfold (print_step locate) ps (t, o) = Some (t + n, o ++ out) /\
      all_occurrences w (map pt_decoded ps) n /\ Forall2 (sorted_answer w) (map pt_decoded ps) ls /\ report (map pt_encoded ps) ls out) as Q.
    { induction G as [|p ps Hp G IH]; intros t o.
      - exists 0, [], []. split; [cbn; f_equal; f_equal; [lia|rewrite app_nil_r; reflexivity]|]. split; [exists []; split; [constructor|reflexivity]|]. split; constructor.
      - destruct (locate_ok _ Hp) as (l & L & X). destruct (std_sort_nat l (proj1 X)) as [SS PP].
        set (b := pt_encoded p ++ [10] ++ flat_map (fun item => [32; 32] ++ shown item ++ [10]) (std_sort Nat.ltb l)).
        destruct (IH (t + List.length l) (o ++ b)) as (n & out & ls & E & (ns & F & S) & A & R).
        exists (List.length l + n), (b ++ out), (std_sort Nat.ltb l :: ls). cbn [mfold print_step]. rewrite L. cbn [bind]. fold b. rewrite E.
        split; [f_equal; f_equal; [lia|rewrite app_assoc; reflexivity]|]. split.
        { exists (List.length l :: ns). split; [constructor; [exists l; auto|exact F]|rewrite sum_cons; lia]. }
        split; [constructor; [split; [exact (exact_perm _ _ _ _ (Permutation_sym PP) X)|exact SS]|exact A]|].
        constructor; [|exact R]. apply entry_lines. exists (map shown (std_sort Nat.ltb l)). split.
        + generalize (std_sort Nat.ltb l). clear. induction l; constructor; auto using shown_numeral.
        + unfold b. f_equal. f_equal. clear. induction (std_sort Nat.ltb l) as [|x r IH]; [reflexivity|]. cbn [flat_map map]. rewrite IH. reflexivity. }
    destruct (Q 0 []) as (n & out & ls & E & H). exists n, out, ls. auto.
  Qed.
  Lemma print_ok k ps : 0 < k -> good ps -> exists n out ls, print_locate locate k ps = Some (mk_counters (List.length ps) n, out) /\
    all_occurrences w (map pt_decoded ps) n /\ Forall2 (sorted_answer w) (map pt_decoded ps) ls /\ report (map pt_encoded ps) ls out.
  Proof.
    intros K G. destruct (print_round_ok ps G) as (n & out & ls & E & H). exists n, out, ls. split; [|exact H].
    unfold print_locate. rewrite E, mfold_rounds by exact K. reflexivity.
  Qed.
End Locates.
Section Counts.
  Variables (w sa : list nat) (count : list nat -> option range).
  Hypothesis HSA : is_suffix_array (terminated w) sa.
  Hypothesis count_ok : forall p, pattern_over w p -> exists s e, count p = Some (s, e) /\ row_interval p w sa s e.
  Notation good := (Forall (fun p => pattern_over w (pt_decoded p))).

  Lemma sub_rows s e : s <= e -> sub64 e s = e - s.
  Proof. intros H. unfold sub64. rewrite (proj2 (Nat.leb_le _ _)) by exact H. reflexivity. Qed.
  Lemma count_round_ok ps : good ps -> exists n, count_round count ps = Some n /\ all_occurrences w (map pt_decoded ps) n.
  Proof.
    unfold count_round. intros G. assert (forall t, exists n, mfold (fun total p => '(s, e) <- count (pt_decoded p) ;; Some (total + sub64 e s)) ps t = Some (t + n) /\
      all_occurrences w (map pt_decoded ps) n) as Q.
    { induction G as [|p ps Hp G IH]; intros t; [exists 0; split; [cbn; f_equal; lia|exists []; split; [constructor|reflexivity]]|].
      destruct (count_ok _ Hp) as (s & e & C & R). destruct (IH (t + (e - s))) as (n & E & ns & F & S). exists (e - s + n).
      cbn [mfold]. rewrite C. cbn [bind]. rewrite sub_rows by (destruct R; lia). rewrite E. split; [f_equal; lia|]. exists (e - s :: ns).
      split; [constructor; [eapply rows_occurrences; eauto|exact F]|rewrite sum_cons; lia]. }
    destruct (Q 0) as (n & E & H). exists n. auto.
  Qed.
  Lemma query_count_ok k ps : 0 < k -> good ps -> exists n, query_count count k ps = Some (mk_counters (List.length ps) n) /\ all_occurrences w (map pt_decoded ps) n.
  Proof.
    intros K G. destruct (count_round_ok ps G) as (n & E & H). exists n. split; [|exact H]. unfold query_count. rewrite E, mfold_rounds by exact K. reflexivity.
  Qed.
  Lemma csv_round_ok ps : good ps -> exists n out rs, csv_round count ps = Some (n, csv_head ++ out) /\ all_occurrences w (map pt_decoded ps) n /\
    Forall2 (fun p '(s, e) => row_interval p w sa s e) (map pt_decoded ps) rs /\ count_table (map pt_encoded ps) rs out.
  Proof.
    unfold csv_round. intros G. generalize csv_head as o. intros o.
    assert (forall t o, exists n out rs, mfold (csv_step count) ps (t, o) = Some (t + n, o ++ out) /\ all_occurrences w (map pt_decoded ps) n /\
      Forall2 (fun p '(s, e) => row_interval p w sa s e) (map pt_decoded ps) rs /\ count_table (map pt_encoded ps) rs out) as Q.
    { clear o. induction G as [|p ps Hp G IH]; intros t o.
      - exists 0, [], []. split; [cbn; f_equal; f_equal; [lia|rewrite app_nil_r; reflexivity]|]. split; [exists []; split; [constructor|reflexivity]|]. split; constructor.
      - destruct (count_ok _ Hp) as (s & e & C & R).
        destruct (IH (t + (e - s)) (o ++ [34] ++ pt_encoded p ++ [34; 44] ++ shown (e - s) ++ [44] ++ shown s ++ [44] ++ shown e ++ [10])) as (n & out & rs & E & (ns & F & S) & A & T).
        eexists (e - s + n), _, ((s, e) :: rs). cbn [mfold csv_step]. rewrite C. cbn [bind]. rewrite sub_rows by (destruct R; lia). rewrite E. split; [|split; [|split]].
        + f_equal. f_equal; [lia|]. rewrite <- app_assoc. reflexivity.
        + exists (e - s :: ns). split; [constructor; [eapply rows_occurrences; eauto|exact F]|rewrite sum_cons; lia].
        + constructor; auto.
        + cbn [map]. rewrite <- !app_assoc. constructor; auto using shown_numeral. }
    destruct (Q 0 o) as (n & out & rs & E & H). exists n, out, rs. auto.
  Qed.
  Lemma print_count_ok k ps : 0 < k -> good ps -> exists n out rs, print_count count k ps = Some (mk_counters (List.length ps) n, csv_head ++ out) /\
    all_occurrences w (map pt_decoded ps) n /\ Forall2 (fun p '(s, e) => row_interval p w sa s e) (map pt_decoded ps) rs /\ count_table (map pt_encoded ps) rs out.
  Proof.
    intros K G. destruct (csv_round_ok ps G) as (n & out & rs & E & H). exists n, out, rs. split; [|exact H].
    unfold print_count. rewrite E, mfold_rounds by exact K. reflexivity.
  Qed.
End Counts.

(** * Programs *)
Lemma nth_set l : forall i x, i < List.length l -> forall k, nth_error (set_nth l i x) k = if k =? i then Some x else nth_error l k.
Proof.
  unfold set_nth. induction l as [|a l IH]; intros i x H k; [cbn in H; lia|]. destruct i as [|i]; cbn [firstn skipn app nth_error].
  - destruct k; reflexivity.
  - destruct k as [|k]; [reflexivity|]. cbn [nth_error Nat.eqb]. apply IH. cbn in H. lia.
Qed.
Lemma micro_app idx a b : micro_calls idx (a ++ b) = micro_calls idx a + micro_calls idx b.
Proof. unfold micro_calls. rewrite filter_app, app_length. reflexivity. Qed.

(** Kept folded: the arithmetic tactics are not to look at the bound. *)
Definition addressable (w : list nat) : Prop := S (List.length w) < 2 ^ 64.

Section Programs.
  Variables (E : Type) (rank_of : E -> nat) (kind_of class_of : E -> kind) (tm : tmpl).
  Hypothesis HI : forall a b, rank_of a = rank_of b -> a = b.
  Hypothesis HC : forall a b, clash (kind_of a) (kind_of b) = false.
  Hypothesis HK : forall a, kind_of a = class_of a.
  Variables (w sa data : list nat) (h : nat) (dir : files).
  Hypothesis Hw : zero_free w.
  Hypothesis HSA : is_suffix_array (terminated w) sa.
  Hypothesis Hd : data = w \/ data = terminated w.
  Hypothesis Hh : 0 < h.
  Hypothesis HD : t_dens tm = 2 * h.
  Hypothesis Hn : addressable w.

  Lemma history_app evs : forall f evs', history E rank_of kind_of tm f (evs ++ evs') =
    let '(f1, r1) := history E rank_of kind_of tm f evs in let '(f2, r2) := history E rank_of kind_of tm f1 evs' in (f2, r1 ++ r2).
  Proof.
    induction evs as [|e evs IH]; intros f evs'.
    - cbn [history app]. destruct (history E rank_of kind_of tm f evs'). reflexivity.
    - cbn [history app]. destruct (happen E rank_of kind_of tm f e) as [f0 r0]. rewrite IH.
      destruct (history E rank_of kind_of tm f0 evs) as [f1 r1]. destruct (history E rank_of kind_of tm f1 evs') as [f2 r2]. reflexivity.
  Qed.
  Lemma history_length evs : forall f, List.length (snd (history E rank_of kind_of tm f evs)) = List.length evs.
  Proof.
    induction evs as [|e evs IH]; intros f; [reflexivity|]. cbn [history]. destruct (happen E rank_of kind_of tm f e) as [f0 r0]. specialize (IH f0).
    destruct (history E rank_of kind_of tm f0 evs). cbn in *. lia.
  Qed.
  Lemma makes_adds (cs : list (cfg E)) : only_adds dir (map FMake cs).
  Proof. induction cs; cbn; auto. Qed.
  Lemma makes_dir (cs : list (cfg E)) k : dir_after dir (firstn k (map FMake cs)) = dir.
  Proof. revert k. induction cs as [|c cs IH]; intros [|k]; cbn; auto. Qed.

  (** Factories that have only been asked for indexes. *)
  Definition reach (f : factory E) : Prop := exists cs rs, history E rank_of kind_of tm (new_factory E dir) (map FMake cs) = (f, rs).
  Lemma reach_make f c : reach f -> index_files tm (class_of (cf_type c)) (cf_rate c) data sa dir ->
    exists f' hd, make E rank_of kind_of tm f c = (f', Some hd) /\ reach f' /\
      forall p, pattern_over w p -> exists l, ask_locate E tm f' hd p = Some l /\ exact_answer p w l.
  Proof.
    intros (cs & rs & Q) (v & B & F). destruct (make E rank_of kind_of tm f c) as [f' r] eqn:M.
    assert (history E rank_of kind_of tm (new_factory E dir) (map FMake (cs ++ [c])) = (f', rs ++ [r])) as H.
    { rewrite map_app, history_app, Q. cbn [map history happen]. rewrite M. reflexivity. }
    assert (List.length rs = List.length cs) as L by (pose proof (history_length (map FMake cs) (new_factory E dir)) as Z; rewrite Q, map_length in Z; exact Z).
    destruct (factory_exact E rank_of kind_of class_of HI HC HK tm w sa data h dir _ f' _ Hw HSA Hd Hh HD Hn (makes_adds _) H (List.length cs) c v) as (hd & N & _ & _ & _ & A).
    - rewrite map_app, nth_error_app2; rewrite map_length; [|lia]. rewrite Nat.sub_diag. reflexivity.
    - exact B.
    - rewrite makes_dir. exact F.
    - rewrite nth_error_app2 in N by lia. rewrite L, Nat.sub_diag in N. cbn in N. injection N as ->. exists f', hd. split; [reflexivity|]. split.
      + exists (cs ++ [c]), (rs ++ [Some hd]). exact H.
      + intros p Hp. destruct (A p Hp) as (l & _ & _ & Q1 & Q2 & _). exists l. auto.
  Qed.

  Variables (configs : list (idx_config E)) (ps : list pattern).
  Hypothesis good : Forall (fun p => pattern_over w (pt_decoded p)) ps.

  Record pinv (js : list job) (s : program E) : Prop := {
    pi_reach : reach (pr_factory E s);
    pi_next : List.length (pr_next E s) = List.length configs /\
      forall idx, idx < List.length configs -> nth_error (pr_next E s) idx = Some (micro_calls idx js mod List.length ps);
    pi_out : forall k out, out_find (pr_out E s) k = Some out -> report_of w ps out;
    pi_all : forall j c, In j js -> jb_bench j = BPrint -> nth_error configs (jb_idx j) = Some c -> exists out, out_find (pr_out E s) (result_name c (jb_rate j)) = Some out }.

  Lemma do_job_ok js s j : pinv js s -> may_call class_of tm data sa dir configs ps j ->
    exists s' co, do_job E rank_of kind_of tm configs ps s j = Some (s', co) /\ pinv (js ++ [j]) s' /\ reported w ps (js ++ [j]) (List.length js) co.
  Proof.
    intros P (c & Hc & F & It & Mi).
    destruct (reach_make _ (fac_config E c (jb_rate j)) (pi_reach _ _ P)) as (f & hd & M & R & A). { unfold fac_config. cbn [cf_type cf_rate]. exact F. }
    assert (nth_error (js ++ [j]) (List.length js) = Some j) as Ej by (rewrite nth_error_app2, Nat.sub_diag by lia; reflexivity).
    assert (jb_idx j < List.length configs) as Ij by (apply nth_error_Some; congruence).
    destruct (pi_next _ _ P) as [Ln Nx]. unfold do_job. rewrite Hc. cbn [bind]. rewrite M. cbn [bind].
    destruct (jb_bench j) eqn:Bj.
    - destruct (macro_ok w _ _ A (jb_iters j) ps It good) as (n & -> & O). cbn [bind]. eexists _, _. split; [reflexivity|]. split.
      + constructor; cbn [pr_factory pr_next pr_out]; [exact R| |exact (pi_out _ _ P)|].
        * split; [exact Ln|]. intros idx I. rewrite micro_app. unfold micro_calls at 2. cbn [filter]. rewrite Bj, andb_false_r. cbn. rewrite Nat.add_0_r. auto.
        * intros j' c' I B' Q. apply in_app_or in I as [I|[<-|[]]]; [exact (pi_all _ _ P j' c' I B' Q)|congruence].
      + exists j. split; [exact Ej|]. rewrite Bj. auto.
    - specialize (Mi eq_refl). assert (0 < List.length ps) as Lp by (destruct ps; [congruence|cbn; lia]).
      rewrite (Nx _ Ij). cbn [bind]. set (m := micro_calls (jb_idx j) js).
      destruct (nth_error ps (m mod List.length ps)) as [p|] eqn:Np; [|apply nth_error_None in Np; pose proof (Nat.mod_upper_bound m (List.length ps)); lia].
      destruct (micro_ok w _ _ A (jb_iters j) ps _ p It good Np) as (n & O & ->). cbn [bind]. eexists _, _. split; [reflexivity|]. split.
      + constructor; cbn [pr_factory pr_next pr_out]; [exact R| |exact (pi_out _ _ P)|].
        * split. { unfold set_nth. rewrite !app_length, firstn_length, skipn_length. cbn [List.length]. lia. }
          intros idx I. rewrite nth_set by lia. rewrite micro_app. unfold micro_calls at 2. cbn [filter]. rewrite Bj, andb_true_r.
          destruct (Nat.eqb_spec idx (jb_idx j)) as [->|Ne].
          -- rewrite Nat.eqb_refl. cbn [List.length]. fold m. rewrite Nat.add_mod_idemp_l by lia. reflexivity.
          -- rewrite (proj2 (Nat.eqb_neq _ _)) by congruence. cbn [List.length]. rewrite Nat.add_0_r. auto.
        * intros j' c' I B' Q. apply in_app_or in I as [I|[<-|[]]]; [exact (pi_all _ _ P j' c' I B' Q)|congruence].
      + exists j. split; [exact Ej|]. rewrite Bj. split; [reflexivity|]. rewrite firstn_app, Nat.sub_diag, firstn_all. cbn [firstn]. rewrite app_nil_r. fold m. exists p. auto.
    - destruct (print_ok w _ _ A (jb_iters j) ps It good) as (n & out & ls & -> & O & S1 & S2). cbn [bind]. eexists _, _. split; [reflexivity|]. split.
      + constructor; cbn [pr_factory pr_next pr_out]; [exact R| | |].
        * split; [exact Ln|]. intros idx I. rewrite micro_app. unfold micro_calls at 2. cbn [filter]. rewrite Bj, andb_false_r. cbn. rewrite Nat.add_0_r. auto.
        * intros k o. cbn [out_find]. destruct (String.eqb _ k); [intros Q; injection Q as <-; exists ls; auto|exact (pi_out _ _ P k o)].
        * intros j' c' I B' Q. cbn [out_find]. destruct (String.eqb_spec (result_name c (jb_rate j)) (result_name c' (jb_rate j'))) as [W|W]; [exists out; reflexivity|].
          apply in_app_or in I as [I|[<-|[]]]; [exact (pi_all _ _ P j' c' I B' Q)|]. rewrite Hc in Q. injection Q as <-. congruence.
      + exists j. split; [exact Ej|]. rewrite Bj. auto.
  Qed.
  Lemma do_jobs_ok js : forall js0 s, pinv js0 s -> Forall (may_call class_of tm data sa dir configs ps) js ->
    exists s' rs, do_jobs E rank_of kind_of tm configs ps s js = Some (s', rs) /\ pinv (js0 ++ js) s' /\ List.length rs = List.length js /\
      forall i co, nth_error rs i = Some co -> reported w ps (js0 ++ js) (List.length js0 + i) co.
  Proof.
    induction js as [|j js IH]; intros js0 s P F.
    - exists s, []. split; [reflexivity|]. rewrite app_nil_r. split; [exact P|]. split; [reflexivity|]. intros [|i] co Q; discriminate Q.
    - inversion F as [|? ? Fj Fs]; subst. destruct (do_job_ok js0 s j P Fj) as (s1 & co & D & P1 & R1).
      destruct (IH (js0 ++ [j]) s1 P1 Fs) as (s2 & rs & Ds & P2 & L & R2). rewrite <- app_assoc in P2, R2. cbn [app] in P2, R2.
      exists s2, (co :: rs). cbn [do_jobs]. rewrite D. cbn [bind]. rewrite Ds. cbn [bind]. split; [reflexivity|]. split; [exact P2|].
      split; [cbn; lia|]. intros [|i] co' Q; cbn [nth_error] in Q.
      + injection Q as <-. rewrite Nat.add_0_r. destruct R1 as (j' & N & X). exists j'. rewrite nth_error_app2, Nat.sub_diag in N by lia. cbn in N. injection N as <-.
        split; [rewrite nth_error_app2, Nat.sub_diag by lia; reflexivity|]. rewrite firstn_app, Nat.sub_diag, firstn_all in *. exact X.
      + specialize (R2 i co' Q). rewrite app_length in R2. cbn [List.length] in R2. replace (List.length js0 + S i) with (List.length js0 + 1 + i) by lia. exact R2.
  Qed.
  Lemma pinv_start : pinv [] (mk_program E (new_factory E dir) (repeat 0 (List.length configs)) []).
  Proof.
    constructor; cbn [pr_factory pr_next pr_out].
    - exists [], []. reflexivity.
    - rewrite repeat_length. split; [reflexivity|]. intros idx I. unfold micro_calls. cbn [filter List.length].
      replace (0 mod List.length ps) with 0 by (destruct (List.length ps); [reflexivity|rewrite Nat.mod_0_l; lia]).
      clear -I. revert idx I. induction (List.length configs) as [|k IH]; intros idx I; [lia|]. destruct idx; [reflexivity|]. cbn. apply IH. lia.
    - discriminate.
    - intros j c [].
  Qed.
  Lemma locate_program_ok flag file js : read_patterns flag file = Some ps -> Forall (may_call class_of tm data sa dir configs ps) js ->
    exists outs rs, locate_program E rank_of kind_of tm configs flag file dir js = Some (outs, rs) /\ List.length rs = List.length js /\
      (forall i co, nth_error rs i = Some co -> reported w ps js i co) /\
      (forall j c, In j js -> jb_bench j = BPrint -> nth_error configs (jb_idx j) = Some c ->
         exists out, out_find outs (result_name c (jb_rate j)) = Some out /\ report_of w ps out).
  Proof.
    intros Rp F. destruct (do_jobs_ok js [] _ pinv_start F) as (s & rs & D & P & L & R). unfold locate_program. rewrite Rp. cbn [bind]. rewrite D. cbn [bind].
    exists (pr_out E s), rs. split; [reflexivity|]. split; [exact L|]. split; [exact R|]. intros j c I B Q. destruct (pi_all _ _ P j c I B Q) as (out & O).
    exists out. split; [exact O|exact (pi_out _ _ P _ _ O)].
  Qed.

  Lemma mmap_ok {A B} (f : A -> option B) (R : A -> B -> Prop) l : Forall (fun a => exists b, f a = Some b /\ R a b) l -> exists l', mmap f l = Some l' /\ Forall2 R l l'.
  Proof.
    induction 1 as [|a l (b & F & X) _ (l' & M & Y)]; [exists []; split; [reflexivity|constructor]|]. exists (b :: l'). cbn [mmap]. rewrite F. cbn [bind]. rewrite M.
    split; [reflexivity|constructor; auto].
  Qed.
  Lemma count_program_ok types flag file js : read_patterns flag file = Some ps ->
    Forall (fun t => index_files tm (class_of t) 0 data sa dir) types ->
    Forall (fun '(i, _, iters) => i < List.length types /\ 0 < iters) js ->
    exists rs, count_program E rank_of kind_of tm types flag file dir js = Some rs /\
      Forall2 (fun '(_, print, _) r => co_patterns (re_counters r) = List.length ps /\ all_occurrences w (map pt_decoded ps) (co_occurrences (re_counters r)) /\
        match re_file r with
        | None => print = false
        | Some out => print = true /\ exists table rows, out = csv_head ++ table /\
            Forall2 (fun p '(s, e) => row_interval p w sa s e) (map pt_decoded ps) rows /\ count_table (map pt_encoded ps) rows table
        end) js rs.
  Proof.
    intros Rp F J. unfold count_program. rewrite Rp. cbn [bind].
    replace (map (fun t => FMake (mk_cfg t 0)) types) with (map (@FMake E) (map (fun t => mk_cfg t 0) types)) by apply map_map.
    set (cs := map (fun t => mk_cfg t 0) types). destruct (history E rank_of kind_of tm (new_factory E dir) (map FMake cs)) as [f hs] eqn:H.
    assert (List.length hs = List.length types) as L.
    { pose proof (history_length (map FMake cs) (new_factory E dir)) as Z. rewrite H in Z. cbn [snd] in Z. rewrite Z. unfold cs. rewrite !map_length. reflexivity. }
    assert (forall i, i < List.length types -> exists hd, nth_error hs i = Some (Some hd) /\
      forall p, pattern_over w p -> exists s e, ask_count E tm f hd p = Some (s, e) /\ row_interval p w sa s e) as K.
    { intros i I. destruct (nth_error types i) as [t|] eqn:Et; [|apply nth_error_None in Et; lia].
      rewrite Forall_forall in F. destruct (F t (nth_error_In _ _ Et)) as (v & B & Fi).
      destruct (factory_exact E rank_of kind_of class_of HI HC HK tm w sa data h dir _ f _ Hw HSA Hd Hh HD Hn (makes_adds cs) H i (mk_cfg t 0) v) as (hd & N & _ & _ & _ & A).
      - unfold cs. rewrite !nth_error_map, Et. reflexivity.
      - exact B.
      - rewrite makes_dir. exact Fi.
      - exists hd. split; [exact N|]. intros p Hp. destruct (A p Hp) as (_ & s & e & _ & _ & Q1 & Q2). exists s, e. auto. }
    assert (exists hs', mmap (fun h => h) hs = Some hs' /\ Forall2 (fun _ _ => True) hs hs') as (hs' & -> & _).
    { apply mmap_ok, Forall_forall. intros o I. apply In_nth_error in I as [i I].
      assert (i < List.length types) as Li by (rewrite <- L; apply nth_error_Some; congruence). destruct (K i Li) as (hd & N & _). rewrite I in N. injection N as ->. exists hd. auto. }
    cbn [bind]. unfold count_jobs. apply mmap_ok. apply Forall_forall. intros [[i print] iters] Ij.
    rewrite Forall_forall in J. destruct (J _ Ij) as [Li It]. destruct (K i Li) as (hd & N & C). rewrite N. cbn [bind]. destruct print.
    - destruct (print_count_ok w sa _ HSA C iters ps It good) as (n & out & rows & -> & O & R & T). cbn [bind]. eexists. split; [reflexivity|].
      cbn [re_counters re_file co_patterns co_occurrences]. split; [reflexivity|]. split; [exact O|]. split; [reflexivity|]. exists out, rows. auto.
    - destruct (query_count_ok w sa _ HSA C iters ps It good) as (n & -> & O). cbn [bind]. eexists. split; [reflexivity|].
      cbn [re_counters re_file co_patterns co_occurrences]. auto.
  Qed.
End Programs.

(** * Consecutive calls *)
Lemma nth_rotate {A} (l : list A) r i : r < List.length l -> i < List.length l -> nth_error (skipn r l ++ firstn r l) i = nth_error l ((r + i) mod List.length l).
Proof.
  intros R I. rewrite <- (firstn_skipn r l) at 3. destruct (Nat.lt_ge_cases i (List.length l - r)) as [H|H].
  - rewrite nth_error_app1 by (rewrite skipn_length; lia). rewrite Nat.mod_small by lia. rewrite nth_error_app2 by (rewrite firstn_length; lia).
    rewrite firstn_length. f_equal. lia.
  - rewrite nth_error_app2 by (rewrite skipn_length; lia). rewrite skipn_length.
    replace ((r + i) mod List.length l) with (r + i - List.length l).
    + rewrite nth_error_app1 by (rewrite firstn_length; lia). f_equal. lia.
    + replace (r + i) with (r + i - List.length l + 1 * List.length l) at 2 by lia. rewrite Nat.mod_add by lia. rewrite Nat.mod_small by lia. reflexivity.
Qed.
Lemma Forall2_nth {A B} (R : A -> B -> Prop) : forall l l', List.length l = List.length l' ->
  (forall i a b, nth_error l i = Some a -> nth_error l' i = Some b -> R a b) -> Forall2 R l l'.
Proof.
  induction l as [|a l IH]; intros [|b l'] L H; try discriminate L; constructor; [apply (H 0); reflexivity|]. apply IH; [cbn in L; lia|]. intros i. apply (H (S i)).
Qed.
Lemma nth_firstn {A} (l : list A) : forall k i, i < k -> nth_error (firstn k l) i = nth_error l i.
Proof. induction l as [|a l IH]; intros [|k] [|i] H; try lia; try reflexivity. cbn. apply IH. lia. Qed.
Lemma nth_skipn {A} (l : list A) : forall k i, nth_error (skipn k l) i = nth_error l (k + i).
Proof. induction l as [|a l IH]; intros [|k] i; try reflexivity; [destruct i; reflexivity|]. cbn. apply IH. Qed.
Lemma micro_all idx b : Forall (fun j => jb_idx j = idx /\ jb_bench j = BMicro) b -> micro_calls idx b = List.length b.
Proof. unfold micro_calls. induction 1 as [|j b [H1 H2] _ IH]; [reflexivity|]. cbn [filter]. rewrite H1, H2, Nat.eqb_refl. cbn. rewrite IH. reflexivity. Qed.
Lemma consecutive w ps idx a b c rs : List.length rs = List.length (a ++ b ++ c) ->
  (forall i co, nth_error rs i = Some co -> reported w ps (a ++ b ++ c) i co) ->
  Forall (fun j => jb_idx j = idx /\ jb_bench j = BMicro) b -> List.length b = List.length ps ->
  exists ps', Permutation ps' ps /\
    Forall2 (fun p co => co_patterns co = 1 /\ occurrences w (pt_decoded p) (co_occurrences co)) ps' (firstn (List.length ps) (skipn (List.length a) rs)).
Proof.
  intros L R B Lb. destruct ps as [|p0 ps0] eqn:Eps; [exists []; split; constructor|]. rewrite <- Eps in *.
  assert (0 < List.length ps) as Lp by (rewrite Eps; cbn; lia). clear Eps p0 ps0.
  set (r := micro_calls idx a mod List.length ps). assert (r < List.length ps) as Lr by (apply Nat.mod_upper_bound; lia).
  exists (skipn r ps ++ firstn r ps). split. { rewrite <- (firstn_skipn r ps) at 3. apply Permutation_app_comm. }
  rewrite !app_length in L. apply Forall2_nth. { rewrite app_length, !firstn_length, !skipn_length. lia. }
  intros i p co Hp Hco. assert (i < List.length ps) as Li.
  { assert (nth_error (skipn r ps ++ firstn r ps) i <> None) as Q by congruence. apply nth_error_Some in Q. rewrite app_length, firstn_length, skipn_length in Q. lia. }
  rewrite nth_rotate in Hp by assumption. rewrite nth_firstn, nth_skipn in Hco by exact Li. destruct (R _ _ Hco) as (j & Hj & X).
  rewrite nth_error_app2 in Hj by lia. replace (List.length a + i - List.length a) with i in Hj by lia. rewrite nth_error_app1 in Hj by lia.
  rewrite Forall_forall in B. destruct (B j (nth_error_In _ _ Hj)) as [J1 J2]. rewrite J2 in X. destruct X as (X1 & p' & N & O). split; [exact X1|].
  rewrite J1 in N. rewrite firstn_app_2, micro_app in N. rewrite firstn_app in N. replace (i - List.length b) with 0 in N by lia. cbn [firstn] in N. rewrite app_nil_r in N.
  rewrite (micro_all idx (firstn i b)) in N.
  - rewrite firstn_length, Nat.min_l in N by lia. rewrite <- Nat.add_mod_idemp_l in N by lia. fold r in N. rewrite Hp in N. injection N as ->. exact O.
  - apply Forall_forall. intros x I. apply B. rewrite <- (firstn_skipn i b). apply in_or_app. left. exact I.
Qed.

(** * Names of files *)
Lemma chars_app a b : list_ascii_of_string (a ++ b) = list_ascii_of_string a ++ list_ascii_of_string b.
Proof. induction a as [|c a IH]; [reflexivity|]. cbn. f_equal. exact IH. Qed.
Lemma chars_inj a b : list_ascii_of_string a = list_ascii_of_string b -> a = b.
Proof. intros H. rewrite <- (string_of_list_ascii_of_string a), <- (string_of_list_ascii_of_string b), H. reflexivity. Qed.
Definition is_digit (c : ascii) : bool := (48 <=? nat_of_ascii c) && (nat_of_ascii c <=? 57).
Lemma rate_digits n : Forall (fun c => is_digit c = true) (list_ascii_of_string (to_string n)) /\ list_ascii_of_string (to_string n) <> [].
Proof.
  pose proof (shown_numeral n) as (NE & F & _). unfold shown, bytes_of in NE, F. change (NilEmpty.string_of_uint (Nat.to_uint n)) with (to_string n) in *. split.
  - apply Forall_forall. intros c I. rewrite Forall_forall in F. specialize (F (nat_of_ascii c) (in_map _ _ _ I)). unfold is_digit.
    apply andb_true_intro. split; apply Nat.leb_le; apply F.
  - intros Z. rewrite Z in NE. apply NE. reflexivity.
Qed.
Lemma rate_inj n m : to_string n = to_string m -> n = m.
Proof.
  intros H. pose proof (shown_numeral n) as (_ & _ & _ & V). pose proof (shown_numeral m) as (_ & _ & _ & V').
  unfold shown in V, V'. change (NilEmpty.string_of_uint (Nat.to_uint n)) with (to_string n) in V. change (NilEmpty.string_of_uint (Nat.to_uint m)) with (to_string m) in V'.
  rewrite H in V. congruence.
Qed.
Lemma dash_split : forall (d d' a b : list ascii), Forall (fun c => is_digit c = true) d -> Forall (fun c => is_digit c = true) d' ->
  a ++ ["-"%char] ++ d = b ++ ["-"%char] ++ d' -> a = b /\ d = d'.
Proof.
  induction d as [|x d IH] using rev_ind; intros d' a b F F' H.
  - destruct d' as [|y d' _] using rev_ind; [apply app_inj_tail in H as [-> _]; auto|]. cbn [app] in H. rewrite app_comm_cons, app_assoc in H. apply app_inj_tail in H as [_ <-].
    apply Forall_app in F' as [_ F']. inversion F'; discriminate.
  - apply Forall_app in F as [F Fx]. destruct d' as [|y d' _] using rev_ind.
    + cbn [app] in H. rewrite app_comm_cons, app_assoc in H. apply app_inj_tail in H as [_ ->]. inversion Fx; discriminate.
    + apply Forall_app in F' as [F' _]. cbn [app] in H. rewrite !app_comm_cons, !app_assoc in H. apply app_inj_tail in H as [H ->]. destruct (IH d' a b F F' H) as [-> ->]. auto.
Qed.
Definition stem {E} (c : idx_config E) : string := no_slash (after_slash ("Print/" ++ ic_name c)).
Lemma names_distinct {E} (configs : list (idx_config E)) :
  NoDup (map stem configs) -> Forall (fun c => ic_sampling c = false -> is_digit (last (list_ascii_of_string (stem c)) "-"%char) = false) configs ->
  forall i j c c' r r', nth_error configs i = Some c -> nth_error configs j = Some c' -> result_name c r = result_name c' r' ->
  i = j /\ (ic_sampling c = true -> r = r').
Proof.
  intros N F i j c c' r r' Hi Hj H. rewrite Forall_forall in F. pose proof (F c (nth_error_In _ _ Hi)) as Fc. pose proof (F c' (nth_error_In _ _ Hj)) as Fc'.
  assert (stem c = stem c' -> i = j) as Q.
  { intros Es. rewrite NoDup_nth_error in N. apply N; [rewrite map_length; apply nth_error_Some; congruence|]. rewrite !nth_error_map, Hi, Hj. cbn. f_equal. exact Es. }
  unfold result_name in H. fold (stem c) (stem c') in H. apply (f_equal list_ascii_of_string) in H. rewrite !chars_app in H. apply app_inv_head in H. apply app_inv_tail in H.
  destruct (rate_digits r) as [D1 D2]. destruct (rate_digits r') as [D1' D2'].
  assert (forall x n, last (x ++ ["-"%char] ++ list_ascii_of_string (to_string n)) "-"%char = last (list_ascii_of_string (to_string n)) "-"%char /\
    is_digit (last (list_ascii_of_string (to_string n)) "-"%char) = true) as LD.
  { intros x n. destruct (rate_digits n) as [G1 G2]. destruct (exists_last G2) as (y & z & Ez). rewrite Ez in *. split.
    - cbn [app]. rewrite app_comm_cons, app_assoc, !last_last. reflexivity.
    - rewrite last_last. apply Forall_app in G1 as [_ G1]. inversion G1; assumption. }
  destruct (ic_sampling c), (ic_sampling c').
  - rewrite !chars_app in H. destruct (dash_split _ _ _ _ D1 D1' H) as [H1 H2]. split; [apply Q, chars_inj, H1|]. intros _. apply rate_inj, chars_inj, H2.
  - exfalso. specialize (Fc' eq_refl). rewrite <- H in Fc'. rewrite !chars_app in Fc'. destruct (LD (list_ascii_of_string (stem c)) r) as [L1 L2]. cbn [list_ascii_of_string] in Fc'. congruence.
  - exfalso. specialize (Fc eq_refl). rewrite H in Fc. rewrite !chars_app in Fc. destruct (LD (list_ascii_of_string (stem c')) r') as [L1 L2]. cbn [list_ascii_of_string] in Fc. congruence.
  - split; [apply Q, chars_inj, H|discriminate].
Qed.

(** * Concrete texts *)
Definition find_at (p t : list nat) (i : nat) : bool := if list_eq_dec Nat.eq_dec (firstn (List.length p) (skipn i t)) p then true else false.
Lemma find_at_ok p t i : p <> [] -> find_at p t i = true <-> occurs_at p t i.
Proof.
  intros NE. unfold find_at. destruct (list_eq_dec Nat.eq_dec _ p) as [E|E].
  - split; [intros _|reflexivity]. exists (firstn i t), (skipn (List.length p) (skipn i t)).
    split.
    + rewrite <- (firstn_skipn i t) at 1. rewrite <- (firstn_skipn (List.length p) (skipn i t)) at 1. rewrite E. reflexivity.
    + rewrite firstn_length. apply (f_equal (@List.length nat)) in E. rewrite firstn_length, skipn_length in E. destruct p; [contradiction|]. cbn [List.length] in E. lia.
  - split; [discriminate|]. intros (u & v & -> & <-). exfalso. apply E. rewrite skipn_app, skipn_all, Nat.sub_diag. cbn [app skipn]. rewrite firstn_app, firstn_all, Nat.sub_diag.
    cbn [firstn]. apply app_nil_r.
Qed.
Definition find_all (p t : list nat) : list nat := filter (find_at p t) (seq 0 (List.length t)).
Lemma seq_ssorted n : forall s, StronglySorted lt (seq s n).
Proof. induction n as [|n IH]; intros s; [constructor|]. cbn. constructor; [apply IH|]. apply Forall_forall. intros x I. apply in_seq in I. lia. Qed.
Lemma filter_ssorted f l : StronglySorted lt l -> StronglySorted lt (filter f l).
Proof.
  induction 1 as [|a l S IH F]; [constructor|]. cbn. destruct (f a); [|exact IH]. constructor; [exact IH|]. apply Forall_forall. intros x I. apply filter_In in I as [I _].
  rewrite Forall_forall in F. auto.
Qed.
Lemma find_all_ok p t : p <> [] -> sorted_answer t p (find_all p t).
Proof.
  intros NE. split; [split|].
  - apply NoDup_filter, seq_NoDup.
  - intros i. unfold find_all. rewrite filter_In, in_seq, find_at_ok by exact NE. split; [tauto|]. intros O. split; [|exact O].
    destruct O as (u & v & -> & <-). rewrite !app_length. destruct p; [contradiction|]. cbn. lia.
  - apply filter_ssorted, seq_ssorted.
Qed.
Lemma occurrences_number t p n : p <> [] -> occurrences t p n -> n = List.length (find_all p t).
Proof.
  intros NE (l & (N & A) & <-). destruct (find_all_ok p t NE) as [[N' A'] _]. apply Permutation_length, NoDup_Permutation; [exact N|exact N'|].
  intros x. rewrite A, A'. reflexivity.
Qed.
