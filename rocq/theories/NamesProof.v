(** Proofs about several texts in one output directory. *)
From Coq Require Import List Arith Bool Lia String Ascii DecimalString.
From Verif Require Import Spec MBase MStore StoreProof StoreClass SpecBwt MCache SpecCache CacheEnd MNames SpecNames.
Import ListNotations.

(** * Strings *)
Lemma list_ascii_app a b : list_ascii_of_string (a ++ b) = list_ascii_of_string a ++ list_ascii_of_string b.
Proof. induction a as [|c a IH]; cbn; [reflexivity|]. rewrite IH. reflexivity. Qed.
Lemma list_ascii_inj a b : list_ascii_of_string a = list_ascii_of_string b -> a = b.
Proof. intros H. rewrite <- (string_of_list_ascii_of_string a), <- (string_of_list_ascii_of_string b), H. reflexivity. Qed.
Lemma string_inv_tail a b s : (a ++ s = b ++ s)%string -> a = b.
Proof.
  intros H. apply list_ascii_inj. apply (f_equal list_ascii_of_string) in H. rewrite !list_ascii_app in H.
  exact (app_inv_tail _ _ _ H).
Qed.
Lemma underscore_split a b x y : (a ++ String "_" x = b ++ String "_" y)%string ->
  (a = b /\ x = y) \/ (exists s, x = s ++ String "_" y /\ b = a ++ String "_" s)%string \/ (exists s, y = s ++ String "_" x /\ a = b ++ String "_" s)%string.
Proof.
  revert b. induction a as [|c a IH]; intros [|d b]; cbn; intros H.
  - injection H as ->. auto.
  - injection H as <- H. right. left. exists b. split; [exact H|reflexivity].
  - injection H as -> H. right. right. exists a. split; [symmetry; exact H|reflexivity].
  - injection H as <- H. destruct (IH b H) as [[-> ->]|[[s [H1 ->]]|[s [H1 ->]]]]; auto; right; [left|right]; exists s; auto.
Qed.
Lemma no_underscore x s y : all_digits x -> x <> (s ++ String "_" y)%string.
Proof.
  intros D ->. assert (B : is_digit "_" = true).
  { apply D. rewrite list_ascii_app. apply in_or_app. right. left. reflexivity. }
  discriminate.
Qed.
Lemma last_split a b x y : all_digits x -> all_digits y -> (a ++ String "_" x = b ++ String "_" y)%string -> a = b /\ x = y.
Proof.
  intros Dx Dy H. destruct (underscore_split _ _ _ _ H) as [E|[[s [E _]]|[s [E _]]]]; [exact E| |]; exfalso;
    [exact (no_underscore _ _ _ Dx E)|exact (no_underscore _ _ _ Dy E)].
Qed.
Lemma append_nil_r a : (a ++ "")%string = a.
Proof. induction a as [|c a IH]; cbn; [reflexivity|]. rewrite IH. reflexivity. Qed.

(** * File names *)
Definition in_cache (k : fkey) : bool := match k with FBigBwt | FBigSsa | FBigEsa => false | _ => true end.
Lemma key_no_number k k' d : all_digits d -> d <> EmptyString -> fkey_str k <> (fkey_str k' ++ String "_" d)%string.
Proof.
  intros D N H.
  assert (L : exists s c, d = (s ++ String c "")%string /\ is_digit c = true).
  { clear H. revert N D. induction d as [|c d IH]; intros N D; [congruence|]. destruct d as [|c' d].
    - exists ""%string, c. split; [reflexivity|]. apply D. left. reflexivity.
    - destruct IH as (s & c2 & E & B); [discriminate | intros x Hx; apply D; right; exact Hx |].
      exists (String c s), c2. rewrite E. auto. }
  destruct L as (s & c & -> & B).
  assert (G : forall k, match rev (list_ascii_of_string (fkey_str k)) with [] => False | c :: _ => is_digit c = false end)
    by (intros [] ; reflexivity).
  specialize (G k). rewrite H in G. rewrite list_ascii_app in G. cbn [list_ascii_of_string] in G. rewrite list_ascii_app in G.
  rewrite rev_app_distr in G. cbn [rev] in G. rewrite rev_app_distr in G. cbn in G. congruence.
Qed.

Lemma decimal_digits s : decimal s -> all_digits s /\ s <> EmptyString.
Proof.
  intros [N D]. split; [|exact N]. intros c H. specialize (D c H). unfold is_digit. apply andb_true_intro.
  split; apply Nat.leb_le; apply D.
Qed.

Section Hash.
Context (hash : ty -> string).
Definition tail_of (n : name) : string := match nm_hash n with Some t => String "_" (hash t) | None => EmptyString end.
Lemma file_name_eq id n : file_name hash id n = ((name_str n ++ tail_of n) ++ String "_" id ++ ".sdsl")%string.
Proof. unfold file_name, tail_of. rewrite append_assoc. destruct (nm_hash n); reflexivity. Qed.
(** The files of one text *)
Lemma rates_differ n m x y : (name_str n ++ x = name_str m ++ y)%string ->
  nm_rate n = nm_rate m /\ (fkey_str (nm_key n) ++ x = fkey_str (nm_key m) ++ y)%string.
Proof.
  intros H. unfold name_str in H. pose proof (fkey_letter (nm_key n)) as L1. pose proof (fkey_letter (nm_key m)) as L2.
  destruct (nm_rate n) as [s|], (nm_rate m) as [s'|].
  - unfold rate_prefix in H. rewrite !append_assoc in H. cbn [append] in H.
    apply digits_split in H as (H & H2); try apply uint_digits. apply to_string_inj in H. subst. auto.
  - exfalso. pose proof (rate_prefix_good s) as G. pose proof (rate_prefix_nonempty s "a") as E.
    destruct (rate_prefix s) as [|c p]; [apply E; cbn; auto|]. cbn in H, G. destruct (fkey_str (nm_key m)); [contradiction|].
    cbn in H, L2. injection H as -> _. congruence.
  - exfalso. pose proof (rate_prefix_good s') as G. pose proof (rate_prefix_nonempty s' "a") as E.
    destruct (rate_prefix s') as [|c p]; [apply E; cbn; auto|]. cbn in H, G. destruct (fkey_str (nm_key n)); [contradiction|].
    cbn in H, L1. injection H as -> _. congruence.
  - auto.
Qed.
Lemma same_rate id id' n m : file_name hash id n = file_name hash id' m -> nm_rate n = nm_rate m.
Proof.
  rewrite !file_name_eq, !append_assoc. intros H. apply rates_differ in H as [E _]. exact E.
Qed.
(** The words of a name *)
Fixpoint pieces (cur s : string) : list string :=
  match s with
  | EmptyString => [cur]
  | String c s => if ascii_dec c "_" then cur :: pieces EmptyString s else pieces (cur ++ String c EmptyString) s
  end.
Lemma pieces_app cur a s : pieces cur (a ++ String "_" s) = pieces cur a ++ pieces EmptyString s.
Proof.
  revert cur. induction a as [|c a IH]; intros cur; cbn; [reflexivity|]. destruct (ascii_dec c "_"); [rewrite IH; reflexivity|apply IH].
Qed.
Lemma pieces_nonempty cur a : pieces cur a <> [].
Proof. revert cur. induction a as [|c a IH]; intros cur; cbn; [discriminate|]. destruct (ascii_dec c "_"); [discriminate|apply IH]. Qed.
Lemma pieces_digits cur a : all_digits a -> pieces cur a = [(cur ++ a)%string].
Proof.
  revert cur. induction a as [|c a IH]; intros cur D; cbn; [rewrite append_nil_r; reflexivity|].
  destruct (ascii_dec c "_") as [->|_].
  - exfalso. assert (B : is_digit "_" = true) by (apply D; left; reflexivity). discriminate.
  - rewrite IH; [rewrite append_assoc; reflexivity|]. intros x Hx. apply D. right. exact Hx.
Qed.
Lemma from_pieces cur s : Forall key_word (pieces cur s) -> key_words (cur ++ s).
Proof.
  revert cur. induction s as [|c s IH]; intros cur H; cbn in H.
  - rewrite append_nil_r. inversion H; subst. apply kw_one. assumption.
  - destruct (ascii_dec c "_") as [->|_].
    + inversion H; subst. apply (kw_more cur s); [assumption|]. exact (IH EmptyString H3).
    + specialize (IH _ H). rewrite append_assoc in IH. exact IH.
Qed.
Lemma key_pieces k : in_cache k = true -> Forall key_word (tl (pieces EmptyString (fkey_str k))).
Proof.
  intros I. assert (Q : forallb (fun x => if in_dec string_dec x key_list then true else false) (tl (pieces EmptyString (fkey_str k))) = true)
    by (destruct k; try discriminate I; vm_compute; reflexivity).
  apply Forall_forall. intros x H. rewrite forallb_forall in Q. specialize (Q x H). destruct (in_dec string_dec x key_list); [left; assumption|discriminate].
Qed.
Lemma cut_words n m s : (forall t, decimal (hash t)) -> in_cache (nm_key m) = true ->
  (name_str m ++ tail_of m = (name_str n ++ tail_of n) ++ String "_" s)%string -> key_words s.
Proof.
  intros G I H. rewrite append_assoc in H. apply rates_differ in H as [_ H]. rewrite <- append_assoc in H.
  apply (from_pieces EmptyString). apply (f_equal (pieces EmptyString)) in H. rewrite pieces_app in H.
  assert (F : Forall key_word (tl (pieces EmptyString (fkey_str (nm_key m) ++ tail_of m)))).
  { unfold tail_of. destruct (nm_hash m) as [t|].
    - rewrite pieces_app, (pieces_digits _ _ (proj1 (decimal_digits _ (G t)))). cbn [append].
      pose proof (key_pieces (nm_key m) I) as K. destruct (pieces EmptyString (fkey_str (nm_key m))) as [|x l] eqn:E; [destruct (pieces_nonempty _ _ E)|].
      cbn [tl app] in *. apply Forall_app. split; [exact K|]. constructor; [right; apply G|constructor].
    - rewrite append_nil_r. apply key_pieces. exact I. }
  rewrite H in F. destruct (pieces EmptyString (fkey_str (nm_key n) ++ tail_of n)) as [|x l] eqn:E; [destruct (pieces_nonempty _ _ E)|].
  cbn [tl app] in F. apply Forall_app in F as [_ F]. exact F.
Qed.
Lemma same_file_ids id id' n m : (forall t, decimal (hash t)) -> in_cache (nm_key n) = true -> in_cache (nm_key m) = true ->
  file_name hash id n = file_name hash id' m -> apart id id' -> False.
Proof.
  intros G I J. rewrite !file_name_eq. intros H (A & B & C).
  apply underscore_split in H as [[_ H]|[[s [H K]]|[s [H K]]]].
  - apply string_inv_tail in H. contradiction.
  - apply (B s (cut_words n m s G J K)), (string_inv_tail _ _ ".sdsl"). rewrite append_assoc. exact H.
  - apply (C s (cut_words m n s G I K)), (string_inv_tail _ _ ".sdsl"). rewrite append_assoc. exact H.
Qed.
Lemma apart_places t u n m : (forall t, decimal (hash t)) -> t <> u -> apart (tx_name t) (tx_name u) -> place_of hash t n <> place_of hash u m.
Proof.
  intros G NE A. unfold place_of.
  assert (Q : in_cache (nm_key n) = true -> in_cache (nm_key m) = true -> InCache (file_name hash (tx_name t) n) <> InCache (file_name hash (tx_name u) m)).
  { intros I J E. injection E as E. exact (same_file_ids _ _ _ _ G I J E A). }
  destruct (nm_key n); destruct (nm_key m); try exact (Q eq_refl eq_refl); try discriminate; intros E; injection E as E; contradiction.
Qed.
Lemma own_names id n m : good_hash hash -> file_name hash id n = file_name hash id m -> n = m.
Proof.
  intros [GD' GI] H. pose proof (fun t => decimal_digits _ (GD' t)) as GD. pose proof (same_rate _ _ _ _ H) as ER. rewrite !file_name_eq in H. apply string_inv_tail in H.
  apply rates_differ in H as [_ H].
  destruct n as [r k h], m as [r' k' h']. cbn in ER, H. subst r'. unfold tail_of in H. cbn in H.
  destruct h as [t|], h' as [t'|].
  - apply last_split in H as [H1 H2]; try apply GD. apply fkey_str_inj in H1. apply GI in H2. congruence.
  - exfalso. rewrite (append_nil_r (fkey_str k')) in H. symmetry in H. exact (key_no_number _ _ _ (proj1 (GD t)) (proj2 (GD t)) H).
  - exfalso. rewrite (append_nil_r (fkey_str k)) in H. exact (key_no_number _ _ _ (proj1 (GD t')) (proj2 (GD t')) H).
  - rewrite (append_nil_r (fkey_str k)), (append_nil_r (fkey_str k')) in H. apply fkey_str_inj in H. congruence.
Qed.
Lemma own_places t n m : good_hash hash -> in_cache (nm_key n) = true -> place_of hash t n = place_of hash t m -> n = m.
Proof.
  intros G I H. unfold place_of in H.
  assert (Q : InCache (file_name hash (tx_name t) n) = InCache (file_name hash (tx_name t) m) -> n = m)
    by (intros E; injection E as E; exact (own_names _ _ _ G E)).
  destruct (nm_key n); try discriminate I; destruct (nm_key m); try discriminate H; exact (Q H).
Qed.
Lemma all_keys_in k : In k MNames.all_keys.
Proof. destruct k; cbn; auto 60. Qed.
Lemma aliases_complete dens t u n m : good_hash hash -> in_cache (nm_key n) = true ->
  (forall x, nm_hash n = Some x -> In x (all_types dens)) ->
  (In n (aliases hash dens t u m) <-> place_of hash t n = place_of hash u m).
Proof.
  intros G I A. unfold aliases. destruct (text_eq_dec t u) as [->|NE].
  - cbn. split; [intros [->|[]]; reflexivity|]. intros H. left. symmetry. exact (own_places _ _ _ G I H).
  - rewrite filter_In. split.
    + intros [_ H]. destruct (place_eq_dec _ _) in H; [assumption|discriminate].
    + intros H. split; [|destruct (place_eq_dec _ _); [reflexivity|contradiction]].
      apply in_flat_map. exists (nm_key n). split; [apply all_keys_in|]. apply in_map_iff. exists (nm_hash n). split.
      * assert (E : nm_rate n = nm_rate m).
        { unfold place_of in H. destruct (nm_key n); try discriminate I; destruct (nm_key m); try discriminate H; injection H as H;
            exact (same_rate _ _ _ _ H). }
        rewrite <- E. destruct n; reflexivity.
      * destruct (nm_hash n) as [x|]; [right; apply in_map, A; reflexivity|left; reflexivity].
Qed.

(** * The view of a text *)
Lemma d_find_app a b n : d_find (a ++ b) n = match d_find a n with Some c => Some c | None => d_find b n end.
Proof. unfold d_find. induction a as [|[m c] a IH]; [reflexivity|]. cbn. destruct (name_eq_dec m n); auto. Qed.
Lemma d_find_map l c n : d_find (map (fun m => (m, c)) l) n = if in_dec name_eq_dec n l then Some c else None.
Proof.
  induction l as [|m l IH]; [reflexivity|]. cbn [map d_find]. rewrite IH.
  destruct (name_eq_dec m n) as [->|NE]; [destruct (in_dec name_eq_dec n (n :: l)) as [_|X]; [reflexivity|exfalso; apply X; left; reflexivity]|].
  destruct (in_dec name_eq_dec n l) as [Y|Y], (in_dec name_eq_dec n (m :: l)) as [Z|Z]; auto.
  - exfalso. apply Z. right. exact Y.
  - exfalso. destruct Z; contradiction.
Qed.
Lemma view_latest dens t D n : good_hash hash -> in_cache (nm_key n) = true ->
  (forall x, nm_hash n = Some x -> In x (all_types dens)) -> d_find (view_of hash dens t D) n = latest hash (place_of hash t n) D.
Proof.
  intros G I A. induction D as [|[[u m] c] D IH]; [reflexivity|]. unfold view_of in *. cbn [flat_map latest].
  rewrite d_find_app, d_find_map, IH. pose proof (aliases_complete dens t u n m G I A) as [H1 H2].
  destruct (in_dec name_eq_dec n (aliases hash dens t u m)) as [Y|Y], (place_eq_dec (place_of hash u m) (place_of hash t n)) as [Z|Z]; auto.
  - exfalso. apply Z. symmetry. auto.
  - exfalso. apply Y, H2. symmetry. exact Z.
Qed.
Lemma view_app dens t D1 D2 : view_of hash dens t (D1 ++ D2) = view_of hash dens t D1 ++ view_of hash dens t D2.
Proof. unfold view_of. apply flat_map_app. Qed.
Lemma view_own dens t ws : view_of hash dens t (stamp t ws) = ws.
Proof.
  induction ws as [|[n c] ws IH]; [reflexivity|]. cbn [stamp map]. unfold view_of in *. cbn [flat_map].
  unfold aliases at 1. destruct (text_eq_dec t t) as [_|X]; [|contradiction]. cbn [map app]. f_equal. exact IH.
Qed.
Lemma filter_none (A : Type) (f : A -> bool) l : (forall x, f x = false) -> filter f l = [].
Proof. intros H. induction l as [|a l IH]; cbn; [reflexivity|]. rewrite H. exact IH. Qed.
Lemma view_other dens t u ws : (forall t, decimal (hash t)) -> t <> u -> apart (tx_name t) (tx_name u) -> view_of hash dens t (stamp u ws) = [].
Proof.
  intros G NE A. induction ws as [|[n c] ws IH]; [reflexivity|]. cbn [stamp map]. unfold view_of in *. cbn [flat_map].
  assert (E : aliases hash dens t u n = []).
  { unfold aliases. destruct (text_eq_dec t u); [contradiction|]. apply filter_none. intros x.
    destruct (place_eq_dec _ _) as [E|_]; [|reflexivity]. exfalso. exact (apart_places t u x n G NE A E). }
  rewrite E. exact IH.
Qed.
Lemma run_grows e r p p' : run_cache e r p = Some p' -> exists ws, pr_disk p' = ws ++ pr_disk p.
Proof.
  intros E. unfold run_cache, build_cache in E. eapply grows_run; [|exact E]. apply Forall_app. split; [apply grows_base|apply grows_class].
Qed.

Context (T : texts) (dens : nat) (G : forall t, decimal (hash t)).
Lemma view_step D t u ws : all_apart T -> te_in T t -> te_in T u ->
  view_of hash dens u (stamp t ws ++ D) = (if text_eq_dec u t then ws else []) ++ view_of hash dens u D.
Proof.
  intros A It Iu. rewrite view_app. f_equal. destruct (text_eq_dec u t) as [->|NE]; [apply view_own|]. apply view_other; auto.
Qed.
Lemma shared_view D t : all_apart T -> shared_history hash T dens D -> te_in T t ->
  history (te_text T t) (te_world T t) dens (new_proc (view_of hash dens t D)).
Proof.
  intros A H It. induction H as [|D u r p ws H IH Iu HR E EW|D u r p ws H IH Iu HR E ST CL].
  - apply h_empty.
  - rewrite (view_step D u t ws A Iu It). destruct (text_eq_dec t u) as [->|NE]; [|exact IH]. rewrite <- EW.
    apply h_new. eapply h_run; eauto.
  - rewrite (view_step D u t ws A Iu It). destruct (text_eq_dec t u) as [->|NE]; [|exact IH].
    exact (h_stop _ _ _ _ _ _ _ IH HR E ST CL).
Qed.
End Hash.
