(** The request tables of the index classes, the round trip through a stream, and shared storages. *)
From Coq Require Import List Arith Bool Lia ZifyBool String Ascii DecimalString DecimalNat.
From Verif Require Import MBase MRle MConstruct MPhi MRIndex MSrIndex MPsi MCsa MSrCsa MStore StoreProof.
Import ListNotations.

(** * Keys *)
Definition is_digit (c : ascii) : bool := let n := nat_of_ascii c in (48 <=? n) && (n <=? 57).
Definition good_prefix (p : string) : Prop :=
  match p with EmptyString => True | String c _ => is_digit c = true end.
Definition letter_name (n : string) : Prop :=
  match n with EmptyString => False | String c _ => is_digit c = false end.
Lemma realize_inj p k1 k2 : good_prefix p -> letter_name (snd k1) -> letter_name (snd k2) ->
  realize p k1 = realize p k2 -> snd k1 = snd k2.
Proof.
  destruct k1 as [b1 n1], k2 as [b2 n2]. unfold realize. cbn. intros G L1 L2.
  destruct b1, b2; auto.
  - apply append_inj_l.
  - destruct p as [|c p]; cbn; auto. intros H. subst n2. cbn in L2, G. congruence.
  - destruct p as [|c p]; cbn; auto. intros H. subst n1. cbn in L1, G. congruence.
Qed.

Definition all_digits (s : string) : Prop := forall c, In c (list_ascii_of_string s) -> is_digit c = true.
Lemma uint_digits d : all_digits (NilEmpty.string_of_uint d).
Proof.
  unfold all_digits. induction d; cbn; intros c H; try contradiction; destruct H as [<-|H]; auto.
Qed.
Lemma to_little_nonnil n acc : acc <> Decimal.Nil -> Nat.to_little_uint n acc <> Decimal.Nil.
Proof.
  revert acc. induction n as [|n IH]; intros acc H; cbn; [exact H|]. apply IH.
  destruct acc; cbn; congruence.
Qed.
Lemma revapp_nonnil d d' : d' <> Decimal.Nil -> Decimal.revapp d d' <> Decimal.Nil.
Proof. revert d'. induction d; cbn; intros d' H; auto; apply IHd; congruence. Qed.
Lemma to_uint_nonnil n : Nat.to_uint n <> Decimal.Nil.
Proof.
  unfold Nat.to_uint, Decimal.rev. pose proof (to_little_nonnil n Decimal.zero) as H.
  destruct (Nat.to_little_uint n Decimal.zero); [exfalso; apply H; [discriminate | reflexivity]| ..]; cbn; apply revapp_nonnil; congruence.
Qed.
Lemma rate_prefix_good s : good_prefix (rate_prefix s).
Proof.
  unfold rate_prefix. pose proof (uint_digits (Nat.to_uint s)) as H. pose proof (to_uint_nonnil s) as N.
  destruct (Nat.to_uint s); [contradiction| ..]; reflexivity.
Qed.
Lemma rate_prefix_nonempty s n : letter_name n -> (rate_prefix s ++ n)%string <> n.
Proof.
  intros _ H. apply (f_equal String.length) in H. unfold rate_prefix in H. rewrite !append_length in H. cbn in H. lia.
Qed.
Lemma digits_split a b x y : all_digits a -> all_digits b ->
  (a ++ String "_" x = b ++ String "_" y)%string -> a = b /\ x = y.
Proof.
  revert b. induction a as [|c a IH]; intros [|d b] Ha Hb; cbn; intros H.
  - injection H as <-. auto.
  - injection H as <- H. exfalso. pose proof (Hb "_"%char (or_introl eq_refl)). discriminate.
  - injection H as -> H. exfalso. pose proof (Ha "_"%char (or_introl eq_refl)). discriminate.
  - injection H as <- H. destruct (IH b) as (-> & ->); auto.
    + intros e He. apply Ha. right. exact He.
    + intros e He. apply Hb. right. exact He.
Qed.
Lemma to_string_inj a b : NilEmpty.string_of_uint (Nat.to_uint a) = NilEmpty.string_of_uint (Nat.to_uint b) -> a = b.
Proof.
  intros H. apply (f_equal NilEmpty.uint_of_string) in H. rewrite !NilEmpty.usu in H. injection H as H.
  apply Unsigned.to_uint_inj in H. exact H.
Qed.
(** Keys of different rates do not meet, nor do prefixed and plain keys. *)
Lemma realize_rate_inj s1 s2 k1 k2 : letter_name (snd k1) -> letter_name (snd k2) ->
  realize (rate_prefix s1) k1 = realize (rate_prefix s2) k2 -> k1 = k2 /\ (fst k1 = true -> s1 = s2).
Proof.
  destruct k1 as [b1 n1], k2 as [b2 n2]. unfold realize. cbn [fst snd]. intros L1 L2 H. destruct b1, b2.
  - unfold rate_prefix in H. rewrite !append_assoc in H. cbn [append] in H.
    apply digits_split in H as (H & ->); try apply uint_digits. apply to_string_inj in H. auto.
  - exfalso. pose proof (rate_prefix_good s1) as G. pose proof (rate_prefix_nonempty s1 "a") as E.
    destruct (rate_prefix s1) as [|c p]; [apply E; cbn; auto|]. cbn in H, G. subst n2. cbn in L2. congruence.
  - exfalso. pose proof (rate_prefix_good s2) as G. pose proof (rate_prefix_nonempty s2 "a") as E.
    destruct (rate_prefix s2) as [|c p]; [apply E; cbn; auto|]. cbn in H, G. subst n1. cbn in L1. congruence.
  - split; [congruence | discriminate].
Qed.

(** * Tables *)
Definition class_cmds (tm : tmpl) (kd : kind) : list cmd := load_all tm kd ++ load_build tm kd.
Definition class_reqs (tm : tmpl) (kd : kind) : list srq := flat_map reqs (class_cmds tm kd).
Fixpoint sneeded (seen : list string) (rs : list srq) : list srq :=
  match rs with
  | [] => []
  | r :: t => if in_dec string_dec (snd (sq_key r)) seen then sneeded seen t
              else r :: sneeded (snd (sq_key r) :: seen) t
  end.
Definition class_needs (tm : tmpl) (kd : kind) : list srq := sneeded [] (class_reqs tm kd).
Definition core := (skey * ty * option skey)%type.
Definition core_of (r : srq) : core := (sq_key r, sq_ty r, sq_ptr r).
Definition save_core (w : scmd) : core :=
  match w with
  | WItem t k => (k, t, None)
  | WSup s k => (add_suffix k (sup_suffix s), TySup s, Some k)
  end.
Definition zero_width (c : core) : bool :=
  match snd (fst c) with TySup s => match sup_class s with BvSd => true | BvPlain => false end | _ => false end.
(** The order of the stream is that of the reads: all instances but those of SrCSAValidMark and
    SrCSAValidArea over SrCSA with a TBvSamplePos whose supports are not empty. *)
Definition order_safe (tm : tmpl) (kd : kind) : Prop :=
  match kd with KSrCSAVM | KSrCSAVA => t_idx tm = BvSd | _ => True end.

Definition core_eq_dec (a b : core) : {a = b} + {a <> b}.
Proof.
  destruct a as [[[b1 n1] t1] p1], b as [[[b2 n2] t2] p2].
  destruct (Bool.bool_dec b1 b2); [|right; congruence]. destruct (string_dec n1 n2); [|right; congruence].
  destruct (ty_eq_dec t1 t2); [|right; congruence].
  destruct p1 as [[c1 m1]|], p2 as [[c2 m2]|]; try (right; congruence).
  - destruct (Bool.bool_dec c1 c2); [|right; congruence]. destruct (string_dec m1 m2); [|right; congruence]. left. congruence.
  - left. congruence.
Defined.

(** The tables do not depend on the density but for the type of the Psi item: they are checked for
    density 0 by computation. *)
Definition re_ty (d : nat) (t : ty) : ty := match t with TyPsi _ => TyPsi d | t => t end.
Definition re_srq (d : nat) (r : srq) : srq := mk_srq (sq_key r) (re_ty d (sq_ty r)) (sq_file r) (sq_hash r) (sq_ptr r).
Definition re_core (d : nat) (c : core) : core := (fst (fst c), re_ty d (snd (fst c)), snd c).
Definition tm0 (tm : tmpl) : tmpl := mk_tmpl (t_marks tm) (t_idx tm) (t_valid tm) 0.
Lemma class_reqs_re tm kd : class_reqs tm kd = map (re_srq (t_dens tm)) (class_reqs (tm0 tm) kd).
Proof. destruct kd; reflexivity. Qed.
Lemma sneeded_re d seen rs : sneeded seen (map (re_srq d) rs) = map (re_srq d) (sneeded seen rs).
Proof.
  revert seen. induction rs as [|r rs IH]; intros seen; cbn [map sneeded]; [reflexivity|].
  cbn [re_srq sq_key]. destruct (in_dec _ _ _); [apply IH | cbn [map]; f_equal; apply IH].
Qed.
Lemma class_needs_re tm kd : class_needs tm kd = map (re_srq (t_dens tm)) (class_needs (tm0 tm) kd).
Proof. unfold class_needs. rewrite class_reqs_re. apply sneeded_re. Qed.
Lemma core_of_re d rs : map core_of (map (re_srq d) rs) = map (re_core d) (map core_of rs).
Proof. rewrite !map_map. apply map_ext. reflexivity. Qed.

Definition core_in (c : core) (l : list core) : bool := if in_dec core_eq_dec c l then true else false.
Definition letterb (n : string) : bool := match n with EmptyString => false | String c _ => negb (is_digit c) end.
Definition ptr_ok (l : list core) (c : core) : bool :=
  match snd c, snd (fst c) with
  | Some k, TySup sp =>
      (if string_dec (snd (fst (fst c))) (snd k ++ sup_suffix sp)%string then Bool.eqb (fst (fst (fst c))) (fst k) else false)
      && core_in (k, TyBv (sup_class sp), None) l
  | None, TySup _ => false
  | None, _ => true
  | _, _ => false
  end.
Definition check_cmd (c : cmd) : bool := match c with LItem (TySup _) _ _ => false | _ => true end.
Definition check (tm : tmpl) (kd : kind) : bool :=
  let needs := map core_of (class_needs tm kd) in
  forallb check_cmd (class_cmds tm kd)
  && forallb (fun r => letterb (snd (sq_key r)) && letterb (snd (sq_file r))) (class_needs tm kd)
  && forallb (fun r => core_in (core_of r) needs) (class_reqs tm kd)
  && forallb (ptr_ok needs) needs
  && forallb (fun w => core_in (save_core w) needs) (save_all tm kd).
Lemma check_all tm kd : check (tm0 tm) kd = true.
Proof. destruct tm as [a b c d]. unfold tm0. cbn [t_marks t_idx t_valid]. destruct a, b, c, kd; vm_compute; reflexivity. Qed.
Lemma core_in_In c l : core_in c l = true -> In c l.
Proof. unfold core_in. destruct (in_dec _ _ _); [auto | discriminate]. Qed.

Definition needs_names (tm : tmpl) (kd : kind) : list string := map (fun r => snd (sq_key r)) (class_needs tm kd).
Lemma letterb_name n : letterb n = true -> letter_name n.
Proof. destruct n; cbn; [discriminate|]. intros H. apply negb_true_iff. exact H. Qed.
Lemma check_parts tm kd :
  (forall c, In c (class_cmds (tm0 tm) kd) -> check_cmd c = true) /\
  (forall r, In r (class_needs (tm0 tm) kd) -> letter_name (snd (sq_key r)) /\ letter_name (snd (sq_file r))) /\
  (forall r, In r (class_reqs (tm0 tm) kd) -> In (core_of r) (map core_of (class_needs (tm0 tm) kd))) /\
  (forall c, In c (map core_of (class_needs (tm0 tm) kd)) -> ptr_ok (map core_of (class_needs (tm0 tm) kd)) c = true) /\
  (forall w, In w (save_all (tm0 tm) kd) -> In (save_core w) (map core_of (class_needs (tm0 tm) kd))).
Proof.
  pose proof (check_all tm kd) as H. unfold check in H. rewrite !andb_true_iff, !forallb_forall in H.
  destruct H as ((((H1 & H2) & H3) & H4) & H5). repeat split; auto.
  - specialize (H2 _ H). apply andb_true_iff in H2 as (H2 & _). apply letterb_name. exact H2.
  - specialize (H2 _ H). apply andb_true_iff in H2 as (_ & H2). apply letterb_name. exact H2.
  - intros r H. apply core_in_In. auto.
  - intros r H. apply core_in_In. auto.
Qed.
Lemma cmds_ok tm kd : Forall cmd_ok (class_cmds tm kd).
Proof. destruct kd; repeat constructor. Qed.
Lemma needs_letter tm kd r : In r (class_needs tm kd) -> letter_name (snd (sq_key r)) /\ letter_name (snd (sq_file r)).
Proof.
  rewrite class_needs_re. intros H. apply in_map_iff in H as (r0 & <- & H). cbn. exact (proj1 (proj2 (check_parts tm kd)) r0 H).
Qed.
Lemma sneeded_nodup seen rs : NoDup (map (fun r => snd (sq_key r)) (sneeded seen rs)) /\
  (forall n, In n (map (fun r => snd (sq_key r)) (sneeded seen rs)) -> ~ In n seen).
Proof.
  revert seen. induction rs as [|r rs IH]; intros seen; cbn [sneeded].
  - split; [constructor | intros n []].
  - destruct (in_dec string_dec (snd (sq_key r)) seen) as [H|H]; [apply IH|]. cbn [map].
    destruct (IH (snd (sq_key r) :: seen)) as (N & A). split.
    + constructor; [|exact N]. intros Hin. apply (A _ Hin). left. reflexivity.
    + intros n [<-|Hn]; [exact H|]. intros Hs. apply (A _ Hn). right. exact Hs.
Qed.
Lemma needs_nodup tm kd : NoDup (needs_names tm kd).
Proof. apply sneeded_nodup. Qed.
Lemma sneeded_incl seen rs r : In r (sneeded seen rs) -> In r rs.
Proof.
  revert seen. induction rs as [|x rs IH]; intros seen; cbn [sneeded]; [auto|].
  destruct (in_dec _ _ _); [right; eauto|]. intros [->|H]; [left; reflexivity | right; eauto].
Qed.
Lemma reqs_in_needs tm kd r : In r (class_reqs tm kd) -> In (core_of r) (map core_of (class_needs tm kd)).
Proof.
  rewrite class_needs_re, class_reqs_re, core_of_re. intros H. apply in_map_iff in H as (r0 & <- & H).
  change (core_of (re_srq (t_dens tm) r0)) with (re_core (t_dens tm) (core_of r0)). apply in_map.
  exact (proj1 (proj2 (proj2 (check_parts tm kd))) r0 H).
Qed.
Lemma needs_ptr tm kd r : In r (class_needs tm kd) ->
  match sq_ptr r with
  | Some k => exists sp, sq_ty r = TySup sp /\ sq_key r = add_suffix k (sup_suffix sp) /\ In (k, TyBv (sup_class sp), None) (map core_of (class_needs tm kd))
  | None => forall sp, sq_ty r <> TySup sp
  end.
Proof.
  rewrite class_needs_re. intros H. apply in_map_iff in H as (r0 & <- & H). cbn [re_srq sq_ptr sq_ty sq_key].
  rewrite core_of_re.
  pose proof (proj1 (proj2 (proj2 (proj2 (check_parts tm kd)))) (core_of r0) (in_map core_of _ _ H)) as P.
  unfold ptr_ok, core_of in P. cbn [fst snd] in P. destruct (sq_ptr r0) as [k|].
  - destruct (sq_ty r0) as [| | | | |sp]; try discriminate P. apply andb_true_iff in P as (P1 & P2).
    destruct (string_dec _ _) as [E|]; [|discriminate]. apply Bool.eqb_prop in P1.
    exists sp. split; [reflexivity|]. split.
    + unfold add_suffix. destruct (sq_key r0); cbn in *; congruence.
    + apply core_in_In in P2. apply (in_map (re_core (t_dens tm))) in P2. exact P2.
  - intros sp. destruct (sq_ty r0); try discriminate; cbn; congruence.
Qed.
Lemma save_in_needs tm kd w : In w (save_all tm kd) -> In (save_core w) (map core_of (class_needs tm kd)).
Proof.
  rewrite class_needs_re, core_of_re. intros H.
  assert (E : map save_core (save_all tm kd) = map (re_core (t_dens tm)) (map save_core (save_all (tm0 tm) kd))) by (destruct kd; reflexivity).
  apply (in_map save_core) in H. rewrite E in H. apply in_map_iff in H as (c & <- & H). apply in_map.
  apply in_map_iff in H as (w0 & <- & H). exact (proj2 (proj2 (proj2 (proj2 (check_parts tm kd)))) w0 H).
Qed.
Definition nzb (c : core) : bool := negb (zero_width c).
Definition core_list_eqb (a b : list core) : bool := if list_eq_dec core_eq_dec a b then true else false.
Lemma save_order tm kd : order_safe tm kd ->
  filter nzb (map save_core (save_all tm kd)) = filter nzb (map core_of (class_needs tm kd)).
Proof.
  intros HS.
  assert (E : map save_core (save_all tm kd) = map (re_core (t_dens tm)) (map save_core (save_all (tm0 tm) kd))) by (destruct kd; reflexivity).
  rewrite class_needs_re, core_of_re, E.
  assert (F : forall d l, filter nzb (map (re_core d) l) = map (re_core d) (filter nzb l)).
  { intros d l. induction l as [|c l IH]; cbn [map filter]; [reflexivity|].
    assert (Ec : nzb (re_core d c) = nzb c) by (destruct c as [[k t] p]; unfold nzb, zero_width; cbn; destruct t; reflexivity).
    rewrite Ec. destruct (nzb c); cbn [map]; congruence. }
  rewrite !F. f_equal.
  assert (B : core_list_eqb (filter nzb (map save_core (save_all (tm0 tm) kd))) (filter nzb (map core_of (class_needs (tm0 tm) kd))) = true).
  2:{ unfold core_list_eqb in B. destruct (list_eq_dec _ _ _) as [H|]; [exact H | discriminate]. }
  destruct tm as [a b c d]. unfold tm0. cbn [t_marks t_idx t_valid]. unfold order_safe in HS. cbn in HS.
  destruct kd; try (rewrite HS); try (destruct b); destruct a, c; vm_compute; reflexivity.
Qed.
