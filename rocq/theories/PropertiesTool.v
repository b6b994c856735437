(** C90: the tool that writes an integer vector of the cache as 64-bit words. *)
From Coq Require Import List Arith Bool String Lia.
From Verif Require Import Spec MBase Runs MRle MConstruct MPhi MRIndex MSrIndex MPsi MCsa MSrCsa MStore MBwt Glue
  PropertiesSrCsa SpecStore SpecBwt StoreProof StoreClass StoreRound StoreEnd BwtProof
  MCache SpecCache CacheIdeal CacheBuilt CacheStep CacheEnd PropertiesCache CircularProof MTool.
Import ListNotations.

(** The bytes [out] are the values [l] as words of eight bytes, the lowest byte first. *)
Definition words_of (l out : list nat) : Prop :=
  List.length out = 8 * List.length l /\
  forall i v j, nth_error l i = Some v -> j < 8 -> nth_error out (8 * i + j) = Some ((v / 256 ^ j) mod 256).
(** What the output file of a key holds. *)
Definition exported (x : exports) (rate : option nat) (key : fkey) (out : list nat) : Prop :=
  exists x', x = (mk_name rate key None, out) :: x'.

Lemma le_bytes_length k v : List.length (le_bytes k v) = k.
Proof. revert v. induction k as [|k IH]; intros v; cbn [le_bytes List.length]; [reflexivity|now rewrite IH]. Qed.
Lemma le_bytes_nth k v j : j < k -> nth_error (le_bytes k v) j = Some ((v / 256 ^ j) mod 256).
Proof.
  revert v j. induction k as [|k IH]; intros v [|j] H; try lia; cbn [le_bytes nth_error].
  - change (256 ^ 0) with 1. now rewrite Nat.div_1_r.
  - rewrite IH by (apply Nat.succ_lt_mono; exact H). rewrite Nat.div_div by (try apply Nat.pow_nonzero; discriminate). now rewrite <- Nat.pow_succ_r'.
Qed.
Lemma le_bytes_inj k v u : v < 256 ^ k -> u < 256 ^ k -> le_bytes k v = le_bytes k u -> v = u.
Proof.
  revert v u. induction k as [|k IH]; intros v u Hv Hu E.
  - change (256 ^ 0) with 1 in *. lia.
  - cbn [le_bytes] in E. pose proof (f_equal (hd 0) E) as E1. pose proof (f_equal (@tl nat) E) as E2. cbn [hd tl] in E1, E2. clear E. rewrite Nat.pow_succ_r' in Hv, Hu.
    apply IH in E2; [|apply Nat.div_lt_upper_bound; [discriminate|exact Hv]|apply Nat.div_lt_upper_bound; [discriminate|exact Hu]].
    rewrite (Nat.div_mod_eq v 256), (Nat.div_mod_eq u 256), E1, E2. reflexivity.
Qed.
Lemma vector_bytes_words l : words_of l (vector_bytes l).
Proof.
  unfold vector_bytes. induction l as [|a l [IHl IHn]]; [split; [reflexivity|intros [] v j; discriminate]|]. cbn [flat_map]. split.
  - rewrite app_length, le_bytes_length, IHl. cbn [List.length]. lia.
  - intros [|i] v j E H; cbn [nth_error] in E.
    + injection E as <-. rewrite nth_error_app1 by (rewrite le_bytes_length; lia). rewrite Nat.mul_0_r. now apply le_bytes_nth.
    + rewrite nth_error_app2 by (rewrite le_bytes_length; lia). rewrite le_bytes_length. replace (8 * S i + j - 8) with (8 * i + j) by lia. now apply IHn.
Qed.
(** The file determines the values. *)
Lemma words_inj l : forall l' out, Forall (fun v => v < 2 ^ 64) l -> Forall (fun v => v < 2 ^ 64) l' -> words_of l out -> words_of l' out -> l = l'.
Proof.
  replace (2 ^ 64) with (256 ^ 8) by (change 256 with (2 ^ 8) at 1; rewrite <- Nat.pow_mul_r; reflexivity).
  intros l' out F F' [L N] [L' N'].
  assert (EL : List.length l = List.length l') by lia.
  apply nth_error_ext. intros i. destruct (nth_error l i) as [v|] eqn:E.
  - destruct (nth_error l' i) as [u|] eqn:E'; [|apply nth_error_None in E'; assert (i < List.length l) by (apply nth_error_Some; congruence); lia].
    f_equal. apply nth_error_In in E as IV. apply nth_error_In in E' as IU.
    apply (proj1 (Forall_forall _ _) F) in IV. apply (proj1 (Forall_forall _ _) F') in IU. apply (le_bytes_inj 8 v u IV IU).
    apply nth_error_ext. intros j. destruct (Nat.lt_ge_cases j 8) as [Hj|Hj].
    + rewrite !le_bytes_nth by exact Hj. rewrite <- (N i v j E Hj), <- (N' i u j E' Hj). reflexivity.
    + rewrite !(proj2 (nth_error_None _ _)); [reflexivity| |]; rewrite le_bytes_length; exact Hj.
  - apply nth_error_None in E. symmetry. apply nth_error_None. lia.
Qed.

(** * C90 *)
(** For every integer vector of a directory, the tool with its key writes the values as 64-bit words.  Missing: keys whose file is not there, for which the tool writes an empty file,
    and keys with two files, whose outputs have one name; both are shown below. *)
Theorem C90_export_partial : forall d rate key (hash : bool) l x,
  d_find d (mk_name rate key (if hash then Some TyInts else None)) = Some (Whole (ItInts l)) -> key <> FText -> key <> FBwt ->
  exists x' out, int_vector_to_vector rate key hash d x = Some x' /\ exported x' rate key out /\ words_of l out.
Proof.
  intros d rate key hash l x E H1 H2. exists ((mk_name rate key None, vector_bytes l) :: x), (vector_bytes l). split.
  - unfold int_vector_to_vector, byte_file. cbn [nm_key].
    assert (L : load_ints (new_proc d) (mk_name rate key (if hash then Some TyInts else None)) = Some l).
    { unfold load_ints, look_file, resolve. cbn [new_proc pr_map pr_disk existsb nm_hash]. destruct hash; cbn [nm_hash]; rewrite E; reflexivity. }
    rewrite L. destruct key; try congruence; reflexivity.
  - split; [eexists; reflexivity|apply vector_bytes_words].
Qed.
Print Assumptions C90_export_partial.
(** After any construction through SDSL, over any history of the directory, the key of the suffix array gives the
    suffix array of the text. *)
Theorem C90_suffix_array : forall w e h p r p' x,
  sound_world w e -> 0 < h -> S (List.length w) < 2 ^ 64 -> history w e (2 * h) p -> run_ready w e (2 * h) r -> ru_route r = Sdsl ->
  run_cache e r p = Some p' ->
  exists x' out sa, int_vector_to_vector None FSa false (pr_disk p') x = Some x' /\ exported x' None FSa out /\ words_of sa out /\
    is_suffix_array (terminated w) sa.
Proof.
  intros w e h p r p' x HS Hh Hn H HR HRt E. destruct (world_base w e h HS Hh Hn) as [b HB].
  destruct (run_ok w e h HS Hh Hn b HB r HR p (history_inv w e h HS Hh Hn b HB p H) ltac:(intros ? [])) as [(q & ws & E' & _ & IV & HW & _) _].
  assert (q = p') by congruence. subst q. destruct (HW (N FSa)) as [it F].
  { unfold all_names. rewrite HRt. apply in_or_app. left. right. left. reflexivity. }
  pose proof (d_find_In _ _ _ F) as I. apply (proj1 (Forall_forall _ _) (inv_good _ _ _ _ _ IV)) in I. unfold entry_ok in I. cbn [fst snd] in I.
  injection I as <-. destruct (C90_export_partial (pr_disk p') None FSa false _ x F ltac:(discriminate) ltac:(discriminate)) as (x' & out & T & X & W).
  exists x', out, (wd_sort e (terminated w)). repeat (split; [assumption|]). apply HS.
Qed.
Print Assumptions C90_suffix_array.
(** The output determines the vector. *)
Theorem C90_faithful : forall d d' rate key (hash hash' : bool) l l' x x' y out,
  d_find d (mk_name rate key (if hash then Some TyInts else None)) = Some (Whole (ItInts l)) ->
  d_find d' (mk_name rate key (if hash' then Some TyInts else None)) = Some (Whole (ItInts l')) ->
  key <> FText -> key <> FBwt -> Forall (fun v => v < 2 ^ 64) l -> Forall (fun v => v < 2 ^ 64) l' ->
  int_vector_to_vector rate key hash d y = Some x -> int_vector_to_vector rate key hash' d' y = Some x' ->
  exported x rate key out -> exported x' rate key out -> l = l'.
Proof.
  intros d d' rate key hash hash' l l' x x' y out E E' H1 H2 F F' T T' [z X] [z' X'].
  destruct (C90_export_partial d rate key hash l y E H1 H2) as (x1 & o1 & T1 & [z1 X1] & W1).
  destruct (C90_export_partial d' rate key hash' l' y E' H1 H2) as (x2 & o2 & T2 & [z2 X2] & W2).
  assert (A1 : x1 = x) by congruence. assert (A2 : x2 = x') by congruence. rewrite X1, X in A1. rewrite X2, X' in A2.
  pose proof (f_equal (fun z => snd (hd (N FSa, []) z)) A1) as B1. pose proof (f_equal (fun z => snd (hd (N FSa, []) z)) A2) as B2. cbn [hd snd] in B1, B2.
  subst o1 o2. exact (words_inj l l' out F F' W1 W2).
Qed.
Print Assumptions C90_faithful.
(** A key that is not in the cache: the tool ends without failure and leaves an empty file, as for an empty vector. *)
Theorem C90_missing_refuted : forall d rate key (hash : bool) x,
  d_find d (mk_name rate key (if hash then Some TyInts else None)) = None -> key <> FText -> key <> FBwt ->
  exists x', int_vector_to_vector rate key hash d x = Some x' /\ exported x' rate key [].
Proof.
  intros d rate key hash x E H1 H2. exists ((mk_name rate key None, []) :: x). split; [|eexists; reflexivity].
  unfold int_vector_to_vector, byte_file. cbn [nm_key].
  assert (L : load_ints (new_proc d) (mk_name rate key (if hash then Some TyInts else None)) = Some []).
  { unfold load_ints, look_file, resolve. cbn [new_proc pr_map pr_disk existsb nm_hash]. destruct hash; cbn [nm_hash]; rewrite E; reflexivity. }
  rewrite L. destruct key; try congruence; reflexivity.
Qed.
Print Assumptions C90_missing_refuted.
(** A directory that constructions leave has a key without a file of its own and with a typed one: exporting the key
    with --hash_type and then without it replaces the values by nothing, under the same name. *)
Theorem C90_hash_refuted : exists w e p rate key l x x' out,
  sound_world w e /\ S (List.length w) < 2 ^ 64 /\ later w e (2 * 2) (new_proc []) p /\
  d_find (pr_disk p) (mk_name rate key (Some TyInts)) = Some (Whole (ItInts l)) /\ l <> [] /\
  int_vector_to_vector rate key true (pr_disk p) [] = Some x /\ exported x rate key out /\ words_of l out /\
  int_vector_to_vector rate key false (pr_disk p) x = Some x' /\ exported x' rate key [].
Proof.
  set (p := ends exf_world (ex_run Sdsl KRCSAPsi 1) (new_proc [])).
  assert (EP : run_cache exf_world (ex_run Sdsl KRCSAPsi 1) (new_proc []) = Some p) by (vm_compute; reflexivity).
  destruct (d_find (pr_disk p) (mk_name None FPsiHead (Some TyInts))) as [[[| | |l| |]|]|] eqn:E; try (exfalso; vm_compute in E; discriminate E).
  exists exf_w, exf_world, p, None, FPsiHead, l.
  destruct (C90_export_partial (pr_disk p) None FPsiHead true l [] E ltac:(discriminate) ltac:(discriminate)) as (x & out & T & X & W).
  destruct (C90_missing_refuted (pr_disk p) None FPsiHead false x ltac:(vm_compute; reflexivity) ltac:(discriminate) ltac:(discriminate)) as (x' & T' & X').
  exists x, x', out. split; [apply exf_sound|]. split; [exact exf_small|]. split; [eapply l_run; [apply l_refl|apply (ex_ready Sdsl KRCSAPsi 1)|exact EP]|].
  split; [exact E|]. split; [intros ->; vm_compute in E; discriminate E|]. auto 10.
Qed.
Print Assumptions C90_hash_refuted.
(** The suffix array of the example: twelve words, of which the first is 11. *)
Example C90_example :
  let p := ends exf_world (ex_run Sdsl KRIndex 1) (new_proc []) in
  d_find (pr_disk p) (mk_name None FSa None) = Some (Whole (ItInts exf_sa)) /\
  match int_vector_to_vector None FSa false (pr_disk p) [] with
  | Some [(n, out)] => n = N FSa /\ List.length out = 96 /\ firstn 9 out = [11; 0; 0; 0; 0; 0; 0; 0; 10]
  | _ => False
  end.
Proof. vm_compute. auto. Qed.
