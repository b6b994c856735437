(** C95: several texts in one output directory.

    [shared_history hash T dens D]: the files [D] of the directory are what constructions of the texts of [T], completed
    in any order, and ones stopped with [closed] files, can leave (SpecNames.v).  [view_of hash dens t D]: what a
    construction of the text [t] finds of them.  [all_apart T]: no name of a data file is another one, or another one
    with words of the keys or numbers, and an underscore, in front. *)
From Coq Require Import List Arith Bool String Ascii Lia DecimalString.
From Verif Require Import Spec MBase Util MConstruct MStore MBwt StoreProof StoreClass StoreRound SpecBwt Glue BwtProof MCache SpecCache CacheEnd
  PropertiesSrCsa PropertiesStore PropertiesCache MNames SpecNames NamesProof.
Import ListNotations.

(** A construction for one of the texts succeeds, whatever the directory holds of the others; its index is exact on its
    text; what the others find stays as it is. *)
Theorem C95_apart_partial : forall hash T h D t r,
  (forall x, decimal (hash x)) -> all_apart T -> all_sound T -> 0 < h -> shared_history hash T (2 * h) D -> te_in T t ->
  run_ready (te_text T t) (te_world T t) (2 * h) r -> (ru_kd r = KCSARaw -> ru_route r = Sdsl) ->
  exists o D', shared_call hash t (input_of (te_world T t) r) (ru_tm r) (ru_kd r) (ru_rate r) D = Some (o, D') /\
    exact_index (te_text T t) (te_world T t) r o /\ shared_history hash T (2 * h) D' /\
    (forall u, te_in T u -> u <> t -> view_of hash (2 * h) u D' = view_of hash (2 * h) u D) /\
    (exists ws, D' = ws ++ D).
Proof.
  intros hash T h D t r G A S Hh H It HR HK. destruct (S t It) as [HS Hn].
  pose proof (shared_view hash T (2 * h) G D t A H It) as HV.
  destruct (C47_resume_partial _ _ h _ r HS Hh Hn HV HR HK) as (o & p & E & X & _).
  assert (ER : run_cache (te_world T t) r (new_proc (view_of hash (2 * h) t D)) = Some p).
  { unfold run_index, construct_index in E. apply bind_Some in E as (q & E1 & E2). apply bind_Some in E2 as (o2 & _ & E2).
    injection E2 as _ ->. exact E1. }
  destruct (run_grows _ _ _ _ ER) as [ws EW]. cbn [pr_disk new_proc] in EW.
  assert (EN : new_writes (view_of hash (2 * h) t D) (pr_disk p) = ws).
  { unfold new_writes. rewrite EW, app_length, Nat.add_sub. rewrite firstn_app, firstn_all, Nat.sub_diag. cbn. apply app_nil_r. }
  exists o, (stamp t ws ++ D). split.
  { unfold shared_call. destruct HR as [-> _]. unfold run_index in E. rewrite E. cbv beta iota zeta delta [bind]. rewrite EN. reflexivity. }
  split; [exact X|]. split; [exact (sh_run _ _ _ _ _ _ _ _ H It HR ER EW)|]. split.
  - intros u Iu NE. rewrite (view_step hash T (2 * h) G D t u ws A It Iu). destruct (text_eq_dec u t); [contradiction|reflexivity].
  - exists (stamp t ws). reflexivity.
Qed.
Print Assumptions C95_apart_partial.

(** The files of one text have different names. *)
Theorem C95_own_names : forall hash t n m,
  good_hash hash -> ~ In (nm_key n) [FBigBwt; FBigSsa; FBigEsa] -> place_of hash t n = place_of hash t m -> n = m.
Proof.
  intros hash t n m G I H. apply (own_places hash t n m G); [|exact H].
  destruct (nm_key n); try reflexivity; exfalso; apply I; cbn; auto.
Qed.
Print Assumptions C95_own_names.

(** A construction that asks for a file of the directory finds what was last written under its name, by whichever text. *)
Theorem C95_view : forall hash dens t D n,
  good_hash hash -> cache_name dens n -> d_find (view_of hash dens t D) n = latest hash (place_of hash t n) D.
Proof.
  intros hash dens t D n G [I A]. apply view_latest; [exact G| |].
  2:{ intros x E. destruct x as [| | d | | c | [c [] | c]]; try (rewrite (A d E)); try destruct c; cbn; auto 20. }
  destruct (nm_key n); try reflexivity; exfalso; apply I; cbn; auto.
Qed.
Print Assumptions C95_view.

(** * Concrete cases *)
(** A hash: TyPsi d is the number of d and a 1, the other types end with 0. *)
Definition ex_hash (t : ty) : string :=
  match t with
  | TyAlpha => "10" | TyRle => "20" | TyInts => "30" | TyBv BvSd => "40" | TyBv BvPlain => "50"
  | TySup (SupRank BvSd true) => "60" | TySup (SupRank BvSd false) => "70" | TySup (SupSelect BvSd) => "80"
  | TySup (SupRank BvPlain true) => "90" | TySup (SupRank BvPlain false) => "110" | TySup (SupSelect BvPlain) => "120"
  | TyPsi d => (NilEmpty.string_of_uint (Nat.to_uint d) ++ "1")%string
  end%string.
Example C95_hash : good_hash ex_hash.
Proof.
  assert (D : forall s, (if string_dec s "" then false else forallb (fun c => (48 <=? nat_of_ascii c) && (nat_of_ascii c <=? 57))%bool (list_ascii_of_string s)) = true -> decimal s).
  { intros s H. destruct (string_dec s "") as [|N]; [discriminate|]. split; [exact N|]. intros c Hc.
    rewrite forallb_forall in H. specialize (H c Hc). apply andb_true_iff in H as [H1 H2]. apply Nat.leb_le in H1, H2. lia. }
  assert (P : forall a b, (a ++ "1" <> b ++ "0")%string).
  { intros a b H. apply (f_equal (fun s => rev (list_ascii_of_string s))) in H. rewrite !list_ascii_app, !rev_app_distr in H. discriminate. }
  split.
  - intros [| | d | | [] | [ [] [] | [] ] ]; try (apply D; vm_compute; reflexivity).
    cbn [ex_hash]. split.
    + destruct (NilEmpty.string_of_uint (Nat.to_uint d)); discriminate.
    + intros c Hc. rewrite list_ascii_app in Hc. apply in_app_or in Hc as [Hc|[<-|[]]]; [|vm_compute; lia].
      pose proof (uint_digits _ c Hc) as B. unfold is_digit in B. apply andb_true_iff in B as [H1 H2]. apply Nat.leb_le in H1, H2. lia.
  - intros [| | d | | [] | [ [] [] | [] ] ] [| | d' | | [] | [ [] [] | [] ] ]; cbn [ex_hash]; intros H; try reflexivity; try discriminate H;
      try (exfalso; first [exact (P _ "1"%string H) | exact (P _ "1"%string (eq_sym H)) | exact (P _ "2"%string H) | exact (P _ "2"%string (eq_sym H))
        | exact (P _ "3"%string H) | exact (P _ "3"%string (eq_sym H)) | exact (P _ "4"%string H) | exact (P _ "4"%string (eq_sym H))
        | exact (P _ "5"%string H) | exact (P _ "5"%string (eq_sym H)) | exact (P _ "6"%string H) | exact (P _ "6"%string (eq_sym H))
        | exact (P _ "7"%string H) | exact (P _ "7"%string (eq_sym H)) | exact (P _ "8"%string H) | exact (P _ "8"%string (eq_sym H))
        | exact (P _ "9"%string H) | exact (P _ "9"%string (eq_sym H)) | exact (P _ "11"%string H) | exact (P _ "11"%string (eq_sym H))
        | exact (P _ "12"%string H) | exact (P _ "12"%string (eq_sym H))]).
    apply string_inv_tail in H. apply to_string_inj in H. congruence.
Qed.

(** Two texts: one in the file "foo", the other one in a file of the same directory. *)
Definition ex_foo : text_file := mk_text "/data" "foo".
Definition exr_world : world := mk_world exr_w (fun _ => exr_sa) (fun _ => mk_big_files [] [] []).
Definition ex_two (other : string) : texts :=
  mk_texts (fun t => t = ex_foo \/ t = mk_text "/data" other)
    (fun t => if text_eq_dec t ex_foo then exf_w else exr_w) (fun t => if text_eq_dec t ex_foo then exf_world else exr_world).
Lemma ex_two_sound other : other <> "foo"%string -> all_sound (ex_two other).
Proof.
  intros N t I. cbn [te_in te_text te_world ex_two] in *. destruct (text_eq_dec t ex_foo) as [->|NE].
  - split; [exact exf_sound|exact exf_small].
  - split.
    + split; [repeat constructor|]. split; [left; reflexivity|]. cbn [wd_sort exr_world]. apply sa_check_ok. vm_compute. reflexivity.
    + apply Nat.lt_le_trans with (2 ^ 5); [vm_compute; lia|]. apply Nat.pow_le_mono_r; lia.
Qed.
Definition ex_ends (kd : kind) : shared_disk :=
  match shared_call ex_hash ex_foo (input_of exf_world (mk_run Sdsl ex_sd4 kd 3)) ex_sd4 kd 3 [] with Some (_, D) => D | None => [] end.
Definition ex_second (other : string) (kd : kind) (x : list nat) : option (option (list nat)) :=
  match shared_call ex_hash (mk_text "/data" other) (input_of exr_world (mk_run Sdsl ex_sd4 kd 3)) ex_sd4 kd 3 (ex_ends kd) with
  | Some (o, _) => Some (obj_locate ex_sd4 kd o x) | None => None end.
Lemma first_call hash t e r o D T : te_in T t -> te_world T t = e -> run_ready (te_text T t) e (t_dens (ru_tm r)) r ->
  shared_call hash t (input_of e r) (ru_tm r) (ru_kd r) (ru_rate r) [] = Some (o, D) -> shared_history hash T (t_dens (ru_tm r)) D.
Proof.
  intros I EW HR E. unfold shared_call in E. cbv zeta in E. apply bind_Some in E as ([o' p] & E & E'). injection E' as _ <-.
  unfold construct_index in E. apply bind_Some in E as (q & E1 & E2). apply bind_Some in E2 as (o2 & _ & E2). injection E2 as _ ->.
  apply (sh_run hash T (t_dens (ru_tm r)) [] t r p); [apply sh_empty|exact I| | |].
  - rewrite EW. exact HR.
  - rewrite EW. exact E1.
  - unfold new_writes, view_of. cbn [flat_map List.length]. rewrite Nat.sub_0_r, firstn_all. symmetry. apply app_nil_r.
Qed.
Lemma first_exists hash t w e r : (forall x, decimal (hash x)) -> sound_world w e -> S (List.length w) < 2 ^ 64 -> run_ready w e (2 * 2) r -> ru_kd r <> KCSARaw ->
  exists o D, shared_call hash t (input_of e r) (ru_tm r) (ru_kd r) (ru_rate r) [] = Some (o, D).
Proof.
  intros G HS Hn HR NK. pose (T := mk_texts (fun u => u = t) (fun _ => w) (fun _ => e)).
  assert (A : all_apart T) by (intros a b -> ->; contradiction).
  assert (S : all_sound T) by (intros a _; split; [exact HS|exact Hn]).
  destruct (C95_apart_partial hash T 2 [] t r G A S ltac:(lia) (sh_empty _ _ _) eq_refl HR ltac:(intros E; contradiction)) as (o & D & E & _).
  exists o, D. exact E.
Qed.
Lemma ex_first other kd : kd <> KCSARaw -> shared_history ex_hash (ex_two other) (2 * 2) (ex_ends kd).
Proof.
  intros NK. set (r := mk_run Sdsl ex_sd4 kd 3).
  assert (HR : run_ready exf_w exf_world (2 * 2) r) by (split; [reflexivity|discriminate]).
  destruct (first_exists ex_hash ex_foo exf_w exf_world r (proj1 C95_hash) exf_sound exf_small HR NK) as (o & D & E).
  assert (ED : ex_ends kd = D) by (unfold ex_ends; fold r; cbn [r ru_tm ru_kd ru_rate] in E; fold r in E; rewrite E; reflexivity).
  rewrite ED. apply (first_call ex_hash ex_foo exf_world r o D); [left; reflexivity|reflexivity|exact HR|exact E].
Qed.

(** Texts whose names are apart, and the second construction *)
Lemma key_words_first s : key_words s -> exists w, key_word w /\ (s = w \/ exists x, s = w ++ "_" ++ x)%string.
Proof. intros [w H|w x H _]; exists w; split; auto. right. exists x. reflexivity. Qed.
Example C95_example :
  all_apart (ex_two "my_foo") /\ all_sound (ex_two "my_foo") /\ shared_history ex_hash (ex_two "my_foo") (2 * 2) (ex_ends KSrCSA) /\
  20 < List.length (ex_ends KSrCSA) /\ ex_second "my_foo" KSrCSA [97] = Some (Some [4; 14; 5; 15; 0; 8; 6; 16; 1; 9]) /\
  ~ apart "foo" "idx_foo".
Proof.
  split; [|split; [apply ex_two_sound; discriminate|split; [apply ex_first; discriminate|split; [vm_compute; lia|split; [vm_compute; reflexivity|]]]]].
  2:{ intros (_ & _ & H). apply (H "idx"%string); [apply kw_one; left; cbn; auto 10|reflexivity]. }
  assert (Q : apart "foo" "my_foo").
  { split; [discriminate|]. split; intros s K E.
    - apply (f_equal String.length) in E. rewrite !append_length in E. cbn in E. lia.
    - change "my_foo"%string with ("my" ++ "_" ++ "foo")%string in E. apply string_inv_tail in E. subst s.
      apply key_words_first in K as (w & K & [<-|[x E]]).
      + destruct K as [K|[_ K]]; [cbn in K; repeat (destruct K as [K|K]; [discriminate|]); exact K|].
        specialize (K "m"%char (or_introl eq_refl)). cbn in K. lia.
      + destruct w as [|a [|b [|c w]]]; discriminate. }
  intros t u [-> | ->] [-> | ->] N; try contradiction; [exact Q|]. destruct Q as (Q1 & Q2 & Q3). split; [|split]; auto.
Qed.

(** * Names that are not apart *)
Lemma second_wrong (e := exr_world) (r := mk_run Sdsl ex_sd4 KSrCSA 3) o D' :
  exact_index exr_w e r o ->
  shared_call ex_hash (mk_text "/data" "idx_foo") (input_of e r) (ru_tm r) (ru_kd r) (ru_rate r) (ex_ends KSrCSA) = Some (o, D') -> False.
Proof.
  intros X E.
  assert (HP : pattern_over exr_w [97]) by (split; [discriminate|]; cbn; intuition).
  destruct (X [97] HP) as (l & _ & _ & EL & (_ & EX) & _).
  assert (Q : ex_second "idx_foo" KSrCSA [97] = Some (Some l)).
  { unfold ex_second. fold r e. cbn [r ru_tm ru_kd ru_rate] in E, EL. fold r in E. rewrite E, EL. reflexivity. }
  assert (Q' : ex_second "idx_foo" KSrCSA [97] = Some (Some [19; 17; 0; 18; 7; 12; 10; 19; 4; 14])) by (vm_compute; reflexivity).
  rewrite Q' in Q. injection Q as <-.
  assert (NI : ~ In 16 [19; 17; 0; 18; 7; 12; 10; 19; 4; 14]) by (cbn; lia).
  apply NI, EX. exists (firstn 16 exr_w), (skipn 17 exr_w). split; reflexivity.
Qed.
(** The output directory holds the index of the data file "foo", of the class SrCSA with rate 3.  The data file "idx_foo"
    is in the same directory: what "foo" has under the key bwt_run_first_idx has the name that "idx_foo" gives to the key
    bwt_run_first.  Construction takes it to be there, and the index locates wrong positions. *)
Theorem C95_refuted : ~ (forall hash T h D t r,
  good_hash hash -> all_sound T -> (forall t u, te_in T t -> te_in T u -> t <> u -> tx_name t <> tx_name u) -> 0 < h ->
  shared_history hash T (2 * h) D -> te_in T t -> run_ready (te_text T t) (te_world T t) (2 * h) r -> ru_kd r <> KCSARaw ->
  exists o D', shared_call hash t (input_of (te_world T t) r) (ru_tm r) (ru_kd r) (ru_rate r) D = Some (o, D') /\
    exact_index (te_text T t) (te_world T t) r o).
Proof.
  intros F.
  pose (t := mk_text "/data" "idx_foo"). pose (r := mk_run Sdsl ex_sd4 KSrCSA 3).
  destruct (F ex_hash (ex_two "idx_foo") 2 (ex_ends KSrCSA) t r C95_hash) as (o & D' & E & X).
  - apply ex_two_sound. discriminate.
  - intros a b [-> | ->] [-> | ->] N; try contradiction; discriminate.
  - lia.
  - apply ex_first; discriminate.
  - right. reflexivity.
  - split; [reflexivity|]. discriminate.
  - discriminate.
  - exact (second_wrong o D' X E).
Qed.
Print Assumptions C95_refuted.

(** The data file "rle_foo": what "foo" has under the key bwt_rle, an sdsl file of another type, has the name that
    "rle_foo" gives to its BWT, so that its construction reads it as a text. *)
Example C95_undefined : ex_second "rle_foo" KRIndex [97] = None /\ ex_second "bar" KRIndex [97] <> None.
Proof. split; vm_compute; [reflexivity|discriminate]. Qed.
