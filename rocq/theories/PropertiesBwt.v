(** C49, C50: files of Big-BWT.  C51: computeLF, LF, BasicLF.  C56: computeBWT. *)
From Coq Require Import List Arith Bool Lia.
From Verif Require Import Spec SpecBwt MBase MRle MConstruct MRIndex MBwt Runs Glue BwtProof PropertiesRIndex.
Import ListNotations.

(** * C49 *)
(** The symbols read are those of the file without its white space. *)
Theorem C49_symbols_read : forall file, read_symbols file = filter (fun c => negb (existsb (Nat.eqb c) [32; 9; 10; 11; 12; 13])) file.
Proof.
  intros file. rewrite read_symbols_filter. apply filter_ext. intros c. f_equal.
  apply eq_true_iff_eq. rewrite is_space_spec, existsb_exists. unfold white_space. split.
  - intros H. exists c. split; [exact H|apply Nat.eqb_refl].
  - intros (x & H & E). apply Nat.eqb_eq in E. subst x. exact H.
Qed.
Print Assumptions C49_symbols_read.

(** The file is read unchanged exactly when it has no white space. *)
Theorem C49_read_partial : forall file, read_symbols file = file <-> (forall c, In c file -> ~ white_space c).
Proof. intros file. split; [apply read_symbols_lost | apply read_symbols_id]. Qed.
Print Assumptions C49_read_partial.

(** For every text with white space the BWT read is too short. *)
Theorem C49_white_space_refuted : forall w sa bwt_file ssa_file esa_file,
  zero_free w -> is_suffix_array (terminated w) sa -> big_bwt_output w sa bwt_file ssa_file esa_file ->
  (exists c, In c w /\ white_space c) -> length (read_symbols bwt_file) < length bwt_file.
Proof.
  intros w sa bf sf ef Hw HSA H HW. pose proof (big_white_space w sa bf sf ef Hw HSA H HW) as L.
  replace bf with (bwt_of (terminated w) sa) in * by (symmetry; apply H). rewrite (big_len w sa HSA). exact L.
Qed.
Print Assumptions C49_white_space_refuted.

(** "a b": the file of the BWT has 4 bytes, 3 are read. *)
Definition ex_big_w : list nat := [97; 32; 98].
Definition ex_big_sa : list nat := [3; 1; 0; 2].
Example C49_example : zero_free ex_big_w /\ is_suffix_array (terminated ex_big_w) ex_big_sa /\
  bwt_of (terminated ex_big_w) ex_big_sa = [98; 97; 0; 32] /\ read_symbols [98; 97; 0; 32] = [98; 97; 0].
Proof. split; [repeat constructor|]. split; [apply sa_check_ok; vm_compute; reflexivity|]. vm_compute. auto. Qed.

(** * C50 *)
(** The run files read from the pairs of Big-BWT are those that the SDSL route computes, for every text
    whose positions fit in 5 bytes. *)
Theorem C50_runs : forall w sa data ba bwt_file ssa_file esa_file,
  zero_free w -> is_suffix_array (terminated w) sa -> data = w \/ data = terminated w ->
  S (length w) <= 256 ^ 5 ->
  big_bwt_output w sa bwt_file ssa_file esa_file -> construct_base data sa = Some ba ->
  construct_big_runs (mk_big_files bwt_file ssa_file esa_file) = bi_runs_files ba.
Proof. intros w sa data ba bf sf ef Hw HSA Hd Hn. exact (big_runs_base w sa data Hw HSA Hd Hn bf sf ef ba). Qed.
Print Assumptions C50_runs.

(** Without white space in the text every base item is the one of the SDSL route. *)
Theorem C50_items : forall w sa data ba bwt_file ssa_file esa_file,
  zero_free w -> is_suffix_array (terminated w) sa -> data = w \/ data = terminated w ->
  S (length w) <= 256 ^ 5 -> (forall c, In c w -> ~ white_space c) ->
  big_bwt_output w sa bwt_file ssa_file esa_file -> construct_base data sa = Some ba ->
  construct_big_base (mk_big_files bwt_file ssa_file esa_file) =
  Some (bi_bwt_text ba, bi_runs_files ba, bi_alpha ba, bi_bwt_rle ba).
Proof.
  intros w sa data ba bf sf ef Hw HSA Hd Hn HW H. exact (big_base_ok w sa data Hw HSA Hd Hn bf sf ef ba H HW).
Qed.
Print Assumptions C50_items.

(** "banana": 7 rows, BWT annb$aa; the files of Big-BWT, byte by byte. *)
Definition ex_ssa : list nat :=
  [0;0;0;0;0; 6;0;0;0;0;  1;0;0;0;0; 5;0;0;0;0;  3;0;0;0;0; 1;0;0;0;0;  4;0;0;0;0; 0;0;0;0;0;  5;0;0;0;0; 4;0;0;0;0].
Definition ex_esa : list nat :=
  [0;0;0;0;0; 6;0;0;0;0;  2;0;0;0;0; 3;0;0;0;0;  3;0;0;0;0; 1;0;0;0;0;  4;0;0;0;0; 0;0;0;0;0;  6;0;0;0;0; 2;0;0;0;0].
Example C50_example : zero_free ex_w /\ is_suffix_array (terminated ex_w) ex_sa /\
  (forall c, In c ex_w -> ~ white_space c) /\
  big_bwt_output ex_w ex_sa [97; 110; 110; 98; 0; 97; 97] ex_ssa ex_esa /\
  construct_big_runs (mk_big_files [97; 110; 110; 98; 0; 97; 97] ex_ssa ex_esa) =
    mk_bwt_runs [0; 1; 3; 4; 5] [5; 4; 0; 6; 3] [0; 2; 3; 4; 6] [5; 2; 0; 6; 1] /\
  exists ba, construct_base ex_w ex_sa = Some ba.
Proof.
  split; [repeat constructor|]. split; [apply sa_check_ok; vm_compute; reflexivity|].
  split. { intros c H W. unfold white_space in W. cbn in H, W. lia. }
  split.
  { split; [vm_compute; reflexivity|]. split.
    - exists (heads_of [97; 110; 110; 98; 0; 97; 97]). split; [apply heads_in_order|]. vm_compute. reflexivity.
    - exists (tails_of [97; 110; 110; 98; 0; 97; 97]). split; [apply tails_in_order|]. vm_compute. reflexivity. }
  split; [vm_compute; reflexivity|]. vm_compute. eauto.
Qed.

(** * C51 *)
(** computeLF on the rows i..j of any string (i = j + 1: no row): the interval of the rows that the
    occurrences of c there go to; [1, 0] when there is none. *)
Theorem C51_computeLF_range : forall b rank f max_c i j c,
  (forall pos c, pos <= length b -> rank pos c = Some (occ c b pos)) ->
  f c = Some (smaller c b) -> f (c + 1) = Some (smaller (c + 1) b) -> i <= S j <= length b ->
  exists l r, compute_lf rank f (i, j) c (length b) max_c = Some (l, r) /\
    (forall x, l <= x <= r <-> exists k, i <= k <= j /\ nth_error b k = Some c /\ x = lf_row b k) /\
    ((forall k, i <= k <= j -> nth_error b k <> Some c) -> (l, r) = (1, 0)).
Proof.
  intros b rank f max_c i j c HR F1 F2 H. pose proof (compute_lf_ok b rank f HR i j c max_c F1 F2 H) as E.
  destruct (occ c b i <? occ c b (S j)) eqn:L.
  - do 2 eexists. split; [exact E|]. split; [exact (compute_lf_range b rank f max_c i j c _ _ HR F1 F2 H E)|].
    intros N. exfalso. apply Nat.ltb_lt in L.
    destruct (proj1 (lf_rows b c i (S j) (smaller c b + occ c b i) ltac:(lia) ltac:(lia)) ltac:(lia)) as (k & K1 & K2 & _).
    apply (N k); [lia|exact K2].
  - do 2 eexists. split; [exact E|]. split; [exact (compute_lf_range b rank f max_c i j c _ _ HR F1 F2 H E)|]. auto.
Qed.
Print Assumptions C51_computeLF_range.

(** On the BWT of a text, from the rows of p to the rows of c p: computeLF on inclusive ranges, LF on
    half-open ranges. *)
Theorem C51_text_step : forall w sa rank f max_c p c s e,
  zero_free w -> is_suffix_array (terminated w) sa ->
  let b := bwt_of (terminated w) sa in
  (forall pos c, pos <= length b -> rank pos c = Some (occ c b pos)) -> (forall c, f c = Some (smaller c b)) ->
  (forall x, In x p -> 0 < x) -> 0 < c -> row_interval p w sa s e -> s < e ->
  exists s' e', row_interval (c :: p) w sa s' e' /\
    compute_lf rank f (s, e - 1) c (length b) max_c = Some (if s' <? e' then (s', e' - 1) else (1, 0)) /\
    lf_simple (fun c pos => rank pos c) f (s, e) c = Some (s', e').
Proof.
  intros w sa rank f max_c p c s e Hw HSA b HR HF Hp Hc HI Hse.
  pose proof (row_step w sa Hw HSA p c s e Hp Hc HI) as HI'. fold b in HI'.
  assert (L : length b = length sa) by (unfold b, bwt_of; apply map_length).
  do 2 eexists. split; [exact HI'|]. destruct HI as [B _]. split.
  - rewrite (compute_lf_ok b rank f HR s (e - 1) c max_c (HF _) (HF _)) by lia.
    replace (S (e - 1)) with e by lia.
    destruct (Nat.ltb_spec (occ c b s) (occ c b e)), (Nat.ltb_spec (smaller c b + occ c b s) (smaller c b + occ c b e)); auto; lia.
  - apply lf_simple_ok; auto; lia.
Qed.
Print Assumptions C51_text_step.

(** BasicLF goes from the row of a suffix to the row of the suffix one position before. *)
Theorem C51_basic_lf : forall w sa rank f,
  zero_free w -> is_suffix_array (terminated w) sa ->
  let b := bwt_of (terminated w) sa in
  (forall pos c, pos <= length b -> rank pos c = Some (occ c b pos)) -> (forall c, f c = Some (smaller c b)) ->
  forall i a, nth_error sa i = Some a ->
  exists j, basic_lf (nth_error b) rank f i = Some j /\ nth_error sa j = Some (if 0 <? a then a - 1 else length w).
Proof.
  intros w sa rank f Hw HSA b HR HF i a Ha.
  assert (Hi : i < length sa) by (apply nth_error_Some; congruence).
  assert (L : length b = length sa) by (unfold b, bwt_of; apply map_length).
  exists (lf_row b i). split; [apply basic_lf_ok; auto; lia|].
  unfold b. rewrite (lf_row_text w sa Hw HSA i a Ha). f_equal.
  rewrite <- ConstructProof.cpred_if.
  - replace (S (length w) - 1) with (length w) by lia. reflexivity.
  - assert (A : In a sa) by (eapply nth_error_In; eassumption).
    destruct HSA as [P _]. eapply Permutation.Permutation_in in A; [|exact P]. apply in_seq in A.
    unfold terminated in A. rewrite app_length in A. cbn in A. lia.
Qed.
Print Assumptions C51_basic_lf.

(** The table of cumulative counts must have an entry after the largest symbol: if that symbol occurs,
    computeLF reads it. *)
Theorem C51_table_size_needed : forall b rank (F : list nat) max_c i j,
  nth_error F max_c = Some (smaller max_c b) -> length F = S max_c -> In max_c b ->
  compute_lf rank (nth_error F) (i, j) max_c (length b) max_c = None.
Proof.
  intros b rank F max_c i j E L I. unfold compute_lf. rewrite E. cbn [bind].
  assert (N : smaller max_c b < length b).
  { pose proof (smaller_S max_c b) as S1. assert (O : 0 < occ max_c b (length b)).
    { unfold occ. rewrite firstn_all. apply count_occ_In. exact I. }
    assert (smaller (S max_c) b <= length b) by apply filter_len_le. lia. }
  destruct (Nat.eqb_spec (smaller max_c b) (length b)); [lia|]. rewrite andb_false_r.
  replace (nth_error F (max_c + 1)) with (@None nat) by (symmetry; apply nth_error_None; lia). reflexivity.
Qed.
Print Assumptions C51_table_size_needed.

Example C51_example :
  let b := bwt_of (terminated ex_w) ex_sa in
  let rank pos c := Some (occ c b pos) in let f c := Some (smaller c b) in
  row_interval [97] ex_w ex_sa 1 4 /\ b = [97; 110; 110; 98; 0; 97; 97] /\
  compute_lf rank f (1, 3) 110 7 110 = Some (5, 6) /\ compute_lf rank f (1, 3) 98 7 110 = Some (4, 4) /\
  compute_lf rank f (1, 3) 99 7 110 = Some (1, 0) /\ compute_lf rank f (1, 0) 110 7 110 = Some (1, 0) /\
  lf_simple (fun c pos => rank pos c) f (1, 4) 110 = Some (5, 7) /\ basic_lf (nth_error b) rank f 4 = Some 0.
Proof.
  cbv zeta. split; [|vm_compute; auto 10].
  apply (rows_range ex_w ex_sa); [repeat constructor|apply sa_check_ok; vm_compute; reflexivity| |].
  { intros c [<-|[]]. lia. }
  split; [vm_compute; lia|]. intros i Hi. vm_compute in Hi. 
  destruct i as [|[|[|[|[|[|[|i]]]]]]]; try lia; vm_compute; (split; [intros H | intros [H _]]); try lia; try discriminate H; auto.
Qed.

(** * C56 *)
Definition reported_symbols (ev : list bwt_event) : list (nat * nat) :=
  flat_map (fun e => match e with EvSymbol i c => [(i, c)] | _ => [] end) ev.
Definition reported_firsts (ev : list bwt_event) : list (nat * nat * nat * nat) :=
  flat_map (fun e => match e with EvFirst r i c p => [(r, i, c, p)] | _ => [] end) ev.
Definition reported_lasts (ev : list bwt_event) : list (nat * nat * nat * nat) :=
  flat_map (fun e => match e with EvLast r i c p => [(r, i, c, p)] | _ => [] end) ev.
(** Run number, row, symbol and text position for each of the rows of [l]. *)
Definition run_reports (t sa l : list nat) : list (nat * nat * nat * nat) :=
  map (fun '(r, i) => (r, i, nth i (bwt_of t sa) 0, cpred (length t) (nth i sa 0))) (combine (seq 0 (length l)) l).
(** computeBWT over any non-empty sequence [t] and any list [sa] of its positions reports each symbol of
    the BWT once, in order; each first and last row of a run once, in order, with the number of the run,
    its symbol and the position of that symbol in the text; and returns the number of runs. *)
Theorem C56_compute_bwt : forall t sa, t <> [] -> length sa = length t -> (forall a, In a sa -> a < length t) ->
  exists ev heads tails, compute_bwt (length t) (nth_error sa) (nth_error t) = Some (ev, length heads) /\
    lists_in_order heads (run_head (bwt_of t sa)) /\ lists_in_order tails (run_tail (bwt_of t sa)) /\
    length tails = length heads /\
    reported_symbols ev = combine (seq 0 (length t)) (bwt_of t sa) /\
    reported_firsts ev = run_reports t sa heads /\ reported_lasts ev = run_reports t sa tails.
Proof.
  intros t sa Ht HL HB.
  destruct (compute_bwt_ok t sa ltac:(destruct t; [congruence|cbn; lia]) HL HB) as (ev & E & E1 & E2 & E3 & E4).
  exists ev, (heads_of (bwt_of t sa)), (tails_of (bwt_of t sa)).
  split; [exact E|]. split; [apply heads_in_order|]. split; [apply tails_in_order|]. split; [exact E4|].
  split; [exact E1|]. unfold run_reports.
  assert (X : forall l : list (nat * nat), map (fun '(r, i) => (r, i, nth i (bwt_of t sa) 0, cpred (length t) (nth i sa 0))) l =
    map (fun q => (fst q, snd q, nth (snd q) (bwt_of t sa) 0, cpred (length t) (nth (snd q) sa 0))) l).
  { intros l. apply map_ext. intros [r i]. reflexivity. }
  rewrite !X. split; [exact E2|exact E3].
Qed.
Print Assumptions C56_compute_bwt.

Example C56_example :
  compute_bwt 7 (nth_error ex_sa) (nth_error (terminated ex_w)) = Some
   ([EvSymbol 0 97; EvFirst 0 0 97 5; EvSymbol 1 110; EvLast 0 0 97 5; EvFirst 1 1 110 4; EvSymbol 2 110;
     EvSymbol 3 98; EvLast 1 2 110 2; EvFirst 2 3 98 0; EvSymbol 4 0; EvLast 2 3 98 0; EvFirst 3 4 0 6;
     EvSymbol 5 97; EvLast 3 4 0 6; EvFirst 4 5 97 3; EvSymbol 6 97; EvLast 4 6 97 1], 5) /\
  length ex_sa = length (terminated ex_w) /\ (forall a, In a ex_sa -> a < length (terminated ex_w)).
Proof. split; [vm_compute; reflexivity|]. split; [reflexivity|]. intros a H. cbn in *. lia. Qed.
