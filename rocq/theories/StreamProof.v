(** serialize and load: what is written, and how it is read back. *)
From Coq Require Import List Arith Bool String Lia.
From Verif Require Import MBase MRle MConstruct MRIndex MPsi MOldRle MStore Util StoreProof MStream SpecStream.
Import ListNotations.

Lemma stream_put k t : stream_of (put k t) = [t].
Proof. reflexivity. Qed.
Lemma stream_add a b : stream_of (wadd a b) = stream_of a ++ stream_of b.
Proof. apply map_app. Qed.
Definition honest (w : written) : Prop := fst w = bytes_in w.
Lemma honest_nil : honest wnil.
Proof. reflexivity. Qed.
Lemma honest_put k t : honest (put k t).
Proof. unfold honest, bytes_in. cbn. lia. Qed.
Lemma honest_add a b : honest a -> honest b -> honest (wadd a b).
Proof. unfold honest, bytes_in, wadd. cbn [fst snd]. rewrite map_app, list_sum_app. intros H1 H2. rewrite H1, H2. reflexivity. Qed.
Lemma honest_fold {A} (f : A -> written) l : (forall a, honest (f a)) -> forall w, honest w -> honest (fold_left (fun w a => wadd w (f a)) l w).
Proof. intros H. induction l as [|a l IH]; intros w W; [exact W|]. cbn. apply IH. now apply honest_add. Qed.
Lemma stream_fold {A} (f : A -> written) l : forall w, stream_of (fold_left (fun w a => wadd w (f a)) l w) = stream_of w ++ flat_map (fun a => stream_of (f a)) l.
Proof. induction l as [|a l IH]; intros w; cbn; [now rewrite app_nil_r|]. rewrite IH, stream_add, <- app_assoc. reflexivity. Qed.
Lemma honest_vector {A} (f : A -> written) l : (forall a, honest (f a)) -> honest (put_vector f l).
Proof. intros H. apply honest_fold; [exact H|apply honest_put]. Qed.
Lemma stream_vector {A} (f : A -> written) l : stream_of (put_vector f l) = TkNum (List.length l) :: flat_map (fun a => stream_of (f a)) l.
Proof. unfold put_vector. rewrite stream_fold. reflexivity. Qed.

Section Bytes.
Variable bytes : token -> nat.
Ltac honest := repeat first [apply honest_add | apply honest_put | apply honest_nil | assumption].
Lemma honest_sdsl t : honest (put_sdsl bytes t).
Proof. apply honest_put. Qed.
Lemma honest_sup s d : honest (put_sup bytes s d).
Proof. unfold put_sup. destruct (sup_class s); honest. Qed.
Lemma stream_sup s d : stream_of (put_sup bytes s d) = sup_tokens s d.
Proof. unfold put_sup, sup_tokens. destruct (sup_class s); reflexivity. Qed.
Lemma honest_sd v : honest (sd_write bytes v).
Proof. unfold sd_write. destruct (sd_u v =? 0); honest. Qed.
Lemma honest_old s w : old_write bytes s = Some w -> honest w.
Proof.
  unfold old_write. destruct (or_n s =? 0); intros H; [injection H as <-; honest|]. apply bind_Some in H as (l & _ & H). injection H as <-.
  apply honest_add; [|apply honest_put]. apply honest_fold; [intros v; apply honest_sd|]. honest. apply honest_sd.
Qed.
Lemma honest_bvo c o : honest (bvo_write bytes c o).
Proof. unfold bvo_write. repeat apply honest_add; try apply honest_put; apply honest_vector; intros a; first [apply honest_sdsl|apply honest_sup]. Qed.
Lemma honest_rbv b : honest (rbv_write bytes b).
Proof. unfold rbv_write. honest; apply honest_sup. Qed.
Lemma honest_encv e : honest (encv_write bytes e).
Proof. unfold encv_write. honest. Qed.
Lemma honest_item it : honest (item_write bytes it).
Proof.
  destruct it as [a|s|p|l|c b|s d]; cbn [item_write]; try apply honest_sdsl; try apply honest_sup.
  - unfold alpha_write. honest.
  - unfold rle_write. repeat apply honest_add; first [apply honest_put|apply honest_sup|apply honest_vector, honest_rbv].
  - unfold psi_write. repeat apply honest_add; try apply honest_put. apply honest_vector. intros q. unfold pair_write. apply honest_add; [apply honest_encv|apply honest_put].
Qed.
Lemma stream_item it : stream_of (item_write bytes it) = item_tokens it.
Proof.
  assert (RB : forall b, stream_of (rbv_write bytes b) = [TkBv BvSd b]) by reflexivity.
  destruct it as [a|s|p|l|c b|s d]; cbn [item_write item_tokens]; try reflexivity.
  - unfold rle_write, rle_tokens. rewrite !stream_add, stream_vector, RB. cbn [stream_of put put_sdsl snd map app]. do 5 f_equal.

  - unfold psi_write, psi_tokens. rewrite !stream_add, stream_vector. cbn [stream_of put snd map app]. reflexivity.
  - apply stream_sup.
Qed.
Lemma honest_item_of o t k : honest (item_of bytes o t k).
Proof. unfold item_of. destruct (st_get (ob_store o) t k); [apply honest_item|apply honest_nil]. Qed.
Lemma honest_class tm kd o : honest (class_write bytes tm kd o).
Proof.
  destruct kd; cbn [class_write]; unfold areas_write, marks_write, sel_write, cum_write, idx_write, rate_write, base_write, raw_write, sup_of;
    repeat apply honest_add; first [apply honest_item_of|apply honest_put].
Qed.
Lemma stream_class tm kd o : stream_of (class_write bytes tm kd o) = save tm kd o.
Proof.
  assert (WI : forall t k, stream_of (item_of bytes o t (realize (ob_prefix o) k)) = write (ob_prefix o) (ob_store o) (WItem t k)).
  { intros t k. unfold item_of, write. destruct (st_get (ob_store o) t (realize (ob_prefix o) k)); [apply stream_item|reflexivity]. }
  assert (WS : forall s k, stream_of (sup_of bytes o s (realize (ob_prefix o) k)) = write (ob_prefix o) (ob_store o) (WSup s k)).
  { intros s k. unfold sup_of, item_of, write. destruct (st_get (ob_store o) (TySup s) (realize (ob_prefix o) k ++ sup_suffix s)); [apply stream_item|reflexivity]. }
  destruct kd; cbn [class_write]; unfold areas_write, marks_write, sel_write, cum_write, idx_write, rate_write, base_write, raw_write;
    rewrite !stream_add, !WI, ?WS, ?stream_put; unfold save, save_all; cbn [writes_rate has_idx has_idx_select has_cum has_valid has_areas is_psi_run negb andb app flat_map];
    rewrite ?app_nil_r, <- ?app_assoc; reflexivity.
Qed.

(** * Reading back *)
Lemma sd_read_back v t rest : sized v -> sd_u v <> 0 \/ sd_bits t = [] -> sd_read t (stream_of (sd_write bytes v) ++ rest) = Some (v, rest).
Proof.
  intros S H. unfold sd_write, sd_read. destruct (sd_u v =? 0) eqn:Z.
  - apply Nat.eqb_eq in Z. destruct H as [H|H]; [contradiction|]. cbn [stream_of put snd map app rd_num bind]. rewrite Z. cbn [Nat.eqb]. rewrite H.
    destruct v as [u bits]. unfold sized in S. cbn in *. subst u. destruct bits; [reflexivity|discriminate].
  - rewrite stream_add. cbn [stream_of put put_sdsl snd map app rd_num bind]. rewrite Z. cbn [rd_bv bvclass_eqb bind]. destruct v; reflexivity.
Qed.
Lemma old_read_back s : or_n s <> 0 -> sized (or_runs s) -> sd_u (or_runs s) <> 0 -> Forall sized (or_rpl s) -> List.length (or_rpl s) = 256 ->
  exists w, old_write bytes s = Some w /\ forall t rest, old_read t (stream_of w ++ rest) = Some (s, rest).
Proof.
  intros HN SR NR SP LP. unfold old_write. destruct (or_n s =? 0) eqn:Z; [apply Nat.eqb_eq in Z; contradiction|].
  assert (M : forall (l : list sdv), mmap (nth_error l) (seq 0 (List.length l)) = Some l).
  { intros l. assert (G : forall a b, a ++ b = l -> mmap (nth_error l) (seq (List.length a) (List.length b)) = Some b).
    { intros a b. revert a. induction b as [|x b IH]; intros a E; [reflexivity|]. cbn [List.length seq mmap].
      rewrite <- E, nth_error_app2, Nat.sub_diag by lia. cbn [nth_error bind]. specialize (IH (a ++ [x])). rewrite <- app_assoc in IH. specialize (IH E).
      rewrite app_length in IH. cbn in IH. rewrite Nat.add_1_r in IH. rewrite E. rewrite IH. reflexivity. }
    apply (G [] l eq_refl). }
  replace (seq 0 256) with (seq 0 (List.length (or_rpl s))) by (rewrite LP; reflexivity). rewrite M. cbn [bind]. eexists. split; [reflexivity|]. intros t rest.
  rewrite stream_add, stream_fold, !stream_add, !stream_put. unfold old_read. cbn [app rd_num bind]. rewrite Z. rewrite <- !app_assoc.
  rewrite (sd_read_back (or_runs s) (or_runs t) _ SR (or_introl NR)). cbn [bind].
  assert (RM : forall l rest, Forall sized l -> rd_many (sd_read sd_empty) (List.length l) (flat_map (fun a => stream_of (sd_write bytes a)) l ++ rest) = Some (l, rest)).
  { induction l as [|v l IH]; intros r F; [reflexivity|]. inversion F as [|? ? Sv Fl]; subst. cbn [List.length rd_many flat_map]. rewrite <- app_assoc, sd_read_back by auto. cbn [bind].
    rewrite IH by exact Fl. reflexivity. }
  pose proof (RM (or_rpl s) (stream_of (huff_write bytes (or_heads s)) ++ rest) SP) as RB. rewrite LP in RB. rewrite RB. cbn [bind]. unfold huff_write, put_sdsl. rewrite stream_put. cbn [app huff_read rd_wt bind]. destruct s; reflexivity.
Qed.
Lemma assign_sized v : sized (sd_assign v).
Proof. reflexivity. Qed.
Lemma old_construct_parts b l s : old_construct b l = Some s ->
  or_n s <> 0 /\ sized (or_runs s) /\ sd_u (or_runs s) <> 0 /\ Forall sized (or_rpl s) /\ List.length (or_rpl s) = 256.
Proof.
  destruct l as [|x l]; [discriminate|]. unfold old_construct. intros H. repeat (apply bind_Some in H as (? & ? & H)). apply (f_equal (fun o => match o with Some v => v | None => s end)) in H. cbn iota beta in H. subst s.
  cbn [or_n or_runs or_rpl]. split; [discriminate|]. split; [apply assign_sized|]. split.
  - unfold sd_assign. cbn [sd_u]. unfold sd_of_bools. rewrite app_length. cbn [List.length]. rewrite Nat.add_1_r. cbn [Nat.eqb sd_bits]. rewrite app_length. cbn. lia.
  - split; [|rewrite map_length, seq_length; reflexivity]. apply Forall_forall. intros v I. apply in_map_iff in I as (? & <- & _). apply assign_sized.
Qed.

(** PsiCoreBV *)
Definition norm_dir (c : bvclass) (d : list bool) : list bool := match c with BvSd => [] | BvPlain => d end.
Lemma rd_sup_back s d rest : rd_sup s (stream_of (put_sup bytes s d) ++ rest) = Some (norm_dir (sup_class s) d, rest).
Proof. rewrite stream_sup. unfold rd_sup, sup_tokens, norm_dir. destruct s as [c x|c]; cbn [sup_class]; destruct c; cbn [app]; try reflexivity; destruct x; reflexivity. Qed.
Lemma rd_many_norm {A} (f : rd A) (tok : A -> list token) (g : A -> A) l rest :
  (forall a rest, f (tok a ++ rest) = Some (g a, rest)) -> rd_many f (List.length l) (flat_map tok l ++ rest) = Some (map g l, rest).
Proof.
  intros Hf. induction l as [|a l IH]; cbn [List.length flat_map]; [reflexivity|].
  rewrite <- app_assoc. cbn [rd_many]. rewrite Hf. cbn [bind]. rewrite IH. reflexivity.
Qed.
Lemma rd_many_map {A B} (f : rd A) (tok : B -> list token) (g : B -> A) l rest :
  (forall a rest, f (tok a ++ rest) = Some (g a, rest)) -> rd_many f (List.length l) (flat_map tok l ++ rest) = Some (map g l, rest).
Proof.
  intros Hf. induction l as [|a l IH]; cbn [List.length flat_map]; [reflexivity|].
  rewrite <- app_assoc. cbn [rd_many]. rewrite Hf. cbn [bind]. rewrite IH. reflexivity.
Qed.
Lemma rd_vector_back {A B} (f : rd A) (wr : B -> written) (g : B -> A) l rest :
  (forall a rest, f (stream_of (wr a) ++ rest) = Some (g a, rest)) -> rd_vector f (stream_of (put_vector wr l) ++ rest) = Some (map g l, rest).
Proof. intros H. rewrite stream_vector. unfold rd_vector. cbn [app rd_num bind]. now apply (rd_many_map f (fun b => stream_of (wr b))). Qed.
Lemma bvo_read_back c o rest : List.length (po_rank o) = List.length (po_partial o) -> List.length (po_select o) = List.length (po_partial o) ->
  bvo_read c (stream_of (bvo_write bytes c o) ++ rest) =
    Some (mk_psi_bvo (po_n o) (po_first o) (po_partial o)
            (map (fun '(i, s) => (norm_dir c (fst s), Some i)) (combine (seq 0 (List.length (po_partial o))) (po_rank o)))
            (map (fun '(i, s) => (norm_dir c (fst s), Some i)) (combine (seq 0 (List.length (po_partial o))) (po_select o))), rest).
Proof.
  intros LR LS. unfold bvo_write. rewrite !stream_add, !stream_put, <- !app_assoc. unfold bvo_read. cbn [app rd_num bind].
  rewrite (rd_vector_back (rd_bv c) (fun b => put_sdsl bytes (TkBv c b)) (fun b => b)).
  2:{ intros a r. cbn. destruct c; reflexivity. }
  cbn [bind]. rewrite map_id.
  rewrite (rd_vector_back (rd_sup (SupRank c true)) _ (fun s : list bool * option nat => norm_dir c (fst s))) by (intros a r; apply (rd_sup_back (SupRank c true))). cbn [bind].
  rewrite (rd_vector_back (rd_sup (SupSelect c)) _ (fun s : list bool * option nat => norm_dir c (fst s))) by (intros a r; apply (rd_sup_back (SupSelect c))). cbn [bind].
  assert (SV : forall (l : list (list bool * option nat)) k, List.length l = k -> set_vectors (map (fun s => norm_dir c (fst s)) l) k =
    Some (map (fun '(i, s) => (norm_dir c (fst s), Some i)) (combine (seq 0 k) l))).
  { intros l k <-. unfold set_vectors. rewrite map_length, Nat.leb_refl. cbn [guard bind]. f_equal.
    assert (G : forall (l : list (list bool * option nat)) a k, a + List.length l <= k -> map (fun '(i, d) => (d, if i <? k then Some i else None))
      (combine (seq a (List.length l)) (map (fun s => norm_dir c (fst s)) l)) = map (fun '(i, s) => (norm_dir c (fst s), Some i)) (combine (seq a (List.length l)) l)).
    { clear. induction l as [|x l IH]; intros a k H; [reflexivity|]. cbn [List.length seq map combine] in *. rewrite (proj2 (Nat.ltb_lt a k)) by lia. f_equal. apply IH. lia. }
    apply G. lia. }
  rewrite (SV _ _ LR), (SV _ _ LS). cbn [bind]. reflexivity.
Qed.
End Bytes.
Lemma sups_length s : List.length (po_rank (bvo_of s)) = List.length (pv_partial s).
Proof. unfold bvo_of. cbn [po_rank]. rewrite map_length, combine_length, seq_length. lia. Qed.
Lemma nth_sups {A B} (g : nat * A -> B) (l : list A) : forall x a, nth_error (map g (combine (seq a (List.length l)) l)) x = option_map (fun e => g (a + x, e)) (nth_error l x).
Proof.
  induction l as [|e l IH]; intros [|x] a; cbn; try reflexivity; [now rewrite Nat.add_0_r|]. rewrite IH. destruct (nth_error l x); cbn; [|reflexivity].
  do 3 f_equal. lia.
Qed.
(** What an object answers whose supports refer to their own vectors. *)
Lemma bvo_answers c o s : po_n o = pv_n s -> po_first o = pv_first s -> po_partial o = pv_partial s ->
  (forall x, nth_error (po_rank o) x = option_map (fun b => (norm_dir c b, Some x)) (nth_error (pv_partial s) x)) ->
  (forall x, nth_error (po_select o) x = option_map (fun b => (norm_dir c b, Some x)) (nth_error (pv_partial s) x)) ->
  forall x i, bvo_select c o x i = pv_select s x i /\ bvo_rank c o x i = pv_rank s x i /\ bvo_exist o x i = pv_exist s x i.
Proof.
  intros EN EF EP ER ES x i. unfold bvo_select, bvo_rank, bvo_exist, pv_select, pv_rank, pv_exist. rewrite ER, ES, EP.
  destruct (nth_error (pv_partial s) x) as [b|] eqn:E; [|auto]. cbn [option_map bind].
  unfold bvo_support. cbn [snd bind fst]. rewrite EP, E. cbn [bind]. destruct c; cbn [norm_dir]; [auto|]. destruct (list_eq_dec bool_dec b b); [auto|contradiction].
Qed.
