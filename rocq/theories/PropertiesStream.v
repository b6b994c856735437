(** C82: what serialize writes can be loaded again, by the parts of the library that stand alone.  C83: serialize returns
    the number of bytes that it writes, so the sizes in the reports of the benchmarks are those of the indexes. *)
From Coq Require Import List Arith Bool String Lia.
From Verif Require Import MBase MRle MConstruct MRIndex MPsi MOldRle MStore Util PsiSpec StoreProof MStream SpecStream StreamProof PropertiesOldRle PropertiesSrCsa StoreRound PropertiesStore.
Import ListNotations.

(** ** C82.  [t]: the object that load is called for, whatever it has; [rest]: what follows in the stream *)
Theorem C82_sparse_vector : forall bytes bits, bits <> [] ->
  forall t rest, sd_read t (stream_of (sd_write bytes (sd_of_bools bits)) ++ rest) = Some (sd_of_bools bits, rest).
Proof.
  intros bytes bits N t rest. assert (E : sd_of_bools bits = mk_sdv (List.length bits) bits) by (destruct bits; [contradiction|reflexivity]). rewrite E.
  apply sd_read_back; [reflexivity|]. left. destruct bits; [contradiction|discriminate].
Qed.
Print Assumptions C82_sparse_vector.
(** An empty vector: into a new object; into another one, whose length becomes 0 *)
Theorem C82_sparse_vector_empty : forall bytes rest,
  sd_read sd_empty (stream_of (sd_write bytes (sd_of_bools [])) ++ rest) = Some (sd_of_bools [], rest) /\
  forall t, exists v, sd_read t (stream_of (sd_write bytes (sd_of_bools [])) ++ rest) = Some (v, rest) /\ sd_size v = 0.
Proof. intros bytes rest. split; [reflexivity|]. intros t. eexists. split; reflexivity. Qed.
Print Assumptions C82_sparse_vector_empty.
(** An object made from a sdsl::bit_vector has length 0 (C54), so its bits are not written; assignment would keep them. *)
Theorem C82_bit_vector_refuted : ~ forall bytes bits rest,
  exists v, sd_read sd_empty (stream_of (sd_write bytes (sd_of_bit_vector bits)) ++ rest) = Some (v, rest) /\ sd_assign v = sd_assign (sd_of_bit_vector bits).
Proof. intros H. destruct (H (fun _ => 0) [true] []) as (v & R & A). cbn in R. injection R as <-. discriminate. Qed.
Print Assumptions C82_bit_vector_refuted.
Theorem C82_huff_string : forall bytes s wt, huff_construct s = Some wt ->
  forall rest, huff_read (stream_of (huff_write bytes wt) ++ rest) = Some (wt, rest).
Proof. reflexivity. Qed.
Print Assumptions C82_huff_string.
Theorem C82_rle_string : forall bytes b l s, old_construct b l = Some s ->
  exists w, old_write bytes s = Some w /\ forall t rest, old_read t (stream_of w ++ rest) = Some (s, rest).
Proof. intros bytes b l s H. apply old_construct_parts in H as (A & B & C & D & E). now apply old_read_back. Qed.
Print Assumptions C82_rle_string.
(** rle_string of no symbols (the default constructor) *)
Definition old_new : oldrle := mk_oldrle 0 sd_empty [] [] 0 0.
Theorem C82_rle_string_empty : forall bytes, exists w, old_write bytes old_new = Some w /\
  forall t rest, exists s, old_read t (stream_of w ++ rest) = Some (s, rest) /\ old_size s = 0 /\ old_number_of_runs s = 0.
Proof. intros bytes. eexists. split; [reflexivity|]. intros t rest. eexists. repeat split; reflexivity. Qed.
Print Assumptions C82_rle_string_empty.
(** The other parts of the object keep what they had: the count of a letter is that of the string before the load. *)
Theorem C82_rle_string_empty_rank_refuted : ~ forall bytes w, old_write bytes old_new = Some w ->
  forall b l t, old_construct b l = Some t -> forall s rest, old_read t (stream_of w ++ rest) = Some (s, rest) -> forall c k, old_rank s 0 c = Some k -> k = 0.
Proof.
  intros H. assert (P : exists t, old_construct 2 [1; 1; 2] = Some t /\ old_rank (mk_oldrle 0 (or_runs t) (or_rpl t) (or_heads t) 0 0) 0 1 = Some 2).
  { eexists. split; [reflexivity|]. reflexivity. }
  destruct P as (t & C & R). specialize (H (fun _ => 0) _ eq_refl 2 [1;1;2] t C _ [] eq_refl 1 2 R). discriminate.
Qed.
Print Assumptions C82_rle_string_empty_rank_refuted.
(** PsiCoreBV, over compressed and over plain bit vectors *)
Theorem C82_psi_bv : forall bytes c b sigma pv, psi_bv_of b sigma pv ->
  forall rest, exists o, bvo_read c (stream_of (bvo_write bytes c (bvo_of pv)) ++ rest) = Some (o, rest) /\
    po_n o = pv_n pv /\ po_first o = pv_first pv /\
    forall x i, bvo_select c o x i = pv_select pv x i /\ bvo_rank c o x i = pv_rank pv x i /\ bvo_exist o x i = pv_exist pv x i.
Proof.
  intros bytes c b sigma pv _ rest. eexists. split; [apply bvo_read_back; apply sups_length|]. split; [reflexivity|]. split; [reflexivity|].
  assert (N : forall x, nth_error (map (fun '(i, s) => (norm_dir c (fst s), Some i)) (combine (seq 0 (List.length (po_partial (bvo_of pv)))) (po_rank (bvo_of pv)))) x =
              option_map (fun b => (norm_dir c b, Some x)) (nth_error (pv_partial pv) x)).
  { intros x. replace (List.length (po_partial (bvo_of pv))) with (List.length (po_rank (bvo_of pv))) by (rewrite sups_length; reflexivity). rewrite nth_sups.
    unfold bvo_of. cbn [po_rank]. rewrite nth_sups. destruct (nth_error (pv_partial pv) x); reflexivity. }
  intros x i. apply (bvo_answers c); try reflexivity; exact N.
Qed.
Print Assumptions C82_psi_bv.
(** Before it is written the object answers the same. *)
Theorem C82_psi_bv_written : forall c b sigma pv, psi_bv_of b sigma pv ->
  forall x i, bvo_select c (bvo_of pv) x i = pv_select pv x i /\ bvo_rank c (bvo_of pv) x i = pv_rank pv x i /\ bvo_exist (bvo_of pv) x i = pv_exist pv x i.
Proof.
  intros c b sigma pv _ x i. unfold bvo_select, bvo_rank, bvo_exist, pv_select, pv_rank, pv_exist, bvo_of, bvo_support. cbn [po_select po_rank po_partial]. rewrite nth_sups.
  destruct (nth_error (pv_partial pv) x) as [v|] eqn:E; [|auto]. cbn [option_map bind snd fst Nat.add]. rewrite E. cbn [bind].
  destruct c; [auto|]. destruct (list_eq_dec bool_dec v v); [auto|contradiction].
Qed.
Print Assumptions C82_psi_bv_written.
(** RLEString, PsiCoreRLE and enc_vector *)
Theorem C82_rle_and_psi : forall bytes rest,
  (forall s, rd_rle (stream_of (rle_write bytes s) ++ rest) = Some (s, rest)) /\
  (forall p, rd_psi (pc_dens p) (stream_of (psi_write bytes p) ++ rest) = Some (p, rest)) /\
  (forall e, rd_encv (stream_of (encv_write bytes e) ++ rest) = Some (e, rest)).
Proof.
  intros bytes rest. split; [|split].
  - intros s. pose proof (stream_item bytes (ItRle s)) as E. cbn [item_write] in E. rewrite E. apply rd_rle_tokens.
  - intros p. pose proof (stream_item bytes (ItPsi p)) as E. cbn [item_write] in E. rewrite E. apply rd_psi_tokens.
  - intros e. apply rd_encv_tokens.
Qed.
Print Assumptions C82_rle_and_psi.
(** The order in which a pair is written is left to the compiler.  With the right operand first no PsiCoreRLE can be read back. *)
Theorem C82_pair_order_refuted : forall bytes p rest, pc_partial p <> [] ->
  rd_psi (pc_dens p) (stream_of (psi_write_right bytes p) ++ rest) = None.
Proof.
  intros bytes p rest N. unfold psi_write_right. rewrite stream_add, stream_vector. destruct (pc_partial p) as [|[e l] ps]; [congruence|]. reflexivity.
Qed.
Print Assumptions C82_pair_order_refuted.
Example C82_pair_order_met : exists p q rest, pc_partial p <> [] /\ rd_psi (pc_dens p) (stream_of (psi_write (fun _ => 1) p) ++ rest) = Some (q, rest).
Proof. exists (mk_psi_core 2 1 0 [(mk_encv [true] [0] 1, [1])]). exists (mk_psi_core 2 1 0 [(mk_encv [true] [0] 1, [1])]), []. split; [discriminate|reflexivity]. Qed.

(** ** C83.  [bytes]: the sizes of the structures of SDSL in a file, whatever they are *)
Theorem C83_parts : forall bytes,
  (forall v, fst (sd_write bytes v) = bytes_in (sd_write bytes v)) /\
  (forall wt, fst (huff_write bytes wt) = bytes_in (huff_write bytes wt)) /\
  (forall s w, old_write bytes s = Some w -> fst w = bytes_in w) /\
  (forall c o, fst (bvo_write bytes c o) = bytes_in (bvo_write bytes c o)) /\
  (forall s, fst (rle_write bytes s) = bytes_in (rle_write bytes s)) /\
  (forall p, fst (psi_write bytes p) = bytes_in (psi_write bytes p)) /\
  (forall e, fst (encv_write bytes e) = bytes_in (encv_write bytes e)).
Proof.
  intros bytes. repeat split.
  - apply honest_sd.
  - intros wt. apply honest_put.
  - apply honest_old.
  - apply honest_bvo.
  - intros s. apply (honest_item bytes (ItRle s)).
  - intros p. apply (honest_item bytes (ItPsi p)).
  - apply honest_encv.
Qed.
Print Assumptions C83_parts.
(** Every class of index, every state of an object: loaded or not, with storage of its own or shared *)
Theorem C83_index : forall bytes tm kd o,
  let w := class_write bytes tm kd o in fst w = bytes_in w /\ stream_of w = save tm kd o /\ size_in_bytes bytes tm kd o = bytes_in w.
Proof. intros bytes tm kd o w. pose proof (honest_class bytes tm kd o). split; [exact H|]. split; [apply stream_class|exact H]. Qed.
Print Assumptions C83_index.
(** ** Examples *)
Definition sz (t : token) : nat := match t with TkNum _ => 8 | TkInts l => 9 + 8 * List.length l | TkBv _ b => 40 + List.length b | TkWt l => 100 + List.length l | TkDir _ d => 8 + List.length d end.
Example ex_sd_stream : sd_write sz (sd_of_bools ex_bits) = (55, [(8, TkNum 7); (47, TkBv BvSd ex_bits)]).
Proof. reflexivity. Qed.
Example ex_old_stream : exists s w, old_construct 2 [3; 3; 1; 2; 2; 2; 3] = Some s /\ old_write sz s = Some w /\ old_access s 3 = Some 2 /\ bytes_in w = fst w /\ List.length (snd w) = 265.
Proof. eexists. eexists. split; [reflexivity|]. split; [reflexivity|]. vm_compute. repeat split. Qed.
Example ex_psi_stream : exists pv, psi_bv_of [2; 0; 1; 1; 2] 3 pv /\ exists o, bvo_read BvPlain (stream_of (bvo_write sz BvPlain (bvo_of pv)) ++ [TkNum 5]) = Some (o, [TkNum 5]) /\
  bvo_rank BvPlain o 2 4 = Some 1 /\ bvo_select BvPlain o 1 2 = Some 3 /\ bvo_exist o 0 1 = Some true.
Proof. eexists. split; [eexists; split; reflexivity|]. eexists. split; [reflexivity|]. repeat split. Qed.
(** "abracadabra", every class, rate 3: the size of the index that the cache directory has *)
Example ex_index_stream : forallb (fun kd =>
    match fs <- cache ex_sd kd 3 exf_w exf_sa ;; load_config ex_sd kd (new_rate 3 []) fs with
    | Some o => (100 <? size_in_bytes sz ex_sd kd o) && (size_in_bytes sz ex_sd kd o =? bytes_in (class_write sz ex_sd kd o)) | None => false end) kinds = true.
Proof. vm_compute. reflexivity. Qed.
