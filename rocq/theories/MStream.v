(** Model of serialize and load of the parts of the library that stand alone (sparse_sd_vector, huff_string, rle_string,
    PsiCoreBV), and of the numbers of bytes that all serialize members return.

    A stream is a list of chunks, one for every primitive written (see MStore.v), with the number of bytes that the write
    of the primitive reports; the sizes of the structures of SDSL in a file are an argument. *)
From Coq Require Import List Arith Bool String.
From Verif Require Import MBase MRle MConstruct MRIndex MPsi MOldRle MStore.
Import ListNotations.

Definition chunk := (nat * token)%type.
(** What a serialize member returns, and what it writes *)
Definition written := (nat * list chunk)%type.
(** size_type written_bytes = 0 *)
Definition wnil : written := (0, []).
(** written_bytes += ... *)
Definition wadd (a b : written) : written := (fst a + fst b, snd a ++ snd b).
(** sdsl::write_member and out.write of k bytes *)
Definition put (k : nat) (t : token) : written := (k, [(k, t)]).

Section Sizes.
(** Bytes of the structures of SDSL *)
Variable bytes : token -> nat.
Definition put_sdsl (t : token) : written := put (bytes t) t.
(** sdsl::serialize of a std::vector: its size (uint64_t), then its elements *)
Definition put_vector {A} (f : A -> written) (l : list A) : written :=
  fold_left (fun w a => wadd w (f a)) l (put 8 (TkNum (List.length l))).
Definition put_sup (s : sup) (dir : list bool) : written :=
  match sup_class s with BvSd => wnil | BvPlain => put_sdsl (TkDir s dir) end.

(** ** sparse_sd_vector.hpp:195-209 serialize *)
Definition sd_write (v : sdv) : written :=
  let w := put 8 (TkNum (sd_u v)) in
  if sd_u v =? 0 then w else wadd w (put_sdsl (TkBv BvSd (sd_bits v))).
(** huff_string.hpp:72-76 *)
Definition huff_write (wt : list nat) : written := put_sdsl (TkWt wt).
(** rle_string.hpp:419-440.  [None]: runs_per_letter has fewer than 256 elements *)
Definition old_write (s : oldrle) : option written :=
  let w := wadd (wadd (put 8 (TkNum (or_n s))) (put 8 (TkNum (or_r s)))) (put 8 (TkNum (or_b s))) in
  if or_n s =? 0 then Some w
  else
    let w := wadd w (sd_write (or_runs s)) in
    l <- mmap (nth_error (or_rpl s)) (seq 0 256) ;;
    Some (wadd (fold_left (fun w v => wadd w (sd_write v)) l w) (huff_write (or_heads s))).

(** ** PsiCoreBV: psi.h:706-714.  A support has a directory and the number of the vector that it refers to, if any. *)
Record psi_bvo := mk_psi_bvo {
  po_n : nat; po_first : nat; po_partial : list (list bool);
  po_rank : list (list bool * option nat); po_select : list (list bool * option nat)
}.
(** psi.h:622-648: the constructor, from the vectors that it makes ([pv_construct]) *)
Definition bvo_of (s : psi_bv) : psi_bvo :=
  let sups := map (fun '(i, b) => (b, Some i)) (combine (seq 0 (List.length (pv_partial s))) (pv_partial s)) in
  mk_psi_bvo (pv_n s) (pv_first s) (pv_partial s) sups sups.
(** psi.h:675-689 *)
Definition bvo_write (c : bvclass) (o : psi_bvo) : written :=
  let w := wadd (put 8 (TkNum (po_n o))) (put 1 (TkNum (po_first o))) in
  let w := wadd w (put_vector (fun b => put_sdsl (TkBv c b)) (po_partial o)) in
  let w := wadd w (put_vector (fun s => put_sup (SupRank c true) (fst s)) (po_rank o)) in
  wadd w (put_vector (fun s => put_sup (SupSelect c) (fst s)) (po_select o)).

(** ** The items of the index classes *)
(** sdsl byte_alphabet; the table comp2char is written with char2comp (see MStore.v) *)
Definition alpha_write (a : alphabet) : written :=
  wadd (wadd (put_sdsl (TkInts (al_char2comp a))) (put_sdsl (TkInts (al_C a)))) (put 2 (TkNum (al_sigma a))).
(** rle_string.hpp:1041-1051 BitVector, 877-892 RLEString *)
Definition rbv_write (b : list bool) : written :=
  wadd (wadd (put_sdsl (TkBv BvSd b)) (put_sup (SupRank BvSd true) b)) (put_sup (SupSelect BvSd) b).
Definition rle_write (s : rlestr) : written :=
  let w := wadd (put 8 (TkNum (rl_r s))) (put 8 (TkNum (rl_b s))) in
  let w := wadd w (put_sdsl (TkWt (rl_heads s))) in
  let w := wadd w (rbv_write (rl_runs s)) in
  wadd w (put_vector rbv_write (rl_rps s)).
(** enc_vector.hpp:345-355 *)
Definition encv_write (e : encv) : written :=
  wadd (wadd (put 8 (TkNum (ev_size e))) (put_sdsl (TkBv BvPlain (ev_z e)))) (put_sdsl (TkInts (ev_sp e))).
(** io.h:18-24: a pair *)
Definition pair_write {A B} (f : A -> written) (g : B -> written) (p : A * B) : written := wadd (f (fst p)) (g (snd p)).
(** The same with the right operand of + first, as a compiler may do: C++ leaves the order of the operands open.  Everywhere else
    in the model the left one is first. *)
Definition pair_write_right {A B} (f : A -> written) (g : B -> written) (p : A * B) : written :=
  (fst (f (fst p)) + fst (g (snd p)), snd (g (snd p)) ++ snd (f (fst p))).
(** psi.h:448-461 PsiCoreRLE *)
Definition psi_write_right (p : psi_core) : written :=
  let w := wadd (put 8 (TkNum (pc_n p))) (put 1 (TkNum (pc_first p))) in
  wadd w (put_vector (pair_write_right encv_write (fun l => put_sdsl (TkInts l))) (pc_partial p)).
Definition psi_write (p : psi_core) : written :=
  let w := wadd (put 8 (TkNum (pc_n p))) (put 1 (TkNum (pc_first p))) in
  wadd w (put_vector (pair_write encv_write (fun l => put_sdsl (TkInts l))) (pc_partial p)).
Definition item_write (it : item) : written :=
  match it with
  | ItAlpha a => alpha_write a
  | ItRle s => rle_write s
  | ItPsi p => psi_write p
  | ItInts l => put_sdsl (TkInts l)
  | ItBv c b => put_sdsl (TkBv c b)
  | ItSup s d => put_sup s d
  end.
(** index_base.h:165-175 serializeItem; serialize_empty_object writes nothing and returns 0.  178-191: the supports *)
Definition item_of (o : obj) (t : ty) (key : string) : written :=
  match st_get (ob_store o) t key with Some e => item_write (en_item e) | None => wnil end.
Definition sup_of (o : obj) (s : sup) (key : string) : written := item_of o (TySup s) (key ++ sup_suffix s).

(** ** The index classes *)
Section Class.
Variables (tm : tmpl) (kd : kind) (o : obj).
Let key (k : skey) : string := realize (ob_prefix o) k.
(** r_index.h:50-69, r_csa.h:52-71, 412-431 *)
Definition base_write : written :=
  let w := item_of o TyAlpha (key k_alpha) in
  let w := wadd w (item_of o (nav_ty tm kd) (key (k_nav kd))) in
  let w := wadd w (item_of o TyInts (key (k_samples kd))) in
  let w := wadd w (item_of o (TyBv (t_marks tm)) (key (k_marks kd))) in
  let w := wadd w (sup_of o (SupRank (t_marks tm) true) (key (k_marks kd))) in
  let w := wadd w (sup_of o (SupSelect (t_marks tm)) (key (k_marks kd))) in
  wadd w (item_of o TyInts (key (k_links kd))).
(** r_csa.h:278-289 CSARaw *)
Definition raw_write : written :=
  wadd (wadd (item_of o TyAlpha (key k_alpha)) (item_of o (nav_ty tm kd) (key (k_nav kd)))) (item_of o TyInts (key k_sa)).
(** sr_index.h:53-55, sr_csa.h:51-60 SrCSABase *)
Definition rate_write : written := wadd (put 8 (TkNum (ob_rate o))) base_write.
(** sr_index.h:49-63 SrIndex, after Base::serialize *)
Definition idx_write (w : written) : written :=
  wadd (wadd w (item_of o (TyBv (t_idx tm)) (key (k_idx kd)))) (sup_of o (SupRank (t_idx tm) true) (key (k_idx kd))).
(** sr_csa.h:181-197 SrCSASlim, sr_csa_psi.h:47-63 SrCSAWithPsiRun *)
Definition cum_write (w : written) : written := wadd (idx_write w) (item_of o TyInts (key (k_cum kd))).
(** sr_csa.h:399-412 SrCSA *)
Definition sel_write (w : written) : written := wadd (idx_write w) (sup_of o (SupSelect (t_idx tm)) (key (k_idx kd))).
(** sr_index.h:272-280, sr_csa.h:579-588, sr_csa_psi.h:319-327 *)
Definition marks_write (w : written) : written := wadd w (item_of o (TyBv (t_valid tm)) (key (k_valid kd))).
(** sr_index.h:375-386, sr_csa.h:680-691, sr_csa_psi.h:406-420, after Base::serialize of the class with marks *)
Definition areas_write (w : written) : written :=
  wadd (wadd w (sup_of o (SupRank (t_valid tm) false) (key (k_valid kd)))) (item_of o TyInts (key (k_areas kd))).
(** serialize *)
Definition class_write : written :=
  match kd with
  | KRIndex | KRCSA | KRCSAPsi => base_write
  | KCSARaw => raw_write
  | KSrIndex => idx_write rate_write
  | KSrIndexVM => marks_write (idx_write rate_write)
  | KSrIndexVA => areas_write (marks_write (idx_write rate_write))
  | KSrCSA => sel_write rate_write
  | KSrCSAVM => marks_write (sel_write rate_write)
  | KSrCSAVA => areas_write (marks_write (sel_write rate_write))
  | KSlim => cum_write rate_write
  | KSlimVM => marks_write (cum_write rate_write)
  | KSlimVA => areas_write (marks_write (cum_write rate_write))
  | KSrPsi => cum_write base_write
  | KSrPsiVM => marks_write (cum_write base_write)
  | KSrPsiVA => areas_write (marks_write (cum_write base_write))
  end.
End Class.
(** sdsl::size_in_bytes: what serialize returns; the factories keep it (benchmark/sr-csa/factory.h:67-170,
    benchmark/sr-index/factory.h:57-90) *)
Definition size_in_bytes (tm : tmpl) (kd : kind) (o : obj) : nat := fst (class_write tm kd o).
End Sizes.

(** ** load *)
(** sparse_sd_vector.hpp:214-224: into the object [v] *)
Definition sd_read (v : sdv) : rd sdv := fun i =>
  '(u, i) <- rd_num i ;;
  if u =? 0 then Some (mk_sdv 0 (sd_bits v), i)
  else '(b, i) <- rd_bv BvSd i ;; Some (mk_sdv u b, i).
(** huff_string.hpp:81-85 *)
Definition huff_read : rd (list nat) := rd_wt.
(** rle_string.hpp:445-462: into the object [s] *)
Definition old_read (s : oldrle) : rd oldrle := fun i =>
  '(n, i) <- rd_num i ;;
  '(r, i) <- rd_num i ;;
  '(b, i) <- rd_num i ;;
  if n =? 0 then Some (mk_oldrle b (or_runs s) (or_rpl s) (or_heads s) n r, i)
  else
    '(runs, i) <- sd_read (or_runs s) i ;;
    '(rpl, i) <- rd_many (sd_read sd_empty) 256 i ;;
    '(heads, i) <- huff_read i ;;
    Some (mk_oldrle b runs rpl heads n r, i).
(** sdsl::load of a std::vector *)
Definition rd_vector {A} (f : rd A) : rd (list A) := fun i => '(k, i) <- rd_num i ;; rd_many f k i.
(** psi.h:692-704; set_vector is called for every vector.  [None]: there are fewer supports than vectors *)
Definition set_vectors (sups : list (list bool)) (k : nat) : option (list (list bool * option nat)) :=
  _ <- guard (k <=? List.length sups) ;;
  Some (map (fun '(i, d) => (d, if i <? k then Some i else None)) (combine (seq 0 (List.length sups)) sups)).
Definition bvo_read (c : bvclass) : rd psi_bvo := fun i =>
  '(n, i) <- rd_num i ;;
  '(first, i) <- rd_num i ;;
  '(partial, i) <- rd_vector (rd_bv c) i ;;
  '(rank, i) <- rd_vector (rd_sup (SupRank c true)) i ;;
  '(select, i) <- rd_vector (rd_sup (SupSelect c)) i ;;
  rank <- set_vectors rank (List.length partial) ;;
  select <- set_vectors select (List.length partial) ;;
  Some (mk_psi_bvo n first partial rank select, i).
(** psi.h:656, 662, 668.  A support is usable if it refers to a vector and its directory, if it has one, is of this
    vector. *)
Definition bvo_support (c : bvclass) (o : psi_bvo) (s : list bool * option nat) : option (list bool) :=
  p <- snd s ;;
  b <- nth_error (po_partial o) p ;;
  match c with
  | BvSd => Some b
  | BvPlain => if list_eq_dec bool_dec (fst s) b then Some b else None
  end.
Definition bvo_select (c : bvclass) (o : psi_bvo) (x rnk : nat) : option nat :=
  s <- nth_error (po_select o) x ;; b <- bvo_support c o s ;; bv_select b rnk.
Definition bvo_rank (c : bvclass) (o : psi_bvo) (x i : nat) : option nat :=
  s <- nth_error (po_rank o) x ;; b <- bvo_support c o s ;; bv_rank b i.
Definition bvo_exist (o : psi_bvo) (x i : nat) : option bool :=
  b <- nth_error (po_partial o) x ;; nth_error b i.
