(** Model of the item storage of the index classes (index_base.h) and of their load and serialize
    members (r_index.h, sr_index.h, r_csa.h, sr_csa.h, sr_csa_psi.h).

    A stream is a list of tokens, one for every SDSL primitive written to it (a member, an int_vector,
    a bit vector, the directory of a support, a wavelet tree); reading a primitive where another one was
    written is undefined ([None]).  The support structures of sd_vector write nothing.  std::any values
    carry their type; map nodes do not move, so a pointer into a storage is the key of the node. *)
From Coq Require Import List Arith Bool String Ascii DecimalString.
From Verif Require Import MBase MRle MConstruct MPhi MRIndex MSrIndex MPsi MCsa MSrCsa.
Import ListNotations.

(** Bit vector classes of the template parameters: sdsl::sd_vector (supports of 0 bytes) and
    sdsl::bit_vector (rank_support_v, select_support_mcl: directories computed from the bits). *)
Inductive bvclass := BvSd | BvPlain.
(** rank_1_type (true), rank_0_type (false) and select_1_type of a class. *)
Inductive sup := SupRank (c : bvclass) (bit : bool) | SupSelect (c : bvclass).
Definition sup_class (s : sup) : bvclass := match s with SupRank c _ => c | SupSelect c => c end.
(** Types of the stored items.  The sample density is part of the type PsiCoreRLE. *)
Inductive ty := TyAlpha | TyRle | TyPsi (dens : nat) | TyInts | TyBv (c : bvclass) | TySup (s : sup).
Definition ty_eq_dec (a b : ty) : {a = b} + {a <> b}.
Proof. repeat decide equality. Defined.

(** Stored values.  A support holds its directory; its pointer to the vector is in the entry. *)
Inductive item :=
| ItAlpha (a : alphabet) | ItRle (s : rlestr) | ItPsi (p : psi_core) | ItInts (l : list nat)
| ItBv (c : bvclass) (b : list bool) | ItSup (s : sup) (dir : list bool).
Definition item_ty (it : item) : ty :=
  match it with
  | ItAlpha _ => TyAlpha | ItRle _ => TyRle | ItPsi p => TyPsi (pc_dens p) | ItInts _ => TyInts
  | ItBv c _ => TyBv c | ItSup s _ => TySup s
  end.

Inductive token :=
| TkNum (n : nat) | TkInts (l : list nat) | TkBv (c : bvclass) (b : list bool)
| TkDir (s : sup) (dir : list bool) | TkWt (l : list nat).

(** * Serialization of the items *)
(** sdsl byte_alphabet; comp2char is not modelled (no index class reads it). *)
Definition alpha_tokens (a : alphabet) : list token :=
  [TkInts (al_char2comp a); TkInts (al_C a); TkNum (al_sigma a)].
(** rle_string.hpp:876-892, 1040-1052; the supports of BitVector (sd_vector) are empty. *)
Definition rle_tokens (s : rlestr) : list token :=
  [TkNum (rl_r s); TkNum (rl_b s); TkWt (rl_heads s); TkBv BvSd (rl_runs s); TkNum (List.length (rl_rps s))]
  ++ map (TkBv BvSd) (rl_rps s).
(** enc_vector.hpp:346-356 *)
Definition encv_tokens (e : encv) : list token := [TkNum (ev_size e); TkBv BvPlain (ev_z e); TkInts (ev_sp e)].
(** psi.h:448-461 *)
Definition psi_tokens (p : psi_core) : list token :=
  [TkNum (pc_n p); TkNum (pc_first p); TkNum (List.length (pc_partial p))]
  ++ flat_map (fun q => encv_tokens (fst q) ++ [TkInts (snd q)]) (pc_partial p).
Definition sup_tokens (s : sup) (dir : list bool) : list token :=
  match sup_class s with BvSd => [] | BvPlain => [TkDir s dir] end.
Definition item_tokens (it : item) : list token :=
  match it with
  | ItAlpha a => alpha_tokens a
  | ItRle s => rle_tokens s
  | ItPsi p => psi_tokens p
  | ItInts l => [TkInts l]
  | ItBv c b => [TkBv c b]
  | ItSup s d => sup_tokens s d
  end.

(** * Reading *)
Definition bvclass_eqb (a b : bvclass) : bool :=
  match a, b with BvSd, BvSd | BvPlain, BvPlain => true | _, _ => false end.
Definition sup_eqb (a b : sup) : bool :=
  match a, b with
  | SupRank c x, SupRank d y => bvclass_eqb c d && Bool.eqb x y
  | SupSelect c, SupSelect d => bvclass_eqb c d
  | _, _ => false
  end.
Definition rd (A : Type) := list token -> option (A * list token).
Definition rd_num : rd nat := fun i => match i with TkNum n :: r => Some (n, r) | _ => None end.
Definition rd_ints : rd (list nat) := fun i => match i with TkInts l :: r => Some (l, r) | _ => None end.
Definition rd_wt : rd (list nat) := fun i => match i with TkWt l :: r => Some (l, r) | _ => None end.
Definition rd_bv (c : bvclass) : rd (list bool) := fun i =>
  match i with TkBv d b :: r => if bvclass_eqb c d then Some (b, r) else None | _ => None end.
Definition rd_sup (s : sup) : rd (list bool) := fun i =>
  match sup_class s with
  | BvSd => Some ([], i)
  | BvPlain => match i with TkDir s' d :: r => if sup_eqb s s' then Some (d, r) else None | _ => None end
  end.
(** sdsl::load of a std::vector: the size has been read. *)
Fixpoint rd_many {A} (f : rd A) (k : nat) : rd (list A) := fun i =>
  match k with
  | 0 => Some ([], i)
  | S k => '(a, i) <- f i ;; '(l, i) <- rd_many f k i ;; Some (a :: l, i)
  end.
Definition rd_alpha : rd alphabet := fun i =>
  '(c2c, i) <- rd_ints i ;; '(C, i) <- rd_ints i ;; '(sg, i) <- rd_num i ;; Some (mk_alphabet c2c C sg, i).
(** rle_string.hpp:895-903, 1055-1061 *)
Definition rd_rle : rd rlestr := fun i =>
  '(r, i) <- rd_num i ;;
  '(b, i) <- rd_num i ;;
  '(heads, i) <- rd_wt i ;;
  '(runs, i) <- rd_bv BvSd i ;;
  '(k, i) <- rd_num i ;;
  '(rps, i) <- rd_many (rd_bv BvSd) k i ;;
  Some (mk_rlestr r b heads runs rps, i).
(** enc_vector.hpp:358-364 *)
Definition rd_encv : rd encv := fun i =>
  '(sz, i) <- rd_num i ;; '(z, i) <- rd_bv BvPlain i ;; '(sp, i) <- rd_ints i ;; Some (mk_encv z sp sz, i).
(** psi.h:464-470 *)
Definition rd_psi (dens : nat) : rd psi_core := fun i =>
  '(n, i) <- rd_num i ;;
  '(first, i) <- rd_num i ;;
  '(k, i) <- rd_num i ;;
  '(partial, i) <- rd_many (fun i => '(e, i) <- rd_encv i ;; '(l, i) <- rd_ints i ;; Some ((e, l), i)) k i ;;
  Some (mk_psi_core n dens first partial, i).
Definition rd_item (t : ty) : rd item := fun i =>
  match t with
  | TyAlpha => '(a, i) <- rd_alpha i ;; Some (ItAlpha a, i)
  | TyRle => '(s, i) <- rd_rle i ;; Some (ItRle s, i)
  | TyPsi dens => '(p, i) <- rd_psi dens i ;; Some (ItPsi p, i)
  | TyInts => '(l, i) <- rd_ints i ;; Some (ItInts l, i)
  | TyBv c => '(b, i) <- rd_bv c i ;; Some (ItBv c b, i)
  | TySup s => '(d, i) <- rd_sup s i ;; Some (ItSup s d, i)
  end.

(** * The storage (index_base.h:27-40) *)
(** std::map<std::string, std::any>; [en_ptr]: the vector set by set_vector in a support. *)
Record entry := mk_entry { en_item : item; en_ptr : option string }.
Definition store := list (string * entry).
Fixpoint st_find (st : store) (k : string) : option entry :=
  match st with
  | [] => None
  | (x, e) :: r => if String.eqb x k then Some e else st_find r k
  end.
(** index_base.h:29-33 get: nullptr for a missing key and for a value of another type *)
Definition st_get (st : store) (t : ty) (k : string) : option entry :=
  e <- st_find st k ;; if ty_eq_dec (item_ty (en_item e)) t then Some e else None.
(** index_base.h:35-39 set: emplace keeps an existing value, then any_cast to the new type *)
Definition st_emplace (st : store) (k : string) (e : entry) : store :=
  match st_find st k with Some _ => st | None => (k, e) :: st end.

(** * Sources of a load (index_base.h:91) *)
(** A cache directory: content by key and, with the flag, by type hash (sdsl cache_file_name). *)
Definition files := list (string * option ty * list token).
Fixpoint file_find (fs : files) (k : string) (h : option ty) : option (list token) :=
  match fs with
  | [] => None
  | (x, y, c) :: r =>
      if String.eqb x k then
        match y, h with
        | None, None => Some c
        | Some a, Some b => if ty_eq_dec a b then Some c else file_find r k h
        | _, _ => file_find r k h
        end
      else file_find r k h
  end.
Inductive source := SrcFiles (fs : files) | SrcStream (i : list token).
(** index_base.h:106-124 load: from the cache (a missing file throws: [None]) or from the stream *)
Definition fetch (src : source) (t : ty) (k : string) (hash : bool) : option (item * source) :=
  match src with
  | SrcFiles fs =>
      c <- file_find fs k (if hash then Some t else None) ;;
      '(it, _) <- rd_item t c ;; Some (it, src)
  | SrcStream i => '(it, i) <- rd_item t i ;; Some (it, SrcStream i)
  end.

(** State of a load: the storage, the source, and the keys whose items were read (in order). *)
Record lstate := mk_lstate { ls_store : store; ls_src : source; ls_log : list string }.
(** index_base.h:93-104, 126-130 loadRawItem and loadItem; a null result is dereferenced. *)
Definition load_raw (t : ty) (k : string) (hash : bool) (s : lstate) : option lstate :=
  match st_get (ls_store s) t k with
  | Some _ => Some s
  | None =>
      '(it, src) <- fetch (ls_src s) t k hash ;;
      let st := st_emplace (ls_store s) k (mk_entry it None) in
      _ <- st_get st t k ;;
      Some (mk_lstate st src (ls_log s ++ [k]))
  end.
Definition sup_suffix (s : sup) : string := match s with SupRank _ _ => "_rank" | SupSelect _ => "_select" end.
(** index_base.h:132-165 loadBVRank and loadBVSelect *)
Definition load_sup (sp : sup) (k : string) (hash : bool) (s : lstate) : option lstate :=
  let key_sup := (k ++ sup_suffix sp)%string in
  match st_get (ls_store s) (TySup sp) key_sup with
  | Some _ => Some s
  | None =>
      s <- load_raw (TyBv (sup_class sp)) k hash s ;;
      '(it, src) <- fetch (ls_src s) (TySup sp) k hash ;;
      let st := st_emplace (ls_store s) key_sup (mk_entry it (Some k)) in
      _ <- st_get st (TySup sp) key_sup ;;
      Some (mk_lstate st src (ls_log s ++ [key_sup]))
  end.

(** * Keys *)
(** A key name and whether the class puts key_prefix_ in front of it. *)
Definition skey := (bool * string)%type.
Definition realize (prefix : string) (k : skey) : string := if fst k then (prefix ++ snd k)%string else snd k.
(** sr_index.h:27 std::to_string(subsample_rate_) + "_" *)
Definition rate_prefix (rate : nat) : string := (NilEmpty.string_of_uint (Nat.to_uint rate) ++ "_")%string.

Inductive cmd := LItem (t : ty) (k : skey) (hash : bool) | LSup (s : sup) (k : skey) (hash : bool).
Definition exec (prefix : string) (c : cmd) (s : lstate) : option lstate :=
  match c with
  | LItem t k h => load_raw t (realize prefix k) h s
  | LSup sp k h => load_sup sp (realize prefix k) h s
  end.
Fixpoint run (prefix : string) (cs : list cmd) (s : lstate) : option lstate :=
  match cs with
  | [] => Some s
  | c :: r => s <- exec prefix c s ;; run prefix r s
  end.

(** serializeItem (167-177): the stored item, or nothing (sdsl::serialize_empty_object writes 0 bytes);
    serializeRank and serializeSelect (179-193). *)
Inductive scmd := WItem (t : ty) (k : skey) | WSup (s : sup) (k : skey).
Definition write (prefix : string) (st : store) (c : scmd) : list token :=
  let '(t, key) := match c with
                   | WItem t k => (t, realize prefix k)
                   | WSup s k => (TySup s, (realize prefix k ++ sup_suffix s)%string)
                   end in
  match st_get st t key with Some e => item_tokens (en_item e) | None => [] end.

(** * The index classes *)
(** Template arguments: classes of TBvMark, TBvSampleIdx (TBvSamplePos), TBvValidMark and the sample
    density of PsiCoreRLE. *)
Record tmpl := mk_tmpl { t_marks : bvclass; t_idx : bvclass; t_valid : bvclass; t_dens : nat }.
Inductive kind :=
| KRIndex | KSrIndex | KSrIndexVM | KSrIndexVA
| KRCSA | KCSARaw | KSrCSA | KSrCSAVM | KSrCSAVA | KSlim | KSlimVM | KSlimVA
| KRCSAPsi | KSrPsi | KSrPsiVM | KSrPsiVA.

(** setupKeyNames: r_index.h:81-87, sr_index.h:68-77, 286-296, 391-401; r_csa.h:83-89, 443-450;
    sr_csa.h:65-74, 203-213, 418-428, 594-605, 696-708; sr_csa_psi.h:67-78, 333-338, 424-429 with the
    default keys of config.h:41-98; names in construct_base.h:21-53 and construct.h:57-59. *)
Definition k_alpha : skey := (false, "alphabet"%string).
Definition k_nav (kd : kind) : skey :=
  match kd with KRIndex | KSrIndex | KSrIndexVM | KSrIndexVA => (false, "bwt_rle"%string) | _ => (false, "psi"%string) end.
Definition k_samples (kd : kind) : skey :=
  match kd with
  | KRIndex => (false, "bwt_run_last_text_pos"%string)
  | KSrIndex | KSrIndexVM | KSrIndexVA => (true, "bwt_run_last_text_pos"%string)
  | KRCSA | KCSARaw => (false, "bwt_run_first_text_pos"%string)
  | KSrCSA | KSrCSAVM | KSrCSAVA => (true, "bwt_run_first_text_pos"%string)
  | KSlim | KSlimVM | KSlimVA => (true, "bwt_run_first_text_pos_sorted_alphabet"%string)
  | KRCSAPsi => (false, "psi_run_first_text_pos"%string)
  | KSrPsi | KSrPsiVM | KSrPsiVA => (true, "psi_run_first_text_pos"%string)
  end.
Definition k_marks (kd : kind) : skey :=
  match kd with
  | KRIndex => (false, "bwt_run_first_text_pos"%string)
  | KSrIndex | KSrIndexVM | KSrIndexVA => (true, "bwt_run_first_text_pos_by_last"%string)
  | KRCSA | KCSARaw => (false, "bwt_run_last_text_pos"%string)
  | KSrCSA | KSrCSAVM | KSrCSAVA | KSlim | KSlimVM | KSlimVA => (true, "bwt_run_last_text_pos_by_first"%string)
  | KRCSAPsi => (false, "psi_run_last_text_pos"%string)
  | KSrPsi | KSrPsiVM | KSrPsiVA => (true, "psi_run_last_text_pos"%string)
  end.
Definition k_links (kd : kind) : skey :=
  match kd with
  | KRIndex => (false, "bwt_run_first_text_pos_sorted_to_last_idx"%string)
  | KSrIndex | KSrIndexVM | KSrIndexVA => (true, "bwt_run_first_text_pos_sorted_to_last_idx"%string)
  | KRCSA | KCSARaw => (false, "bwt_run_last_text_pos_sorted_to_first_idx"%string)
  | KSrCSA | KSrCSAVM | KSrCSAVA => (true, "bwt_run_last_text_pos_sorted_to_first_idx"%string)
  | KSlim | KSlimVM | KSlimVA => (true, "bwt_run_last_text_pos_sorted_to_first_idx_sorted_alphabet"%string)
  | KRCSAPsi => (false, "psi_run_last_text_pos_asc_link"%string)
  | KSrPsi | KSrPsiVM | KSrPsiVA => (true, "psi_run_last_text_pos_asc_link"%string)
  end.
Definition k_idx (kd : kind) : skey :=
  match kd with
  | KSrIndex | KSrIndexVM | KSrIndexVA => (true, "bwt_run_last_idx"%string)
  | KSrCSA | KSrCSAVM | KSrCSAVA => (true, "bwt_run_first"%string)
  | KSlim | KSlimVM | KSlimVA => (true, "bwt_run_first_idx_sorted_alphabet"%string)
  | _ => (true, "psi_run_first_idx"%string)
  end.
Definition k_cum (kd : kind) : skey :=
  match kd with
  | KSlim | KSlimVM | KSlimVA => (false, "bwt_run_cumulative_count"%string)
  | _ => (false, "psi_run_cumulative_count"%string)
  end.
Definition k_valid (kd : kind) : skey :=
  match kd with
  | KSrIndexVM | KSrIndexVA => (true, "bwt_run_first_text_pos_sorted_valid_mark"%string)
  | KSrPsiVM | KSrPsiVA => (true, "psi_run_last_text_pos_asc_valid_mark"%string)
  | _ => (true, "bwt_run_last_text_pos_sorted_valid_mark"%string)
  end.
Definition k_areas (kd : kind) : skey :=
  match kd with
  | KSrIndexVA => (true, "bwt_run_first_text_pos_sorted_valid_area"%string)
  | KSrPsiVA => (true, "psi_run_last_text_pos_asc_valid_area"%string)
  | _ => (true, "bwt_run_last_text_pos_sorted_valid_area"%string)
  end.
Definition k_sa : skey := (false, "sa"%string).

(** Classes with sub-samples, with validity marks, with validity areas. *)
Definition has_idx (kd : kind) : bool :=
  match kd with KRIndex | KRCSA | KCSARaw | KRCSAPsi => false | _ => true end.
Definition has_valid (kd : kind) : bool :=
  match kd with
  | KSrIndexVM | KSrIndexVA | KSrCSAVM | KSrCSAVA | KSlimVM | KSlimVA | KSrPsiVM | KSrPsiVA => true | _ => false end.
Definition has_areas (kd : kind) : bool :=
  match kd with KSrIndexVA | KSrCSAVA | KSlimVA | KSrPsiVA => true | _ => false end.
(** SrCSASlim and SrCSAWithPsiRun keep the cumulative run counts; SrCSA has a select on its positions. *)
Definition has_cum (kd : kind) : bool :=
  match kd with KSlim | KSlimVM | KSlimVA | KSrPsi | KSrPsiVM | KSrPsiVA => true | _ => false end.
Definition has_idx_select (kd : kind) : bool := match kd with KSrCSA | KSrCSAVM | KSrCSAVA => true | _ => false end.
Definition is_psi_run (kd : kind) : bool := match kd with KRCSAPsi | KSrPsi | KSrPsiVM | KSrPsiVA => true | _ => false end.
Definition nav_ty (tm : tmpl) (kd : kind) : ty :=
  match kd with KRIndex | KSrIndex | KSrIndexVM | KSrIndexVA => TyRle | _ => TyPsi (t_dens tm) end.
Definition nav_hash (kd : kind) : bool :=
  match kd with KRIndex | KSrIndex | KSrIndexVM | KSrIndexVA => false | _ => true end.

(** loadAllItems: r_index.h:89-101; r_csa.h:91-103, 296-300, 452-464; sr_index.h:81-86, 299-303, 405-411;
    sr_csa.h:217-224, 431-436, 609-613, 712-719; sr_csa_psi.h:82-89, 340-344, 434-440.  The classes of
    sr_csa_psi.h and RCSAWithPsiRun pass the type-hash flag for all but the alphabet. *)
Definition load_all (tm : tmpl) (kd : kind) : list cmd :=
  let h := is_psi_run kd in
  match kd with
  | KCSARaw => [LItem TyAlpha k_alpha false; LItem (nav_ty tm kd) (k_nav kd) true; LItem TyInts k_sa false]
  | _ =>
      [LItem TyAlpha k_alpha false; LItem (nav_ty tm kd) (k_nav kd) (nav_hash kd); LItem TyInts (k_samples kd) h;
       LItem (TyBv (t_marks tm)) (k_marks kd) true; LSup (SupRank (t_marks tm) true) (k_marks kd) true;
       LSup (SupSelect (t_marks tm)) (k_marks kd) true; LItem TyInts (k_links kd) h]
      ++ (if has_idx kd then [LItem (TyBv (t_idx tm)) (k_idx kd) true; LSup (SupRank (t_idx tm) true) (k_idx kd) true] else [])
      ++ (if has_cum kd then [LItem TyInts (k_cum kd) h] else [])
      ++ (if has_valid kd then [LItem (TyBv (t_valid tm)) (k_valid kd) true] else [])
      ++ (if has_areas kd then [LSup (SupRank (t_valid tm) false) (k_valid kd) true; LItem TyInts (k_areas kd) h] else [])
  end.

(** constructIndex, the loads of the functors: r_index.h:103-115 with 157-161, 213-215, 225, 238-242, 274;
    sr_index.h:88-106 with 128-147, 184-202, 316-317, 424-432; r_csa.h:105-120 with 165-169, 207-214,
    232-234, 255, 324, and 466-480 with 527-531, 567-574, 592-594, 615; sr_csa.h:81-82, 123-130, 278-281,
    345-369, 477-479, 521-522, 549-552, 641-649, 736-738; sr_csa_psi.h:140-143, 194-201, 226-237, 269-279,
    356-365, 454-455.  RCSAWithPsiRun and SrCSAWithPsiRun ask for samples and links without the flag.
    The order of evaluation of function arguments is not modelled: at most one item (the select of
    SrCSA) is not yet in the storage. *)
Definition load_phi (tm : tmpl) (kd : kind) : list cmd :=
  [LSup (SupRank (t_marks tm) true) (k_marks kd) true; LSup (SupSelect (t_marks tm)) (k_marks kd) true;
   LItem TyInts (k_links kd) (is_psi_run kd && has_valid kd)]
  ++ (if has_valid kd then [LItem (TyBv (t_valid tm)) (k_valid kd) true] else [])
  ++ [LItem TyInts (k_samples kd) false]
  ++ (if has_areas kd then [LSup (SupRank (t_valid tm) false) (k_valid kd) true; LItem TyInts (k_areas kd) (is_psi_run kd)] else []).
Definition load_get_sample (tm : tmpl) (kd : kind) : list cmd :=
  (if has_cum kd then [LItem TyInts (k_cum kd) (is_psi_run kd)] else [])
  ++ (if has_idx kd then [LItem (TyBv (t_idx tm)) (k_idx kd) true; LSup (SupRank (t_idx tm) true) (k_idx kd) true] else [])
  ++ [LItem TyInts (k_samples kd) false].
Definition load_split (tm : tmpl) (kd : kind) : list cmd :=
  if has_idx_select kd
  then [LSup (SupRank (t_idx tm) true) (k_idx kd) true; LSup (SupSelect (t_idx tm)) (k_idx kd) true]
  else [].
Definition load_nav (tm : tmpl) (kd : kind) : list cmd :=
  [LItem TyAlpha k_alpha false; LItem (nav_ty tm kd) (k_nav kd) (nav_hash kd)].
Definition load_build (tm : tmpl) (kd : kind) : list cmd :=
  load_nav tm kd
  ++ (match kd with
      | KCSARaw => [LItem TyInts k_sa false]
      | _ => load_get_sample tm kd ++ load_split tm kd ++ load_phi tm kd ++ load_nav tm kd ++ load_get_sample tm kd
      end)
  ++ [LItem TyAlpha k_alpha false].

(** serialize after the member: r_index.h:50-69, sr_index.h:56-62, 272-280, 375-386; r_csa.h:52-71,
    278-289, 412-431; sr_csa.h:51-60, 181-197, 399-412, 579-588, 680-690; sr_csa_psi.h:47-63, 319-327,
    406-420. *)
Definition save_all (tm : tmpl) (kd : kind) : list scmd :=
  match kd with
  | KCSARaw => [WItem TyAlpha k_alpha; WItem (nav_ty tm kd) (k_nav kd); WItem TyInts k_sa]
  | _ =>
      [WItem TyAlpha k_alpha; WItem (nav_ty tm kd) (k_nav kd); WItem TyInts (k_samples kd);
       WItem (TyBv (t_marks tm)) (k_marks kd); WSup (SupRank (t_marks tm) true) (k_marks kd);
       WSup (SupSelect (t_marks tm)) (k_marks kd); WItem TyInts (k_links kd)]
      ++ (if has_idx kd then [WItem (TyBv (t_idx tm)) (k_idx kd); WSup (SupRank (t_idx tm) true) (k_idx kd)] else [])
      ++ (if has_idx_select kd then [WSup (SupSelect (t_idx tm)) (k_idx kd)] else [])
      ++ (if has_cum kd then [WItem TyInts (k_cum kd)] else [])
      ++ (if has_valid kd then [WItem (TyBv (t_valid tm)) (k_valid kd)] else [])
      ++ (if has_areas kd then [WSup (SupRank (t_valid tm) false) (k_valid kd); WItem TyInts (k_areas kd)] else [])
  end.

(** The member subsample_rate_ is written and read by the classes of sr_index.h and sr_csa.h
    (sr_index.h:41-45, 53; sr_csa.h:43-47, 55), not by those of sr_csa_psi.h. *)
Definition writes_rate (kd : kind) : bool := has_idx kd && negb (is_psi_run kd).

(** * Objects *)
(** subsample_rate_ (1 by default), key_prefix_ (empty by default) and storage_. *)
Record obj := mk_obj { ob_rate : nat; ob_prefix : string; ob_store : store }.
(** sr_index.h:26-32, 247-248; sr_csa.h:26-32, 156-157; sr_csa_psi.h:32-38, 300-301; [st]: the storage *)
Definition new_default (st : store) : obj := mk_obj 1 "" st.
Definition new_rate (rate : nat) (st : store) : obj := mk_obj rate (rate_prefix rate) st.

Definition load_from (tm : tmpl) (kd : kind) (o : obj) (src : source) : option (obj * lstate) :=
  s <- run (ob_prefix o) (load_all tm kd ++ load_build tm kd) (mk_lstate (ob_store o) src []) ;;
  Some (mk_obj (ob_rate o) (ob_prefix o) (ls_store s), s).
(** load(Config): r_index.h:38-41, sr_index.h:36-39, r_csa.h:40-43, 400-403 *)
Definition load_config (tm : tmpl) (kd : kind) (o : obj) (fs : files) : option obj :=
  '(o, _) <- load_from tm kd o (SrcFiles fs) ;; Some o.
(** load(std::istream): r_index.h:43-46, sr_index.h:41-45, sr_csa.h:43-47, r_csa.h:45-48, 405-408.
    key_prefix_ keeps its value.  Second component: what is left in the stream. *)
Definition load_stream (tm : tmpl) (kd : kind) (o : obj) (i : list token) : option (obj * list token) :=
  '(o, i) <- (if writes_rate kd
              then '(rate, i) <- rd_num i ;; Some (mk_obj rate (ob_prefix o) (ob_store o), i)
              else Some (o, i)) ;;
  '(o, s) <- load_from tm kd o (SrcStream i) ;;
  match ls_src s with SrcStream i => Some (o, i) | SrcFiles _ => None end.
(** serialize *)
Definition save (tm : tmpl) (kd : kind) (o : obj) : list token :=
  (if writes_rate kd then [TkNum (ob_rate o)] else [])
  ++ flat_map (write (ob_prefix o) (ob_store o)) (save_all tm kd).

(** * Queries of a loaded object *)
(** What a reference of the functors denotes: a stored item of the right type; a support is usable when
    its vector is there and its directory (if it has one) belongs to it. *)
Definition look (o : obj) (t : ty) (k : string) : option item :=
  e <- st_get (ob_store o) t k ;;
  match en_item e with
  | ItSup sp d =>
      p <- en_ptr e ;;
      v <- st_get (ob_store o) (TyBv (sup_class sp)) p ;;
      match sup_class sp, en_item v with
      | BvSd, ItBv _ _ => Some (en_item e)
      | BvPlain, ItBv _ b => if list_eq_dec Bool.bool_dec d b then Some (en_item e) else None
      | _, _ => None
      end
  | it => Some it
  end.
Definition look_alpha (o : obj) (k : skey) : option alphabet :=
  it <- look o TyAlpha (realize (ob_prefix o) k) ;; match it with ItAlpha a => Some a | _ => None end.
Definition look_rle (o : obj) (k : skey) : option rlestr :=
  it <- look o TyRle (realize (ob_prefix o) k) ;; match it with ItRle s => Some s | _ => None end.
Definition look_psi (o : obj) (dens : nat) (k : skey) : option psi_core :=
  it <- look o (TyPsi dens) (realize (ob_prefix o) k) ;; match it with ItPsi p => Some p | _ => None end.
Definition look_ints (o : obj) (k : skey) : option (list nat) :=
  it <- look o TyInts (realize (ob_prefix o) k) ;; match it with ItInts l => Some l | _ => None end.
(** The vector with the given supports. *)
Definition look_bv (o : obj) (c : bvclass) (k : skey) (sups : list sup) : option (list bool) :=
  it <- look o (TyBv c) (realize (ob_prefix o) k) ;;
  _ <- mmap (fun sp => look o (TySup sp) (realize (ob_prefix o) k ++ sup_suffix sp)%string) sups ;;
  match it with ItBv _ b => Some b | _ => None end.

Inductive loaded := LdR (ix : rindex) | LdSr (ix : sri) | LdCsa (ix : csa) | LdRaw (ix : csa_raw) | LdSc (ix : srcsa).
(** The items that the functors of the class hold (see the records of MRIndex, MSrIndex, MCsa, MSrCsa). *)
Definition view (tm : tmpl) (kd : kind) (o : obj) : option loaded :=
  let m := t_marks tm in
  al <- look_alpha o k_alpha ;;
  match kd with
  | KCSARaw =>
      pc <- look_psi o (t_dens tm) (k_nav kd) ;; sa <- look_ints o k_sa ;; Some (LdRaw (mk_csa_raw al pc sa))
  | _ =>
      samples <- look_ints o (k_samples kd) ;;
      marks <- look_bv o m (k_marks kd) [SupRank m true; SupSelect m] ;;
      links <- look_ints o (k_links kd) ;;
      idx <- (if has_idx kd
              then look_bv o (t_idx tm) (k_idx kd)
                     (SupRank (t_idx tm) true :: if has_idx_select kd then [SupSelect (t_idx tm)] else [])
              else Some []) ;;
      cum <- (if has_cum kd then look_ints o (k_cum kd) else Some []) ;;
      valid <- (if has_valid kd
                then look_bv o (t_valid tm) (k_valid kd) (if has_areas kd then [SupRank (t_valid tm) false] else [])
                else Some []) ;;
      areas <- (if has_areas kd then look_ints o (k_areas kd) else Some []) ;;
      match kd with
      | KRIndex => nav <- look_rle o (k_nav kd) ;; Some (LdR (mk_rindex al nav samples marks links))
      | KSrIndex | KSrIndexVM | KSrIndexVA =>
          nav <- look_rle o (k_nav kd) ;; Some (LdSr (mk_sri al nav (ob_rate o) samples marks links idx valid areas))
      | KRCSA | KRCSAPsi =>
          nav <- look_psi o (t_dens tm) (k_nav kd) ;; Some (LdCsa (mk_csa al nav samples marks links))
      | _ =>
          nav <- look_psi o (t_dens tm) (k_nav kd) ;;
          Some (LdSc (mk_srcsa al nav (ob_rate o) samples marks links idx cum valid areas))
      end
  end.
Definition locate_view (kd : kind) (v : loaded) (p : list nat) : option (list nat) :=
  match kd, v with
  | KRIndex, LdR ix => rindex_locate ix p
  | KSrIndex, LdSr ix => srindex_locate ix p
  | KSrIndexVM, LdSr ix => srindex_vm_locate ix p
  | KSrIndexVA, LdSr ix => srindex_va_locate ix p
  | KRCSA, LdCsa ix => rcsa_bwt_locate ix p
  | KRCSAPsi, LdCsa ix => rcsa_psi_locate ix p
  | KCSARaw, LdRaw ix => csa_raw_locate ix p
  | KSrCSA, LdSc ix => srcsa_locate ix p
  | KSrCSAVM, LdSc ix => srcsa_vm_locate ix p
  | KSrCSAVA, LdSc ix => srcsa_va_locate ix p
  | (KSlim | KSrPsi), LdSc ix => slim_locate ix p
  | (KSlimVM | KSrPsiVM), LdSc ix => slim_vm_locate ix p
  | (KSlimVA | KSrPsiVA), LdSc ix => slim_va_locate ix p
  | _, _ => None
  end.
Definition count_view (v : loaded) (p : list nat) : option range :=
  match v with
  | LdR ix => rindex_count ix p
  | LdSr ix => sr_count ix p
  | LdCsa ix => rcsa_bwt_count ix p
  | LdRaw ix => csa_raw_count ix p
  | LdSc ix => srcsa_count ix p
  end.
(** index_base.h:48-54: Locate and Count of the object *)
Definition obj_locate (tm : tmpl) (kd : kind) (o : obj) (p : list nat) : option (list nat) :=
  v <- view tm kd o ;; locate_view kd v p.
Definition obj_count (tm : tmpl) (kd : kind) (o : obj) (p : list nat) : option range :=
  v <- view tm kd o ;; count_view v p.

(** * The files of a construction *)
(** store_to_cache of the items of a built index: key, flag of the type hash, item.  The keys are those
    that the construction functions write (r_index.h:295-321, sr_index.h:486-571, r_csa.h:351-376,
    623-677, sr_csa.h:746-874, sr_csa_psi.h:462-828). *)
(** construct.h:292-308: a bit vector with rank_1 and select_1; construct.h:310-329 for validity marks
    (sr_index.h:566-568, sr_csa.h:858-860, sr_csa_psi.h:754-756): rank_0 (select_0, which no class
    loads, is left out). *)
Definition bv_files (c : bvclass) (k : skey) (b : list bool) : list (skey * bool * item) :=
  [(k, true, ItBv c b); (k, true, ItSup (SupRank c true) b); (k, true, ItSup (SupSelect c) b)].
Definition valid_files (c : bvclass) (k : skey) (b : list bool) : list (skey * bool * item) :=
  [(k, true, ItBv c b); (k, true, ItSup (SupRank c false) b)].
Definition built_files (tm : tmpl) (kd : kind) (v : loaded) : list (skey * bool * item) :=
  let h := is_psi_run kd in
  let core (al : alphabet) (nav : item) (samples : list nat) (marks : list bool) (links : list nat) :=
    [(k_alpha, false, ItAlpha al); (k_nav kd, nav_hash kd, nav); (k_samples kd, h, ItInts samples)]
    ++ bv_files (t_marks tm) (k_marks kd) marks ++ [(k_links kd, h, ItInts links)] in
  match v with
  | LdR ix => core (ri_alpha ix) (ItRle (ri_bwt ix)) (ri_samples ix) (ri_marks ix) (ri_links ix)
  | LdSr ix =>
      core (sr_alpha ix) (ItRle (sr_bwt ix)) (sr_samples ix) (sr_marks ix) (sr_links ix)
      ++ bv_files (t_idx tm) (k_idx kd) (sr_samples_idx ix)
      ++ (if has_valid kd then valid_files (t_valid tm) (k_valid kd) (sr_valid_marks ix) else [])
      ++ (if has_areas kd then [(k_areas kd, h, ItInts (sr_valid_areas ix))] else [])
  | LdCsa ix => core (ca_alpha ix) (ItPsi (ca_psi ix)) (ca_samples ix) (ca_marks ix) (ca_links ix)
  | LdRaw ix => [(k_alpha, false, ItAlpha (cr_alpha ix)); (k_nav kd, true, ItPsi (cr_psi ix)); (k_sa, false, ItInts (cr_sa ix))]
  | LdSc ix =>
      core (sc_alpha ix) (ItPsi (sc_psi ix)) (sc_samples ix) (sc_marks ix) (sc_links ix)
      ++ bv_files (t_idx tm) (k_idx kd) (sc_idx ix)
      ++ (if has_cum kd then [(k_cum kd, h, ItInts (sc_cum ix))] else [])
      ++ (if has_valid kd then valid_files (t_valid tm) (k_valid kd) (sc_valid ix) else [])
      ++ (if has_areas kd then [(k_areas kd, h, ItInts (sc_areas ix))] else [])
  end.
(** The file of an item in the cache directory of an object with this prefix. *)
Definition file_of (prefix : string) (f : skey * bool * item) : string * option ty * list token :=
  let '(k, h, it) := f in (realize prefix k, if h then Some (item_ty it) else None, item_tokens it).

(** construct of the class: r_index.h:295-321, sr_index.h:486-571, r_csa.h:351-378, 623-677,
    sr_csa.h:746-874, sr_csa_psi.h:462-828 (see MRIndex, MSrIndex, MCsa, MSrCsa). *)
Definition build (tm : tmpl) (kd : kind) (rate : nat) (data sa : list nat) : option loaded :=
  let d := t_dens tm in
  match kd with
  | KRIndex => option_map LdR (construct_rindex data sa)
  | KSrIndex => option_map LdSr (construct_sri rate data sa)
  | KSrIndexVM | KSrIndexVA => option_map LdSr (construct_sri_valid rate data sa)
  | KRCSA => option_map LdCsa (construct_rcsa_bwt d data sa)
  | KCSARaw => option_map LdRaw (construct_csa_raw d data sa)
  | KSrCSA => option_map LdSc (construct_srcsa rate d data sa)
  | KSrCSAVM | KSrCSAVA => option_map LdSc (construct_srcsa_valid rate d data sa)
  | KSlim => option_map LdSc (construct_srcsa_slim rate d data sa)
  | KSlimVM | KSlimVA => option_map LdSc (construct_srcsa_slim_valid rate d data sa)
  | KRCSAPsi => option_map LdCsa (construct_rcsa_psi d data sa)
  | KSrPsi => option_map LdSc (construct_srcsa_psi rate d data sa)
  | KSrPsiVM | KSrPsiVA => option_map LdSc (construct_srcsa_psi_valid rate d data sa)
  end.
