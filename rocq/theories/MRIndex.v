(** Model of RIndex (r_index.h) and its construction. *)
From Coq Require Import List Arith Bool.
From Verif Require Import MBase MRle MConstruct MPhi.
Import ListNotations.

(** Items of a loaded RIndex (r_index.h:89-101): alphabet, BWT-RLE, samples, marks with rank
    and select, mark-to-sample links. *)
Record rindex := mk_rindex {
  ri_alpha : alphabet;
  ri_bwt : rlestr;
  ri_samples : list nat;
  ri_marks : list bool;
  ri_links : list nat
}.

(** Files of a construction (r_index.h:295-321 constructRIndex after constructIndexBaseItems). *)
Record base_items := mk_base_items {
  bi_text : list nat; bi_bwt_text : list nat; bi_runs_files : bwt_runs;
  bi_alpha : alphabet; bi_bwt_rle : rlestr
}.
(** construct_sdsl.h:125-163 constructIndexBaseItems with no file present; [sa] is the output of
    the external suffix sorting. *)
Definition construct_base (data sa : list nat) : option base_items :=
  text <- construct_text data ;;
  bwt <- construct_bwt text sa ;;
  runs <- construct_bwt_runs bwt sa ;;
  let al := construct_alphabet bwt in
  rle <- construct_bwt_rle al bwt ;;
  Some (mk_base_items text bwt runs al rle).

(** r_index.h:295-321 constructRIndex, then r_index.h:74-101 load. *)
Definition construct_rindex (data sa : list nat) : option rindex :=
  b <- construct_base data sa ;;
  '(_, links) <- construct_links_backward (br_first_text (bi_runs_files b)) ;;
  marks <- construct_bit_vector (br_first_text (bi_runs_files b)) (length (bi_bwt_text b)) false ;;
  Some (mk_rindex (bi_alpha b) (bi_bwt_rle b) (br_last_text (bi_runs_files b)) marks links).

(** r_index.h:116-150: DataLF, Range, RangeLF. *)
Record data_lf := mk_data_lf { dl_value : nat; dl_rank : nat; dl_cover : bool }.
Definition range := (nat * nat)%type.
Definition range_lf := (data_lf * data_lf)%type.
Definition range_of_lf (r : range_lf) : range := (dl_value (fst r), dl_value (snd r)).
(** r_index.h:152-154 *)
Definition range_empty (r : range) : bool := negb (fst r <? snd r).

(** r_index.h:159: n_ = C[sigma] *)
Definition al_size (al : alphabet) : option nat := nth_error (al_C al) (al_sigma al).

(** r_index.h:162-169 bwt_rank *)
Definition ri_bwt_rank (s : rlestr) (c pos : nat) : option data_lf :=
  '(rnk, run_rank, is_cover) <- rle_rank_report_c s pos c ;;
  Some (mk_data_lf rnk run_rank is_cover).
(** r_index.h:171-180 with lf.h:25-43.  "value += smaller_c - !is_cover + 1" is unsigned
    arithmetic, equal to value + smaller_c + 1 - !is_cover.  end - 1 at 180: the engine calls
    it on non-empty ranges only, so end is positive. *)
Definition ri_lf (al : alphabet) (s : rlestr) (r : range) (c : nat) : option range_lf :=
  before_sp <- ri_bwt_rank s c (fst r) ;;
  until_ep <- ri_bwt_rank s c (snd r - 1) ;;
  smaller_c <- nth_error (al_C al) c ;;
  Some (mk_data_lf (dl_value before_sp + smaller_c) (dl_rank before_sp) (dl_cover before_sp),
        mk_data_lf (dl_value until_ep + smaller_c + 1 - (if dl_cover until_ep then 0 else 1))
                   (dl_rank until_ep) (dl_cover until_ep)).

(** r_index.h:204-207 is_lf_trivial *)
Definition ri_lf_trivial (r : range) (c : nat) (next : range_lf) : bool :=
  negb (dl_value (fst next) <? dl_value (snd next)) || dl_cover (snd next).

(** r_index.h:185-200 RunData and its creation *)
Record run_data := mk_run_data { rn_c : nat; rn_last : nat }.
Definition ri_create_data (r : range) (c : nat) (next : range_lf) (step : nat) : step_data run_data :=
  mk_step_data step (mk_run_data c (dl_rank (snd next))).

(** r_index.h:212-222 constructComputeToehold *)
Definition ri_toehold (ix : rindex) : step_data run_data -> option nat :=
  compute_toehold (fun d => run <- rle_select_on_runs (ri_bwt ix) (rn_last d) (rn_c d) ;;
                            sample <- nth_error (ri_samples ix) run ;;
                            Some (sample + 1))
                  (rle_size (ri_bwt ix)).

(** r_index.h:224-246 constructPhi with a default validity (tools.h:81-94) or given functors. *)
Definition ri_phi (n : nat) (marks : list bool) (samples : list nat)
  (get_mark_to_sample : nat -> option (nat * bool))
  (validator : nat -> nat -> bool -> option bool) : nat -> option (nat * bool) :=
  phi_backward (circular_predecessor marks n)
    (get_sample_for_phi get_mark_to_sample (nth_error samples) validator) n.
Definition links_default (links : list nat) (validity : bool) (pos : nat) : option (nat * bool) :=
  l <- nth_error links pos ;; Some (l, validity).

(** r_index.h:248-260: for (i = start; i < end; ++i) { k = phi(k).first; report(k); } *)
Fixpoint phi_iter (phi : nat -> option (nat * bool)) (count k : nat) : option (list nat) :=
  match count with
  | 0 => Some []
  | S m => '(k', _) <- phi k ;; rest <- phi_iter phi m k' ;; Some (k' :: rest)
  end.
Definition ri_phi_for_range (phi : nat -> option (nat * bool)) (r : range) (k : nat) : option (list nat) :=
  phi_iter phi (snd r - fst r) k.

(** r_index.h:264-268 update_range *)
Definition ri_update_range (r : range) : range := (fst r, snd r - 1).

(** r_index.h:273-278 get_symbol: char2comp of the byte *)
Definition al_symbol (al : alphabet) (ch : nat) : option nat := nth_error (al_char2comp al) ch.

(** r_index.h:103-114 constructIndex and index_base.h Locate/Count *)
Definition rindex_locate (ix : rindex) (pattern : list nat) : option (list nat) :=
  n <- al_size (ri_alpha ix) ;;
  engine_locate (ri_lf (ri_alpha ix) (ri_bwt ix)) range_of_lf
    (compute_step_data ri_lf_trivial ri_create_data)
    (compute_all_values
       (ri_phi_for_range (ri_phi n (ri_marks ix) (ri_samples ix)
                                 (links_default (ri_links ix) true) sample_validator_default))
       (ri_toehold ix) ri_update_range)
    n (mk_step_data 0 (mk_run_data 0 0)) (al_symbol (ri_alpha ix)) (fun n => (0, n)) range_empty
    pattern.
Definition rindex_count (ix : rindex) (pattern : list nat) : option range :=
  n <- al_size (ri_alpha ix) ;;
  engine_count (ri_lf (ri_alpha ix) (ri_bwt ix)) range_of_lf n (al_symbol (ri_alpha ix))
    (fun n => (0, n)) range_empty pattern.
