(** Vocabulary of the properties of the query programs in benchmark/. *)
From Coq Require Import List Arith Bool String Ascii Sorted.
From Verif Require Import Spec MBase MStore SpecStore MFactory MBench.
Import ListNotations.

(** * Base 64 (RFC 4648) *)
Definition is_byte (c : nat) : Prop := c < 256.
(** The [w] low bits of a number, the highest one first. *)
Definition bits (w x : nat) : list bool := map (fun k => Nat.testbit x (w - 1 - k)) (seq 0 w).
Definition codes (s : string) : list nat := map nat_of_ascii (list_ascii_of_string s).
Definition standard_alphabet : list nat := codes "ABCDEFGHIJKLMNOPQRSTUVWXYZabcdefghijklmnopqrstuvwxyz0123456789+/".
Definition url_alphabet : list nat := codes "ABCDEFGHIJKLMNOPQRSTUVWXYZabcdefghijklmnopqrstuvwxyz0123456789-_".
(** [s] is the text for the bytes [bs]: their bits, filled up with zeros to groups of six, each group as a symbol of the
    alphabet; then padding to groups of four symbols. *)
Definition base64_text (alphabet : list nat) (pad : nat) (bs s : list nat) : Prop :=
  exists digits symbols z k,
    flat_map (bits 6) digits = flat_map (bits 8) bs ++ repeat false z /\ z < 6 /\
    Forall2 (fun d c => nth_error alphabet d = Some c) digits symbols /\
    s = symbols ++ repeat pad k /\ k < 4 /\ List.length s mod 4 = 0.
(** What a lenient reader takes for the bytes [bs]: symbols of any of the alphabets, any bits at the end instead of the
    zeros, and either no padding or padding, with any of the two characters, to a group of four. *)
Definition lenient_text (bs s : list nat) : Prop :=
  exists digits symbols z pads,
    flat_map (bits 6) digits = flat_map (bits 8) bs ++ z /\ List.length z < 6 /\
    Forall2 (fun d c => nth_error standard_alphabet d = Some c \/ nth_error url_alphabet d = Some c) digits symbols /\
    s = symbols ++ pads /\ Forall (fun c => c = 61 \/ c = 46) pads /\
    (pads = [] \/ (List.length pads < 4 /\ List.length s mod 4 = 0)).
(** A character that has no place in a base-64 text. *)
Definition foreign (c : nat) : Prop := ~ In c standard_alphabet /\ ~ In c url_alphabet /\ c <> 61 /\ c <> 46.

(** * Files of patterns *)
(** [ls] are the lines of [file]: what is between the new lines. *)
Definition lines_of (file : list nat) (ls : list (list nat)) : Prop :=
  ls <> [] /\ Forall (fun l => ~ In 10 l) ls /\
  file = match ls with [] => [] | l :: ls => l ++ flat_map (fun l => 10 :: l) ls end.

(** * Reports *)
(** [l] is the decimal numeral of [n]. *)
Definition numeral (l : list nat) (n : nat) : Prop :=
  l <> [] /\ Forall (fun c => 48 <= c <= 57) l /\ (hd 0 l = 48 -> l = [48]) /\
  fold_left (fun v c => 10 * v + (c - 48)) l 0 = n.
(** The part of a report on one query: the line of the query, and a line for each position. *)
Inductive report_entry (query : list nat) : list nat -> list nat -> Prop :=
| re_none : report_entry query [] (query ++ [10])
| re_more : forall l out i d, report_entry query l out -> numeral d i ->
            report_entry query (l ++ [i]) (out ++ [32; 32] ++ d ++ [10]).
Inductive report : list (list nat) -> list (list nat) -> list nat -> Prop :=
| rp_nil : report [] [] []
| rp_cons : forall q qs l ls out outs, report_entry q l out -> report qs ls outs -> report (q :: qs) (l :: ls) (out ++ outs).
(** [l] is the sorted list of the occurrences of [p] in [w]. *)
Definition sorted_answer (w p l : list nat) : Prop := exact_answer p w l /\ StronglySorted lt l.
(** [p] has [n] occurrences in [w]. *)
Definition occurrences (w p : list nat) (n : nat) : Prop := exists l, exact_answer p w l /\ List.length l = n.
(** The patterns [ps] have [n] occurrences in [w], all together. *)
Definition all_occurrences (w : list nat) (ps : list (list nat)) (n : nat) : Prop :=
  exists ns, Forall2 (occurrences w) ps ns /\ list_sum ns = n.
(** The part of a table of counts on the queries [qs], with the rows of the suffix array of each. *)
Inductive count_table : list (list nat) -> list (nat * nat) -> list nat -> Prop :=
| ct_nil : count_table [] [] []
| ct_cons : forall q qs s e ranges dn ds de out, numeral dn (e - s) -> numeral ds s -> numeral de e -> count_table qs ranges out ->
            count_table (q :: qs) ((s, e) :: ranges) ([34] ++ q ++ [34; 44] ++ dn ++ [44] ++ ds ++ [44] ++ de ++ [10] ++ out).
(** * Calls of the benchmark library *)
(** Number of calls of the micro benchmark of an index among [js]. *)
Definition micro_calls (idx : nat) (js : list job) : nat :=
  List.length (filter (fun j => (jb_idx j =? idx) && match jb_bench j with BMicro => true | _ => false end) js).
(** The files of an index of a class and a rate over the text [data] are in the directory. *)
Definition index_files (tm : tmpl) (class : kind) (rate : nat) (data sa : list nat) (dir : files) : Prop :=
  exists v, build tm class rate data sa = Some v /\ has_files dir (map (file_of (rate_prefix rate)) (built_files tm class v)).
(** The classes with a rate of sub-sampling. *)
Definition subsamples (class : kind) : bool := match class with KRIndex | KRCSA | KRCSAPsi | KCSARaw => false | _ => true end.
(** The call [j] is of an index of the program, its files are in the directory, and there is at least one round; a
    benchmark that takes one pattern at a time needs one. *)
Definition may_call {E} (class_of : E -> kind) (tm : tmpl) (data sa : list nat) (dir : files) (configs : list (idx_config E)) (ps : list pattern) (j : job) : Prop :=
  exists c, nth_error configs (jb_idx j) = Some c /\
    index_files tm (class_of (ic_type c)) (if ic_sampling c then jb_rate j else 0) data sa dir /\
    0 < jb_iters j /\ (jb_bench j = BMicro -> ps <> []).
(** What the call of number [i] among [js] has to report. *)
Definition reported (w : list nat) (ps : list pattern) (js : list job) (i : nat) (co : counters) : Prop :=
  exists j, nth_error js i = Some j /\
    match jb_bench j with
    | BMicro => co_patterns co = 1 /\
        exists p, nth_error ps (micro_calls (jb_idx j) (firstn i js) mod List.length ps) = Some p /\ occurrences w (pt_decoded p) (co_occurrences co)
    | _ => co_patterns co = List.length ps /\ all_occurrences w (map pt_decoded ps) (co_occurrences co)
    end.
(** What a printed file has to say: the answers of all patterns, in the order of the patterns. *)
Definition report_of (w : list nat) (ps : list pattern) (out : list nat) : Prop :=
  exists ls, Forall2 (sorted_answer w) (map pt_decoded ps) ls /\ report (map pt_encoded ps) ls out.
