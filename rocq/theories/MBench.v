(** Model of the query programs in benchmark/: how they read patterns (bm_locate.h, base64.h) and what they report
    (bm_locate.h, bm_locate_set.h, benchmark/sr-index/bm_count_ri.cpp, benchmark/sr-csa/bm_count_csa.cpp).

    Bytes are numbers below 256.  [None]: an exception leaves the program, or behaviour is undefined.  Left out: the
    measured times, the sizes in bytes and the counters made of them, and the command line. *)
From Coq Require Import List Arith Bool String Ascii DecimalString.
From Verif Require Import MBase MRle MConstruct MRIndex MStore MFactory.
Import ListNotations.

Definition bytes_of (s : string) : list nat := map nat_of_ascii (list_ascii_of_string s).

(** * base64.h *)
(** base64_chars: benchmark/base64.h:71-80 *)
Definition b64_chars (url : bool) : list nat :=
  bytes_of ("ABCDEFGHIJKLMNOPQRSTUVWXYZ" ++ "abcdefghijklmnopqrstuvwxyz" ++ "0123456789" ++ (if url then "-_" else "+/"))%string.
(** pos_of_char: benchmark/base64.h:82-99; the letters are their codes: A 65, Z 90, a 97, z 122, 0 48, 9 57, + 43, - 45, / 47, _ 95 *)
Definition pos_of_char (chr : nat) : option nat :=
  if (65 <=? chr) && (chr <=? 90) then Some (chr - 65)
  else if (97 <=? chr) && (chr <=? 122) then Some (chr - 97 + (90 - 65) + 1)
  else if (48 <=? chr) && (chr <=? 57) then Some (chr - 48 + (90 - 65) + (122 - 97) + 2)
  else if (chr =? 43) || (chr =? 45) then Some 62
  else if (chr =? 47) || (chr =? 95) then Some 63
  else None.
(** insert_linebreaks: benchmark/base64.h:101-117; the fuel bounds the rounds of the loop *)
Fixpoint linebreaks_loop (fuel : nat) (str : list nat) (distance pos : nat) : option (list nat) :=
  match fuel with
  | 0 => None
  | S fuel =>
      if pos <? List.length str
      then linebreaks_loop fuel (firstn pos str ++ [10] ++ skipn pos str) distance (pos + distance + 1)
      else Some str
  end.
Definition insert_linebreaks (str : list nat) (distance : nat) : option (list nat) :=
  if List.length str =? 0 then Some [] else linebreaks_loop (S (List.length str)) str distance distance.
(** The characters for the bytes from [pos] on: benchmark/base64.h:162-180 *)
Definition encode_chunk (url : bool) (bs : list nat) (pos : nat) : option (list nat) :=
  let trailing := if url then 46 else 61 in
  let chars := nth_error (b64_chars url) in
  b0 <- nth_error bs pos ;;
  c0 <- chars (Nat.shiftr (Nat.land b0 252) 2) ;;
  if pos + 1 <? List.length bs then
    b1 <- nth_error bs (pos + 1) ;;
    c1 <- chars (Nat.shiftl (Nat.land b0 3) 4 + Nat.shiftr (Nat.land b1 240) 4) ;;
    if pos + 2 <? List.length bs then
      b2 <- nth_error bs (pos + 2) ;;
      c2 <- chars (Nat.shiftl (Nat.land b1 15) 2 + Nat.shiftr (Nat.land b2 192) 6) ;;
      c3 <- chars (Nat.land b2 63) ;;
      Some [c0; c1; c2; c3]
    else
      c2 <- chars (Nat.shiftl (Nat.land b1 15) 2) ;;
      Some [c0; c1; c2; trailing]
  else
    c1 <- chars (Nat.shiftl (Nat.land b0 3) 4) ;;
    Some [c0; c1; trailing; trailing].
(** base64_encode: benchmark/base64.h:134-186, 275-277; [pos] is an unsigned int, of numbers below [uint]; the fuel bounds the rounds *)
Fixpoint encode_loop (uint : nat) (fuel : nat) (url : bool) (bs : list nat) (pos : nat) (ret : list nat) : option (list nat) :=
  match fuel with
  | 0 => None
  | S fuel =>
      if pos <? List.length bs
      then c <- encode_chunk url bs pos ;; encode_loop uint fuel url bs ((pos + 3) mod uint) (ret ++ c)
      else Some ret
  end.
Definition base64_encode (uint : nat) (url : bool) (bs : list nat) : option (list nat) :=
  encode_loop uint (S (List.length bs)) url bs 0 [].
(** base64_encode_pem, base64_encode_mime: benchmark/base64.h:119-132, 279-285 (64 and 76 characters in a line) *)
Definition encode_with_line_breaks (uint : nat) (line_length : nat) (bs : list nat) : option (list nat) :=
  s <- base64_encode uint false bs ;; insert_linebreaks s line_length.
(** The bytes of the chunk at [pos]: benchmark/base64.h:233-263; static_cast to char keeps the low eight bits *)
Definition is_pad (c : nat) : bool := (c =? 61) || (c =? 46).
Definition decode_chunk (s : list nat) (pos : nat) : option (list nat) :=
  a1 <- nth_error s (pos + 1) ;; p1 <- pos_of_char a1 ;;
  a0 <- nth_error s (pos + 0) ;; p0 <- pos_of_char a0 ;;
  let r0 := (Nat.shiftl p0 2 + Nat.shiftr (Nat.land p1 48) 4) mod 256 in
  match nth_error s (pos + 2) with
  | None => Some [r0]
  | Some a2 =>
      if is_pad a2 then Some [r0] else
      p2 <- pos_of_char a2 ;;
      let r1 := (Nat.shiftl (Nat.land p1 15) 4 + Nat.shiftr (Nat.land p2 60) 2) mod 256 in
      match nth_error s (pos + 3) with
      | None => Some [r0; r1]
      | Some a3 =>
          if is_pad a3 then Some [r0; r1] else
          p3 <- pos_of_char a3 ;;
          Some [r0; r1; (Nat.shiftl (Nat.land p2 3) 6 + p3) mod 256]
      end
  end.
Fixpoint decode_loop (fuel : nat) (s : list nat) (pos : nat) (ret : list nat) : option (list nat) :=
  match fuel with
  | 0 => None
  | S fuel =>
      if pos <? List.length s
      then c <- decode_chunk s pos ;; decode_loop fuel s (pos + 4) (ret ++ c)
      else Some ret
  end.
(** decode: benchmark/base64.h:188-273 *)
Definition base64_decode (s : list nat) (remove_linebreaks : bool) : option (list nat) :=
  let s := if remove_linebreaks then filter (fun c => negb (c =? 10)) s else s in
  if List.length s =? 0 then Some [] else decode_loop (S (List.length s)) s 0 [].

(** * Patterns *)
(** Pattern: benchmark/bm_locate.h:189-195 *)
Record pattern := mk_pattern { pt_encoded : list nat; pt_decoded : list nat }.
(** toPatternCode: benchmark/bm_locate.h:197-209; std::map::at throws *)
Inductive pattern_code := CPlain | CBase64.
Definition to_pattern_code (s : string) : option pattern_code :=
  if String.eqb s "PLAIN" then Some CPlain else if String.eqb s "BASE64" then Some CBase64 else None.
(** std::getline: what is in front of the next new line, and what follows it *)
Fixpoint getline (bs : list nat) : list nat * list nat :=
  match bs with
  | [] => ([], [])
  | c :: bs => if c =? 10 then ([], bs) else let '(l, r) := getline bs in (c :: l, r)
  end.
Definition decode_pattern (code : pattern_code) (buffer : list nat) : option (list nat) :=
  match code with CBase64 => base64_decode buffer false | CPlain => Some buffer end.
(** The loop of ReadPatterns: benchmark/bm_locate.h:220-236; getline fails if nothing is left *)
Fixpoint patterns_loop (fuel : nat) (code : pattern_code) (bs : list nat) (ps : list pattern) : option (list pattern) :=
  match fuel with
  | 0 => None
  | S fuel =>
      match bs with
      | [] => Some ps
      | _ =>
          let '(buffer, bs) := getline bs in
          if List.length buffer =? 0 then patterns_loop fuel code bs ps
          else d <- decode_pattern code buffer ;; patterns_loop fuel code bs (ps ++ [mk_pattern buffer d])
      end
  end.
(** ReadPatterns: benchmark/bm_locate.h:211-240, for a file that can be opened *)
Definition read_patterns (flag : string) (file : list nat) : option (list pattern) :=
  code <- to_pattern_code flag ;; patterns_loop (S (List.length file)) code file [].

(** * What is reported *)
(** The counters Patterns and Occurrences: benchmark/bm_locate.h:43-54 *)
Record counters := mk_counters { co_patterns : nat; co_occurrences : nat }.
(** operator<< of an integer *)
Definition shown (n : nat) : list nat := bytes_of (NilEmpty.string_of_uint (Nat.to_uint n)).

Section Queries.
  Variable locate : list nat -> option (list nat).
  Variable count : list nat -> option range.

  (** One round of the loop of BM_MacroLocate: benchmark/bm_locate.h:61-67 *)
  Definition macro_round (ps : list pattern) : option nat :=
    mfold (fun total p => occs <- locate (pt_decoded p) ;; Some (total + List.length occs)) ps 0.
  (** BM_MacroLocate: benchmark/bm_locate.h:56-70; [iters] is the number of rounds the library asks for *)
  Definition macro_locate (iters : nat) (ps : list pattern) : option counters :=
    total <- mfold (fun _ _ => macro_round ps) (seq 0 iters) 0 ;;
    Some (mk_counters (List.length ps) total).
  (** BM_MicroLocate: benchmark/bm_locate.h:72-88; with the new value of *t_i *)
  Definition micro_locate (iters : nat) (ps : list pattern) (i : nat) : option (counters * nat) :=
    p <- nth_error ps i ;;
    total <- mfold (fun _ _ => occs <- locate (pt_decoded p) ;; Some (List.length occs)) (seq 0 iters) 0 ;;
    Some (mk_counters 1 total, if S i =? List.length ps then 0 else S i).
  (** One round of the loop of BM_PrintLocate, with the file it writes: benchmark/bm_locate.h:106-117 *)
  Definition print_step (st : nat * list nat) (p : pattern) : option (nat * list nat) :=
    let '(total, out) := st in
    occs <- locate (pt_decoded p) ;;
    Some (total + List.length occs,
          out ++ pt_encoded p ++ [10] ++ flat_map (fun item => [32; 32] ++ shown item ++ [10]) (std_sort Nat.ltb occs)).
  Definition print_round (ps : list pattern) : option (nat * list nat) := mfold print_step ps (0, []).
  (** BM_PrintLocate: benchmark/bm_locate.h:90-121; each round truncates the file *)
  Definition print_locate (iters : nat) (ps : list pattern) : option (counters * list nat) :=
    '(total, out) <- mfold (fun _ _ => print_round ps) (seq 0 iters) (0, []) ;;
    Some (mk_counters (List.length ps) total, out).
  (** BM_QueryCount: benchmark/sr-index/bm_count_ri.cpp:21-33, benchmark/sr-csa/bm_count_csa.cpp:21-33 *)
  Definition count_round (ps : list pattern) : option nat :=
    mfold (fun total p => '(s, e) <- count (pt_decoded p) ;; Some (total + sub64 e s)) ps 0.
  Definition query_count (iters : nat) (ps : list pattern) : option counters :=
    total <- mfold (fun _ _ => count_round ps) (seq 0 iters) 0 ;;
    Some (mk_counters (List.length ps) total).
  (** BM_PrintQueryCount: benchmark/sr-index/bm_count_ri.cpp:35-56, benchmark/sr-csa/bm_count_csa.cpp:35-56 *)
  Definition csv_head : list nat := bytes_of "pattern,count,range_start,range_end" ++ [10].
  Definition csv_step (st : nat * list nat) (p : pattern) : option (nat * list nat) :=
    let '(total, out) := st in
    '(s, e) <- count (pt_decoded p) ;;
    Some (total + sub64 e s,
          out ++ [34] ++ pt_encoded p ++ [34; 44] ++ shown (sub64 e s) ++ [44] ++ shown s ++ [44] ++ shown e ++ [10]).
  Definition csv_round (ps : list pattern) : option (nat * list nat) := mfold csv_step ps (0, csv_head).
  Definition print_count (iters : nat) (ps : list pattern) : option (counters * list nat) :=
    '(total, out) <- mfold (fun _ _ => csv_round ps) (seq 0 iters) (0, []) ;;
    Some (mk_counters (List.length ps) total, out).
End Queries.

(** * The programs *)
Section Programs.
  Variables (E : Type) (rank_of : E -> nat) (kind_of : E -> kind) (tm : tmpl).

  (** IndexConfig: benchmark/bm_locate_set.h:12-17; the factory's sampling_size is 0 unless it is set *)
  Record idx_config := mk_idx_config { ic_name : string; ic_type : E; ic_sampling : bool }.
  (** benchmark/bm_locate_set.h:27-30: [rate] is the argument of the benchmark, range(0) *)
  Definition fac_config (c : idx_config) (rate : nat) : cfg E := mk_cfg (ic_type c) (if ic_sampling c then rate else 0).
  (** One call of a registered function by the benchmark library: of the index of number [jb_idx], with an argument
      and a number of rounds (benchmark/bm_locate.h:146-184) *)
  Inductive bench := BMacro | BMicro | BPrint.
  Record job := mk_job { jb_idx : nat; jb_rate : nat; jb_bench : bench; jb_iters : nat }.
  (** The name of the file: benchmark/bm_locate.h:93-99.  The library gives the registered function the name it was
      registered with, "Print/" and the name of the index. *)
  Definition after_slash (s : string) : string :=
    match index 0 "/" s with Some i => substring (i + 1) (String.length s - (i + 1)) s | None => s end.
  Fixpoint no_slash (s : string) : string :=
    match s with EmptyString => EmptyString | String c s => String (if Ascii.eqb c "/" then "_" else c)%char (no_slash s) end.
  Definition to_string (n : nat) : string := NilEmpty.string_of_uint (Nat.to_uint n).
  Definition result_name (c : idx_config) (rate : nat) : string :=
    let idx_name := no_slash (after_slash ("Print/" ++ ic_name c)) in
    let idx_name := if ic_sampling c then (idx_name ++ "-" ++ to_string rate)%string else idx_name in
    ("result-" ++ idx_name ++ ".txt")%string.
  (** The state: the factory, the counter *t_i that the micro benchmarks of an index share (benchmark/bm_locate.h:164-165),
      and the files that were written, the last one first *)
  Record program := mk_program { pr_factory : factory E; pr_next : list nat; pr_out : list (string * list nat) }.
  Fixpoint out_find (l : list (string * list nat)) (k : string) : option (list nat) :=
    match l with [] => None | (x, c) :: l => if String.eqb x k then Some c else out_find l k end.
  Definition set_nth (l : list nat) (i x : nat) : list nat := firstn i l ++ [x] ++ skipn (S i) l.
  (** make_index and the benchmark: benchmark/bm_locate_set.h:26-39, benchmark/bm_locate.h:56-121 *)
  Definition do_job (configs : list idx_config) (ps : list pattern) (s : program) (j : job) : option (program * counters) :=
    c <- nth_error configs (jb_idx j) ;;
    let '(f, h) := make E rank_of kind_of tm (pr_factory s) (fac_config c (jb_rate j)) in
    h <- h ;;
    let locate := ask_locate E tm f h in
    match jb_bench j with
    | BMacro =>
        co <- macro_locate locate (jb_iters j) ps ;;
        Some (mk_program f (pr_next s) (pr_out s), co)
    | BMicro =>
        i <- nth_error (pr_next s) (jb_idx j) ;;
        '(co, i) <- micro_locate locate (jb_iters j) ps i ;;
        Some (mk_program f (set_nth (pr_next s) (jb_idx j) i) (pr_out s), co)
    | BPrint =>
        '(co, out) <- print_locate locate (jb_iters j) ps ;;
        Some (mk_program f (pr_next s) ((result_name c (jb_rate j), out) :: pr_out s), co)
    end.
  Fixpoint do_jobs (configs : list idx_config) (ps : list pattern) (s : program) (js : list job) : option (program * list counters) :=
    match js with
    | [] => Some (s, [])
    | j :: js => '(s, r) <- do_job configs ps s j ;; '(s, rs) <- do_jobs configs ps s js ;; Some (s, r :: rs)
    end.
  (** main: benchmark/sr-index/bm_locate_ri.cpp:30-61, benchmark/sr-csa/bm_locate_csa.cpp:30-69; [js] are the calls the library
      makes.  The files that were written, and the counters each call reports *)
  Definition locate_program (configs : list idx_config) (flag : string) (file : list nat) (dir : files) (js : list job)
    : option (list (string * list nat) * list counters) :=
    ps <- read_patterns flag file ;;
    '(s, rs) <- do_jobs configs ps (mk_program (new_factory E dir) (repeat 0 (List.length configs)) []) js ;;
    Some (pr_out s, rs).
  Record result := mk_result { re_counters : counters; re_file : option (list nat) }.
  (** main of the counting programs: benchmark/sr-index/bm_count_ri.cpp:58-96, benchmark/sr-csa/bm_count_csa.cpp:58-96.  All indexes are made
      before any query; [js] are the calls: number of the index, does it print, rounds *)
  Definition count_jobs (f : factory E) (hs : list (option handle)) (ps : list pattern) (js : list (nat * bool * nat))
    : option (list result) :=
    mmap (fun '(i, print, iters) =>
            h <- nth_error hs i ;; h <- h ;;
            if print : bool
            then '(co, out) <- print_count (ask_count E tm f h) iters ps ;; Some (mk_result co (Some out))
            else co <- query_count (ask_count E tm f h) iters ps ;; Some (mk_result co None)) js.
  Definition count_program (types : list E) (flag : string) (file : list nat) (dir : files) (js : list (nat * bool * nat))
    : option (list result) :=
    ps <- read_patterns flag file ;;
    let '(f, hs) := history E rank_of kind_of tm (new_factory E dir) (map (fun t => FMake (mk_cfg t 0)) types) in
    _ <- mmap (fun h => h) hs ;;
    count_jobs f hs ps js.
End Programs.
Arguments mk_idx_config {E}. Arguments ic_name {E}. Arguments ic_type {E}. Arguments ic_sampling {E}.
Arguments result_name {E}.
(** idx_configs: benchmark/sr-index/bm_locate_ri.cpp:46-51 *)
Definition sri_configs : list (idx_config sri_enum) :=
  [mk_idx_config "R-Index" E_R_INDEX false; mk_idx_config "SR-Index" E_SR_INDEX true;
   mk_idx_config "SR-Index-VM" E_SR_INDEX_VM true; mk_idx_config "SR-Index-VA" E_SR_INDEX_VA true]%string.
(** idx_configs: benchmark/sr-csa/bm_locate_csa.cpp:46-59 *)
Definition csa_configs : list (idx_config csa_enum) :=
  [mk_idx_config "R-CSA-BWT-RUNS" E_R_CSA false; mk_idx_config "R-CSA-PSI-RUNS" E_R_CSA_PSI_RUNS false;
   mk_idx_config "SR-CSA" E_SR_CSA true; mk_idx_config "SR-CSA-VM" E_SR_CSA_VM true; mk_idx_config "SR-CSA-VA" E_SR_CSA_VA true;
   mk_idx_config "SR-CSA-Slim" E_SR_CSA_SLIM true; mk_idx_config "SR-CSA-Slim-VM" E_SR_CSA_SLIM_VM true;
   mk_idx_config "SR-CSA-Slim-VA" E_SR_CSA_SLIM_VA true;
   mk_idx_config "SR-CSA-PSI-RUNS" E_SR_CSA_PSI_RUNS true; mk_idx_config "SR-CSA-PSI-RUNS-VM" E_SR_CSA_PSI_RUNS_VM true;
   mk_idx_config "SR-CSA-PSI-RUNS-VA" E_SR_CSA_PSI_RUNS_VA true]%string.
(** index_configs of the counting programs: benchmark/sr-index/bm_count_ri.cpp:76-78, benchmark/sr-csa/bm_count_csa.cpp:76-78 *)
Definition sri_count_types : list sri_enum := [E_R_INDEX].
Definition csa_count_types : list csa_enum := [E_R_CSA].
