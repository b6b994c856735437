(** Model of the construction programs in benchmark/: benchmark/sr-csa/bm_construct_csa.cpp and
    benchmark/sr-index/bm_construct_ri.cpp.

    The benchmark library decides which registered functions are called, with which rates and rounds, and in which
    order: a program takes the list of the calls.  [None]: an exception leaves the program, or behaviour is undefined.
    Left out: the measured times, what the memory logs say, the benchmark that warms up, and the command line. *)
From Coq Require Import List Arith Bool String.
From Verif Require Import MBase MBwt MStore MCache MBench.
Import ListNotations.

(** A registered function: its name, its class, and whether it takes a rate *)
Record build_config := mk_build_config { bc_name : string; bc_class : kind; bc_sampling : bool }.
(** A call: the number of the function, range(0), and the rounds of "for (auto _ : t_state)" *)
Record build_job := mk_build_job { bj_idx : nat; bj_rate : nat; bj_iters : nat }.
(** The counters "n", "r", "s" and "r'" *)
Record sizes := mk_sizes { sz_n : option nat; sz_r : option nat; sz_s : option nat; sz_sub : option nat }.

(** int_vector_buffer(cache_file_name(key, t_config)).size().  [None]: there is no such file; what the buffer does
    then is not modelled, and the program goes on. *)
Definition file_size (p : proc) (n : name) : option nat :=
  match look_file p n with Some (Whole (ItInts l)) => Some (List.length l) | _ => None end.

(** sri::construct(index, t_data_path, t_config), for an object that may have been loaded before *)
Definition construct_into (i : input) (tm : tmpl) (kd : kind) (s : nat) (st : obj * proc) : option (obj * proc) :=
  p <- build_cache i tm kd s (snd st) ;;
  o <- load_config tm kd (fst st) (files_of (pr_disk p)) ;;
  Some (o, p).
(** The rounds: bm_construct_csa.cpp:44-48, 88-92, bm_construct_ri.cpp:42-46, 76-80; the object and the configuration
    are the same in all of them *)
Fixpoint rounds (k : nat) (i : input) (tm : tmpl) (kd : kind) (s : nat) (st : obj * proc) : option (obj * proc) :=
  match k with 0 => Some st | S k => st <- construct_into i tm kd s st ;; rounds k i tm kd s st end.

Section Program.
  (** The logs' names without ".html" and ".json", and the key of the file whose size is the counter "r'" *)
  Variables (log_name : build_config -> nat -> string) (sub_key : fkey) (tm : tmpl) (i : input).
  (** bm_construct_csa.cpp:40-72, 82-114, bm_construct_ri.cpp:39-68, 70-100.  The configuration is passed by value: a call
      starts with an empty file map.  The counters are set after the rounds: first all to 0, then the two of the class *)
  Definition do_build (configs : list build_config) (d : disk) (j : build_job) : option (disk * string * sizes) :=
    c <- nth_error configs (bj_idx j) ;;
    let s := if bc_sampling c then bj_rate j else 0 in
    '(_, p) <- rounds (bj_iters j) i tm (bc_class c) s (new_rate s [], new_proc d) ;;
    Some (pr_disk p, log_name c s,
          if bc_sampling c then mk_sizes (Some 0) (Some 0) (Some s) (file_size p (P s sub_key))
          else mk_sizes (file_size p (N FText)) (file_size p (N FFirst)) (Some 0) (Some 0)).
  (** main: bm_construct_csa.cpp:144-194, bm_construct_ri.cpp:114-146.  The directory, the log files with the number of
      the call that wrote each, the last one first, and the counters of the calls *)
  Fixpoint do_builds (configs : list build_config) (d : disk) (k : nat) (logs : list (string * nat)) (js : list build_job)
    : option (disk * list (string * nat) * list sizes) :=
    match js with
    | [] => Some (d, logs, [])
    | j :: js =>
        '(d, log, z) <- do_build configs d j ;;
        '(d, logs, zs) <- do_builds configs d (S k) ((log, k) :: logs) js ;;
        Some (d, logs, z :: zs)
    end.
  Definition build_program (configs : list build_config) (d : disk) (js : list build_job) : option (disk * list (string * nat) * list sizes) :=
    do_builds configs d 0 [] js.
End Program.

(** bm_construct_csa.cpp:158-188 *)
Definition csa_builds : list build_config :=
  [mk_build_config "R-CSA-BWT-Runs" KRCSA false; mk_build_config "R-CSA-Psi-Runs" KRCSAPsi false;
   mk_build_config "SR-CSA" KSrCSA true; mk_build_config "SR-CSA-Slim" KSlim true; mk_build_config "SR-CSA-Psi-Runs" KSrPsi true;
   mk_build_config "SR-CSA-VM" KSrCSAVM true; mk_build_config "SR-CSA-Psi-Runs-VM" KSrPsiVM true;
   mk_build_config "SR-CSA-VA" KSrCSAVA true; mk_build_config "SR-CSA-Psi-Runs-VA" KSrPsiVA true]%string.
(** bm_construct_csa.cpp:50-61, 94-105: the library gives the registered function the name it was registered with *)
Definition csa_log (c : build_config) (s : nat) : string :=
  let idx_name := after_slash (bc_name c) in
  if bc_sampling c then ("construction-" ++ idx_name ++ "-" ++ to_string s)%string else ("construction-" ++ idx_name)%string.
(** bm_construct_csa.cpp:111 *)
Definition csa_build_program := build_program csa_log FFirstIdx.

(** bm_construct_ri.cpp:128-140 *)
Definition sri_builds : list build_config :=
  [mk_build_config "R-Index" KRIndex false; mk_build_config "SR-Index" KSrIndex true;
   mk_build_config "SR-Index-VM" KSrIndexVM true; mk_build_config "SR-Index-VA" KSrIndexVA true]%string.
(** bm_construct_ri.cpp:48-57, 82-91 *)
Definition sri_log (c : build_config) (s : nat) : string :=
  if bc_sampling c then ("construction-sr-index-" ++ to_string s)%string else "construction-r-index"%string.
(** bm_construct_ri.cpp:97 *)
Definition sri_build_program := build_program sri_log FLastIdx.
