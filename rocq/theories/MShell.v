(** Model of the run of Big-BWT by the command interpreter: construct_big_bwt.h:39-90 with a program that may not run.

    MCache takes it that Big-BWT always runs on the data file.  Here construction composes a command line of the path,
    the command interpreter splits it into words, Big-BWT gets them as its arguments, and the result of std::system is
    not looked at.  A call returns, or throws (std::filesystem::file_size of a missing file). *)
From Coq Require Import List Arith Bool String Ascii.
From Verif Require Import MBase MBwt MStore MCache SpecCache.
Import ListNotations.

(** * The command line *)
(** construct_big_bwt.h:40 *)
Definition big_command (exe path : string) : string := (exe ++ " -s -e " ++ path ++ " > /dev/null 2>&1")%string.
(** What separates words for the command interpreter (external): space, tab, line feed *)
Definition blank (c : ascii) : bool := let n := nat_of_ascii c in (n =? 32) || (n =? 9) || (n =? 10).
(** The words of a command line.  Quotes, and the other characters that are special to the command interpreter, are left
    out: the theorems are about paths without them. *)
Fixpoint words (cur s : string) : list string :=
  match s with
  | EmptyString => match cur with EmptyString => [] | _ => [cur] end
  | String c s =>
      if blank c then match cur with EmptyString => words EmptyString s | _ => cur :: words EmptyString s end
      else words (cur ++ String c EmptyString) s
  end.
(** The program and its arguments: the last three words redirect the output. *)
Definition arguments (cmd : string) : list string := let ws := words EmptyString cmd in firstn (List.length ws - 3) ws.

(** * Big-BWT *)
(** What there is outside: whether there is a program of the name [sy_exe]; the data files; what Big-BWT computes *)
Record system := mk_system { sy_exe : string; sy_installed : bool; sy_files : string -> option (list nat); sy_big : list nat -> big_files }.
(** The program (external): the options -s and -e and one file.  The result: the path whose .bwt, .ssa and .esa it
    writes, and their contents. *)
Definition big_main (sy : system) (args : list string) : option (string * big_files) :=
  match args with
  | [_; s; e; f] =>
      if string_dec s "-s" then if string_dec e "-e" then data <- sy_files sy f ;; Some (f, sy_big sy data) else None else None
  | _ => None
  end.
(** construct_big_bwt.h:40-41 std::system, and the files beside [path] afterwards, if they are there *)
Definition run_big (sy : system) (path : string) : option big_files :=
  if sy_installed sy then
    '(f, g) <- big_main sy (arguments (big_command (sy_exe sy) path)) ;;
    if string_dec f path then Some g else None
  else None.

(** * Construction *)
(** construct_big_bwt.h:39-52 constructBWT: an ifstream over a missing file gives no symbols, so that the BWT is empty. *)
Definition sh_big_bwt (sy : system) (path : string) : step :=
  guarded (N FBigBwt) (fun p =>
    match run_big sy path with
    | Some g =>
        let p := put (N FBigEsa) (ItInts (bg_esa g)) (put (N FBigSsa) (ItInts (bg_ssa g)) (put (N FBigBwt) (ItInts (bg_bwt g)) p)) in
        bytes <- buf_ints p (N FBigBwt) ;;
        Some (put (N FBwt) (ItInts (read_symbols bytes)) (create (N FBwt) p))
    | None => Some (put (N FBwt) (ItInts []) (create (N FBwt) p))
    end).
(** construct_big_bwt.h:54-90 constructBWTRuns.  [false]: file_size throws. *)
Definition sh_big_runs (p : proc) : option (proc * bool) :=
  if file_exists p (N FFirst) then Some (p, true)
  else if file_exists p (N FBigBwt) then p <- step_big_runs p ;; Some (p, true)
  else Some (p, false).
(** construct.h:33-55 and construct_big_bwt.h:92-123: a call of construct for the data file [path], but for the load; what
    it throws elsewhere is undefined here, as in MCache. *)
Definition sh_cache (sy : system) (path : string) (sort : list nat -> list nat) (r : run) (p : proc) : option (proc * bool) :=
  match ru_route r with
  | Sdsl =>
      data <- sy_files sy path ;;
      p <- run_cache (mk_world data sort (sy_big sy)) r p ;; Some (p, true)
  | BigBwt =>
      p <- sh_big_bwt sy path p ;;
      '(p, ok) <- sh_big_runs p ;;
      if ok : bool then
        p <- run_steps ([step_alphabet; step_rle] ++ class_steps (ru_tm r) (ru_kd r) (ru_rate r)) p ;; Some (p, true)
      else Some (p, false)
  end.
(** The call with the load: the index, or none if it throws *)
Definition sh_index (sy : system) (path : string) (sort : list nat -> list nat) (r : run) (p : proc) : option (option obj * proc) :=
  '(p, ok) <- sh_cache sy path sort r p ;;
  if ok : bool then
    o <- load_config (ru_tm r) (ru_kd r) (new_rate (ru_rate r) []) (files_of (pr_disk p)) ;; Some (Some o, p)
  else Some (None, p).
