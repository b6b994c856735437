(** Model of tool/int_vector_to_vector.cpp: an integer vector of the cache directory as a file of 64-bit words. *)
From Coq Require Import List Arith.
From Verif Require Import MBase MStore MBwt MCache.
Import ListNotations.

(** tool/int_vector_to_vector.cpp:31: the bytes of a value_type (std::uint64_t) in memory, on a little-endian machine:
    the [k] lowest bytes of [v], the lowest first *)
Fixpoint le_bytes (k v : nat) : list nat :=
  match k with 0 => [] | S k => v mod 256 :: le_bytes k (v / 256) end.
(** tool/int_vector_to_vector.cpp:30-33 *)
Definition vector_bytes (l : list nat) : list nat := flat_map (le_bytes 8) l.
(** The files of sdsl::int_vector<8>, whose header has no width: loading them as sdsl::int_vector<> is undefined. *)
Definition byte_file (n : name) : bool :=
  match nm_key n with FText | FBwt => true | _ => false end.
(** What is beside the cache: the output files, the latest first.  Their names: the file name of the key without
    type hash (tool/int_vector_to_vector.cpp:29), then ".vec.bin". *)
Definition exports := list (name * list nat).
(** tool/int_vector_to_vector.cpp:18-37 main: [rate], [key] and [hash] from the flags, in a new process.  The result of
    load_from_cache is not used: a missing file leaves the vector empty ([load_ints]).  The exit code is 0. *)
Definition int_vector_to_vector (rate : option nat) (key : fkey) (hash : bool) (d : disk) (x : exports) : option exports :=
  let n := mk_name rate key (if hash then Some TyInts else None) in
  _ <- guard (negb (byte_file n)) ;;
  l <- load_ints (new_proc d) n ;;
  Some ((mk_name rate key None, vector_bytes l) :: x).
