(** Vocabulary of the property of Big-BWT and the command interpreter. *)
From Coq Require Import List Arith String Ascii.
From Verif Require Import MBase MStore MCache SpecCache MShell.
Import ListNotations.

Definition has_blank (s : string) : Prop := exists c, In c (list_ascii_of_string s) /\ (c = " "%char \/ c = "009"%char \/ c = "010"%char).
(** A path without blanks of a file with the content [data]; a program without blanks in its name that is there *)
Definition runs_on (sy : system) (path : string) (data : list nat) : Prop :=
  sy_installed sy = true /\ sy_exe sy <> EmptyString /\ ~ has_blank (sy_exe sy) /\ path <> EmptyString /\ ~ has_blank path /\
  sy_files sy path = Some data.
