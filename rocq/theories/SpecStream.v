(** Vocabulary of the properties of serialize and load. *)
From Coq Require Import List Arith.
From Verif Require Import MBase MOldRle MStore MStream.
Import ListNotations.

(** What is in the stream, and how many bytes it has. *)
Definition stream_of (w : written) : list token := map snd (snd w).
Definition bytes_in (w : written) : nat := list_sum (map fst (snd w)).
(** An object of the class, as the constructor from bits or an assignment leaves it, not the one from sdsl::bit_vector. *)
Definition sized (v : sdv) : Prop := sd_u v = length (sd_bits v).
