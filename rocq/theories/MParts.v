(** Model of the life of RLEString and PsiCoreBV objects: their bit vectors, and the addresses of bit vectors that
    their rank and select supports hold.

    An RLEString has a BitVector for the blocks and one per symbol (rle_string.hpp:1067-1070); BitVector declares its
    copy members (rle_string.hpp:1029-1038), which set the supports to the new vector, and so it has no move members.
    A PsiCoreBV has a std::vector of bit vectors and one of each kind of support (psi.h:706-714) and declares no copy
    or move members.

    Simplifications: one address and one directory stand for both supports of a vector; an assignment or a load always
    gives the target new vectors (std::vector may reuse its memory); the other members (numbers, run heads) are one
    value [A], which the source of a move keeps. *)
From Coq Require Import List Arith Bool.
From Verif Require Import MBase MRle MPsi.
Import ListNotations.

Inductive part_class := RleParts | PsiParts.

(** A bit vector at [sl_home], and its supports: the address they hold and the vector they were made for. *)
Record slot := mk_slot { sl_home : nat; sl_ptr : option nat; sl_dir : list bool }.

Section Parts.
  Variables (A : Type) (cls : part_class).

  Record pobj := mk_pobj { po_meta : A; po_slots : list slot }.
  (** Memory: the bit vectors and the objects that are alive; the next free address. *)
  Record pmem := mk_pmem { pm_next : nat; pm_bits : nat -> option (list bool); pm_objs : nat -> option pobj }.
  Definition empty_pmem : pmem := mk_pmem 0 (fun _ => None) (fun _ => None).

  Definition alloc_bits (m : pmem) (bs : list (list bool)) : pmem * list nat :=
    (mk_pmem (pm_next m + length bs)
       (fun a => if (pm_next m <=? a) && (a <? pm_next m + length bs) then nth_error bs (a - pm_next m) else pm_bits m a)
       (pm_objs m), seq (pm_next m) (length bs)).
  Definition free_bits (m : pmem) (l : list slot) : pmem :=
    mk_pmem (pm_next m) (fun a => if existsb (fun s => sl_home s =? a) l then None else pm_bits m a) (pm_objs m).
  Definition put (m : pmem) (x : nat) (o : option pobj) : pmem :=
    mk_pmem (pm_next m) (pm_bits m) (fun y => if y =? x then o else pm_objs m y).

  (** New vectors with supports of their own: the constructors (rle_string.hpp:700-707 with 1014-1027, psi.h:622-648;
      the memory of partial_psi_ is reserved, so its elements stay where they are) and load (rle_string.hpp:1055-1061,
      psi.h:691-704). *)
  Definition own_slots (m : pmem) (bs : list (list bool)) : pmem * list slot :=
    let '(m, hs) := alloc_bits m bs in (m, map (fun x => mk_slot (fst x) (Some (fst x)) (snd x)) (combine hs bs)).
  (** Copies of vectors and supports: rle_string.hpp:1029-1030, 1032-1038 for RLEString; memberwise for PsiCoreBV. *)
  Definition copy_slots (m : pmem) (l : list slot) : option (pmem * list slot) :=
    bs <- mmap (fun s => pm_bits m (sl_home s)) l ;;
    match cls with
    | RleParts => Some (own_slots m bs)
    | PsiParts =>
        let '(m, hs) := alloc_bits m bs in
        Some (m, map (fun x => mk_slot (fst x) (sl_ptr (snd x)) (sl_dir (snd x))) (combine hs l))
    end.
  (** Move: the memory of a std::vector passes to the target; runs_ of RLEString (the first vector) is copied.
      Third component: what the source keeps. *)
  Definition move_slots (m : pmem) (l : list slot) : option (pmem * list slot * list slot) :=
    match cls with
    | RleParts => '(m, l1) <- copy_slots m (firstn 1 l) ;; Some (m, l1 ++ skipn 1 l, firstn 1 l)
    | PsiParts => Some (m, l, [])
    end.

  Inductive pop :=
  | PNew (x : nat) (v : A) (bs : list (list bool))
  | PLoad (x : nat) (v : A) (bs : list (list bool))
  | PCopy (y x : nat) | PMove (y x : nat) | PAssign (y x : nat) | PMoveAssign (y x : nat)
  | PDestroy (x : nat).

  Definition no_obj (m : pmem) (x : nat) : option unit := match pm_objs m x with None => Some tt | Some _ => None end.
  Definition copy_obj (m : pmem) (y : nat) (o : pobj) : option pmem :=
    '(m, l) <- copy_slots m (po_slots o) ;; Some (put m y (Some (mk_pobj (po_meta o) l))).
  Definition move_obj (m : pmem) (y x : nat) (o : pobj) : option pmem :=
    '(m, l, r) <- move_slots m (po_slots o) ;;
    Some (put (put m y (Some (mk_pobj (po_meta o) l))) x (Some (mk_pobj (po_meta o) r))).

  (** One operation; [None]: not a program. *)
  Definition pstep (m : pmem) (op : pop) : option pmem :=
    match op with
    | PNew x v bs => _ <- no_obj m x ;; let '(m, l) := own_slots m bs in Some (put m x (Some (mk_pobj v l)))
    | PLoad x v bs =>
        o <- pm_objs m x ;;
        let '(m, l) := own_slots m bs in Some (free_bits (put m x (Some (mk_pobj v l))) (po_slots o))
    | PCopy y x => _ <- no_obj m y ;; o <- pm_objs m x ;; copy_obj m y o
    | PMove y x => _ <- no_obj m y ;; o <- pm_objs m x ;; move_obj m y x o
    | PAssign y x =>
        d <- pm_objs m y ;; o <- pm_objs m x ;;
        if y =? x then Some m else m <- copy_obj m y o ;; Some (free_bits m (po_slots d))
    | PMoveAssign y x =>
        d <- pm_objs m y ;; o <- pm_objs m x ;;
        if y =? x then None else m <- move_obj m y x o ;; Some (free_bits m (po_slots d))
    | PDestroy x => o <- pm_objs m x ;; Some (free_bits (put m x None) (po_slots o))
    end.
  Fixpoint psteps (m : pmem) (l : list pop) : option pmem :=
    match l with [] => Some m | o :: l => m <- pstep m o ;; psteps m l end.

  (** The vector that the supports of a slot read; an empty one needs none (rle_string.hpp:765, 789). *)
  Definition through (m : pmem) (s : slot) : option (list bool) :=
    b <- pm_bits m (sl_home s) ;;
    match b with
    | [] => Some []
    | _ => p <- sl_ptr s ;; v <- pm_bits m p ;; if list_eq_dec Bool.bool_dec v (sl_dir s) then Some v else None
    end.
  (** The object that queries see; [None]: some support reads what is not there. *)
  Definition pview (m : pmem) (x : nat) : option (A * list (list bool)) :=
    o <- pm_objs m x ;; l <- mmap (through m) (po_slots o) ;; Some (po_meta o, l).
End Parts.

(** The values of MRle and MPsi. *)
Definition rle_meta : Type := (nat * nat * list nat)%type.
Definition rle_bits (s : rlestr) : list (list bool) := rl_runs s :: rl_rps s.
Definition rle_members (s : rlestr) : rle_meta := (rl_r s, rl_b s, rl_heads s).
Definition rle_at (m : pmem rle_meta) (x : nat) : option rlestr :=
  '(r, b, h, l) <- pview rle_meta m x ;;
  match l with runs :: rps => Some (mk_rlestr r b h runs rps) | [] => None end.
Definition psi_meta : Type := (nat * nat)%type.
Definition psi_members (s : psi_bv) : psi_meta := (pv_n s, pv_first s).
Definition psi_at (m : pmem psi_meta) (x : nat) : option psi_bv :=
  '(n, f, l) <- pview psi_meta m x ;; Some (mk_psi_bv n f l).
