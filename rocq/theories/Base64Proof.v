(** Proofs about base64.h. *)
From Coq Require Import List Arith Bool String Ascii Lia.
From Verif Require Import Spec MBase MBench SpecBench.
Import ListNotations.

(** * Bits *)
Definition all_below (n : nat) (f : nat -> bool) : bool := forallb f (seq 0 n).
Lemma all_below_spec n f : all_below n f = true -> forall x, x < n -> f x = true.
Proof. intros H x Hx. unfold all_below in H. rewrite forallb_forall in H. apply H, in_seq. lia. Qed.
Lemma check1 n (f g : nat -> nat) : all_below n (fun x => f x =? g x) = true -> forall x, x < n -> f x = g x.
Proof. intros H x Hx. apply Nat.eqb_eq. exact (all_below_spec n _ H x Hx). Qed.
Definition beqs (a b : list bool) : bool := if list_eq_dec bool_dec a b then true else false.
Lemma checkb n (f g : nat -> list bool) : all_below n (fun x => beqs (f x) (g x)) = true -> forall x, x < n -> f x = g x.
Proof. intros H x Hx. pose proof (all_below_spec n _ H x Hx) as Q. cbv beta in Q. unfold beqs in Q. destruct (list_eq_dec bool_dec (f x) (g x)); [assumption|discriminate]. Qed.
Lemma checkb2 n m (f g : nat -> nat -> list bool) : all_below n (fun x => all_below m (fun y => beqs (f x y) (g x y))) = true ->
  forall x y, x < n -> y < m -> f x y = g x y.
Proof. intros H x y Hx Hy. pose proof (all_below_spec n _ H x Hx) as Q. cbv beta in Q. exact (checkb m (f x) (g x) Q y Hy). Qed.

Lemma land_fc x : x < 256 -> Nat.shiftr (Nat.land x 252) 2 = x / 4.
Proof. revert x. apply check1. vm_compute. reflexivity. Qed.
Lemma land_03 x : x < 256 -> Nat.shiftl (Nat.land x 3) 4 = (x mod 4) * 16.
Proof. revert x. apply (check1 256 (fun x => Nat.shiftl (Nat.land x 3) 4)). vm_compute. reflexivity. Qed.
Lemma land_f0 x : x < 256 -> Nat.shiftr (Nat.land x 240) 4 = x / 16.
Proof. revert x. apply (check1 256 (fun x => Nat.shiftr (Nat.land x 240) 4)). vm_compute. reflexivity. Qed.
Lemma land_0f x : x < 256 -> Nat.shiftl (Nat.land x 15) 2 = (x mod 16) * 4.
Proof. revert x. apply (check1 256 (fun x => Nat.shiftl (Nat.land x 15) 2)). vm_compute. reflexivity. Qed.
Lemma land_c0 x : x < 256 -> Nat.shiftr (Nat.land x 192) 6 = x / 64.
Proof. revert x. apply (check1 256 (fun x => Nat.shiftr (Nat.land x 192) 6)). vm_compute. reflexivity. Qed.
Lemma land_3f x : x < 256 -> Nat.land x 63 = x mod 64.
Proof. revert x. apply (check1 256 (fun x => Nat.land x 63)). vm_compute. reflexivity. Qed.
Lemma land_30 x : x < 64 -> Nat.shiftr (Nat.land x 48) 4 = x / 16.
Proof. revert x. apply (check1 64 (fun x => Nat.shiftr (Nat.land x 48) 4)). vm_compute. reflexivity. Qed.
Lemma land_0f' x : x < 64 -> Nat.shiftl (Nat.land x 15) 4 = (x mod 16) * 16.
Proof. revert x. apply (check1 64 (fun x => Nat.shiftl (Nat.land x 15) 4)). vm_compute. reflexivity. Qed.
Lemma land_3c x : x < 64 -> Nat.shiftr (Nat.land x 60) 2 = x / 4.
Proof. revert x. apply (check1 64 (fun x => Nat.shiftr (Nat.land x 60) 2)). vm_compute. reflexivity. Qed.
Lemma land_03' x : x < 64 -> Nat.shiftl (Nat.land x 3) 6 = (x mod 4) * 64.
Proof. revert x. apply (check1 64 (fun x => Nat.shiftl (Nat.land x 3) 6)). vm_compute. reflexivity. Qed.
Lemma shl2 x : x < 64 -> Nat.shiftl x 2 = x * 4.
Proof. revert x. apply (check1 64 (fun x => Nat.shiftl x 2)). vm_compute. reflexivity. Qed.

Lemma bits8_62 x : x < 256 -> bits 8 x = bits 6 (x / 4) ++ bits 2 (x mod 4).
Proof. revert x. apply checkb. vm_compute. reflexivity. Qed.
Lemma bits8_44 x : x < 256 -> bits 8 x = bits 4 (x / 16) ++ bits 4 (x mod 16).
Proof. revert x. apply (checkb 256 (bits 8)). vm_compute. reflexivity. Qed.
Lemma bits8_26 x : x < 256 -> bits 8 x = bits 2 (x / 64) ++ bits 6 (x mod 64).
Proof. revert x. apply (checkb 256 (bits 8)). vm_compute. reflexivity. Qed.
Lemma bits6_24 x y : x < 4 -> y < 16 -> bits 6 (x * 16 + y) = bits 2 x ++ bits 4 y.
Proof. revert x y. apply (checkb2 4 16 (fun x y => bits 6 (x * 16 + y))). vm_compute. reflexivity. Qed.
Lemma bits6_42 x y : x < 16 -> y < 4 -> bits 6 (x * 4 + y) = bits 4 x ++ bits 2 y.
Proof. revert x y. apply (checkb2 16 4 (fun x y => bits 6 (x * 4 + y))). vm_compute. reflexivity. Qed.

Definition value (l : list bool) : nat := fold_left (fun v (b : bool) => 2 * v + (if b then 1 else 0)) l 0.
Lemma bits6_inj x y : x < 64 -> y < 64 -> bits 6 x = bits 6 y -> x = y.
Proof.
  intros Hx Hy H. assert (forall x, x < 64 -> value (bits 6 x) = x) as V.
  { apply (check1 64 (fun x => value (bits 6 x)) (fun x => x)). vm_compute. reflexivity. }
  rewrite <- (V x Hx), <- (V y Hy), H. reflexivity.
Qed.
Lemma bits8_inj x y : x < 256 -> y < 256 -> bits 8 x = bits 8 y -> x = y.
Proof.
  intros Hx Hy H. assert (forall x, x < 256 -> value (bits 8 x) = x) as V.
  { apply (check1 256 (fun x => value (bits 8 x)) (fun x => x)). vm_compute. reflexivity. }
  rewrite <- (V x Hx), <- (V y Hy), H. reflexivity.
Qed.
Lemma bits_len w x : List.length (bits w x) = w.
Proof. unfold bits. rewrite map_length, seq_length. reflexivity. Qed.
Lemma flat_len w l : List.length (flat_map (bits w) l) = w * List.length l.
Proof. induction l as [|x l IH]; [cbn; lia|]. cbn [flat_map List.length]. rewrite app_length, bits_len, IH. lia. Qed.
Lemma app_split {A} : forall a b c d : list A, List.length a = List.length c -> a ++ b = c ++ d -> a = c /\ b = d.
Proof.
  induction a as [|x a IH]; intros b c d L H; destruct c as [|y c]; try discriminate L; [auto|].
  cbn in H. injection H as -> H. destruct (IH b c d) as [-> ->]; auto.
Qed.
Lemma flat_inj w n : (forall x y, x < n -> y < n -> bits w x = bits w y -> x = y) ->
  forall l l' z z', Forall (fun x => x < n) l -> Forall (fun x => x < n) l' -> List.length l = List.length l' ->
  flat_map (bits w) l ++ z = flat_map (bits w) l' ++ z' -> l = l' /\ z = z'.
Proof.
  intros I l. induction l as [|x l IH]; intros l' z z' F F' L H; destruct l' as [|y l']; try discriminate L; [auto|].
  cbn [flat_map] in H. rewrite <- !app_assoc in H. apply app_split in H as [H1 H2]; [|rewrite !bits_len; reflexivity].
  inversion F as [|? ? Fx Fl]; inversion F' as [|? ? Fy Fl']; subst. apply I in H1; [|assumption..]. subst y.
  destruct (IH l' z z') as [-> ->]; auto.
Qed.

(** * Digits *)
Fixpoint byte_digits (bs : list nat) : list nat :=
  match bs with
  | [] => []
  | [a] => [a / 4; (a mod 4) * 16]
  | [a; b] => [a / 4; (a mod 4) * 16 + b / 16; (b mod 16) * 4]
  | a :: b :: c :: r => [a / 4; (a mod 4) * 16 + b / 16; (b mod 16) * 4 + c / 64; c mod 64] ++ byte_digits r
  end.
Fixpoint digit_bytes (ds : list nat) : list nat :=
  match ds with
  | [] => []
  | [a] => []
  | [a; b] => [a * 4 + b / 16]
  | [a; b; c] => [a * 4 + b / 16; (b mod 16) * 16 + c / 4]
  | a :: b :: c :: d :: r => [a * 4 + b / 16; (b mod 16) * 16 + c / 4; (c mod 4) * 64 + d] ++ digit_bytes r
  end.
Lemma ind3 (P : list nat -> Prop) : P [] -> (forall a, P [a]) -> (forall a b, P [a; b]) ->
  (forall a b c r, P r -> P (a :: b :: c :: r)) -> forall l, P l.
Proof.
  intros H0 H1 H2 H3. fix IH 1. intros [|a [|b [|c r]]]; [exact H0|apply H1|apply H2|apply H3, IH].
Qed.
Lemma ind4 (P : list nat -> Prop) : P [] -> (forall a, P [a]) -> (forall a b, P [a; b]) -> (forall a b c, P [a; b; c]) ->
  (forall a b c d r, P r -> P (a :: b :: c :: d :: r)) -> forall l, P l.
Proof.
  intros H0 H1 H2 H3 H4. fix IH 1. intros [|a [|b [|c [|d r]]]]; [exact H0|apply H1|apply H2|apply H3|apply H4, IH].
Qed.
Lemma div_lt x a b : x < a * b -> x / a < b.
Proof. intros. apply Nat.div_lt_upper_bound; lia. Qed.
Ltac small := repeat match goal with
  | |- context [?x mod ?n] => lazymatch goal with _ : x mod n < n |- _ => fail | _ => pose proof (Nat.mod_upper_bound x n ltac:(lia)) end
  | |- context [?x / ?n] => lazymatch goal with _ : x = n * (x / n) + x mod n |- _ => fail | _ => pose proof (Nat.div_mod x n ltac:(lia)); pose proof (Nat.mod_upper_bound x n ltac:(lia)) end
  end; lia.
Ltac fa := cbn [byte_digits digit_bytes app]; repeat (apply Forall_cons; [small|]); try apply Forall_nil.

Lemma byte_digits_bits : forall bs, Forall is_byte bs ->
  exists z, z < 6 /\ flat_map (bits 6) (byte_digits bs) = flat_map (bits 8) bs ++ repeat false z.
Proof.
  unfold is_byte. intros bs. induction bs as [|a|a b|a b c r IH] using ind3.
  - intros _. exists 0. split; [lia|reflexivity].
  - intros F. inversion F; subst. exists 4. split; [lia|]. cbn [byte_digits flat_map].
    rewrite (bits8_62 a) by assumption. replace (a mod 4 * 16) with (a mod 4 * 16 + 0) by lia. rewrite bits6_24 by small.
    rewrite !app_nil_r. rewrite <- app_assoc. reflexivity.
  - intros F. inversion F as [|? ? Fa F']; inversion F'; subst. exists 2. split; [lia|]. cbn [byte_digits flat_map].
    rewrite (bits8_62 a), (bits8_44 b) by assumption. rewrite bits6_24 by small.
    replace (b mod 16 * 4) with (b mod 16 * 4 + 0) by lia. rewrite bits6_42 by small.
    rewrite !app_nil_r. rewrite <- !app_assoc. reflexivity.
  - intros F. inversion F as [|? ? Fa F']; inversion F' as [|? ? Fb F'']; inversion F'' as [|? ? Fc Fr]; subst.
    destruct (IH Fr) as (z & Hz & E). exists z. split; [exact Hz|]. cbn [byte_digits flat_map app]. rewrite E.
    rewrite (bits8_62 a), (bits8_44 b), (bits8_26 c) by assumption. rewrite bits6_24 by small. rewrite bits6_42 by small.
    rewrite <- !app_assoc. reflexivity.
Qed.
Lemma byte_digits_small : forall bs, Forall is_byte bs -> Forall (fun d => d < 64) (byte_digits bs).
Proof.
  unfold is_byte. intros bs. induction bs as [|a|a b|a b c r IH] using ind3.
  - constructor.
  - intros F. inversion F; subst. fa.
  - intros F. inversion F as [|? ? Fa F']; inversion F'; subst. fa.
  - intros F. inversion F as [|? ? Fa F']; inversion F' as [|? ? Fb F'']; inversion F'' as [|? ? Fc Fr]; subst.
    fa. exact (IH Fr).
Qed.
Lemma bits2_2 x y : x < 64 -> y < 64 -> bits 8 (x * 4 + y / 16) = bits 6 x ++ bits 2 (y / 16).
Proof.
  intros Hx Hy. rewrite bits8_62 by small. rewrite (Nat.add_comm (x * 4)), Nat.div_add, Nat.mod_add by lia.
  assert (y / 16 < 4) by small. rewrite (Nat.div_small (y / 16)), (Nat.mod_small (y / 16)) by lia. reflexivity.
Qed.
Lemma bits4_4 y z : y < 64 -> z < 64 -> bits 8 (y mod 16 * 16 + z / 4) = bits 4 (y mod 16) ++ bits 4 (z / 4).
Proof.
  intros Hx Hy. rewrite bits8_44 by small. rewrite (Nat.add_comm (y mod 16 * 16)), Nat.div_add, Nat.mod_add by lia.
  assert (z / 4 < 16) by small. rewrite (Nat.div_small (z / 4)), (Nat.mod_small (z / 4)) by lia. reflexivity.
Qed.
Lemma bits2_6 z d : z < 64 -> d < 64 -> bits 8 (z mod 4 * 64 + d) = bits 2 (z mod 4) ++ bits 6 d.
Proof.
  intros Hx Hy. rewrite bits8_26 by small. rewrite (Nat.add_comm (z mod 4 * 64)), Nat.div_add, Nat.mod_add by lia.
  rewrite (Nat.div_small d), (Nat.mod_small d) by lia. reflexivity.
Qed.
Lemma bits6_split24 y : y < 64 -> bits 6 y = bits 2 (y / 16) ++ bits 4 (y mod 16).
Proof. intros. rewrite <- bits6_24 by small. f_equal. small. Qed.
Lemma bits6_split42 y : y < 64 -> bits 6 y = bits 4 (y / 4) ++ bits 2 (y mod 4).
Proof. intros. rewrite <- bits6_42 by small. f_equal. small. Qed.
Lemma digit_bytes_bits : forall ds, Forall (fun d => d < 64) ds -> List.length ds mod 4 <> 1 ->
  Forall is_byte (digit_bytes ds) /\
  exists z, List.length z < 6 /\ flat_map (bits 6) ds = flat_map (bits 8) (digit_bytes ds) ++ z.
Proof.
  unfold is_byte. intros ds. induction ds as [|a|a b|a b c|a b c d r IH] using ind4.
  - intros _ _. split; [constructor|]. exists []. split; [cbn; lia|reflexivity].
  - intros _ H. exfalso. apply H. reflexivity.
  - intros F _. inversion F as [|? ? Fa F']; inversion F'; subst. split; [fa|].
    exists (bits 4 (b mod 16)). split; [rewrite bits_len; lia|]. cbn [digit_bytes flat_map]. rewrite bits2_2, (bits6_split24 b) by assumption.
    rewrite !app_nil_r, <- app_assoc. reflexivity.
  - intros F _. inversion F as [|? ? Fa F']; inversion F' as [|? ? Fb F'']; inversion F''; subst. split; [fa|].
    exists (bits 2 (c mod 4)). split; [rewrite bits_len; lia|]. cbn [digit_bytes flat_map].
    rewrite bits2_2, bits4_4, (bits6_split24 b), (bits6_split42 c) by assumption. rewrite !app_nil_r, <- !app_assoc. reflexivity.
  - intros F L. inversion F as [|? ? Fa F']; inversion F' as [|? ? Fb F'']; inversion F'' as [|? ? Fc F3]; inversion F3 as [|? ? Fd Fr]; subst.
    destruct IH as (B & z & Hz & E); [exact Fr| |].
    { intros Q. apply L. cbn [List.length]. replace (S (S (S (S (List.length r))))) with (List.length r + 1 * 4) by lia.
      rewrite Nat.mod_add by lia. exact Q. }
    split; [fa; exact B|]. exists z. split; [exact Hz|]. cbn [digit_bytes flat_map app].
    rewrite bits2_2, bits4_4, bits2_6, (bits6_split24 b), (bits6_split42 c), E by assumption. rewrite <- !app_assoc. reflexivity.
Qed.

(** * Encoding *)
Definition alphabet (url : bool) : list nat := if url then url_alphabet else standard_alphabet.
Definition pad (url : bool) : nat := if url then 46 else 61.
Definition sym (url : bool) (d : nat) : nat := nth d (alphabet url) 0.
Lemma chars_alphabet url : b64_chars url = alphabet url.
Proof. destruct url; reflexivity. Qed.
Lemma alphabet_len url : List.length (alphabet url) = 64.
Proof. destruct url; reflexivity. Qed.
Lemma sym_error url d : d < 64 -> nth_error (alphabet url) d = Some (sym url d).
Proof. intros H. apply nth_error_nth'. rewrite alphabet_len. exact H. Qed.
Lemma sym_some url d c : nth_error (alphabet url) d = Some c -> d < 64 /\ c = sym url d.
Proof.
  intros H. assert (d < 64) as L by (rewrite <- (alphabet_len url); apply nth_error_Some; congruence).
  split; [exact L|]. rewrite sym_error in H by exact L. congruence.
Qed.
Definition npad (n : nat) : nat := match n mod 3 with 0 => 0 | 1 => 2 | _ => 1 end.
Definition text (url : bool) (bs : list nat) : list nat := map (sym url) (byte_digits bs) ++ repeat (pad url) (npad (List.length bs)).
Lemma npad3 n : npad (S (S (S n))) = npad n.
Proof. unfold npad. replace (S (S (S n))) with (n + 1 * 3) by lia. rewrite Nat.mod_add by lia. reflexivity. Qed.

Lemma suffix_at {A} (pre rest : list A) k : nth_error (pre ++ rest) (List.length pre + k) = nth_error rest k.
Proof. rewrite nth_error_app2 by lia. f_equal. lia. Qed.
Lemma chunk_shift url pre rest : encode_chunk url (pre ++ rest) (List.length pre) = encode_chunk url rest 0.
Proof.
  unfold encode_chunk. rewrite app_length, !suffix_at. rewrite <- (Nat.add_0_r (List.length pre)) at 1. rewrite suffix_at.
  cbn [Nat.add].
  replace (List.length pre + 1 <? List.length pre + List.length rest) with (1 <? List.length rest) by (destruct (Nat.ltb_spec 1 (List.length rest)); symmetry; [apply Nat.ltb_lt|apply Nat.ltb_ge]; lia).
  replace (List.length pre + 2 <? List.length pre + List.length rest) with (2 <? List.length rest) by (destruct (Nat.ltb_spec 2 (List.length rest)); symmetry; [apply Nat.ltb_lt|apply Nat.ltb_ge]; lia).
  reflexivity.
Qed.
Lemma chunk1 url a : a < 256 -> encode_chunk url [a] 0 = Some (text url [a]).
Proof.
  intros Ha. unfold encode_chunk. cbn [nth_error List.length Nat.add bind Nat.ltb Nat.leb].
  rewrite chars_alphabet, land_fc, land_03 by assumption. rewrite !sym_error by small. destruct url; reflexivity.
Qed.
Lemma chunk2 url a b : a < 256 -> b < 256 -> encode_chunk url [a; b] 0 = Some (text url [a; b]).
Proof.
  intros Ha Hb. unfold encode_chunk. cbn [nth_error List.length Nat.add bind Nat.ltb Nat.leb].
  rewrite chars_alphabet, land_fc, land_03, land_f0, land_0f by assumption. rewrite !sym_error by small. destruct url; reflexivity.
Qed.
Lemma chunk3 url a b c r : a < 256 -> b < 256 -> c < 256 -> encode_chunk url (a :: b :: c :: r) 0 =
  Some (map (sym url) [a / 4; (a mod 4) * 16 + b / 16; (b mod 16) * 4 + c / 64; c mod 64]).
Proof.
  intros Ha Hb Hc. unfold encode_chunk. cbn [nth_error List.length Nat.add bind Nat.ltb Nat.leb].
  rewrite chars_alphabet, land_fc, land_03, land_f0, land_0f, land_c0, land_3f by assumption. rewrite !sym_error by small. reflexivity.
Qed.
Lemma encode_loop_ok url uint M : uint = 3 * M + 1 -> forall rest, Forall is_byte rest -> forall pre ret fuel k,
  List.length pre = 3 * k -> List.length pre + List.length rest < uint -> List.length rest < fuel ->
  encode_loop uint fuel url (pre ++ rest) (List.length pre) ret = Some (ret ++ text url rest).
Proof.
  unfold is_byte. intros EM rest. induction rest as [|a|a b|a b c r IH] using ind3; intros F pre ret fuel k K U L; (destruct fuel as [|fuel]; [lia|]); cbn [encode_loop].
  - rewrite app_nil_r, Nat.ltb_irrefl. unfold text. cbn. rewrite app_nil_r. reflexivity.
  - inversion F; subst. cbn [List.length] in *. rewrite app_length. cbn [List.length]. rewrite (proj2 (Nat.ltb_lt _ _)) by lia.
    rewrite chunk_shift, chunk1 by assumption. cbn [bind]. rewrite Nat.mod_small by lia.
    destruct fuel as [|fuel]; [lia|]. cbn [encode_loop]. rewrite app_length. cbn [List.length]. rewrite (proj2 (Nat.ltb_ge _ _)) by lia. reflexivity.
  - inversion F as [|? ? Fa F']; inversion F'; subst. cbn [List.length] in *. rewrite app_length. cbn [List.length]. rewrite (proj2 (Nat.ltb_lt _ _)) by lia.
    rewrite chunk_shift, chunk2 by assumption. cbn [bind]. rewrite Nat.mod_small by lia.
    destruct fuel as [|fuel]; [lia|]. cbn [encode_loop]. rewrite app_length. cbn [List.length]. rewrite (proj2 (Nat.ltb_ge _ _)) by lia. reflexivity.
  - inversion F as [|? ? Fa F']; inversion F' as [|? ? Fb F'']; inversion F'' as [|? ? Fc Fr]; subst. cbn [List.length] in *.
    rewrite app_length. cbn [List.length]. rewrite (proj2 (Nat.ltb_lt _ _)) by lia.
    rewrite chunk_shift, chunk3 by assumption. cbn [bind]. rewrite Nat.mod_small by lia.
    replace (pre ++ a :: b :: c :: r) with ((pre ++ [a; b; c]) ++ r) by (rewrite <- app_assoc; reflexivity).
    replace (List.length pre + 3) with (List.length (pre ++ [a; b; c])) by (rewrite app_length; reflexivity).
    rewrite (IH Fr _ _ _ (S k)); [|rewrite app_length; cbn [List.length]; lia..|lia]. unfold text. cbn [byte_digits List.length]. rewrite npad3.
    rewrite map_app, <- !app_assoc. reflexivity.
Qed.
Lemma four_pow k : exists M, 2 ^ (2 * k) = 3 * M + 1.
Proof. induction k as [|k (M & IH)]; [exists 0; reflexivity|]. exists (4 * M + 1). replace (2 * S k) with (S (S (2 * k))) by lia. cbn [Nat.pow]. lia. Qed.
Lemma encode_ok k url bs : Forall is_byte bs -> List.length bs < 2 ^ (2 * k) -> base64_encode (2 ^ (2 * k)) url bs = Some (text url bs).
Proof.
  intros F L. destruct (four_pow k) as (M & E). unfold base64_encode.
  exact (encode_loop_ok url _ M E bs F [] [] (S (List.length bs)) 0 eq_refl L (Nat.lt_succ_diag_r _)).
Qed.
(** From 2^w bytes on the loop does not end. *)
Lemma encode_loops url uint bs : 0 < uint -> Forall is_byte bs -> uint <= List.length bs -> forall fuel pos ret, pos < uint ->
  encode_loop uint fuel url bs pos ret = None.
Proof.
  intros U F L. induction fuel as [|fuel IH]; intros pos ret P; [reflexivity|]. cbn [encode_loop].
  rewrite (proj2 (Nat.ltb_lt _ _)) by lia. destruct (encode_chunk url bs pos) as [c|]; [|reflexivity]. cbn [bind].
  apply IH. apply Nat.mod_upper_bound. lia.
Qed.

Lemma byte_digits_len : forall bs, List.length (byte_digits bs) + npad (List.length bs) = 4 * ((List.length bs + 2) / 3).
Proof.
  intros bs. induction bs as [|a|a b|a b c r IH] using ind3; [reflexivity..|]. cbn [byte_digits app List.length]. rewrite npad3.
  replace (S (S (S (List.length r))) + 2) with (List.length r + 2 + 1 * 3) by lia. rewrite Nat.div_add by lia. lia.
Qed.
Lemma Forall2_sym url ds : Forall (fun d => d < 64) ds -> Forall2 (fun d c => nth_error (alphabet url) d = Some c) ds (map (sym url) ds).
Proof. induction 1; cbn; constructor; auto. apply sym_error. assumption. Qed.
Lemma Forall2_sym_inv url ds cs : Forall2 (fun d c => nth_error (alphabet url) d = Some c) ds cs -> Forall (fun d => d < 64) ds /\ cs = map (sym url) ds.
Proof. induction 1 as [|d c ds cs H _ [IH1 IH2]]; [split; constructor|]. apply sym_some in H as [H1 H2]. split; [constructor; auto|]. cbn. congruence. Qed.
Lemma npad_lt n : npad n < 4.
Proof. unfold npad. destruct (n mod 3) as [|[|]]; lia. Qed.
Lemma text_base64 url bs : Forall is_byte bs -> base64_text (alphabet url) (pad url) bs (text url bs).
Proof.
  intros F. destruct (byte_digits_bits bs F) as (z & Hz & E). exists (byte_digits bs), (map (sym url) (byte_digits bs)), z, (npad (List.length bs)).
  split; [exact E|]. split; [exact Hz|]. split; [apply Forall2_sym, byte_digits_small, F|]. split; [reflexivity|]. split; [apply npad_lt|].
  unfold text. rewrite app_length, map_length, repeat_length, byte_digits_len, Nat.mul_comm. apply Nat.mod_mul. lia.
Qed.
Lemma text_unique url bs s : Forall is_byte bs -> base64_text (alphabet url) (pad url) bs s -> s = text url bs.
Proof.
  intros F (ds & cs & z & k & E & Hz & S2 & -> & Hk & L). apply Forall2_sym_inv in S2 as [Fd ->].
  destruct (byte_digits_bits bs F) as (z' & Hz' & E').
  pose proof (f_equal (@List.length bool) E) as L1. pose proof (f_equal (@List.length bool) E') as L2.
  rewrite app_length, !flat_len, repeat_length in L1, L2.
  assert (z = z') by lia. subst z'. assert (ds = byte_digits bs).
  { rewrite <- E' in E. destruct (flat_inj 6 64 bits6_inj ds (byte_digits bs) [] []) as [H _]; [exact Fd|apply byte_digits_small, F|lia| |exact H].
    rewrite !app_nil_r. exact E. }
  subst ds. unfold text. f_equal. f_equal.
  rewrite app_length, map_length, repeat_length in L.
  pose proof (byte_digits_len bs) as L3. pose proof (npad_lt (List.length bs)).
  apply Nat.mod_divides in L as (q & L); [|lia]. lia.
Qed.

(** * Decoding *)
Lemma pos_sym url d : d < 64 -> pos_of_char (sym url d) = Some d /\ is_pad (sym url d) = false.
Proof.
  intros H. assert (forall d, d < 64 -> (match pos_of_char (sym url d) with Some x => x =? d | None => false end) && negb (is_pad (sym url d)) = true) as Q.
  { apply all_below_spec. destruct url; vm_compute; reflexivity. }
  specialize (Q d H). apply andb_prop in Q as [Q1 Q2]. destruct (pos_of_char (sym url d)) as [x|]; [|discriminate].
  apply Nat.eqb_eq in Q1 as ->. apply negb_true_iff in Q2. auto.
Qed.
Definition symbol (d c : nat) : Prop := nth_error standard_alphabet d = Some c \/ nth_error url_alphabet d = Some c.
Lemma symbol_pos d c : symbol d c -> d < 64 /\ pos_of_char c = Some d /\ is_pad c = false.
Proof.
  intros [H|H]; [apply (sym_some false) in H as [H ->]|apply (sym_some true) in H as [H ->]]; (split; [exact H|]);
    apply pos_sym; exact H.
Qed.
Lemma pos_symbol c d : pos_of_char c = Some d -> symbol d c.
Proof.
  intros H. unfold pos_of_char in H.
  assert (c < 128 -> symbol d c) as Q.
  { intros L. assert (forall c, c < 128 -> match pos_of_char c with
      | Some d => (match nth_error standard_alphabet d with Some x => x =? c | None => false end) || (match nth_error url_alphabet d with Some x => x =? c | None => false end)
      | None => true end = true) as Q by (apply all_below_spec; vm_compute; reflexivity).
    specialize (Q c L). fold (pos_of_char c) in H. rewrite H in Q. apply orb_prop in Q as [Q|Q]; [left|right];
      destruct (nth_error _ d) as [x|]; try discriminate; apply Nat.eqb_eq in Q; congruence. }
  apply Q. destruct (Nat.lt_ge_cases c 128) as [|G]; [assumption|exfalso].
  rewrite (proj2 (Nat.leb_gt c 90)) in H by lia. rewrite (proj2 (Nat.leb_gt c 122)) in H by lia. rewrite (proj2 (Nat.leb_gt c 57)) in H by lia.
  rewrite !andb_false_r in H. rewrite !(proj2 (Nat.eqb_neq c _)) in H by lia. discriminate.
Qed.
Lemma dchunk_shift pre rest : decode_chunk (pre ++ rest) (List.length pre) = decode_chunk rest 0.
Proof. unfold decode_chunk. rewrite !suffix_at. reflexivity. Qed.
Ltac digits := repeat match goal with
  | H : symbol ?d ?c |- _ => let A := fresh in let B := fresh in let C := fresh in destruct (symbol_pos d c H) as (A & B & C); clear H
  end.
Ltac conv := rewrite ?shl2, ?land_30, ?land_0f', ?land_3c, ?land_03' by assumption; repeat match goal with |- context [?e mod 256] => rewrite (Nat.mod_small e 256) by small end.
Lemma dchunk4 a b c d x y z t r : symbol a x -> symbol b y -> symbol c z -> symbol d t ->
  decode_chunk (x :: y :: z :: t :: r) 0 = Some [a * 4 + b / 16; (b mod 16) * 16 + c / 4; (c mod 4) * 64 + d].
Proof.
  intros. digits. unfold decode_chunk. cbn [nth_error Nat.add bind].
  repeat match goal with H : pos_of_char ?x = _ |- _ => rewrite H; clear H | H : is_pad ?x = _ |- _ => rewrite H; clear H end. cbn [bind].
  conv. reflexivity.
Qed.
Lemma dchunk3 a b c x y z p : symbol a x -> symbol b y -> symbol c z -> p = [] \/ (exists q, p = [q] /\ is_pad q = true) ->
  decode_chunk (x :: y :: z :: p) 0 = Some [a * 4 + b / 16; (b mod 16) * 16 + c / 4].
Proof.
  intros ? ? ? P. digits. unfold decode_chunk. cbn [nth_error Nat.add bind].
  repeat match goal with H : pos_of_char ?x = _ |- _ => rewrite H; clear H | H : is_pad z = _ |- _ => rewrite H; clear H end. cbn [bind].
  destruct P as [->|(q & -> & P)]; [|cbn [nth_error]; rewrite P]; cbn [nth_error]; conv; reflexivity.
Qed.
Lemma dchunk2 a b x y p : symbol a x -> symbol b y -> p = [] \/ (exists q r, p = q :: r /\ is_pad q = true) ->
  decode_chunk (x :: y :: p) 0 = Some [a * 4 + b / 16].
Proof.
  intros ? ? P. digits. unfold decode_chunk. cbn [nth_error Nat.add bind].
  repeat match goal with H : pos_of_char ?x = _ |- _ => rewrite H; clear H end. cbn [bind].
  destruct P as [->|(q & r & -> & P)]; [|cbn [nth_error]; rewrite P]; cbn [nth_error]; conv; reflexivity.
Qed.
Lemma is_pad_spec c : is_pad c = true <-> c = 61 \/ c = 46.
Proof. unfold is_pad. rewrite orb_true_iff, !Nat.eqb_eq. reflexivity. Qed.
Lemma decode_loop_end fuel s pos ret : 0 < fuel -> List.length s <= pos -> decode_loop fuel s pos ret = Some ret.
Proof. intros F L. destruct fuel; [lia|]. cbn [decode_loop]. rewrite (proj2 (Nat.ltb_ge _ _)) by lia. reflexivity. Qed.
Lemma decode_loop_ok : forall ds, List.length ds mod 4 <> 1 -> forall cs pads, Forall2 symbol ds cs ->
  Forall (fun c => is_pad c = true) pads -> pads = [] \/ (List.length pads < 4 /\ (List.length cs + List.length pads) mod 4 = 0) ->
  forall pre ret fuel, List.length (cs ++ pads) < fuel ->
  decode_loop fuel (pre ++ cs ++ pads) (List.length pre) ret = Some (ret ++ digit_bytes ds).
Proof.
  intros ds. induction ds as [|a|a b|a b c|a b c d r IH] using ind4; intros M cs pads S2 FP P pre ret fuel L.
  - inversion S2; subst. cbn [app List.length digit_bytes] in *. rewrite app_nil_r.
    assert (pads = []) as ->. { destruct P as [P|[P1 P2]]; [exact P|]. destruct pads as [|? [|? [|? [|? ?]]]]; cbn in *; try discriminate; [reflexivity|lia]. }
    apply decode_loop_end; [lia|]. rewrite app_nil_r. lia.
  - exfalso. apply M. reflexivity.
  - inversion S2 as [|? x ? ? Sa S3]; inversion S3 as [|? y ? ? Sb S4]; inversion S4; subst.
    destruct fuel as [|fuel]; [lia|]. cbn [decode_loop app List.length] in *. rewrite app_length in *. cbn [List.length] in *. rewrite (proj2 (Nat.ltb_lt _ _)) by lia.
    rewrite dchunk_shift, (dchunk2 a b) by (assumption || (destruct P as [P|[P1 P2]]; [left; exact P|]; destruct pads as [|q r]; [left; reflexivity|right; exists q, r; inversion FP; auto])).
    cbn [bind]. apply decode_loop_end; [lia|]. rewrite app_length. cbn [List.length]. destruct P as [->|[P1 P2]]; [cbn; lia|].
    destruct pads as [|? [|? [|? [|? ?]]]]; cbn in *; try discriminate; lia.
  - inversion S2 as [|? x ? ? Sa S3]; inversion S3 as [|? y ? ? Sb S4]; inversion S4 as [|? z ? ? Sc S5]; inversion S5; subst.
    destruct fuel as [|fuel]; [lia|]. cbn [decode_loop app List.length] in *. rewrite app_length in *. cbn [List.length] in *. rewrite (proj2 (Nat.ltb_lt _ _)) by lia.
    assert (pads = [] \/ exists q, pads = [q] /\ is_pad q = true) as Q.
    { destruct P as [P|[P1 P2]]; [left; exact P|]. destruct pads as [|q [|? [|? [|? ?]]]]; cbn in *; try discriminate; [|lia]. right. exists q. inversion FP; auto. }
    rewrite dchunk_shift, (dchunk3 a b c) by assumption.
    cbn [bind]. apply decode_loop_end; [lia|]. rewrite app_length. cbn [List.length]. destruct Q as [->|(q & -> & _)]; cbn; lia.
  - inversion S2 as [|? x ? ? Sa S3]; inversion S3 as [|? y ? ? Sb S4]; inversion S4 as [|? z ? ? Sc S5]; inversion S5 as [|? t ? cs' Sd S6]; subst.
    destruct fuel as [|fuel]; [lia|]. cbn [decode_loop app List.length] in *. rewrite app_length in L |- *. cbn [List.length] in *. rewrite (proj2 (Nat.ltb_lt _ _)) by lia.
    rewrite dchunk_shift, (dchunk4 a b c d) by assumption. cbn [bind].
    replace (pre ++ x :: y :: z :: t :: cs' ++ pads) with ((pre ++ [x; y; z; t]) ++ cs' ++ pads) by (rewrite <- app_assoc; reflexivity).
    replace (List.length pre + 4) with (List.length (pre ++ [x; y; z; t])) by (rewrite app_length; reflexivity).
    rewrite IH; [cbn [digit_bytes]; rewrite <- app_assoc; reflexivity| |assumption|assumption| |rewrite app_length; lia].
    + intros Q. apply M. replace (S (S (S (S (List.length r))))) with (List.length r + 1 * 4) by lia. rewrite Nat.mod_add by lia. exact Q.
    + destruct P as [P|[P1 P2]]; [left; exact P|right; split; [exact P1|]].
      replace (S (S (S (S (List.length cs')))) + List.length pads) with (List.length cs' + List.length pads + 1 * 4) in P2 by lia.
      rewrite Nat.mod_add in P2 by lia. exact P2.
Qed.
Lemma symbols_small ds cs : Forall2 symbol ds cs -> Forall (fun d => d < 64) ds.
Proof. induction 1; constructor; auto. exact (proj1 (symbol_pos _ _ H)). Qed.
Lemma bits_mod4 n m z : 6 * n = 8 * m + z -> z < 6 -> n mod 4 <> 1.
Proof. intros H Z Q. pose proof (Nat.div_mod n 4 ltac:(lia)). lia. Qed.
Lemma bytes_unique ds bs z : Forall (fun d => d < 64) ds -> Forall is_byte bs -> List.length z < 6 ->
  flat_map (bits 6) ds = flat_map (bits 8) bs ++ z -> digit_bytes ds = bs.
Proof.
  intros Fd Fb Hz E. pose proof (f_equal (@List.length bool) E) as L. rewrite app_length, !flat_len in L.
  destruct (digit_bytes_bits ds Fd) as (Fb' & z' & Hz' & E'); [apply (bits_mod4 _ (List.length bs) (List.length z)); lia|].
  pose proof (f_equal (@List.length bool) E') as L'. rewrite app_length, !flat_len in L'.
  rewrite E' in E. destruct (flat_inj 8 256 bits8_inj (digit_bytes ds) bs z' z) as [H _]; auto. lia.
Qed.
Lemma decode_ok bs s : Forall is_byte bs -> lenient_text bs s -> base64_decode s false = Some bs.
Proof.
  intros F (ds & cs & z & pads & E & Hz & S2 & -> & FP & P). change (Forall2 symbol ds cs) in S2.
  pose proof (symbols_small ds cs S2) as Fd. pose proof (bytes_unique ds bs z Fd F Hz E) as <-.
  pose proof (f_equal (@List.length bool) E) as L. rewrite app_length, !flat_len in L.
  unfold base64_decode. destruct (List.length (cs ++ pads) =? 0) eqn:Z.
  - apply Nat.eqb_eq in Z. destruct cs as [|? ?]; [|discriminate]. inversion S2. reflexivity.
  - rewrite app_length in P.
    apply (decode_loop_ok ds) with (pre := []) (ret := []); auto.
    + apply (bits_mod4 _ (List.length (digit_bytes ds)) (List.length z)); lia.
    + eapply Forall_impl; [|exact FP]. intros c. apply is_pad_spec.
Qed.
(** What is accepted, if there is no padding. *)
Lemma decode_loop_sound : forall s, Forall (fun c => is_pad c = false) s -> forall pre ret fuel r,
  List.length s < fuel -> decode_loop fuel (pre ++ s) (List.length pre) ret = Some r ->
  exists ds, Forall2 symbol ds s /\ List.length ds mod 4 <> 1 /\ r = ret ++ digit_bytes ds.
Proof.
  intros s. induction s as [|x|x y|x y z|x y z t s IH] using ind4; intros F pre ret fuel r L H; (destruct fuel as [|fuel]; [lia|]); cbn [decode_loop] in H.
  - rewrite app_nil_r, Nat.ltb_irrefl in H. injection H as <-. exists []. split; [constructor|]. split; [discriminate|]. rewrite app_nil_r. reflexivity.
  - rewrite app_length in H. cbn [List.length] in *. rewrite (proj2 (Nat.ltb_lt _ _)) in H by lia. rewrite dchunk_shift in H. discriminate.
  - rewrite app_length in H. cbn [List.length] in *. rewrite (proj2 (Nat.ltb_lt _ _)) in H by lia. rewrite dchunk_shift in H.
    destruct (pos_of_char x) as [a|] eqn:Ea, (pos_of_char y) as [b|] eqn:Eb; try (unfold decode_chunk in H; cbn [nth_error Nat.add bind] in H; rewrite ?Ea, ?Eb in H; discriminate).
    apply pos_symbol in Ea, Eb. rewrite (dchunk2 a b) in H by auto. cbn [bind] in H.
    rewrite decode_loop_end in H; [|lia|rewrite app_length; cbn; lia]. injection H as <-. exists [a; b]. split; [repeat (apply Forall2_cons; [assumption|]); (assumption || constructor)|]. split; [discriminate|reflexivity].
  - rewrite app_length in H. cbn [List.length] in *. rewrite (proj2 (Nat.ltb_lt _ _)) in H by lia. rewrite dchunk_shift in H.
    inversion F as [|? ? _ F1]; inversion F1 as [|? ? _ F2]; inversion F2 as [|? ? Fz _]; subst.
    destruct (pos_of_char x) as [a|] eqn:Ea, (pos_of_char y) as [b|] eqn:Eb, (pos_of_char z) as [c|] eqn:Ec;
      try (unfold decode_chunk in H; cbn [nth_error Nat.add bind] in H; rewrite ?Ea, ?Eb in H; cbn [bind] in H; rewrite ?Fz, ?Ec in H; discriminate).
    apply pos_symbol in Ea, Eb, Ec. rewrite (dchunk3 a b c) in H by auto. cbn [bind] in H.
    rewrite decode_loop_end in H; [|lia|rewrite app_length; cbn; lia]. injection H as <-. exists [a; b; c]. split; [repeat (apply Forall2_cons; [assumption|]); (assumption || constructor)|]. split; [discriminate|reflexivity].
  - rewrite app_length in H. cbn [List.length] in *. rewrite (proj2 (Nat.ltb_lt _ _)) in H by lia. rewrite dchunk_shift in H.
    inversion F as [|? ? _ F1]; inversion F1 as [|? ? _ F2]; inversion F2 as [|? ? Fz F3]; inversion F3 as [|? ? Ft F4]; subst.
    destruct (pos_of_char x) as [a|] eqn:Ea, (pos_of_char y) as [b|] eqn:Eb, (pos_of_char z) as [c|] eqn:Ec, (pos_of_char t) as [d|] eqn:Ed;
      try (unfold decode_chunk in H; cbn [nth_error Nat.add bind] in H; rewrite ?Ea, ?Eb in H; cbn [bind] in H; rewrite ?Fz, ?Ec in H; cbn [bind] in H; rewrite ?Ft, ?Ed in H; discriminate).
    apply pos_symbol in Ea, Eb, Ec, Ed. rewrite (dchunk4 a b c d) in H by auto. cbn [bind] in H.
    replace (pre ++ x :: y :: z :: t :: s) with ((pre ++ [x; y; z; t]) ++ s) in H by (rewrite <- app_assoc; reflexivity).
    replace (List.length pre + 4) with (List.length (pre ++ [x; y; z; t])) in H by (rewrite app_length; reflexivity).
    apply (IH F4) in H as (ds & S2 & M & ->); [|lia]. exists (a :: b :: c :: d :: ds). split; [repeat (apply Forall2_cons; [assumption|]); (assumption || constructor)|].
    split; [|cbn [digit_bytes]; rewrite <- app_assoc; reflexivity].
    intros Q. apply M. cbn [List.length] in Q. replace (S (S (S (S (List.length ds))))) with (List.length ds + 1 * 4) in Q by lia. rewrite Nat.mod_add in Q by lia. exact Q.
Qed.
Lemma decode_sound s bs : Forall (fun c => c <> 61 /\ c <> 46) s -> base64_decode s false = Some bs -> Forall is_byte bs /\ lenient_text bs s.
Proof.
  intros F H. assert (exists ds, Forall2 symbol ds s /\ List.length ds mod 4 <> 1 /\ bs = digit_bytes ds) as (ds & S2 & M & ->).
  { unfold base64_decode in H. destruct (List.length s =? 0) eqn:Z.
    - apply Nat.eqb_eq in Z. destruct s; [|discriminate]. injection H as <-. exists []. split; [constructor|]. split; [discriminate|reflexivity].
    - apply (decode_loop_sound s) with (pre := []) (ret := []) in H; [exact H| |lia]. eapply Forall_impl; [|exact F].
      intros c [H1 H2]. destruct (is_pad c) eqn:Q; [|reflexivity]. apply is_pad_spec in Q as [|]; contradiction. }
  destruct (digit_bytes_bits ds (symbols_small _ _ S2) M) as (B & z & Hz & E). split; [exact B|].
  exists ds, s, z, []. rewrite app_nil_r. repeat split; auto.
Qed.
Lemma base64_lenient url bs s : base64_text (alphabet url) (pad url) bs s -> lenient_text bs s.
Proof.
  intros (ds & cs & z & k & E & Hz & S2 & -> & Hk & L). exists ds, cs, (repeat false z), (repeat (pad url) k).
  split; [exact E|]. split; [rewrite repeat_length; exact Hz|]. split; [|split; [reflexivity|split]].
  - clear E L. induction S2; constructor; auto. destruct url; auto.
  - apply Forall_forall. intros x Hx. apply repeat_spec in Hx as ->. destruct url; auto.
  - right. rewrite repeat_length. auto.
Qed.

(** * Line breaks *)
Lemma linebreaks_ok d : 0 < d -> forall fuel pre rest, ~ In 10 rest -> List.length rest < fuel -> exists ls,
  linebreaks_loop fuel (pre ++ rest) d (List.length pre + d) = Some (pre ++ match ls with [] => [] | l :: ls => l ++ flat_map (fun l => 10 :: l) ls end) /\
  ls <> [] /\ List.concat ls = rest /\ Forall (fun l => List.length l <= d) ls /\ Forall (fun l => List.length l = d) (removelast ls).
Proof.
  intros D. induction fuel as [|fuel IH]; intros pre rest N L; [lia|]. cbn [linebreaks_loop]. rewrite app_length.
  destruct (Nat.ltb_spec (List.length pre + d) (List.length pre + List.length rest)) as [Q|Q].
  - rewrite firstn_app_2, skipn_app, (skipn_all2 pre) by lia. replace (List.length pre + d - List.length pre) with d by lia. cbn [app].
    destruct (IH (pre ++ firstn d rest ++ [10]) (skipn d rest)) as (ls & E & NE & C & F1 & F2).
    { intros I. apply N. rewrite <- (firstn_skipn d rest). apply in_or_app. right. exact I. }
    { rewrite skipn_length. lia. }
    replace (List.length (pre ++ firstn d rest ++ [10]) + d) with (List.length pre + d + d + 1) in E by (rewrite !app_length, firstn_length; cbn [List.length]; lia).
    rewrite <- !app_assoc in E. cbn [app] in E. exists (firstn d rest :: ls). rewrite <- !app_assoc. cbn [app]. rewrite E. split.
    + f_equal. rewrite <- ?app_assoc. f_equal. f_equal. destruct ls as [|l ls]; [contradiction|]. reflexivity.
    + split; [discriminate|]. split; [cbn; rewrite C; apply firstn_skipn|]. split.
      * constructor; [rewrite firstn_length; lia|exact F1].
      * destruct ls as [|l ls]; [contradiction|]. change (removelast (firstn d rest :: l :: ls)) with (firstn d rest :: removelast (l :: ls)).
        constructor; [rewrite firstn_length; lia|exact F2].
  - exists [rest]. cbn [flat_map removelast List.concat]. rewrite app_nil_r. repeat split; auto; [discriminate|]. constructor; [lia|constructor].
Qed.
Lemma insert_ok d s : 0 < d -> ~ In 10 s -> exists t ls, insert_linebreaks s d = Some t /\ lines_of t ls /\ List.concat ls = s /\
  Forall (fun l => List.length l <= d) ls /\ Forall (fun l => List.length l = d) (removelast ls).
Proof.
  intros D N. unfold insert_linebreaks. destruct (List.length s =? 0) eqn:Z.
  - apply Nat.eqb_eq in Z. destruct s; [|discriminate]. exists [], [[]]. repeat split; [discriminate|constructor; auto|constructor; [cbn; lia|constructor]|constructor].
  - destruct (linebreaks_ok d D (S (List.length s)) [] s N ltac:(lia)) as (ls & E & NE & C & F1 & F2).
    cbn [List.length app Nat.add] in E. eexists _, ls. split; [exact E|]. repeat split; auto.
    apply Forall_forall. intros l Hl I. apply N. rewrite <- C. apply in_concat. eauto.
Qed.
Lemma filter_id s : ~ In 10 s -> filter (fun c => negb (c =? 10)) s = s.
Proof.
  induction s as [|c s IH]; intros N; [reflexivity|]. cbn. destruct (Nat.eqb_spec c 10) as [->|]; [exfalso; apply N; left; reflexivity|]. cbn.
  rewrite IH; [reflexivity|]. intros I. apply N. right. exact I.
Qed.
Lemma filter_lines t ls : lines_of t ls -> filter (fun c => negb (c =? 10)) t = List.concat ls.
Proof.
  intros (NE & F & ->). destruct ls as [|l ls]; [reflexivity|]. inversion F as [|? ? Fl Fls]; subst. clear F NE. rewrite filter_app, filter_id by exact Fl. cbn [List.concat]. f_equal.
  induction Fls as [|m ls Fm Fls IH]; [reflexivity|]. cbn [flat_map List.concat]. rewrite filter_app. cbn [filter Nat.eqb negb app]. rewrite IH, (filter_id m Fm). reflexivity.
Qed.
Lemma text_no_nl url bs : Forall is_byte bs -> ~ In 10 (text url bs).
Proof.
  intros F I. unfold text in I. apply in_app_or in I as [I|I].
  - apply in_map_iff in I as (d & E & Hd). pose proof (byte_digits_small bs F) as S. rewrite Forall_forall in S. specialize (S d Hd).
    assert (forall d, d < 64 -> negb (sym url d =? 10) = true) as Q by (apply all_below_spec; destruct url; vm_compute; reflexivity).
    specialize (Q d S). rewrite E in Q. discriminate.
  - apply repeat_spec in I. destruct url; discriminate.
Qed.
