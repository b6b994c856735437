(** Elias-delta codes decode to what was encoded, and enc_vector gives back its values. *)
From Coq Require Import List Arith Bool Lia ZifyBool ZifyNat.
From Verif Require Import MBase Lists MConstruct MPsi Util.
Import ListNotations.

Lemma to_bits_length k : forall x, length (to_bits k x) = k.
Proof. induction k; cbn; auto. Qed.
Lemma from_to_bits k : forall x, from_bits (to_bits k x) = x mod 2 ^ k.
Proof.
  induction k as [|k IH]; intros x; [rewrite Nat.pow_0_r, Nat.mod_1_r; auto|].
  cbn [to_bits from_bits]. rewrite IH, Nat.pow_succ_r'.
  rewrite Nat.mod_mul_r by (try apply Nat.pow_nonzero; lia).
  rewrite <- Nat.bit0_mod, Nat.bit0_odd, <- Nat.div2_div. lia.
Qed.

Lemma mod_log2 x : 0 < x -> x mod 2 ^ Nat.log2 x + 2 ^ Nat.log2 x = x.
Proof.
  intros H. destruct (Nat.log2_spec x H) as [H1 H2]. rewrite Nat.pow_succ_r' in H2.
  set (p := 2 ^ Nat.log2 x) in *.
  replace x with (x - p + 1 * p) at 1 by lia. rewrite Nat.mod_add by lia.
  rewrite Nat.mod_small by lia. lia.
Qed.
Lemma ed_len_pos x : 0 < ed_len x.
Proof. unfold ed_len. destruct (x =? 0); lia. Qed.

Lemma skipn_app_exact {A} (a b : list A) : skipn (length a) (a ++ b) = b.
Proof. rewrite skipn_app, skipn_all, Nat.sub_diag. auto. Qed.
Lemma select0_unary k rest : select0 idb (repeat false k ++ true :: rest) 0 = Some k.
Proof. induction k as [|k IH]; cbn [repeat app select0 idb]; auto. rewrite IH. auto. Qed.
Lemma read_unary_ok pre k rest :
  read_unary (pre ++ repeat false k ++ true :: rest) (length pre) = Some (k, length pre + k + 1).
Proof. unfold read_unary. rewrite skipn_app_exact, select0_unary. auto. Qed.
Lemma read_int_ok pre bits rest :
  read_int (pre ++ bits ++ rest) (length pre) (length bits) = Some (from_bits bits, length pre + length bits).
Proof.
  unfold read_int. rewrite !app_length. destruct (Nat.leb_spec (length pre + length bits) (length pre + (length bits + length rest))); [|lia].
  rewrite skipn_app_exact. rewrite firstn_app, Nat.sub_diag, firstn_O, app_nil_r, firstn_all. auto.
Qed.

Theorem ed_decode_ok pre x post : Nat.log2 x < 64 ->
  ed_decode (pre ++ ed_encode x ++ post) (length pre) = Some (x, length pre + ed_length x).
Proof.
  intros Hx. unfold ed_decode, ed_length, ed_encode. set (len := ed_len x). set (ll := Nat.log2 len).
  pose proof (ed_len_pos x) as Hl. fold len in Hl.
  rewrite <- !app_assoc. cbn [app]. rewrite read_unary_ok. cbn [bind].
  destruct (ll =? 0) eqn:El.
  - apply Nat.eqb_eq in El. assert (E1 : len = 1).
    { unfold ll in El. destruct (Nat.log2_spec len Hl) as [_ H]. rewrite El in H. cbn in H. lia. }
    rewrite El. cbn [Nat.eqb repeat app length]. rewrite Nat.add_0_r.
    unfold len, ed_len in E1. destruct (Nat.eqb_spec x 0); [lia|].
    assert (x = 1).
    { destruct (Nat.log2_spec x ltac:(lia)) as [_ H]. replace (Nat.log2 x) with 0 in H by lia. cbn in H. lia. }
    subst. auto.
  - set (b1 := to_bits ll len). set (b2 := to_bits (len - 1) x).
    assert (L1 : length b1 = ll) by apply to_bits_length.
    assert (L2 : length b2 = len - 1) by apply to_bits_length.
    set (u := repeat false ll) in *. assert (Lu : length u = ll) by apply repeat_length.
    assert (E : pre ++ u ++ true :: (b1 ++ b2) ++ post = (pre ++ u ++ [true]) ++ b1 ++ b2 ++ post).
    { rewrite <- !app_assoc. reflexivity. }
    rewrite E.
    replace (length pre + ll + 1) with (length (pre ++ u ++ [true])) by (rewrite !app_length, Lu; cbn; lia).
    rewrite <- L1 at 1. rewrite read_int_ok. cbn [bind].
    rewrite (from_to_bits ll len : from_bits b1 = _). rewrite (mod_log2 len Hl : len mod 2 ^ ll + 2 ^ ll = len).
    replace ((pre ++ u ++ [true]) ++ b1 ++ b2 ++ post) with (((pre ++ u ++ [true]) ++ b1) ++ b2 ++ post)
      by (rewrite <- !app_assoc; reflexivity).
    replace (length (pre ++ u ++ [true]) + length b1) with (length ((pre ++ u ++ [true]) ++ b1)) by (rewrite app_length; auto).
    rewrite <- L2 at 1. rewrite read_int_ok. cbn [bind]. rewrite (from_to_bits (len - 1) x : from_bits b2 = _).
    f_equal. f_equal.
    + unfold len, ed_len. destruct (Nat.eqb_spec x 0) as [->|Hn].
      * rewrite Nat.mod_0_l by (apply Nat.pow_nonzero; lia). reflexivity.
      * rewrite Nat.sub_succ, Nat.sub_0_r. destruct (Nat.ltb_spec (Nat.log2 x) 64); [|lia]. apply mod_log2. lia.
    + rewrite !app_length. cbn [length]. rewrite app_length. lia.
Qed.

Lemma ed_length_pos x : 0 < ed_length x.
Proof. unfold ed_length, ed_encode. rewrite !app_length. cbn [length]. lia. Qed.

Section Enc.
  Variable dens : nat.
  Hypothesis Hd : 0 < dens.

  (** The same passes indexed by the absolute position. *)
  Definition ctr (i : nat) : nat := (dens - i mod dens) mod dens.
  Lemma ctr_0 i : i mod dens = 0 -> ctr i = 0 /\ ctr (S i) = dens - 1.
  Proof.
    intros H. unfold ctr. rewrite H. split; [rewrite Nat.sub_0_r; apply Nat.mod_same; lia|].
    destruct (Nat.eq_dec dens 1) as [->|Hn]; [rewrite !Nat.mod_1_r; auto|].
    replace (S i mod dens) with 1.
    - apply Nat.mod_small. lia.
    - rewrite <- (Nat.add_1_r i), <- Nat.add_mod_idemp_l, H by lia. symmetry. apply Nat.mod_small. lia.
  Qed.
  Lemma ctr_S i : i mod dens <> 0 -> ctr i = S (ctr (S i)).
  Proof.
    intros H. unfold ctr. pose proof (Nat.mod_upper_bound i dens ltac:(lia)) as Hb.
    assert (ES : S i mod dens = (i mod dens + 1) mod dens).
    { rewrite <- (Nat.add_1_r i), Nat.add_mod_idemp_l by lia. auto. }
    rewrite ES. clear ES. set (m := i mod dens) in *. clearbody m.
    rewrite (Nat.mod_small (dens - m)) by lia.
    destruct (Nat.eq_dec (S m) dens) as [E|E].
    - replace (m + 1) with dens by lia. rewrite Nat.mod_same, Nat.sub_0_r, Nat.mod_same by lia. lia.
    - rewrite (Nat.mod_small (m + 1)) by lia. rewrite Nat.mod_small by lia. lia.
  Qed.

  Fixpoint deltas (i v1 : nat) (c : list nat) : list bool :=
    match c with
    | [] => []
    | v2 :: t => (if i mod dens =? 0 then [] else ed_encode (v2 - v1)) ++ deltas (S i) v2 t
    end.
  Lemma ev_deltas_eq c : forall i v1, ev_deltas dens (ctr i) v1 c = deltas i v1 c.
  Proof.
    induction c as [|v2 t IH]; intros i v1; auto. cbn [ev_deltas deltas].
    destruct (Nat.eqb_spec (i mod dens) 0) as [E|E].
    - destruct (ctr_0 i E) as [-> E2]. rewrite <- E2, IH. auto.
    - rewrite (ctr_S i E), IH. auto.
  Qed.
  Fixpoint sps (last : nat -> list nat) (i v1 z : nat) (c : list nat) : list nat :=
    match c with
    | [] => last z
    | v2 :: t => if i mod dens =? 0 then v2 :: z :: sps last (S i) v2 z t
                 else sps last (S i) v2 (z + ed_length (v2 - v1)) t
    end.
  Lemma ev_samples_eq last c : forall i v1 z, ev_samples dens last (ctr i) v1 z c = sps last i v1 z c.
  Proof.
    induction c as [|v2 t IH]; intros i v1 z; auto. cbn [ev_samples sps].
    destruct (Nat.eqb_spec (i mod dens) 0) as [E|E].
    - destruct (ctr_0 i E) as [-> E2]. rewrite <- E2, IH. auto.
    - rewrite (ctr_S i E), IH. auto.
  Qed.
  Lemma deltas_app c1 : forall i v1 c2, deltas i v1 (c1 ++ c2) = deltas i v1 c1 ++ deltas (i + length c1) (List.last c1 v1) c2.
  Proof.
    induction c1 as [|v t IH]; intros i v1 c2; cbn [app deltas length List.last].
    - rewrite Nat.add_0_r. auto.
    - rewrite IH, app_assoc. f_equal. replace (i + S (length t)) with (S i + length t) by lia.
      replace (match t with [] => v | _ :: _ => last t v1 end) with (last t v); auto.
      destruct t as [|x t]; auto. clear. revert x. induction t as [|y t IH]; intros x; auto. exact (IH y).
  Qed.

  Variable V : list nat.
  Variable v0 : nat.
  Let z := deltas 0 v0 V.
  (** Bit position of the code of value [i] (the place where it would be, for a sample). *)
  Definition dpos (i : nat) : nat := length (deltas 0 v0 (firstn i V)).
  Lemma dpos_0 : dpos 0 = 0.
  Proof. auto. Qed.
  Lemma firstn_S_nth i : i < length V -> firstn (S i) V = firstn i V ++ [nth i V 0].
  Proof.
    generalize V. intros W. revert i. induction W as [|x W IH]; intros i H; [cbn in H; lia|].
    destruct i as [|i]; auto. cbn [firstn nth app]. f_equal. apply IH. cbn in H. lia.
  Qed.
  Lemma last_firstn i d : 0 < i -> i <= length V -> List.last (firstn i V) d = nth (i - 1) V 0.
  Proof.
    intros H1 H2. destruct i as [|i]; [lia|]. rewrite Nat.sub_succ, Nat.sub_0_r.
    rewrite firstn_S_nth, last_last by lia. auto.
  Qed.
  Lemma dpos_S i : i < length V ->
    dpos (S i) = dpos i + (if i mod dens =? 0 then 0 else ed_length (nth i V 0 - nth (i - 1) V 0)).
  Proof.
    intros H. unfold dpos. rewrite firstn_S_nth, deltas_app, app_length by auto. f_equal.
    rewrite firstn_length. replace (0 + Nat.min i (length V)) with i by lia. cbn [deltas]. rewrite app_nil_r.
    destruct (Nat.eqb_spec (i mod dens) 0) as [E|E]; auto.
    assert (0 < i) by (destruct i; [rewrite Nat.mod_0_l in E; lia|lia]).
    rewrite last_firstn by lia. auto.
  Qed.
  Lemma deltas_decode i : i < length V -> i mod dens <> 0 -> Nat.log2 (nth i V 0 - nth (i - 1) V 0) < 64 ->
    ed_decode z (dpos i) = Some (nth i V 0 - nth (i - 1) V 0, dpos (S i)).
  Proof.
    intros H Hm Hb. assert (0 < i) by (destruct i; [rewrite Nat.mod_0_l in Hm; lia|lia]).
    rewrite dpos_S by auto. destruct (Nat.eqb_spec (i mod dens) 0); [lia|].
    assert (E : z = deltas 0 v0 (firstn i V) ++ ed_encode (nth i V 0 - nth (i - 1) V 0) ++ deltas (S i) (nth i V 0) (skipn (S i) V)).
    { unfold z. rewrite <- (firstn_skipn i V) at 1. rewrite deltas_app.
      rewrite firstn_length. replace (0 + Nat.min i (length V)) with i by lia.
      rewrite (skipn_cons_nth V i (nth i V 0)) by (apply nth_error_nth_lt; auto). cbn [deltas].
      destruct (Nat.eqb_spec (i mod dens) 0); [lia|]. rewrite last_firstn by lia. auto. }
    rewrite E. apply ed_decode_ok. auto.
  Qed.

  Lemma sps_app last c1 : forall i v1 s c2, exists a,
    sps last i v1 s (c1 ++ c2) = a ++ sps last (i + length c1) (List.last c1 v1) (s + length (deltas i v1 c1)) c2 /\
    length a = 2 * count (fun k => k mod dens =? 0) (seq i (length c1)).
  Proof.
    induction c1 as [|v t IH]; intros i v1 s c2.
    - exists []. cbn. rewrite !Nat.add_0_r. auto.
    - cbn [app sps length deltas List.last seq].
      assert (EL : match t with [] => v | _ :: _ => List.last t v1 end = List.last t v).
      { destruct t as [|x t]; auto. clear. revert x. induction t as [|y t IH]; intros x; auto. exact (IH y). }
      rewrite EL. unfold count. cbn [filter]. destruct (Nat.eqb_spec (i mod dens) 0) as [E|E].
      + destruct (IH (S i) v s c2) as (a & E1 & E2). exists (v :: s :: a). rewrite E1. cbn [app length].
        replace (i + S (length t)) with (S i + length t) by lia. split; auto. unfold count in E2. lia.
      + destruct (IH (S i) v (s + ed_length (v - v1)) c2) as (a & E1 & E2). exists a. rewrite E1.
        rewrite app_length. replace (i + S (length t)) with (S i + length t) by lia.
        unfold ed_length. rewrite Nat.add_assoc. auto.
  Qed.
  Lemma dq_mod q : (dens * q) mod dens = 0.
  Proof. rewrite Nat.mul_comm. apply Nat.mod_mul. lia. Qed.
  Lemma count_mult q : count (fun k => k mod dens =? 0) (seq 0 (dens * q)) = q.
  Proof.
    induction q as [|q IH]; [rewrite Nat.mul_0_r; auto|].
    rewrite Nat.mul_succ_r, seq_app, count_app, IH. cbn [Nat.add].
    replace (seq (dens * q) dens) with ([dens * q] ++ seq (S (dens * q)) (dens - 1)).
    2:{ change ([dens * q] ++ seq (S (dens * q)) (dens - 1)) with (seq (dens * q) (S (dens - 1))). f_equal. lia. }
    rewrite count_app. rewrite (count_false _ (seq _ _)).
    - unfold count. cbn [filter]. rewrite Nat.mul_comm, Nat.mod_mul by lia. cbn. lia.
    - intros x Hx. apply in_seq in Hx. apply Nat.eqb_neq.
      replace x with (x - dens * q + q * dens) by lia. rewrite Nat.mod_add by lia. rewrite Nat.mod_small; lia.
  Qed.
  Lemma sps_nth last q : dens * q < length V ->
    nth_error (sps last 0 v0 0 V) (2 * q) = Some (nth (dens * q) V 0) /\
    nth_error (sps last 0 v0 0 V) (2 * q + 1) = Some (dpos (dens * q)).
  Proof.
    intros H. destruct (sps_app last (firstn (dens * q) V) 0 v0 0 (skipn (dens * q) V)) as (a & E & L).
    rewrite firstn_skipn in E. rewrite E. rewrite firstn_length in *.
    replace (0 + Nat.min (dens * q) (length V)) with (dens * q) by lia.
    replace (Nat.min (dens * q) (length V)) with (dens * q) in L by lia. rewrite count_mult in L.
    rewrite (skipn_cons_nth V (dens * q) (nth (dens * q) V 0)) by (apply nth_error_nth_lt; auto).
    cbn [sps]. rewrite dq_mod. cbn [Nat.eqb].
    rewrite !nth_error_app2 by lia. replace (2 * q - length a) with 0 by lia.
    replace (2 * q + 1 - length a) with 1 by lia. auto.
  Qed.

  Lemma dpos_sample q : dens * q < length V -> dpos (S (dens * q)) = dpos (dens * q).
  Proof. intros H. rewrite dpos_S by auto. rewrite dq_mod. cbn. lia. Qed.

  Hypothesis Hb : forall i, i < length V -> Nat.log2 (nth i V 0 - nth (i - 1) V 0) < 64.
  Hypothesis Hm : forall i, S i < length V -> nth i V 0 <= nth (S i) V 0.

  Lemma prefix_sum_ok q : dens * q < length V -> forall k, dens * q + k < length V -> k < dens ->
    forall j, j <= k -> ed_prefix_sum z (dpos (dens * q + S (k - j))) j = Some (nth (dens * q + k) V 0 - nth (dens * q + (k - j)) V 0).
  Proof.
    intros Hq k Hk Hkd. induction j as [|j IH]; intros Hj.
    - cbn. rewrite !Nat.sub_0_r. f_equal. lia.
    - cbn [ed_prefix_sum]. set (i := dens * q + S (k - S j)).
      assert (Ei : i mod dens <> 0).
      { unfold i. rewrite Nat.add_comm, Nat.mul_comm, Nat.mod_add by lia. rewrite Nat.mod_small; lia. }
      rewrite (deltas_decode i) by (try apply Hb; auto; unfold i; lia). cbn [bind].
      replace (S i) with (dens * q + S (k - j)) by (unfold i; lia). rewrite IH by lia. cbn [bind]. f_equal.
      replace (dens * q + (k - j)) with i by (unfold i; lia).
      replace (dens * q + (k - S j)) with (i - 1) by (unfold i; lia).
      assert (nth (i - 1) V 0 <= nth i V 0).
      { replace i with (S (i - 1)) at 2 by (unfold i; lia). apply Hm. unfold i; lia. }
      assert (MM : forall d a, a + d < length V -> nth a V 0 <= nth (a + d) V 0).
      { induction d as [|d IHd]; intros a Ha; [rewrite Nat.add_0_r; auto|].
        rewrite Nat.add_succ_r. etransitivity; [apply IHd; lia|apply Hm; lia]. }
      pose proof (MM j i ltac:(unfold i; lia)) as G. replace (i + j) with (dens * q + k) in G by (unfold i; lia). lia.
  Qed.
  Lemma access_gen last i : i < length V ->
    ev_access dens (mk_encv z (sps last 0 v0 0 V) (length V)) i = Some (nth i V 0).
  Proof.
    intros H. unfold ev_access. cbn [ev_size ev_sp ev_z]. destruct (Nat.ltb_spec i (length V)); [|lia].
    pose proof (Nat.div_mod i dens ltac:(lia)) as E. pose proof (Nat.mod_upper_bound i dens ltac:(lia)) as Hr.
    set (q := i / dens) in *. set (k := i mod dens) in *.
    destruct (sps_nth last q ltac:(lia)) as [-> ->]. cbn [bind].
    rewrite <- dpos_sample by lia. pose proof (prefix_sum_ok q ltac:(lia) k ltac:(lia) Hr k (le_n _)) as G.
    rewrite Nat.sub_diag in G. replace (dens * q + 1) with (S (dens * q)) in G by lia.
    replace (i - dens * q) with k by lia. rewrite G. cbn [bind]. f_equal. rewrite E, Nat.add_0_r.
    assert (MM : forall d a, a + d < length V -> nth a V 0 <= nth (a + d) V 0).
    { induction d as [|d IHd]; intros a Ha; [rewrite Nat.add_0_r; auto|].
      rewrite Nat.add_succ_r. etransitivity; [apply IHd; lia|apply Hm; lia]. }
    pose proof (MM k (dens * q) ltac:(lia)). lia.
  Qed.
End Enc.

Lemma ev_construct_eq dens V : 0 < dens -> V <> [] ->
  ev_construct dens V = mk_encv (deltas dens 0 (hd 0 V) V) (sps dens (fun z => [0; S z]) 0 (hd 0 V) 0 V) (length V).
Proof.
  intros Hd Hv. destruct V as [|v t]; [congruence|]. unfold ev_construct. cbn [hd].
  pose proof (ev_deltas_eq dens Hd (v :: t) 0 v) as E1.
  pose proof (ev_samples_eq dens Hd (fun z => [0; S z]) (v :: t) 0 v 0) as E2.
  assert (E0 : ctr dens 0 = 0) by (apply ctr_0; auto; apply Nat.mod_0_l; lia).
  rewrite E0 in *. rewrite E1, E2. auto.
Qed.
Lemma ev_construct_buf_eq dens V : 0 < dens -> V <> [] ->
  ev_construct_buf dens V = mk_encv (deltas dens 0 0 V) (sps dens (fun _ => [0; 0]) 0 0 0 V) (length V).
Proof.
  intros Hd Hv. destruct V as [|v t]; [congruence|]. unfold ev_construct_buf.
  pose proof (ev_deltas_eq dens Hd (v :: t) 0 0) as E1.
  pose proof (ev_samples_eq dens Hd (fun _ => [0; 0]) (v :: t) 0 0 0) as E2.
  assert (E0 : ctr dens 0 = 0) by (apply ctr_0; auto; apply Nat.mod_0_l; lia).
  rewrite E0 in *. rewrite E1, E2. auto.
Qed.

Lemma log2_delta a b : a < 2 ^ 64 -> Nat.log2 (a - b) < 64.
Proof.
  intros H. destruct (Nat.eq_dec (a - b) 0) as [->|Hn]; [cbn; lia|].
  apply Nat.log2_lt_pow2; [lia|]. apply Nat.le_lt_trans with a; auto. apply Nat.le_sub_l.
Qed.

Section Access.
  Variables (dens : nat) (V : list nat).
  Hypothesis Hd : 0 < dens.
  Hypothesis Hm : forall i, S i < length V -> nth i V 0 <= nth (S i) V 0.
  Hypothesis Hb : Forall (fun v => v < 2 ^ 64) V.
  Lemma enc_bound i : i < length V -> Nat.log2 (nth i V 0 - nth (i - 1) V 0) < 64.
  Proof.
    intros H. apply log2_delta. rewrite Forall_forall in Hb. apply Hb. apply nth_In. auto.
  Qed.
  Theorem ev_access_ok i : ev_access dens (ev_construct dens V) i = nth_error V i.
  Proof.
    destruct (Nat.lt_ge_cases i (length V)) as [H|H].
    - rewrite ev_construct_eq by (auto; intros ->; cbn in H; lia).
      rewrite access_gen by (auto using enc_bound). symmetry. apply nth_error_nth_lt. auto.
    - rewrite (proj2 (nth_error_None V i)) by auto. unfold ev_access.
      assert (E : ev_size (ev_construct dens V) = length V) by (destruct V; auto).
      rewrite E. destruct (Nat.ltb_spec i (length V)); [lia|auto].
  Qed.
  Theorem ev_access_buf_ok i : ev_access dens (ev_construct_buf dens V) i = nth_error V i.
  Proof.
    destruct (Nat.lt_ge_cases i (length V)) as [H|H].
    - rewrite ev_construct_buf_eq by (auto; intros ->; cbn in H; lia).
      rewrite access_gen by (auto using enc_bound). symmetry. apply nth_error_nth_lt. auto.
    - rewrite (proj2 (nth_error_None V i)) by auto. unfold ev_access.
      assert (E : ev_size (ev_construct_buf dens V) = length V) by (destruct V; auto).
      rewrite E. destruct (Nat.ltb_spec i (length V)); [lia|auto].
  Qed.
End Access.
