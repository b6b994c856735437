(** C33, continued: the blocks of an encoded vector.  A sample, and the values up to the next one, decoded at once. *)
From Coq Require Import List Arith Bool Lia.
From Verif Require Import MBase Lists MConstruct MPsi Util EncProof.
Import ListNotations.

Section Block.
  Context (dens : nat) (V : list nat) (v0 : nat).
  Context (Hd : 0 < dens) (Hb : forall i, i < length V -> Nat.log2 (nth i V 0 - nth (i - 1) V 0) < 64)
    (Hm : forall i, S i < length V -> nth i V 0 <= nth (S i) V 0).
  Lemma grows d : forall a, a + d < length V -> nth a V 0 <= nth (a + d) V 0.
  Proof using Hm.
    clear Hd Hb. induction d as [|d IH]; intros a Ha; [rewrite Nat.add_0_r; auto|].
    rewrite Nat.add_succ_r. etransitivity; [apply IH; lia|apply Hm; lia].
  Qed.
  Lemma running_ok q k : forall j, j + k < dens -> dens * q + j + k < length V ->
    ed_running (deltas dens 0 v0 V) (dpos dens V v0 (dens * q + S j)) (nth (dens * q + j) V 0 - nth (dens * q) V 0) k
      = Some (map (fun i => nth (dens * q + i) V 0 - nth (dens * q) V 0) (seq (S j) k)).
  Proof.
    induction k as [|k IH]; intros j Hj Hk; [reflexivity|]. cbn [ed_running seq map].
    assert (Ei : (dens * q + S j) mod dens <> 0).
    { rewrite Nat.add_comm, Nat.mul_comm, Nat.mod_add by lia. rewrite Nat.mod_small; lia. }
    rewrite (deltas_decode dens Hd V v0 (dens * q + S j)) by (try apply Hb; auto; lia). cbn [bind].
    replace (dens * q + S j - 1) with (dens * q + j) by lia.
    pose proof (grows j (dens * q) ltac:(lia)) as G1. pose proof (grows 1 (dens * q + j) ltac:(lia)) as G2.
    replace (dens * q + j + 1) with (dens * q + S j) in G2 by lia.
    replace (nth (dens * q + j) V 0 - nth (dens * q) V 0 + (nth (dens * q + S j) V 0 - nth (dens * q + j) V 0))
      with (nth (dens * q + S j) V 0 - nth (dens * q) V 0) by lia.
    replace (S (dens * q + S j)) with (dens * q + S (S j)) by lia.
    rewrite (IH (S j)) by lia. cbn [bind]. f_equal.
  Qed.
  Lemma block_list q : dens * q < length V ->
    firstn dens (skipn (dens * q) V) = map (fun i => nth (dens * q + i) V 0) (seq 0 (Nat.min dens (length V - dens * q))).
  Proof using.
    clear Hd Hb Hm. intros H. apply nth_ext with (d := 0) (d' := 0).
    - rewrite firstn_length, skipn_length, map_length, seq_length. reflexivity.
    - intros n Hn. rewrite firstn_length, skipn_length in Hn.
      assert (E : nth n (firstn dens (skipn (dens * q) V)) 0 = nth (dens * q + n) V 0).
      { assert (E1 : nth n (skipn (dens * q) V) 0 = nth (dens * q + n) V 0).
        { rewrite <- (firstn_skipn (dens * q) V) at 2. rewrite app_nth2; rewrite firstn_length; [f_equal; lia|lia]. }
        rewrite <- E1. rewrite <- (firstn_skipn dens (skipn (dens * q) V)) at 2. rewrite app_nth1; [reflexivity|].
        rewrite firstn_length, skipn_length. lia. }
      rewrite E. rewrite (nth_indep (map _ _) 0 (nth (dens * q + 0) V 0)) by (rewrite map_length, seq_length; lia).
      rewrite (map_nth (fun i => nth (dens * q + i) V 0)). rewrite seq_nth by lia. reflexivity.
  Qed.
  Lemma block_gen last q : dens * q < length V ->
    let ev := mk_encv (deltas dens 0 v0 V) (sps dens last 0 v0 0 V) (length V) in
    ev_sample ev q = Some (nth (dens * q) V 0) /\
    ev_inter_sampled dens ev q = Some (map (fun v => v - nth (dens * q) V 0) (firstn dens (skipn (dens * q) V))).
  Proof.
    intros H ev. destruct (sps_nth dens Hd V v0 last q H) as [E1 E2]. split; [exact E1|].
    unfold ev_inter_sampled, ev. cbn [ev_sp ev_z ev_size]. rewrite E2. cbn [bind].
    rewrite <- (dpos_sample dens Hd V v0 q H). replace (S (dens * q)) with (dens * q + 1) by lia.
    set (k := Nat.min dens (length V - dens * q) - 1).
    assert (EK : (if q * dens + dens - 1 <? length V then dens - 1 else length V - q * dens - 1) = k).
    { unfold k. destruct (Nat.ltb_spec (q * dens + dens - 1) (length V)); lia. }
    rewrite EK. pose proof (running_ok q k 0 ltac:(unfold k; lia) ltac:(unfold k; lia)) as R.
    rewrite Nat.add_0_r, Nat.sub_diag in R. rewrite R. cbn [bind]. f_equal. rewrite (block_list q H), map_map.
    replace (Nat.min dens (length V - dens * q)) with (S k) by (unfold k; lia). cbn [seq map].
    rewrite Nat.add_0_r, Nat.sub_diag. reflexivity.
  Qed.
End Block.

(** The q-th sample is the value at dens * q, and the block that starts with it is decoded as the differences of the
    values to it, as many as there are up to the next sample or the end. *)
Theorem C33_block : forall dens V q, 0 < dens ->
  (forall i, S i < length V -> nth i V 0 <= nth (S i) V 0) -> Forall (fun v => v < 2 ^ 64) V -> dens * q < length V ->
  exists s l, ev_sample (ev_construct dens V) q = Some s /\ nth_error V (dens * q) = Some s /\
    ev_inter_sampled dens (ev_construct dens V) q = Some l /\ map (fun x => s + x) l = firstn dens (skipn (dens * q) V).
Proof.
  intros dens V q Hd Hm Hb H. rewrite (ev_construct_eq dens V Hd) by (intros ->; cbn in H; lia).
  destruct (block_gen dens V (hd 0 V) Hd (enc_bound V Hb) Hm (fun z => [0; S z]) q H) as [E1 E2].
  eexists _, _. split; [exact E1|]. split; [apply nth_error_nth_lt; exact H|]. split; [exact E2|].
  rewrite (block_list dens V q H), !map_map. apply map_ext_in. intros i Hi. apply in_seq in Hi.
  pose proof (grows V Hm i (dens * q) ltac:(lia)). lia.
Qed.
Print Assumptions C33_block.
Theorem C33_block_buffer : forall dens V q, 0 < dens ->
  (forall i, S i < length V -> nth i V 0 <= nth (S i) V 0) -> Forall (fun v => v < 2 ^ 64) V -> dens * q < length V ->
  exists s l, ev_sample (ev_construct_buf dens V) q = Some s /\ nth_error V (dens * q) = Some s /\
    ev_inter_sampled dens (ev_construct_buf dens V) q = Some l /\ map (fun x => s + x) l = firstn dens (skipn (dens * q) V).
Proof.
  intros dens V q Hd Hm Hb H. rewrite (ev_construct_buf_eq dens V Hd) by (intros ->; cbn in H; lia).
  destruct (block_gen dens V 0 Hd (enc_bound V Hb) Hm (fun _ => [0; 0]) q H) as [E1 E2].
  eexists _, _. split; [exact E1|]. split; [apply nth_error_nth_lt; exact H|]. split; [exact E2|].
  rewrite (block_list dens V q H), !map_map. apply map_ext_in. intros i Hi. apply in_seq in Hi.
  pose proof (grows V Hm i (dens * q) ltac:(lia)). lia.
Qed.
Print Assumptions C33_block_buffer.
Example C33_block_example :
  ev_sample (ev_construct 3 [2; 2; 7; 9; 300; 301; 1000; 1004]) 1 = Some 9 /\
  ev_inter_sampled 3 (ev_construct 3 [2; 2; 7; 9; 300; 301; 1000; 1004]) 1 = Some [0; 291; 292] /\
  ev_inter_sampled 3 (ev_construct_buf 3 [2; 2; 7; 9; 300; 301; 1000; 1004]) 2 = Some [0; 4].
Proof. vm_compute. auto. Qed.
