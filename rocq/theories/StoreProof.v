(** Proofs about the item storage: reading back what was written, loads as requests, and the invariant
    of a storage. *)
From Coq Require Import List Arith Bool Lia ZifyBool String Ascii DecimalString DecimalNat.
From Verif Require Import MBase MRle MConstruct MPhi MRIndex MSrIndex MPsi MCsa MSrCsa MStore.
Import ListNotations.

Lemma bind_Some {A B} (m : option A) (f : A -> option B) y :
  bind m f = Some y -> exists a, m = Some a /\ f a = Some y.
Proof. destruct m as [a|]; cbn; [eauto | discriminate]. Qed.

(** * Reading back an item *)
Definition norm (it : item) : item :=
  match it with
  | ItSup s d => ItSup s (match sup_class s with BvSd => [] | BvPlain => d end)
  | it => it
  end.
Lemma norm_ty it : item_ty (norm it) = item_ty it.
Proof. destruct it; reflexivity. Qed.
Lemma norm_idem it : norm (norm it) = norm it.
Proof. destruct it as [| | | | |s d]; try reflexivity. cbn. destruct (sup_class s); reflexivity. Qed.
Lemma bvclass_eqb_refl c : bvclass_eqb c c = true.
Proof. destruct c; reflexivity. Qed.
Lemma bvclass_eqb_eq c d : bvclass_eqb c d = true -> c = d.
Proof. destruct c, d; cbn; congruence. Qed.
Lemma sup_eqb_refl s : sup_eqb s s = true.
Proof. destruct s as [c b|c]; cbn; rewrite bvclass_eqb_refl; auto. destruct b; auto. Qed.
Lemma sup_eqb_eq s t : sup_eqb s t = true -> s = t.
Proof.
  destruct s as [c b|c], t as [d e|d]; cbn; try discriminate; intros H.
  - apply andb_true_iff in H as [H1 H2]. apply bvclass_eqb_eq in H1. apply Bool.eqb_prop in H2. congruence.
  - apply bvclass_eqb_eq in H. congruence.
Qed.

Lemma rd_many_tokens {A} (f : rd A) (tok : A -> list token) l rest :
  (forall a rest, f (tok a ++ rest) = Some (a, rest)) ->
  rd_many f (List.length l) (flat_map tok l ++ rest) = Some (l, rest).
Proof.
  intros Hf. induction l as [|a l IH]; cbn [List.length flat_map]; [reflexivity|].
  rewrite <- app_assoc. cbn [rd_many]. rewrite Hf. cbn [bind]. rewrite IH. reflexivity.
Qed.
Lemma map_flat_map {A B} (f : A -> B) l : map f l = flat_map (fun x => [f x]) l.
Proof. induction l as [|a l IH]; cbn; [reflexivity | rewrite IH; reflexivity]. Qed.

Lemma rd_alpha_tokens a rest : rd_alpha (alpha_tokens a ++ rest) = Some (a, rest).
Proof. destruct a. reflexivity. Qed.
Lemma rd_rle_tokens s rest : rd_rle (rle_tokens s ++ rest) = Some (s, rest).
Proof.
  unfold rle_tokens. rewrite <- app_assoc. unfold rd_rle. cbn [app rd_num rd_wt rd_bv bvclass_eqb bind].
  rewrite map_flat_map, (rd_many_tokens (rd_bv BvSd) (fun b => [TkBv BvSd b])) by reflexivity. cbn [bind].
  destruct s; reflexivity.
Qed.
Lemma rd_encv_tokens e rest : rd_encv (encv_tokens e ++ rest) = Some (e, rest).
Proof. destruct e. reflexivity. Qed.
Lemma rd_psi_tokens p rest : rd_psi (pc_dens p) (psi_tokens p ++ rest) = Some (p, rest).
Proof.
  unfold psi_tokens. rewrite <- app_assoc. unfold rd_psi. cbn [app rd_num bind].
  rewrite rd_many_tokens.
  - cbn [bind]. destruct p; reflexivity.
  - intros [e l] r. cbn [fst snd]. rewrite <- app_assoc, rd_encv_tokens. reflexivity.
Qed.
Lemma rd_item_tokens it rest : rd_item (item_ty it) (item_tokens it ++ rest) = Some (norm it, rest).
Proof.
  destruct it as [a|s|p|l|c b|s d]; unfold rd_item, item_ty, item_tokens, norm.
  - rewrite rd_alpha_tokens. reflexivity.
  - rewrite rd_rle_tokens. reflexivity.
  - rewrite rd_psi_tokens. reflexivity.
  - reflexivity.
  - cbn. rewrite bvclass_eqb_refl. reflexivity.
  - unfold sup_tokens, rd_sup. destruct (sup_class s); cbn; [reflexivity|]. rewrite sup_eqb_refl. reflexivity.
Qed.
Lemma rd_item_wf t i it r : rd_item t i = Some (it, r) -> item_ty it = t /\ norm it = it.
Proof.
  destruct t as [| |dens| |c|s]; cbn [rd_item]; intros H; apply bind_Some in H as ([a j] & H1 & H2); injection H2 as <- <-.
  - auto.
  - auto.
  - unfold rd_psi in H1. repeat (apply bind_Some in H1 as ([? ?] & _ & H1)). injection H1 as <- <-. auto.
  - auto.
  - auto.
  - unfold rd_sup in H1. cbn. destruct (sup_class s).
    + injection H1 as <- <-. auto.
    + auto.
Qed.

(** * Storage lemmas *)
Lemma st_find_emplace st k e x :
  st_find (st_emplace st k e) x = if String.eqb k x then (match st_find st k with Some e' => Some e' | None => Some e end) else st_find st x.
Proof.
  unfold st_emplace. destruct (String.eqb_spec k x) as [->|Hn].
  - destruct (st_find st x) eqn:E; [exact E|]. cbn. rewrite String.eqb_refl. reflexivity.
  - destruct (st_find st k) eqn:E; [reflexivity|]. cbn. destruct (String.eqb_spec k x); [contradiction | reflexivity].
Qed.
Lemma st_get_Some st t k e : st_get st t k = Some e <-> st_find st k = Some e /\ item_ty (en_item e) = t.
Proof.
  unfold st_get. split.
  - intros H. apply bind_Some in H as (e' & H1 & H2). destruct (ty_eq_dec _ _); [|discriminate]. injection H2 as ->. auto.
  - intros (H1 & H2). rewrite H1. cbn. destruct (ty_eq_dec _ _); [reflexivity | contradiction].
Qed.

(** * Loads as requests *)
Record rq := mk_rq { rq_key : string; rq_ty : ty; rq_file : string; rq_hash : bool; rq_ptr : option string }.
Definition do_req (r : rq) (s : lstate) : option lstate :=
  match st_get (ls_store s) (rq_ty r) (rq_key r) with
  | Some _ => Some s
  | None =>
      '(it, src) <- fetch (ls_src s) (rq_ty r) (rq_file r) (rq_hash r) ;;
      let st := st_emplace (ls_store s) (rq_key r) (mk_entry it (rq_ptr r)) in
      _ <- st_get st (rq_ty r) (rq_key r) ;;
      Some (mk_lstate st src (ls_log s ++ [rq_key r]))
  end.
Fixpoint do_reqs (rs : list rq) (s : lstate) : option lstate :=
  match rs with [] => Some s | r :: t => s <- do_req r s ;; do_reqs t s end.
Lemma do_reqs_app a b s : do_reqs (a ++ b) s = (s <- do_reqs a s ;; do_reqs b s).
Proof.
  revert s. induction a as [|r a IH]; intros s; cbn [app do_reqs]; [reflexivity|].
  destruct (do_req r s) as [s'|]; cbn; [apply IH | reflexivity].
Qed.

Definition vec_rq (sp : sup) (k : string) (h : bool) : rq := mk_rq k (TyBv (sup_class sp)) k h None.
Definition sup_rq (sp : sup) (k : string) (h : bool) : rq :=
  mk_rq (k ++ sup_suffix sp)%string (TySup sp) k h (Some k).

(** Requests at the level of key names. *)
Record srq := mk_srq { sq_key : skey; sq_ty : ty; sq_file : skey; sq_hash : bool; sq_ptr : option skey }.
Definition add_suffix (k : skey) (x : string) : skey := (fst k, (snd k ++ x)%string).
Definition reqs (c : cmd) : list srq :=
  match c with
  | LItem t k h => [mk_srq k t k h None]
  | LSup sp k h => [mk_srq k (TyBv (sup_class sp)) k h None;
                    mk_srq (add_suffix k (sup_suffix sp)) (TySup sp) k h (Some k)]
  end.
Definition rz_rq (p : string) (r : srq) : rq :=
  mk_rq (realize p (sq_key r)) (sq_ty r) (realize p (sq_file r)) (sq_hash r) (option_map (realize p) (sq_ptr r)).
Lemma append_assoc a b c : ((a ++ b) ++ c = a ++ (b ++ c))%string.
Proof. induction a as [|x a IH]; cbn; [reflexivity | rewrite IH; reflexivity]. Qed.
Lemma realize_suffix p k x : realize p (add_suffix k x) = (realize p k ++ x)%string.
Proof. unfold realize, add_suffix. cbn. destruct (fst k); [symmetry; apply append_assoc | reflexivity]. Qed.
Lemma append_length a b : String.length (a ++ b) = String.length a + String.length b.
Proof. induction a as [|x a IH]; cbn; [reflexivity | rewrite IH; reflexivity]. Qed.
Lemma append_inj_r a b x : (a ++ x)%string = (b ++ x)%string -> a = b.
Proof.
  revert b. induction a as [|c a IH]; intros [|d b]; cbn; intros H; auto.
  - apply (f_equal String.length) in H. cbn in H. rewrite append_length in H. lia.
  - apply (f_equal String.length) in H. cbn in H. rewrite append_length in H. lia.
  - injection H as -> H. f_equal. auto.
Qed.
Lemma append_inj_l a b x : (x ++ a)%string = (x ++ b)%string -> a = b.
Proof. induction x as [|c x IH]; cbn; intros H; [exact H|]. injection H as H. auto. Qed.
Lemma suffix_neq k sp : k <> (k ++ sup_suffix sp)%string.
Proof.
  intros H. apply (f_equal String.length) in H. rewrite append_length in H. destruct sp; cbn in H; lia.
Qed.

(** A well-formed storage: pointers only in supports, and to the vector of the key. *)
Definition wf_entry (st : store) (k : string) (e : entry) : Prop :=
  norm (en_item e) = en_item e /\
  match en_item e with
  | ItSup sp _ => exists k0 b, k = (k0 ++ sup_suffix sp)%string /\ en_ptr e = Some k0 /\
                    st_find st k0 = Some (mk_entry (ItBv (sup_class sp) b) None)
  | _ => en_ptr e = None
  end.
Definition wf_store (st : store) : Prop := forall k e, st_find st k = Some e -> wf_entry st k e.
Definition grows (st st' : store) : Prop := forall k e, st_find st k = Some e -> st_find st' k = Some e.

Lemma grows_refl st : grows st st.
Proof. intros k e H. exact H. Qed.
Lemma grows_trans a b c : grows a b -> grows b c -> grows a c.
Proof. intros H1 H2 k e H. auto. Qed.
Lemma grows_emplace st k e : grows st (st_emplace st k e).
Proof. intros x e' H. rewrite st_find_emplace. destruct (String.eqb_spec k x) as [->|]; [rewrite H; reflexivity | exact H]. Qed.
Lemma wf_empty : wf_store [].
Proof. intros k e H. discriminate. Qed.

Lemma do_req_inv r s s' : do_req r s = Some s' ->
  (s' = s /\ exists e, st_get (ls_store s) (rq_ty r) (rq_key r) = Some e) \/
  (st_find (ls_store s) (rq_key r) = None /\ exists it src, fetch (ls_src s) (rq_ty r) (rq_file r) (rq_hash r) = Some (it, src) /\
     item_ty it = rq_ty r /\ norm it = it /\
     s' = mk_lstate ((rq_key r, mk_entry it (rq_ptr r)) :: ls_store s) src (ls_log s ++ [rq_key r])).
Proof.
  unfold do_req. destruct (st_get _ _ _) as [e|] eqn:E.
  - intros H. injection H as <-. left. eauto.
  - intros H. apply bind_Some in H as ([it src] & H1 & H2). right.
    assert (Hw : item_ty it = rq_ty r /\ norm it = it).
    { unfold fetch in H1. destruct (ls_src s) as [fs|i].
      - apply bind_Some in H1 as (c & _ & H1). apply bind_Some in H1 as ([it' j] & H1 & H3). injection H3 as <- <-.
        exact (rd_item_wf _ _ _ _ H1).
      - apply bind_Some in H1 as ([it' j] & H1 & H3). injection H3 as <- <-. exact (rd_item_wf _ _ _ _ H1). }
    apply bind_Some in H2 as (e & H2 & H3).
    assert (HN : st_find (ls_store s) (rq_key r) = None).
    { destruct (st_find (ls_store s) (rq_key r)) as [e'|] eqn:E'; [|reflexivity]. exfalso.
      unfold st_emplace in H2. rewrite E' in H2. congruence. }
    split; [exact HN|]. exists it, src. destruct Hw. repeat split; auto.
    injection H3 as <-. unfold st_emplace. rewrite HN. reflexivity.
Qed.
Lemma do_req_grows r s s' : do_req r s = Some s' -> grows (ls_store s) (ls_store s').
Proof.
  intros H. apply do_req_inv in H as [(-> & _)|(HN & it & src & _ & _ & _ & ->)]; [apply grows_refl|].
  intros k e H. cbn. destruct (String.eqb_spec (rq_key r) k) as [E|]; [congruence | exact H].
Qed.
Lemma do_req_find r s s' : do_req r s = Some s' -> exists e, st_get (ls_store s') (rq_ty r) (rq_key r) = Some e.
Proof.
  intros H. apply do_req_inv in H as [(-> & e & He)|(HN & it & src & _ & Ht & _ & ->)]; [eauto|].
  eexists. apply st_get_Some. cbn. rewrite String.eqb_refl. split; [reflexivity | exact Ht].
Qed.

Lemma wf_grow_entry st st' k e : grows st st' -> wf_entry st k e -> wf_entry st' k e.
Proof.
  intros HG (H1 & H2). split; [exact H1|]. destruct (en_item e); auto.
  destruct H2 as (k0 & b & -> & E & F). exists k0, b. auto.
Qed.
Lemma do_req_wf_vec k t h s s' : (forall sp, t <> TySup sp) ->
  do_req (mk_rq k t k h None) s = Some s' -> wf_store (ls_store s) -> wf_store (ls_store s').
Proof.
  intros Ht H W. pose proof (do_req_grows _ _ _ H) as HG.
  apply do_req_inv in H as [(-> & _)|(HN & it & src & _ & Hty & Hn & ->)]; [exact W|].
  cbn in *. intros x e. cbn. destruct (String.eqb_spec k x) as [->|].
  - intros E. injection E as <-. split; [exact Hn|]. cbn. destruct it; auto. exfalso. apply (Ht s0). auto.
  - intros E. apply wf_grow_entry with (st := ls_store s); auto.
Qed.
Lemma do_req_wf_sup sp k h s s' : (exists e, st_get (ls_store s) (TyBv (sup_class sp)) k = Some e) ->
  do_req (sup_rq sp k h) s = Some s' -> wf_store (ls_store s) -> wf_store (ls_store s').
Proof.
  intros (ev & Hv) H W. pose proof (do_req_grows _ _ _ H) as HG.
  apply do_req_inv in H as [(-> & _)|(HN & it & src & _ & Hty & Hn & ->)]; [exact W|].
  cbn [rq_key rq_ty rq_ptr sup_rq ls_store] in *. apply st_get_Some in Hv as (Hv & Hvt).
  intros x e. cbn [st_find]. destruct (String.eqb_spec (k ++ sup_suffix sp) x) as [<-|].
  - intros E. injection E as <-. split; [exact Hn|]. cbn [en_item en_ptr].
    destruct it as [| | | | |s0 d]; try discriminate Hty. injection Hty as ->.
    pose proof (W _ _ Hv) as (_ & Wv). destruct ev as [iv pv]. cbn in *. destruct iv as [| | | |c b|]; try discriminate Hvt.
    injection Hvt as ->. subst pv. exists k, b. repeat split. apply HG. exact Hv.
  - intros E. apply wf_grow_entry with (st := ls_store s); auto.
Qed.

(** A load is its requests. *)
Definition cmd_ok (c : cmd) : Prop := match c with LItem (TySup _) _ _ => False | _ => True end.
Lemma wf_sup_vec st k sp e : wf_store st -> st_get st (TySup sp) (k ++ sup_suffix sp)%string = Some e ->
  en_ptr e = Some k /\ exists b, st_get st (TyBv (sup_class sp)) k = Some (mk_entry (ItBv (sup_class sp) b) None).
Proof.
  intros W H. apply st_get_Some in H as (H1 & H2). pose proof (W _ _ H1) as (_ & We).
  destruct (en_item e) as [| | | | |s d]; try discriminate H2. injection H2 as ->.
  destruct We as (k0 & b & E & P & F). apply append_inj_r in E as <-. split; [exact P|]. exists b. apply st_get_Some. auto.
Qed.
Lemma exec_reqs p c s : cmd_ok c -> wf_store (ls_store s) -> exec p c s = do_reqs (map (rz_rq p) (reqs c)) s.
Proof.
  intros Hok W. destruct c as [t k h|sp k h].
  - cbn. unfold load_raw. change (mk_rq (realize p k) t (realize p k) h None) with (rz_rq p (mk_srq k t k h None)).
    destruct (do_req _ s) as [s'|] eqn:E; unfold do_req in E; cbn in E; rewrite E; reflexivity.
  - cbn [exec reqs map]. unfold rz_rq. cbn [sq_key sq_ty sq_file sq_hash sq_ptr option_map]. rewrite realize_suffix.
    change (mk_rq (realize p k) (TyBv (sup_class sp)) (realize p k) h None) with (vec_rq sp (realize p k) h).
    change (mk_rq (realize p k ++ sup_suffix sp) (TySup sp) (realize p k) h (Some (realize p k))) with (sup_rq sp (realize p k) h).
    generalize (realize p k) as key. intros key. unfold load_sup.
    destruct (st_get (ls_store s) (TySup sp) (key ++ sup_suffix sp)) as [e|] eqn:E.
    + destruct (wf_sup_vec _ _ _ _ W E) as (_ & b & Hb).
      cbn [do_reqs]. unfold do_req at 1. cbn [rq_key rq_ty vec_rq]. rewrite Hb. cbn [bind].
      unfold do_req. cbn [rq_key rq_ty sup_rq]. rewrite E. reflexivity.
    + cbn [do_reqs]. change (load_raw (TyBv (sup_class sp)) key h s) with (do_req (vec_rq sp key h) s).
      destruct (do_req (vec_rq sp key h) s) as [s1|] eqn:E1; [|reflexivity]. cbn [bind].
      assert (HN : st_get (ls_store s1) (TySup sp) (key ++ sup_suffix sp) = None).
      { apply do_req_inv in E1 as [(-> & _)|(HN & it & src & _ & _ & _ & ->)]; [exact E|].
        unfold st_get. cbn [ls_store st_find rq_key vec_rq].
        destruct (String.eqb_spec key (key ++ sup_suffix sp)) as [H|]; [exfalso; exact (suffix_neq _ _ H) | exact E]. }
      unfold do_req. cbn [rq_key rq_ty rq_file rq_hash rq_ptr sup_rq]. rewrite HN.
      destruct (fetch (ls_src s1) (TySup sp) key h) as [[it src]|]; [|reflexivity]. cbn [bind].
      match goal with |- context [st_get (st_emplace ?a ?b ?c) ?d ?f] => destruct (st_get (st_emplace a b c) d f) end; reflexivity.
Qed.
Lemma do_reqs_cmd_wf p c s s' : cmd_ok c -> do_reqs (map (rz_rq p) (reqs c)) s = Some s' ->
  wf_store (ls_store s) -> wf_store (ls_store s').
Proof.
  intros Hok H W. destruct c as [t k h|sp k h].
  - cbn in H. apply bind_Some in H as (s1 & H & E). injection E as <-.
    apply (do_req_wf_vec (realize p k) t h s); auto. intros sp ->. exact Hok.
  - cbn [reqs map] in H. cbn [do_reqs] in H. apply bind_Some in H as (s1 & H1 & H). apply bind_Some in H as (s2 & H2 & E).
    injection E as <-. unfold rz_rq in H1, H2. cbn [sq_key sq_ty sq_file sq_hash sq_ptr option_map] in H1, H2.
    rewrite realize_suffix in H2.
    pose proof (do_req_find _ _ _ H1) as Hv. cbn in Hv.
    apply do_req_wf_vec in H1; [|intros x; discriminate | exact W].
    exact (do_req_wf_sup sp (realize p k) h _ _ Hv H2 H1).
Qed.
Lemma run_reqs p cs s : Forall cmd_ok cs -> wf_store (ls_store s) ->
  run p cs s = do_reqs (map (rz_rq p) (flat_map reqs cs)) s /\
  (forall s', run p cs s = Some s' -> wf_store (ls_store s')).
Proof.
  intros HF. revert s. induction HF as [|c cs Hc HF IH]; intros s W.
  - split; [reflexivity|]. intros s' H. injection H as <-. exact W.
  - cbn [run flat_map]. rewrite map_app, do_reqs_app, exec_reqs by auto.
    destruct (do_reqs (map (rz_rq p) (reqs c)) s) as [s1|] eqn:E.
    + cbn [bind]. apply IH. exact (do_reqs_cmd_wf _ _ _ _ Hc E W).
    + cbn. split; [reflexivity | discriminate].
Qed.

Lemma do_reqs_spec rs s s' : do_reqs rs s = Some s' ->
  grows (ls_store s) (ls_store s') /\
  (forall r, In r rs -> exists e, st_get (ls_store s') (rq_ty r) (rq_key r) = Some e) /\
  exists new, ls_log s' = ls_log s ++ new /\ NoDup new /\
    (forall k, In k new -> st_find (ls_store s) k = None /\ st_find (ls_store s') k <> None /\ In k (map rq_key rs)).
Proof.
  revert s. induction rs as [|r rs IH]; intros s H.
  - injection H as <-. split; [apply grows_refl|]. split; [intros r []|]. exists []. rewrite app_nil_r. repeat split; auto using NoDup_nil. all: contradiction.
  - cbn [do_reqs] in H. apply bind_Some in H as (s1 & H1 & H). apply IH in H as (G & F & new & L & ND & A).
    pose proof (do_req_grows _ _ _ H1) as G1. pose proof (do_req_find _ _ _ H1) as (e1 & F1).
    split; [eapply grows_trans; eassumption|]. split.
    + intros r' [->|Hr]; [|auto]. exists e1. apply st_get_Some in F1 as (? & ?). apply st_get_Some. auto.
    + apply do_req_inv in H1 as [(-> & _)|(HN & it & src & _ & _ & _ & E)].
      * exists new. split; [exact L|]. split; [exact ND|]. intros k Hk. destruct (A k Hk) as (? & ? & ?). repeat split; auto. right. auto.
      * exists (rq_key r :: new). rewrite L, E. cbn [ls_log]. rewrite <- app_assoc. split; [reflexivity|]. split.
        -- constructor; [|exact ND]. intros Hk. destruct (A _ Hk) as (Hk' & _).
           apply st_get_Some in F1 as (F1 & _). congruence.
        -- intros k [<-|Hk].
           ++ split; [exact HN|]. apply st_get_Some in F1 as (F1 & _). rewrite (G _ _ F1). split; [discriminate | left; reflexivity].
           ++ destruct (A k Hk) as (A1 & A2 & A3). split; [|split; [exact A2 | right; exact A3]].
              destruct (st_find (ls_store s) k) eqn:E'; [|reflexivity]. rewrite (G1 _ _ E') in A1. discriminate.
Qed.

(** * Executions with known contents *)
(** [needed seen rs]: the requests that are not satisfied by [seen] or by an earlier request. *)
Fixpoint needed (seen : list string) (rs : list rq) : list rq :=
  match rs with
  | [] => []
  | r :: t => if in_dec string_dec (rq_key r) seen then needed seen t else r :: needed (rq_key r :: seen) t
  end.
Fixpoint feeds (U : store) (rs : list rq) (src src' : source) : Prop :=
  match rs with
  | [] => src' = src
  | r :: t => exists e src1, st_find U (rq_key r) = Some e /\
      fetch src (rq_ty r) (rq_file r) (rq_hash r) = Some (en_item e, src1) /\ feeds U t src1 src'
  end.
Definition fits (U : store) (r : rq) : Prop :=
  exists e, st_find U (rq_key r) = Some e /\ item_ty (en_item e) = rq_ty r /\ en_ptr e = rq_ptr r.
Lemma do_reqs_ok U rs : forall seen s src',
  (forall r, In r rs -> fits U r) ->
  (forall k e, st_find U k = Some e -> In k seen -> st_find (ls_store s) k = Some e) ->
  (forall k e, st_find U k = Some e -> ~ In k seen -> st_find (ls_store s) k = None) ->
  feeds U (needed seen rs) (ls_src s) src' ->
  exists st', do_reqs rs s = Some (mk_lstate st' src' (ls_log s ++ map rq_key (needed seen rs))) /\
    (forall r e, In r rs -> st_find U (rq_key r) = Some e -> st_find st' (rq_key r) = Some e) /\
    (forall k e, st_find (ls_store s) k = Some e -> st_find st' k = Some e) /\
    (forall k e, st_find st' k = Some e -> st_find (ls_store s) k = None -> In k (map rq_key rs) /\ st_find U k = Some e).
Proof.
  induction rs as [|r rs IH]; intros seen s src' HF HS HA HD.
  - cbn in HD. subst src'. exists (ls_store s). cbn. rewrite app_nil_r. destruct s; cbn. repeat split; auto; try contradiction; congruence.
  - destruct (HF r (or_introl eq_refl)) as (e & Ue & Te & Pe).
    cbn [needed] in HD. cbn [do_reqs needed]. destruct (in_dec string_dec (rq_key r) seen) as [Hin|Hin].
    + pose proof (HS _ _ Ue Hin) as Hst.
      assert (E : do_req r s = Some s).
      { unfold do_req. rewrite (proj2 (st_get_Some _ _ _ e) (conj Hst Te)). reflexivity. }
      rewrite E. cbn [bind].
      destruct (IH seen s src') as (st' & R & P & G & O); auto.
      { intros r' H. apply HF. right. exact H. }
      exists st'. split; [exact R|]. repeat split; auto.
      * intros r' e' [<-|H] Hu; [|auto]. rewrite Ue in Hu. injection Hu as <-. auto.
      * cbn. right. exact (proj1 (O _ _ H H0)).
      * exact (proj2 (O _ _ H H0)).
    + destruct HD as (e' & src1 & Ue' & Hfe & HD). rewrite Ue in Ue'. injection Ue' as <-.
      pose proof (HA _ _ Ue Hin) as HN.
      assert (E : do_req r s = Some (mk_lstate ((rq_key r, e) :: ls_store s) src1 (ls_log s ++ [rq_key r]))).
      { unfold do_req. destruct (st_get (ls_store s) (rq_ty r) (rq_key r)) as [x|] eqn:Eg.
        - apply st_get_Some in Eg as (Eg & _). congruence.
        - rewrite Hfe. cbn [bind]. unfold st_emplace. rewrite HN.
          replace (mk_entry (en_item e) (rq_ptr r)) with e by (destruct e; cbn in *; congruence).
          rewrite (proj2 (st_get_Some ((rq_key r, e) :: ls_store s) (rq_ty r) (rq_key r) e)); [reflexivity|].
          cbn. rewrite String.eqb_refl. auto. }
      rewrite E. cbn [bind].
      destruct (IH (rq_key r :: seen) (mk_lstate ((rq_key r, e) :: ls_store s) src1 (ls_log s ++ [rq_key r])) src')
        as (st' & R & P & G & O).
      * intros r' H. apply HF. right. exact H.
      * intros k x Hk Hx. cbn. destruct (String.eqb_spec (rq_key r) k) as [<-|Hne]; [congruence|].
        destruct Hx as [Hx|Hx]; [contradiction | auto].
      * intros k x Hk Hx. cbn. destruct (String.eqb_spec (rq_key r) k) as [<-|Hne]; [exfalso; apply Hx; left; reflexivity|].
        apply (HA _ _ Hk). intros H. apply Hx. right. exact H.
      * exact HD.
      * exists st'. cbn [ls_log ls_store map] in *. rewrite <- app_assoc in R. split; [exact R|].
        assert (G' : forall k x, st_find (ls_store s) k = Some x -> st_find st' k = Some x).
        { intros k x Hk. apply G. cbn. destruct (String.eqb_spec (rq_key r) k) as [<-|]; [congruence | exact Hk]. }
        assert (Pr : st_find st' (rq_key r) = Some e).
        { apply G. cbn. rewrite String.eqb_refl. reflexivity. }
        repeat split.
        -- intros r' x [<-|H] Hu; [congruence | auto].
        -- exact G'.
        -- destruct (string_dec (rq_key r) k) as [<-|Hne]; [left; reflexivity|]. right.
           apply (O k e0 H). cbn. destruct (String.eqb_spec (rq_key r) k); [contradiction | exact H0].
        -- destruct (string_dec (rq_key r) k) as [<-|Hne]; [congruence|].
           apply (O k e0 H). cbn. destruct (String.eqb_spec (rq_key r) k); [contradiction | exact H0].
Qed.

Definition tok_of (U : store) (r : rq) : list token :=
  match st_find U (rq_key r) with Some e => item_tokens (en_item e) | None => [] end.
Lemma feeds_stream U rs rest :
  (forall r, In r rs -> fits U r) -> (forall k e, st_find U k = Some e -> norm (en_item e) = en_item e) ->
  feeds U rs (SrcStream (flat_map (tok_of U) rs ++ rest)) (SrcStream rest).
Proof.
  intros HF HN. induction rs as [|r rs IH]; [reflexivity|].
  destruct (HF r (or_introl eq_refl)) as (e & Ue & Te & _).
  exists e, (SrcStream (flat_map (tok_of U) rs ++ rest)). split; [exact Ue|]. split.
  - cbn [flat_map]. unfold tok_of at 1. rewrite Ue, <- app_assoc. cbn [fetch].
    rewrite <- Te, rd_item_tokens. cbn [bind]. rewrite (HN _ _ Ue). reflexivity.
  - apply IH. intros r' H. apply HF. right. exact H.
Qed.
Lemma feeds_files U rs fs :
  (forall r, In r rs -> exists e c j, st_find U (rq_key r) = Some e /\
     file_find fs (rq_file r) (if rq_hash r then Some (rq_ty r) else None) = Some c /\ rd_item (rq_ty r) c = Some (en_item e, j)) ->
  feeds U rs (SrcFiles fs) (SrcFiles fs).
Proof.
  induction rs as [|r rs IH]; intros H; [reflexivity|].
  destruct (H r (or_introl eq_refl)) as (e & c & j & Ue & Fe & Re).
  exists e, (SrcFiles fs). split; [exact Ue|]. split.
  - cbn [fetch]. rewrite Fe. cbn [bind]. rewrite Re. reflexivity.
  - apply IH. intros r' Hr. apply H. right. exact Hr.
Qed.
