(** The items that the constructions compute are the [ideal] contents of the files that the loads read. *)
From Coq Require Import List Arith Bool String Lia.
From Verif Require Import MBase MRle MConstruct MPhi MRIndex MSrIndex MPsi MCsa MSrCsa MStore MBwt MCache CacheIdeal
  StoreProof StoreBuilt StoreEnd.
Import ListNotations.

Definition all_keys : list fkey :=
  [FText; FSa; FBwt; FAlpha; FRle; FPsi;
   FFirst; FFirstIdx; FFirstPos; FFirstByLast; FFirstSorted; FFirstLinks; FFirstValid; FFirstArea;
   FLast; FLastIdx; FLastPos; FLastByFirst; FLastSorted; FLastLinks; FLastValid; FLastArea;
   FCum; FFirstIdxAlpha; FFirstPosAlpha; FLastLinksAlpha;
   FPsiHead; FPsiHeadIdx; FPsiHeadSorted; FPsiTail; FPsiTailLinks; FPsiTailValid; FPsiTailArea; FPsiCum;
   FBigBwt; FBigSsa; FBigEsa].
Definition key_of (str : string) : fkey := hd FText (filter (fun k => String.eqb (fkey_str k) str) all_keys).
Definition name_of (s : nat) (f : skey * bool * item) : name :=
  mk_name (if fst (fst (fst f)) then Some s else None) (key_of (snd (fst (fst f))))
          (if snd (fst f) then Some (item_ty (snd f)) else None).

Ltac dpair x := match type of x with (_ * _)%type => let y := fresh "u" in destruct x as [x y]; dpair x; dpair y | _ => idtac end.
Ltac dbind H := repeat match type of H with bind ?m _ = Some _ =>
  let x := fresh "x" in let E := fresh "E" in apply bind_Some in H as (x & E & H); dpair x; cbv beta iota in H end.

Ltac unfold_values := cbn [ideal bits ints nm_hash nm_rate nm_key]; unfold v_vp, v_vf, v_vb, v_sal, v_al, v_pos, v_cum, v_mp, v_mf, v_mb, v_sp, v_sf, v_sb, v_lp, v_lf, v_lb, v_ht, v_psi, v_pc.
Ltac use_eqs := cbn [bind option_map p1 p2 fst snd]; repeat (match goal with H : ?l = Some _ |- context [?l] => rewrite H end; cbn [bind option_map p1 p2 fst snd]).
Ltac key_eval := match goal with |- context [key_of ?x] => let k := eval vm_compute in (key_of x) in change (key_of x) with k end.
Ltac one := unfold name_of; cbn [fst snd k_alpha k_nav k_samples k_marks k_links k_idx k_cum k_valid k_areas k_sa nav_hash is_psi_run item_ty];
  try key_eval; unfold_values; use_eqs; rewrite ?Nat.eqb_refl; cbn [option_map]; try reflexivity.
Ltac all_files := cbn [built_files app bv_files valid_files has_valid has_areas has_cum]; repeat apply Forall_cons; try apply Forall_nil.

Ltac unpack := repeat (match goal with
  | H : bind _ _ = Some _ |- _ => dbind H
  | H : Some _ = Some _ |- _ => injection H; clear H; intros; subst
  end; cbv beta iota in *).
Ltac open_all := unfold construct_rindex, construct_sri, construct_sri_valid, construct_sri_files_of, construct_sri_files, construct_rcsa_bwt,
  construct_csa_raw, construct_rcsa_psi, construct_srcsa, construct_srcsa_slim, construct_srcsa_valid, construct_srcsa_slim_valid,
  construct_srcsa_valid_of, construct_srcsa_of, construct_srcsa_slim_of, construct_srcsa_commons, construct_srcsa_psi, construct_srcsa_psi_valid,
  construct_srcsa_psi_of in *.


Section Built.
Variables (data sa : list nat) (b : base_items) (dens : nat) (g : big_files).
Hypothesis HB : construct_base data sa = Some b.
Notation ID := (ideal sa b dens g).

Lemma sal_marks a i x m l : subsamples_sorted_by_alphabet a (mk_sri_files i x m l) = subsamples_sorted_by_alphabet a (mk_sri_files i x [] l).
Proof. reflexivity. Qed.
Lemma built_ideal tm kd s v : t_dens tm = dens -> build tm kd s data sa = Some v ->
  forall f, In f (built_files tm kd v) -> ID (name_of s f) = Some (snd f).
Proof.
  intros HD H. assert (G : Forall (fun f => ID (name_of s f) = Some (snd f)) (built_files tm kd v)); [|now apply Forall_forall].
  destruct kd; cbn [build] in H; rewrite ?HD in H;
    match type of H with option_map _ ?m = _ => destruct m as [ix|] eqn:E; [|discriminate] end;
    injection H as <-; open_all; rewrite HB in E; cbn [bind] in E.
  all: unpack; cbn [sf_idx sf_samples sf_marks sf_links] in *.
  all: try match goal with H : construct_psi_core _ _ = Some ?pc |- _ => pose proof (psi_core_dens _ _ _ H) as HP end.
  all: repeat match goal with H : subsamples_sorted_by_alphabet _ (mk_sri_files _ _ (_ :: _) _) = _ |- _ => rewrite sal_marks in H
    | H : subsamples_sorted_by_alphabet _ (mk_sri_files _ _ ?m _) = _ |- _ => is_var m; rewrite sal_marks in H end.
  all: all_files.
  all: one.
  all: cbn [ca_psi cr_psi sc_psi set_validity]; rewrite HP, Nat.eqb_refl; reflexivity.
Qed.

(** Every value is defined, because every class can be built. *)
Notation def x := (exists y, x = Some y).
Notation V f := (f b).
Section Total.
Hypothesis HT : forall kd s, def (build (mk_tmpl BvSd BvSd BvSd dens) kd s data sa).
Ltac defs := repeat split; unfold_values; use_eqs; eexists; reflexivity.
Ltac from kd s := let v := fresh "v" in let H := fresh "H" in let E := fresh "E" in
  destruct (HT kd s) as [v H]; cbn [build t_dens] in H;
  match type of H with option_map _ ?m = _ => destruct m as [ix|] eqn:E; [|discriminate] end;
  injection H as <-; open_all; rewrite HB in E; cbn [bind] in E; unpack; cbn [sf_idx sf_samples sf_marks sf_links] in *;
  repeat match goal with H : subsamples_sorted_by_alphabet _ (mk_sri_files _ _ ?m _) = _ |- _ => is_var m; rewrite sal_marks in H end.
Notation BT := (bits sa b dens g).
Lemma total_lb s : def (v_lb b) /\ def (v_sb b s) /\ def (v_mb b s) /\ def (v_vb b s) /\
  def (BT (Some s) FLastIdx) /\ def (BT (Some s) FFirstByLast) /\ def (BT (Some s) FFirstValid).
Proof. from KSrIndexVM s. defs. Qed.
Lemma total_fp : def (BT None FFirstPos).
Proof. from KRIndex 0. defs. Qed.
Lemma total_lf s : def (v_pc b dens) /\ def (v_lf b dens) /\ def (v_sf b dens s) /\ def (v_mf b dens s) /\ def (v_vf b dens s) /\ def (v_pos b dens s) /\
  def (BT None FLastPos) /\ def (BT (Some s) FLastByFirst) /\ def (BT (Some s) FFirst) /\ def (BT (Some s) FLastValid).
Proof. from KSrCSAVM s. defs. Qed.
Lemma total_al s : def (v_al b dens) /\ def (v_sal b dens s) /\ def (BT (Some s) FFirstIdxAlpha).
Proof. from KSlim s. defs. Qed.
Lemma total_psi : exists psi pc, v_psi b = Some psi /\ pc_construct dens (al_C (bi_alpha b)) psi = Some pc /\ v_pc b dens = Some pc.
Proof. from KRCSAPsi 0. unfold v_psi, v_pc. unfold construct_psi_core in *. unpack. unfold v_psi, v_pc, construct_psi_core. use_eqs. eauto. Qed.
Lemma total_lp s : def (v_ht b) /\ def (v_lp b) /\ def (v_sp b s) /\ def (v_mp b s) /\ def (v_vp b s) /\ def (v_cum b dens) /\
  def (BT None FPsiTail) /\ def (BT (Some s) FPsiTail) /\ def (BT (Some s) FPsiHeadIdx) /\ def (BT (Some s) FPsiTailValid).
Proof. from KSrPsiVM s. defs. Qed.
End Total.
End Built.
