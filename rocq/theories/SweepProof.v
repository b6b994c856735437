(** Removed files. *)
From Coq Require Import List Arith Bool String Lia.
From Verif Require Import Spec MBase MRle MConstruct MPhi MRIndex MStore MBwt SpecStore SpecBwt StoreProof
  MCache SpecCache CacheIdeal CacheBuilt CacheStep CacheEnd SpecSweep.
Import ListNotations.

Lemma find_without gone d n : d_find (without gone d) n = if gone n then None else d_find d n.
Proof.
  induction d as [|[m c] d IH]; [now destruct (gone n)|]. cbn [without filter fst d_find]. fold (without gone d).
  destruct (gone m) eqn:G; cbn [negb d_find]; destruct (name_eq_dec m n) as [->|]; rewrite ?IH, ?G; reflexivity.
Qed.
Lemma closed_without dens gone d : closed dens d -> tidy dens gone d -> closed dens (without gone d).
Proof.
  intros C T n H o I. unfold present in H. rewrite find_without in H. destruct (gone n) eqn:G; [now destruct H|].
  destruct (C n H o I) as [it E]. exists it. rewrite find_without, (T n H G o I). exact E.
Qed.
Lemma tidy_rates dens f d : tidy dens (of_rates f) d.
Proof.
  intros [[s|] k h] _ G o I; unfold of_rates in *; cbn [nm_rate] in G.
  - destruct k, h as [[| |? | |?|?]|]; cbn in I; repeat (destruct I as [<-|I]; [exact G|]); destruct I.
  - destruct k, h as [[| |? | |?|?]|]; cbn in I; repeat (destruct I as [<-|I]; [reflexivity|]); destruct I.
Qed.
Lemma tidy_text dens d : tidy dens text_or_sa d.
Proof.
  intros [[s|] k h] _ G o I.
  - destruct k, h as [[| |? | |?|?]|]; cbn in I; repeat (destruct I as [<-|I]; [reflexivity|]); destruct I.
  - destruct k, h as [[| |? | |?|?]|]; try discriminate G; cbn in I; repeat (destruct I as [<-|I]; [reflexivity|]); destruct I.
Qed.
Lemma tidy_classes dens d : tidy dens of_classes d.
Proof.
  intros [[s|] k h] _ G o I; [discriminate|].
  destruct h as [?|]; [destruct k; discriminate|]. destruct k; try discriminate G; cbn in I; repeat (destruct I as [<-|I]; [reflexivity|]); destruct I.
Qed.

Section Swept.
Variables (w : list nat) (e : world) (h : nat).
Hypothesis HS : sound_world w e.
Hypothesis Hh : 0 < h.
Hypothesis Hn : S (List.length w) < 2 ^ 64.
Variable b : base_items.
Hypothesis HB : construct_base (wd_data e) (wd_sort e (terminated w)) = Some b.
Notation INV := (inv (wd_sort e (terminated w)) b (2 * h) (wd_exe e (wd_data e))).
Lemma good_without gone d : good (wd_sort e (terminated w)) b (2 * h) (wd_exe e (wd_data e)) d ->
  good (wd_sort e (terminated w)) b (2 * h) (wd_exe e (wd_data e)) (without gone d).
Proof using. unfold good, without. rewrite !Forall_forall. intros G x I. apply filter_In in I as [I _]. auto. Qed.
Lemma swept_inv p : swept w e (2 * h) p -> INV p.
Proof.
  induction 1 as [|p r p' H IH R E|p H IH|p r p' d H IH R E ST C|p gone H IH T].
  - exact (history_inv w e h HS Hh Hn b HB _ (h_empty _ _ _)).
  - destruct (run_ok w e h HS Hh Hn b HB r R p IH ltac:(intros ? [])) as [(q & ws & E' & _ & I & _) _]. assert (q = p') by congruence. now subst q.
  - destruct IH as [G C M]. split; [exact G|exact C|intros r k []].
  - destruct (run_ok w e h HS Hh Hn b HB r R p IH ltac:(intros ? [])) as [(q & ws & E' & D & I & _) _]. split; [|exact C|intros r' k []].
    assert (q = p') by congruence. subst q. eapply stopped_good; try eassumption. apply I.
  - destruct IH as [G C M]. split; cbn [pr_disk pr_map]; [now apply good_without|now apply closed_without|exact M].
Qed.
End Swept.
