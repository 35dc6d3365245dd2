(** Alike_main.v -- proofs of the properties stated in Props_Alike.v: what equal records export (RecordBase.to_dict, Select.__call__) *)

From Verif Require Import Base Py Select Filler Spec_Filler Classes Spec_Classes Runtime Record Spec_Record Spec_Inst Spec_Alike Demo DemoRt DemoCls.
From Verif Require Dict_proofs Inst_proofs Inst_main Record_proofs Factories_main.
Open Scope string_scope.
Open Scope list_scope.

Import Dict_proofs Inst_proofs.
Section Dicts.
Context {A : Type} (E : A -> A -> Prop) (refl : forall a, E a a).
Notation alike := (@alike A E).
Lemma alike_get : forall d d' k, alike d d' -> match dget k d, dget k d' with Some a, Some b => E a b | None, None => True | _, _ => False end.
Proof.
  intros d d' k H. induction H as [|[k1 v1] [k2 v2] d d' [H1 H2] H IH]; [exact I|]. cbn in *. subst k2. destruct (String.eqb k k1); assumption.
Qed.
Lemma alike_mem : forall d d' k, alike d d' -> dmem k d = dmem k d'.
Proof. intros d d' k H. unfold dmem. pose proof (alike_get d d' k H) as G. destruct (dget k d), (dget k d'); tauto. Qed.
Lemma alike_del : forall d d' k, alike d d' -> alike (ddel k d) (ddel k d').
Proof.
  intros d d' k H. induction H as [|[k1 v1] [k2 v2] d d' [H1 H2] H IH]; [constructor|]. cbn in *. subst k2.
  destruct (String.eqb k k1); [assumption|]. constructor; [split; [reflexivity|assumption]|assumption].
Qed.
Lemma alike_set : forall d d' k a b, alike d d' -> E a b -> alike (dset k a d) (dset k b d').
Proof.
  intros d d' k a b H HE. induction H as [|[k1 v1] [k2 v2] d d' [H1 H2] H IH]; [constructor; [split; [reflexivity|assumption]|constructor]|].
  cbn in *. subst k2. destruct (String.eqb k k1); constructor; try (split; [reflexivity|assumption]); assumption.
Qed.

(** [b] does the same to dicts that are alike *)
Definition respects (b : dict A -> outcome unit * dict A) : Prop :=
  forall d d', alike d d' -> fst (b d) = fst (b d') /\ alike (snd (b d)) (snd (b d')).
Lemma respects_for : forall {X} (body : X -> dict A -> outcome unit * dict A), (forall x, respects (body x)) ->
  forall l d d', alike d d' ->
  fst (fst (for_each body l d)) = fst (fst (for_each body l d')) /\ alike (snd (fst (for_each body l d))) (snd (fst (for_each body l d'))).
Proof.
  intros X body HB. induction l as [|x l IH]; intros d d' H; cbn [for_each]; [auto|].
  destruct (HB x d d' H) as [H1 H2]. destruct (body x d) as [[u|e] d1], (body x d') as [[u'|e'] d1']; cbn [fst snd] in *; try discriminate.
  - apply IH. assumption.
  - auto.
Qed.
Lemma remove_respects : forall k, respects (do_remove k).
Proof. intros k d d' H. unfold do_remove. rewrite (alike_mem _ _ k H). destruct (dmem k d'); cbn; auto using alike_del. Qed.
Lemma mremove_respects : forall k, respects (do_mremove k).
Proof. intros k d d' H. cbn. auto using alike_del. Qed.
Lemma rename_respects : forall sd, respects (do_rename sd).
Proof.
  intros [src dst] d d' H. unfold do_rename. rewrite (alike_mem _ _ dst H). destruct (dmem dst d'); [cbn; auto|].
  pose proof (alike_get _ _ src H) as G. destruct (dget src d), (dget src d'); cbn; try contradiction; auto using alike_set, alike_del.
Qed.
Lemma mrename_respects : forall sd, respects (do_mrename sd).
Proof.
  intros [src dst] d d' H. unfold do_mrename. rewrite (alike_mem _ _ src H). destruct (negb (dmem src d')); [cbn; auto|].
  rewrite (alike_mem _ _ dst H). destruct (dmem dst d'); [cbn; auto|].
  pose proof (alike_get _ _ src H) as G. destruct (dget src d), (dget src d'); cbn; try contradiction; auto using alike_set, alike_del.
Qed.
Lemma add_respects : forall kv, respects (do_add kv).
Proof. intros [k v] d d' H. unfold do_add. rewrite (alike_mem _ _ k H). destruct (dmem k d'); cbn; auto using alike_set. Qed.
Lemma madd_respects : forall kv, respects (do_madd kv).
Proof. intros [k v] d d' H. unfold do_madd. rewrite (alike_mem _ _ k H). destruct (dmem k d'); cbn; auto using alike_set. Qed.

Ltac stage HB l H H1 H2 :=
  match goal with |- context [for_each ?body ?l ?d] =>
  match goal with |- context [for_each body l ?d'] => tryif constr_eq d d' then fail else
    destruct (respects_for body HB l d d' H) as [H1 H2];
    destruct (for_each body l d) as [[[?u|?e] ?d1] ?x], (for_each body l d') as [[[?u'|?e'] ?d1'] ?x']; cbn [fst snd] in H1, H2; try discriminate end end.
Lemma select_respects : forall (s : sel A) d d', alike d d' -> same_result E (sel_apply s d) (sel_apply s d').
Proof.
  intros s d d' H. unfold sel_apply, sel_call_mapping, sel_call. destruct (sel_truth s) as [b s1]. destruct (negb b); [exact H|].
  destruct s1 as [a ma r mr n mn c].
  stage remove_respects l H H1 H2; [|injection H1 as ->; reflexivity]. clear H H1. rename H2 into H.
  stage mremove_respects l H H1 H2; [|injection H1 as ->; reflexivity]. clear H H1. rename H2 into H.
  stage rename_respects l H H1 H2; [|injection H1 as ->; reflexivity]. clear H H1. rename H2 into H.
  stage mrename_respects l H H1 H2; [|injection H1 as ->; reflexivity]. clear H H1. rename H2 into H.
  stage add_respects l H H1 H2; [|injection H1 as ->; reflexivity]. clear H H1. rename H2 into H.
  stage madd_respects l H H1 H2; [|injection H1 as ->; reflexivity]. exact H2.
Qed.
End Dicts.

Section Sorting.
Context {obj : Type} (E : obj -> obj -> Prop).
Lemma insert_alike : forall le p q (d d' : dict obj), fst p = fst q -> E (snd p) (snd q) -> alike E d d' -> alike E (insert_by le p d) (insert_by le q d').
Proof.
  intros le p q d d' H1 H2 H. induction H as [|[k1 v1] [k2 v2] d d' [H3 H4] H IH]; [constructor; [auto|constructor]|].
  cbn in *. subst k2. rewrite H1. destruct (le (fst q) k1).
  - constructor; [auto|]. constructor; [auto|assumption].
  - constructor; [auto|assumption].
Qed.
Lemma sort_alike : forall s (d d' : dict obj), alike E d d' -> alike E (sort_items s d) (sort_items s d').
Proof.
  intros s d d' H. assert (HS : forall le, alike E (sort_by le d) (sort_by le d')).
  { intro le. unfold sort_by. induction H as [|p q d d' [H1 H2] H IH]; [constructor|]. cbn. apply insert_alike; assumption. }
  destruct s; cbn; auto.
Qed.
End Sorting.

Lemma exported_alike : forall {obj ty W} D (eqb : obj -> obj -> bool) (c : @cls obj ty W) (i j : inst obj ty) a black fs,
  equivalence D eqb -> (forall k f, In (k, f) fs -> dget k (c_fields c) = Some f) ->
  defaults_in D c -> values_in D c i -> values_in D c j -> fieldwise eqb c i j ->
  (forall k, In k (keys fs) -> (exists a, dget k (i_dict i) = Some a) /\ (exists b, dget k (i_dict j) = Some b)) ->
  alike (fun a b => eqb a b = true) (exported_from eqb a black fs i) (exported_from eqb a black fs j).
Proof.
  intros obj ty W D eqb c i j ar black fs (Q1 & Q2 & Q3) HF HD VI VJ HW HP. induction fs as [|[k f] r IH]; [constructor|].
  destruct (HP k (or_introl eq_refl)) as [[a EA] [b EB]]. pose proof (HF k f (or_introl eq_refl)) as EF.
  pose proof (dget_some_key _ _ _ EF) as HK. pose proof (HW k a b HK EA EB) as EQ. assert (DA : D a) by (eapply VI; eassumption). assert (DB : D b) by (eapply VJ; eassumption).
  unfold exported_from in *. cbn [flat_map]. apply Forall2_app; [|apply IH; [intros; apply HF; right; assumption|intros; apply HP; right; assumption]].
  cbn [fst snd]. rewrite EA, EB.
  assert (EE : to_exportb eqb ar black k f a = to_exportb eqb ar black k f b).
  { unfold to_exportb. do 2 f_equal. f_equal. f_equal. destruct (f_default f) as [|dv|g] eqn:ED; try reflexivity.
    assert (DV : D dv) by (eapply HD; eassumption).
    destruct (eqb dv a) eqn:E1, (eqb dv b) eqn:E2; try reflexivity.
    - rewrite (Q3 dv a b) in E2 by assumption. discriminate.
    - rewrite (Q3 dv b a) in E1 by (try assumption; apply Q2; assumption). discriminate. }
  rewrite EE. destruct (to_exportb eqb ar black k f b); [|constructor]. constructor; [cbn; auto|constructor].
Qed.
Lemma alike_weaken : forall {A} (E F : A -> A -> Prop) d d', (forall a b, E a b -> F a b) -> alike E d d' -> alike F d d'.
Proof. intros A E F d d' HE H. induction H as [|p q d d' [H1 H2] H IH]; constructor; auto. Qed.

Lemma c157_export_proof : forall {obj ty W} (R : Rt obj ty W) ctx D eqb c w x i y j a black s,
  made (rt_py R) c -> has_eq R D eqb -> equivalence D eqb -> defaults_in D c ->
  instance_of R ctx c w x i -> instance_of R ctx c w y j -> values_in D c i -> values_in D c j ->
  e_black a = BlackSet black -> fieldwise eqb c i j ->
  exists o o', to_dict R ctx x a s w = (o, w) /\ to_dict R ctx y a s w = (o', w) /\ same_result (same_or_equal eqb) o o'.
Proof.
  intros obj ty W R ctx D eqb c w x i y j a black s HM HE HQ HD HI HJ VI VJ HB HW. apply (Inst_main.made_named R) in HM. pose proof HM as [HO _].
  assert (T : forall x i, instance_of R ctx c w x i -> values_in D c i ->
     to_dict R ctx x a s w = (sel_apply s (sort_items (e_sort a) (exported eqb a black c i)), w)).
  { intros x0 i0 HI0 VI0. unfold to_dict, with_class. rewrite (class_of_instance R ctx c w x0 i0 HI0).
    unfold bind. rewrite (to_dict_of_exported R ctx D eqb HE c a black w x0 i0) by assumption. reflexivity. }
  do 2 eexists. split; [exact (T x i HI VI)|]. split; [exact (T y j HJ VJ)|].
  apply select_respects; [left; reflexivity|]. apply sort_alike. eapply alike_weaken; [intros u v H; right; exact H|].
  apply (exported_alike D eqb c i j a black (c_fields c)); try assumption.
  - intros k f HIn. apply dget_In; assumption.
  - intros k HK. destruct HI as (_ & _ & _ & _ & FI). destruct HJ as (_ & _ & _ & _ & FJ). split; [apply FI|apply FJ]; assumption.
Qed.

Lemma c157_equal_proof : forall {obj ty W} (R : Rt obj ty W) ctx D eqb c w x i y j d d',
  made (rt_py R) c -> has_eq R D eqb -> equivalence D eqb -> defaults_in D c ->
  instance_of R ctx c w x i -> instance_of R ctx c w y j -> values_in D c i -> values_in D c j ->
  to_dict R ctx x no_args sel_empty w = (Ok d, w) -> to_dict R ctx y no_args sel_empty w = (Ok d', w) ->
  (fieldwise eqb c i j <-> alike (fun u v => eqb u v = true) d d').
Proof.
  intros obj ty W R ctx D eqb c w x i y j d d' HM HE HQ HD HI HJ VI VJ TX TY. apply (Inst_main.made_named R) in HM. pose proof HM as [HO _].
  rewrite (to_dict_exported R ctx D eqb HE c no_args [] w x i) in TX by (auto; reflexivity).
  rewrite (to_dict_exported R ctx D eqb HE c no_args [] w y j) in TY by (auto; reflexivity). cbn in TX, TY. injection TX as <-. injection TY as <-. split.
  - intro HW. apply (exported_alike D eqb c i j no_args [] (c_fields c)); try assumption.
    + intros k f HIn. apply dget_In; assumption.
    + intros k HK. destruct HI as (_ & _ & _ & _ & FI). destruct HJ as (_ & _ & _ & _ & FJ). split; [apply FI|apply FJ]; assumption.
  - intros HA k a b HK EA EB. destruct HQ as (Q1 & Q2 & Q3). apply in_keys_get in HK as HF. destruct HF as (f & EF).
    assert (DA : D a) by (eapply VI; eassumption). assert (DB : D b) by (eapply VJ; eassumption).
    assert (NX : forall (i0 : inst obj ty), NoDup (keys (exported eqb no_args [] c i0))).
    { intro i0. apply exported_ok. assumption. }
    assert (G : forall i0 v, dget k (i_dict i0) = Some v ->
        dget k (exported eqb no_args [] c i0) = if match f_default f with DefVal dv => eqb dv v | _ => false end then None else Some v).
    { intros i0 v EV. destruct (match f_default f with DefVal dv => eqb dv v | _ => false end) eqn:EX.
      - apply dget_None. intro IK. apply in_keys_get in IK. destruct IK as (u & EU). apply dget_Some_In in EU. apply in_exported in EU; [|assumption].
        destruct EU as (f' & EF' & EU & [HW|[_ [HW|HW]]]); [destruct HW|discriminate|]. assert (f' = f) by congruence. assert (u = v) by congruence. subst.
        destruct (f_default f) as [|dv|]; try discriminate. rewrite (HW dv eq_refl) in EX. discriminate.
      - apply dget_In; [apply NX|]. apply in_exported; [assumption|]. exists f. split; [assumption|]. split; [assumption|]. right. split; [intros t _ []|].
        right. intros dv ED. rewrite ED in EX. assumption. }
    pose proof (alike_get _ _ _ k HA) as AG. rewrite (G i a EA), (G j b EB) in AG.
    destruct (f_default f) as [|dv|g] eqn:ED; try assumption.
    assert (DV : D dv) by (eapply HD; eassumption).
    destruct (eqb dv a) eqn:E1, (eqb dv b) eqn:E2; try contradiction; try assumption.
    apply (Q3 a dv b); try assumption. apply Q2; assumption.
Qed.

Lemma c157_json_partial_proof : forall {obj ty W} (R : Rt obj ty W) ctx D eqb c w x i y j a black s,
  made (rt_py R) c -> has_eq R D eqb -> equivalence D eqb -> defaults_in D c ->
  instance_of R ctx c w x i -> instance_of R ctx c w y j -> values_in D c i -> values_in D c j ->
  e_black a = BlackSet black -> fieldwise eqb c i j ->
  (forall d d', alike (same_or_equal eqb) d d' -> json_dumps R d w = json_dumps R d' w) ->
  to_json R ctx x a s w = to_json R ctx y a s w.
Proof.
  intros obj ty W R ctx D eqb c w x i y j a black s HM HE HQ HD HI HJ VI VJ HB HW HJS.
  destruct (c157_export_proof R ctx D eqb c w x i y j a black s HM HE HQ HD HI HJ VI VJ HB HW) as (o & o' & T1 & T2 & HS).
  unfold to_json, bind. rewrite T1, T2. destruct o as [d|e], o' as [d'|e']; cbn in HS; try contradiction.
  - apply HJS. assumption.
  - subst. reflexivity.
Qed.

Lemma c157_json_refuted_proof :
  exists (d : @decl dobj dty rstate) c ctx w x i y j t t',
    make_class rt0 d = Ok c /\ instance_of (demo_rt 0) ctx c w x i /\ instance_of (demo_rt 0) ctx c w y j /\
    record_eq (demo_rt 0) ctx x y w = (Ok true, w) /\
    to_json (demo_rt 0) ctx x no_args sel_empty w = (Ok t, w) /\ to_json (demo_rt 0) ctx y no_args sel_empty w = (Ok t', w) /\ t <> t'.
Proof.
  exists Factories_main.shown_decl, (made_of Factories_main.shown_decl), Factories_main.shown_ctx, Factories_main.shown_w, (DRef (TRec 0) 0).
  eexists. exists (DRef (TRec 0) 1). do 3 eexists.
  split; [reflexivity|]. split; [repeat split; intros k [<-|[<-|[]]]; eexists; reflexivity|].
  split; [repeat split; intros k [<-|[<-|[]]]; eexists; reflexivity|].
  split; [vm_compute; reflexivity|]. split; [vm_compute; reflexivity|]. split; [vm_compute; reflexivity|]. discriminate.
Qed.
