(** Again_main.v -- proofs of the properties stated in Props_Again.v: making records again from their own data, at any time (Filler.fill, Record.from_mapping, copy and from_instance) *)

From Verif Require Import Base Py Select Filler Spec_Filler Classes Spec_Classes Runtime Record Spec_Record Spec_Inst Spec_Copy Spec_Keywords Spec_Changes Spec_Settle Spec_Hist Spec_Again Demo DemoRt DemoCls.
From Verif Require Dict_proofs New_main Copy_main Filler_eqs Filler_shape Filler_main Filler_decl Classes_main Hist_main Changes_main Settle_main Props_Hist.
Open Scope string_scope.
Open Scope list_scope.

Import Filler_shape Settle_main.
Lemma class_made : forall {obj ty W} (R : Rt obj ty W) c, settling_class R c -> made (rt_py R) c.
Proof.
  intros obj ty W R. fix IH 2. intros c H. destruct H as [d c HM HD HB HA].
  apply (made_class _ d); [assumption|assumption|]. intros b HI. apply IH, HB, HI.
Qed.

Lemma c156_fields_proof : forall {obj ty W} (R : Rt obj ty W) c,
  settled_runtime (rt_py R) -> settling_class R c ->
  forall k f, dget k (c_fields c) = Some f ->
  forall x w y w', call (rt_py R) (f_filler f) x w = (Ok y, w') ->
  forall w1, call (rt_py R) (f_filler f) y w1 = (Ok y, w1).
Proof.
  intros obj ty W R c HR HC. induction HC as [d c HM HD HB IH HA]. intros k f EF x w y w' HX w1.
  destruct (Classes_main.c59_fields_proof (rt_py R) d c HM HD) as (FB & FO).
  { intros b HI. apply class_made, HB, HI. }
  assert (IK : In k (keys (c_fields c))) by (eapply Dict_proofs.dget_some_key; eassumption).
  rewrite (Classes_main.c59_names_proof (rt_py R) d c HM HD) in IK. apply in_app_or in IK. destruct IK as [IK|IK].
  - unfold inherited_names in IK. apply in_flat_map in IK. destruct IK as ([b|] & IB & IK); [|destruct IK].
    apply Dict_proofs.in_keys_get in IK. destruct IK as (f' & EF').
    pose proof (FB b k f' IB EF') as E. assert (f' = f) by congruence. subst f'.
    exact (IH b IB k f EF' x w y w' HX w1).
  - assert (HK : exists a, dget k (d_anns d) = Some a /\ is_field a = true).
    { unfold own_field_names in IK. apply in_app_or in IK. destruct IK as [IK|IK]; apply filter_In in IK; destruct IK as (_ & IK);
        [|apply andb_prop in IK; destruct IK as (IK & _)]; destruct (dget k (d_anns d)) as [a|]; try discriminate; exists a; auto. }
    destruct HK as (a & EA & FA). destruct (FO k a EA FA) as (f' & EF' & _ & _ & _ & _ & MF).
    assert (f' = f) by congruence. subst f'. destruct (HA k a EA FA) as (ts & OT & [[ST QU]|[HH HU]]); rewrite OT in MF.
    + destruct (c155_settles_partial_proof (rt_py R) _ _ ts (f_filler f) HR ST MF _ _ _ _ HX w1) as (w2 & E & Q).
      rewrite E, (Q QU). reflexivity.
    + apply (Filler_main.c01_hollow_proof (rt_py R) (d_style d) (declared_hint a) (own_only ts) (f_filler f) MF).
      * rewrite own_ops_own_only, (Filler_eqs.hollow_hint_ext (d_style d) (declared_hint a) _ no_sub_tokens); [assumption|]. intro. apply sub_ops_own_only.
      * rewrite own_ops_own_only, (unvalidated_ext (declared_hint a) _ no_sub_tokens); [assumption|]. intro. apply sub_ops_own_only.
Qed.

Lemma c156_always_proof : forall {obj ty W} (R : Rt obj ty W) ctx l w,
  settled_program R ctx l w -> all_right R ctx (kept_value R ctx) w ->
  all_right R ctx (kept_value R ctx) (after_all R ctx l w).
Proof.
  intros obj ty W R ctx l w (HR & HC & HP & HL & HA) H0.
  apply Hist_main.c99_always_partial_proof; [assumption| |assumption|assumption|assumption].
  intros t c E. destruct (HC t c E) as (SC & SD). intros k f EF.
  assert (KV : forall x w1 v w2, call (rt_py R) (f_filler f) x w1 = (Ok v, w2) -> kept_value R ctx (c_ty c) k v).
  { intros x w1 v w2 HX c' f' EC EF' w3. destruct HP as (_ & HP). destruct (HP t c E) as (ET & _).
    rewrite ET, E in EC. injection EC as <-. assert (f' = f) by congruence. subst f'.
    exact (c156_fields_proof R c HR SC k f EF x w1 v w2 HX w3). }
  split; [|split].
  - intros v w1 y w2 HX. exact (KV _ _ _ _ HX).
  - intros d ED. destruct (SD k f EF w d w (default_value f d w ED)) as (x & w1 & w2 & HX). exact (KV _ _ _ _ HX).
  - intros g w1 y w2 EG HG. destruct (SD k f EF w1 y w2 (default_made f g y w1 w2 EG HG)) as (x & w3 & w4 & HX). exact (KV _ _ _ _ HX).
Qed.

Lemma right_fixed : forall {obj ty W} (R : Rt obj ty W) ctx c w x i,
  all_right R ctx (kept_value R ctx) w -> instance_of R ctx c w x i -> stored_fixed R c i.
Proof.
  intros obj ty W R ctx c w x i HR (EC & EL & ET & _ & _) k f v EF EV w1. rewrite <- ET in EC.
  apply (HR x i c k v EL EC) with (c := c); try assumption. eapply Dict_proofs.dget_some_key; eassumption.
Qed.
Lemma program_made : forall {obj ty W} (R : Rt obj ty W) ctx l w c, settled_program R ctx l w -> ctx (c_ty c) = Some c -> made (rt_py R) c.
Proof. intros obj ty W R ctx l w c (_ & HC & _) E. apply class_made. exact (proj1 (HC _ _ E)). Qed.

Lemma c156_mapping_proof : forall {obj ty W} (R : Rt obj ty W) ctx D eqb hf l w n c x i,
  settled_program R ctx l w -> all_right R ctx (kept_value R ctx) w ->
  let now := after_all R ctx l w in
  instance_of R ctx c now x i -> Spec_Inst.accepts R ctx c (fieldwise eqb c i) -> fields_callable c -> comparable R D eqb hf c i ->
  exists d, to_dict R ctx x no_args sel_empty now = (Ok d, now) /\
    forall m, is_mapping R m d ->
    exists y w', from_mapping R (S n) c sel_empty [m] [] now = (Ok y, w') /\ equal_copy R ctx c now w' x y.
Proof.
  intros obj ty W R ctx D eqb hf l w n c x i HS H0 now HI HA HF HC.
  apply (Copy_main.c36_mapping_proof R ctx D eqb hf n c now x i); try assumption.
  - destruct HI as (E & _). exact (program_made R ctx l w c HS E).
  - eapply right_fixed; [|exact HI]. apply c156_always_proof; assumption.
Qed.

Lemma c156_copy_proof : forall {obj ty W} (R : Rt obj ty W) ctx D eqb l w n c x i,
  settled_program R ctx l w -> all_right R ctx (kept_value R ctx) w ->
  let now := after_all R ctx l w in
  instance_of R ctx c now x i -> Spec_Inst.accepts R ctx c (rebuilt eqb c i) -> fields_callable c -> c_frozen c = false ->
  has_eq R D eqb -> defaults_in D c -> values_in D c i ->
  exists y w' j, copy R ctx (S n) x now = (Ok y, w') /\ fresh_instance R ctx c now w' y j /\ all_kept R now w' /\ rebuilt eqb c i j.
Proof.
  intros obj ty W R ctx D eqb l w n c x i HS H0 now HI HA HF HZ HE HDI HVI.
  assert (HM : made (rt_py R) c) by (destruct HI as (E & _); exact (program_made R ctx l w c HS E)).
  assert (SF : stored_fixed R c i) by (eapply right_fixed; [|exact HI]; apply c156_always_proof; assumption).
  destruct (Copy_main.c38_not_default_partial_proof R ctx D eqb n c now x i HM HA HF HZ HI HE HDI HVI SF) as (y & w2 & j & E1 & E2 & E3 & E4 & E5).
  exists y, w2, j. split; [assumption|]. split; [assumption|]. split; [assumption|]. intros k f v EF EV.
  destruct (f_default f) as [|d|fac] eqn:ED.
  - left. apply (E4 k f v EF EV). intros d E. congruence.
  - destruct (eqb d v) eqn:EE.
    + right. exists d. split; [reflexivity|]. split; [assumption|]. exact (E5 k f v d EF EV ED EE).
    + left. apply (E4 k f v EF EV). intros d' E. assert (d' = d) by congruence. subst. assumption.
  - left. apply (E4 k f v EF EV). intros d E. congruence.
Qed.

Lemma c156_changed_proof : forall {obj ty W} (R : Rt obj ty W) ctx D eqb l w n c x i kw new,
  settled_program R ctx l w -> all_right R ctx (kept_value R ctx) w ->
  let now := after_all R ctx l w in
  instance_of R ctx c now x i -> fields_callable c -> has_eq R D eqb -> defaults_in D c -> values_in D c i ->
  dict_ok kw -> kw <> [] -> taken_as R c kw new -> Spec_Inst.accepts R ctx c (changed eqb c i new) ->
  exists y w' j, from_instance R (S n) c sel_empty x [] kw now = (Ok y, w') /\
    fresh_instance R ctx c now w' y j /\ all_kept R now w' /\ changed eqb c i new j.
Proof.
  intros obj ty W R ctx D eqb l w n c x i kw new HS H0 now HI HF HE HDI HVI HD HK HT HA.
  assert (HM : made (rt_py R) c) by (destruct HI as (E & _); exact (program_made R ctx l w c HS E)).
  assert (SF : stored_fixed R c i) by (eapply right_fixed; [|exact HI]; apply c156_always_proof; assumption).
  apply (Changes_main.c154_changed_proof R ctx D eqb n c now x i kw new); try assumption.
  intros k f v EF EK EV HDV. eexists. split; [exists f; split; [exact EF|reflexivity]|]. intro w1. exact (SF k f v EF EV w1).
Qed.
