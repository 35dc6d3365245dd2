(** Proto_main.v -- proofs of the properties stated in Props_Proto.v: Pickle protocols and parametrized classes (records/record.py:58, 411-429, 627-642) *)

From Verif Require Import Base Py Select Filler Classes Spec_Classes Runtime Record Spec_Record Spec_Inst Spec_Copy Proto Demo DemoRt DemoCls.
From Verif Require Dict_proofs Filler_proofs Classes_proofs Record_proofs Classes_main Inst_proofs Inst_main Copy_proofs Copy_main.
Open Scope string_scope.
Open Scope list_scope.

Import Dict_proofs Filler_proofs Classes_proofs Record_proofs Classes_main Inst_proofs Inst_main Copy_proofs Copy_main.

Section B.
Context {obj ty W : Type} (R : Rt obj ty W) (ctx : ty -> option (@cls obj ty W)).
Lemma old_protocol : forall z, z = 0%Z \/ z = 1%Z -> protocol (Some z) = Ok z /\ (z <? 2)%Z = true.
Proof. intros z [-> | ->]; split; reflexivity. Qed.
Lemma new_protocol : forall p, p = None \/ (exists z, p = Some z /\ (z < 0 \/ 2 <= z <= 5)%Z) -> exists z, protocol p = Ok z /\ (z <? 2)%Z = false.
Proof.
  intros p [->|(z & -> & H)]; [exists 4%Z; split; reflexivity|]. cbn. destruct (z <? 0)%Z eqn:E; [exists 5%Z; split; reflexivity|].
  apply Z.ltb_ge in E. replace (5 <? z)%Z with false by (symmetry; apply Z.ltb_ge; lia). exists z. split; [reflexivity|]. apply Z.ltb_ge. lia.
Qed.
Lemma with_old : forall k c x i w n z, instance_of R ctx c w x i -> z = 0%Z \/ z = 1%Z ->
  pickle_with R ctx k (Some z) n x w = copy_old R k c x w.
Proof.
  intros k c x i w n z HI HZ. destruct (old_protocol z HZ) as [E1 E2]. unfold pickle_with, with_class.
  rewrite (class_of_instance R ctx c w x i HI). rewrite E1. unfold bind at 1, lift. rewrite E2. reflexivity.
Qed.
Lemma with_new : forall k c x i w n p, instance_of R ctx c w x i -> p = None \/ (exists z, p = Some z /\ (z < 0 \/ 2 <= z <= 5)%Z) ->
  pickle_with R ctx k p n x w = copy_new R ctx k n c x w.
Proof.
  intros k c x i w n p HI HZ. destruct (new_protocol p HZ) as (z & E1 & E2). unfold pickle_with, with_class.
  rewrite (class_of_instance R ctx c w x i HI). rewrite E1. unfold bind at 1, lift. rewrite E2. reflexivity.
Qed.
Lemma lookup_bare : forall (c : @cls obj ty W) d w, lookup R (set_heap R (heap R w ++ [Inst (c_ty c) d SUnset]) w) (ref R (c_ty c) (List.length (heap R w))) = Some (Inst (c_ty c) d SUnset).
Proof.
  intros c d w. unfold lookup. rewrite deref_ref, heap_set, nth_error_app2 by lia. rewrite Nat.sub_diag. reflexivity.
Qed.
Lemma kept_bare : forall (c : @cls obj ty W) d w, all_kept R w (set_heap R (heap R w ++ [Inst (c_ty c) d SUnset]) w).
Proof.
  intros c d w x i HL. unfold lookup in *. destruct (deref R x) as [m|]; [|discriminate]. rewrite heap_set.
  rewrite nth_error_app1; [assumption|]. apply nth_error_Some. congruence.
Qed.
Lemma bare_new : forall (c : @cls obj ty W) w, lookup R w (ref R (c_ty c) (List.length (heap R w))) = None.
Proof. intros c w. unfold lookup. rewrite deref_ref. apply nth_error_None. lia. Qed.
Lemma all_in_combine : forall (d : dict obj) (vs : list obj), List.length vs = List.length d -> keys (combine (keys d) vs) = keys d.
Proof. intros d vs H. apply keys_combine. rewrite H. apply map_length. Qed.
End B.

Lemma c145_old_refuted_proof : forall {obj ty W} (R : Rt obj ty W) ctx c w x i n z,
  instance_of R ctx c w x i -> z = 0%Z \/ z = 1%Z ->
  exists m, pickle_with R ctx library_pickling (Some z) n x w = (Raise (mkexc TypeError m), w).
Proof.
  intros obj ty W R ctx c w x i n z HI HZ. rewrite (with_old R ctx library_pickling c x i w n z HI HZ). eexists. reflexivity.
Qed.

Lemma c145_protocols_partial_proof : forall {obj ty W} (R : Rt obj ty W) ctx D eqb hf n c w x i vs w1 p,
  p = None \/ (exists z, p = Some z /\ (z < 0 \/ 2 <= z <= 5)%Z) ->
  made (rt_py R) c -> accepts R ctx c (refilled R c (combine (keys (i_dict i)) vs)) -> fields_callable c ->
  instance_of R ctx c w x i -> comparable R D eqb hf c i -> dict_ok (i_dict i) ->
  pickle_values R (dvalues (i_dict i)) w = (Ok vs, w1) -> all_kept R w w1 -> List.length vs = List.length (i_dict i) ->
  let copies := combine (keys (i_dict i)) vs in
  (forall k f v u, dget k (c_fields c) = Some f -> dget k (i_dict i) = Some v -> dget k copies = Some u ->
     D u /\ eqb v u = true /\ (c_frozen c = true -> forall w, v_hash R u w = (Ok (hf u), w)) /\
     exists y, forall w, call (rt_py R) (f_filler f) u w = (Ok y, w)) ->
  exists y w' j, pickle_with R ctx library_pickling p (S n) x w = (Ok y, w') /\ instance_of R ctx c w' y j /\ lookup R w1 y = None /\ all_kept R w1 w' /\
    (forall k, dget k (i_dict j) = dget k copies) /\
    exists w'', record_eq R ctx x y w' = (Ok true, w'') /\ fields_kept R w' w''.
Proof.
  intros obj ty W R ctx D eqb hf n c w x i vs w1 p HP HM HA HF HI HC HO HV HK HL copies HE.
  rewrite (with_new R ctx library_pickling c x i w (S n) p HI HP).
  exact (c40_pickle_proof R ctx D eqb hf n c w x i vs w1 HM HA HF HI HC HO HV HK HL HE).
Qed.

Lemma c145_unknown_proof : forall {obj ty W} (R : Rt obj ty W) ctx k c w x i n z,
  instance_of R ctx c w x i -> (5 < z)%Z -> exists m, pickle_with R ctx k (Some z) n x w = (Raise (mkexc ValueError m), w).
Proof.
  intros obj ty W R ctx k c w x i n z HI HZ. unfold pickle_with, with_class. rewrite (class_of_instance R ctx c w x i HI).
  cbn [protocol]. replace (z <? 0)%Z with false by (symmetry; apply Z.ltb_ge; lia). replace (5 <? z)%Z with true by (symmetry; apply Z.ltb_lt; lia).
  eexists. reflexivity.
Qed.

Lemma c145_getstate_partial_proof : forall {obj ty W} (R : Rt obj ty W) ctx D eqb hf c w x i n z slots g d w1 vs w2,
  made (rt_py R) c -> instance_of R ctx c w x i -> comparable R D eqb hf c i -> c_frozen c = false ->
  z = 0%Z \/ z = 1%Z -> g x w = (Ok d, w1) -> pickle_values R (dvalues d) w1 = (Ok vs, w2) -> all_kept R w w2 ->
  List.length vs = List.length d -> (forall k, In k (keys (c_fields c)) -> In k (keys d)) ->
  let copies := combine (keys d) vs in
  (forall k v u, In k (keys (c_fields c)) -> dget k (i_dict i) = Some v -> dget k copies = Some u -> D u /\ eqb v u = true) ->
  exists y w' j, pickle_with R ctx (Pickling slots (Some g)) (Some z) n x w = (Ok y, w') /\ instance_of R ctx c w' y j /\
    lookup R w2 y = None /\ all_kept R w2 w' /\ i_dict j = copies /\
    exists w'', record_eq R ctx x y w' = (Ok true, w'') /\ fields_kept R w' w''.
Proof.
  intros obj ty W R ctx D eqb hf c w x i n z slots g d w1 vs w2 HM HI HC HFz HZ HG HV HK HL HD copies HE.
  pose proof (made_named R c HM) as HN. pose proof HI as (HX & HLx & HTi & HTx & FI).
  rewrite (with_old R ctx (Pickling slots (Some g)) c x i w n z HI HZ).
  unfold copy_old. cbn [pk_getstate]. unfold bind. rewrite HG, HV. unfold bare.
  assert (KC : keys copies = keys d) by (apply all_in_combine; assumption).
  assert (HJ : instance_of R ctx c (set_heap R (heap R w2 ++ [Inst (c_ty c) copies SUnset]) w2) (ref R (c_ty c) (List.length (heap R w2))) (Inst (c_ty c) copies SUnset)).
  { split; [assumption|]. split; [apply lookup_bare|]. split; [reflexivity|]. split; [apply type_ref|].
    intros k HIn. cbn [i_dict]. apply in_keys_get. rewrite KC. auto. }
  do 3 eexists. split; [reflexivity|]. split; [exact HJ|]. split; [apply bare_new|]. split; [apply kept_bare|]. split; [reflexivity|].
  apply (fieldwise_equal R ctx D eqb hf c _ x i _ (Inst (c_ty c) copies SUnset)); try assumption.
  - eapply kept_instance; [apply kept_bare|]. eapply kept_instance; eassumption.
  - intros k b KI EB. cbn [i_dict] in EB. destruct (FI k KI) as [v EV]. exact (proj1 (HE k v b KI EV EB)).
  - intro. congruence.
  - intros k a b KI EA EB. exact (proj2 (HE k a b KI EA EB)).
Qed.

Lemma c145_frozen_refuted_proof : forall {obj ty W} (R : Rt obj ty W) ctx c w x i n z slots g d w1 vs w2,
  instance_of R ctx c w x i -> c_frozen c = true -> z = 0%Z \/ z = 1%Z ->
  g x w = (Ok d, w1) -> pickle_values R (dvalues d) w1 = (Ok vs, w2) -> all_kept R w w2 ->
  exists y w', pickle_with R ctx (Pickling slots (Some g)) (Some z) n x w = (Ok y, w') /\ type_of (rt_py R) y = c_ty c /\
    (exists m, record_hash R ctx y w' = (Raise (mkexc AttributeError m), w')) /\
    (forall p j, instance_of R ctx c w' p j -> exists m, record_eq R ctx y p w' = (Raise (mkexc AttributeError m), w')).
Proof.
  intros obj ty W R ctx c w x i n z slots g d w1 vs w2 HI HFz HZ HG HV HK. pose proof HI as (HX & _).
  rewrite (with_old R ctx (Pickling slots (Some g)) c x i w n z HI HZ).
  unfold copy_old. cbn [pk_getstate]. unfold bind at 1. rewrite HG. unfold bind at 1. rewrite HV. unfold bare.
  set (y := ref R (c_ty c) (List.length (heap R w2))).
  set (w' := set_heap R (heap R w2 ++ [Inst (c_ty c) (combine (keys d) vs) SUnset]) w2).
  assert (HL : lookup R w' y = Some (Inst (c_ty c) (combine (keys d) vs) SUnset)) by apply lookup_bare.
  assert (HH : record_hash R ctx y w' = (Raise (mkexc AttributeError "_hash"), w')).
  { unfold record_hash. rewrite HL. cbn [i_cls]. rewrite HX, HFz. reflexivity. }
  exists y, w'. split; [reflexivity|]. split; [apply type_ref|]. split; [eexists; exact HH|].
  intros p j (_ & HLp & HTp & HTyp & _). exists "_hash". unfold record_eq, with_class, class_of. rewrite HL. cbn [i_cls]. rewrite HX.
  replace (ty_eqb (rt_py R) (type_of (rt_py R) y) (type_of (rt_py R) p)) with true.
  - cbn [negb]. rewrite HFz. unfold bind at 1. unfold bind at 1. rewrite HH. reflexivity.
  - symmetry. unfold y. rewrite type_ref, HTyp. destruct (ty_eqP (rt_py R) (c_ty c) (c_ty c)); congruence.
Qed.

Lemma c145_getstate_proof : forall {obj ty W} (R : Rt obj ty W) ctx n c w x i p slots g kw d w1 us vs w2,
  p = None \/ (exists z, p = Some z /\ (z < 0 \/ 2 <= z <= 5)%Z) ->
  made (rt_py R) c -> accepts R ctx c (fun _ => True) -> fields_callable c -> instance_of R ctx c w x i ->
  to_dict R ctx x no_args sel_empty w = (Ok kw, w) -> g x w = (Ok d, w1) -> dict_ok kw -> dict_ok d ->
  pickle_values R (dvalues kw ++ dvalues d) w1 = (Ok (us ++ vs), w2) ->
  List.length us = List.length kw -> List.length vs = List.length d ->
  (forall k u, In (k, u) (combine (keys kw) us) -> exists f y, dget k (c_fields c) = Some f /\ forall w, call (rt_py R) (f_filler f) u w = (Ok y, w)) ->
  (forall k f, dget k (c_fields c) = Some f -> ~ In k (keys kw) -> exists v, f_default f = DefVal v) ->
  (forall k, In k (keys (c_fields c)) -> In k (keys d)) ->
  exists y w' j, pickle_with R ctx (Pickling slots (Some g)) p (S n) x w = (Ok y, w') /\ instance_of R ctx c w' y j /\
    lookup R w2 y = None /\ all_kept R w2 w' /\ (forall k, dget k (i_dict j) = dget k (combine (keys d) vs)) /\
    (c_frozen c = true -> i_hash j = SNone).
Proof.
  intros obj ty W R ctx n c w x i p slots g kw d w1 us vs w2 HP HM HA HF HI HT HG OK OD HV LU LV HAcc HDef HD.
  pose proof (made_named R c HM) as HN. pose proof HI as (HX & _).
  rewrite (with_new R ctx (Pickling slots (Some g)) c x i w (S n) p HI HP). unfold copy_new. cbn [pk_getstate].
  unfold bind. rewrite HT, HG, HV.
  replace (firstn (List.length kw) (us ++ vs)) with us by (rewrite <- LU, firstn_app, firstn_all, Nat.sub_diag, firstn_O, app_nil_r; reflexivity).
  replace (skipn (List.length kw) (us ++ vs)) with vs by (rewrite <- LU, skipn_app, skipn_all, Nat.sub_diag; reflexivity).
  assert (KK : keys (combine (keys kw) us) = keys kw) by (apply all_in_combine; assumption).
  assert (KD : keys (combine (keys d) vs) = keys d) by (apply all_in_combine; assumption).
  destruct (unpickle_restores R ctx (fun _ _ _ => True) n c (combine (keys kw) us) (combine (keys d) vs) SUnset w2)
    as (y & w' & j & HU & HJ & HLN & HKp & GJ & _ & S2); try assumption.
  - eapply accepts_less; [|exact HA]. intros; exact I.
  - unfold dict_ok. rewrite KK. assumption.
  - unfold dict_ok. rewrite KD. assumption.
  - intros k u HIn. destruct (HAcc k u HIn) as (f & y & EF & HY). exists f, y. auto.
  - intros k f EF NI. rewrite KK in NI. eauto.
  - intros k HIn. rewrite KD. auto.
  - exists y, w', j. split; [assumption|]. split; [assumption|]. split; [assumption|]. split; [assumption|]. split; [assumption|].
    intro HFz. rewrite (S2 eq_refl), HFz. reflexivity.
Qed.

Lemma c146_frozen_refuted_proof : forall {obj ty W} (R : Rt obj ty W) ctx n c alias other pos kw w r w1 i,
  construct R n c pos kw w = (Ok r, w1) -> instance_of R ctx c w1 r i -> c_frozen c = true ->
  exists m, call_alias R ctx n c alias other pos kw w = (Raise (mkexc TypeError m), w1).
Proof.
  intros obj ty W R ctx n c alias other pos kw w r w1 i HC (HX & HL & HT & _) HF. unfold call_alias, bind at 1. rewrite HC.
  unfold bind. rewrite HL. unfold setattr. rewrite HL, HT, HX, HF. eexists. reflexivity.
Qed.

Lemma c146_call_partial_proof : forall {obj ty W} (R : Rt obj ty W) ctx n c alias other pos kw w r w1 i,
  construct R n c pos kw w = (Ok r, w1) -> instance_of R ctx c w1 r i -> c_frozen c = false -> dict_ok (i_dict i) ->
  exists w' j, call_alias R ctx n c alias other pos kw w = (Ok r, w') /\ instance_of R ctx c w' r j /\
    dget "__orig_class__" (i_dict j) = Some alias /\
    (forall k, k <> "__orig_class__" -> dget k (i_dict j) = dget k (i_dict i)) /\
    (forall y, deref R y <> deref R r -> lookup R w' y = lookup R w1 y) /\
    set_heap R (heap R w1) w' = w1.
Proof.
  intros obj ty W R ctx n c alias other pos kw w r w1 i HC (HX & HL & HT & HTy & FI) HF HO. unfold call_alias, bind at 1. rewrite HC.
  unfold bind. rewrite HL. unfold setattr. rewrite HL, HT, HX, HF. cbn [String.eqb Ascii.eqb Bool.eqb].
  do 2 eexists. split; [reflexivity|]. split; [|split; [|split; [|split]]].
  - split; [exact HX|]. split; [eapply lookup_store_same; exact HL|]. split; [reflexivity|]. split; [exact HTy|].
    intros k HK. cbn [i_dict]. destruct (FI k HK) as [v EV]. destruct (string_dec k "__orig_class__") as [->|NE].
    + exists alias. apply dget_dset_same.
    + exists v. rewrite dget_dset_other by congruence. exact EV.
  - cbn [i_dict]. apply dget_dset_same.
  - intros k NE. cbn [i_dict]. apply dget_dset_other. congruence.
  - intros y NE. apply lookup_store_other. congruence.
  - unfold store. destruct (deref R r); [rewrite set_heap_twice|]; apply set_heap_same.
Qed.

Lemma c146_errors_proof : forall {obj ty W} (R : Rt obj ty W) ctx n c alias other pos kw w e w1,
  construct R n c pos kw w = (Raise e, w1) -> call_alias R ctx n c alias other pos kw w = (Raise e, w1).
Proof.
 intros obj ty W R ctx n c alias other pos kw w e w1 HC. unfold call_alias, bind at 1. rewrite HC. reflexivity. Qed.

Lemma c146_replaced_proof : forall {obj ty W} (R : Rt obj ty W) ctx n c alias other pos kw w r w1,
  construct R n c pos kw w = (Ok r, w1) -> lookup R w1 r = None ->
  (forall w2, other r "__orig_class__" alias w1 = (Ok tt, w2) -> call_alias R ctx n c alias other pos kw w = (Ok r, w2)) /\
  (forall e w2, other r "__orig_class__" alias w1 = (Raise e, w2) ->
     call_alias R ctx n c alias other pos kw w = (if is_AttributeError e then Ok r else Raise e, w2)).
Proof.
  intros obj ty W R ctx n c alias other pos kw w r w1 HC HL.
  split; [intros w2 HO|intros e w2 HO]; unfold call_alias, bind at 1; rewrite HC; unfold bind; rewrite HL, HO; [reflexivity|].
  destruct (is_AttributeError e); reflexivity.
Qed.
