(** Deleted_main.v -- proofs of the properties stated in Props_Deleted.v: Deleting attributes of records (records/record.py:113, 422-426) *)

From Verif Require Import Base Py Select Filler Classes Spec_Classes Runtime Record Spec_Record Spec_Inst Spec_Copy Through Deleted Demo DemoRt DemoCls.
From Verif Require Dict_proofs Filler_proofs Classes_proofs Record_proofs Classes_main Inst_proofs Inst_main Copy_proofs From_main Through_main.
Open Scope string_scope.
Open Scope list_scope.

Import Dict_proofs Filler_proofs Classes_proofs Record_proofs Classes_main Inst_proofs Inst_main Copy_proofs From_main Through_main.

Section D.
Context {obj ty W : Type} (fo : @cls obj ty W -> string -> obj) (R : Rt obj ty W) (ctx : ty -> option (@cls obj ty W)).
Notation R' := (with_fields fo R ctx).

Lemma deleted_state : forall c x i k v w, instance_of R' ctx c w x i -> k <> "_hash" -> dget k (i_dict i) = Some v ->
  delattr R' x k w = (Ok tt, store R' x (Inst (i_cls i) (ddel k (i_dict i)) (i_hash i)) w).
Proof.
  intros c x i k v w (_ & HL & _) NK G. unfold delattr. rewrite HL.
  destruct (String.eqb_spec k "_hash") as [E|_]; [contradiction|]. replace (dmem k (i_dict i)) with true; [reflexivity|].
  symmetry. apply dmem_true_get. eauto.
Qed.
Lemma deleted_lookup : forall x i j w, lookup R' w x = Some i -> lookup R' (store R' x j w) x = Some j.
Proof. intros. eapply lookup_store_same. eassumption. Qed.
Lemma deleted_class : forall c x i k w, instance_of R' ctx c w x i ->
  class_of R ctx x (store R' x (Inst (i_cls i) (ddel k (i_dict i)) (i_hash i)) w) = Some c.
Proof.
  intros c x i k w (HC & HL & HT & _). unfold class_of. change (lookup R) with (lookup R').
  rewrite (lookup_store_same R' x _ i w HL). cbn. rewrite HT. exact HC.
Qed.
End D.

Lemma c143_read_refuted_proof : forall {obj ty W} (field_obj : @cls obj ty W -> string -> obj) (R0 : Rt obj ty W) ctx c x i k w,
  let R := with_fields field_obj R0 ctx in
  instance_of R ctx c w x i -> dict_ok (i_dict i) -> In k (keys (c_fields c)) -> k <> "_hash" ->
  exists w1, delattr R x k w = (Ok tt, w1) /\ getattr R x k w1 = (Ok (field_obj c k), w1).
Proof.
  intros obj ty W fo R0 ctx c x i k w R HI OK HK NK. pose proof HI as (HC & HL & HT & _ & HF). destruct (HF k HK) as [v G].
  eexists. split; [apply (deleted_state fo R0 ctx c x i k v w HI NK G)|].
  unfold getattr. rewrite (lookup_store_same R x _ i w HL). cbn [i_dict]. rewrite dget_ddel_same by assumption.
  cbn [with_fields ext_attr R]. unfold class_attr. rewrite (deleted_class fo R0 ctx c x i k w HI).
  replace (dmem k (c_fields c)) with true; [reflexivity|]. symmetry. apply dmem_In. assumption.
Qed.

Lemma c143_export_refuted_proof : forall {obj ty W} (field_obj : @cls obj ty W -> string -> obj) (R0 : Rt obj ty W) ctx D eqb c x i k w w1,
  let R := with_fields field_obj R0 ctx in
  made (rt_py R) c -> has_eq R D eqb -> defaults_in D c ->
  instance_of R ctx c w x i -> values_in D c i -> D (field_obj c k) ->
  dict_ok (i_dict i) -> In k (keys (c_fields c)) -> k <> "_hash" -> delattr R x k w = (Ok tt, w1) ->
  exists d, to_dict R ctx x (ExportArgs true SortNone (BlackSet []) []) sel_empty w1 = (Ok d, w1) /\
    keys d = keys (c_fields c) /\ dget k d = Some (field_obj c k) /\
    forall k', In k' (keys (c_fields c)) -> k' <> k -> dget k' d = dget k' (i_dict i).
Proof.
  intros obj ty W fo R0 ctx D eqb c x i k w w1 R HM HE DD HI HV DK OK HK NK HDel.
  pose proof HI as (HC & HL & HT & _ & HF). destruct (HF k HK) as [v G].
  pose proof (deleted_state fo R0 ctx c x i k v w HI NK G) as E. fold R in E. rewrite E in HDel. injection HDel as <-.
  set (j := Inst (i_cls i) (ddel k (i_dict i)) (i_hash i)) in *. set (w1 := store R x j w).
  pose proof (lookup_store_same R x j i w HL) as HL1. fold w1 in HL1.
  set (d0 := map (fun k' => (k', match dget k' (ddel k (i_dict i)) with Some y => y | None => fo c k' end)) (keys (c_fields c))).
  assert (KD : keys d0 = keys (c_fields c)) by (unfold keys, d0; rewrite map_map; cbn; apply map_id).
  pose proof (made_named R c HM) as NC.
  assert (OD : dict_ok d0) by (unfold dict_ok; rewrite KD; apply NC).
  assert (GD : forall k', In k' (keys (c_fields c)) -> dget k' d0 = Some (match dget k' (ddel k (i_dict i)) with Some y => y | None => fo c k' end)).
  { intros k' H. apply dget_In; [exact OD|]. unfold d0. apply in_map_iff. eauto. }
  assert (HA : has_attributes R w1 (fun k => In k (keys (c_fields c))) x d0).
  { intros k' H. rewrite (GD k' H). unfold getattr. rewrite HL1. cbn [j i_dict].
    destruct (dget k' (ddel k (i_dict i))) as [y|]; [reflexivity|]. cbn [with_fields ext_attr R]. unfold class_attr.
    pose proof (deleted_class fo R0 ctx c x i k w HI) as CO. unfold w1, j. fold R in CO. unfold R in *. rewrite CO.
    replace (dmem k' (c_fields c)) with true; [reflexivity|]. symmetry. apply dmem_In. assumption. }
  assert (VAL : forall k', In k' (keys (c_fields c)) -> k' <> k -> dget k' d0 = dget k' (i_dict i)).
  { intros k' H N. rewrite (GD k' H), dget_ddel_other by assumption. destruct (HF k' H) as [y Ey]. rewrite Ey. reflexivity. }
  assert (VK : dget k d0 = Some (fo c k)) by (rewrite (GD k HK), dget_ddel_same by assumption; reflexivity).
  destruct (c142_object_proof R D eqb c x d0 (ExportArgs true SortNone (BlackSet []) []) [] w1 HM HE DD HA) as (out & EX & OO & HG & HO & _).
  - intros k' y H Gy. destruct (string_dec k' k) as [->|N]; [rewrite VK in Gy; injection Gy as <-; exact DK|].
    rewrite VAL in Gy by assumption. apply (HV k' y H Gy).
  - reflexivity.
  - intros _ k' f g Gf _. rewrite GD by (eapply dget_some_key; exact Gf). discriminate.
  - intros k' f Gf _ _. rewrite GD by (eapply dget_some_key; exact Gf). discriminate.
  - assert (GO : forall k', In k' (keys (c_fields c)) -> dget k' out = dget k' d0).
    { intros k' H. rewrite (GD k' H). apply HG. apply in_keys_get in H as Gf. destruct Gf as [f Gf]. exists f. split; [exact Gf|]. left.
      split; [apply GD; exact H|]. right. split; [intros t _ []|left; reflexivity]. }
    exists out. split.
    + unfold to_dict, with_class. unfold class_of. rewrite HL1. cbn [j i_cls]. rewrite HT, HC. exact EX.
    + split; [|split].
      * rewrite (HO eq_refl). apply filter_every. intros k' H. apply dmem_true_get. rewrite (GO k' H), (GD k' H). eauto.
      * rewrite GO by assumption. exact VK.
      * intros k' H N. rewrite GO by assumption. apply VAL; assumption.
Qed.

Lemma c143_others_partial_proof : forall {obj ty W} (R : Rt obj ty W) x k w w1,
  delattr R x k w = (Ok tt, w1) ->
  (forall k', k' <> k -> k' <> "_hash" -> match lookup R w x, lookup R w1 x with
     | Some i, Some j => dget k' (i_dict j) = dget k' (i_dict i)
     | _, _ => False end) /\
  (forall y, deref R y <> deref R x -> lookup R w1 y = lookup R w y).
Proof.
  intros obj ty W R x k w w1 H. unfold delattr in H. destruct (lookup R w x) as [i|] eqn:HL; [|discriminate].
  destruct (String.eqb_spec k "_hash") as [->|NK].
  - assert (E : exists j, w1 = store R x j w /\ i_dict j = i_dict i) by (destruct (i_hash i); [discriminate|injection H as <-; eexists; split; reflexivity..]).
    destruct E as (j & -> & E). split.
    + intros k' _ _. rewrite (lookup_store_same R x j i w HL), E. reflexivity.
    + intros y N. apply lookup_store_other. congruence.
  - destruct (dmem k (i_dict i)); [|discriminate]. injection H as <-. split.
    + intros k' N _. rewrite (lookup_store_same R x _ i w HL). cbn. apply dget_ddel_other. assumption.
    + intros y N. apply lookup_store_other. congruence.
Qed.

Lemma c143_restore_partial_proof : forall {obj ty W} (R : Rt obj ty W) ctx c x i k v w w1,
  instance_of R ctx c w x i -> dict_ok (i_dict i) -> c_frozen c = false -> k <> "_hash" -> delattr R x k w = (Ok tt, w1) ->
  exists w2 w3 j j', setattr R ctx x k v w1 = (Ok tt, w2) /\ setattr R ctx x k v w = (Ok tt, w3) /\
    lookup R w2 x = Some j /\ lookup R w3 x = Some j' /\ i_cls j = i_cls j' /\ i_hash j = i_hash j' /\
    dget k (i_dict j) = Some v /\ (forall k', dget k' (i_dict j) = dget k' (i_dict j')) /\
    (forall y, deref R y <> deref R x -> lookup R w2 y = lookup R w3 y).
Proof.
  intros obj ty W R ctx c x i k v w w1 (HC & HL & HT & _) OK NF NK H. unfold delattr in H. rewrite HL in H.
  destruct (String.eqb_spec k "_hash") as [E|_]; [contradiction|]. destruct (dmem k (i_dict i)); [|discriminate]. injection H as <-.
  set (j := Inst (i_cls i) (ddel k (i_dict i)) (i_hash i)). pose proof (lookup_store_same R x j i w HL) as HL1.
  exists (store R x (Inst (i_cls i) (dset k v (ddel k (i_dict i))) (i_hash i)) (store R x j w)).
  exists (store R x (Inst (i_cls i) (dset k v (i_dict i)) (i_hash i)) w).
  eexists. eexists.
  split; [unfold setattr; rewrite HL1; cbn [j i_cls i_dict i_hash]; rewrite HT, HC, NF; destruct (String.eqb_spec k "_hash"); [contradiction|reflexivity]|].
  split; [unfold setattr; rewrite HL, HT, HC, NF; destruct (String.eqb_spec k "_hash"); [contradiction|reflexivity]|].
  split; [exact (lookup_store_same R x _ j _ HL1)|]. split; [exact (lookup_store_same R x _ i _ HL)|].
  split; [reflexivity|]. split; [reflexivity|]. cbn [i_dict]. split; [apply dget_dset_same|]. split.
  - intro k'. rewrite !dget_dset. destruct (String.eqb_spec k' k) as [->|N]; [reflexivity|]. apply dget_ddel_other. assumption.
  - intros y N. rewrite !lookup_store_other by congruence. reflexivity.
Qed.

(** a class with the fields x and y, and an instance; fields are shown as functions *)
Definition del_cls := made_of (rdecl 0 false false (Some false) SCheck [("x", (an TInt, NoDefault)); ("y", (an TInt, NoDefault))] [] no_post).
Definition del_inst : inst dobj dty := Inst (TRec 0) [("x", DInt 3); ("y", DInt 1)] SUnset.
Definition del_state : rstate := RState [] [del_inst] [].
Definition del_ctx (t : dty) : option (@cls dobj dty rstate) := match t with TRec 0 => Some del_cls | _ => None end.
Definition del_fields (c : @cls dobj dty rstate) (k : string) : dobj := DFun 7.

Lemma c143_twice_proof : forall {obj ty W} (R : Rt obj ty W) ctx c x i k w,
  instance_of R ctx c w x i -> dict_ok (i_dict i) -> k <> "_hash" ->
  (forall w1, delattr R x k w = (Ok tt, w1) -> exists m, delattr R x k w1 = (Raise (mkexc AttributeError m), w1)) /\
  (dget k (i_dict i) = None -> exists m, delattr R x k w = (Raise (mkexc AttributeError m), w)).
Proof.
  intros obj ty W R ctx c x i k w (_ & HL & _) OK NH. apply String.eqb_neq in NH. split.
  - intros w1 H. unfold delattr in H. rewrite HL, NH in H. destruct (dmem k (i_dict i)) eqn:E; [|discriminate]. injection H as <-.
    unfold delattr. rewrite (lookup_store_same R x _ _ _ HL), NH. cbn [i_dict].
    assert (EM : dmem k (ddel k (i_dict i)) = false) by (unfold dmem; rewrite (dget_ddel_same k (i_dict i) OK); reflexivity).
    rewrite EM. eexists. reflexivity.
  - intro H. unfold delattr. rewrite HL, NH. unfold dmem. rewrite H. eexists. reflexivity.
Qed.
