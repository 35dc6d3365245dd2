(** Props_Deleted.v -- property theorems: Deleting attributes of records (records/record.py:113, 422-426)
    Each theorem is closed by the lemma of the same statement in Deleted_main.v; the examples
    show that concrete, non-trivial cases meet the hypotheses. *)

From Verif Require Import Base Py Select Filler Classes Spec_Classes Runtime Record Spec_Record Spec_Inst Spec_Copy Through Deleted Demo DemoRt DemoCls.
From Verif Require Dict_proofs Filler_proofs Classes_proofs Record_proofs Classes_main Inst_proofs Inst_main Copy_proofs From_main Through_main.
Open Scope string_scope.
Open Scope list_scope.

From Verif Require Import Deleted_main.

(** Deleting a field of a record does not make it missing: reading it gives the RecordField of the
    class, in every state, for every class and every field. *)
Theorem c143_read_refuted : forall {obj ty W} (field_obj : @cls obj ty W -> string -> obj) (R0 : Rt obj ty W) ctx c x i k w,
  let R := with_fields field_obj R0 ctx in
  instance_of R ctx c w x i -> dict_ok (i_dict i) -> In k (keys (c_fields c)) -> k <> "_hash" ->
  exists w1, delattr R x k w = (Ok tt, w1) /\ getattr R x k w1 = (Ok (field_obj c k), w1).
Proof. exact (@c143_read_refuted_proof). Qed.
Print Assumptions c143_read_refuted.

(** Nor do exports leave it out or fail: to_dict exports the RecordField, in the place of the
    value. *)
Theorem c143_export_refuted : forall {obj ty W} (field_obj : @cls obj ty W -> string -> obj) (R0 : Rt obj ty W) ctx D eqb c x i k w w1,
  let R := with_fields field_obj R0 ctx in
  made (rt_py R) c -> has_eq R D eqb -> defaults_in D c ->
  instance_of R ctx c w x i -> values_in D c i -> D (field_obj c k) ->
  dict_ok (i_dict i) -> In k (keys (c_fields c)) -> k <> "_hash" -> delattr R x k w = (Ok tt, w1) ->
  exists d, to_dict R ctx x (ExportArgs true SortNone (BlackSet []) []) sel_empty w1 = (Ok d, w1) /\
    keys d = keys (c_fields c) /\ dget k d = Some (field_obj c k) /\
    forall k', In k' (keys (c_fields c)) -> k' <> k -> dget k' d = dget k' (i_dict i).
Proof. exact (@c143_export_refuted_proof). Qed.
Print Assumptions c143_export_refuted.

(** What holds: deleting one attribute leaves the others, and all other objects, as they are. *)
Theorem c143_others_partial : forall {obj ty W} (R : Rt obj ty W) x k w w1,
  delattr R x k w = (Ok tt, w1) ->
  (forall k', k' <> k -> k' <> "_hash" -> match lookup R w x, lookup R w1 x with
     | Some i, Some j => dget k' (i_dict j) = dget k' (i_dict i)
     | _, _ => False end) /\
  (forall y, deref R y <> deref R x -> lookup R w1 y = lookup R w y).
Proof. exact (@c143_others_partial_proof). Qed.
Print Assumptions c143_others_partial.

(** On a record that is not frozen, assigning to a deleted attribute has the effect that assigning
    to it without deleting it would have had: every attribute reads the same. *)
Theorem c143_restore_partial : forall {obj ty W} (R : Rt obj ty W) ctx c x i k v w w1,
  instance_of R ctx c w x i -> dict_ok (i_dict i) -> c_frozen c = false -> k <> "_hash" -> delattr R x k w = (Ok tt, w1) ->
  exists w2 w3 j j', setattr R ctx x k v w1 = (Ok tt, w2) /\ setattr R ctx x k v w = (Ok tt, w3) /\
    lookup R w2 x = Some j /\ lookup R w3 x = Some j' /\ i_cls j = i_cls j' /\ i_hash j = i_hash j' /\
    dget k (i_dict j) = Some v /\ (forall k', dget k' (i_dict j) = dget k' (i_dict j')) /\
    (forall y, deref R y <> deref R x -> lookup R w2 y = lookup R w3 y).
Proof. exact (@c143_restore_partial_proof). Qed.
Print Assumptions c143_restore_partial.

(** What is not there cannot be deleted: the second deletion of an attribute raises an
    AttributeError and changes nothing, and so does the deletion of an attribute that the record
    never had. *)
Theorem c143_twice : forall {obj ty W} (R : Rt obj ty W) ctx c x i k w,
  instance_of R ctx c w x i -> dict_ok (i_dict i) -> k <> "_hash" ->
  (forall w1, delattr R x k w = (Ok tt, w1) -> exists m, delattr R x k w1 = (Raise (mkexc AttributeError m), w1)) /\
  (dget k (i_dict i) = None -> exists m, delattr R x k w = (Raise (mkexc AttributeError m), w)).
Proof. exact (@c143_twice_proof). Qed.
Print Assumptions c143_twice.

Example c143_case :
  let R := with_fields del_fields (demo_rt 0) del_ctx in
  let w1 := snd (delattr R (DRef (TRec 0) 0) "x" del_state) in
  instance_of R del_ctx del_cls del_state (DRef (TRec 0) 0) del_inst /\
  getattr R (DRef (TRec 0) 0) "x" w1 = (Ok (DFun 7), w1) /\
  to_dict R del_ctx (DRef (TRec 0) 0) no_args sel_empty w1 = (Ok [("x", DFun 7); ("y", DInt 1)], w1) /\
  made (rt_py R) del_cls /\ has_eq R (fun _ => True) dlit_eq.
Proof.
  split; [|split; [|split; [|split]]]; try reflexivity.
  - repeat split. intros k H. cbn in H. destruct H as [<-|[<-|[]]]; eexists; reflexivity.
  - apply (made_class _ (rdecl 0 false false (Some false) SCheck [("x", (an TInt, NoDefault)); ("y", (an TInt, NoDefault))] [] no_post));
      [reflexivity|repeat constructor; simpl; intuition discriminate|]. intros b [H|[]]. discriminate.
  - intros x y w _ _. split; reflexivity.
Qed.
