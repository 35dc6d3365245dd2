(** Props_Proto.v -- property theorems: Pickle protocols and parametrized classes (records/record.py:58, 411-429, 627-642)
    Each theorem is closed by the lemma of the same statement in Proto_main.v; the examples
    show that concrete, non-trivial cases meet the hypotheses. *)

From Verif Require Import Base Py Select Filler Classes Spec_Classes Runtime Record Spec_Record Spec_Inst Spec_Copy Proto Demo DemoRt DemoCls.
From Verif Require Dict_proofs Filler_proofs Classes_proofs Record_proofs Classes_main Inst_proofs Inst_main Copy_proofs Copy_main.
Open Scope string_scope.
Open Scope list_scope.

From Verif Require Import Proto_main.

(** C145 does not hold: no record can be pickled with protocol 0 or 1, unless its class defines
    __getstate__ or other __slots__ itself. *)
Theorem c145_old_refuted : forall {obj ty W} (R : Rt obj ty W) ctx c w x i n z,
  instance_of R ctx c w x i -> z = 0%Z \/ z = 1%Z ->
  exists m, pickle_with R ctx library_pickling (Some z) n x w = (Raise (mkexc TypeError m), w).
Proof. exact (@c145_old_refuted_proof). Qed.
Print Assumptions c145_old_refuted.

(** C145 holds for all other protocols and without a protocol: the unpickled record has the copy that
    pickle made of each attribute, and is equal if these are. *)
Theorem c145_protocols_partial : forall {obj ty W} (R : Rt obj ty W) ctx D eqb hf n c w x i vs w1 p,
  p = None \/ (exists z, p = Some z /\ (z < 0 \/ 2 <= z <= 5)%Z) ->
  made (rt_py R) c -> accepts R ctx c (refilled R c (combine (keys (i_dict i)) vs)) -> fields_callable c ->
  instance_of R ctx c w x i -> comparable R D eqb hf c i -> dict_ok (i_dict i) ->
  pickle_values R (dvalues (i_dict i)) w = (Ok vs, w1) -> all_kept R w w1 -> List.length vs = List.length (i_dict i) ->
  let copies := combine (keys (i_dict i)) vs in
  (forall k f v u, dget k (c_fields c) = Some f -> dget k (i_dict i) = Some v -> dget k copies = Some u ->
     D u /\ eqb v u = true /\ (c_frozen c = true -> forall w, v_hash R u w = (Ok (hf u), w)) /\
     exists y, forall w, call (rt_py R) (f_filler f) u w = (Ok y, w)) ->
  exists y w' j, pickle_with R ctx library_pickling p (S n) x w = (Ok y, w') /\ instance_of R ctx c w' y j /\ lookup R w1 y = None /\ all_kept R w1 w' /\
    (forall k, dget k (i_dict j) = dget k copies) /\
    exists w'', record_eq R ctx x y w' = (Ok true, w'') /\ fields_kept R w' w''.
Proof. exact (@c145_protocols_partial_proof). Qed.
Print Assumptions c145_protocols_partial.

(** C145: a protocol that pickle does not have is refused. *)
Theorem c145_unknown : forall {obj ty W} (R : Rt obj ty W) ctx k c w x i n z,
  instance_of R ctx c w x i -> (5 < z)%Z -> exists m, pickle_with R ctx k (Some z) n x w = (Raise (mkexc ValueError m), w).
Proof. exact (@c145_unknown_proof). Qed.
Print Assumptions c145_unknown.

(** C145, for classes that define __getstate__: protocols 0 and 1 restore exactly what it returned, without
    calling a filler or post_new; the new record is equal to the old one, if the class is not
    frozen and the copies are equal. *)
Theorem c145_getstate_partial : forall {obj ty W} (R : Rt obj ty W) ctx D eqb hf c w x i n z slots g d w1 vs w2,
  made (rt_py R) c -> instance_of R ctx c w x i -> comparable R D eqb hf c i -> c_frozen c = false ->
  z = 0%Z \/ z = 1%Z -> g x w = (Ok d, w1) -> pickle_values R (dvalues d) w1 = (Ok vs, w2) -> all_kept R w w2 ->
  List.length vs = List.length d -> (forall k, In k (keys (c_fields c)) -> In k (keys d)) ->
  let copies := combine (keys d) vs in
  (forall k v u, In k (keys (c_fields c)) -> dget k (i_dict i) = Some v -> dget k copies = Some u -> D u /\ eqb v u = true) ->
  exists y w' j, pickle_with R ctx (Pickling slots (Some g)) (Some z) n x w = (Ok y, w') /\ instance_of R ctx c w' y j /\
    lookup R w2 y = None /\ all_kept R w2 w' /\ i_dict j = copies /\
    exists w'', record_eq R ctx x y w' = (Ok true, w'') /\ fields_kept R w' w''.
Proof. exact (@c145_getstate_partial_proof). Qed.
Print Assumptions c145_getstate_partial.

(** C145 fails for frozen classes even then: what protocols 0 and 1 restore can neither be hashed nor
    compared, for all records. *)
Theorem c145_frozen_refuted : forall {obj ty W} (R : Rt obj ty W) ctx c w x i n z slots g d w1 vs w2,
  instance_of R ctx c w x i -> c_frozen c = true -> z = 0%Z \/ z = 1%Z ->
  g x w = (Ok d, w1) -> pickle_values R (dvalues d) w1 = (Ok vs, w2) -> all_kept R w w2 ->
  exists y w', pickle_with R ctx (Pickling slots (Some g)) (Some z) n x w = (Ok y, w') /\ type_of (rt_py R) y = c_ty c /\
    (exists m, record_hash R ctx y w' = (Raise (mkexc AttributeError m), w')) /\
    (forall p j, instance_of R ctx c w' p j -> exists m, record_eq R ctx y p w' = (Raise (mkexc AttributeError m), w')).
Proof. exact (@c145_frozen_refuted_proof). Qed.
Print Assumptions c145_frozen_refuted.

(** C145: with protocols from 2 on, a class that defines __getstate__ gets what it returned; the slot for
    the hash is not part of it, so that a frozen record is hashed anew. *)
Theorem c145_getstate : forall {obj ty W} (R : Rt obj ty W) ctx n c w x i p slots g kw d w1 us vs w2,
  p = None \/ (exists z, p = Some z /\ (z < 0 \/ 2 <= z <= 5)%Z) ->
  made (rt_py R) c -> accepts R ctx c (fun _ => True) -> fields_callable c -> instance_of R ctx c w x i ->
  to_dict R ctx x no_args sel_empty w = (Ok kw, w) -> g x w = (Ok d, w1) -> dict_ok kw -> dict_ok d ->
  pickle_values R (dvalues kw ++ dvalues d) w1 = (Ok (us ++ vs), w2) ->
  List.length us = List.length kw -> List.length vs = List.length d ->
  (forall k u, In (k, u) (combine (keys kw) us) -> exists f y, dget k (c_fields c) = Some f /\ forall w, call (rt_py R) (f_filler f) u w = (Ok y, w)) ->
  (forall k f, dget k (c_fields c) = Some f -> ~ In k (keys kw) -> exists v, f_default f = DefVal v) ->
  (forall k, In k (keys (c_fields c)) -> In k (keys d)) ->
  exists y w' j, pickle_with R ctx (Pickling slots (Some g)) p (S n) x w = (Ok y, w') /\ instance_of R ctx c w' y j /\
    lookup R w2 y = None /\ all_kept R w2 w' /\ (forall k, dget k (i_dict j) = dget k (combine (keys d) vs)) /\
    (c_frozen c = true -> i_hash j = SNone).
Proof. exact (@c145_getstate_proof). Qed.
Print Assumptions c145_getstate.

(** C146 does not hold: calling a parametrized frozen class always fails, after the record has been
    made. *)
Theorem c146_frozen_refuted : forall {obj ty W} (R : Rt obj ty W) ctx n c alias other pos kw w r w1 i,
  construct R n c pos kw w = (Ok r, w1) -> instance_of R ctx c w1 r i -> c_frozen c = true ->
  exists m, call_alias R ctx n c alias other pos kw w = (Raise (mkexc TypeError m), w1).
Proof. exact (@c146_frozen_refuted_proof). Qed.
Print Assumptions c146_frozen_refuted.

(** C146 for classes that are not frozen: the call gives the record that the call without
    parameters gives, with __orig_class__ as the only other attribute, and does nothing else. *)
Theorem c146_call_partial : forall {obj ty W} (R : Rt obj ty W) ctx n c alias other pos kw w r w1 i,
  construct R n c pos kw w = (Ok r, w1) -> instance_of R ctx c w1 r i -> c_frozen c = false -> dict_ok (i_dict i) ->
  exists w' j, call_alias R ctx n c alias other pos kw w = (Ok r, w') /\ instance_of R ctx c w' r j /\
    dget "__orig_class__" (i_dict j) = Some alias /\
    (forall k, k <> "__orig_class__" -> dget k (i_dict j) = dget k (i_dict i)) /\
    (forall y, deref R y <> deref R r -> lookup R w' y = lookup R w1 y) /\
    set_heap R (heap R w1) w' = w1.
Proof. exact (@c146_call_partial_proof). Qed.
Print Assumptions c146_call_partial.

(** C146: the call with parameters fails as the call without them does. *)
Theorem c146_errors : forall {obj ty W} (R : Rt obj ty W) ctx n c alias other pos kw w e w1,
  construct R n c pos kw w = (Raise e, w1) -> call_alias R ctx n c alias other pos kw w = (Raise e, w1).
Proof. exact (@c146_errors_proof). Qed.
Print Assumptions c146_errors.

(** C146: an object that is no record, returned by post_new, is returned if it takes the attribute
    or has no such attributes. *)
Theorem c146_replaced : forall {obj ty W} (R : Rt obj ty W) ctx n c alias other pos kw w r w1,
  construct R n c pos kw w = (Ok r, w1) -> lookup R w1 r = None ->
  (forall w2, other r "__orig_class__" alias w1 = (Ok tt, w2) -> call_alias R ctx n c alias other pos kw w = (Ok r, w2)) /\
  (forall e w2, other r "__orig_class__" alias w1 = (Raise e, w2) ->
     call_alias R ctx n c alias other pos kw w = (if is_AttributeError e then Ok r else Raise e, w2)).
Proof. exact (@c146_replaced_proof). Qed.
Print Assumptions c146_replaced.

From Verif Require Import Props_Copy.
(** a record with x = 5 and y = 1 *)
Definition five_one := DRef (TRec 0) 0.
Definition attributes_of (x : dobj) : M rstate (dict dobj) := fun w =>
  match lookup (demo_rt 0) w x with Some i => (Ok (i_dict i), w) | None => (Raise (mkexc TypeError ""), w) end.
Example c145_case : forall fz p, In p [None; Some (-1)%Z; Some 2%Z; Some 4%Z; Some 5%Z] ->
  exists y w' w'', pickle_with (demo_rt 0) (pair_ctx fz) library_pickling p 1 five_one (pair_state 1 SNone) = (Ok y, w') /\
    y = DRef (TRec 0) 1 /\ record_eq (demo_rt 0) (pair_ctx fz) five_one y w' = (Ok true, w'').
Proof. intros [|] p H; cbn in H; repeat destruct H as [<-|H]; try contradiction; do 3 eexists; (split; [vm_compute; reflexivity|split; [reflexivity|vm_compute; reflexivity]]). Qed.
Example c145_old_case : forall fz z, z = 0%Z \/ z = 1%Z ->
  exists m, pickle_with (demo_rt 0) (pair_ctx fz) library_pickling (Some z) 1 five_one (pair_state 1 SNone) = (Raise (mkexc TypeError m), pair_state 1 SNone).
Proof. intros fz z HZ. exact (c145_old_refuted (demo_rt 0) (pair_ctx fz) _ _ _ _ 1 z (pair_instance fz 1%Z SNone) HZ). Qed.
Example c145_getstate_case : exists y w' w'',
  pickle_with (demo_rt 0) (pair_ctx false) (Pickling true (Some attributes_of)) (Some 0%Z) 1 five_one (pair_state 1 SUnset) = (Ok y, w') /\
  record_eq (demo_rt 0) (pair_ctx false) five_one y w' = (Ok true, w'').
Proof. repeat eexists. Qed.
Example c145_frozen_case : exists y w' m,
  pickle_with (demo_rt 0) (pair_ctx true) (Pickling true (Some attributes_of)) (Some 1%Z) 1 five_one (pair_state 1 SNone) = (Ok y, w') /\
  record_eq (demo_rt 0) (pair_ctx true) y five_one w' = (Raise (mkexc AttributeError m), w').
Proof. repeat eexists. Qed.
(** the hash that was kept is not carried along *)
Example c145_hash_case : exists y w' i,
  pickle_with (demo_rt 0) (pair_ctx true) (Pickling true (Some attributes_of)) None 1 five_one (pair_state 1 (SHash 77)) = (Ok y, w') /\
  lookup (demo_rt 0) w' y = Some i /\ i_hash i = SNone /\
  (forall k, In k ["x"; "y"] -> dget k (i_dict i) = dget k (i_dict (pair_inst 1 SNone))).
Proof. repeat eexists; intros k H; cbn in H; repeat destruct H as [<-|H]; try contradiction; reflexivity. Qed.
(** A[int](x=5) *)
Example c146_case :
  (exists w' j, call_alias (demo_rt 0) (pair_ctx false) 1 (made_of (pair_decl false)) (DStr "A[int]") (fun _ _ _ => ret tt) None [("x", DInt 5)] w0 = (Ok five_one, w') /\
     lookup (demo_rt 0) w' five_one = Some j /\ i_dict j = [("x", DInt 5); ("y", DInt 0); ("__orig_class__", DStr "A[int]")]) /\
  (exists m w', call_alias (demo_rt 0) (pair_ctx true) 1 (made_of (pair_decl true)) (DStr "A[int]") (fun _ _ _ => ret tt) None [("x", DInt 5)] w0 = (Raise (mkexc TypeError m), w')).
Proof. split; repeat eexists. Qed.
