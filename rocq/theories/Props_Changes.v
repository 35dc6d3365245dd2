(** Props_Changes.v -- property theorems: changed copies of records: cls.from_instance(x, **changes) (records/record.py:451-485)
    Each theorem is closed by the lemma of the same statement in Changes_main.v; the examples
    show that concrete, non-trivial cases meet the hypotheses. *)

From Verif Require Import Base Py Select Filler Classes Spec_Classes Runtime Record Spec_Record Spec_Inst Spec_Copy Spec_Keywords Spec_Changes Demo DemoRt DemoCls.
From Verif Require Dict_proofs Classes_proofs Record_proofs Classes_main Inst_proofs Inst_main Copy_proofs From_main.
Open Scope string_scope.
Open Scope list_scope.

From Verif Require Import Changes_main.

(** C154: cls.from_instance(x, **changes) gives a new record that has what the fields make of the
    changes and otherwise the values of x; x and all other records stay as they are. *)
Theorem c154_changed : forall {obj ty W} (R : Rt obj ty W) ctx D eqb n c w x i kw new,
  made (rt_py R) c -> fields_callable c -> instance_of R ctx c w x i ->
  has_eq R D eqb -> defaults_in D c -> values_in D c i ->
  dict_ok kw -> kw <> [] -> taken_as R c kw new -> others_fixed R eqb c i kw -> accepts R ctx c (changed eqb c i new) ->
  exists y w' j, from_instance R (S n) c sel_empty x [] kw w = (Ok y, w') /\
    fresh_instance R ctx c w w' y j /\ all_kept R w w' /\ changed eqb c i new j.
Proof. exact (@c154_changed_proof). Qed.
Print Assumptions c154_changed.

(** C154: changing a record twice is changing it once, by both changes, the later ones taking
    precedence: the records have equal values. *)
Theorem c154_twice : forall {obj ty W} (R : Rt obj ty W) ctx D eqb n c w x i kw kw' both new new' y w1 z w2,
  made (rt_py R) c -> fields_callable c -> instance_of R ctx c w x i ->
  has_eq R D eqb -> equivalence D eqb -> defaults_in D c -> values_in D c i -> accepts R ctx c (fun _ => True) ->
  dict_ok kw -> dict_ok kw' -> dict_ok both -> kw <> [] -> kw' <> [] -> one_after_other kw kw' both ->
  taken_as R c kw new -> taken_as R c kw' new' -> (forall k v, new k = Some v \/ new' k = Some v -> D v) ->
  others_fixed R eqb c i kw -> (forall k v, new k = Some v -> settled R c k v (Ok v)) ->
  from_instance R (S n) c sel_empty x [] kw w = (Ok y, w1) -> from_instance R (S n) c sel_empty y [] kw' w1 = (Ok z, w2) ->
  exists z' w3 j j', from_instance R (S n) c sel_empty x [] both w2 = (Ok z', w3) /\
    instance_of R ctx c w3 z j /\ instance_of R ctx c w3 z' j' /\ fieldwise eqb c j j'.
Proof. exact (@c154_twice_proof). Qed.
Print Assumptions c154_twice.

(** C154: changing fields to the values they have gives a new record that is equal. *)
Theorem c154_same : forall {obj ty W} (R : Rt obj ty W) ctx D eqb hf n c w x i kw,
  made (rt_py R) c -> fields_callable c -> accepts R ctx c (fieldwise eqb c i) ->
  instance_of R ctx c w x i -> comparable R D eqb hf c i -> stored_fixed R c i ->
  dict_ok kw -> kw <> [] -> (forall k v, dget k kw = Some v -> In k (keys (c_fields c)) /\ dget k (i_dict i) = Some v) ->
  exists y w', from_instance R (S n) c sel_empty x [] kw w = (Ok y, w') /\ equal_copy R ctx c w w' x y.
Proof. exact (@c154_same_proof). Qed.
Print Assumptions c154_same.

(** C154, refuted for fields that change values they have stored: a validator that adds one adds
    one to a field that was not to be changed. *)
Theorem c154_refill_refuted : exists (R : Rt dobj dty rstate) d c x w y w1,
  make_class (rt_py R) d = Ok c /\ construct R 1 c None [("a", DInt 1); ("b", DInt 1)] w0 = (Ok x, w) /\
  getattr R x "a" w = (Ok (DInt 2), w) /\
  from_instance R 1 c sel_empty x [] [("b", DInt 5)] w = (Ok y, w1) /\
  getattr R y "a" w1 = (Ok (DInt 3), w1) /\ getattr R y "b" w1 = (Ok (DInt 5), w1).
Proof. exact (@c154_refill_refuted_proof). Qed.
Print Assumptions c154_refill_refuted.

(** changing one of three fields of a frozen record; True in a field with default 1 becomes 1 *)
Definition change_decl := rdecl 0 true false (Some false) SCheck
  [("a", (an TInt, NoDefault)); ("b", (an TInt, NoDefault)); ("c", (an TInt, DefVal (DInt 1)))] [] no_post.
Definition change_ctx (t : dty) : option (@cls dobj dty rstate) := match t with TRec 0 => Some (made_of change_decl) | _ => None end.
Definition change_inst := Inst (TRec 0) [("a", DInt 5); ("b", DInt 6); ("c", DBool true)] SNone : inst dobj dty.
Example c154_case : let R := demo_rt 0 in let c := made_of change_decl in let w := RState [] [change_inst] [] in
  let new k := if String.eqb k "b" then Some (DInt 7) else None in
  made (rt_py R) c /\ fields_callable c /\ instance_of R change_ctx c w (DRef (TRec 0) 0) change_inst /\
  taken_as R c [("b", DInt 7)] new /\ others_fixed R dlit_eq c change_inst [("b", DInt 7)] /\ accepts R change_ctx c (fun _ => True) /\
  exists w', from_instance R 1 c sel_empty (DRef (TRec 0) 0) [] [("b", DInt 7)] w = (Ok (DRef (TRec 0) 1), w') /\
    nth_error (rs_heap w') 1 = Some (Inst (TRec 0) [("a", DInt 5); ("b", DInt 7); ("c", DInt 1)] SNone).
Proof.
  cbv zeta. split; [apply (made_class _ change_decl); [reflexivity|repeat constructor; simpl; intuition discriminate|intros b [H|[]]; discriminate]|].
  split; [intros k [<- | [<- | [<- | []]]] HX; vm_compute in HX; repeat (destruct HX as [HX|HX]); discriminate || contradiction|].
  split; [repeat split; intros k [<- | [<- | [<- | []]]]; eexists; reflexivity|].
  split; [|split; [|split; [intros self w j _ _; reflexivity|eexists; split; reflexivity]]].
  - intro k. cbn [dget]. destruct (String.eqb_spec k "b") as [->|N]; [|reflexivity]. eexists. split; [reflexivity|].
    eexists. split; [eexists; split; [vm_compute; reflexivity|reflexivity]|]. intro w. reflexivity.
  - intros k f v EF EK EV HD. cbn in EV, EK. destruct (String.eqb_spec k "b") as [->|N1]; [discriminate|].
    destruct (String.eqb_spec k "a") as [->|N2].
    + injection EV as <-. eexists. split; [eexists; split; [vm_compute; reflexivity|reflexivity]|]. intro w. reflexivity.
    + destruct (String.eqb_spec k "c") as [->|N3]; [|discriminate]. injection EV as <-. cbn in EF. injection EF as <-. specialize (HD (DInt 1) eq_refl). discriminate.
Qed.
