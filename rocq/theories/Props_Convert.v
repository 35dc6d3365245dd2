(** Props_Convert.v -- property theorems: making records of one class from records of another, and from any objects (records/record.py:451-485)
    Each theorem is closed by the lemma of the same statement in Convert_main.v; the examples
    show that concrete, non-trivial cases meet the hypotheses. *)

From Verif Require Import Base Py Select Filler Spec_Filler Classes Spec_Classes Runtime Record Spec_Record Spec_Inst Spec_Copy Spec_Keywords Spec_Settle Spec_Hist Spec_Again Spec_Convert Demo DemoRt DemoCls.
From Verif Require Dict_proofs Classes_proofs Record_proofs Classes_main Inst_proofs Inst_main Copy_proofs From_main Changes_main Again_main Props_Again.
Open Scope string_scope.
Open Scope list_scope.

From Verif Require Import Convert_main.

(** C158: cls.from_instance(v), for any object v, and so for records of other classes: the new record
    has, for every field, what the field makes of the attribute of its name, or its default.  Other
    attributes of v do not matter. *)
Theorem c158_any : forall {obj ty W} (R : Rt obj ty W) ctx D eqb n c v d w,
  made (rt_py R) c -> ctx (c_ty c) = Some c -> fields_callable c -> has_eq R D eqb -> defaults_in D c ->
  has_attributes R w (fun k => In k (keys (c_fields c))) v d -> (forall k a, dget k d = Some a -> D a) ->
  convertible R eqb c d -> ~ (c_frozen c = true /\ isinstance (rt_py R) v (c_ty c) = true) ->
  Spec_Inst.accepts R ctx c (made_from R eqb c d) ->
  exists y w' j, from_instance R (S n) c sel_empty v [] [] w = (Ok y, w') /\
    fresh_instance R ctx c w w' y j /\ all_kept R w w' /\ made_from R eqb c d j.
Proof. exact (@c158_any_proof). Qed.
Print Assumptions c158_any.

(** C158 for records of a subclass: if b is not frozen, b.from_instance(x) makes, at any time, a record
    of b with the very objects of x, or the default of the field where the value equals it. *)
Theorem c158_base : forall {obj ty W} (R : Rt obj ty W) ctx D eqb l w n b c x i,
  settled_program R ctx l w -> all_right R ctx (Spec_Again.kept_value R ctx) w ->
  let now := after_all R ctx l w in
  derives R b c -> ctx (c_ty b) = Some b -> c_frozen b = false -> instance_of R ctx c now x i ->
  Spec_Inst.accepts R ctx b (rebuilt eqb b i) -> fields_callable b -> has_eq R D eqb -> defaults_in D b -> values_in D b i ->
  exists y w' j, from_instance R (S n) b sel_empty x [] [] now = (Ok y, w') /\
    fresh_instance R ctx b now w' y j /\ all_kept R now w' /\ rebuilt eqb b i j.
Proof. exact (@c158_base_proof). Qed.
Print Assumptions c158_base.

(** C158: a record that is turned into a record of another class and back is equal to what it was, if the
    fields of both classes store its values as they are. *)
Theorem c158_back : forall {obj ty W} (R : Rt obj ty W) ctx D eqb n c c' w x i,
  made (rt_py R) c -> made (rt_py R) c' -> fields_callable c -> fields_callable c' -> ctx (c_ty c') = Some c' ->
  instance_of R ctx c w x i -> has_eq R D eqb -> equivalence D eqb -> defaults_in D c -> defaults_in D c' -> values_in D c i ->
  has_attributes R w (fun k => In k (keys (c_fields c')) /\ ~ In k (keys (c_fields c))) x [] ->
  interchangeable R c c' i ->
  ~ (c_frozen c' = true /\ isinstance (rt_py R) x (c_ty c') = true) ->
  (forall y, type_of (rt_py R) y = c_ty c' -> ~ (c_frozen c = true /\ isinstance (rt_py R) y (c_ty c) = true)) ->
  (forall Q, Spec_Inst.accepts R ctx c Q) -> (forall Q, Spec_Inst.accepts R ctx c' Q) ->
  exists y w1 z w2 j, from_instance R (S n) c' sel_empty x [] [] w = (Ok y, w1) /\
    from_instance R (S n) c sel_empty y [] [] w1 = (Ok z, w2) /\
    fresh_instance R ctx c w1 w2 z j /\ all_kept R w w2 /\ fieldwise eqb c i j.
Proof. exact (@c158_back_proof). Qed.
Print Assumptions c158_back.

Import Hist_main Props_Again.
(** class A and its subclass B, and what the program did, as for C156: the second record of B becomes a
    record of A *)
Example c158_case :
  derives (demo_rt 0) (made_of a_decl) (made_of b_decl) /\ fields_callable (made_of a_decl) /\ c_frozen (made_of a_decl) = false /\
  let now := after_all (demo_rt 0) ab_ctx again_history w0 in
  exists y w' j, from_instance (demo_rt 0) 1 (made_of a_decl) sel_empty (DRef (TRec 1) 1) [] [] now = (Ok y, w') /\
    type_of (rt_py (demo_rt 0)) y = TRec 0 /\ lookup (demo_rt 0) w' y = Some j /\ i_dict j = [("x", DInt 5)].
Proof.
  split; [|split; [|split]].
  - apply (derives_base _ _ b_decl _ (made_of a_decl)).
    + reflexivity.
    + repeat constructor; simpl; tauto.
    + intros q [H|[]]. injection H as <-. apply Again_main.class_made. exact a_settles.
    + left. reflexivity.
    + constructor.
  - intros k [<-|[]] HX; vm_compute in HX; repeat (destruct HX as [HX|HX]); discriminate || contradiction.
  - reflexivity.
  - do 3 eexists. repeat split; vm_compute; reflexivity.
Qed.

(** a record of A becomes one of B, which has another field, and one of A again *)
Definition one_a : rstate := snd (construct (demo_rt 0) 1 (made_of a_decl) None [("x", DStr "5")] w0).
Example c158_back_case : exists i,
  instance_of (demo_rt 0) ab_ctx (made_of a_decl) one_a (DRef (TRec 0) 0) i /\ i_dict i = [("x", DInt 5)] /\
  has_attributes (demo_rt 0) one_a (fun k => In k (keys (c_fields (made_of b_decl))) /\ ~ In k (keys (c_fields (made_of a_decl)))) (DRef (TRec 0) 0) [] /\
  interchangeable (demo_rt 0) (made_of a_decl) (made_of b_decl) i.
Proof.
  eexists. split; [|split; [|split]].
  - split; [reflexivity|]. split; [vm_compute; reflexivity|]. split; [reflexivity|]. split; [reflexivity|]. intros k [<-|[]]; eexists; reflexivity.
  - reflexivity.
  - intros k [[<-|[<-|[]]] N]; [exfalso; apply N; left; reflexivity|]. eexists. vm_compute. reflexivity.
  - split; [|split; [|split]].
    + intros k f E. cbn in E. destruct (String.eqb_spec k "x") as [->|]; [|discriminate]. eexists. reflexivity.
    + intros k f E N. destruct (fields_of_b k f E) as [-> | ->]; [discriminate|]. cbn in E. injection E as <-. eexists. reflexivity.
    + intros k v [<-|[]] E. cbn in E. injection E as <-. split; eexists; (split; [eexists; split; reflexivity|]); intro w; reflexivity.
    + intros k f dv [<-|[]] E ED. cbn in E. injection E as <-. discriminate.
Qed.
