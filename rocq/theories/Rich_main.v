(** Rich_main.v -- proofs of the properties stated in Props_Rich.v: == and != between a record and any other object (records/record.py:281-289) *)

From Verif Require Import Base Py Select Filler Spec_Filler Classes Spec_Classes Runtime Record Spec_Record Spec_Inst Rich Demo DemoRt DemoCls.
From Verif Require Dict_proofs Record_proofs Inst_proofs Inst_main.
Open Scope string_scope.
Open Scope list_scope.

Import Dict_proofs Record_proofs Inst_proofs Inst_main.
Section Eq.
Context {obj ty W : Type} (R : Rt obj ty W) (ctx : ty -> option (@cls obj ty W)) (ext_eq ext_ne : obj -> obj -> M W (option bool)).
Notation P := (rt_py R).
Lemma eq_method_record : forall c w x i y, instance_of R ctx c w x i ->
  eq_method R ctx ext_eq x y w = (let* b := record_eq R ctx x y in ret (Some b)) w.
Proof. intros c w x i y HI. unfold eq_method. rewrite (class_of_instance R ctx c w x i HI). reflexivity. Qed.
Lemma eq_method_other : forall c w x i y, instance_of R ctx c w x i -> type_of P y <> type_of P x ->
  eq_method R ctx ext_eq x y w = (Ok (Some false), w).
Proof. intros c w x i y HI NE. rewrite (eq_method_record c w x i y HI). unfold bind. rewrite (c53_other_class_proof R ctx c w x i y HI NE). reflexivity. Qed.
Lemma ne_method_record : forall c w x i y, instance_of R ctx c w x i ->
  ne_method R ctx ext_eq ext_ne x y w = (let* b := record_eq R ctx x y in ret (Some (negb b))) w.
Proof.
  intros c w x i y HI. unfold ne_method. rewrite (class_of_instance R ctx c w x i HI). unfold bind at 1. rewrite (eq_method_record c w x i y HI).
  unfold bind. destruct (record_eq R ctx x y w) as [[b|e] w']; reflexivity.
Qed.
Lemma ne_method_other : forall c w x i y, instance_of R ctx c w x i -> type_of P y <> type_of P x ->
  ne_method R ctx ext_eq ext_ne x y w = (Ok (Some true), w).
Proof. intros c w x i y HI NE. rewrite (ne_method_record c w x i y HI). unfold bind. rewrite (c53_other_class_proof R ctx c w x i y HI NE). reflexivity. Qed.
End Eq.

Lemma c150_other_proof : forall {obj ty W} (R : Rt obj ty W) ctx ext_eq ext_ne c w p i x,
  instance_of R ctx c w p i -> isinstance (rt_py R) x (type_of (rt_py R) p) = false ->
  py_eq R ctx ext_eq p x w = (Ok false, w) /\ py_ne R ctx ext_eq ext_ne p x w = (Ok true, w).
Proof.
  intros obj ty W R ctx ext_eq ext_ne c w p i x HI HX.
  assert (NE : type_of (rt_py R) x <> type_of (rt_py R) p) by (intro E; rewrite <- E, isinstance_type in HX; discriminate).
  unfold py_eq, py_ne, ask. rewrite HX. cbn [andb]. unfold bind.
  rewrite (eq_method_other R ctx ext_eq c w p i x HI NE), (ne_method_other R ctx ext_eq ext_ne c w p i x HI NE). split; reflexivity.
Qed.

Lemma c150_records_proof : forall {obj ty W} (R : Rt obj ty W) ctx ext_eq ext_ne c w p i c' q j,
  instance_of R ctx c w p i -> instance_of R ctx c' w q j ->
  (type_of (rt_py R) p = type_of (rt_py R) q -> py_eq R ctx ext_eq p q w = record_eq R ctx p q w) /\
  (type_of (rt_py R) p <> type_of (rt_py R) q ->
     py_eq R ctx ext_eq p q w = (Ok false, w) /\ py_ne R ctx ext_eq ext_ne p q w = (Ok true, w)).
Proof.
  intros obj ty W R ctx ext_eq ext_ne c w p i c' q j HP HQ. split.
  - intro E. unfold py_eq, ask. rewrite E. replace (ty_eqb (rt_py R) (type_of (rt_py R) q) (type_of (rt_py R) q)) with true
      by (destruct (ty_eqP (rt_py R) (type_of (rt_py R) q) (type_of (rt_py R) q)); congruence).
    cbn [negb]. rewrite andb_false_r. unfold bind at 1. rewrite (eq_method_record R ctx ext_eq c w p i q HP). unfold bind.
    destruct (record_eq R ctx p q w) as [[b|e] w']; reflexivity.
  - intro NE. unfold py_eq, py_ne, ask.
    destruct (isinstance (rt_py R) q (type_of (rt_py R) p) && negb (ty_eqb (rt_py R) (type_of (rt_py R) q) (type_of (rt_py R) p))); unfold bind.
    + rewrite (eq_method_other R ctx ext_eq c' w q j p HQ NE), (ne_method_other R ctx ext_eq ext_ne c' w q j p HQ NE). split; reflexivity.
    + assert (NE' : type_of (rt_py R) q <> type_of (rt_py R) p) by congruence.
      rewrite (eq_method_other R ctx ext_eq c w p i q HP NE'), (ne_method_other R ctx ext_eq ext_ne c w p i q HP NE'). split; reflexivity.
Qed.

Lemma c150_ne_proof : forall {obj ty W} (R : Rt obj ty W) ctx ext_eq ext_ne c w p i x,
  instance_of R ctx c w p i ->
  (isinstance (rt_py R) x (type_of (rt_py R) p) = false \/ exists c' j, instance_of R ctx c' w x j) ->
  py_ne R ctx ext_eq ext_ne p x w =
  match py_eq R ctx ext_eq p x w with (Ok b, w') => (Ok (negb b), w') | (Raise e, w') => (Raise e, w') end.
Proof.
  intros obj ty W R ctx ext_eq ext_ne c w p i x HI HX.
  unfold py_eq, py_ne, ask. destruct HX as [HX|(c' & j & HJ)].
  - rewrite HX. cbn [andb]. unfold bind. rewrite (eq_method_record R ctx ext_eq c w p i x HI), (ne_method_record R ctx ext_eq ext_ne c w p i x HI).
    unfold bind. destruct (record_eq R ctx p x w) as [[b|e] w']; reflexivity.
  - destruct (isinstance (rt_py R) x (type_of (rt_py R) p) && negb (ty_eqb (rt_py R) (type_of (rt_py R) x) (type_of (rt_py R) p))).
    + unfold bind. rewrite (eq_method_record R ctx ext_eq c' w x j p HJ), (ne_method_record R ctx ext_eq ext_ne c' w x j p HJ).
      unfold bind. destruct (record_eq R ctx x p w) as [[b|e] w']; reflexivity.
    + unfold bind. rewrite (eq_method_record R ctx ext_eq c w p i x HI), (ne_method_record R ctx ext_eq ext_ne c w p i x HI).
      unfold bind. destruct (record_eq R ctx p x w) as [[b|e] w']; reflexivity.
Qed.

Lemma c150_other_side_partial_proof : forall {obj ty W} (R : Rt obj ty W) ctx ext_eq c w p i x,
  instance_of R ctx c w p i -> class_of R ctx x w = None -> type_of (rt_py R) x <> type_of (rt_py R) p ->
  (forall w', isinstance (rt_py R) p (type_of (rt_py R) x) = false -> ext_eq x p w = (Ok None, w') ->
     (exists i', instance_of R ctx c w' p i') -> py_eq R ctx ext_eq x p w = (Ok false, w')) /\
  (isinstance (rt_py R) p (type_of (rt_py R) x) = true -> py_eq R ctx ext_eq x p w = (Ok false, w)).
Proof.
  intros obj ty W R ctx ext_eq c w p i x HI HX NE. split.
  - intros w' HS HE (i' & HI'). unfold py_eq, ask. rewrite HS. cbn [andb]. unfold bind at 1. unfold eq_method at 1. rewrite HX, HE.
    unfold bind. rewrite (eq_method_other R ctx ext_eq c w' p i' x HI' NE). reflexivity.
  - intro HS. unfold py_eq, ask. rewrite HS. destruct (ty_eqP (rt_py R) (type_of (rt_py R) p) (type_of (rt_py R) x)); [congruence|]. cbn [andb negb].
    unfold bind. rewrite (eq_method_other R ctx ext_eq c w p i x HI NE). reflexivity.
Qed.

Lemma c150_symmetric_refuted_proof : forall {obj ty W} (R : Rt obj ty W) ctx ext_eq c w p i x w',
  instance_of R ctx c w p i -> class_of R ctx x w = None ->
  isinstance (rt_py R) x (type_of (rt_py R) p) = false -> isinstance (rt_py R) p (type_of (rt_py R) x) = false ->
  ext_eq x p w = (Ok (Some true), w') ->
  py_eq R ctx ext_eq x p w = (Ok true, w') /\ py_eq R ctx ext_eq p x w = (Ok false, w).
Proof.
  intros obj ty W R ctx ext_eq c w p i x w' HI HX H1 H2 HE. split.
  - unfold py_eq, ask. rewrite H2. cbn [andb]. unfold bind at 1. unfold eq_method at 1. rewrite HX, HE. reflexivity.
  - assert (NE : type_of (rt_py R) x <> type_of (rt_py R) p) by (intro E; rewrite <- E, isinstance_type in H1; discriminate).
    unfold py_eq, ask. rewrite H1. cbn [andb]. unfold bind. rewrite (eq_method_other R ctx ext_eq c w p i x HI NE). reflexivity.
Qed.
