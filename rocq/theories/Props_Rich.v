(** Props_Rich.v -- property theorems: == and != between a record and any other object (records/record.py:281-289)
    Each theorem is closed by the lemma of the same statement in Rich_main.v; the examples
    show that concrete, non-trivial cases meet the hypotheses. *)

From Verif Require Import Base Py Select Filler Spec_Filler Classes Spec_Classes Runtime Record Spec_Record Spec_Inst Rich Demo DemoRt DemoCls.
From Verif Require Dict_proofs Record_proofs Inst_proofs Inst_main.
Open Scope string_scope.
Open Scope list_scope.

From Verif Require Import Rich_main.

(** C150: a record is not equal to an object of another class that is not a subclass of its own;
    that object is not asked, nothing happens. *)
Theorem c150_other : forall {obj ty W} (R : Rt obj ty W) ctx ext_eq ext_ne c w p i x,
  instance_of R ctx c w p i -> isinstance (rt_py R) x (type_of (rt_py R) p) = false ->
  py_eq R ctx ext_eq p x w = (Ok false, w) /\ py_ne R ctx ext_eq ext_ne p x w = (Ok true, w).
Proof. exact (@c150_other_proof). Qed.
Print Assumptions c150_other.

(** C150: between records of the same class == is what their fields say; records of different
    classes are not equal, even if one class is a subclass of the other. *)
Theorem c150_records : forall {obj ty W} (R : Rt obj ty W) ctx ext_eq ext_ne c w p i c' q j,
  instance_of R ctx c w p i -> instance_of R ctx c' w q j ->
  (type_of (rt_py R) p = type_of (rt_py R) q -> py_eq R ctx ext_eq p q w = record_eq R ctx p q w) /\
  (type_of (rt_py R) p <> type_of (rt_py R) q ->
     py_eq R ctx ext_eq p q w = (Ok false, w) /\ py_ne R ctx ext_eq ext_ne p q w = (Ok true, w)).
Proof. exact (@c150_records_proof). Qed.
Print Assumptions c150_records.

(** C150: p != x is the negation of p == x: it has the same effects and raises the same. *)
Theorem c150_ne : forall {obj ty W} (R : Rt obj ty W) ctx ext_eq ext_ne c w p i x,
  instance_of R ctx c w p i ->
  (isinstance (rt_py R) x (type_of (rt_py R) p) = false \/ exists c' j, instance_of R ctx c' w x j) ->
  py_ne R ctx ext_eq ext_ne p x w =
  match py_eq R ctx ext_eq p x w with (Ok b, w') => (Ok (negb b), w') | (Raise e, w') => (Raise e, w') end.
Proof. exact (@c150_ne_proof). Qed.
Print Assumptions c150_ne.

(** C150, the other way round, x == p: not equal, if x does not know the record (it answers
    NotImplemented), or if the class of the record is a subclass of that of x, which is not asked. *)
Theorem c150_other_side_partial : forall {obj ty W} (R : Rt obj ty W) ctx ext_eq c w p i x,
  instance_of R ctx c w p i -> class_of R ctx x w = None -> type_of (rt_py R) x <> type_of (rt_py R) p ->
  (forall w', isinstance (rt_py R) p (type_of (rt_py R) x) = false -> ext_eq x p w = (Ok None, w') ->
     (exists i', instance_of R ctx c w' p i') -> py_eq R ctx ext_eq x p w = (Ok false, w')) /\
  (isinstance (rt_py R) p (type_of (rt_py R) x) = true -> py_eq R ctx ext_eq x p w = (Ok false, w)).
Proof. exact (@c150_other_side_partial_proof). Qed.
Print Assumptions c150_other_side_partial.

(** C150 fails for objects that say they are equal to a record (like unittest.mock.ANY): x == p
    is true, but p == x is not, since a record answers False where it could leave it to x. *)
Theorem c150_symmetric_refuted : forall {obj ty W} (R : Rt obj ty W) ctx ext_eq c w p i x w',
  instance_of R ctx c w p i -> class_of R ctx x w = None ->
  isinstance (rt_py R) x (type_of (rt_py R) p) = false -> isinstance (rt_py R) p (type_of (rt_py R) x) = false ->
  ext_eq x p w = (Ok (Some true), w') ->
  py_eq R ctx ext_eq x p w = (Ok true, w') /\ py_eq R ctx ext_eq p x w = (Ok false, w).
Proof. exact (@c150_symmetric_refuted_proof). Qed.
Print Assumptions c150_symmetric_refuted.

From Verif Require Props_Inst.
Import Props_Inst.
(** 3 knows no records; None is taken for an object that is equal to everything *)
Definition any_eq (x y : dobj) : M rstate (option bool) := fun w => (Ok (match x with DNone => Some true | _ => None end), w).
Example c150_case :
  py_eq (demo_rt 0) ctxO any_eq (DRef (TRec 0) 0) (DInt 3) wO = (Ok false, wO) /\
  py_eq (demo_rt 0) ctxO any_eq (DInt 3) (DRef (TRec 0) 0) wO = (Ok false, wO) /\
  py_eq (demo_rt 0) ctxO any_eq DNone (DRef (TRec 0) 0) wO = (Ok true, wO) /\
  py_eq (demo_rt 0) ctxO any_eq (DRef (TRec 0) 0) DNone wO = (Ok false, wO) /\
  fst (py_eq (demo_rt 0) ctxO any_eq (DRef (TRec 0) 0) (DRef (TRec 0) 1) wO) = Ok true /\
  fst (py_ne (demo_rt 0) ctxO any_eq any_eq (DRef (TRec 0) 0) (DRef (TRec 0) 1) wO) = Ok false.
Proof.
  destruct (pO_instance 0 wO (DRef (TRec 0) 0) 1 0 5 SNone eq_refl eq_refl) as (A1 & _).
  split; [apply (c150_other (demo_rt 0) ctxO any_eq any_eq _ _ _ _ _ A1); reflexivity|].
  split; [refine (proj1 (c150_other_side_partial (demo_rt 0) ctxO any_eq _ wO _ _ (DInt 3) A1 _ _) wO _ _ _); [reflexivity|discriminate|reflexivity|reflexivity|eexists; exact A1]|].
  split; [apply (c150_symmetric_refuted (demo_rt 0) ctxO any_eq _ wO _ _ DNone wO A1); reflexivity|].
  split; [apply (c150_symmetric_refuted (demo_rt 0) ctxO any_eq _ wO _ _ DNone wO A1); reflexivity|].
  split; vm_compute; reflexivity.
Qed.
