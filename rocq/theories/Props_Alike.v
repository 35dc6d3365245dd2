(** Props_Alike.v -- property theorems: what equal records export (RecordBase.to_dict, Select.__call__)
    Each theorem is closed by the lemma of the same statement in Alike_main.v; the examples
    show that concrete, non-trivial cases meet the hypotheses. *)

From Verif Require Import Base Py Select Filler Spec_Filler Classes Spec_Classes Runtime Record Spec_Record Spec_Inst Spec_Alike Demo DemoRt DemoCls.
From Verif Require Dict_proofs Inst_proofs Inst_main Record_proofs Factories_main.
Open Scope string_scope.
Open Scope list_scope.

From Verif Require Import Alike_main.

(** C157: equal records of a class export the same names, in the same order, with values that are equal
    (or the same object), whatever the arguments of to_dict and the Select are; where one export raises,
    the other raises the same error. *)
Theorem c157_export : forall {obj ty W} (R : Rt obj ty W) ctx D eqb c w x i y j a black s,
  made (rt_py R) c -> has_eq R D eqb -> equivalence D eqb -> defaults_in D c ->
  instance_of R ctx c w x i -> instance_of R ctx c w y j -> values_in D c i -> values_in D c j ->
  e_black a = BlackSet black -> fieldwise eqb c i j ->
  exists o o', to_dict R ctx x a s w = (o, w) /\ to_dict R ctx y a s w = (o', w) /\ same_result (same_or_equal eqb) o o'.
Proof. exact (@c157_export_proof). Qed.
Print Assumptions c157_export.

(** C157: records of a class are equal exactly if they export equal data: p == q iff p.to_dict() and
    q.to_dict() have the same names with equal values. *)
Theorem c157_equal : forall {obj ty W} (R : Rt obj ty W) ctx D eqb c w x i y j d d',
  made (rt_py R) c -> has_eq R D eqb -> equivalence D eqb -> defaults_in D c ->
  instance_of R ctx c w x i -> instance_of R ctx c w y j -> values_in D c i -> values_in D c j ->
  to_dict R ctx x no_args sel_empty w = (Ok d, w) -> to_dict R ctx y no_args sel_empty w = (Ok d', w) ->
  (fieldwise eqb c i j <-> alike (fun u v => eqb u v = true) d d').
Proof. exact (@c157_equal_proof). Qed.
Print Assumptions c157_equal.

(** C157 for JSON: if json.dumps gives the same text for data that is alike, equal records have the same JSON. *)
Theorem c157_json_partial : forall {obj ty W} (R : Rt obj ty W) ctx D eqb c w x i y j a black s,
  made (rt_py R) c -> has_eq R D eqb -> equivalence D eqb -> defaults_in D c ->
  instance_of R ctx c w x i -> instance_of R ctx c w y j -> values_in D c i -> values_in D c j ->
  e_black a = BlackSet black -> fieldwise eqb c i j ->
  (forall d d', alike (same_or_equal eqb) d d' -> json_dumps R d w = json_dumps R d' w) ->
  to_json R ctx x a s w = to_json R ctx y a s w.
Proof. exact (@c157_json_partial_proof). Qed.
Print Assumptions c157_json_partial.

(** C157 does not hold for JSON in general: C(x=1, y=5) == C(x=True, y=5), but the JSON of one has 1 and that of
    the other has true. *)
Theorem c157_json_refuted :
  exists (d : @decl dobj dty rstate) c ctx w x i y j t t',
    make_class rt0 d = Ok c /\ instance_of (demo_rt 0) ctx c w x i /\ instance_of (demo_rt 0) ctx c w y j /\
    record_eq (demo_rt 0) ctx x y w = (Ok true, w) /\
    to_json (demo_rt 0) ctx x no_args sel_empty w = (Ok t, w) /\ to_json (demo_rt 0) ctx y no_args sel_empty w = (Ok t', w) /\ t <> t'.
Proof. exact (@c157_json_refuted_proof). Qed.
Print Assumptions c157_json_refuted.

(** C(x=1, y=0) == C(x=True, y=False), where y = 0 is the default: both export x only, renamed to z *)
Definition alike_w : rstate := RState []
  [Inst (TRec 0) [("x", DInt 1); ("y", DInt 0)] SUnset; Inst (TRec 0) [("x", DBool true); ("y", DBool false)] SUnset] [].
Definition renaming : sel dobj :=
  Sel (Reiter []) (Reiter []) (Reiter []) (Reiter []) (Reiter [("x", "z")]) (Reiter []) None.
Example c157_case :
  fieldwise dlit_eq (made_of Factories_main.shown_decl) (Inst (TRec 0) [("x", DInt 1); ("y", DInt 0)] SUnset) (Inst (TRec 0) [("x", DBool true); ("y", DBool false)] SUnset) /\
  to_dict (demo_rt 0) Factories_main.shown_ctx (DRef (TRec 0) 0) no_args renaming alike_w = (Ok [("z", DInt 1)], alike_w) /\
  to_dict (demo_rt 0) Factories_main.shown_ctx (DRef (TRec 0) 1) no_args renaming alike_w = (Ok [("z", DBool true)], alike_w).
Proof.
  split; [|split; reflexivity]. intros k a b [<-|[<-|[]]] EA EB; cbn in EA, EB; injection EA as <-; injection EB as <-; reflexivity.
Qed.
