(** Props_Statement.v -- property theorems: class statements whose fields have names that the class statement uses (RecordBase.__init_subclass__)
    Each theorem is closed by the lemma of the same statement in Statement_main.v; the examples
    show that concrete, non-trivial cases meet the hypotheses. *)

From Verif Require Import Base Py Filler Spec_Filler Classes Spec_Classes Bodies Spec_Bodies Statement Spec_Statement Demo.
From Verif Require Dict_proofs Filler_proofs Classes_proofs Bodies_proofs.
Open Scope string_scope.
Open Scope list_scope.

From Verif Require Import Statement_main.

(** C139, the class statement: if no field has the name of one of the things that the class
    statement looks up, it does what it would do if nothing were looked up. *)
Theorem c139_statement_partial : forall {obj ty W} (P : Py obj ty W) b,
  dict_ok (b_anns b) -> plain_statement b -> statement P b = create P b.
Proof. exact (@c139_statement_partial_proof). Qed.
Print Assumptions c139_statement_partial.

(** C139 refuted: there is no class with a field called _fields: the class statement raises,
    TypeError or AttributeError if nothing else is wrong. *)
Theorem c139_fields_refuted : forall {obj ty W} (P : Py obj ty W) b,
  dict_ok (b_anns b) -> declares b "_fields" ->
  (forall c, statement P b <> Ok c) /\
  (forall c, create P b = Ok c -> exists e m, statement P b = Raise (mkexc e m) /\ (e = TypeError \/ e = AttributeError)).
Proof. exact (@c139_fields_refuted_proof). Qed.
Print Assumptions c139_fields_refuted.

(** C139 refuted: nor is there one with a field called pre_bind: TypeError if nothing else is
    wrong. *)
Theorem c139_pre_bind_refuted : forall {obj ty W} (P : Py obj ty W) b,
  dict_ok (b_anns b) -> declares b "pre_bind" ->
  (forall c, statement P b <> Ok c) /\
  (forall c, create P b = Ok c -> ~ declares b "_fields" -> exists m, statement P b = Raise (mkexc TypeError m)).
Proof. exact (@c139_pre_bind_refuted_proof). Qed.
Print Assumptions c139_pre_bind_refuted.

(** C139 refuted: a class with a field called default_type_check_style cannot have fields that do
    not say how they are checked. *)
Theorem c139_style_method_refuted : forall {obj ty W} (P : Py obj ty W) b k t,
  dict_ok (b_anns b) -> declares b "default_type_check_style" -> plainly_declared b k t ->
  forall c, statement P b <> Ok c.
Proof. exact (@c139_style_method_refuted_proof). Qed.
Print Assumptions c139_style_method_refuted.

(** C139 refuted: in a class with a field called _default_type_check_style the fields are
    checked strictly, whatever default_type_check says: only instances of the very class are
    accepted. *)
Theorem c139_style_refuted : forall {obj ty W} (P : Py obj ty W) b c k t,
  dict_ok (b_anns b) -> declares b "_default_type_check_style" -> plainly_declared b k t -> plain_class P t ->
  statement P b = Ok c ->
  exists f, dget k (c_fields c) = Some f /\
    forall x w, type_of P x <> t -> exists m, call P (f_filler f) x w = (Raise (mkexc TypeError m), w).
Proof. exact (@c139_style_refuted_proof). Qed.
Print Assumptions c139_style_refuted.

(** class A(RecordBase): x: int; <name>: int *)
Definition named_body (k : string) : @body dobj dty demo_state :=
  Body (TRec 0) false false None SHollow [("x", AHint (HTy TInt) []); (k, AHint (HTy TInt) [])] [] [] [] [] (fun _ => DNone) [BOther] [] (fun _ => ret DNone).
Example c139_statement_case :
  (exists c, create demo0 (named_body "_fields") = Ok c) /\
  (exists c, create demo0 (named_body "pre_bind") = Ok c) /\
  (exists c, create demo0 (named_body "default_type_check_style") = Ok c) /\
  is_ok (statement demo0 (named_body "_fields")) = false /\
  is_ok (statement demo0 (named_body "pre_bind")) = false /\
  is_ok (statement demo0 (named_body "default_type_check_style")) = false /\
  (exists c f, statement demo0 (named_body "_default_type_check_style") = Ok c /\ dget "x" (c_fields c) = Some f /\
     is_ok (fst (call demo0 (f_filler f) (DStr "s") st0)) = false) /\
  (exists c f, statement demo0 (named_body "y") = Ok c /\ create demo0 (named_body "y") = Ok c /\ dget "x" (c_fields c) = Some f /\
     call demo0 (f_filler f) (DStr "s") st0 = (Ok (DStr "s"), st0)).
Proof.
  split; [eexists; reflexivity|]. split; [eexists; reflexivity|]. split; [eexists; reflexivity|]. repeat (split; [reflexivity|]).
  split; do 2 eexists; repeat (split; [reflexivity|]); reflexivity.
Qed.
Example c139_statement_plain : plain_statement (named_body "y") /\ declares (named_body "_fields") "_fields" /\
  plainly_declared (named_body "_default_type_check_style") "x" TInt /\ plain_class demo0 TInt.
Proof.
  split; [|split; [|split]].
  - intros k HK. split; [|intros c [H|[]]; discriminate]. intros (a & E & _). cbn in E. destruct HK as [<-|[<-|[<-|[<-|[]]]]]; discriminate.
  - eexists. split; reflexivity.
  - split; [reflexivity|]. intros [].
  - repeat split; discriminate.
Qed.
