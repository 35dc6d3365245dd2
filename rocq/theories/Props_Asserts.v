(** Props_Asserts.v -- property theorems: the order of assertions (records/fillers/filler.py:162-238)
    Each theorem is closed by the lemma of the same statement in Asserts_main.v; the examples
    show that concrete, non-trivial cases meet the hypotheses. *)

From Verif Require Import Base Py Select Filler Spec_Filler Classes Spec_Classes Runtime Record Spec_Record Spec_Settle Spec_Wider Spec_Mixed Spec_Repeat Spec_Asserts Demo DemoRt DemoCls.
From Verif Require Import Wider_main Mixed_main Repeat_main.
From Verif Require Record_proofs Dict_proofs Filler_proofs Filler_shape Filler_eqs Filler_main.
Open Scope string_scope.
Open Scope list_scope.

From Verif Require Import Asserts_main.

(** C174: assertions, with no other validators between them, may stand in any order: the field gives the same results with the same effects and
    refuses the same objects, also inside Unions and containers; only the error may be another *)
Theorem c174_assertions : forall {obj ty W} (P : Py obj ty W) d h h' toks toks' f, resorted P h h' -> reordered P toks toks' ->
  make_filler P d h (own_only toks) = Ok f ->
  exists g, make_filler P d h' (own_only toks') = Ok g /\ forall x w, same_answer (call P f x w) (call P g x w).
Proof. exact (@c174_assertions_proof). Qed.
Print Assumptions c174_assertions.

(** C174: and the one annotation is refused if and only if the other is *)
Theorem c174_refused : forall {obj ty W} (P : Py obj ty W) d h h' toks toks', resorted P h h' -> reordered P toks toks' ->
  (exists e, make_filler P d h (own_only toks) = Raise e) <-> (exists e, make_filler P d h' (own_only toks') = Raise e).
Proof. exact (@c174_refused_proof). Qed.
Print Assumptions c174_refused.

(** C174: a class whose fields are declared with their assertions in another order does the same in every call with any arguments, and in every factory,
    but for the error *)
Theorem c174_record : forall {obj ty W} (R : Rt obj ty W) n c fs', resorted_fields (rt_py R) (c_fields c) fs' ->
  let c' := with_fields c fs' in
  (forall pos kw w, same_answer (construct R n c pos kw w) (construct R n c' pos kw w)) /\
  (forall s maps kw w, same_answer (from_mapping R n c s maps kw w) (from_mapping R n c' s maps kw w)) /\
  (forall s x maps kw w, same_answer (from_instance R n c s x maps kw w) (from_instance R n c' s x maps kw w)) /\
  (forall s v w, same_answer (from_json R n c s v w) (from_json R n c' s v w)) /\
  (forall v w, same_answer (parse R n c v w) (parse R n c' v w)).
Proof. exact (@c174_record_proof). Qed.
Print Assumptions c174_record.

(** C174: the order decides which error is raised if several assertions refuse an object *)
Theorem c174_error_refuted : exists (P : Py dobj dty demo_state) h t u f g x e e' w, assertion P t /\ assertion P u /\
  make_filler P SCheck (HAnn h [t; u]) [] = Ok f /\ make_filler P SCheck (HAnn h [u; t]) [] = Ok g /\
  call P f x w = (Raise e, w) /\ call P g x w = (Raise e', w) /\ exc_cls e <> exc_cls e'.
Proof. exact (@c174_error_refuted_proof). Qed.
Print Assumptions c174_error_refuted.

(** C174: refuted for an assertion and a validator that changes the object *)
Theorem c174_validator_refuted : exists (P : Py dobj dty demo_state) h t u f g x y e w, assertion P t /\ settled P u /\ is_validation u = true /\
  make_filler P SCheck (HAnn h [t; u]) [] = Ok f /\ make_filler P SCheck (HAnn h [u; t]) [] = Ok g /\
  call P f x w = (Raise e, w) /\ call P g x w = (Ok y, w).
Proof. exact (@c174_validator_refuted_proof). Qed.
Print Assumptions c174_validator_refuted.

(** two assertions inside a Union in a tuple *)
Example c174_case : exists f g,
  let t := refuses_with (DInt 1) (mkexc TypeError "") in let u := refuses_with (DInt 2) (mkexc ValueError "") in
  let h := HTupleV (HUnion [HAnn (HTy TInt) [t; u]; HTy TStr]) in
  let h' := HTupleV (HUnion [HAnn (HTy TInt) [u; t]; HTy TStr]) in
  resorted demo0 h h' /\ make_filler demo0 SCheck h [] = Ok f /\ make_filler demo0 SCheck h' [] = Ok g /\
  call demo0 f (dtuple [DStr "a"; DInt 0]) st0 = (Ok (dtuple [DStr "a"; DInt 0]), st0) /\
  (exists e, call demo0 f (dtuple [DStr "a"; DInt 1]) st0 = (Raise e, st0)) /\
  (exists e, call demo0 g (dtuple [DInt 2; DInt 0]) st0 = (Raise e, st0)).
Proof.
  do 2 eexists. split; [|split; [reflexivity|split; [reflexivity|split; [reflexivity|split; eexists; reflexivity]]]].
  apply rs_tuples, rs_union, ars_cons; [|apply ars_cons; [apply rs_simple; reflexivity|constructor]]. apply rs_ann; [|apply rs_simple; reflexivity].
  apply ro_assertions; apply refuses_assertion; reflexivity.
Qed.

(** a class with such a field *)
Example c174_record_case : exists x w1,
  let t := refuses_here (DInt 1) (mkexc TypeError "") in let u := refuses_here (DInt 2) (mkexc ValueError "") in
  resorted_fields (rt_py (demo_rt 0)) (c_fields (one_field [t; u])) (c_fields (one_field [u; t])) /\
  one_field [u; t] = with_fields (one_field [t; u]) (c_fields (one_field [u; t])) /\
  construct (demo_rt 0) 1 (one_field [t; u]) None [("x", DInt 5)] w0 = (Ok x, w1) /\
  (exists e, construct (demo_rt 0) 1 (one_field [t; u]) None [("x", DInt 2)] w0 = (Raise e, w0)).
Proof.
  do 2 eexists. split; [|split; [reflexivity|split; [reflexivity|eexists; reflexivity]]].
  apply rsf_cons; [|constructor]. repeat (split; [reflexivity|]).
  exists SCheck, (HAnn (HTy TInt) [refuses_here (DInt 1) (mkexc TypeError ""); refuses_here (DInt 2) (mkexc ValueError "")]),
    (HAnn (HTy TInt) [refuses_here (DInt 2) (mkexc ValueError ""); refuses_here (DInt 1) (mkexc TypeError "")]).
  split; [|split; reflexivity]. apply rs_ann; [|apply rs_simple; reflexivity].
  apply ro_assertions; intros k f E; cbn in E; injection E as <-; (eexists (fun x => if dis x _ then Some _ else None); split; [|reflexivity]);
    intros x e' EE; cbn in EE; match type of EE with (if ?b then _ else _) = _ => destruct b end; try discriminate; injection EE as <-; reflexivity.
Qed.
