(** Props_Mixed.v -- property theorems: the order of tokens (records/fillers/filler.py:162-238, get_filler.py:31-70)
    Each theorem is closed by the lemma of the same statement in Mixed_main.v; the examples
    show that concrete, non-trivial cases meet the hypotheses. *)

From Verif Require Import Base Py Select Filler Spec_Filler Classes Spec_Classes Runtime Record Spec_Record Spec_Wider Spec_Mixed Demo DemoRt DemoCls.
From Verif Require Import Wider_main.
From Verif Require Record_proofs Dict_proofs Filler_proofs Filler_shape Filler_eqs Filler_main.
Open Scope string_scope.
Open Scope list_scope.

From Verif Require Import Mixed_main.

(** C170: in an annotation, and among the tokens added to a field later, tokens of different kinds may stand in any order: styles, coercers,
    validators and assertions, and other metadata.  The field is accepted in both orders or in neither, and does the same with every object:
    the same result, the same error, the same effects, also inside Unions and containers. *)
Theorem c170_order : forall {obj ty W} (P : Py obj ty W) d h h' toks toks' f, rearranged h h' -> mixed toks toks' ->
  make_filler P d h (own_only toks) = Ok f ->
  exists g, make_filler P d h' (own_only toks') = Ok g /\ forall x w, call P g x w = call P f x w.
Proof. exact (@c170_order_proof). Qed.
Print Assumptions c170_order.

(** C170: ... accepted in both orders or in neither *)
Theorem c170_refused : forall {obj ty W} (P : Py obj ty W) d h h' toks toks', rearranged h h' -> mixed toks toks' ->
  (exists e, make_filler P d h (own_only toks) = Raise e) <-> (exists e, make_filler P d h' (own_only toks') = Raise e).
Proof. exact (@c170_refused_proof). Qed.
Print Assumptions c170_refused.

(** C170: a class whose fields are declared with the tokens in another order does the same in every call, with any arguments, in every factory *)
Theorem c170_record : forall {obj ty W} (R : Rt obj ty W) n c fs', rearranged_fields (rt_py R) (c_fields c) fs' ->
  let c' := with_fields c fs' in
  (forall pos kw w, construct R n c' pos kw w = construct R n c pos kw w) /\
  (forall s maps kw w, from_mapping R n c' s maps kw w = from_mapping R n c s maps kw w) /\
  (forall s x maps kw w, from_instance R n c' s x maps kw w = from_instance R n c s x maps kw w) /\
  (forall s v w, from_json R n c' s v w = from_json R n c s v w) /\
  (forall v w, parse R n c' v w = parse R n c v w).
Proof. exact (@c170_record_proof). Qed.
Print Assumptions c170_record.

(** C170 does not hold for tokens of one kind: of two coercers the first one that accepts an object decides ... *)
Theorem c170_coercers_refuted : exists (P : Py dobj dty demo_state) h t u f g x y z w,
  make_filler P SCheck (HAnn h [t; u]) [] = Ok f /\ make_filler P SCheck (HAnn h [u; t]) [] = Ok g /\
  is_coercion t = true /\ is_coercion u = true /\ call P f x w = (Ok y, w) /\ call P g x w = (Ok z, w) /\ y <> z.
Proof. exact (@c170_coercers_refuted_proof). Qed.
Print Assumptions c170_coercers_refuted.

(** ... and validators are applied one after the other *)
Theorem c170_validators_refuted : exists (P : Py dobj dty demo_state) h t u f g x y z w,
  make_filler P SCheck (HAnn h [t; u]) [] = Ok f /\ make_filler P SCheck (HAnn h [u; t]) [] = Ok g /\
  is_validation t = true /\ is_validation u = true /\ call P f x w = (Ok y, w) /\ call P g x w = (Ok z, w) /\ y <> z.
Proof. exact (@c170_validators_refuted_proof). Qed.
Print Assumptions c170_validators_refuted.

(** a coercer behind the validator, inside a Union in a list, with the style in front of both or behind them *)
Example c170_case : exists f g,
  let h := HIter RkPlain TTuple (HUnion [HAnn (HTy TInt) [becomes (DInt 0) (DInt 1); turns DNone (DInt 0); TStyle SStrict]; HTy TStr]) in
  let h' := HIter RkPlain TTuple (HUnion [HAnn (HTy TInt) [TStyle SStrict; turns DNone (DInt 0); becomes (DInt 0) (DInt 1)]; HTy TStr]) in
  rearranged h h' /\ make_filler demo0 SCheck h [] = Ok f /\ make_filler demo0 SCheck h' [] = Ok g /\
  call demo0 f (dtuple [DNone; DStr "a"; DInt 0]) st0 = (Ok (dtuple [DInt 1; DStr "a"; DInt 1]), st0) /\
  call demo0 g (dtuple [DNone; DStr "a"; DInt 0]) st0 = (Ok (dtuple [DInt 1; DStr "a"; DInt 1]), st0).
Proof.
  do 2 eexists. split; [|split; [reflexivity|split; [reflexivity|split; reflexivity]]].
  apply r_iter, r_union, ar_cons; [|apply ar_cons; [apply r_simple; reflexivity|constructor]]. apply r_ann; [|apply r_simple; reflexivity].
  eapply m_again; [apply m_swap; exact I|]. eapply m_again; [apply m_behind, m_swap; exact I|]. eapply m_again; [apply m_swap; exact I|]. apply m_same.
Qed.

(** a class with one such field: parsed from a positional argument, too *)
Example c170_record_case : exists x w1, let vs := sixth in
  rearranged_fields (rt_py (demo_rt 0)) (c_fields (one_field [vs; turned DNone (DInt 5)])) (c_fields (one_field [turned DNone (DInt 5); vs])) /\
  one_field [turned DNone (DInt 5); vs] = with_fields (one_field [vs; turned DNone (DInt 5)]) (c_fields (one_field [turned DNone (DInt 5); vs])) /\
  construct (demo_rt 0) 1 (one_field [vs; turned DNone (DInt 5)]) None [("x", DNone)] w0 = (Ok x, w1) /\
  construct (demo_rt 0) 1 (one_field [turned DNone (DInt 5); vs]) None [("x", DNone)] w0 = (Ok x, w1) /\
  getattr (demo_rt 0) x "x" w1 = (Ok (DInt 6), w1).
Proof.
  do 2 eexists. split; [|split; [reflexivity|split; [reflexivity|split; reflexivity]]].
  apply rf_cons; [|constructor]. repeat (split; [reflexivity|]). exists SCheck, (HAnn (HTy TInt) [sixth; turned DNone (DInt 5)]), (HAnn (HTy TInt) [turned DNone (DInt 5); sixth]).
  split; [|split; reflexivity]. apply r_ann; [apply m_swap; exact I|apply r_simple; reflexivity].
Qed.
