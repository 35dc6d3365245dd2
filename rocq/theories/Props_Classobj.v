(** Props_Classobj.v -- property theorems: Type[...] fields, and coercion tokens that an annotation does not know (typing_fillers.py:140-156, filler.py:249-258)
    Each theorem is closed by the lemma of the same statement in Classobj_main.v; the examples
    show that concrete, non-trivial cases meet the hypotheses. *)

From Verif Require Import Base Py Filler Spec_Filler Classes Spec_Classes Spec_Settle Spec_Wider Demo DemoRt DemoCls.
From Verif Require Filler_proofs Filler_sound Filler_shape Filler_eqs Filler_leaf Filler_kind Filler_decl.
Open Scope string_scope.
Open Scope list_scope.

From Verif Require Import Classobj_main.

(** C165: what a field annotated Type[B] does with any object: a class that inherits from B is stored, any
    other class is refused with ValueError, an object that is no class with TypeError; an error of
    issubclass is passed on.  A field that checks nothing stores everything. *)
Theorem c165_type : forall {obj ty W} (P : Py obj ty W) d base f,
  make_filler P d (HType base) [] = Ok f -> forall x w,
  (d = SHollow -> call P f x w = (Ok x, w)) /\
  (checks d -> is_class P d x -> issubclass P x base = Ok true -> call P f x w = (Ok x, w)) /\
  (checks d -> is_class P d x -> issubclass P x base = Ok false -> exists m, call P f x w = (Raise (mkexc ValueError m), w)) /\
  (forall e, checks d -> is_class P d x -> issubclass P x base = Raise e -> call P f x w = (Raise e, w)) /\
  (checks d -> ~ is_class P d x -> exists m, call P f x w = (Raise (mkexc TypeError m), w)).
Proof. exact (@c165_type_proof). Qed.
Print Assumptions c165_type.

(** C165: a coercion token that the field's class has no coercer for is never ignored: no class statement
    with such a field succeeds, whatever other tokens the field has and whatever order they come in ... *)
Theorem c165_unknown : forall {obj ty W} (P : Py obj ty W) d t toks ops c,
  In (TCoerce c) toks -> unknown P t c -> forall f, make_filler P d (HAnn (HTy t) toks) ops <> Ok f.
Proof. exact (@c165_unknown_proof). Qed.
Print Assumptions c165_unknown.

(** C165: ... if no other coercer or assertion comes before it, the error is TypeError; so it is for
    an assertion token that is not callable *)
Theorem c165_error : forall {obj ty W} (P : Py obj ty W) d t pre post,
  (forall k, In k pre -> k = TOther \/ exists s, k = TStyle s) ->
  (t <> t_bool P -> exists m, make_filler P d (HAnn (HTy t) (pre ++ TCoerce CFromInteger :: post)) [] = Raise (mkexc TypeError m)) /\
  (exists m, make_filler P d (HAnn (HTy t) (pre ++ TCoerce CBad :: post)) [] = Raise (mkexc TypeError m)) /\
  (exists m, make_filler P d (HAnn (HTy t) (pre ++ TValid VBad :: post)) [] = Raise (mkexc TypeError m)).
Proof. exact (@c165_error_proof). Qed.
Print Assumptions c165_error.

(** Type[B] takes the class B and refuses another one with ValueError and 3 with TypeError;
    FromInteger is refused for an int and understood for a bool *)
Example c165_case :
  (exists f, make_filler demo0 SCheck (HType (TRec 1)) [] = Ok f /\ is_class demo0 SCheck (DCls 1) /\
    call demo0 f (DCls 1) st0 = (Ok (DCls 1), st0) /\
    (exists m, call demo0 f (DCls 2) st0 = (Raise (mkexc ValueError m), st0)) /\
    ~ is_class demo0 SCheck (DInt 3) /\ exists m, call demo0 f (DInt 3) st0 = (Raise (mkexc TypeError m), st0)) /\
  (exists m, make_filler demo0 SCheck (HAnn (HTy TInt) [TStyle SStrict; TCoerce CFromInteger]) [] = Raise (mkexc TypeError m)) /\
  (exists f, make_filler demo0 SCheck (HAnn (HTy TBool) [TStyle SStrict; TCoerce CFromInteger]) [] = Ok f) /\
  unknown demo0 TInt (CCompose [CFromInteger]).
Proof.
  split; [eexists; split; [reflexivity|]; split; [left; reflexivity|]; split; [reflexivity|]; split; [eexists; reflexivity|]; split; [intros [E|E]; discriminate|eexists; reflexivity]|].
  split; [eexists; reflexivity|]. split; [eexists; reflexivity|].
  apply unknown_inside with CFromInteger; [left; reflexivity|]. apply unknown_integer. discriminate.
Qed.
