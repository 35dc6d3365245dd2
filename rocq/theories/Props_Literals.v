(** Props_Literals.v -- property theorems: when the coercers of a Literal field are asked (LiteralFiller.type_check)
    Each theorem is closed by the lemma of the same statement in Literals_main.v; the examples
    show that concrete, non-trivial cases meet the hypotheses. *)

From Verif Require Import Base Py Filler Spec_Filler Classes Spec_Classes Spec_Settle Spec_Wider Demo DemoRt DemoCls.
From Verif Require Filler_proofs Filler_sound Filler_inv Filler_shape Filler_eqs Filler_leaf Filler_kind Filler_decl Filler_main Props_Filler Settle_main Wider_main.
Open Scope string_scope.
Open Scope list_scope.

From Verif Require Import Literals_main.

(** C162: a value whose class is the class of one of the literals is never handed to the coercers of
    a Literal field, nor, unless the field is strict, one whose class inherits from such a class:
    the field treats it as if it had no coercers *)
Theorem c162_not_asked : forall {obj ty W} (P : Py obj ty W) d lid vals toks f g,
  make_filler P d (HAnn (HLiteral lid vals) toks) [] = Ok f ->
  make_filler P d (HAnn (HLiteral lid vals) (uncoerced toks)) [] = Ok g ->
  forall x w,
  (of_literal_class P vals x /\ checks (eff_style d toks)) \/ (instance_of_literal_class P vals x /\ eff_style d toks = SCheck) ->
  call P f x w = call P g x w.
Proof. exact (@c162_not_asked_proof). Qed.
Print Assumptions c162_not_asked.

(** C162: ... as long as the field has met no other classes, every other value is: if the coercer
    fails the field fails with its error, if it gives one of the literals the field has that
    literal, and if it gives anything else the field fails.  Without a coercer the field fails with
    TypeError. *)
Theorem c162_asked : forall {obj ty W} (P : Py obj ty W) d lid vals (c : callback) f g,
  checks d ->
  make_filler P d (HAnn (HLiteral lid vals) [TCoerce (CGlobal (fun _ => Ok c))]) [] = Ok f ->
  make_filler P d (HLiteral lid vals) [] = Ok g ->
  forall x w, lit_grown P lid w = [] -> ~ of_literal_class P vals x ->
  (d = SStrict \/ (d = SCheck /\ ~ instance_of_literal_class P vals x)) ->
  (forall e w', c x w = (Raise e, w') -> call P f x w = (Raise e, w')) /\
  (forall l w', c x w = (Ok l, w') -> In l vals -> lit_eq P l l = true -> call P f x w = (Ok l, w')) /\
  (forall y w', c x w = (Ok y, w') -> (forall l, In l vals -> type_of P l = type_of P y -> lit_eq P y l = false) -> exists e w'', call P f x w = (Raise e, w'')) /\
  exists m, call P g x w = (Raise (mkexc TypeError m), w).
Proof. exact (@c162_asked_proof). Qed.
Print Assumptions c162_asked.

(** True is no literal of Literal[1, "a"] but an instance of int: a checking field refuses it without
    asking its coercer, a strict one asks; None is handed to the coercer by both *)
Example c162_case :
  (exists f, make_filler demo0 SCheck (HAnn (HLiteral 0 [DInt 1; DStr "a"]) [TCoerce (CGlobal (fun _ => Ok (fun _ => ret (DStr "a"))))]) [] = Ok f /\
    (exists e w, call demo0 f (DBool true) st0 = (Raise e, w)) /\ call demo0 f DNone st0 = (Ok (DStr "a"), st0)) /\
  (exists f, make_filler demo0 SStrict (HAnn (HLiteral 0 [DInt 1; DStr "a"]) [TCoerce (CGlobal (fun _ => Ok (fun _ => ret (DStr "a"))))]) [] = Ok f /\
    call demo0 f (DBool true) st0 = (Ok (DStr "a"), st0) /\ call demo0 f DNone st0 = (Ok (DStr "a"), st0)) /\
  instance_of_literal_class demo0 [DInt 1; DStr "a"] (DBool true) /\
  ~ of_literal_class demo0 [DInt 1; DStr "a"] (DBool true) /\
  ~ instance_of_literal_class demo0 [DInt 1; DStr "a"] DNone /\
  lit_grown demo0 0 st0 = [].
Proof.
  split; [eexists; split; [reflexivity|]; split; [repeat eexists|reflexivity]|].
  split; [eexists; split; [reflexivity|]; split; reflexivity|].
  split; [exists (DInt 1); split; [left; reflexivity|reflexivity]|].
  split; [intros (l & [<-|[<-|[]]] & E); discriminate|].
  split; [intros (l & [<-|[<-|[]]] & E); discriminate|reflexivity].
Qed.
