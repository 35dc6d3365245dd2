(** Props_Decl.v -- property theorems: how fields are declared: keywords of decorators, ClassVar (records/utils/decorators.py, records/field.py)
    Each theorem is closed by the lemma of the same statement in Decl_main.v; the examples
    show that concrete, non-trivial cases meet the hypotheses. *)

From Verif Require Import Base Py Filler Spec_Filler Tokens Hints Classes Spec_Classes Subkeys Decor Declared Demo.
From Verif Require Dict_proofs Classes_main Classes_proofs.
Open Scope string_scope.
Open Scope list_scope.

From Verif Require Import Decl_main.

(** C125, what does hold: for keywords that are not called self, f or func it makes no difference
    whether they are given with the function or before it. *)
Theorem c125_before_partial :
  forall {obj ty W} (X : Ops obj ty W) is_none key_of asserting a kw f,
  (forall n, In n (keys kw) -> ~ reserved n) ->
  exists kw', call_adder X is_none key_of asserting a [] kw = Ok (Waiting kw') /\
    call_waiting X is_none key_of asserting a kw' f = call_adder X is_none key_of asserting a [f] kw.
Proof. exact (@c125_before_partial_proof). Qed.
Print Assumptions c125_before_partial.

(** C125, what does hold: add_validator and add_coercer return the function and add to the part that
    sub_key names, or to the field, a token that calls the function with the value and with exactly
    the other keywords. *)
Theorem c125_calls_partial :
  forall {obj ty W} (X : Ops obj ty W) is_none key_of asserting a kw f,
  dict_ok kw -> a <> AddAssertValidator -> (forall n, In n (keys kw) -> ~ reserved n) -> is_none f = false ->
  exists part t kw',
    call_adder X is_none key_of asserting a [f] kw = Ok (Finished (part, t) f) /\
    (dget "sub_key" kw = None -> part = SkNone) /\
    (forall s, dget "sub_key" kw = Some s -> is_none s = false -> part = key_of s) /\
    (forall n, n <> "sub_key" -> dget n kw' = dget n kw) /\ dget "sub_key" kw' = None /\
    (match a with AddCoercer => exists c, t = TCoerce c | _ => exists v, t = TValid v end) /\
    forall o, exists g, callback_of t o = Ok g /\ forall v w, g v w = op_call X f [v] kw' w.
Proof. exact (@c125_calls_partial_proof). Qed.
Print Assumptions c125_calls_partial.

(** C125: add_assert_validator knows the keywords sub_key, err and warn, and refuses others. *)
Theorem c125_assert :
  forall {obj ty W} (X : Ops obj ty W) is_none key_of asserting kw f,
  dict_ok kw -> is_none f = false ->
  ((forall n, In n (keys kw) -> n = "sub_key" \/ n = "err" \/ n = "warn") ->
     exists part t, call_adder X is_none key_of asserting AddAssertValidator [f] kw = Ok (Finished (part, t) f) /\
       (dget "sub_key" kw = None -> part = SkNone) /\
       (forall s, dget "sub_key" kw = Some s -> is_none s = false -> part = key_of s) /\
       forall o, exists g, callback_of t o = Ok g /\
         forall v w, g v w = assert_call X f (asserting (dget "err" kw) (dget "warn" kw)) v w) /\
  (forall n, In n (keys kw) -> n <> "sub_key" -> n <> "err" -> n <> "warn" ->
     exists m, call_adder X is_none key_of asserting AddAssertValidator [f] kw = Raise (mkexc TypeError m)).
Proof. exact (@c125_assert_proof). Qed.
Print Assumptions c125_assert.

(** C125 does not hold for keywords called f, func or self: [f=x] is taken for the function that is
    decorated, the others are refused. *)
Theorem c125_reserved_refuted :
  forall {obj ty W} (X : Ops obj ty W) is_none key_of asserting a f x,
  is_none f = false -> is_none x = false ->
  (exists t, call_adder X is_none key_of asserting a [] [("f", x)] = Ok (Finished (SkNone, t) x)) /\
  (exists m, call_adder X is_none key_of asserting a [f] [("f", x)] = Raise (mkexc TypeError m)) /\
  (exists kw m, call_adder X is_none key_of asserting a [] [("func", x)] = Ok (Waiting kw) /\
                call_waiting X is_none key_of asserting a kw f = Raise (mkexc TypeError m)) /\
  (exists m, call_adder X is_none key_of asserting a [] [("self", x)] = Raise (mkexc TypeError m)).
Proof. exact (@c125_reserved_refuted_proof). Qed.
Print Assumptions c125_reserved_refuted.

(** C126: what from_type_hint makes of an annotation is what Classes.v says of its meaning. *)
Theorem c126_declared :
  forall {obj ty W} (P : Py obj ty W) T frozen owner name dflt (d : @declared obj ty W),
  of_declared P T frozen owner name dflt d = from_type_hint P frozen owner name dflt (ann_of P T d).
Proof. exact (@c126_declared_proof). Qed.
Print Assumptions c126_declared.

(** C126, what does hold: a name annotated ClassVar[..] is no field of the class. *)
Theorem c126_classvar_partial :
  forall {obj ty W} (P : Py obj ty W) T d c k x y,
  make_class P d = Ok c -> dict_ok (d_anns d) ->
  dget k (d_anns d) = Some (ann_of P T x) -> fst (split x) = PClassVarOf y ->
  ~ In k (inherited_names d) ->
  ~ In k (keys (c_fields c)).
Proof. exact (@c126_classvar_partial_proof). Qed.
Print Assumptions c126_classvar_partial.

(** C126 does not hold for ClassVar without a parameter: the name is a field like any other, with
    the value assigned to it as its default, and takes every object. *)
Theorem c126_bare_refuted :
  forall {obj ty W} (P : Py obj ty W) T d c k,
  make_class P d = Ok c -> dict_ok (d_anns d) -> (forall b, In (BRecord b) (d_bases d) -> made P b) ->
  dget k (d_anns d) = Some (ann_of P T (Plain PClassVar)) ->
  exists f, dget k (c_fields c) = Some f /\ f_default f = d_static d k /\
    forall v w, fill P (f_filler f) v w = (Ok (v, PHollow), w).
Proof. exact (@c126_bare_refuted_proof). Qed.
Print Assumptions c126_bare_refuted.

(** ... and a class that checks types cannot be made with it. *)
Theorem c126_bare_checked_refuted :
  forall {obj ty W} (P : Py obj ty W) T d k,
  dict_ok (d_anns d) -> (forall b, In (BRecord b) (d_bases d) -> made P b) ->
  dget k (d_anns d) = Some (ann_of P T (Plain PClassVar)) -> d_style d <> SHollow ->
  exists e, make_class P d = Raise e.
Proof. exact (@c126_bare_checked_refuted_proof). Qed.
Print Assumptions c126_bare_checked_refuted.

(** class A(RecordBase): x: int; n: ClassVar = 0; m: ClassVar[int]; z: Annotated[ClassVar[int], 'doc'] *)
Definition demo_typing : @Typing dty := {| gmap := fun _ => None; special := TNone |}.
Definition demo_class (bare : bool) : @decl dobj dty demo_state :=
  Decl (TRec 0) false false None SHollow
    (map (fun kd => (fst kd, ann_of demo0 demo_typing (snd kd)))
       [("x", Plain (PType (YClass TInt))); ("n", Plain (if bare then PClassVar else PClassVarOf (Plain (PType (YClass TInt)))));
        ("z", Annotated (PClassVarOf (Plain (PType (YClass TInt)))) (ATok TOther) [])])
    [] (fun k => if String.eqb k "n" then DefVal (DInt 0) else NoDefault) [BOther] [] [] (fun _ => ret DNone).
Example c126_case :
  (exists c, make_class demo0 (demo_class false) = Ok c /\ keys (c_fields c) = ["x"]) /\
  (exists c, make_class demo0 (demo_class true) = Ok c /\ keys (c_fields c) = ["x"; "n"]) /\
  dict_ok (d_anns (demo_class true)).
Proof.
  split; [eexists; split; reflexivity|]. split; [eexists; split; reflexivity|].
  repeat constructor; cbn; intuition discriminate.
Qed.

(** @x.add_coercer(sub_key=1, base=16), with functions and keywords that are numbers *)
Definition demo_calls (o : Ops nat nat unit) := @call_adder nat nat unit o (Nat.eqb 0) (fun n => SkInt (Z.of_nat n)) (fun _ _ => plain_assert).
Example c125_case : forall o : Ops nat nat unit,
  (forall n, In n (keys [("sub_key", 1); ("base", 16)]) -> ~ reserved n) /\
  exists t, demo_calls o AddCoercer [] [("sub_key", 1); ("base", 16)] = Ok (Waiting [("sub_key", 1); ("base", 16)]) /\
    demo_calls o AddCoercer [7] [("sub_key", 1); ("base", 16)] = Ok (Finished (SkInt 1, t) 7) /\
    exists g, callback_of t OCallable = Ok g /\ forall v w, g v w = op_call o 7 [v] [("base", 16)] w.
Proof.
  intros o. split.
  - intros n [<-|[<-|[]]] [H|[H|H]]; discriminate.
  - eexists. split; [reflexivity|]. split; [reflexivity|]. eexists. split; reflexivity.
Qed.
