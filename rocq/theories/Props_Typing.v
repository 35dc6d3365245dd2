(** Props_Typing.v -- property theorems: what annotations mean
    Each theorem is closed by the lemma of the same statement in Typing_main.v; the examples
    show that concrete, non-trivial cases meet the hypotheses. *)

From Verif Require Import Base Py Filler Hints Spec_Filler Spec_State Spec_Typing Spec_Hints Demo DemoTyping.
From Verif Require Filler_proofs Filler_shape Filler_eqs Filler_decl Filler_main Filler_exact Hints_proofs Hints_docs.
Open Scope string_scope.
Open Scope list_scope.

From Verif Require Import Typing_main.

(** C84: the field's annotation, whatever it is made of, has checking styles but no coercers and
    no validators.  The field accepts the objects that belong to the annotation and stores
    them, and rejects all others. *)
Theorem c84_exact : forall {obj ty W} (P : Py obj ty W) dflt h f,
  plain_errors P ->
  make_filler P dflt h [] = Ok f ->
  Forall callback_free (hint_tokens h) ->
  accepts_exactly (call P f) (belongs P dflt [] [] h).
Proof. exact (@c84_exact_proof). Qed.
Print Assumptions c84_exact.

(** Dict[str, Union[List[int], Literal['a', None]]], where the ints may be instances of
    subclasses only in the list *)
Definition c84_hint : @hint dobj dty demo_state :=
  HMap RkPlain TDict (HTy TStr) (HUnion [HIter RkPlain TList (HAnn (HTy TInt) [TStyle SCheck]); HLiteral 0 [DStr "a"; DNone]]).
Definition c84_value : dobj := ddict [(DStr "x", dlist [DInt 1; DSub 2]); (DStr "y", DStr "a")].
Definition c84_bad : dobj := ddict [(DStr "x", dlist [DInt 1; DStr "2"]); (DStr "y", DStr "a")].
Example c84_case :
  plain_errors demo0 /\ Forall callback_free (hint_tokens c84_hint) /\
  exists f, make_filler demo0 SStrict c84_hint [] = Ok f /\
    call demo0 f c84_value st0 = (Ok c84_value, st0) /\ is_ok (fst (call demo0 f c84_bad st0)) = false.
Proof.
  split; [split; [intros v b e H; cbn in H; destruct v; try discriminate; injection H as <-; reflexivity|exact dhash_error_Exception]|].
  split; [repeat constructor|]. eexists. split; [reflexivity|]. split; reflexivity.
Qed.

(** C85: a class that checks types with isinstance. *)
Theorem c85_check_partial : forall {obj ty W} (P : Py obj ty W) T (y : @typing obj ty W) f,
  sane P T -> bare y -> proper y -> types_of_classes P y ->
  make_filler P SCheck (hint_of P T y) [] = Ok f ->
  accepts_exactly (call P f) (describes P T (an_instance P) y).
Proof. exact (@c85_check_partial_proof). Qed.
Print Assumptions c85_check_partial.

(** C85: a class that compares types strictly. *)
Theorem c85_strict_partial : forall {obj ty W} (P : Py obj ty W) T (y : @typing obj ty W) f,
  sane P T -> bare y -> proper y -> types_of_classes P y -> any_free y ->
  make_filler P SStrict (hint_of P T y) [] = Ok f ->
  accepts_exactly (call P f) (describes P T (exactly_a P) y).
Proof. exact (@c85_strict_partial_proof). Qed.
Print Assumptions c85_strict_partial.

(** C85 does not hold for Type[Any]: every class should do, but no value at all is accepted.
    issubclass(v, Any) is false or raises for every v. *)
Theorem c85_type_any_refuted : forall {obj ty W} (P : Py obj ty W) T f,
  sane P T -> (forall v, issubclass P v (special T) <> Ok true) ->
  make_filler P SCheck (hint_of P T (YAlias (t_type P) [YAny])) [] = Ok f ->
  (forall v, isinstance P v (t_type P) = true -> describes P T (an_instance P) (@YAlias obj ty W (t_type P) [YAny]) v) /\
  forall v w, exists e w', call P f v w = (Raise e, w').
Proof. exact (@c85_type_any_refuted_proof). Qed.
Print Assumptions c85_type_any_refuted.

(** the classes of the example program *)
Example c85_type_any_case :
  exists (y : @typing dobj dty demo_state) f,
    sane typed0 typing0 /\ y = YAlias (t_type typed0) [YAny] /\
    make_filler typed0 SCheck (hint_of typed0 typing0 y) [] = Ok f /\
    (forall c, describes typed0 typing0 (an_instance typed0) y (DCls c)) /\
    forall v w, exists e w', call typed0 f v w = (Raise e, w').
Proof.
  do 2 eexists. split; [apply sane0|]. split; [reflexivity|]. split; [reflexivity|]. split; [intros c; split; [reflexivity|exact I]|].
  intros v w. destruct v as [| | | | | | |[]| | | | | |]; do 2 eexists; reflexivity.
Qed.

(** C85 does not hold for Any in a strict class: only objects whose class is object itself are
    accepted. *)
Theorem c85_strict_any_refuted : forall {obj ty W} (P : Py obj ty W) T f v w,
  sane P T -> make_filler P SStrict (hint_of P T YAny) [] = Ok f -> type_of P v <> t_object P ->
  describes P T (exactly_a P) (@YAny obj ty W) v /\ exists e w', call P f v w = (Raise e, w').
Proof. exact (@c85_strict_any_refuted_proof). Qed.
Print Assumptions c85_strict_any_refuted.

(** integers *)
Example c85_strict_any_case :
  exists (y : @typing dobj dty demo_state) f,
    sane typed0 typing0 /\ y = YAny /\
    make_filler typed0 SStrict (hint_of typed0 typing0 y) [] = Ok f /\
    (forall v, describes typed0 typing0 (exactly_a typed0) y v) /\
    forall n w, exists e w', call typed0 f (DInt n) w = (Raise e, w').
Proof.
  do 2 eexists. split; [apply sane0|]. split; [reflexivity|]. split; [reflexivity|]. split; [intros v; exact I|].
  intros n w. do 2 eexists. reflexivity.
Qed.

(** Dict[str, Tuple[Union[int, None], List[NewType of int]]], and a Tuple of any length *)
Definition c85_typing : @typing dobj dty demo_state :=
  YAlias TDict [YClass TStr; YAnn (YAlias TTuple [YUnion [YClass TInt; YNone]; YAlias TList [YNewType (YClass TInt)]]) [MOther]].
Example c85_case :
  sane typed0 typing0 /\ bare c85_typing /\ proper c85_typing /\ types_of_classes typed0 c85_typing /\ any_free c85_typing /\
  (exists f, make_filler typed0 SCheck (hint_of typed0 typing0 c85_typing) [] = Ok f /\
    is_ok (fst (call typed0 f (ddict [(DStr "a", dtuple [DNone; dlist [DSub 1; DBool true]])]) st0)) = true /\
    is_ok (fst (call typed0 f (ddict [(DStr "a", dtuple [DNone; dlist [DStr "1"]])]) st0)) = false) /\
  (exists f, make_filler typed0 SStrict (hint_of typed0 typing0 c85_typing) [] = Ok f /\
    is_ok (fst (call typed0 f (ddict [(DStr "a", dtuple [DNone; dlist [DInt 1]])]) st0)) = true /\
    is_ok (fst (call typed0 f (ddict [(DStr "a", dtuple [DNone; dlist [DSub 1; DBool true]])]) st0)) = false).
Proof.
  split; [apply sane0|]. split; [cbn; repeat split; repeat constructor|]. split; [cbn; repeat split; discriminate|].
  split; [cbn; repeat split; discriminate|]. split; [cbn; repeat split; discriminate|].
  split; eexists; (split; [reflexivity|]; split; reflexivity).
Qed.

(** C86: creating a class that checks with isinstance succeeds for the supported annotations and
    fails for the others. *)
Theorem c86_check : forall {obj ty W} (P : Py obj ty W) T (y : @typing obj ty W),
  (forall t, gmap T t = Some GTuple -> t = t_tuple P) -> bare y -> proper y ->
  ((exists f, make_filler P SCheck (hint_of P T y) [] = Ok f) <-> supported P T false y).
Proof. exact (@c86_check_proof). Qed.
Print Assumptions c86_check.

(** C86: the same for a class that compares types strictly. *)
Theorem c86_strict : forall {obj ty W} (P : Py obj ty W) T (y : @typing obj ty W),
  (forall t, gmap T t = Some GTuple -> t = t_tuple P) -> bare y -> proper y ->
  ((exists f, make_filler P SStrict (hint_of P T y) [] = Ok f) <-> supported P T true y).
Proof. exact (@c86_strict_proof). Qed.
Print Assumptions c86_strict.

(** C86: a class that does not check can have any annotation that is not Annotated; every value is
    stored as it is. *)
Theorem c86_hollow : forall {obj ty W} (P : Py obj ty W) T (y : @typing obj ty W),
  unannotated y ->
  exists f, make_filler P SHollow (hint_of P T y) [] = Ok f /\ forall v w, call P f v w = (Ok v, w).
Proof. exact (@c86_hollow_proof). Qed.
Print Assumptions c86_hollow.

(** supported: what C85's example uses.  Not supported: Dict[str, T], Iterable[int], a NewType of
    Annotated[int, 'doc'], X | Y; and the abstract Iterable in a strict class *)
Example c86_case :
  let refused s y := ~ exists f, make_filler typed0 s (hint_of typed0 typing0 y) [] = Ok f in
  let ok s y := exists f, make_filler typed0 s (hint_of typed0 typing0 y) [] = Ok f in
  refused SCheck (YAlias TDict [YClass TStr; YTypeVar]) /\ refused SCheck (YAlias TIterable [YClass TInt]) /\
  refused SCheck (YNewType (YAnn (YClass TInt) [MOther])) /\ refused SCheck (YUnion [YClass TInt; YOther]) /\
  ok SCheck (YAlias TIterable []) /\ refused SStrict (YAlias TIterable []) /\
  ok SCheck (YAlias TTuple [YClass TInt; YEllipsis]) /\ ok SHollow (YUnion [YClass TInt; YOther]).
Proof.
  cbv zeta. repeat split; first [intros [f H]; discriminate | eexists; reflexivity].
Qed.

(** C87, for annotations of classes that typing knows: doc strings and the like change nothing.
    [ts]: tokens applied when the class is created. *)
Theorem c87_ignored_partial : forall {obj ty W} (P : Py obj ty W) T dflt ts (y : @typing obj ty W),
  types_of_classes P y -> tidy y ->
  (forall f, make_filler P dflt (hint_of P T y) (own_only ts) = Ok f ->
     exists g, make_filler P dflt (hint_of P T (without_docs y)) (own_only ts) = Ok g /\ forall v w, call P f v w = call P g v w) /\
  (dflt <> SHollow -> forall g, make_filler P dflt (hint_of P T (without_docs y)) (own_only ts) = Ok g ->
     exists f, make_filler P dflt (hint_of P T y) (own_only ts) = Ok f).
Proof. exact (@c87_ignored_partial_proof). Qed.
Print Assumptions c87_ignored_partial.

(** C87 does not hold for functions that functools.wraps was applied to: such a function is
    called, and if what it returns is of no use, no class with that annotation can be created. *)
Theorem c87_wrapped_refuted : forall {obj ty W} (P : Py obj ty W) T dflt (y : @typing obj ty W) mk,
  leaf_class y -> mk = Ok MadeOther \/ (exists e, mk = Raise e) ->
  exists e, make_filler P dflt (hint_of P T (YAnn y [MWrapped mk])) [] = Raise e.
Proof. exact (@c87_wrapped_refuted_proof). Qed.
Print Assumptions c87_wrapped_refuted.

(** an int field *)
Example c87_wrapped_case :
  exists (mk : outcome (@product dobj dty demo_state)) f e,
    make_filler typed0 SCheck (hint_of typed0 typing0 (YClass TInt)) [] = Ok f /\
    make_filler typed0 SCheck (hint_of typed0 typing0 (YAnn (YClass TInt) [MWrapped mk])) [] = Raise e.
Proof. exists (Ok MadeOther). do 2 eexists. split; reflexivity. Qed.

(** C87 does not hold in classes that do not check: every annotation that is no type is fine there
    until it gets a doc string. *)
Theorem c87_unsupported_refuted : forall {obj ty W} (P : Py obj ty W) T m,
  m = MOther \/ m = MWrapped (Ok MadeNone) ->
  (exists f, make_filler P SHollow (hint_of P T (@YOther obj ty W)) [] = Ok f) /\
  exists e, make_filler P SHollow (hint_of P T (@YAnn obj ty W YOther [m])) [] = Raise e.
Proof. exact (@c87_unsupported_refuted_proof). Qed.
Print Assumptions c87_unsupported_refuted.

(** a doc string *)
Example c87_unsupported_case :
  exists (y : @typing dobj dty demo_state) f e, types_of_classes typed0 y /\ tidy y /\
    make_filler typed0 SHollow (hint_of typed0 typing0 (without_docs y)) [] = Ok f /\
    make_filler typed0 SHollow (hint_of typed0 typing0 y) [] = Raise e.
Proof. exists (YAnn YOther [MOther]). do 2 eexists. split; [cbn; auto|]. split; [cbn; auto|]. split; reflexivity. Qed.

(** List[Annotated[int, 'doc', positive]]: without the doc string the same values pass *)
Definition c87_typing : @typing dobj dty demo_state :=
  YAnn (YAlias TList [YAnn (YClass TInt) [MOther; MValidator (VGlobal (fun _ => Ok positive)); MWrapped (Ok MadeNone)]]) [MOther].
Example c87_case :
  types_of_classes typed0 c87_typing /\ tidy c87_typing /\ without_docs c87_typing <> c87_typing /\
  exists f, make_filler typed0 SCheck (hint_of typed0 typing0 c87_typing) [] = Ok f /\
    is_ok (fst (call typed0 f (dlist [DInt 1]) st0)) = true /\ is_ok (fst (call typed0 f (dlist [DInt 0]) st0)) = false.
Proof.
  split; [cbn; repeat split; discriminate|]. split; [cbn; repeat split|]. split; [discriminate|].
  eexists. split; [reflexivity|]. split; reflexivity.
Qed.

(** C88: a token class does what its instance does. *)
Theorem c88_uncalled_partial : forall {obj ty W} (P : Py obj ty W) T dflt ops (y : @typing obj ty W),
  types_of_classes P y -> no_validator_factories y ->
  make_filler P dflt (hint_of P T y) ops = make_filler P dflt (hint_of P T (called y)) ops.
Proof. exact (@c88_uncalled_partial_proof). Qed.
Print Assumptions c88_uncalled_partial.

(** C88 does not hold for validation tokens made by a function that functools.wraps was
    applied to: uncalled, they are taken for coercers, and values of the right type are accepted
    without asking them. *)
Theorem c88_factory_refuted : forall {obj ty W} (P : Py obj ty W) T t v f x w,
  plain_class P t -> make_filler P SCheck (hint_of P T (YAnn (YClass t) [MWrapped (Ok (MadeValidator (VGlobal (fun _ => Ok v))))])) [] = Ok f ->
  class_ok P SCheck t x ->
  call P f x w = (Ok x, w) /\
  exists g, make_filler P SCheck (hint_of P T (called (YAnn (YClass t) [MWrapped (Ok (MadeValidator (VGlobal (fun _ => Ok v))))]))) [] = Ok g /\
    call P g x w = v x w.
Proof. exact (@c88_factory_refuted_proof). Qed.
Print Assumptions c88_factory_refuted.

(** a validator that wants positive numbers *)
Example c88_factory_case :
  exists (v : @vtoken dobj dty demo_state) f g w,
    let y := YAnn (YClass TInt) [MWrapped (Ok (MadeValidator v))] in
    make_filler typed0 SCheck (hint_of typed0 typing0 y) [] = Ok f /\
    make_filler typed0 SCheck (hint_of typed0 typing0 (called y)) [] = Ok g /\
    call typed0 f (DInt (-1)) w = (Ok (DInt (-1)), w) /\
    exists e, call typed0 g (DInt (-1)) w = (Raise e, w).
Proof. exists (VGlobal (fun _ => Ok positive)). do 2 eexists. exists st0. split; [reflexivity|]. split; [reflexivity|]. split; [reflexivity|]. eexists. reflexivity. Qed.

(** a coercer class, a validator class, a coercer factory *)
Definition c88_typing : @typing dobj dty demo_state :=
  YAlias TList [YAnn (YClass TInt) [MCoercerClass (Ok (CGlobal (fun _ => Ok (fun _ => ret (DInt 5)))));
                                    MValidatorClass (Ok (VGlobal (fun _ => Ok positive)));
                                    MWrapped (Ok (MadeCoercer (CGlobal (fun _ => Ok (fun _ => ret (DInt 6))))))]].
Example c88_case :
  types_of_classes typed0 c88_typing /\ no_validator_factories c88_typing /\ called c88_typing <> c88_typing /\
  exists f, make_filler typed0 SCheck (hint_of typed0 typing0 c88_typing) [] = Ok f /\
    call typed0 f (dlist [DInt 1; DStr "x"]) st0 = (Ok (dlist [DInt 1; DInt 5]), st0).
Proof.
  split; [cbn; repeat split; discriminate|]. split; [cbn; repeat split; repeat constructor; discriminate|]. split; [discriminate|].
  eexists. split; reflexivity.
Qed.

(** C89: a NewType does what the type it was made from does. *)
Theorem c89_newtype_partial : forall {obj ty W} (P : Py obj ty W) T dflt ops (y : @typing obj ty W),
  types_of_classes P y -> tidy y ->
  make_filler P dflt (hint_of P T y) ops = make_filler P dflt (hint_of P T (expand y)) ops.
Proof. exact (@c89_newtype_partial_proof). Qed.
Print Assumptions c89_newtype_partial.

(** C89 does not hold for a NewType of an Annotated type: in a class that does not check, its
    validators are silently left out, whatever they are. *)
Theorem c89_annotated_refuted : forall {obj ty W} (P : Py obj ty W) T t ms f x w,
  make_filler P SHollow (hint_of P T (YNewType (YAnn (YClass t) ms))) [] = Ok f ->
  call P f x w = (Ok x, w).
Proof. exact (@c89_annotated_refuted_proof). Qed.
Print Assumptions c89_annotated_refuted.

(** a validator that wants positive numbers *)
Example c89_annotated_case :
  exists (v : @vtoken dobj dty demo_state) f g w,
    let y := YNewType (YAnn (YClass TInt) [MValidator v]) in
    make_filler typed0 SHollow (hint_of typed0 typing0 y) [] = Ok f /\
    make_filler typed0 SHollow (hint_of typed0 typing0 (expand y)) [] = Ok g /\
    call typed0 f (DInt (-1)) w = (Ok (DInt (-1)), w) /\
    exists e, call typed0 g (DInt (-1)) w = (Raise e, w).
Proof. exists (VGlobal (fun _ => Ok positive)). do 2 eexists. exists st0. split; [reflexivity|]. split; [reflexivity|]. split; [reflexivity|]. eexists. reflexivity. Qed.

(** Annotated[NewType of a NewType of List[NewType of int], ..] *)
Definition c89_typing : @typing dobj dty demo_state :=
  YAnn (YNewType (YNewType (YAlias TList [YNewType (YClass TInt)]))) [MStyle SStrict].
Example c89_case :
  types_of_classes typed0 c89_typing /\ tidy c89_typing /\ expand c89_typing = YAnn (YAlias TList [YClass TInt]) [MStyle SStrict] /\
  exists f, make_filler typed0 SCheck (hint_of typed0 typing0 c89_typing) [] = Ok f /\
    is_ok (fst (call typed0 f (dlist [DInt 1; DSub 2]) st0)) = true /\ is_ok (fst (call typed0 f (dlist [DStr "x"]) st0)) = false.
Proof.
  split; [cbn; repeat split; discriminate|]. split; [cbn; repeat split|]. split; [reflexivity|].
  eexists. split; [reflexivity|]. split; reflexivity.
Qed.

(** C109: a checking style among the metadata of an annotation without parameters overrides
    the default of the class: the field does what it would do without the style in a class with that default. *)
Theorem c109_override : forall {obj ty W} (P : Py obj ty W) T dflt s (y : @typing obj ty W) ms ms',
  leaf y -> s <> SDefault -> (forall s', ~ In (MStyle s') (ms ++ ms')) ->
  match make_filler P dflt (hint_of P T (YAnn y (ms ++ MStyle s :: ms'))) [],
        make_filler P s (hint_of P T (YAnn y (ms ++ ms'))) [] with
  | Ok f, Ok g => forall v w, call P f v w = call P g v w
  | Raise e, Raise e' => e = e'
  | _, _ => False
  end.
Proof. exact (@c109_override_proof). Qed.
Print Assumptions c109_override.

(** C109: the style of a container is not that of its elements: in a class that checks with
    isinstance, Annotated[List[X], strict] is for lists, not for instances of subclasses, but their elements may be
    instances of subclasses of X. *)
Theorem c109_elements : forall {obj ty W} (P : Py obj ty W) T t rk (y : @typing obj ty W) f,
  sane P T -> bare y -> proper y -> types_of_classes P y -> supported P T false y ->
  y <> YTypeVar -> ty_eqb P t (t_type P) = false -> gmap T t = Some (GIter rk) ->
  make_filler P SCheck (hint_of P T (YAnn (YAlias t [y]) [MStyle SStrict])) [] = Ok f ->
  accepts_exactly (call P f) (fun v => exactly_a P v t /\ exists l, elems P v = Some l /\ forall e, In e l -> describes P T (an_instance P) y e).
Proof. exact (@c109_elements_proof). Qed.
Print Assumptions c109_elements.

(** C88: an error of a token class or of a wrapper that is given uncalled surfaces when
    the class is created. *)
Theorem c88_errors : forall {obj ty W} (P : Py obj ty W) T dflt e (y : @typing obj ty W) m ms,
  leaf y -> uncalled_error m e -> make_filler P dflt (hint_of P T (YAnn y (m :: ms))) [] = Raise e.
Proof. exact (@c88_errors_proof). Qed.
Print Assumptions c88_errors.

(** C88: wherever in the metadata it is, and whatever pre_bind applies, there is no class. *)
Theorem c88_no_class : forall {obj ty W} (P : Py obj ty W) T dflt e (y : @typing obj ty W) m ms ms' ts,
  leaf y -> uncalled_error m e -> forall f, make_filler P dflt (hint_of P T (YAnn y (ms ++ m :: ms'))) (own_only ts) <> Ok f.
Proof. exact (@c88_no_class_proof). Qed.
Print Assumptions c88_no_class.

(** C70: the arguments of Compose can be tokens, token classes and decorated factories; their
    results are chained from last to first. *)
Theorem c70_tokens : forall {obj ty W} (P : Py obj ty W) (ms : list (@meta obj ty W)) cs,
  Forall2 stands_for ms cs ->
  exists t, Hints.compose ms = Ok t /\
    forall k f, get_coercer P k t = Ok f ->
      exists fs, Forall2 (yields P (origin_of P k)) cs fs /\ forall x w, f x w = Spec_Filler.compose fs x w.
Proof. exact (@c70_tokens_proof). Qed.
Print Assumptions c70_tokens.

(** C70: with an argument that is no coercer there is no class. *)
Theorem c70_no_token : forall {obj ty W} (P : Py obj ty W) (ms : list (@meta obj ty W)) m,
  In m ms -> no_coercer m -> forall t k f, Hints.compose ms = Ok t -> get_coercer P k t <> Ok f.
Proof. exact (@c70_no_token_proof). Qed.
Print Assumptions c70_no_token.

Example c70_tokens_case :
  let five := CGlobal (fun _ => Ok (fun _ => ret (DInt 5))) : @ctoken dobj dty demo_state in
  Forall2 stands_for [MCoercer five; MCoercerClass (Ok five); MWrapped (Ok (MadeCoercer five))] [five; five; five] /\
  no_coercer (MOther : @meta dobj dty demo_state).
Proof. split; [repeat constructor|exact I]. Qed.

(** Annotated[bool, strict, ...] in a class that does not check; a list whose elements are checked differently; an
    uncalled token class that needs arguments *)
Example c109_case :
  let f s := make_filler typed0 s (hint_of typed0 typing0 (YAnn (YClass TInt) [MOther; MStyle SStrict; MOther])) [] in
  leaf (YClass TInt : @typing dobj dty demo_state) /\
  (exists g, f SHollow = Ok g /\ is_ok (fst (call typed0 g (DSub 1) st0)) = false /\ is_ok (fst (call typed0 g (DInt 1) st0)) = true) /\
  exists g, make_filler typed0 SCheck (hint_of typed0 typing0 (YAnn (YAlias TList [YClass TInt]) [MStyle SStrict])) [] = Ok g /\
    is_ok (fst (call typed0 g (dlist [DSub 1]) st0)) = true /\ is_ok (fst (call typed0 g (dtuple [DSub 1]) st0)) = false.
Proof. split; [exact I|]. split; eexists; (split; [reflexivity|]; split; reflexivity). Qed.
Example c109_elements_case :
  sane typed0 typing0 /\ bare (YClass TInt : @typing dobj dty demo_state) /\ proper (YClass TInt : @typing dobj dty demo_state) /\
  types_of_classes typed0 (YClass TInt) /\ supported typed0 typing0 false (YClass TInt) /\ gmap typing0 TList = Some (GIter RkPlain).
Proof. split; [apply sane0|]. cbn. repeat split; discriminate. Qed.
Example c88_errors_case :
  uncalled_error (MCoercerClass (Raise (mkexc TypeError "missing argument")) : @meta dobj dty demo_state) (mkexc TypeError "missing argument") /\
  make_filler typed0 SCheck (hint_of typed0 typing0 (YAnn (YClass TInt) [MCoercerClass (Raise (mkexc TypeError "missing argument"))])) []
    = Raise (mkexc TypeError "missing argument").
Proof. split; reflexivity. Qed.
