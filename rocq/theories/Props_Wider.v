(** Props_Wider.v -- property theorems: more coercers and fewer assertions (Filler.fill)
    Each theorem is closed by the lemma of the same statement in Wider_main.v; the examples
    show that concrete, non-trivial cases meet the hypotheses. *)

From Verif Require Import Base Py Select Filler Spec_Filler Classes Spec_Classes Runtime Record Spec_Record Spec_Settle Spec_Wider Demo DemoRt DemoCls.
From Verif Require Record_proofs Dict_proofs Inst_proofs Filler_proofs Filler_sound Filler_inv Filler_shape Filler_eqs Filler_leaf Filler_kind Filler_decl Filler_main Props_Filler Settle_main.
Open Scope string_scope.
Open Scope list_scope.

From Verif Require Import Wider_main.

(** C160 (all but Unions): whatever a field accepts it still accepts, with the same stored value
    and the same effects, when assertions are taken out of its declaration and coercers are added
    behind those it has, anywhere in the declaration. *)
Theorem c160_wider_partial : forall {obj ty W} (P : Py obj ty W) d h h' f g,
  wider P h h' -> make_filler P d h [] = Ok f -> make_filler P d h' [] = Ok g ->
  forall x w y w', call P f x w = (Ok y, w') -> call P g x w = (Ok y, w').
Proof. exact (@c160_wider_partial_proof). Qed.
Print Assumptions c160_wider_partial.

(** ... so an assertion never makes a field accept what it refused, nor changes what it stores *)
Theorem c160_assert_partial : forall {obj ty W} (P : Py obj ty W) d h ts p us f g,
  plain_hint h = true -> testing (TValid p) ->
  make_filler P d (HAnn h (ts ++ us)) [] = Ok f -> make_filler P d (HAnn h (ts ++ TValid p :: us)) [] = Ok g ->
  forall x w y w', call P g x w = (Ok y, w') -> call P f x w = (Ok y, w').
Proof. exact (@c160_assert_partial_proof). Qed.
Print Assumptions c160_assert_partial.

(** ... and a coercer behind the others never makes a field refuse what it accepted *)
Theorem c160_coercer_partial : forall {obj ty W} (P : Py obj ty W) d h ts c f g,
  plain_hint h = true ->
  make_filler P d (HAnn h ts) [] = Ok f -> make_filler P d (HAnn h (ts ++ [TCoerce c])) [] = Ok g ->
  forall x w y w', call P f x w = (Ok y, w') -> call P g x w = (Ok y, w').
Proof. exact (@c160_coercer_partial_proof). Qed.
Print Assumptions c160_coercer_partial.

(** ... and every call of the class with keyword arguments that made a record makes the same record when
    the declarations of the fields are more generous *)
Theorem c160_record_partial : forall {obj ty W} (R : Rt obj ty W) n c fs' kw w x w',
  wider_fields (rt_py R) (c_fields c) fs' -> no_reserved kw ->
  construct R (S n) c None kw w = (Ok x, w') -> construct R (S n) (with_fields c fs') None kw w = (Ok x, w').
Proof. exact (@c160_record_partial_proof). Qed.
Print Assumptions c160_record_partial.

(** ... with any arguments, also from mappings and from JSON text, with any Select, for classes that do not parse
    positional arguments *)
Theorem c160_data_partial : forall {obj ty W} (R : Rt obj ty W) n c fs', wider_fields (rt_py R) (c_fields c) fs' -> c_unary c = false ->
  (forall pos kw w x w', construct R (S n) c pos kw w = (Ok x, w') -> construct R (S n) (with_fields c fs') pos kw w = (Ok x, w')) /\
  (forall s maps kw w x w', from_mapping R (S n) c s maps kw w = (Ok x, w') -> from_mapping R (S n) (with_fields c fs') s maps kw w = (Ok x, w')) /\
  (forall s v w x w', from_json R (S n) c s v w = (Ok x, w') -> from_json R (S n) (with_fields c fs') s v w = (Ok x, w')).
Proof. exact (@c160_data_partial_proof). Qed.
Print Assumptions c160_data_partial.

(** C160 does not hold inside Unions.  A further coercer of one member makes the Union refuse a value
    it accepted: two members coerce it now. *)
Theorem c160_union_coercer_refuted : exists (P : Py dobj dty demo_state) a a' b f g x y w e,
  coercions_of a' = coercions_of a ++ [turns DNone (DInt 0)] /\ wider P (HAnn (HTy TInt) a) (HAnn (HTy TInt) a') /\
  make_filler P SCheck (HUnion [HAnn (HTy TInt) a; b]) [] = Ok f /\ make_filler P SCheck (HUnion [HAnn (HTy TInt) a'; b]) [] = Ok g /\
  call P f x w = (Ok y, w) /\ call P g x w = (Raise e, w) /\ exc_cls e = ValueError.
Proof. exact (@c160_union_coercer_refuted_proof). Qed.
Print Assumptions c160_union_coercer_refuted.

(** ... and an assertion makes it accept a value it refused: the member it is attached to drops out. *)
Theorem c160_union_assert_refuted : exists (P : Py dobj dty demo_state) a b f g x y w e,
  wider P (HAnn (HTy TInt) (a ++ [refuses (DInt 0)])) (HAnn (HTy TInt) a) /\
  make_filler P SCheck (HUnion [HAnn (HTy TInt) (a ++ [refuses (DInt 0)]); b]) [] = Ok f /\ make_filler P SCheck (HUnion [HAnn (HTy TInt) a; b]) [] = Ok g /\
  call P f x w = (Ok y, w) /\ call P g x w = (Raise e, w) /\ exc_cls e = ValueError.
Proof. exact (@c160_union_assert_refuted_proof). Qed.
Print Assumptions c160_union_assert_refuted.

(** ... nor for coercers added in front of the others: a value that was accepted is stored as another one. *)
Theorem c160_first_refuted : exists (P : Py dobj dty demo_state) c c' f g x y y' w,
  make_filler P SCheck (HAnn (HTy TInt) [TCoerce c]) [] = Ok f /\ make_filler P SCheck (HAnn (HTy TInt) [TCoerce c'; TCoerce c]) [] = Ok g /\
  call P f x w = (Ok y, w) /\ call P g x w = (Ok y', w) /\ y <> y'.
Proof. exact (@c160_first_refuted_proof). Qed.
Print Assumptions c160_first_refuted.

(** ... nor for classes called with a single positional argument: what only a parser understood
    becomes ambiguous when the only required field understands it as well *)
Theorem c160_positional_refuted : exists c c' a w w' x e w'',
  wider_fields (rt_py (demo_rt 0)) (c_fields c) (c_fields c') /\ c' = with_fields c (c_fields c') /\
  construct (demo_rt 0) 2 c (Some a) [] w = (Ok x, w') /\
  construct (demo_rt 0) 2 c' (Some a) [] w = (Raise e, w'') /\ exc_cls e = TypeError.
Proof. exact (@c160_positional_refuted_proof). Qed.
Print Assumptions c160_positional_refuted.

Example c160_record_case : exists x w' y w'' e w3,
  wider_fields (rt_py (demo_rt 0)) (c_fields (one_field [])) (c_fields (one_field [turned (DStr "5") (DInt 5)])) /\
  construct (demo_rt 0) 1 (one_field []) None [("x", DInt 3)] w0 = (Ok x, w') /\
  construct (demo_rt 0) 1 (one_field [turned (DStr "5") (DInt 5)]) None [("x", DStr "5")] w0 = (Ok y, w'') /\
  construct (demo_rt 0) 1 (one_field []) None [("x", DStr "5")] w0 = (Raise e, w3).
Proof.
  do 6 eexists. split; [|split; [reflexivity|split; reflexivity]].
  apply wf_cons; [|constructor]. split; [reflexivity|]. split; [reflexivity|]. exists SCheck, (HAnn (HTy TInt) []), (HAnn (HTy TInt) [turned (DStr "5") (DInt 5)]).
  split; [|split; reflexivity]. apply w_plain; [reflexivity|]. split; [reflexivity|]. split; [eexists; reflexivity|constructor].
Qed.

(** from a mapping and from a positional argument, in a class that does not parse *)
Definition one_plain (ts : list (@token dobj dty rstate)) : @cls dobj dty rstate :=
  made_of (rdecl 0 false false (Some false) SCheck [("x", (AHint (HAnn (HTy TInt) ts) [], NoDefault))] [] no_post).
Example c160_data_case : exists x w' y w'' e w3 z w4,
  wider_fields (rt_py (demo_rt 0)) (c_fields (one_plain [])) (c_fields (one_plain [turned (DStr "5") (DInt 5)])) /\
  c_unary (one_plain []) = false /\ one_plain [turned (DStr "5") (DInt 5)] = with_fields (one_plain []) (c_fields (one_plain [turned (DStr "5") (DInt 5)])) /\
  from_mapping (demo_rt 0) 1 (one_plain []) sel_empty [mapping [("x", DInt 3)]] [] w0 = (Ok x, w') /\
  from_mapping (demo_rt 0) 1 (one_plain [turned (DStr "5") (DInt 5)]) sel_empty [mapping [("x", DStr "5")]] [] w0 = (Ok y, w'') /\
  from_mapping (demo_rt 0) 1 (one_plain []) sel_empty [mapping [("x", DStr "5")]] [] w0 = (Raise e, w3) /\
  construct (demo_rt 0) 1 (one_plain []) (Some (DInt 3)) [] w0 = (Ok z, w4).
Proof.
  do 8 eexists. split; [|split; [reflexivity|split; [reflexivity|split; [reflexivity|split; [reflexivity|split; reflexivity]]]]].
  apply wf_cons; [|constructor]. split; [reflexivity|]. split; [reflexivity|]. exists SCheck, (HAnn (HTy TInt) []), (HAnn (HTy TInt) [turned (DStr "5") (DInt 5)]).
  split; [|split; reflexivity]. apply w_plain; [reflexivity|]. split; [reflexivity|]. split; [eexists; reflexivity|constructor].
Qed.

(** Tuple[List[Annotated[int, a, test]], Dict[str, int]] and the same with a further coercer, without the
    test, and with a coercer on the whole tuple *)
Definition narrow : @hint dobj dty demo_state :=
  HTupleN [HIter RkPlain TList (HAnn (HTy TInt) [turns DNone (DInt 0); refuses (DInt 7)]); HMap RkPlain TDict (HTy TStr) (HTy TInt)].
Definition broad : @hint dobj dty demo_state :=
  HAnn (HTupleN [HIter RkPlain TList (HAnn (HTy TInt) [turns DNone (DInt 0); turns (DStr "5") (DInt 5)]);
                 HMap RkPlain TDict (HTy TStr) (HAnn (HTy TInt) [turns DNone (DInt 1)])]) [turns (DInt 3) (dtuple [dlist []; ddict []])].
Example c160_case : exists f g, wider demo0 narrow broad /\
  make_filler demo0 SCheck narrow [] = Ok f /\ make_filler demo0 SCheck broad [] = Ok g /\
  call demo0 f (dtuple [dlist [DInt 1; DNone]; ddict [(DStr "a", DInt 2)]]) st0 = (Ok (dtuple [dlist [DInt 1; DInt 0]; ddict [(DStr "a", DInt 2)]]), st0) /\
  call demo0 g (dtuple [dlist [DInt 1; DNone]; ddict [(DStr "a", DInt 2)]]) st0 = (Ok (dtuple [dlist [DInt 1; DInt 0]; ddict [(DStr "a", DInt 2)]]), st0) /\
  call demo0 g (dtuple [dlist [DInt 7; DStr "5"]; ddict [(DStr "a", DNone)]]) st0 = (Ok (dtuple [dlist [DInt 7; DInt 5]; ddict [(DStr "a", DInt 1)]]), st0) /\
  (exists e, call demo0 f (dtuple [dlist [DInt 7]; ddict []]) st0 = (Raise e, st0)).
Proof.
  do 2 eexists. split; [|split; [reflexivity|split; [reflexivity|split; [reflexivity|split; [reflexivity|split; [reflexivity|eexists; reflexivity]]]]]].
  assert (G : generous [] (@nil (@token dobj dty demo_state))) by (split; [reflexivity|]; split; [exists []; reflexivity|constructor]).
  assert (M : forall c, generous [] [TCoerce c : @token dobj dty demo_state]) by (intro c; split; [reflexivity|]; split; [eexists; reflexivity|constructor]).
  apply w_left. apply w_positions; [repeat split; discriminate|apply M|]. apply aw_cons; [|apply aw_cons; [|constructor]].
  - apply w_left, w_right, w_iter; [repeat split; discriminate|exact G|]. apply w_plain; [reflexivity|].
    split; [reflexivity|]. split; [eexists; reflexivity|]. cbn. apply ft_drop; [|constructor].
    intros o f E. injection E as <-. exists (fun x => if dis x (DInt 7) then Some (mkexc ValueError "refused") else None).
    intros x w. destruct (dis x (DInt 7)); reflexivity.
  - apply w_left, w_right, w_map; [repeat split; discriminate|exact G|apply w_same|]. apply w_left. apply w_plain; [reflexivity|apply M].
Qed.
