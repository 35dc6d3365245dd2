(** Props_Lax.v -- property theorems: the three type checking styles compared (Filler.fill)
    Each theorem is closed by the lemma of the same statement in Lax_main.v; the examples
    show that concrete, non-trivial cases meet the hypotheses. *)

From Verif Require Import Base Py Select Filler Spec_Filler Classes Spec_Classes Runtime Record Spec_Record Spec_Settle Spec_Wider Spec_Lax Demo DemoRt DemoCls.
From Verif Require Record_proofs Dict_proofs Classes_proofs Filler_proofs Filler_sound Filler_inv Filler_shape Filler_eqs Filler_leaf Filler_kind Filler_decl Filler_main Props_Filler Settle_main Wider_main.
Open Scope string_scope.
Open Scope list_scope.

From Verif Require Import Lax_main.

(** C161 (without coercers and Unions): what a field of a class that checks strictly accepts, the field of a class
    that takes instances of subclasses accepts as well; it stores the same object, with the same
    effects, whatever the validators do. *)
Theorem c161_check_partial : forall {obj ty W} (P : Py obj ty W) h f g,
  unionless P h -> has_coercer (hint_tokens h) = false ->
  make_filler P SStrict h [] = Ok f -> make_filler P SCheck h [] = Ok g ->
  forall x w y w', call P f x w = (Ok y, w') -> call P g x w = (Ok y, w').
Proof. exact (@c161_check_partial_proof). Qed.
Print Assumptions c161_check_partial.

(** ... with Unions as well, if the validators are tests and there are no Literals (Spec_Settle.v) *)
Theorem c161_tests_partial : forall {obj ty W} (P : Py obj ty W) h f g,
  settled_runtime P -> settling P SStrict [] [] h -> settling P SCheck [] [] h -> coercer_free [] h = true -> has_literal h = false ->
  make_filler P SStrict h [] = Ok f -> make_filler P SCheck h [] = Ok g ->
  forall x w y w', call P f x w = (Ok y, w') -> call P g x w = (Ok y, w').
Proof. exact (@c161_tests_partial_proof). Qed.
Print Assumptions c161_tests_partial.

(** ... so if a class statement makes a class that checks strictly and, with the other type_check_style, one that does not, every
    call with keyword arguments that makes a record with the first makes the same record with the second *)
Theorem c161_class_partial : forall {obj ty W} (R : Rt obj ty W) n d c c' kw w x w',
  d_prebind d = [] -> dict_ok (d_anns d) ->
  (forall k f, In (k, f) (flat_map base_fields (d_bases d)) -> f_owner f <> d_ty d) ->
  (forall k a, In (k, a) (d_anns d) -> is_field a = true -> comparable (rt_py R) (declared_hint a)) ->
  make_class (rt_py R) (restyled d SStrict) = Ok c -> make_class (rt_py R) (restyled d SCheck) = Ok c' -> no_reserved kw ->
  construct R (S n) c None kw w = (Ok x, w') -> construct R (S n) c' None kw w = (Ok x, w').
Proof. exact (@c161_class_partial_proof). Qed.
Print Assumptions c161_class_partial.

(** ... and so does every call with any arguments, from_mapping and from_json, with any Select, for classes that do not
    parse positional arguments *)
Theorem c161_data_partial : forall {obj ty W} (R : Rt obj ty W) n d c c',
  d_prebind d = [] -> dict_ok (d_anns d) ->
  (forall k f, In (k, f) (flat_map base_fields (d_bases d)) -> f_owner f <> d_ty d) ->
  (forall k a, In (k, a) (d_anns d) -> is_field a = true -> comparable (rt_py R) (declared_hint a)) ->
  make_class (rt_py R) (restyled d SStrict) = Ok c -> make_class (rt_py R) (restyled d SCheck) = Ok c' -> c_unary c = false ->
  (forall pos kw w x w', construct R (S n) c pos kw w = (Ok x, w') -> construct R (S n) c' pos kw w = (Ok x, w')) /\
  (forall s maps kw w x w', from_mapping R (S n) c s maps kw w = (Ok x, w') -> from_mapping R (S n) c' s maps kw w = (Ok x, w')) /\
  (forall s v w x w', from_json R (S n) c s v w = (Ok x, w') -> from_json R (S n) c' s v w = (Ok x, w')).
Proof. exact (@c161_data_partial_proof). Qed.
Print Assumptions c161_data_partial.

(** C161 (without coercers and changing validators): what a field of a class that checks types, strictly or not, accepts,
    a field of a class that does not check types accepts as well, and it stores the argument itself. *)
Theorem c161_hollow_partial : forall {obj ty W} (P : Py obj ty W) d h f g,
  checks d -> plain_containers P h -> has_coercer (hint_tokens h) = false -> forallb no_style (hint_tokens h) = true -> Forall testing (hint_tokens h) ->
  make_filler P d h [] = Ok f -> make_filler P SHollow h [] = Ok g ->
  forall x w y w', call P f x w = (Ok y, w') -> call P g x w = (Ok x, w).
Proof. exact (@c161_hollow_partial_proof). Qed.
Print Assumptions c161_hollow_partial.

(** C161 does not hold with coercers: strictly, True is no int and is converted; otherwise it is stored. *)
Theorem c161_coercer_refuted : exists (P : Py dobj dty demo_state) h f g x y y' w,
  unionless P h /\ make_filler P SStrict h [] = Ok f /\ make_filler P SCheck h [] = Ok g /\
  call P f x w = (Ok y, w) /\ call P g x w = (Ok y', w) /\ y <> y'.
Proof. exact (@c161_coercer_refuted_proof). Qed.
Print Assumptions c161_coercer_refuted.

(** ... nor for Unions with validators that change values: if types are checked strictly, [True] is no List[int], and
    the validator of the ints is not asked. *)
Theorem c161_union_refuted : exists (P : Py dobj dty demo_state) a b f g x y w,
  unionless P a /\ unionless P b /\ has_coercer (hint_tokens (HUnion [a; b])) = false /\
  make_filler P SStrict (HUnion [a; b]) [] = Ok f /\ make_filler P SCheck (HUnion [a; b]) [] = Ok g /\
  call P f x w = (Ok x, w) /\ call P g x w = (Raise y, w) /\ exc_cls y = ValueError.
Proof. exact (@c161_union_refuted_proof). Qed.
Print Assumptions c161_union_refuted.

(** ... nor for validators that change the elements of containers: a class that does not check types does not
    look at the elements. *)
Theorem c161_elements_refuted : exists (P : Py dobj dty demo_state) h f g x y w,
  unionless P h /\ has_coercer (hint_tokens h) = false /\
  make_filler P SCheck h [] = Ok f /\ make_filler P SHollow h [] = Ok g /\
  call P f x w = (Ok y, w) /\ call P g x w = (Ok x, w) /\ y <> x.
Proof. exact (@c161_elements_refuted_proof). Qed.
Print Assumptions c161_elements_refuted.

(** Tuple[Dict[str, Annotated[int, odd]], List[Any]] *)
Definition odd_token : @token dobj dty demo_state :=
  TValid (VGlobal (fun _ => Ok (fun x w => (match x with DInt z => if Z.odd z then Ok x else Raise (mkexc ValueError "even") | _ => Ok x end, w)))).
Definition odd_hint : @hint dobj dty demo_state :=
  HTupleN [HMap RkPlain TDict (HTy TStr) (HAnn (HTy TInt) [odd_token]); HIter RkPlain TList HAny].
Definition odd_value := dtuple [ddict [(DStr "a", DInt 3)]; dlist [DNone]].
Example c161_case : exists f g k, unionless demo0 odd_hint /\ plain_containers demo0 odd_hint /\ has_coercer (hint_tokens odd_hint) = false /\
  forallb no_style (hint_tokens odd_hint) = true /\ Forall testing (hint_tokens odd_hint) /\
  make_filler demo0 SStrict odd_hint [] = Ok f /\ make_filler demo0 SCheck odd_hint [] = Ok g /\ make_filler demo0 SHollow odd_hint [] = Ok k /\
  (exists e, call demo0 f odd_value st0 = (Raise e, st0)) /\ call demo0 g odd_value st0 = (Ok odd_value, st0) /\ call demo0 k odd_value st0 = (Ok odd_value, st0) /\
  (exists e, call demo0 g (dtuple [ddict [(DStr "a", DInt 2)]; dlist []]) st0 = (Raise e, st0)).
Proof.
  do 3 eexists. split; [repeat split; discriminate|]. split; [repeat split; discriminate|]. split; [reflexivity|]. split; [reflexivity|]. split.
  { constructor; [|constructor]. intros o f E. injection E as <-. exists (fun x => match x with DInt z => if Z.odd z then None else Some (mkexc ValueError "even") | _ => None end).
    intros x w. destruct x; try reflexivity. destruct (Z.odd z); reflexivity. }
  split; [reflexivity|]. split; [reflexivity|]. split; [reflexivity|]. split; [eexists; reflexivity|]. split; [reflexivity|]. split; [reflexivity|]. eexists; reflexivity.
Qed.

(** Optional[List[Annotated[int, odd]]] *)
Definition opt_odds : @hint dobj dty demo_state := HUnion [HIter RkPlain TList (HAnn (HTy TInt) [odd_token]); HNone].
Example c161_tests_case : exists f g, settling demo0 SStrict [] [] opt_odds /\ settling demo0 SCheck [] [] opt_odds /\ coercer_free [] opt_odds = true /\ has_literal opt_odds = false /\
  make_filler demo0 SStrict opt_odds [] = Ok f /\ make_filler demo0 SCheck opt_odds [] = Ok g /\
  call demo0 f (dlist [DInt 3]) st0 = (Ok (dlist [DInt 3]), st0) /\ call demo0 g (dlist [DInt 3]) st0 = (Ok (dlist [DInt 3]), st0) /\
  (exists e, call demo0 f (dlist [DSub 3]) st0 = (Raise e, st0)) /\ call demo0 g (dlist [DSub 3]) st0 = (Ok (dlist [DSub 3]), st0).
Proof.
  assert (T : testing odd_token).
  { intros o f E. injection E as <-. exists (fun x => match x with DInt z => if Z.odd z then None else Some (mkexc ValueError "even") | _ => None end).
    intros x w. destruct x; try reflexivity. destruct (Z.odd z); reflexivity. }
  assert (U : uninterrupted odd_token).
  { intros o f E x w. injection E as <-. intro H. destruct x; try reflexivity. cbn in H |- *. destruct (Z.odd z); reflexivity. }
  assert (S : forall d, checks d -> settling demo0 d [] [] opt_odds).
  { intros d HC. assert (HC2 : checks (eff_style d (@nil (@token dobj dty demo_state)))) by exact HC. assert (HC3 : checks (eff_style d [odd_token])) by exact HC.
    cbn -[eff_style odd_token]. split; [discriminate|]. split; [repeat constructor; assumption|]. repeat split; try discriminate; auto.
    - right. repeat split; try discriminate; auto. }
  do 2 eexists. split; [apply S; right; reflexivity|]. split; [apply S; left; reflexivity|]. split; [reflexivity|]. split; [reflexivity|].
  split; [reflexivity|]. split; [reflexivity|]. split; [reflexivity|]. split; [reflexivity|]. split; [eexists; reflexivity|reflexivity].
Qed.

(** a class with an int and a list of strings that has a default *)
Definition styled_decl : @decl dobj dty rstate :=
  rdecl 0 false false None SCheck [("x", (an TInt, NoDefault)); ("y", (AHint (HIter RkPlain TList (HTy TStr)) [], DefVal DNone))] [] no_post.
Example c161_class_case : exists c c' x w',
  d_prebind styled_decl = [] /\ dict_ok (d_anns styled_decl) /\
  (forall k a, In (k, a) (d_anns styled_decl) -> is_field a = true -> comparable rt0 (declared_hint a)) /\
  make_class rt0 (restyled styled_decl SStrict) = Ok c /\ make_class rt0 (restyled styled_decl SCheck) = Ok c' /\
  c_unary c = false /\ from_mapping (demo_rt 0) 1 c sel_empty [mapping [("x", DInt 1)]] [] w0 = (Ok x, w') /\
  construct (demo_rt 0) 1 c None [("x", DInt 1)] w0 = (Ok x, w') /\
  (exists e w, construct (demo_rt 0) 1 c None [("x", DBool true)] w0 = (Raise e, w)) /\
  (exists x w, construct (demo_rt 0) 1 c' None [("x", DBool true)] w0 = (Ok x, w)).
Proof.
  do 4 eexists. split; [reflexivity|]. split; [repeat constructor; cbn; intuition discriminate|]. split.
  { intros k a [E|[E|[]]] _; injection E as <- <-; left; (split; [cbn; try exact I; repeat split; discriminate|reflexivity]). }
  split; [reflexivity|]. split; [reflexivity|]. split; [reflexivity|]. split; [reflexivity|]. split; [reflexivity|]. split; repeat eexists.
Qed.
