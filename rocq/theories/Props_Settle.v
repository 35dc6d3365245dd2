(** Props_Settle.v -- property theorems: storing stored values again (Filler.fill, used by copies and by every way back into a record)
    Each theorem is closed by the lemma of the same statement in Settle_main.v; the examples
    show that concrete, non-trivial cases meet the hypotheses. *)

From Verif Require Import Base Py Filler Spec_Filler Classes Spec_Classes Runtime Record Spec_Record Spec_Inst Spec_Copy Spec_Settle Demo DemoRt DemoCls.
From Verif Require New_main Copy_main Filler_proofs Filler_sound Filler_inv Filler_shape Filler_eqs Filler_leaf Filler_kind Filler_decl Filler_main Props_Filler.
Open Scope string_scope.
Open Scope list_scope.

From Verif Require Import Settle_main.

(** C155, what does hold: a value that a field stored is stored again, the very object, whenever it
    is handed to the field again (with a declaration that settles, see Spec_Settle.v: tests as
    validators, any coercers, containers to any depth, Unions of classes with coercers or of anything
    without).  If no Union has coercers nothing else happens.  Missing: validators that change values,
    Unions of containers with coercers, None and callable fields with coercers (all refuted below),
    validators of containers (C17). *)
Theorem c155_settles_partial : forall {obj ty W} (P : Py obj ty W) d h ts f,
  settled_runtime P -> settling P d ts [] h -> make_filler P d h (own_only ts) = Ok f ->
  forall x w y w', call P f x w = (Ok y, w') ->
  forall w1, exists w2, call P f y w1 = (Ok y, w2) /\ (quiet ts [] h = true -> w2 = w1).
Proof. exact (@c155_settles_partial_proof). Qed.
Print Assumptions c155_settles_partial.

(** C155: without coercers anywhere, a field stores the very object it is given or raises. *)
Theorem c155_untouched : forall {obj ty W} (P : Py obj ty W) d h ts f,
  settled_runtime P -> settling P d ts [] h -> coercer_free ts h = true -> make_filler P d h (own_only ts) = Ok f ->
  forall x w y w', call P f x w = (Ok y, w') -> y = x /\ (has_literal h = false -> w' = w).
Proof. exact (@c155_untouched_proof). Qed.
Print Assumptions c155_untouched.

(** C155 for records: what the fields of a new record store, they store again, and nothing else happens. *)
Theorem c155_record_partial : forall {obj ty W} (R : Rt obj ty W) c n kw w x w',
  settled_runtime (rt_py R) -> made (rt_py R) c -> dict_ok kw -> no_reserved kw -> only_validates R c ->
  construct R n c None kw w = (Ok x, w') ->
  forall k v, dget k kw = Some v -> (forall f, dget k (c_fields c) = Some f -> settling_field (rt_py R) f) ->
  exists i f y, lookup R w' x = Some i /\ dget k (c_fields c) = Some f /\ dget k (i_dict i) = Some y /\
    forall w1, call (rt_py R) (f_filler f) y w1 = (Ok y, w1).
Proof. exact (@c155_record_partial_proof). Qed.
Print Assumptions c155_record_partial.

(** C155 for copies: copy.copy of a record that was constructed with all its fields gives a record with
    the very same objects (or the default of the field, where the value equals it, see C38); nothing is
    assumed of what the fields make of their values but their declarations. *)
Theorem c155_copy_partial : forall {obj ty W} (R : Rt obj ty W) ctx D eqb m n c kw w x w' i,
  settled_runtime (rt_py R) -> made (rt_py R) c -> dict_ok kw -> no_reserved kw -> only_validates R c ->
  construct R n c None kw w = (Ok x, w') ->
  (forall k f, dget k (c_fields c) = Some f -> In k (keys kw) /\ settling_field (rt_py R) f) ->
  Spec_Inst.accepts R ctx c (rebuilt eqb c i) -> fields_callable c -> c_frozen c = false ->
  instance_of R ctx c w' x i -> has_eq R D eqb -> defaults_in D c -> values_in D c i ->
  stored_fixed R c i /\
  exists y w2 j, copy R ctx (S m) x w' = (Ok y, w2) /\ fresh_instance R ctx c w' w2 y j /\ all_kept R w' w2 /\
    forall k f v, dget k (c_fields c) = Some f -> dget k (i_dict i) = Some v ->
      dget k (i_dict j) = Some v \/ exists d, f_default f = DefVal d /\ eqb d v = true /\ dget k (i_dict j) = Some d.
Proof. exact (@c155_copy_partial_proof). Qed.
Print Assumptions c155_copy_partial.

(** C155 does not hold for validators that change values: what the validator makes of the stored value
    is stored in its place the next time. *)
Theorem c155_validator_refuted : forall {obj ty W} (P : Py obj ty W) s t v f x w y w1 w2 z w3,
  checks s -> t <> t_none P -> t <> t_ellipsis P ->
  make_filler P s (HAnn (HTy t) [TValid (VGlobal (fun _ => Ok v))]) [] = Ok f ->
  class_ok P s t x -> v x w = (Ok y, w1) -> class_ok P s t y -> v y w2 = (Ok z, w3) ->
  call P f x w = (Ok y, w1) /\ call P f y w2 = (Ok z, w3).
Proof. exact (@c155_validator_refuted_proof). Qed.
Print Assumptions c155_validator_refuted.

(** C155 does not hold for None fields with coercers either: the coercer is asked again. *)
Theorem c155_none_refuted : forall {obj ty W} (P : Py obj ty W) s c f x w y w1 w2 z w3,
  checks s -> make_filler P s (HAnn HNone [TCoerce (CGlobal (fun _ => Ok c))]) [] = Ok f ->
  x <> o_none P -> c x w = (Ok y, w1) -> y <> o_none P -> c y w2 = (Ok z, w3) ->
  call P f x w = (Ok y, w1) /\ call P f y w2 = (Ok z, w3).
Proof. exact (@c155_none_refuted_proof). Qed.
Print Assumptions c155_none_refuted.

(** C155 does not hold for Unions of containers with coercers: a value that only one member took is
    afterwards taken by another, too, and a copy raises. *)
Theorem c155_union_refuted : exists (P : Py dobj dty demo_state) a b f x y w e,
  settled_runtime P /\ existsb is_validation (hint_tokens (HUnion [a; b])) = false /\
  settling P SCheck [] [] a /\ settling P SCheck [] [] b /\
  make_filler P SCheck (HUnion [a; b]) [] = Ok f /\
  call P f x w = (Ok y, w) /\ call P f y w = (Raise e, w) /\ exc_cls e = ValueError.
Proof. exact (@c155_union_refuted_proof). Qed.
Print Assumptions c155_union_refuted.

(** C155 does not hold for tests on containers whose elements are coerced: the test is asked about the
    argument only (C17), and rejects the stored value when it is stored again, so that a copy raises. *)
Theorem c155_container_refuted : exists (P : Py dobj dty demo_state) h v f x y w e,
  settled_runtime P /\ settling P SCheck [] [] h /\ testing_callback v /\
  make_filler P SCheck (HAnn h [TValid (VGlobal (fun _ => Ok v))]) [] = Ok f /\
  call P f x w = (Ok y, w) /\ call P f y w = (Raise e, w) /\ v y w = (Raise e, w).
Proof. exact (@c155_container_refuted_proof). Qed.
Print Assumptions c155_container_refuted.

(** Tuple[List[Union[Annotated[int, coercer, positive], None]], Dict[str, Optional[List[int]]]] *)
Definition parsed : dobj -> M demo_state dobj :=
  fun x => match x with DStr "5" => ret (DInt 5) | _ => raise (mkexc ValueError "") end.
Definition deep_hint : @hint dobj dty demo_state :=
  HTupleN [HIter RkPlain TList (HUnion [HAnn (HTy TInt) [coerces parsed; TValid (VGlobal (fun _ => Ok positive))]; HNone]);
           HMap RkPlain TDict (HTy TStr) (HUnion [HIter RkPlain TList (HTy TInt); HNone])].
Example c155_deep : settled_runtime demo0 /\ settling demo0 SCheck [] [] deep_hint /\
  exists f, make_filler demo0 SCheck deep_hint (own_only []) = Ok f /\
  call demo0 f (dtuple [dlist [DStr "5"; DNone; DInt 3]; ddict [(DStr "a", dlist [DInt 1]); (DStr "b", DNone)]]) st0 =
    (Ok (dtuple [dlist [DInt 5; DNone; DInt 3]; ddict [(DStr "a", dlist [DInt 1]); (DStr "b", DNone)]]), st0).
Proof.
  split; [apply demo_settled|]. split; [|eexists; split; reflexivity].
  assert (L : plain_class demo0 TList) by (repeat split; discriminate).
  assert (D : plain_class demo0 TDict) by (repeat split; discriminate).
  assert (TU : plain_class demo0 TTuple) by (repeat split; discriminate).
  assert (PO : testing_callback positive).
  { exists (fun x => match dint x with Some z => if Z.ltb 0 z then None else Some (mkexc ValueError "not positive") | None => Some (mkexc ValueError "not a number") end).
    intros x w. unfold positive. destruct (dint x) as [z|]; [|reflexivity]. destruct (Z.ltb 0 z); reflexivity. }
  assert (KP : forall x, keeps_interrupts (fun _ : demo_state => None) (parsed x)).
  { intros x w _. unfold parsed. destruct x; try reflexivity. destruct s as [|[[] [] [] [] [] [] [] []] [|]]; reflexivity. }
  assert (KV : forall x, keeps_interrupts (fun _ : demo_state => None) (positive x)).
  { intros x w _. unfold positive. destruct (dint x) as [z|]; [|reflexivity]. destruct (Z.ltb 0 z); reflexivity. }
  cbn -[eff_style coerces parsed positive]. split; [split; [exact TU|]; split; [left; reflexivity|left; reflexivity]|]. split; [|split; [|exact I]].
  - split; [split; [exact L|]; split; [left; reflexivity|left; reflexivity]|]. right. split; [discriminate|]. split.
    + constructor; [|constructor; [|constructor]]; cbn; intros o f E; injection E as <-; assumption.
    + split; [|split; [|exact I]].
      * split; [reflexivity|]. split; [left; reflexivity|]. split; [discriminate|]. split; [discriminate|]. split; [left; reflexivity|].
        constructor; [exact I|]. constructor; [|constructor]. intros o f E. injection E as <-. exact PO.
      * split; [reflexivity|]. split; [left; reflexivity|]. split; [left; reflexivity|]. split; [reflexivity|constructor].
  - split; [split; [exact D|]; split; [left; reflexivity|left; reflexivity]|]. right. split.
    + split; [discriminate|]. split; [discriminate|]. split; [left; reflexivity|constructor].
    + split; [discriminate|]. split; [constructor|]. split; [|split; [|exact I]].
      * split; [reflexivity|]. split; [right; reflexivity|]. split; [split; [exact L|]; split; [left; reflexivity|left; reflexivity]|].
        right. split; [discriminate|]. split; [discriminate|]. split; [left; reflexivity|constructor].
      * split; [reflexivity|]. split; [left; reflexivity|]. split; [left; reflexivity|]. split; [reflexivity|constructor].
Qed.

(** a class with the fields x : Annotated[int, coercer] and y : Optional[str] *)
Definition read : dobj -> M rstate dobj :=
  fun x => match x with DStr "5" => ret (DInt 5) | _ => raise (mkexc ValueError "") end.
Definition opt_decl := rdecl 0 false false (Some false) SCheck
  [("x", (AHint (HAnn (HTy TInt) [TCoerce (CGlobal (fun _ => Ok read))]) [], NoDefault));
   ("y", (AHint (HUnion [HTy TStr; HNone]) [], NoDefault))] [] no_post.
Example c155_record_case : exists x w' i,
  settled_runtime (rt_py (demo_rt 0)) /\
  construct (demo_rt 0) 1 (made_of opt_decl) None [("x", DStr "5"); ("y", DNone)] w0 = (Ok x, w') /\
  lookup (demo_rt 0) w' x = Some i /\ i_dict i = [("x", DInt 5); ("y", DNone)] /\
  only_validates (demo_rt 0) (made_of opt_decl) /\
  (forall k f, dget k (c_fields (made_of opt_decl)) = Some f -> In k ["x"; "y"] /\ settling_field (rt_py (demo_rt 0)) f).
Proof.
  do 3 eexists. split; [apply demo_settled|]. split; [reflexivity|]. split; [reflexivity|]. split; [reflexivity|]. split.
  - intros self w x w' H. cbn in H. unfold post_new_result, bind, ret in H. cbn in H. injection H as <- <-. split; [reflexivity|]. intros i HI. exists i. auto.
  - intros k f E. cbn in E. destruct (String.eqb_spec k "x") as [->|N].
    + injection E as <-. split; [left; reflexivity|]. exists SCheck, (HAnn (HTy TInt) [TCoerce (CGlobal (fun _ => Ok read))]), [].
      split; [reflexivity|]. left. split; [|reflexivity]. cbn -[eff_style]. split; [discriminate|]. split; [discriminate|]. split; [left; reflexivity|repeat constructor].
    + destruct (String.eqb_spec k "y") as [->|N2]; [|discriminate]. injection E as <-. split; [right; left; reflexivity|].
      exists SCheck, (HUnion [HTy TStr; HNone]), []. split; [reflexivity|]. left. split; [|reflexivity].
      cbn -[eff_style]. split; [discriminate|]. split; [constructor|]. split; [|split; [|exact I]].
      * split; [reflexivity|]. split; [left; reflexivity|]. split; [discriminate|]. split; [discriminate|]. split; [left; reflexivity|constructor].
      * split; [reflexivity|]. split; [left; reflexivity|]. split; [left; reflexivity|]. split; [reflexivity|constructor].
Qed.

(** Clamp-like validators that change values: 1 is stored as 2, and a copy has 3 *)
Definition next : dobj -> M demo_state dobj := fun x w => (match x with DInt z => Ok (DInt (z + 1)) | _ => Raise (mkexc TypeError "") end, w).
Example c155_validator_case : exists f,
  make_filler demo0 SCheck (HAnn (HTy TInt) [TValid (VGlobal (fun _ => Ok next))]) [] = Ok f /\
  call demo0 f (DInt 1) st0 = (Ok (DInt 2), st0) /\ call demo0 f (DInt 2) st0 = (Ok (DInt 3), st0).
Proof. eexists. split; [reflexivity|]. split; reflexivity. Qed.

Example c155_none_case : exists f,
  make_filler demo0 SCheck (HAnn HNone [coerces next]) [] = Ok f /\
  call demo0 f (DInt 1) st0 = (Ok (DInt 2), st0) /\ call demo0 f (DInt 2) st0 = (Ok (DInt 3), st0).
Proof. eexists. split; [reflexivity|]. split; reflexivity. Qed.

(** Annotated[List[int], coercer, different]: the container has a coercer and a test, its elements none *)
Definition listed : dobj -> M demo_state dobj := fun x => match x with DTuple l => ret (DList l) | _ => raise (mkexc ValueError "") end.
Example c155_tested_container :
  let h := HAnn (HIter RkPlain TList (HTy TInt)) [coerces listed; TValid (VGlobal (fun _ => Ok different))] in
  settling demo0 SCheck [] [] h /\ exists f, make_filler demo0 SCheck h (own_only []) = Ok f /\
  call demo0 f (dtuple [DInt 1; DInt 2]) st0 = (Ok (dlist [DInt 1; DInt 2]), st0) /\
  exists e, call demo0 f (dtuple [DInt 1; DInt 1]) st0 = (Raise e, st0).
Proof.
  split.
  - cbn -[eff_style different]. split; [split; [repeat split; discriminate|]; split; [left; reflexivity|right]|].
    + split; [|reflexivity]. constructor; [exact I|]. constructor; [|constructor]. intros o f E. injection E as <-.
      exists (fun x => match x with DList l => if repeats (unchain l) then Some (mkexc ValueError "repeated") else None | _ => None end).
      intros x w. unfold different. destruct x; try reflexivity. destruct (repeats (unchain x)); reflexivity.
    + right. split; [discriminate|]. split; [discriminate|]. split; [left; reflexivity|constructor].
  - eexists. split; [reflexivity|]. split; [reflexivity|]. eexists. reflexivity.
Qed.
