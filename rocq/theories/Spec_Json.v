(** Spec_Json.v -- when a record that holds records can be read back from JSON, and what it means
    that it was. *)
From Verif Require Import Base Py Select Filler Spec_Filler Classes Spec_Classes Runtime Record Spec_Record Spec_Inst Json.

Section Spec.
Context {obj ty W : Type} (R : Rt obj ty W).
Notation P := (rt_py R).
Notation cls := (@cls obj ty W).
Notation filler := (@filler obj ty W).
Context (ctx : ty -> option cls) (J : JsonRt obj) (t_list : ty).

(** json.loads makes lists and dicts, which are not None; a record is none of the objects that
    json knows; a dict is no instance of a record class; list(...) makes a list of its elements *)
Record json_contract : Prop := {
  jc_array : forall l, js_shape J (js_array J l) = Array l /\ elems P (js_array J l) = Some l /\
             type_of P (js_array J l) = t_list /\ isinstance P (js_array J l) t_list = true;
  jc_list : forall l m w, rebuild P RkPlain (js_array J l) m w = (Ok (js_array J m), w);
  jc_object : forall d, dict_ok d -> js_shape J (js_object J d) = Object d /\ is_mapping R (js_object J d) d /\
              forall w, unpack R (js_object J d) w = (Ok d, w);
  jc_dict : forall d t c, ctx t = Some c -> type_of P (js_object J d) <> t /\ isinstance P (js_object J d) t = false;
  jc_record : forall w x i, lookup R w x = Some i -> js_shape J x = Opaque;
  jc_plain : plain_class P t_list;
  jc_some : (forall l, js_array J l <> o_none P) /\ (forall d, js_object J d <> o_none P)
}.

(** a class whose records can be read back if their values can: its post_new does nothing, and
    no field has the name of one of Python's own parameters *)
Definition readable_class (c : cls) : Prop :=
  made P c /\ fields_callable c /\ accepts R ctx c (fun _ => True) /\ plain_class P (c_ty c).

Definition checked (s : style) : Prop := s = SCheck \/ s = SStrict.

(** what a field with the filler [f] must hold in [w] to be read back: an object that json and the
    filler leave as it is; a record of a class B, if the field is declared as
    Annotated[B, CallCoercion(B.from_mapping)]; a list of such things, if it is declared as
    List[...] of such an annotation; or such a thing, or None, if it is declared as Optional[...]
    of such an annotation, which must not accept None itself *)
Inductive json_tree (w : W) : filler -> obj -> Prop :=
| tree_scalar f x : js_shape J x = Scalar -> (forall w', call P f x w' = (Ok x, w')) -> json_tree w f x
| tree_record f s n c x i :
    checked s -> readable_class c -> instance_of R ctx c w x i ->
    make_filler P s (HAnn (HTy (c_ty c)) [TCoerce (CGlobal (fun _ => Ok (fun v => from_mapping R (S n) c sel_empty [v] [])))]) [] = Ok f ->
    (forall k fd v, dget k (c_fields c) = Some fd -> dget k (i_dict i) = Some v -> json_tree w (f_filler fd) v) ->
    json_tree w f x
| tree_list f s h g x l :
    checked s -> make_filler P s (HIter RkPlain t_list h) [] = Ok f -> make_filler P s h [] = Ok g ->
    hollow_hint s no_sub_tokens [] [] h = false ->
    js_shape J x = Array l -> type_of P x = t_list -> (forall v, In v l -> json_tree w g v) -> json_tree w f x
| tree_optional f s h g x :
    checked s -> make_filler P s (HUnion [h; HNone]) [] = Ok f -> make_filler P s h [] = Ok g ->
    x <> o_none P -> json_tree w g x -> json_tree w f x
| tree_none f s h g :
    checked s -> make_filler P s (HUnion [h; HNone]) [] = Ok f -> make_filler P s h [] = Ok g ->
    js_shape J (o_none P) = Scalar ->
    (forall w', exists e, fill P g (o_none P) w' = (Raise e, w') /\ is_Exception e = true) ->
    json_tree w f (o_none P).

(** [x] in state [w] and [y] in state [w'] have the same content: the same scalar, lists of the
    same content, or records of the same class with the same content in all fields *)
Inductive same_content (w w' : W) : obj -> obj -> Prop :=
| same_scalar x : js_shape J x = Scalar -> same_content w w' x x
| same_list x y l m : js_shape J x = Array l -> js_shape J y = Array m -> type_of P x = type_of P y -> List.length l = List.length m ->
    (forall n a b, nth_error l n = Some a -> nth_error m n = Some b -> same_content w w' a b) -> same_content w w' x y
| same_record c x i y j : instance_of R ctx c w x i -> instance_of R ctx c w' y j ->
    (forall k a b, In k (keys (c_fields c)) -> dget k (i_dict i) = Some a -> dget k (i_dict j) = Some b -> same_content w w' a b) ->
    same_content w w' x y.

(** include_defaults=True, and nothing else *)
Definition all_fields : export_args := ExportArgs true SortNone (BlackSet []) [].
End Spec.
