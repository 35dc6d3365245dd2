(** Json.v -- exports to JSON of records that hold records: json.dumps as to_json calls it
    (records/record.py:607-626), with what its argument [default] adds, and json.loads. *)
From Verif Require Import Base Py Select Filler Classes Runtime Record.
Open Scope string_scope.
Open Scope list_scope.

(** a JSON document.  Simplification: numbers, strings, true, false and null stand for the objects
    that json.loads makes of them, which are those that json.dumps was given. *)
Inductive json (obj : Type) := JLeaf (x : obj) | JArr (l : list (json obj)) | JObj (d : list (string * json obj)).
Arguments JLeaf {obj}. Arguments JArr {obj}. Arguments JObj {obj}.

(** how json.JSONEncoder sees an object: None, bool, int, float or str; a list or tuple; a dict
    with strings as keys; anything else, for which it calls [default] *)
Inductive shape (obj : Type) := Scalar | Array (l : list obj) | Object (d : dict obj) | Opaque.
Arguments Scalar {obj}. Arguments Array {obj}. Arguments Object {obj}. Arguments Opaque {obj}.

(** the lists and dicts that json.loads makes.  Simplification: as everywhere but in Mutable.v,
    containers are not changed. *)
Record JsonRt (obj : Type) := { js_shape : obj -> shape obj; js_array : list obj -> obj; js_object : dict obj -> obj }.
Arguments js_shape {obj}. Arguments js_array {obj}. Arguments js_object {obj}.

Section Json.
Context {obj ty W : Type} (R : Rt obj ty W).
Notation cls := (@cls obj ty W).
Context (ctx : ty -> option cls) (J : JsonRt obj).

(** JSONEncoder.iterencode.  Python's own bound for the depth, and its search for cycles, are
    [fuel]. *)
Definition encode_items (enc : obj -> M W (json obj)) (d : dict obj) : M W (list (string * json obj)) :=
  mapM (fun kv => let* j := enc (snd kv) in ret (fst kv, j)) d.
Fixpoint encode (fuel : nat) (default : option (obj -> M W obj)) (x : obj) : M W (json obj) :=
  match fuel with
  | O => raise (mkexc RecursionError "maximum recursion depth exceeded")
  | S n =>
      match js_shape J x with
      | Scalar => ret (JLeaf x)
      | Array l => let* js := mapM (encode n default) l in ret (JArr js)
      | Object d => let* js := encode_items (encode n default) d in ret (JObj js)
      | Opaque =>
          match default with
          | None => raise (mkexc TypeError "Object is not JSON serializable")
          | Some f => let* y := f x in encode n default y
          end
      end
  end.

(** x.to_json(default=...) after export_with( ** a) -- records/record.py:607-626 *)
Definition to_json_default (fuel : nat) (default : option (obj -> M W obj)) (a : export_args) (x : obj) : M W (json obj) :=
  let* d := to_dict R ctx x a sel_empty in
  let* js := encode_items (encode fuel default) d in
  ret (JObj js).

(** lambda x: x.to_dict( ** a) *)
Definition with_to_dict (a : export_args) : obj -> M W obj :=
  fun x => let* d := to_dict R ctx x a sel_empty in ret (js_object J d).

(** json.loads *)
Fixpoint of_json (j : json obj) : obj :=
  match j with
  | JLeaf x => x
  | JArr l => js_array J (map of_json l)
  | JObj d => js_object J (map (fun kj => (fst kj, of_json (snd kj))) d)
  end.
End Json.
