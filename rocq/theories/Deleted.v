(** Deleted.v -- the run time with the RecordFields that stand in the record classes
    (records/record.py:113, [setattr(cls, name, field)]): they are found where a record has no value
    of its own.  A RecordField is no descriptor (records/field.py:30-220 defines no __get__), so that
    reading gives the RecordField itself. *)
From Verif Require Import Base Py Select Filler Classes Runtime Record.

Section Deleted.
Context {obj ty W : Type}.
Notation cls := (@cls obj ty W).
(** the RecordField that stands in a class under a name, as a Python object *)
Context (field_obj : cls -> string -> obj).

(** [getattr(x, k)] beyond the __dict__ of [x]: the class of a record comes before __getattr__ *)
Definition class_attr (R : Rt obj ty W) (ctx : ty -> option cls) (x : obj) (k : string) : M W obj :=
  fun w => match class_of R ctx x w with
           | Some c => if dmem k (c_fields c) then (Ok (field_obj c k), w) else ext_attr R x k w
           | None => ext_attr R x k w
           end.

Definition with_fields (R : Rt obj ty W) (ctx : ty -> option cls) : Rt obj ty W := {|
  rt_py := rt_py R;
  heap := heap R; set_heap := set_heap R; heap_set := heap_set R; set_heap_same := set_heap_same R;
  set_heap_twice := set_heap_twice R; heap_grow := heap_grow R;
  ref := ref R; deref := deref R; deref_ref := deref_ref R;
  type_ref := type_ref R; ref_not_none := ref_not_none R; isinstance_type := isinstance_type R;
  truth := truth R; truth_none := truth_none R;
  v_eq := v_eq R; v_ne := v_ne R; v_cmp := v_cmp R; ext_cmp := ext_cmp R;
  v_hash := v_hash R; tuple_hash := tuple_hash R;
  ext_attr := class_attr R ctx;
  m_iter := m_iter R; m_item := m_item R;
  unpack := unpack R; as_dict := as_dict R; unpack_ok := unpack_ok R; as_dict_ok := as_dict_ok R;
  json_loads := json_loads R; json_dumps := json_dumps R;
  deep_copy := deep_copy R; pickle_values := pickle_values R;
  set_order := set_order R; set_order_perm := set_order_perm R;
  int_of := int_of R; v_repr := v_repr R; type_name := type_name R
|}.
End Deleted.
