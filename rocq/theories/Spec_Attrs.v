(** Spec_Attrs.v -- the names that records and record classes use themselves. *)
From Verif Require Import Base Py Select Filler Classes Runtime Record.
Open Scope string_scope.
Open Scope list_scope.

(** the methods and attributes of RecordBase that its own methods look up on a record or on
    its class *)
Definition library_names : list string :=
  ["to_dict"; "_to_dict"; "is_frozen"; "_frozen"; "_ordered"; "_check_comparable"; "_fields";
   "from_instance"; "from_mapping"; "parse"; "post_new"; "_hash"].

Section Spec.
Context {obj ty W : Type} (R : Rt obj ty W).

(** no field of the class has such a name *)
Definition plain_names (c : @cls obj ty W) : Prop :=
  forall k, In k library_names -> ~ In k (keys (c_fields c)).

(** the record has no attribute of its own with such a name *)
Definition plain_attrs (w : W) (x : obj) : Prop :=
  forall i k, lookup R w x = Some i -> In k library_names -> ~ In k (keys (i_dict i)).
End Spec.
