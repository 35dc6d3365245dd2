(** Spec_Statement.v -- the names that the class statement itself uses. *)
From Verif Require Import Base Py Filler Classes Spec_Classes Bodies Spec_Bodies.
Open Scope string_scope.
Open Scope list_scope.

(** what RecordBase.__init_subclass__ looks up on the class after the fields are there *)
Definition statement_names : list string :=
  ["_fields"; "pre_bind"; "default_type_check_style"; "_default_type_check_style"].

Section Spec.
Context {obj ty W : Type}.

(** no field that the class declares or inherits has such a name *)
Definition plain_statement (b : @body obj ty W) : Prop :=
  forall k, In k statement_names -> ~ declares b k /\ forall c, In (BRecord c) (b_bases b) -> ~ In k (keys (c_fields c)).

(** [k: t] in the class body, where [t] is a class, and no word about [k] in pre_bind *)
Definition plainly_declared (b : @body obj ty W) (k : string) (t : ty) : Prop :=
  dget k (b_anns b) = Some (AHint (HTy t) []) /\ ~ In k (map fst (b_prebind b)).
End Spec.
