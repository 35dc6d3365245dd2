(** Spec_Again.v -- classes all whose fields can store again what they stored, told from the class
    statements alone, and records that can be made again from their own data. *)
From Verif Require Import Base Py Select Filler Spec_Filler Classes Spec_Classes Runtime Record Spec_Record Spec_Inst Spec_Settle Spec_Hist.

Section Spec.
Context {obj ty W : Type} (R : Rt obj ty W).
Notation P := (rt_py R).
Notation cls := (@cls obj ty W).

(** the annotation [a] of the field [k] in the class statement [d], together with what the pre_bind
    of the class adds to the field, settles (Spec_Settle.v) or checks and validates nothing *)
Definition settling_annotation (d : @decl obj ty W) (k : string) (a : ann) : Prop :=
  exists ts, ops_for k (d_prebind d) = own_only ts /\
    (settling P (d_style d) ts [] (declared_hint a) /\ quiet ts [] (declared_hint a) = true \/
     hollow_hint (d_style d) no_sub_tokens ts [] (declared_hint a) = true /\
     unvalidated no_sub_tokens ts [] (declared_hint a) = true).

(** a class all whose fields, own and inherited, are annotated like that *)
Inductive settling_class : cls -> Prop :=
| settling_made d c :
    make_class P d = Ok c -> dict_ok (d_anns d) ->
    (forall b, In (BRecord b) (d_bases d) -> settling_class b) ->
    (forall k a, dget k (d_anns d) = Some a -> is_field a = true -> settling_annotation d k a) ->
    settling_class c.

(** the default of the field is something that the field could have stored *)
Definition storable_default (f : @field obj ty W) : Prop :=
  forall w v w', default_of f w v w' -> exists x w1 w2, call P (f_filler f) x w1 = (Ok v, w2).

Context (ctx : ty -> option cls).

(** the field [k] of the class [t] stores [v] as it is, and nothing else happens *)
Definition kept_value (t : ty) (k : string) (v : obj) : Prop :=
  forall c f, ctx t = Some c -> dget k (c_fields c) = Some f -> forall w, call P (f_filler f) v w = (Ok v, w).

(** a program whose classes are like that, and the state after it did [l]: assignments to records
    that are not frozen are of values that the field stores as they are, and other code keeps to
    that, too *)
Definition settled_program (l : list action) (w : W) : Prop :=
  settled_runtime P /\
  (forall t c, ctx t = Some c -> settling_class c /\ forall k f, dget k (c_fields c) = Some f -> storable_default f) /\
  program_obeys R (keeping (stays_right R ctx kept_value)) ctx /\
  (forall a, In a l -> allowed ctx (stays_right R ctx kept_value) a) /\
  assigns_right R ctx kept_value l w.
End Spec.
