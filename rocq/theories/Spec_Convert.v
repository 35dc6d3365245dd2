(** Spec_Convert.v -- a record made from the attributes of another object, as cls.from_instance(v)
    should give it. *)
From Verif Require Import Base Py Select Filler Classes Spec_Classes Runtime Record Spec_Record Spec_Inst Spec_Copy Spec_Keywords.

Section Convert.
Context {obj ty W : Type} (R : Rt obj ty W).
Notation cls := (@cls obj ty W).
Notation inst := (inst obj ty).

(** [v] equals the default of the field *)
Definition like_default (eqb : obj -> obj -> bool) (f : @field obj ty W) (v : obj) : Prop :=
  exists dv, f_default f = DefVal dv /\ eqb dv v = true.

(** the record [j] of the class [c] was made from an object with the attributes [d]: a field has
    what it makes of the attribute of its name; it has its default if there is none, or if the
    attribute equals the default *)
Definition made_from (eqb : obj -> obj -> bool) (c : cls) (d : dict obj) (j : inst) : Prop :=
  forall k f, dget k (c_fields c) = Some f ->
  (exists v y, dget k d = Some v /\ ~ like_default eqb f v /\ settled R c k v (Ok y) /\ dget k (i_dict j) = Some y) \/
  (exists dv, f_default f = DefVal dv /\ dget k (i_dict j) = Some dv /\
     (dget k d = None \/ exists v, dget k d = Some v /\ eqb dv v = true)).

(** the fields of [c] take those attributes that do not equal their default, and have a default
    value if the object has no attribute *)
Definition convertible (eqb : obj -> obj -> bool) (c : cls) (d : dict obj) : Prop :=
  forall k f, dget k (c_fields c) = Some f ->
  match dget k d with
  | Some v => like_default eqb f v \/ exists y, settled R c k v (Ok y)
  | None => exists dv, f_default f = DefVal dv
  end.

(** the class [b] is [c], or a record class that [c] derives from *)
Inductive derives (b : cls) : cls -> Prop :=
| derives_self : derives b b
| derives_base d c p : make_class (rt_py R) d = Ok c -> dict_ok (d_anns d) ->
    (forall q, In (BRecord q) (d_bases d) -> made (rt_py R) q) ->
    In (BRecord p) (d_bases d) -> derives b p -> derives b c.

(** all fields of [c] are fields of [c'], and each of them stores the values of the record [i] of [c],
    and the default that the other has, as they are; the other fields of [c'] have default values *)
Definition interchangeable (c c' : cls) (i : inst) : Prop :=
  (forall k f, dget k (c_fields c) = Some f -> exists f', dget k (c_fields c') = Some f') /\
  (forall k f' , dget k (c_fields c') = Some f' -> dget k (c_fields c) = None -> exists dv, f_default f' = DefVal dv) /\
  (forall k v, In k (keys (c_fields c)) -> dget k (i_dict i) = Some v -> settled R c k v (Ok v) /\ settled R c' k v (Ok v)) /\
  (forall k f' dv, In k (keys (c_fields c)) -> dget k (c_fields c') = Some f' -> f_default f' = DefVal dv -> settled R c k dv (Ok dv)).
End Convert.
