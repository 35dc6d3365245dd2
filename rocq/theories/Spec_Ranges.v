(** Spec_Ranges.v -- what it means that the values of a field are in its range in all records
    of a program. *)
From Verif Require Import Base Py Filler Spec_Filler Classes Spec_Classes Runtime Record Spec_Hist.

Section Ranges.
Context {obj ty W : Type} (R : Rt obj ty W) (ctx : ty -> option (@cls obj ty W)).
Notation P := (rt_py R).
Notation cls := (@cls obj ty W).
Notation decl := (@decl obj ty W).
Notation token := (@token obj ty W).

(** the class [c'] is [c], or one of its record bases descends from [c] *)
Inductive descends (c : cls) : cls -> Prop :=
| descends_self : descends c c
| descends_base d b c' :
    make_class P d = Ok c' -> dict_ok (d_anns d) -> (forall b', In (BRecord b') (d_bases d) -> made P b') ->
    In (BRecord b) (d_bases d) -> descends c b -> descends c c'.

(** the class statement [d] makes the class [c], and has the field [k] of class [t] with the
    tokens [toks], that no pre_bind adds to *)
Record declares (d : decl) (c : cls) (k : string) (t : ty) (toks : list token) : Prop := {
  de_class : make_class P d = Ok c;
  de_anns : dict_ok (d_anns d);
  de_bases : forall b, In (BRecord b) (d_bases d) -> made P b;
  de_field : exists a, dget k (d_anns d) = Some a /\ is_field a = true /\ declared_hint a = HAnn (HTy t) toks;
  de_prebind : ops_for k (d_prebind d) = [];
  de_not_none : t <> t_none P;
  de_not_ellipsis : t <> t_ellipsis P
}.

(** the default of the field [k], if it has one, is good *)
Definition default_is (good : obj -> Prop) (d : decl) (k : string) : Prop :=
  match d_static d k with
  | NoDefault => True
  | DefVal v => good v
  | DefFactory g => forall w y w', g w = (Ok y, w') -> good y
  end.

(** [v] is good, or is not a value of the field [k] of [c] or a class that descends from it *)
Definition good_for (c : cls) (k : string) (good : obj -> Prop) (t : ty) (k' : string) (v : obj) : Prop :=
  k' = k -> forall c', ctx t = Some c' -> descends c c' -> good v.

(** in the state [w], the field [k] of every record of [c], or of a class that descends from
    it, is good *)
Definition good_everywhere (c : cls) (k : string) (good : obj -> Prop) (w : W) : Prop :=
  forall x i c' v, lookup R w x = Some i -> ctx (i_cls i) = Some c' -> descends c c' ->
  dget k (i_dict i) = Some v -> good v.

(** the classes that descend from [c] are frozen *)
Definition frozen_family (c : cls) : Prop := forall t c', ctx t = Some c' -> descends c c' -> c_frozen c' = true.

End Ranges.
