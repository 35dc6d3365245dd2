(** Spec_Lax.v -- declarations whose meaning can be compared under different type checking
    styles.  Nothing here mentions fillers. *)
From Verif Require Import Base Py Filler Spec_Filler Classes Spec_Settle.

Section Spec.
Context {obj ty W : Type} (P : Py obj ty W).
Notation token := (@token obj ty W).
Notation hint := (@hint obj ty W).

(** there is no Union in the annotation, and its containers are of classes that have no filler
    of their own (all but bool, NoneType and the class of Ellipsis) *)
Fixpoint unionless (h : hint) : Prop :=
  match h with
  | HUnion _ => False
  | HAnn h' _ | HNewType h' => unionless h'
  | HTupleV h' => plain_class P (t_tuple P) /\ unionless h'
  | HIter _ t h' => plain_class P t /\ unionless h'
  | HMap _ t hk hv => plain_class P t /\ unionless hk /\ unionless hv
  | HTupleN hs => plain_class P (t_tuple P) /\ all_p unionless hs
  | _ => True
  end.

(** containers are of such classes *)
Fixpoint plain_containers (h : hint) : Prop :=
  match h with
  | HAnn h' _ | HNewType h' => plain_containers h'
  | HTupleV _ | HTupleN _ => plain_class P (t_tuple P)
  | HIter _ t _ | HMap _ t _ _ => plain_class P t
  | _ => True
  end.

(** the token is no type checking style *)
Definition no_style (t : token) : bool := match t with TStyle _ => false | _ => true end.

(** annotations that accept, if types are checked less strictly, all they accepted and store the same: without
    coercers and Unions, or without coercers and Literals and with validators that only test *)
Definition comparable (h : hint) : Prop :=
  (unionless h /\ has_coercer (hint_tokens h) = false) \/
  (settled_runtime P /\ settling P SStrict [] [] h /\ settling P SCheck [] [] h /\ coercer_free [] h = true /\ has_literal h = false).

(** the class statement with another type_check_style *)
Definition restyled (d : @decl obj ty W) (s : style) : @decl obj ty W :=
  Decl (d_ty d) (d_frozen d) (d_ordered d) (d_unary d) s (d_anns d) (d_inherited_anns d) (d_static d) (d_bases d) (d_prebind d) (d_parsers d) (d_post_new d).

End Spec.
