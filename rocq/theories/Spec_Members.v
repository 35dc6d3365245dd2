(** Spec_Members.v -- writing the tokens of a Union on each of its members instead. *)
From Verif Require Import Base Py Filler.

Section Members.
Context {obj ty W : Type}.
Notation token := (@token obj ty W).
Notation hint := (@hint obj ty W).

Definition is_annotated (h : hint) : bool := match h with HAnn _ _ => true | _ => false end.
(** a Union, or a NewType of one *)
Fixpoint is_union (h : hint) : bool := match h with HUnion _ => true | HNewType h' => is_union h' | _ => false end.

(** [member_with ts h h']: [h'] is the member [h] with the tokens [ts] in front of its own.  Members that are
    annotated Unions themselves are left out. *)
Inductive member_with (ts : list token) : hint -> hint -> Prop :=
| mw_plain : forall h, is_annotated h = false -> member_with ts h (HAnn h ts)
| mw_annotated : forall h us, is_annotated h = false -> is_union h = false -> member_with ts (HAnn h us) (HAnn h (ts ++ us)).
End Members.
