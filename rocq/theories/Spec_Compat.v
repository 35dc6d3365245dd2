(** Spec_Compat.v -- what an annotation is to mean on every version of Python. *)
From Verif Require Import Base Py Filler Hints Compat.

Section Spec.
Context {obj ty W : Type} (names : string -> option ty).
Notation written := (@written obj ty W).
Notation typing := (@typing obj ty W).

(** Annotated of Annotated is one Annotated (PEP 593) *)
Definition annotated (y : typing) (ms : list (@meta obj ty W)) : typing :=
  match y with
  | YAnn y' ms' => YAnn y' (ms' ++ ms)
  | _ => YAnn y ms
  end.

(** What is meant, part by part: text is the class of that name, an alias without parameters
    has no arguments *)
Fixpoint intended (w : written) : typing :=
  match w with
  | WClass t => YClass t
  | WNone => YNone
  | WAny => YAny
  | WTypeVar => YTypeVar
  | WEllipsis => YEllipsis
  | WText s => match names s with Some t => YClass t | None => YOther end
  | WNewType w => YNewType (intended w)
  | WBare t _ => YAlias t []
  | WAlias t ws => YAlias t (map intended ws)
  | WCallable _ => YCallable
  | WUnion ws => YUnion (map intended ws)
  | WLiteral lid vals => YLiteral lid vals
  | WAnn w ms => annotated (intended w) ms
  end.

Fixpoint depth (w : written) : nat :=
  match w with
  | WNewType w => S (depth w)
  | WBare _ _ => 1
  | WAlias _ ws | WUnion ws => S (list_max (map depth ws))
  | WAnn w _ => depth w
  | _ => 0
  end.

(** nothing in it is written as text *)
Fixpoint no_text (w : written) : Prop :=
  match w with
  | WText _ => False
  | WNewType w | WAnn w _ => no_text w
  | WAlias _ ws | WUnion ws | WCallable (Some ws) => fold_right (fun w p => no_text w /\ p) True ws
  | _ => True
  end.

(** The annotations that can be written in all versions from [v] on: every Annotated has
    metadata, all names are known, NewTypes are not of text; before 3.9 there is no
    Annotated of Annotated and no text within Annotated, and in 3.7 no Literal *)
Fixpoint fits (v : version) (w : written) : Prop :=
  match w with
  | WText s => names s <> None
  | WNewType w => no_text w /\ fits v w
  | WAlias _ ws | WUnion ws | WCallable (Some ws) => fold_right (fun w p => fits v w /\ p) True ws
  | WLiteral _ _ => v <> V37
  | WAnn w ms => ms <> [] /\ fits v w /\
                 (v = V39 \/ (no_text w /\ match w with WAnn _ _ => False | _ => True end))
  | _ => True
  end.
End Spec.
