(** Spec_Added.v -- annotations with tokens written into them.  Used to say what the
    tokens added by pre_bind amount to; nothing here mentions fillers. *)
From Verif Require Import Base Py Filler.

Section Added.
Context {obj ty W : Type}.
Notation token := (@token obj ty W).
Notation hint := (@hint obj ty W).

(** Annotated[h, *ts, <the tokens h already had>] *)
Fixpoint write_first (ts : list token) (h : hint) : hint :=
  match h with
  | HAnn h' toks => HAnn (write_first ts h') toks
  | _ => HAnn h ts
  end.

(** Annotated[h, <the tokens h already had>, *ts] *)
Definition write_last (ts : list token) (h : hint) : hint := HAnn h ts.

(** The parts of an annotation a sub_key can name: the members of a Union, the positions of
    a Tuple, the elements of Tuple[X, ...] or of a collection (key 0), the keys (0) and the
    values (1) of a mapping. *)
Fixpoint parts (h : hint) : list hint :=
  match h with
  | HAnn h' _ => parts h'
  | HNewType h' => match h' with HAnn _ _ => [] | _ => parts h' end
  | HUnion hs | HTupleN hs => hs
  | HTupleV h' | HIter _ _ h' => [h']
  | HMap _ _ hk hv => [hk; hv]
  | _ => []
  end.

(** [f i] applied to the [i]-th element, for all [i] *)
Section MapI.
Context {A B : Type} (f : nat -> A -> B).
Fixpoint map_i (i : nat) (l : list A) : list B :=
  match l with [] => [] | a :: r => f i a :: map_i (S i) r end.
End MapI.

(** the annotation with [f i] applied to its [i]-th part *)
Fixpoint on_parts (f : nat -> hint -> hint) (h : hint) : hint :=
  match h with
  | HAnn h' toks => HAnn (on_parts f h') toks
  | HNewType h' => HNewType (on_parts f h')
  | HUnion hs => HUnion (map_i f 0 hs)
  | HTupleN hs => HTupleN (map_i f 0 hs)
  | HTupleV h' => HTupleV (f 0 h')
  | HIter rk t h' => HIter rk t (f 0 h')
  | HMap rk t hk hv => HMap rk t (f 0 hk) (f 1 hv)
  | _ => h
  end.

(** whether the annotation is a Union, under its tokens and NewTypes *)
Fixpoint is_union (h : hint) : bool :=
  match h with
  | HAnn h' _ => is_union h'
  | HNewType h' => match h' with HAnn _ _ => false | _ => is_union h' end
  | HUnion _ => true
  | _ => false
  end.

(** whether anything at all is annotated on it *)
Fixpoint unannotated (h : hint) : bool :=
  match h with HAnn h' toks => match toks with [] => unannotated h' | _ => false end | _ => true end.

End Added.
