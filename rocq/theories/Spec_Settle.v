(** Spec_Settle.v -- which declarations are such that a value the field stored can be stored
    again: a copy, a changed copy, an unpickled record and a record made from exported data
    all hand the stored values to the fields a second time.  Nothing here mentions fillers. *)
From Verif Require Import Base Py Filler Spec_Filler Classes.

(** every element satisfies [p] *)
Section AllP.
Context {A : Type} (p : A -> Prop).
Fixpoint all_p (l : list A) : Prop := match l with [] => True | a :: r => p a /\ all_p r end.
End AllP.

Section Spec.
Context {obj ty W : Type} (P : Py obj ty W).
Notation token := (@token obj ty W).
Notation hint := (@hint obj ty W).

(** a test: it looks at nothing but the object, and returns it or raises *)
Definition testing_callback (f : obj -> M W obj) : Prop :=
  exists p : obj -> option exc, forall x w, f x w = (match p x with None => Ok x | Some e => Raise e end, w).

Definition testing (t : token) : Prop :=
  match t with
  | TValid (VGlobal g) => forall o f, g o = Ok f -> testing_callback f
  | _ => True
  end.

(** types are checked *)
Definition checks (s : style) : Prop := s = SCheck \/ s = SStrict.

(** the callables of the token raise Exceptions only (no KeyboardInterrupt, ...) *)
Definition uninterrupted : token -> Prop := token_keeps (fun _ => None).

(** what is under the Annotated, and under the NewType *)
Fixpoint bare (h : hint) : hint := match h with HAnn h' _ | HNewType h' => bare h' | _ => h end.
Definition annotated (h : hint) : bool := match h with HAnn _ _ => true | _ => false end.

(** not a container and not a Union *)
Definition is_leaf (h : hint) : bool :=
  match bare h with HTy _ | HBare _ | HNone | HCallable | HAny | HLiteral _ _ => true | _ => false end.
Definition is_union (h : hint) : bool := match bare h with HUnion _ => true | _ => false end.

Definition coercer_free (ts : list token) (h : hint) : bool := negb (has_coercer (hint_tokens h ++ ts)).

(** [settling d ts own h]: in a class whose default style is [d], the declaration [h] under the
    tokens [ts] and [own] has validators that are tests only, and on containers only if their parts
    have no coercers; its parts are checked; None and callable parts have no coercers (C03); and a
    Union whose members are containers with coercers does not occur in it. *)
Fixpoint settling (d : style) (ts own : list token) (h : hint) : Prop :=
  let all := ts ++ own in
  let s := eff_style d all in
  let part h' := hollow_hint d no_sub_tokens [] [] h' = true \/ settling d [] [] h' in
  let container t parts := plain_class P t /\ checks s /\
    (existsb is_validation all = false \/ Forall testing all /\ forallb (coercer_free []) parts = true) in
  match h with
  | HAnn h' toks => settling d ts (toks ++ own) h'
  | HNewType h' => annotated h' <> true /\ settling d ts own h'
  | HTy t | HBare t => t <> t_none P /\ t <> t_ellipsis P /\ checks s /\ Forall testing all
  | HAny => plain_class P (t_object P) /\ checks s /\ Forall testing all
  | HNone | HCallable => checks s /\ has_coercer all = false /\ Forall testing all
  | HLiteral _ _ | HType _ => checks s /\ Forall testing all
  | HIter _ t h' => container t [h'] /\ part h'
  | HTupleV h' => container (t_tuple P) [h'] /\ part h'
  | HMap _ t hk hv =>
      container t [hk; hv] /\
      (hollow_hint d no_sub_tokens [] [] hk && hollow_hint d no_sub_tokens [] [] hv = true \/
       (settling d [] [] hk /\ settling d [] [] hv))
  | HTupleN hs => container (t_tuple P) hs /\ all_p (settling d [] []) hs
  | HUnion hs =>
      hs <> [] /\ Forall uninterrupted (flat_map hint_tokens hs ++ own ++ ts) /\
      all_p (fun h' => is_union h' = false /\
                       (is_leaf h' = true \/ coercer_free (own ++ ts) h' = true) /\
                       settling d (own ++ ts) [] h') hs
  | _ => False
  end.

(** whether a Literal occurs in the annotation *)
Fixpoint has_literal (h : hint) : bool :=
  match h with
  | HLiteral _ _ => true
  | HAnn h' _ | HNewType h' | HTupleV h' | HIter _ _ h' => has_literal h'
  | HUnion hs | HTupleN hs | HGenN _ hs => existsb has_literal hs
  | HMap _ _ hk hv => has_literal hk || has_literal hv
  | _ => false
  end.

(** no Union in the annotation has coercers or Literals: then storing a stored value again
    runs no coercer at all *)
Fixpoint quiet (ts own : list token) (h : hint) : bool :=
  match h with
  | HAnn h' toks => quiet ts (toks ++ own) h'
  | HNewType h' => quiet ts own h'
  | HTupleV h' | HIter _ _ h' => quiet [] [] h'
  | HMap _ _ hk hv => quiet [] [] hk && quiet [] [] hv
  | HTupleN hs => forallb (quiet [] []) hs
  | HUnion hs => negb (has_coercer (flat_map hint_tokens hs ++ own ++ ts)) && negb (existsb has_literal hs)
  | _ => true
  end.

(** the constructors of container classes return containers *)
Definition readable_containers : Prop :=
  (forall rk v es w r w', rebuild P rk v es w = (Ok r, w') -> exists l, elems P r = Some l) /\
  (forall rk v es w r w', rebuild_map P rk v es w = (Ok r, w') -> exists l, items P r = Some l).

(** what is assumed of the run time: containers that keep what they are given, and no
    KeyboardInterrupt or the like *)
Definition settled_runtime : Prop :=
  honest_containers P /\ readable_containers /\ runtime_keeps P (fun _ => None).

(** the field was declared with an annotation [h], and with tokens [ts] of a pre_bind, that settle,
    or that neither check nor validate anything *)
Definition settling_field (f : @field obj ty W) : Prop :=
  exists d h ts, make_filler P d h (own_only ts) = Ok (f_filler f) /\
    (settling d ts [] h /\ quiet ts [] h = true \/
     hollow_hint d no_sub_tokens ts [] h = true /\ unvalidated no_sub_tokens ts [] h = true).

End Spec.
