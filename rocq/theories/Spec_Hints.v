(** Spec_Hints.v -- what annotations mean to their reader, and which of them a class that
    checks types can have. *)
From Verif Require Import Base Py Filler Hints Spec_Filler Spec_State Spec_Typing.

Section Meaning.
Context {obj ty W : Type} (P : Py obj ty W) (T : @Typing ty).
Notation typing := (@typing obj ty W).
Notation meta := (@meta obj ty W).

(** ** What typing says an annotation means *)

(** the class [v] is one that Type[p] means *)
Fixpoint class_fits (p : typing) (v : obj) : Prop :=
  match p with
  | YClass b => issubclass P v b = Ok true
  | YAny | YTypeVar => True
  | YUnion ys => any_of (fun p' => class_fits p' v) ys
  | YNewType p' | YAnn p' _ => class_fits p' v
  | _ => False
  end.

(** [describes is_a y v]: the annotation [y] describes [v], [is_a v t] being what it takes to
    count as an object of class [t].  Parameters that cannot be checked (Iterable[int]) say
    nothing here. *)
Fixpoint describes (is_a : obj -> ty -> Prop) (y : typing) (v : obj) : Prop :=
  match y with
  | YClass t => is_a v t
  | YNone => v = o_none P
  | YAny => True
  | YCallable => callable P v = true
  | YNewType y' | YAnn y' _ => describes is_a y' v
  | YUnion ys => any_of (fun y' => describes is_a y' v) ys
  | YLiteral _ vals => exists l, In l vals /\ type_of P v = type_of P l /\ lit_eq P v l = true
  | YAlias t ps =>
      is_a v t /\
      if has_args ps then
        if ty_eqb P t (t_type P) then match ps with p :: _ => class_fits p v | [] => True end
        else
          match gmap T t, ps with
          | Some GTuple, [p; YEllipsis] => exists l, elems P v = Some l /\ forall e, In e l -> describes is_a p e
          | Some GTuple, _ => exists l, elems P v = Some l /\ pairwise (fun p e => describes is_a p e) ps l
          | Some (GIter _), p :: _ => exists l, elems P v = Some l /\ forall e, In e l -> describes is_a p e
          | Some (GMap _), [k; x] =>
              exists l, items P v = Some l /\
                forall a b, In (a, b) l -> describes is_a k a /\ describes is_a x b
          | _, _ => True
          end
      else True
  | YTypeVar | YEllipsis | YOther => True
  end.

(** objects of a class: the instances of the class and its subclasses, or only those whose
    type is that very class *)
Definition an_instance (v : obj) (t : ty) : Prop := isinstance P v t = true.
Definition exactly_a (v : obj) (t : ty) : Prop := type_of P v = t.

(** ** Restrictions *)

(** every part of an annotation has the property [p] *)
Fixpoint every (p : typing -> Prop) (y : typing) : Prop :=
  p y /\
  match y with
  | YNewType y' | YAnn y' _ => every p y'
  | YUnion ys | YAlias _ ys => (fix all l := match l with [] => True | y' :: r => every p y' /\ all r end) ys
  | _ => True
  end.

(** no tokens: the metadata are doc strings, tags and the like *)
Definition bare : typing -> Prop :=
  every (fun y => match y with YAnn _ ms => Forall (eq MOther) ms | _ => True end).

(** a Union has members *)
Definition proper : typing -> Prop :=
  every (fun y => match y with YUnion ys => ys <> [] | _ => True end).

(** Type[..] is only used with classes *)
Definition types_of_classes : typing -> Prop :=
  every (fun y => match y with
                  | YAlias t ps => t = t_type P -> has_args ps = true -> exists b, ps = [YClass b]
                  | _ => True
                  end).

(** nothing is Annotated *)
Definition unannotated : typing -> Prop :=
  every (fun y => match y with YAnn _ _ => False | _ => True end).

Definition any_free : typing -> Prop := every (fun y => y <> YAny).

(** ** The run time *)

(** what Python guarantees about isinstance and type; genric_origin_map has TupleFiller for
    tuple only *)
Record sane : Prop := {
  sane_own : forall v, isinstance P v (type_of P v) = true;
  sane_object : forall v, isinstance P v (t_object P) = true;
  sane_none : forall v, isinstance P v (t_none P) = true -> v = o_none P;
  sane_none_type : type_of P (o_none P) = t_none P;
  sane_ellipsis : forall v, isinstance P v (t_ellipsis P) = true -> v = o_ellipsis P;
  sane_ellipsis_type : type_of P (o_ellipsis P) = t_ellipsis P;
  sane_errors : plain_errors P;
  sane_tuple : forall t, gmap T t = Some GTuple -> t = t_tuple P
}.

(** ** Which annotations a class that checks types can have *)

(** [supported strict y]: all parts of the annotation are understood.  Refused are type
    variables inside known generics, NewTypes over Annotated, generic classes whose parameters
    cannot be checked, whatever is not a type, and, if classes are compared strictly, abstract
    classes. *)
Fixpoint supported (strict : bool) (y : typing) : Prop :=
  let usable t := strict = true -> isabstract P t = false in
  let all := fix all l := match l with [] => True | y' :: r => supported strict y' /\ all r end in
  match y with
  | YClass t => usable t
  | YNone => usable (t_none P)
  | YAny => usable (t_object P)
  | YCallable | YLiteral _ _ => True
  | YTypeVar | YEllipsis | YOther => False
  | YNewType (YAnn _ _) => False
  | YNewType y' => supported strict y'
  | YAnn y' _ => supported strict y'
  | YUnion ys => all ys
  | YAlias t ps =>
      usable t /\
      if has_args ps then
        if ty_eqb P t (t_type P) then True
        else
          match gmap T t, ps with
          | Some GTuple, [p; YEllipsis] => supported strict p
          | Some GTuple, _ => all ps
          | Some (GIter _), p :: _ => supported strict p
          | Some (GMap _), [k; x] => supported strict k /\ supported strict x
          | _, _ => False
          end
      else True
  end.

(** ** Rewriting annotations *)

(** without doc strings, tags and the like, and without functions that functools.wraps was
    applied to and that return None *)
Definition is_other (m : meta) : bool := match m with MOther | MWrapped (Ok MadeNone) => true | _ => false end.

Fixpoint without_docs (y : typing) : typing :=
  match y with
  | YNewType y' => YNewType (without_docs y')
  | YUnion ys => YUnion (map without_docs ys)
  | YAlias t ps => YAlias t (map without_docs ps)
  | YAnn y' ms =>
      match filter (fun m => negb (is_other m)) ms with
      | [] => without_docs y'
      | ms' => YAnn (without_docs y') ms'
      end
  | _ => y
  end.

(** with the type a NewType was made from in its place *)
Fixpoint expand (y : typing) : typing :=
  match y with
  | YNewType y' => expand y'
  | YUnion ys => YUnion (map expand ys)
  | YAlias t ps => YAlias t (map expand ps)
  | YAnn y' ms => YAnn (expand y') ms
  | _ => y
  end.

(** with token classes and coercer factories called *)
Definition call_token (m : meta) : meta :=
  match m with
  | MCoercerClass (Ok c) => MCoercer c
  | MValidatorClass (Ok v) => MValidator v
  | MWrapped (Ok (MadeCoercer c)) => MCoercer c
  | MWrapped (Ok (MadeValidator v)) => MValidator v
  | _ => m
  end.

Fixpoint called (y : typing) : typing :=
  match y with
  | YNewType y' => YNewType (called y')
  | YUnion ys => YUnion (map called ys)
  | YAlias t ps => YAlias t (map called ps)
  | YAnn y' ms => YAnn (called y') (map call_token ms)
  | _ => y
  end.

(** no NewType was made from an Annotated; Annotated is not nested, as typing flattens it;
    neither wraps a type variable *)
Definition tidy : typing -> Prop :=
  every (fun y => match y with
                  | YNewType y' | YAnn y' _ =>
                      match y' with YAnn _ _ | YTypeVar | YEllipsis => False | _ => True end
                  | _ => True
                  end).

(** no validation token is made by a function that functools.wraps was applied to *)
Definition no_validator_factories : typing -> Prop :=
  every (fun y => match y with
                  | YAnn _ ms => Forall (fun m => forall v, m <> MWrapped (Ok (MadeValidator v))) ms
                  | _ => True
                  end).

(** ** Compose *)

(** the coercer that an argument of Compose stands for *)
Inductive stands_for : meta -> ctoken -> Prop :=
| stands_instance c : stands_for (MCoercer c) c
| stands_class c : stands_for (MCoercerClass (Ok c)) c
| stands_factory c : stands_for (MWrapped (Ok (MadeCoercer c))) c.

(** arguments that stand for none: styles, validation tokens, functions that return None, and
    whatever is no token *)
Definition no_coercer (m : meta) : Prop :=
  match m with
  | MStyle _ | MValidator _ | MValidatorClass _ | MOther | MWrapped (Ok MadeNone) => True
  | _ => False
  end.

End Meaning.
