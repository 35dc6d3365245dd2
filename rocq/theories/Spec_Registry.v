(** Spec_Registry.v -- annotations as objects and as trees, fillers by class, and histories of
    registrations. *)
From Verif Require Import Base Py Filler Hints Registry.
Open Scope list_scope.

Section Spec.
Context {O obj ty W : Type} (P : Py obj ty W) (T : @Typing ty).
Context (eqb : O -> O -> bool) (is_type : O -> bool) (issub : O -> O -> outcome bool).
Context (G : O -> option generic_kind) (A : Annots O ty).

(** what is assumed about annotations.  [sub] is issubclass: object is a superclass of every class,
    bool and NoneType have no subclasses. *)
Record lawful (sub : ty -> ty -> bool) : Prop := {
  l_eqb : forall a b, eqb a b = true <-> a = b;
  l_class_inj : forall t u, a_class A t = a_class A u -> t = u;
  l_type : forall o, is_type o = true <-> exists t, o = a_class A t;
  l_sub : forall t u, issub (a_class A t) (a_class A u) = Ok (sub t u);
  l_object : forall t, sub t (t_object P) = true;
  l_bool : forall t, sub t (t_bool P) = true -> t = t_bool P;
  l_none : forall t, sub t (t_none P) = true -> t = t_none P;
  l_four : t_bool P <> t_none P /\ t_bool P <> t_object P /\ t_bool P <> t_ellipsis P /\
           t_none P <> t_object P /\ t_none P <> t_ellipsis P /\ t_object P <> t_ellipsis P;
  (** classes, None, Any and callable are not parametrized and no NewTypes *)
  l_plain : forall o, (exists t, o = a_class A t) \/ o = a_none A \/ o = a_any A \/ o = a_callable A ->
            a_supertype A o = None /\ a_origin A o = None;
  l_apart : is_type (a_none A) = false /\ is_type (a_any A) = false /\ is_type (a_callable A) = false /\
            a_none A <> a_any A /\ a_none A <> a_callable A /\ a_any A <> a_callable A;
  (** Union, Literal and collections.abc.Callable *)
  l_forms : is_type (a_union A) = false /\ is_type (a_literal A) = false /\ a_union A <> a_literal A /\
            a_callable_base A <> a_union A /\ a_callable_base A <> a_literal A /\ a_callable_base A <> a_class A (t_type P);
  l_gmap : forall t, G (a_class A t) = gmap T t
}.

(** no supertype, not one of the objects that checkers compare with, not a class *)
Definition unknown (o : O) : Prop :=
  is_type o = false /\ a_supertype A o = None /\ o <> a_none A /\ o <> a_any A /\ o <> a_callable A.
(** parameters of a form that the library does not know, like Annotated itself *)
Definition unknown_form (o : O) : Prop :=
  exists g, a_origin A o = Some g /\ g <> a_union A /\ g <> a_literal A /\ g <> a_class A (t_type P) /\ g <> a_callable_base A /\
            (exists q, In q (a_args A o) /\ a_typevar A q = false) /\ G g = None.
(** iterables have one parameter and mappings two *)
Definition arity (t : ty) (ps : list (@typing obj ty W)) : Prop :=
  match gmap T t with
  | Some (GIter _) => List.length ps = 1
  | Some (GMap _) => List.length ps = 2
  | _ => True
  end.

(** the object [o] is the annotation that the tree [y] describes, as far as its outermost form *)
Fixpoint pictures (o : O) (y : @typing obj ty W) : Prop :=
  match y with
  | YClass t => o = a_class A t
  | YNone => o = a_none A
  | YAny => o = a_any A
  | YCallable => o = a_callable A \/ (a_supertype A o = None /\ a_origin A o = Some (a_callable_base A))
  | YTypeVar | YEllipsis | YOther => unknown o /\ (a_origin A o = None \/ unknown_form o)
  | YNewType y' => exists s, a_supertype A o = Some s /\ pictures s y'
  | YUnion _ => a_supertype A o = None /\ a_origin A o = Some (a_union A)
  | YLiteral _ _ => a_supertype A o = None /\ a_origin A o = Some (a_literal A)
  | YAlias t ps => a_supertype A o = None /\ a_origin A o = Some (a_class A t) /\ a_class A t <> a_callable_base A /\
                   Forall2 (fun q p => a_typevar A q = true <-> p = YTypeVar) (a_args A o) ps /\ arity t ps
  | YAnn _ _ => unknown o /\ unknown_form o
  end.

(** the class and, where it matters, the origin of a filler *)
Definition is_built (f : @filler obj ty W) (m : made O) : Prop :=
  match f, m with
  | FAnn a, Made c o =>
      match a_kind a with
      | KBool => c = CBool /\ o = a_class A (t_bool P)
      | KNone => c = CNone /\ o = a_class A (t_none P)
      | KEllipsis => c = CEllipsis /\ o = a_class A (t_ellipsis P)
      | KSimple t => c = CSimple /\ o = a_class A t
      | KCallable => c = CCallable
      | KLiteral _ _ => c = CLiteral
      end
  | FDumb _, Dumb _ => True
  | FUnion _ _ _ _, Made c _ => c = CUnion
  | FType _ _ _, Made c _ => c = CType
  | FTupleN _ _ _, Made c _ | FTupleV _ _ _, Made c _ => c = CTuple
  | FIter rk _ _ _, Made c _ => c = CIter rk
  | FMap rk _ _ _ _, Made c _ => c = CMap rk
  | FGenN _ _ _, Made c _ => c = CGenN
  | _, _ => False
  end.

(** annotations that lead to [k]: [k] itself, and those that a checker redirects to one *)
Inductive leads (r : registry O) (k : O) : O -> Prop :=
| Leads_here : leads r k k
| Leads_via : forall o o', find eqb o (fmap r) = None -> ask (checkers r) o = Ok (GetFiller o') -> leads r k o' -> leads r k o.

(** what programs do with the map and the list *)
Inductive event := Register (k : O) (c : fclass) | Append (f : checker O).
Definition happen (r : registry O) (e : event) : registry O :=
  match e with Register k c => register eqb k c r | Append f => append f r end.
Definition history (r : registry O) (es : list event) : registry O := fold_left happen es r.
(** the class last registered for [k] *)
Definition last_for (k : O) (es : list event) : option fclass :=
  fold_left (fun acc e => match e with Register k' c => if eqb k k' then Some c else acc | Append _ => acc end) es None.
(** the checkers appended, in order *)
Definition appended (es : list event) : list (checker O) :=
  flat_map (fun e => match e with Append f => [f] | Register _ _ => [] end) es.
End Spec.
