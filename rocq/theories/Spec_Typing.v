(** Spec_Typing.v -- which objects an annotation describes. *)
From Verif Require Import Base Py Filler Spec_Filler Spec_State.

Section Typing.
Context {obj ty W : Type} (P : Py obj ty W).
Notation token := (@token obj ty W).
Notation hint := (@hint obj ty W).

Definition any_of {A} (p : A -> Prop) : list A -> Prop :=
  fix any l := match l with [] => False | a :: r => p a \/ any r end.

Definition pairwise {A B} (p : A -> B -> Prop) : list A -> list B -> Prop :=
  fix pairs l m :=
    match l, m with
    | [], [] => True
    | a :: r, b :: s => p a b /\ pairs r s
    | _, _ => False
    end.

(** [v] is an instance of class [t] in the sense of style [s]; NoneType and the class of
    Ellipsis have one instance each *)
Definition instance_of (s : style) (t : ty) (v : obj) : Prop :=
  if ty_eqb P t (t_bool P) then class_ok P s t v
  else if ty_eqb P t (t_none P) then checked s (v = o_none P)
  else if ty_eqb P t (t_ellipsis P) then checked s (v = o_ellipsis P)
  else class_ok P s t v.

(** a container's elements are not looked at if their annotation is hollow *)
Definition not_looked_at (dflt : style) (h : hint) : Prop :=
  hollow_hint dflt no_sub_tokens [] [] h = true.

(** The objects that the annotation [h] describes in a class whose default style is [dflt].
    [pre] and [own]: the tokens around [h], of which only checking styles matter here; the
    innermost one counts ([own] before [pre]). *)
Fixpoint belongs (dflt : style) (pre own : list token) (h : hint) (v : obj) : Prop :=
  let s := eff_style dflt (pre ++ own) in
  match h with
  | HAnn h' toks => belongs dflt pre (toks ++ own) h' v
  | HTy t | HBare t => instance_of s t v
  | HNone => checked s (v = o_none P)
  | HCallable => checked s (callable P v = true)
  | HAny => class_ok P s (t_object P) v
  | HNewType h' => match h' with HAnn _ _ => True | _ => belongs dflt pre own h' v end
  | HUnion hs =>
      match hs with
      | [] => True (* no such annotation *)
      | _ => any_of (fun h' => belongs dflt (own ++ pre) [] h' v) hs
      end
  | HLiteral _ vals =>
      checked s (exists l, In l vals /\ type_of P v = type_of P l /\ lit_eq P v l = true)
  | HType base => class_ok P s (t_type P) v /\ checked s (issubclass P v base = Ok true)
  | HTupleN hs =>
      class_ok P s (t_tuple P) v /\
      checked s (exists l, elems P v = Some l /\ pairwise (fun h' e => belongs dflt [] [] h' e) hs l)
  | HTupleV h' =>
      class_ok P s (t_tuple P) v /\
      checked s (not_looked_at dflt h' \/ exists l, elems P v = Some l /\ forall e, In e l -> belongs dflt [] [] h' e)
  | HIter _ t h' =>
      class_ok P s t v /\
      checked s (not_looked_at dflt h' \/ exists l, elems P v = Some l /\ forall e, In e l -> belongs dflt [] [] h' e)
  | HMap _ t hk hv =>
      class_ok P s t v /\
      checked s ((not_looked_at dflt hk /\ not_looked_at dflt hv) \/
                 exists l, items P v = Some l /\
                   forall k e, In (k, e) l -> belongs dflt [] [] hk k /\ belongs dflt [] [] hv e)
  | HGenN t _ => class_ok P s t v
  | HOther => True
  end.

(** [m] accepts exactly the objects in [B] and returns them unchanged *)
Definition accepts_exactly (m : obj -> M W obj) (B : obj -> Prop) : Prop :=
  forall v w, (exists w', m v w = (Ok v, w') /\ B v) \/
              (exists e w', m v w = (Raise e, w') /\ is_Exception e = true /\ ~ B v).

(** [issubclass] and [hash] do not exit the program *)
Definition plain_errors : Prop :=
  (forall v b e, issubclass P v b = Raise e -> is_Exception e = true) /\
  (forall v e, hash_error P v = Some e -> is_Exception e = true).

End Typing.
