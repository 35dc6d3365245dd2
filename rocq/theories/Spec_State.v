(** Spec_State.v -- what it means that filling does not depend on what happened before (C14). *)
From Verif Require Import Base Py Filler Spec_Filler.

Section State.
Context {obj ty W : Type} (P : Py obj ty W).
Notation token := (@token obj ty W).
Notation hint := (@hint obj ty W).

(** the same value returned, or an exception raised both times that [except Exception]
    catches both times or neither time *)
Definition same_outcome {A} (o1 o2 : outcome A) : Prop :=
  match o1, o2 with
  | Ok a, Ok b => a = b
  | Raise e, Raise e' => is_Exception e = is_Exception e'
  | _, _ => False
  end.

(** [m] comes to the same in every state of the program *)
Definition state_blind {A} (m : M W A) : Prop :=
  forall w1 w2, same_outcome (fst (m w1)) (fst (m w2)).

(** the callbacks a token stands for are state blind *)
Fixpoint ctoken_blind (c : @ctoken obj ty W) : Prop :=
  match c with
  | CGlobal g => forall o f, g o = Ok f -> forall x, state_blind (f x)
  | CCompose cs => (fix all l := match l with [] => True | c :: r => ctoken_blind c /\ all r end) cs
  | _ => True
  end.

Definition token_blind (t : token) : Prop :=
  match t with
  | TCoerce c => ctoken_blind c
  | TValid (VGlobal g) => forall o f, g o = Ok f -> forall x, state_blind (f x)
  | _ => True
  end.

(** so are the constructors of containers and the comparisons with 0 and 1 *)
Definition runtime_blind : Prop :=
  (forall rk v es, state_blind (rebuild P rk v es)) /\
  (forall rk v es, state_blind (rebuild_map P rk v es)) /\
  (forall v z, state_blind (eq_int P v z)) /\
  (forall v e, hash_error P v = Some e -> is_Exception e = true).

(** a token that adds no coercer and no validator *)
Definition callback_free (t : token) : Prop :=
  match t with TCoerce _ | TValid _ => False | _ => True end.

(** no coercer or validator applies to a Literal; [own]: the tokens around [h] *)
Fixpoint plain_literals (own : list token) (h : hint) : Prop :=
  match h with
  | HAnn h' toks => plain_literals (toks ++ own) h'
  | HNewType h' => plain_literals own h'
  | HUnion hs => (fix all l := match l with [] => True | h :: r => plain_literals own h /\ all r end) hs
  | HLiteral _ _ => Forall callback_free own
  | HTupleN hs | HGenN _ hs => (fix all l := match l with [] => True | h :: r => plain_literals [] h /\ all r end) hs
  | HTupleV h' | HIter _ _ h' => plain_literals [] h'
  | HMap _ _ hk hv => plain_literals [] hk /\ plain_literals [] hv
  | _ => True
  end.

(** no Literal occurs *)
Fixpoint no_literals (h : hint) : Prop :=
  match h with
  | HAnn h' _ | HNewType h' | HTupleV h' | HIter _ _ h' => no_literals h'
  | HUnion hs | HTupleN hs | HGenN _ hs => (fix all l := match l with [] => True | h :: r => no_literals h /\ all r end) hs
  | HMap _ _ hk hv => no_literals hk /\ no_literals hv
  | HLiteral _ _ => False
  | _ => True
  end.

(** no coercer or validator applies to a Literal of a field annotated [h], to which (or to
    whose parts) the tokens [ops] are added later *)
Definition literals_left_alone (h : hint) (ops : list (option nat * token)) : Prop :=
  plain_literals [] h /\ (Forall callback_free (map snd ops) \/ no_literals h).

End State.
