(** Spec_Alike.v -- exports that cannot be told apart. *)
From Verif Require Import Base.

Section Spec.
Context {A : Type}.
(** the same names in the same order, with values that are related by [E] *)
Definition alike (E : A -> A -> Prop) (d d' : dict A) : Prop :=
  Forall2 (fun p q => fst p = fst q /\ E (snd p) (snd q)) d d'.
(** both give exports that are alike, or both raise the same error *)
Definition same_result (E : A -> A -> Prop) (o o' : outcome (dict A)) : Prop :=
  match o, o' with
  | Ok d, Ok d' => alike E d d'
  | Raise e, Raise e' => e = e'
  | _, _ => False
  end.
(** the same object, or an equal one *)
Definition same_or_equal (eqb : A -> A -> bool) (a b : A) : Prop := a = b \/ eqb a b = true.
End Spec.
