(** Spec_Sorting.v -- what it means that records are sorted. *)
From Verif Require Import Base Py Select Filler Classes Spec_Classes Runtime Record Sorting Spec_Record Spec_Inst.

Section Spec.
Context {obj ty W : Type} (R : Rt obj ty W) (ctx : ty -> option (@cls obj ty W)).
Notation cls := (@cls obj ty W).
Context (eqb ltb : obj -> obj -> bool) (D : string -> obj -> Prop).

(** [x] is in [w] an instance of [c] whose fields can be ordered *)
Definition sortable (c : cls) (w : W) (x : obj) : Prop :=
  exists i, instance_of R ctx c w x i /\ forall k v, In k (ordering_fields c) -> dget k (i_dict i) = Some v -> D k v.

(** [x] is less than [y], lexicographically by the fields that ordering looks at; or is equal in these *)
Definition less (c : cls) (w : W) (x y : obj) : Prop :=
  exists i j, lookup R w x = Some i /\ lookup R w y = Some j /\ lex_less eqb ltb (ordering_fields c) i j.
Definition ties (c : cls) (w : W) (x y : obj) : Prop :=
  exists i j, lookup R w x = Some i /\ lookup R w y = Some j /\ lex_equal eqb (ordering_fields c) i j.

(** no record is less than one before it *)
Inductive ascending (c : cls) (w : W) : list obj -> Prop :=
| asc_nil : ascending c w []
| asc_cons x r : (forall y, In y r -> ~ less c w y x) -> ascending c w r -> ascending c w (x :: r).

(** records that are equal in what ordering looks at are in [r] in the order they had in [l] *)
Definition same_order_of_ties (c : cls) (w : W) (l r : list obj) : Prop :=
  forall p : obj -> bool, (forall x y, In x l -> In y l -> p x = true -> p y = true -> ties c w x y) ->
  filter p r = filter p l.

End Spec.

(** Ways to sort that are right for everything that can be sorted, not only for records. *)
Section Strategies.
Context {obj : Type}.

(** a strict weak order of the elements of [l]: what sorted() needs *)
Definition weak_order (l : list obj) (lt : obj -> obj -> bool) : Prop :=
  (forall x, In x l -> lt x x = false) /\
  (forall x y z, In x l -> In y l -> In z l -> lt x y = true -> lt y z = true -> lt x z = true) /\
  (forall x y z, In x l -> In y l -> In z l -> lt x y = false -> lt y z = false -> lt x z = false).

(** [r] has the elements of [l], none less than one before it, and elements neither of which is
    less in their former order *)
Definition sorted_stably (lt : obj -> obj -> bool) (l r : list obj) : Prop :=
  Permutation l r /\
  (forall before x after y, r = before ++ x :: after -> In y after -> lt y x = false) /\
  (forall p : obj -> bool, (forall x y, In x l -> In y l -> p x = true -> p y = true -> lt x y = false) -> filter p r = filter p l).

(** what comes out if the questions are answered by [lt] *)
Fixpoint outcome_of (lt : obj -> obj -> bool) (s : strategy) : list obj :=
  match s with Done r => r | Ask x y yes no => if lt x y then outcome_of lt yes else outcome_of lt no end.
(** it asks about elements of [l] only *)
Fixpoint asks_about (l : list obj) (s : strategy) : Prop :=
  match s with Done _ => True | Ask x y yes no => In x l /\ In y l /\ asks_about l yes /\ asks_about l no end.

(** a right way to sort [l] *)
Definition sorts (l : list obj) (s : strategy) : Prop :=
  asks_about l s /\ forall lt, weak_order l lt -> sorted_stably lt l (outcome_of lt s).

End Strategies.
