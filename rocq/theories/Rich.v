(** Rich.v -- p == x and p != x for a record and any other object, as Python evaluates them
    (records/record.py:281-289; RecordBase defines no __ne__).

    Python asks the left operand, or first the right one if its class is a proper subclass; an
    answer NotImplemented makes it ask the other one; if both answer so, objects are equal if
    they are the same.  What objects that are not records answer is a parameter. *)
From Verif Require Import Base Py Select Filler Classes Runtime Record.

Section Rich.
Context {obj ty W : Type} (R : Rt obj ty W) (ctx : ty -> option (@cls obj ty W)).
Notation P := (rt_py R).
(** x.__eq__(y) and x.__ne__(y) of an object that is not a record; None is NotImplemented *)
Context (ext_eq ext_ne : obj -> obj -> M W (option bool)).

(** x.__eq__(y) -- records/record.py:281-289 for records, which never answer NotImplemented *)
Definition eq_method (x y : obj) : M W (option bool) :=
  fun w => match class_of R ctx x w with
  | None => ext_eq x y w
  | Some _ => (let* b := record_eq R ctx x y in ret (Some b)) w
  end.
(** x.__ne__(y): that of records is object.__ne__, which negates what __eq__ answers *)
Definition ne_method (x y : obj) : M W (option bool) :=
  fun w => match class_of R ctx x w with
  | None => ext_ne x y w
  | Some _ => (let* b := eq_method x y in ret (option_map negb b)) w
  end.

(** asking both operands *)
Definition ask (method : obj -> obj -> M W (option bool)) (otherwise : bool) (x y : obj) : M W bool :=
  let then_ask a b := let* r := method a b in match r with Some v => ret v | None => ret otherwise end in
  if isinstance P y (type_of P x) && negb (ty_eqb P (type_of P y) (type_of P x)) then
    let* r := method y x in match r with Some v => ret v | None => then_ask x y end
  else
    let* r := method x y in match r with Some v => ret v | None => then_ask y x end.
(** x == y and x != y, in a condition *)
Definition py_eq (x y : obj) : M W bool := ask eq_method (py_is P x y) x y.
Definition py_ne (x y : obj) : M W bool := ask ne_method (negb (py_is P x y)) x y.

End Rich.
