(** Py.v -- the Python run time as the fillers of records/fillers see it.

    [obj] are Python objects, [ty] are classes, [W] is the state of the program
    (everything user code can read and change).  All theorems are quantified
    over all three and over an arbitrary [Py], i.e. over arbitrary classes,
    containers, literals and user callables. *)
From Verif Require Import Base.

(** How [reconstruct] calls the constructor of a container
    (records/fillers/builtin_fillers/typing_fillers.py:260-267, 305-306, 320-327, 366-367) *)
Inductive rebuild_kind :=
| RkPlain        (* type(initial)(elements) *)
| RkDeque        (* type(initial)(elements, initial.maxlen) *)
| RkDefaultDict. (* type(initial)(initial.default_factory, tuples) *)

Record Py (obj ty W : Type) := {
  (** [x is y] *)
  py_is : obj -> obj -> bool;
  py_isP : forall x y, reflect (x = y) (py_is x y);
  (** [t == u] for classes *)
  ty_eqb : ty -> ty -> bool;
  ty_eqP : forall t u, reflect (t = u) (ty_eqb t u);
  (** [type(x)] *)
  type_of : obj -> ty;
  (** [isinstance(x, t)]; the class may define __instancecheck__, but its answer
      for an object never changes *)
  isinstance : obj -> ty -> bool;
  (** [inspect.isabstract(t)] *)
  isabstract : ty -> bool;
  (** [callable(x)] *)
  callable : obj -> bool;
  (** [issubclass(v, t)] for a [v] that is itself a class; may raise *)
  issubclass : obj -> ty -> outcome bool;
  (** singletons and the classes with fillers of their own
      (records/fillers/builtin_fillers/std_fillers.py:358-363) *)
  o_none : obj;
  o_ellipsis : obj;
  o_true : obj;
  o_false : obj;
  t_bool : ty;
  t_none : ty;
  t_ellipsis : ty;
  t_object : ty;
  t_tuple : ty;
  t_type : ty;
  (** [v in {l}] for values of literal types (int, str, bytes, bool, Enum, None) *)
  lit_eq : obj -> obj -> bool;
  (** what [hash(x)] raises, if it does *)
  hash_error : obj -> option exc;
  (** [v == 0] and [v == 1], used by FromInteger; may raise *)
  eq_int : obj -> Z -> M W bool;
  (** the elements a for loop over a container yields / the pairs of [items()];
      None if it is not iterable / has no items().  Simplification: containers
      are not mutated while they are being filled, so that iterating twice, or
      slicing, sees the same elements. *)
  elems : obj -> option (list obj);
  items : obj -> option (list (obj * obj));
  (** [reconstruct]: the constructor of the container's class is called with the
      new elements (pairs).  Simplification: the elements are evaluated before
      the call, not lazily by it. *)
  rebuild : rebuild_kind -> obj -> list obj -> M W obj;
  rebuild_map : rebuild_kind -> obj -> list (obj * obj) -> M W obj;
  (** the classes that were added to the [possible_values] defaultdict of the
      Literal filler with the given number since it was created
      (typing_fillers.py:96, 111: indexing a defaultdict adds the key), and adding one.
      No theorem needs to know that what was added is found there later. *)
  lit_grown : nat -> W -> list ty;
  lit_grow : nat -> ty -> W -> W
}.
Arguments py_is {obj ty W} p.
Arguments py_isP {obj ty W} p.
Arguments ty_eqb {obj ty W} p.
Arguments ty_eqP {obj ty W} p.
Arguments type_of {obj ty W} p.
Arguments isinstance {obj ty W} p.
Arguments isabstract {obj ty W} p.
Arguments callable {obj ty W} p.
Arguments issubclass {obj ty W} p.
Arguments o_none {obj ty W} p.
Arguments o_ellipsis {obj ty W} p.
Arguments o_true {obj ty W} p.
Arguments o_false {obj ty W} p.
Arguments t_bool {obj ty W} p.
Arguments t_none {obj ty W} p.
Arguments t_ellipsis {obj ty W} p.
Arguments t_object {obj ty W} p.
Arguments t_tuple {obj ty W} p.
Arguments t_type {obj ty W} p.
Arguments lit_eq {obj ty W} p.
Arguments hash_error {obj ty W} p.
Arguments eq_int {obj ty W} p.
Arguments elems {obj ty W} p.
Arguments items {obj ty W} p.
Arguments rebuild {obj ty W} p.
Arguments rebuild_map {obj ty W} p.
Arguments lit_grown {obj ty W} p.
Arguments lit_grow {obj ty W} p.
