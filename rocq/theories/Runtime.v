(** Runtime.v -- the Python run time as record instances see it: objects on the heap,
    attribute access, truth, comparison, hashing, mappings, JSON, copying and pickling.

    As in Py.v, everything that can run user code is an arbitrary computation over the
    program state [W]. *)
From Verif Require Import Base Py.

(** The [_hash] slot of an instance (records/record.py:57): not set, None, an int, or
    something that is not an int. *)
Inductive slot := SUnset | SNone | SHash (z : Z) | SBad.

(** A record instance on the heap: its class, its __dict__ and its _hash slot *)
Record inst (obj ty : Type) := Inst {
  i_cls : ty;
  i_dict : dict obj;
  i_hash : slot
}.
Arguments Inst {obj ty}.
Arguments i_cls {obj ty}.
Arguments i_dict {obj ty}.
Arguments i_hash {obj ty}.

(** <, <=, >, >= *)
Inductive cmp := CLt | CLe | CGt | CGe.

Record Rt (obj ty W : Type) := {
  rt_py : Py obj ty W;
  (** the record instances that exist, a part of the program state *)
  heap : W -> list (inst obj ty);
  set_heap : list (inst obj ty) -> W -> W;
  heap_set : forall h w, heap (set_heap h w) = h;
  set_heap_same : forall w, set_heap (heap w) w = w;
  set_heap_twice : forall h h' w, set_heap h (set_heap h' w) = set_heap h w;
  heap_grow : forall l t w, heap (lit_grow rt_py l t w) = heap w;
  (** references to them *)
  ref : ty -> nat -> obj;
  deref : obj -> option nat;
  deref_ref : forall t n, deref (ref t n) = Some n;
  type_ref : forall t n, type_of rt_py (ref t n) = t;
  ref_not_none : forall t n, ref t n <> o_none rt_py;
  isinstance_type : forall x, isinstance rt_py x (type_of rt_py x) = true;
  (** [bool(x)] *)
  truth : obj -> M W bool;
  truth_none : truth (o_none rt_py) = ret false;
  (** [x == y] and [x != y] in a condition *)
  v_eq : obj -> obj -> M W bool;
  v_ne : obj -> obj -> M W bool;
  (** [x < y] etc. in a condition *)
  v_cmp : cmp -> obj -> obj -> M W bool;
  (** the comparison method of an object that is not a record; None is NotImplemented *)
  ext_cmp : cmp -> obj -> obj -> M W (option bool);
  (** [hash(x)], and the hash of a tuple, which depends on the hashes of its elements only *)
  v_hash : obj -> M W Z;
  tuple_hash : list Z -> Z;
  (** [getattr(x, name)] for a name that is not in the __dict__ of a record instance *)
  ext_attr : obj -> string -> M W obj;
  (** [for k in m] and [m[k]] for a mapping.  Simplification: keys are strings; iterating
      over other keys is taken to raise. *)
  m_iter : obj -> M W (list string);
  m_item : obj -> string -> M W obj;
  (** calling with [** m] and [dict(m)]: the keywords or items *)
  unpack : obj -> M W (dict obj);
  as_dict : obj -> M W (dict obj);
  unpack_ok : forall x w d w', unpack x w = (Ok d, w') -> dict_ok d;
  as_dict_ok : forall x w d w', as_dict x w = (Ok d, w') -> dict_ok d;
  (** the json and pickle modules and copy.deepcopy.  [deep_copy] and [pickle_values] copy
      several objects with one memo. *)
  json_loads : obj -> M W obj;
  json_dumps : dict obj -> M W obj;
  deep_copy : list obj -> M W (list obj);
  pickle_values : list obj -> M W (list obj);
  (** the order in which a set of names is iterated; it may be different every time *)
  set_order : W -> list string -> list string;
  set_order_perm : forall w l, Permutation l (set_order w l);
  (** the value of an int object *)
  int_of : obj -> option Z;
  (** [repr(x)] and [type.__qualname__] *)
  v_repr : obj -> M W string;
  type_name : ty -> string
}.
Arguments rt_py {obj ty W} r.
Arguments heap {obj ty W} r.
Arguments set_heap {obj ty W} r.
Arguments heap_set {obj ty W} r.
Arguments set_heap_same {obj ty W} r.
Arguments set_heap_twice {obj ty W} r.
Arguments heap_grow {obj ty W} r.
Arguments ref {obj ty W} r.
Arguments deref {obj ty W} r.
Arguments deref_ref {obj ty W} r.
Arguments type_ref {obj ty W} r.
Arguments ref_not_none {obj ty W} r.
Arguments isinstance_type {obj ty W} r.
Arguments truth {obj ty W} r.
Arguments truth_none {obj ty W} r.
Arguments v_eq {obj ty W} r.
Arguments v_ne {obj ty W} r.
Arguments v_cmp {obj ty W} r.
Arguments ext_cmp {obj ty W} r.
Arguments v_hash {obj ty W} r.
Arguments tuple_hash {obj ty W} r.
Arguments ext_attr {obj ty W} r.
Arguments m_iter {obj ty W} r.
Arguments m_item {obj ty W} r.
Arguments unpack {obj ty W} r.
Arguments as_dict {obj ty W} r.
Arguments unpack_ok {obj ty W} r.
Arguments as_dict_ok {obj ty W} r.
Arguments json_loads {obj ty W} r.
Arguments json_dumps {obj ty W} r.
Arguments deep_copy {obj ty W} r.
Arguments pickle_values {obj ty W} r.
Arguments set_order {obj ty W} r.
Arguments set_order_perm {obj ty W} r.
Arguments int_of {obj ty W} r.
Arguments v_repr {obj ty W} r.
Arguments type_name {obj ty W} r.
