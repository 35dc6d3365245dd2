(** Spec_Seeds.v -- the same program in another run of Python, where sets of strings are iterated
    in another order (it depends on PYTHONHASHSEED), and what it means that default factories do
    not influence each other. *)
From Verif Require Import Base Py Select Filler Classes Runtime Record.

Section Seeds.
Context {obj ty W : Type}.
(** the order in which a run iterates sets of names *)
Definition orders := { o : W -> list string -> list string | forall w l, Permutation l (o w l) }.
(** the runtime with another order, and nothing else *)
Definition with_order (R : Rt obj ty W) (o : orders) : Rt obj ty W := {|
  rt_py := rt_py R;
  heap := heap R; set_heap := set_heap R; heap_set := heap_set R; set_heap_same := set_heap_same R;
  set_heap_twice := set_heap_twice R; heap_grow := heap_grow R;
  ref := ref R; deref := deref R; deref_ref := deref_ref R;
  type_ref := type_ref R; ref_not_none := ref_not_none R; isinstance_type := isinstance_type R;
  truth := truth R; truth_none := truth_none R;
  v_eq := v_eq R; v_ne := v_ne R; v_cmp := v_cmp R; ext_cmp := ext_cmp R;
  v_hash := v_hash R; tuple_hash := tuple_hash R;
  ext_attr := ext_attr R;
  m_iter := m_iter R; m_item := m_item R;
  unpack := unpack R; as_dict := as_dict R; unpack_ok := unpack_ok R; as_dict_ok := as_dict_ok R;
  json_loads := json_loads R; json_dumps := json_dumps R;
  deep_copy := deep_copy R; pickle_values := pickle_values R;
  set_order := proj1_sig o; set_order_perm := proj2_sig o;
  int_of := int_of R; v_repr := v_repr R; type_name := type_name R
|}.
(** calling [g] before [h] or after it makes no difference *)
Definition commute (g h : M W obj) : Prop :=
  forall w, (let* a := g in let* b := h in ret (a, b)) w = (let* b := h in let* a := g in ret (a, b)) w.
(** the factories of different fields of a class commute *)
Definition independent (c : @cls obj ty W) : Prop :=
  forall k f g k' f' g', dget k (c_fields c) = Some f -> f_default f = DefFactory g ->
    dget k' (c_fields c) = Some f' -> f_default f' = DefFactory g' -> k <> k' -> commute g g'.
(** the same state, but the attributes of the record [x] were set in another order *)
Definition same_but_order (R : Rt obj ty W) (x : obj) (w w' : W) : Prop :=
  exists i d, lookup R w x = Some i /\ lookup R w' x = Some (Inst (i_cls i) d (i_hash i)) /\ Permutation (i_dict i) d /\
    w = store R x i w'.
(** a run that iterates the other way round *)
Definition backwards : orders :=
  exist (fun o => forall w l, Permutation l (o w l)) (fun (_ : W) (l : list string) => rev l) (fun _ l => Permutation_rev l).
End Seeds.
