(** Extras.v -- the modules that the library uses: records/extras.py:1-17, and where it asks for
    them: records/record.py:505-566, 625-642, records/fillers/builtin_validators.py:150.
    Runtime.v and Streams.v have fixed functions for json and pickle; here these are looked
    up in records.extras at each call. *)
From Verif Require Import Base Py Filler Classes Runtime Record Streams Tokens.

Section Extras.
Context {obj ty W : Type}.

(** modules that can be json, pickle and re, with what the library calls of them: loads, load,
    dumps and dump as far as Runtime.v and Streams.v need them.  [re_compile p] gives
    [bool(pattern.fullmatch(v))] of the pattern made of p. *)
Record json_module := {
  j_loads : obj -> M W obj;
  j_dumps : dict obj -> M W obj;
  j_pieces : dict obj -> list obj -> dict obj -> M W (@pieces W);
  j_parse : obj -> dict obj -> M W obj
}.
Record pickle_module := {
  p_values : list obj -> M W (list obj);
  p_pieces : obj -> list obj -> dict obj -> M W (@pieces W);
  p_parse : list obj -> dict obj -> M (W * string) obj
}.
Record re_module := { re_compile : obj -> M W (obj -> M W bool) }.

(** the modules that exist, and those that records.extras.json, .pickle and .re are at the
    moment *)
Record Extras := {
  json_modules : nat -> json_module;
  pickle_modules : nat -> pickle_module;
  re_modules : nat -> re_module;
  extras_json : W -> nat;
  extras_pickle : W -> nat;
  extras_re : W -> nat;
  (** [records.extras.json = m] etc. *)
  put_json : nat -> W -> W;
  put_pickle : nat -> W -> W;
  put_re : nat -> W -> W
}.
Context (E : Extras).

(** extras.json.loads(..), extras.json.dumps(..) and pickle, record.py:505, 522, 541, 563,
    625-626, 641-642: the module is looked up, then its function is called *)
Definition with_extras (R : Rt obj ty W) : Rt obj ty W := {|
  rt_py := rt_py R;
  heap := heap R; set_heap := set_heap R; heap_set := heap_set R; set_heap_same := set_heap_same R;
  set_heap_twice := set_heap_twice R; heap_grow := heap_grow R;
  ref := ref R; deref := deref R; deref_ref := deref_ref R;
  type_ref := type_ref R; ref_not_none := ref_not_none R; isinstance_type := isinstance_type R;
  truth := truth R; truth_none := truth_none R;
  v_eq := v_eq R; v_ne := v_ne R; v_cmp := v_cmp R; ext_cmp := ext_cmp R;
  v_hash := v_hash R; tuple_hash := tuple_hash R;
  ext_attr := ext_attr R;
  m_iter := m_iter R; m_item := m_item R;
  unpack := unpack R; as_dict := as_dict R; unpack_ok := unpack_ok R; as_dict_ok := as_dict_ok R;
  json_loads := fun x w => j_loads (json_modules E (extras_json E w)) x w;
  json_dumps := fun d w => j_dumps (json_modules E (extras_json E w)) d w;
  deep_copy := deep_copy R;
  pickle_values := fun l w => p_values (pickle_modules E (extras_pickle E w)) l w;
  set_order := set_order R; set_order_perm := set_order_perm R;
  int_of := int_of R; v_repr := v_repr R; type_name := type_name R
|}.
Definition codecs_of_extras (text_obj : string -> obj) : @Codecs obj W := {|
  text := text_obj;
  json_pieces := fun d args kw w => j_pieces (json_modules E (extras_json E w)) d args kw w;
  json_parse := fun v kw w => j_parse (json_modules E (extras_json E w)) v kw w;
  pickle_pieces := fun x args kw w => p_pieces (pickle_modules E (extras_pickle E w)) x args kw w;
  pickle_parse := fun args kw wc => p_parse (pickle_modules E (extras_pickle E (fst wc))) args kw wc
|}.

(** FullMatch(pattern, ...) -- builtin_validators.py:141-153: compiled when the token is made *)
Definition new_full_match (X : Ops obj ty W) (pattern : obj) (a : assert_args) : M W (obj -> M W obj) :=
  fun w => match re_compile (re_modules E (extras_re E w)) pattern w with
           | (Ok fullmatch, w1) => (Ok (full_match X fullmatch a), w1)
           | (Raise e, w1) => (Raise e, w1)
           end.
End Extras.
