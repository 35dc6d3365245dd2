# Formal model of bentheiii/Records in Rocq

`/repo/records` (pure Python) is modelled function by function in Gallina
(`rocq/theories`, logical name `Verif`), and the properties of
`properties.jsonl` are proved about that model.  `/repo` is not changed and not
executed.

## 1. Approach

* **Shallow, executable model.**  Each Python function becomes a Gallina
  function with the same branches in the same order.  Exceptions are values
  (`outcome`), side effects go through a state monad `M W A := W -> outcome A * W`.
  A Python call that raises keeps the effects it had before raising.
* **User code is arbitrary.**  Coercers, validators, parsers, `post_new`,
  default factories, `==`, `hash`, `<`, `getattr`, constructors and
  `json` are parameters of type `obj -> M W obj` (or similar): every theorem
  is universally quantified over them, over the type `obj` of Python objects,
  over the type `ty` of classes and over the state of user code.  Hypotheses
  about user code ("the filler returns stored values unchanged", "== is an
  equivalence") are spelled out in the theorem that needs them.
* **Identity.**  `is` is decidable equality on `obj`.
* **Fuel.**  The only genuinely unbounded recursion (the constructor calling
  `parse`, which calls factories, which call the constructor) takes a stack
  depth; running out raises `RecursionError`, as CPython does.  Theorems hold
  for every depth.
* **Refuted properties.**  Where reading the code shows that a property a user
  would rely on is false, the property stays in `properties.jsonl`, the theorem
  `..._refuted` proves its negation on a concrete program (replayed inside the
  model), and a `..._partial` theorem proves the largest part that does hold.

## 2. Files

Model:

| file | contents |
|---|---|
| `Base.v` | exceptions, monads, insertion-ordered dicts |
| `Select.v` | `records/select.py`: Select, merge, truthiness cache, `__call__`, bound factories and exporters |
| `Py.v` | the Python run time as fillers see it: identity, classes, isinstance, containers, callbacks |
| `Filler.v` | `records/fillers/filler.py`, `get_filler.py`, `builtin_fillers/typing_fillers.py` and the fillers of `std_fillers.py`: tokens, hints, building, `apply`, `bind`, `fill` |
| `Hints.v` | annotations and metadata as written: `get_filler.py`, `_typing`, `_as_instance`; their translation to the hints of `Filler.v` |
| `Tokens.v` | the tokens themselves: `validators.py`, `builtin_validators.py`, `coercers.py`, Eval, LiteralEval, Loose*, Whole, ToBytes, Falsish |
| `Classes.v` | `records/field.py` and `RecordBase.__init_subclass__` |
| `Runtime.v` | the Python run time as instances see it: heap, attributes, truth, comparison, hash, JSON, pickle |
| `Record.v` | `records/record.py`: `__new__`, parse, factories, exports, equality, hash, ordering, copying, pickling |
| `Bodies.v` | class statements with their namespaces: `getattr_static`, `dir`, where defaults and parsers come from (`record.py:99-113, 154-158`) |
| `Special.v` | which `__init__`, `__setattr__` and `__hash__` run: attribute lookup along the `__mro__`, warnings (`record.py:92-94, 127-128, 141-146, 265-267, 411-426`) |
| `Deep.v` | `copy.deepcopy` with its memo, `RecordBase.__deepcopy__` (`record.py:649-653`) on graphs of objects |
| `Streams.v` | `to_json(io=...)`, `to_pickle(io=...)`, `from_json_io`, `from_pickle_io`, arguments forwarded to `json` and `pickle` (`record.py:487-566, 607-642`) |
| `Crowd.v` | run times in which other threads act after every step of code outside the library, for the operations of `Filler.v`, `Classes.v` and `Record.v` |
| `Names.v` | `typing.get_type_hints` as `record.py:99-105` calls it: annotations as text, scopes, forward references and what they remember, the `__mro__` |
| `Tags.v` | `records/tags.py`; sets of tags as hash tables, `filter_by_tag` and blacklists on them |
| `Decor.v` | `records/utils/decorators.py` and the `add_*` methods of `records/field.py:132-220`, with Python's binding of arguments |
| `Declared.v` | annotations of fields as Python objects (`ClassVar`, `Final`, `Annotated`), `records/field.py:100-126` on them |
| `Live.v` | Selects whose attributes are lists of the program, and histories in which these lists change (`records/select.py:15-140`) |
| `Graph.v` | `repr` and `==` followed through records, lists, tuples and dicts that contain each other (`record.py:269-289`) |
| `Nest.v` | `==` and `hash` followed into the values of records, with the slots in which frozen records keep their hash (`record.py:281-289`, `411-420`) |
| `Compat.v` | annotations as objects on Python 3.7, 3.8 and 3.9, and `utils/typing_compatible.py` |
| `Extras.v` | `records/extras.py` and the places that look modules up there |
| `Spec_Extras.v` | histories in which modules are replaced, and which should be used |
| `Mutable.v` | the fillers of containers over containers that change, also while they are being filled (`typing_fillers.py:179-225, 232-246, 260-292, 305-350`) |
| `Spec_Mutable.v` | what may happen to containers, and being of a type in a state |
| `Attrs.v` | the lookups of methods and attributes on records and classes, which fields and attributes of the same name hide (`record.py:168-289, 397-420, 451-485, 568-605, 644-653, 667-694`, `select.py:216-253, 279-292`) |
| `Spec_Attrs.v` | the names that are looked up |
| `Statement.v` | the lookups that the class statement makes on the class it sets up (`record.py:77-158`) |
| `Spec_Statement.v` | the names that the class statement looks up |
| `Dicts.v` | mappings as objects the program shares with the library: which dicts `Select.__call__`, `SelectableFactory.run`, `from_mapping`, `from_instance` and `Exporter.run` read and edit (`select.py:103-140, 167-180, 279-292`, `record.py:431-476, 596-605`) |
| `Spec_Dicts.v` | what mappings hold, the edits asked for, and which dicts a call leaves alone |
| `Registry.v` | the map and the checkers by which `get_annotated_filler` finds a filler class, and what the library and programs put there (`get_filler.py:41-70`, `builtin_fillers/repo.py`, `recurse.py`, `std_fillers.py:358-377`, `typing_fillers.py:391-444`) |
| `Spec_Registry.v` | annotations as objects and as trees; histories of registrations |
| `Through.v` | calling exporters on records and on classes, after `select` and `export_with` (`select.py:258-369`) |
| `Spec_Through.v` | descent of classes, and which fields are wanted |
| `Deleted.v` | the RecordFields that stand in the record classes, as attributes (`record.py:113`) |
| `Given.v` | `blacklist_tags` and `whitelist_keys` as the objects that are given (`record.py:300-344`) |
| `Proto.v` | pickling with every protocol (`record.py:58, 428-429, 627-642`, with `copyreg`) and calls of parametrized classes (with `typing`) |
| `Json.v` | `to_json` with `default` and `json.loads` on trees (`record.py:487-505, 607-626`, with `json.JSONEncoder`) |
| `Spec_Json.v` | which trees of records can be read back, and when two have the same content |
| `Keyed.v` | a dict with frozen records as keys: what it asks of `hash()` and `==` (`record.py:281-289, 411-420`) |
| `Spec_Keyed.v` | histories of such a dict, and the value that a key has by then |
| `Sorting.v` | `sorted()`, `min()` and `max()` of records (`record.py:655-694`) |
| `Spec_Sorting.v` | what it means that records are sorted |
| `Rich.v` | `==` and `!=` between records and other objects (`record.py:281-289`) |
| `Anykeys.v` | `Select` and `from_mapping` on mappings with keys of any kind (`select.py:8-143`, `record.py:431-449`) |
| `Spec_Anykeys.v` | the documented edits, for keys of any kind |
| `Spec_Seeds.v` | the same runtime with another iteration order of sets; factories that do not influence each other |
| `Spec_Given.v` | what it means that a container holds names or tags |
| `Spec_Ranges.v` | descent of classes, and the values of one field in all records of a class and its subclasses |
| `Spec_Compat.v` | what annotations are to mean on every version |
| `Spec_Graph.v` | what equality and hashes of objects that refer to each other should be |
| `Spec_Keywords.v` | fields whose filling does not influence that of others |
| `Spec_Changes.v` | a record with some values changed |
| `Spec_Settle.v` | declarations whose stored values can be stored again |
| `Spec_Again.v` | classes, told from their statements, whose records can be made again |
| `Spec_Alike.v` | exports that cannot be told apart |
| `Spec_Convert.v` | a record made from the attributes of another object |
| `Subkeys.v` | `sub_filler` of all fillers and `RecordField._apply_to_filler` for keys of any kind |
| `Spec_Subkeys.v` | which part of an annotation a key names |
| `Spec_Wider.v` | when one declaration is more generous than another |
| `Spec_Lax.v` | declarations that can be compared under different type checking styles |
| `Spec_Evolve.v`, `Evolve_main.v`, `Props_Evolve.v` | two versions of a class: what the later one reads |
| `Spec_Reorder.v`, `Reorder_main.v`, `Props_Reorder.v` | the same class with its fields in another order |
| `Spec_Mixed.v`, `Mixed_main.v`, `Props_Mixed.v` | the order of tokens of different kinds |
| `Spec_Members.v`, `Members_main.v`, `Props_Members.v` | tokens on a Union |
| `Spec_Inherit.v`, `Inherit_main.v`, `Props_Inherit.v` | subclasses without fields of their own, or with optional ones |
| `Spec_Repeat.v`, `Repeat_main.v`, `Props_Repeat.v` | annotations that say something twice |
| `Spec_Asserts.v`, `Asserts_main.v`, `Props_Asserts.v` | the order of assertions |
| `Spec_Edits.v`, `Shuffle_main.v`, `Props_Shuffle.v` | the order of the edits of a Select |
| `Spec_Edits.v`, `Twice_main.v`, `Props_Twice.v` | Selects applied again to what they made |
| `Widen_main.v`, `Props_Widen.v` | further members of Unions |
| `Tuples_main.v`, `Props_Tuples.v` | tuples of fixed and of any length |
| `Optional_main.v`, `Props_Optional.v` | Optional fields |
| `Groups_main.v`, `Props_Groups.v` | Unions inside Unions |
| `Classobj_main.v`, `Props_Classobj.v` | Type[B] fields; unknown coercion tokens |
| `Literals_main.v`, `Props_Literals.v` | when the coercers of a Literal field run |
| `Containers.v` | How filled containers are built anew: elements are filled while the constructor of `list`, `set`, `deque`, `str`, `dict`, `Counter`, ... runs (`typing_fillers.py:179-193, 232-367`) |
| `Threads.v` | hash, `==` and `to_dict` of `Record.v` cut into steps between which other threads may run |

Specifications, in terms of annotations, mappings, orders, numbers, heaps and
calls: `Spec_Select.v`, `Spec_Filler.v`, `Spec_State.v`, `Spec_Typing.v`, `Spec_Factories.v`, `Spec_Added.v`, `Spec_Hints.v`, `Spec_Tokens.v`, `Spec_Classes.v`,
`Spec_Record.v`, `Spec_Inst.v`, `Spec_Copy.v`, `Spec_Hist.v`, `Spec_Bodies.v`, `Spec_Special.v`, `Spec_Streams.v`, `Spec_Deep.v`, `Spec_Crowd.v`, `Spec_Names.v`, `Spec_Tags.v`, `Spec_Threads.v`.

Theorems: `Props_*.v`.  Each theorem `cNN_...` there is closed by the lemma
`cNN_..._proof` of the same statement in the file `*_main.v` of the same name and
followed by `Print Assumptions`; the `Example`s beside it run concrete, non-trivial cases
that meet its hypotheses.

Proofs: `*_main.v` and the lemma files `Dict_proofs`, `Select_proofs`,
`Select_proofs2`, `Filler_{proofs,sound,shape,eqs,leaf,kind,decl,seal,inv,obl,exact}`,
`Hints_proofs`, `Hints_docs`,
`Classes_proofs`, `Record_proofs`, `Record_inv`, `Inst_proofs`, `Copy_proofs`,
`Hist_proofs`.  `Filler_inv` and `Record_inv` show once and for all that a
property of effects that user code has and that is closed under sequencing and
catching is a property of every operation of the library.

Demonstration run times for examples and refutations: `Demo.v`, `DemoRt.v`,
`DemoCls.v`, `DemoTok.v`, `DemoTyping.v`.

## 3. Trusted base

* Coq 8.16.1's kernel (the build is re-checked with `coqchk`).
* The Coq standard library (List, String, Ascii, ZArith, QArith, Permutation,
  SpecFloat, Lia, Lqa).  No axiom is declared.  `Print Assumptions` under every
  property theorem prints `Closed under the global context`: no theorem depends
  on any axiom.
* `coqchk` lists seven axioms of a standard library file that is loaded
  but not used by any theorem: `Coq.ssr.ssrunder.Under_rel.{Under_rel,
  Under_rel_from_rel, Under_relE, Over_rel, over_rel, over_rel_done,
  under_rel_done}`, the opaque module type implementation behind ssreflect's
  `under` tactic.
* The reading of Python written down in the comments of the model.

## 4. Property by property

| property | modelled | proved by |
|---|---|---|
| C01 Hollow fields store the argument itself | `Filler.fill`/`call` on a bound hollow filler | case analysis on `fill`; union by induction on members |
| C02 Type soundness of checked fields | hints, `get_filler`, `bind`, `fill`; spec predicate `Conforms` over hints | induction on the hint tree |
| C03 Coercers cannot smuggle wrong values into None, Ellipsis and callable fields | `type_check` with Python's `False` as a fourth result | refuted by a concrete coercer; partial: no coercers, or coercers that return a right value |
| C04 Values that already match are never coerced | `fill` | case analysis; coercers are arbitrary, so equality of the world shows none ran |
| C05 First successful coercer wins | `fill`, coercer loop | induction on the coercer list against a declarative first-success relation |
| C06 Every coercer is offered the original argument | coercer loop | refuted (a wrong-typed result is handed to the next coercer); partial for coercers that fail by raising |
| C07 Validators are folded in order, each exactly once | `fill`, `apply`, `bind` | induction on validators; order of the list after `bind` |
| C08 Union members compete by match quality, not by position | `UnionFiller.fill` | fold invariant (best kind so far), permutation invariance |
| C09 Union failure and ambiguity | `UnionFiller.fill` | same invariant, exact characterisation of outcomes |
| C10 Container fields fill element-wise | container validators appended by `bind` | induction on elements |
| C11 Fixed-length tuples | `TupleFiller` | induction on zip |
| C12 Mapping fields fill keys and values | `GenericMappingFiller` | induction on items |
| C13 Literal fields only accept the literals | `LiteralFiller` with its defaultdict in the world | invariant: grown entries are empty sets |
| C14 Filling does not depend on earlier failed fills | `LiteralFiller` | refuted by history of two constructions; partial for classes without Literal coercion |
| C15 Contradictory declarations are rejected when the class is created | `bind` of every filler | induction on hints; `bind` returns the error |
| C16 Every declared validator is enforced | `bind`, `fill` | refuted (hollow union, hollow elements); partial for non-hollow places |
| C17 Container validators see filled elements | order of validators after `bind` | refuted; the actual order is proved |
| C18 Fields are sealed once their class exists | `apply`/`apply_at`, `bind` | induction on filler trees |
| C19 Non-Exception exceptions are never swallowed | `catch`, every handler | induction; `NotException` is not caught |
| C20 Construction sets exactly the declared fields | `construct` | loop invariants over kwargs and optional keys |
| C21 Unknown and missing arguments are rejected | `construct` | case analysis |
| C22 Positional argument means the single required field | `construct` | unfolding, both sides equal |
| C23 Decision table of unary construction | `construct`, `parse` | case analysis over the outcomes |
| C24 parse succeeds iff exactly one parser does | `parse` | induction on parsers, permutation |
| C25 Filling errors name the field and keep their type | `construct` | loop invariant; refuted for error classes whose constructor raises something else than TypeError |
| C26 Defaults: shared objects and fresh factories | `make_default`, `construct` | induction over omitted keys |
| C27 Every stored value went through the field's filler | `construct` | refuted by a default of the wrong type; partial for passed fields |
| C28 post_new can veto or replace the instance | `construct` | case analysis |
| C29 Any declared field can be passed by keyword | Python call binding of `__new__(cls, arg, **kwargs)` | refuted for `arg`, `cls`, `self`; partial for all other names |
| C30 Unary construction from a mapping works for every class | `parse` with the built-in parsers | refuted for classes without required fields; partial otherwise |
| C31 A standing parse result is returned when post_new rejects the trivial reading | `construct` | refuted for falsy parse results; partial for truthy |
| C32 to_dict exports exactly the selected fields | `_to_dict` | induction over fields against a filter specification |
| C33 Sorted export | `_to_dict` sorting | sortedness + permutation (stable insertion sort as the spec of `sorted`) |
| C34 Exports do not alter the instance | world of `to_dict`, `==`, ... | induction: the heap is unchanged |
| C35 Bound factories and exporters are immutable and accumulate | Bound objects | algebra of merge and dict update, induction on chains of calls |
| C36 to_dict / from_mapping round trip | `to_dict` then `from_mapping` | composition of C20, C26 and C32 |
| C37 Renaming on export is undone by renaming on import | `Select.__call__` | induction on the renaming |
| C38 Copies preserve the stored objects | `__copy__` | refuted (values equal to their default are replaced by the default); partial |
| C39 JSON round trip | `to_json`/`from_json` with abstract json | composition with C36 |
| C40 Pickle round trip in one process | pickle protocol: `__getnewargs_ex__`, state | composition |
| C41 Pickle round trip across processes keeps equality | hash seed in the world | refuted: the cached hash is pickled; partial: equal seeds or no cached hash |
| C42 What a Select does to a mapping | `Select.__call__` | refinement of an abstract finite-map specification |
| C43 When a Select refuses a mapping | `Select.__call__` | same refinement, error cases |
| C44 Selects form a monoid under merge | `merge` | list algebra |
| C45 Merging two Selects means applying one after the other | `merge` vs. sequential application | refuted; partial if only pairs of edits that merging does not reorder share keys |
| C46 from_mapping does not change the caller's mapping | dicts as heap objects in `Dicts.v`; ChainMap, proxies and program mappings read them | induction over nested mappings; a simulation of the edits of a dict in place by `sel_call` |
| C47 A Select may be built from any iterables | one-shot iterables with their position as state | refuted; partial for re-iterable arguments |
| C48 keys_to_maybe_rename skips when the new name exists | `Select.__call__` | refuted |
| C49 Frozen instances never change | operation machine over the heap | induction on operation sequences |
| C50 Attributes of frozen instances cannot be deleted | operation machine | refuted |
| C51 The hash of a frozen instance never changes | operation machine | induction |
| C52 Equal frozen records have equal hashes | `__hash__`, `__eq__` | list induction |
| C53 Equality is field-wise equality of same-class records and an equivalence | `__eq__` | list induction |
| C54 Records can always be compared with == | `__eq__` | refuted; partial for hashable fields |
| C55 copy returns an equal record | `__copy__` | composition with C36 |
| C57 Ordered records are compared lexicographically | ordering methods | list lexicographic order |
| C58 Ordering is refused where it is not defined | ordering methods | case analysis |
| C59 The fields of a class | `create_class` | induction over bases and annotations |
| C60 Diamond inheritance | `create_class` | refuted; partial |
| C61 Unary parsing default | `create_class` | case analysis |
| C62 filter_by_tag | `filter_by_tag` | refuted for inheriting classes; partial |
| C63 Clamp | Clamp | order reasoning |
| C64 Cyclic | Cyclic over Z | Z.modulo |
| C65 Within | Within | order reasoning |
| C66 Whole only converts whole numbers, to that number | Whole over Q, floats as SpecFloat's binary64 | refuted near integers; partial for Rational inputs; which floats are taken is proved by bounding every rounding in `%` and math.isclose (Float_proofs.v) |
| C67 ToBytes round trip | ToBytes | induction on bytes |
| C68 FromInteger | FromInteger | case analysis |
| C69 MapCoercion | MapCoercion | case analysis |
| C70 ComposeCoercer is function composition | ComposeCoercer | list induction |
| C71 Type-constrained Loose coercers | Loose* | case analysis/induction |
| C72 from_instance copies attributes | `from_instance` | induction over fields |
| C73 Selection works for from_instance as for from_mapping | `from_instance` with select | refuted; partial |
| C74 Assertion validators never change the value | AssertValidation | case analysis |
| C75 Subclassing a class that adds validators in pre_bind | `create_class` | see Props_Classes |
| C76 Deep copies are new equal records | `__deepcopy__` | composition with C36 |
| C77 Deep copies share no mutable value | `__deepcopy__` | refuted for values equal to their default; partial for the others |
| C78 Unpickling changes no existing record | unpickling | refuted when `post_new` returns an existing record; partial if it returns nothing that was a record before |
| C79 Eval only evaluates strings and never leaks an error | Eval | case analysis |
| C80 LiteralEval terminates and never gives a string | LiteralEval | induction on the rounds of the loop, decreasing string size |
| C81 Loose coercers need a class that can be instantiated | LooseMixin | case analysis |
| C82 A checked field with Clamp or Cyclic stores values in range | C02 + C07 + C63/C64 | composition |
| C83 A checked field with Within stores values in range | C16 + C65 | composition |
| C84 Fields without callbacks accept exactly what their annotation describes | the fillers built from annotation trees, against `belongs` | induction on annotations: the filler decides membership and returns its argument |
| C85 In a class that checks types, annotations mean what typing says | annotations as written (`Hints.v`), against `describes` | composition of C84 with a refinement of `describes` by `belongs`; refuted for Type[Any] and for Any in strict classes |
| C86 Which annotations a record class can have | class creation, against `supported` | composition of C15 with an induction on annotations |
| C87 Metadata that records does not know is ignored | `_as_instance`, `apply`, get_filler | simulation between the fillers of the annotation with and without them; refuted for `__wrapped__` objects and non-types in hollow classes |
| C88 Token classes and factories may be given uncalled | `_as_instance` | induction on annotations; refuted for wrapped validator factories |
| C89 NewTypes are transparent | `_typing` | induction on annotations; refuted for NewTypes of Annotated |
| C90 Comparing a record with an instance of a subclass | `compare`, `cmp_method`, `list_cmp` | unfolding Python's choice of the first operand, induction on the ordering fields; refuted for subclasses without ordered=True |
| C91 from_mapping of several mappings | `chain_keys`, `chain_item`, `chain_map` | induction on the mappings |
| C92 from_pickle returns what was pickled | `from_pickled`, `pickle_copy`, `parse` | case split, C40 and C24 |
| C93 from_instance passes on errors of attributes | `extract_one`, `extract` | induction on the fields before the failing one |
| C94 What repr shows | `repr`, `join_parts` | induction on the exported items, C32 |
| C95 Equal records have equal reprs | `repr`, `to_dict_of` | induction on the fields; refuted for 1 and True |
| C96 Tokens added in pre_bind | `make_filler`, `apply_ops`, `bind_with` | the annotation with the tokens written into it (`Spec_Added.v`) makes an equivalent filler: induction on annotations; refuted for Unions |
| C97 from_json with a Select | `from_json`, `from_mapping`, `to_json` | equality of the two computations on JSON objects; refuted for lists of pairs |
| C98 from_instance with mappings | `from_instance` | from C72; refuted for two or more mappings |
| C99 What fields guarantee holds at any time | all of `Record.v` | invariant of the heap, preserved by every operation; induction on the history; refuted for assignments |
| C100 Frozen records can be shared between threads | `hash_t`, `eq_t`, `to_dict_t`, `setattr` in steps (`Threads.v`) | rely/guarantee: every step moves the heap forward in a preorder (fields stay, an empty hash slot may be filled with the one right value); induction on the schedule |
| C101 Exports are snapshots | `to_dict_t` | field by field: induction on the steps; refuted for whole records by a schedule |
| C102 What the built-in coercers call | `call_with`, `class_method`, `eval_token`, `loose`, `falsish`, `fill` | C05 with one coercer, and the callback of each token |
| C103 What the built-in validators ask | `full_match`, `truth_validator`, `assert_call`, `fill` | C04, C16 and C74 |
| C104 Final declares a field like any other | `from_type_hint`, `make_class` | equality of the two class statements' results; refuted for `Annotated[Final[T], tokens]` by a witness |
| C105 A field is required exactly if the class body gives it no value | `getattr_static`, `create` (`Bodies.v`): class bodies as namespaces along the MRO | lookup characterised by the relation `nearest`; refuted for names that bases use |
| C106 Which parsers a class has | `dir`, `find_parsers`, `create` | sorting and lookup lemmas; a refinement theorem that `make_class` with the users' parsers gives the same class |
| C107 default_type_check applies to all fields of the class | `make_class`, `bind_fields` | C59 and C84; refuted for inherited fields by a witness |
| C108 Selecting fields on export works for every record of the class | `to_dict` with Selects that remove and rename | refuted whenever a value equals its default; otherwise composition of C20 and C42 |
| C109 A checking style in the annotation overrides default_type_check | `hint_of`, `make_filler` | simulation between `bind` with the style and with the default; C84 for containers |
| C110 Only the library's `__init__` runs | `declare`, `construct_with_init` (`Special.v`); `program` (`Spec_Special.v`): class statements with C3 linearised `__mro__`s | invariant over programs; without warnings `construct_with_init` equals `construct` by induction on the parser depth; refuted for own and inherited `__init__` |
| C111 `__setattr__` and `__hash__` are those of the library | `declare`, `assign`, `hash_of` | the same invariant |
| C112 Subclasses of frozen classes are frozen | `declare` | refuted |
| C113 Exports to a file write what the export without file returns | `to_json_io`, `to_pickle_io`, `write_pieces` (`Streams.v`): encoders as generators, files as arbitrary write functions | induction on the generator |
| C114 A failed export leaves the file as it was | same | refuted; what was there stays, by induction on the generator |
| C115 Records written to a file are read back in order | `from_json_io`, `from_pickle_io` | induction on the list of records; crash points as failures of any write |
| C116 Keywords of from_json are additional fields | `from_json_text` | refuted |
| C117 A class body can change the default of an inherited field | class bodies (`Bodies.v`) | refuted |
| C118 Deep copies keep the structure of what is copied | `dcopy` (`Deep.v`): heaps as lists of nodes, the memo as state | invariant of the memo (keys, new objects, pending objects), induction on the depth of calls; refuted for tuples and cyclic records |
| C119 Constructions in several threads do not influence each other | `crowd_rt` (`Crowd.v`): the same library code on a run time whose state includes what the other threads will do after each step | instances of C02, C14 and C99 for that run time, from facts about single steps; refuted for Literal fields with coercers |
| C120 Annotations written as text mean the same as annotations not quoted | `class_hints` (`Names.v`): evaluation of expressions in scopes, text in annotations evaluated recursively | induction on the derivation of what an annotation means (`Spec_Names.v`); refuted for names local to functions and for classes that shadow what they mention |
| C121 Annotations mean the same whatever classes were created before | the memory of forward references is the state of `class_hints` | the memory is not read when a scope is passed; induction on the fuel |
| C122 Only the annotations of the class body decide about the new fields | `get_type_hints` along the `__mro__` | the own filter of `record.py:105`; refuted for base classes with unbound names |
| C123 A record class can refer to itself in its annotations | the scope `{name: cls, qualname: cls}` of `record.py:99-102` | consequence of C120; refuted for qualified names and subclasses |
| C124 A tag is as good as any tag equal to it | tags as objects in hash tables (`Tags.v`) | what a set contains up to `==` is an invariant of adding; membership and intersection in terms of it; simulation by numbers; refuted for objects unequal to themselves |
| C125 Decorators of fields may be given keywords first | `call_adder` (`Decor.v`) | case analysis on the binding of arguments; refuted for three names |
| C126 A name annotated ClassVar is no field | `of_declared` (`Declared.v`) | equal to `from_type_hint` of `Classes.v`; C59; refuted for ClassVar without parameter |
| C127 A Select does not change after it was made | `do_step`, `effect` (`Live.v`) | induction on histories: only the cached truth of a Select changes, and to the truth it has; refuted for Selects made of lists |
| C128 Filled containers keep their class and options | `construct_from`, `validate_on_demand`, `validate_map` (`Containers.v`) | induction on the elements: filling on demand is filling all and building anew if something changed; refuted for str, range, namedtuples, Counter, collisions |
| C129 Records that refer to each other can be printed and compared | `show`, `equal` (`Graph.v`) | induction on the containers not being printed yet, then on the chain of records; refuted for records that reach themselves over records, by induction on the stack; the converse by cutting a walk to such a record to one that meets no container twice; the text against the relation `prints` (`Spec_Graph.v`) both ways |
| C130 A record returned by post_new replaces the new record | `finish` (`Record.v`) | from C28; refuted by a class of false records |
| C131 Records within records are compared and hashed by content | `deep_equal`, `deep_hash` (`Nest.v`) | induction on the stack with the invariant that slots hold hashes; equality is symmetric and transitive by induction on equal objects; hashes agree on equal objects by mutual induction |
| C132 Annotations mean the same on all supported versions of Python | `make`, `get_origin`, `get_args`, `split_annotation`, `seen` (`Compat.v`) | induction on what is written: both versions give trees for which `hint_of` (`Hints.v`) gives the same; refuted for Annotated of Annotated and text in Annotated |
| C133 Modules put into records.extras are used from then on | `with_extras`, `codecs_of_extras`, `new_full_match` (`Extras.v`): the run time of `Runtime.v` and the codecs of `Streams.v`, with the modules looked up at each call | the log of calls is an invariant of all operations (`Record_inv.v`), then induction on the history; spec in `Spec_Extras.v` |
| C134 Ranges declared with Clamp, Cyclic and Within hold in all records at any time | `clamp`, `cyclic`, `within` (`Tokens.v`), `make_class` (`Classes.v`) and the histories of `Spec_Hist.v` | the theorems on fields (C82, C83), the fields of subclasses (C59) and the invariant of all histories (C99); spec in `Spec_Ranges.v` |
| C135 Filling a container ends, also if it changes meanwhile | `pass`, `pass_map`, `pass_tuple`, `run` (`Mutable.v`): iterators that look at the container when asked; any number of steps | more steps change nothing; the elements left decrease if containers do not grow; equal to `all_filled` of C128 if nothing changes; refuted for appending validators, by induction over steps |
| C136 Containers hold what the annotation says when they are stored | the same; `fits` and `promises` in `Spec_Mutable.v` | induction on the filler, the types of elements filled first are kept by what is filled later; refuted for validators that replace elements |
| C137 Fields keep their declared types after the record was made | the same | induction on the type with reachability; refuted for all lists stored as given |
| C138 A field shares containers with the arguments only if nothing had to be converted | the same | the result of `pass` from the elements filled in order; refuted for inner containers |
| C139 Fields can have any name | `on_class`, `on_instance`, `call_attr` and the operations with lookups (`Attrs.v`), `statement` (`Statement.v`) | equal to the operations of `Record.v` and to `create`, by the definitions and induction on parsers, fields and fuel, if no name is hidden; refuted in general for ten names |
| C140 Mappings and keywords supply what earlier mappings lack | `m_item`, `m_keys`, `read` of dicts, defaultdicts, ChainMaps, proxies and program mappings (`Dicts.v`) | induction over nested mappings; refuted for defaultdicts, for all contents and keywords |
| C141 Registered fillers are used for the annotations they are registered for | `resolve`, `ask`, `supertype`, `register`, `append`, `library` (`Registry.v`) | induction over histories and over annotations; refuted for subclasses, for all histories; a refinement theorem ties the registry of the library to `gaf` and `hint_of` |
| C142 Exporting through the class | `run`, `call_bound`, `call_class`, `do_ops` (`Through.v`), `to_dict_of`, `from_instance_with` | induction over chains, fields and class statements |
| C143 A deleted attribute is missing | `delattr`, `setattr`, `getattr` with `class_attr` (`Deleted.v`) | refuted for all classes; what stays as it is, is proved |
| C144 Blacklists and whitelists may be any container | `to_dict_given` with containers as arbitrary effectful `in` and `&` (`Given.v`) | refuted for containers without `&`; for all others, refinement to `to_dict_of` |
| C145 Records can be pickled with any protocol | `pickle_with`, `copy_old`, `copy_new` (`Proto.v`), `pickle_copy`, `unpickle` | refuted for protocols 0 and 1, for all records; the others by C40 |
| C146 Generic record classes can be called with parameters | `call_alias` (`Proto.v`), `construct`, `setattr` | refuted for all frozen classes; for others by the definitions |
| C147 Records within records can be written as JSON and read back | `encode`, `to_json_default`, `of_json` (`Json.v`), `from_json`, `from_mapping`, fillers | refuted without `default`, and for hollow fields; otherwise by induction over the tree of values (`json_tree`), with C05 for coercers, C10 for lists and C09 for Optional |
| C148 Frozen records can be the keys of a dict | `get`, `put`, `pop`, `find` (`Keyed.v`), `record_hash`, `record_eq` | invariant over all histories (`used`): every entry's key has its hash computed and equal to the stored one, entries are pairwise unequal and hold what `held` says; with C49, C51, C52 and C53 |
| C149 Records of an ordered class can be sorted | `sort`, `sort_reverse`, `minimum`, `maximum`, `follow` (`Sorting.v`), `compare` | induction over the list, with C57; sorting stably has one result, so that all comparison sorts agree |
| C150 == and != between a record and any other object agree | `py_eq`, `py_ne` (`Rich.v`), `record_eq` | refuted for objects that claim to be equal; otherwise by cases of Python's protocol |
| C151 Mappings may have keys of any kind | `kcall`, `kmerge`, `kchain`, `keywords`, `kfrom_mapping` (`Anykeys.v`) | simulation of `Spec_Anykeys.v` edit by edit; transfer to `Select.v` by a one-to-one renaming of the keys; refuted for Selects that begin with None |
| C152 A construction gives the same record in every run of Python | `construct`, `build`, `fill_defaults` with `set_order` (`Record.v`, `Runtime.v`) | permutation induction with commuting factories; refuted for factories that draw from one counter |
| C153 The order of keyword arguments does not matter | `construct`, `build`, `fill_kwargs` (`Record.v`) | permutation induction on `filled`; refuted for several refused values |
| C154 Changed copies | `from_instance` (`Record.v`) | from C72 and what constructions store; refuted for validators that are not idempotent |
| C155 A stored value can be stored again | `fill` (`Filler.v`), `construct`, `copy` (`Record.v`) | induction over annotations; Unions by their verdict (C09), containers by C10-C12 |
| C156 At any time a record can be made again from its own data | `make_class` (`Classes.v`), `fill` (`Filler.v`), all operations of `Record.v` | induction over class statements and over histories (C99), C155 |
| C157 Equal records export equal data | `to_dict`, `to_json` (`Record.v`), `sel_apply` (`Select.v`) | every step of a Select treats dicts with the same names alike; transitivity of == for defaults |
| C158 Records of one class can be made from records of another | `from_instance` of `Record.v` with an arbitrary object; classes derived from each other | `made_from` says which value every field has; composition of C72 and the constructor; settling classes (C156) for base classes; there and back by transitivity of == |
| C159 A sub_key names a part of the annotation as Python indices do | `part_named`, `sub_filler_of`, `apply_to_filler` (`Subkeys.v`) | the shape of the filler follows from the annotation, and adding tokens keeps it; arithmetic of indices |
| C160 Assertions only restrict and coercers only extend what a field accepts | `type_phase`, `run_validators`, `make_filler`, `construct` | mutual induction on the relation between declarations; the containers preserve "succeeds with the same result and effects" |
| C161 A class that checks types less strictly accepts at least as much | `type_phase`, `make_filler`, `fill` | induction on the annotation; in Unions without coercers all members that succeed give the argument itself, so that there is no ambiguity |
| C162 The coercers of a Literal field are asked for values of other classes only | `type_check`, `type_phase` (`Filler.v`) | cases on the class of the value |
| C163 Records exported by one version of a class can be read by a later version | `to_dict`, `from_mapping`, `from_json` (`Record.v`), `sel_call` (`Select.v`) | the exported dict without the fields that are gone, filled into the later version (Copy_proofs.construct_filled) |
| C164 The order of the fields in a class statement matters for nothing but ordering | `make_class` (`Classes.v`), `build`, `record_eq`, `to_dict` (`Record.v`) | permuted dicts have the same items; defaults in any order (Seeds_main.defaults_order) |
| C165 A Type[B] field stores exactly the classes that inherit from B; coercion tokens that a field cannot use are errors | `make_filler`, `type_validator`, `get_coercer` (`Filler.v`) | evaluation; induction on token lists and compositions |
| C166 Grouping members of a Union in a Union of their own changes nothing but ambiguities | `fill`, `union_loop`, `bind_with` (`Filler.v`) | the outcomes of the members (`attempts`), and what the best of them is, with and without the group |
| C167 An Optional field stores None as None and treats everything else as the field without Optional | `fill`, `union_loop` (`Filler.v`) | c09_union and c08_match_kinds for two members |
| C168 Tuple[T, ..., T] is Tuple[T, ...] with a length | `make_filler`, `fill` (`Filler.v`) | c10_elements_tuple and c11_fixed_tuple with equal parts |
| C169 A further member of a Union only matters to what it accepts | `fill`, `union_loop` (`Filler.v`) | c09_verdict for the outcomes with and without one more |
| C170 Tokens of different kinds may stand in any order in an annotation | `gaf`, `bind_with`, `aapplys`, `abind` (`Filler.v`), `new`, `run_parser` (`Record.v`) | mutual induction on the annotation, then on the fuel of `new` |
| C171 Tokens on a Union are tokens of each of its members | `gaf`, `bind_with` (`Filler.v`) | induction on the annotation: only the tokens behind each other count, then the extensionality lemmas of C170 |
| C172 A subclass that declares nothing stores what its parent stores | `make_class` (`Classes.v`), `construct` (`Record.v`) | a bound field is not bound again; the two constructions then take the same steps |
| C173 To say something twice in an annotation changes nothing | `run_coercers`, `run_validators`, `aapply` (`Filler.v`) | the coercion and validation loops take the same steps; then the induction of C170 |
| C174 The order of assertions decides about the error only | `run_validators`, `union_loop` (`Filler.v`), `build` (`Record.v`) | agreement up to the error is kept by sequences, containers and Unions; then the induction of C170 |
| C175 A Select of optional edits may be applied to data it was applied to | `sel_apply` (`Select.v`) through the specification of C42 | effect of each group of optional edits on a finite map, by induction on the group; then the second pass meets none of the old names |
| C176 The edits in one argument of a Select may stand in any order | `sel_apply` (`Select.v`) through the specification of C42 | neighbouring edits of one kind can be swapped; induction on the permutation; then C153 |

## 5. What is modelled and what is not

Modelled, branch by branch (each definition cites its lines):

* `records/select.py`: all of it.  `Select` with its truthiness cache and
  one-shot iterables, `merge`, application, `SelectableFactory` and its
  variants, `Exporter`, `NoArgExporter`.
* `records/fillers/`: `Filler`, `AnnotatedFiller`, every filler of
  `typing_fillers.py` and `std_fillers.py`, all tokens of `validators.py`,
  `builtin_validators.py`, `coercers.py` and `std_fillers.py`.
* `records/field.py`: `RecordField`, `Factory`, defaults, tags,
  `from_type_hint`, `filter_by_tag`, `add_*`.
* `records/record.py`: everything except docstrings; warnings are in `Special.v`.

Parameters, about which theorems assume only what they state: user
callbacks, `==`, `<`, `hash`, truth, `getattr`, iteration, constructors of
container classes, `json`, `copy.deepcopy` of field values, pickling of
field values, `eval`, `ast.literal_eval`, `warnings`/`logging`, regular expressions.

Simplifications:

* Exceptions are a class, a message and a cause; classes have any bases, and `except` clauses catch subclasses.
  Calling the class of an exception gives an instance of it or raises (`ctor_kind`).
* Keys of mappings are strings, except in `Anykeys.v` (C151); keys without a hash are not modelled.
* `isinstance` and `callable` answer the same for an object at all times.
* Containers are not mutated by a coercer while they are being filled, except in
  `Mutable.v` (C135 to C138); `c135_unchanged_partial` says when there is no difference.
* Pickling: `Record.v` has protocol 2 and later without `__getstate__`; `Proto.v` has all protocols, and `__getstate__`, not
  `__setstate__`, `__reduce__` or bases written in C.
* Mappings: `Select.v` and `Record.v` pass their items; in `Dicts.v` they are objects, and it is visible which are
  edited.  Keys that are no strings are in `Anykeys.v` (C151).  Not modelled: default factories that give different values, dict subclasses
  that override methods, program mappings that change dicts while they are read.
* Lookups of methods on records and classes: in `Record.v` they find what `RecordBase` defines.  `Attrs.v` makes
  them, and `Statement.v` those of the class statement (C139); not names with two underscores.
* `Filler.v` and `Hints.v` build in which filler class an annotation gets; `Registry.v` has the registry itself
  (C141).  Fillers of the program are only names there.
* Reading a field that a record has no value for: an arbitrary computation (`ext_attr`) everywhere but in `Deleted.v`
  (C143), where it is the RecordField of the class.
* In `Filler.v` all elements of a container are filled before its constructor runs.
  `Containers.v` fills them on demand; `c128_on_demand` says when there is no difference.
* Stack depth: see "Fuel" above.  Concurrency: the library has no locks or
  threads of its own.  `Record.v` is sequential; `Threads.v` cuts hash, `==`,
  `to_dict` and assignments into steps for C100 and C101, each call of code outside the
  library being one step.  `Crowd.v` lets other threads act between the calls that
  constructions and all other operations make (C119).
* Floats are IEEE binary64 as in Coq's `SpecFloat`; the sign of a zero
  remainder is not tracked.
* Python 3.9's `typing`; `get_type_hints` is in `Names.v`, with compiling of text and operators as
  parameters; after it annotations are trees: `typing` in `Hints.v`, as
  written, and `hint` in `Filler.v`, once their kind is known.

* Other files start from Python 3.9; `Compat.v` has the other versions, with
  `utils/typing_compatible.py`.

Not modelled: documentation strings, reprs of helper classes.

## 6. Testing the theorems against wrong programs

`seeded/LOG.jsonl` has one line per wrong program: the model was edited in a scratch
copy the way a bug would change the code, everything was rebuilt, and the
theorems that no longer prove were listed.  `theorems_failed` contains the theorems whose
own proof failed and those that rest on a lemma whose proof failed.  Where an edit
broke a claim and nothing failed, the theorem was tightened (`tightened`).
