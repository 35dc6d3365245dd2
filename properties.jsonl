{"id": "C01", "title": "Hollow fields store the argument itself", "statement": "If the effective type-check style of a field is hollow and no validator was attached to it, constructing the record stores the very object that was passed, whatever it is, never fails on that field and runs no user code for it.", "quantifier": "every object, every annotation that names a class, Any, None, Callable, Literal or Union of such, every state of the program", "why_tests_cant": "tests try a handful of argument types; the claim is about every Python object", "anchors": ["records/fillers/filler.py:AnnotatedFiller.__call__", "records/fillers/filler.py:AnnotatedFiller.fill", "records/fillers/builtin_fillers/typing_fillers.py:UnionFiller.fill", "records/fillers/get_filler.py:DumbFiller.fill"]}
{"id": "C02", "title": "Type soundness of checked fields", "statement": "If a field is declared with check (check_strict), with any coercers and with validators that only assert, then a value stored by the constructor is an instance (an exact instance) of the declared type; for List/Set/Tuple/Dict/... annotations the same holds for every element, for Union some member accepts it, for Literal it is one of the literals, to any nesting depth. (Excluded: None, Ellipsis and callable annotations that carry coercers, see C03.)", "quantifier": "every annotation tree, every coercer (arbitrary effectful callables), every argument", "why_tests_cant": "annotation trees and coercer behaviours are unbounded", "anchors": ["records/fillers/filler.py:AnnotatedFiller.fill", "records/fillers/builtin_fillers/std_fillers.py:SimpleFiller.type_check", "records/fillers/builtin_fillers/typing_fillers.py:GenericIterableFiller", "records/fillers/builtin_fillers/typing_fillers.py:TupleFiller", "records/fillers/builtin_fillers/typing_fillers.py:GenericMappingFiller", "records/fillers/builtin_fillers/typing_fillers.py:UnionFiller", "records/fillers/builtin_fillers/typing_fillers.py:LiteralFiller"]}
{"id": "C03", "title": "Coercers cannot smuggle wrong values into None, Ellipsis and callable fields", "statement": "A field declared None, type(...) or callable with check and a coercer only ever stores None, Ellipsis or a callable.", "quantifier": "every coercer and argument", "why_tests_cant": "a test only sees the coercers it was written with", "anchors": ["records/fillers/builtin_fillers/std_fillers.py:NoneFiller.type_check", "records/fillers/builtin_fillers/std_fillers.py:EllipsisFiller.type_check", "records/fillers/builtin_fillers/std_fillers.py:CallableFiller.type_check", "records/fillers/filler.py:AnnotatedFiller.fill"]}
{"id": "C04", "title": "Values that already match are never coerced", "statement": "If the argument of a checked field is already an instance of the declared class (an exact instance under check_strict), no coercer of the field is called and, without validators, the very same object is stored.", "quantifier": "every class, every list of coercers, every argument of a matching type", "why_tests_cant": "absence of calls for all coercers and values", "anchors": ["records/fillers/filler.py:AnnotatedFiller.fill", "records/fillers/builtin_fillers/std_fillers.py:SimpleFiller.type_check"]}
{"id": "C05", "title": "First successful coercer wins", "statement": "When type checking fails, coercers are tried in declaration order; the first that returns a value of the right type decides the stored value and no later coercer is called; if every coercer fails the error of the last one is raised, and with no coercers a TypeError is raised.", "quantifier": "every list of coercers with arbitrary effects, every argument", "why_tests_cant": "the number and behaviour of coercers is unbounded", "anchors": ["records/fillers/filler.py:AnnotatedFiller.fill"]}
{"id": "C06", "title": "Every coercer is offered the original argument", "statement": "Each coercer that is tried receives the argument the user passed, not something an earlier failed coercer produced.", "quantifier": "every list of coercers, every argument", "why_tests_cant": "needs the interaction of every pair of coercers; the existing tests only use coercers that raise", "anchors": ["records/fillers/filler.py:AnnotatedFiller.fill"]}
{"id": "C07", "title": "Validators are folded in order, each exactly once", "statement": "After type checking and coercion every validator of a field runs exactly once, in order (those added in pre_bind before those in the annotation), each on the output of the previous one; the first exception aborts the fill, otherwise the last output is stored.", "quantifier": "every list of validators with arbitrary effects, every value", "why_tests_cant": "order and multiplicity over unbounded validator lists", "anchors": ["records/fillers/filler.py:AnnotatedFiller.fill", "records/fillers/filler.py:AnnotatedFiller.bind", "records/field.py:RecordField.add_validator"]}
{"id": "C08", "title": "Union members compete by match quality, not by position", "statement": "A value accepted by a Union field is the value produced by the members with the best match kind (exact before subclass before coercion before hollow); reordering the members of the Union never changes which value is stored.", "quantifier": "every list of members, every permutation of it, every argument (members whose filling has no side effects)", "why_tests_cant": "all permutations of all member lists", "anchors": ["records/fillers/builtin_fillers/typing_fillers.py:UnionFiller.fill"]}
{"id": "C09", "title": "Union failure and ambiguity", "statement": "A Union field fails with ValueError exactly when the best-matching members produce non-identical values, fails with the last member's own error exactly when all members fail, and otherwise stores a value that one of the members produced.", "quantifier": "every list of members with arbitrary effects, every argument", "why_tests_cant": "unbounded member lists and outcomes", "anchors": ["records/fillers/builtin_fillers/typing_fillers.py:UnionFiller.fill"]}
{"id": "C10", "title": "Container fields fill element-wise", "statement": "Filling a value into Sequence/List/Set/Deque/Tuple[T, ...] with checked elements fills each element exactly once, left to right; if every element fills to itself the original container object is stored, otherwise a new container of the same type is built from the filled elements in order; if one element fails the whole fill fails with that error.", "quantifier": "every container length, every element filler with arbitrary effects", "why_tests_cant": "container sizes and element behaviour are unbounded", "anchors": ["records/fillers/builtin_fillers/typing_fillers.py:GenericIterableFiller", "records/fillers/builtin_fillers/typing_fillers.py:TupleFiller", "records/fillers/builtin_fillers/typing_fillers.py:_split_at"]}
{"id": "C11", "title": "Fixed-length tuples", "statement": "A checked Tuple[T1,...,Tn] field accepts only tuples of length n (ValueError otherwise) and fills position i with the filler of Ti.", "quantifier": "every n, every tuple", "why_tests_cant": "all lengths", "anchors": ["records/fillers/builtin_fillers/typing_fillers.py:TupleFiller"]}
{"id": "C12", "title": "Mapping fields fill keys and values", "statement": "A checked Dict/Mapping[K, V] field fills every key with K and every value with V exactly once in order; if nothing changed the original mapping object is stored, otherwise a new mapping built from all filled pairs.", "quantifier": "every mapping size, key and value fillers with arbitrary effects", "why_tests_cant": "unbounded mappings", "anchors": ["records/fillers/builtin_fillers/typing_fillers.py:GenericMappingFiller", "records/fillers/builtin_fillers/typing_fillers.py:DefaultDictFiller"]}
{"id": "C13", "title": "Literal fields only accept the literals", "statement": "A checked Literal field only ever stores a value that has the same type as, and is equal to, one of the declared literals, whatever coercers are attached and whatever was filled before.", "quantifier": "every list of literals, every argument, every history of earlier fills", "why_tests_cant": "history dependence", "anchors": ["records/fillers/builtin_fillers/typing_fillers.py:LiteralFiller"]}
{"id": "C14", "title": "Filling does not depend on earlier failed fills", "statement": "Whether a record can be constructed from given arguments does not depend on earlier, failed constructions of the same class.", "quantifier": "every history of constructions", "why_tests_cant": "histories are unbounded", "anchors": ["records/fillers/builtin_fillers/typing_fillers.py:LiteralFiller.bind"]}
{"id": "C15", "title": "Contradictory declarations are rejected when the class is created", "statement": "Creating a record class fails if a field is hollow and has coercers (ValueError), is a hollow container of non-hollow elements (TypeError), is strict on an abstract class (TypeError), is a non-specialised generic such as Iterable[T] with non-hollow T (TypeError), or is not a type but the class is checked (TypeError).", "quantifier": "every annotation tree and token list", "why_tests_cant": "annotation trees are unbounded", "anchors": ["records/fillers/filler.py:AnnotatedFiller.bind", "records/fillers/builtin_fillers/std_fillers.py:SimpleFiller.bind", "records/fillers/builtin_fillers/typing_fillers.py:TupleFiller.bind", "records/fillers/builtin_fillers/typing_fillers.py:GenericIterableFiller.bind", "records/fillers/builtin_fillers/typing_fillers.py:GenericMappingFiller.bind", "records/fillers/builtin_fillers/typing_fillers.py:GenericFillerN.bind", "records/fillers/get_filler.py:DumbFiller.bind"]}
{"id": "C16", "title": "Every declared validator is enforced", "statement": "A validator attached to a field, to a Union member or to the element type of a container is run on every value that reaches that place.", "quantifier": "every annotation tree and value", "why_tests_cant": "quantifies over all annotation trees", "anchors": ["records/fillers/builtin_fillers/typing_fillers.py:UnionFiller.fill", "records/fillers/builtin_fillers/typing_fillers.py:GenericIterableFiller.bind", "records/fillers/builtin_fillers/typing_fillers.py:TupleFiller.bind", "records/fillers/builtin_fillers/typing_fillers.py:GenericMappingFiller.bind"]}
{"id": "C17", "title": "Container validators see filled elements", "statement": "A validator attached to a container field is called with a container whose elements have already been checked and coerced.", "quantifier": "every container and validator", "why_tests_cant": "ordering of hooks over all inputs", "anchors": ["records/fillers/builtin_fillers/typing_fillers.py:GenericIterableFiller.bind", "records/fillers/builtin_fillers/typing_fillers.py:TupleFiller.bind", "records/fillers/builtin_fillers/typing_fillers.py:GenericMappingFiller.bind"]}
{"id": "C18", "title": "Fields are sealed once their class exists", "statement": "After a record class has been created, no validator or coercer can be added to any of its fields or sub-fillers (also not by a subclass's pre_bind): every attempt raises and changes nothing.", "quantifier": "every annotation tree, every sub-key path, every token", "why_tests_cant": "unbounded trees and paths", "anchors": ["records/fillers/filler.py:Filler.apply", "records/fillers/filler.py:Filler.bind", "records/fillers/builtin_fillers/typing_fillers.py:UnionFiller.bind", "records/fillers/builtin_fillers/typing_fillers.py:WrapperFiller.apply", "records/field.py:RecordField._apply_to_filler"]}
{"id": "C19", "title": "Non-Exception exceptions are never swallowed", "statement": "A KeyboardInterrupt/SystemExit raised by a coercer, validator, parser or post_new propagates out of the constructor: it is never turned into a fallback to another coercer, Union member or parser.", "quantifier": "every position in which user code may raise it", "why_tests_cant": "all interleavings of user code and library code", "anchors": ["records/fillers/filler.py:AnnotatedFiller.fill", "records/fillers/builtin_fillers/typing_fillers.py:UnionFiller.fill", "records/record.py:RecordBase.parse", "records/record.py:RecordBase.__new__"]}
{"id": "C20", "title": "Construction sets exactly the declared fields", "statement": "If cls(**kwargs) succeeds (post_new not replacing the instance), the instance has exactly the declared fields as attributes; each passed field holds what its filler returned for the passed value and each other field holds its default.", "quantifier": "every class, every kwargs", "why_tests_cant": "all classes and argument mappings", "anchors": ["records/record.py:RecordBase.__new__"]}
{"id": "C21", "title": "Unknown and missing arguments are rejected", "statement": "cls(**kwargs) raises TypeError if kwargs names a key that is not a field, before any filler runs, and raises (never returns an instance) if a required field is missing.", "quantifier": "every class, every kwargs", "why_tests_cant": "all classes and argument mappings", "anchors": ["records/record.py:RecordBase.__new__"]}
{"id": "C22", "title": "Positional argument means the single required field", "statement": "If a class has exactly one required field f and unary parsing is off (or keywords are also given), cls(v, **kw) behaves exactly like cls(f=v, **kw); giving f both ways raises TypeError; a class with another number of required fields rejects a positional argument together with keywords.", "quantifier": "every class, value and keywords", "why_tests_cant": "all classes and arguments", "anchors": ["records/record.py:RecordBase.__new__"]}
{"id": "C23", "title": "Decision table of unary construction", "statement": "cls(v) with unary parsing enabled returns the parse result if only parsing works, the trivially filled instance if only filling the single required field works, raises TypeError if both work, and raises if neither works.", "quantifier": "every class, every value, every parser set", "why_tests_cant": "all combinations of parser/filler/post_new outcomes", "anchors": ["records/record.py:RecordBase.__new__", "records/record.py:RecordBase.parse"]}
{"id": "C24", "title": "parse succeeds iff exactly one parser does", "statement": "cls.parse(v) calls every registered parser once, returns the result of the only one that succeeded, raises ParseFailure if none did and TypeError if more than one did; the outcome does not depend on the order of the parsers (for parsers without side effects).", "quantifier": "every list of parsers, every value", "why_tests_cant": "unbounded parser lists", "anchors": ["records/record.py:RecordBase.parse"]}
{"id": "C25", "title": "Filling errors name the field and keep their type", "statement": "If the filler of field k raises an Exception e and no parse result is standing by, the constructor raises an exception whose class is the class of e (ValueError if that class cannot be built from one string), whose message contains k and whose cause is e; k is the first failing field in keyword order.", "quantifier": "every class, kwargs and error", "why_tests_cant": "all error classes and positions", "anchors": ["records/record.py:RecordBase.__new__"]}
{"id": "C26", "title": "Defaults: shared objects and fresh factories", "statement": "A field omitted from the call holds the very default object declared on the class, or, for Factory defaults, the object returned by a call of the factory made for this very construction; factories of fields that are passed explicitly are never called.", "quantifier": "every class, kwargs, factory behaviour", "why_tests_cant": "all subsets of omitted fields", "anchors": ["records/field.py:RecordField.make_default", "records/record.py:RecordBase.__new__"]}
{"id": "C27", "title": "Every stored value went through the field's filler", "statement": "Each field of a freshly constructed instance holds a value returned by that field's filler.", "quantifier": "every class and kwargs", "why_tests_cant": "all defaults", "anchors": ["records/record.py:RecordBase.__new__", "records/field.py:RecordField.make_default"]}
{"id": "C28", "title": "post_new can veto or replace the instance", "statement": "post_new runs exactly once after all fields are filled; if it raises (and no parse is standing by) construction raises the same exception; if it returns a true value that object is the result, otherwise the new instance is.", "quantifier": "every post_new behaviour", "why_tests_cant": "all user hooks", "anchors": ["records/record.py:RecordBase.__new__", "records/record.py:RecordBase.post_new"]}
{"id": "C29", "title": "Any declared field can be passed by keyword", "statement": "For every declared field name k, cls(**{k: v, ...}) uses v for field k.", "quantifier": "every field name", "why_tests_cant": "all identifiers", "anchors": ["records/record.py:RecordBase.__new__", "records/record.py:RecordBase.__init__"]}
{"id": "C30", "title": "Unary construction from a mapping works for every class", "statement": "If m is a mapping from which cls.from_mapping(m) succeeds, and m has no attributes named like the fields, cls(m) (unary parsing on, no single required field) gives the same instance.", "quantifier": "every class and mapping", "why_tests_cant": "all classes", "anchors": ["records/record.py:RecordBase.parse", "records/record.py:RecordBase._to_dict", "records/record.py:RecordBase.from_instance"]}
{"id": "C31", "title": "A standing parse result is returned when post_new rejects the trivial reading", "statement": "If v parses to an instance and the trivial reading of v is rejected by post_new, cls(v) returns the parsed instance.", "quantifier": "every class, value, parser", "why_tests_cant": "all truthiness behaviours of instances", "anchors": ["records/record.py:RecordBase.__new__"]}
{"id": "C32", "title": "to_dict exports exactly the selected fields", "statement": "p.to_dict(...) has, in field order, exactly the fields that are whitelisted, or that carry no blacklisted tag and are either include_defaults or not equal to a non-factory default; the value of each key is the attribute of p.", "quantifier": "every class, instance, and export argument combination", "why_tests_cant": "all combinations", "anchors": ["records/record.py:RecordBase._to_dict"]}
{"id": "C33", "title": "Sorted export", "statement": "With sort, to_dict yields the same key/value pairs sorted by key (ascending, descending for -1, or by the given key function, stably).", "quantifier": "every class, instance, sort argument", "why_tests_cant": "all field sets", "anchors": ["records/record.py:RecordBase._to_dict"]}
{"id": "C34", "title": "Exports do not alter the instance", "statement": "to_dict/to_json/repr/==/hash/ordering leave all attributes of all instances unchanged, and the returned dict is independent of the instance.", "quantifier": "every instance, every history", "why_tests_cant": "histories", "anchors": ["records/record.py:RecordBase._to_dict", "records/select.py:Exporter.run"]}
{"id": "C35", "title": "Bound factories and exporters are immutable and accumulate", "statement": "x.select(...) and x.export_with(...) return new bound objects and never change x; chained selects act as one merged Select and chained export_with as one with later keywords overriding earlier ones.", "quantifier": "every chain of select/export_with calls", "why_tests_cant": "unbounded chains", "anchors": ["records/select.py:SelectableFactory.Bound.select", "records/select.py:Exporter.Bound.select", "records/select.py:Exporter.Bound.export_with", "records/select.py:NoArgExporter.run"]}
{"id": "C36", "title": "to_dict / from_mapping round trip", "statement": "If the fillers of a class return their stored values unchanged, cls.from_mapping(p.to_dict()) is equal to p for every instance p.", "quantifier": "every class, every instance", "why_tests_cant": "all instances", "anchors": ["records/record.py:RecordBase.to_dict", "records/record.py:RecordBase.from_mapping", "records/record.py:RecordBase.__eq__"]}
{"id": "C37", "title": "Renaming on export is undone by renaming on import", "statement": "Exporting with keys_to_rename r (new names fresh and distinct) and importing with the inverse renaming gives the same as exporting and importing without.", "quantifier": "every mapping and every injective renaming onto fresh names", "why_tests_cant": "unbounded renamings", "anchors": ["records/select.py:Select.__call__"]}
{"id": "C38", "title": "Copies preserve the stored objects", "statement": "copy.copy(p) holds, for each field, the very object that p holds.", "quantifier": "every class, every instance", "why_tests_cant": "all instances", "anchors": ["records/record.py:RecordBase.__copy__", "records/record.py:RecordBase.from_instance", "records/record.py:RecordBase._to_dict"]}
{"id": "C39", "title": "JSON round trip", "statement": "If json.loads inverts json.dumps on the exported dict and fillers accept stored values, cls.from_json(p.to_json()) equals p.", "quantifier": "every class and instance", "why_tests_cant": "all instances", "anchors": ["records/record.py:RecordBase.to_json", "records/record.py:RecordBase.from_json"]}
{"id": "C40", "title": "Pickle round trip in one process", "statement": "Unpickling a pickled instance in the same process gives an instance of the same class with the same attributes, equal to the original, provided the fillers accept the exported values.", "quantifier": "every class and instance", "why_tests_cant": "all instances", "anchors": ["records/record.py:RecordBase.to_pickle", "records/record.py:RecordBase.from_pickle", "records/record.py:RecordBase.__getnewargs_ex__"]}
{"id": "C41", "title": "Pickle round trip across processes keeps equality", "statement": "A frozen record unpickled in another process equals a record constructed there with the same values.", "quantifier": "every hash seed of both processes", "why_tests_cant": "hash randomisation differs per process", "anchors": ["records/record.py:RecordBase.__hash__", "records/record.py:RecordBase.__eq__", "records/record.py:RecordBase.__getnewargs_ex__"]}
{"id": "C42", "title": "What a Select does to a mapping", "statement": "Applying a Select that succeeds yields a mapping in which every key not mentioned by the Select keeps its value, removed keys are gone, renamed keys carry the value of the old key, added keys carry the added value, and maybe-added keys carry the old value if there was one.", "quantifier": "every Select, every mapping", "why_tests_cant": "unbounded key lists", "anchors": ["records/select.py:Select.__call__"]}
{"id": "C43", "title": "When a Select refuses a mapping", "statement": "Applying a Select raises KeyError exactly when a strict removal or rename finds its key missing at that point, and ValueError exactly when a rename or add target is already present; it never overwrites an existing key silently.", "quantifier": "every Select, every mapping", "why_tests_cant": "unbounded key lists", "anchors": ["records/select.py:Select.__call__"]}
{"id": "C44", "title": "Selects form a monoid under merge", "statement": "merge is associative with Select.empty as identity, s.merge(a, b, ...) is the left fold of pairwise merges, and an empty Select leaves every mapping untouched.", "quantifier": "all Selects", "why_tests_cant": "algebraic law", "anchors": ["records/select.py:Select.merge", "records/select.py:Select._merge", "records/select.py:Select.__bool__"]}
{"id": "C45", "title": "Merging two Selects means applying one after the other", "statement": "select(a).select(b) has the effect of applying a and then b.", "quantifier": "all Selects and mappings", "why_tests_cant": "needs all interactions of six kinds of operations", "anchors": ["records/select.py:Select.merge", "records/select.py:Select.__call__"]}
{"id": "C46", "title": "from_mapping does not change the caller's mapping", "statement": "cls.from_mapping.select(...)(m), cls.from_instance.select(...)(v, m) and p.to_dict.select(...)() change no dict the program has, whatever the select and even if it raises midway; to_dict returns a dict no one else has.", "quantifier": "every select, mapping, failure point", "why_tests_cant": "all failure points", "anchors": ["records/record.py:RecordBase.from_mapping", "records/select.py:Select.__call__"]}
{"id": "C47", "title": "A Select may be built from any iterables", "statement": "A Select built from iterables of keys behaves like one built from the lists of the same keys, however often it is used.", "quantifier": "every iterable, including one-shot iterators, every history of uses", "why_tests_cant": "histories of uses", "anchors": ["records/select.py:Select.__init__", "records/select.py:Select.__bool__"]}
{"id": "C48", "title": "keys_to_maybe_rename skips when the new name exists", "statement": "keys_to_maybe_rename leaves the mapping alone if the new name already exists (documented behaviour).", "quantifier": "every mapping", "why_tests_cant": "all mappings", "anchors": ["records/select.py:Select.__init__", "records/select.py:Select.__call__"]}
{"id": "C49", "title": "Frozen instances never change", "statement": "No sequence of attribute assignments, comparisons, hashes, exports, copies and constructions changes any field of an existing frozen instance.", "quantifier": "every sequence of operations", "why_tests_cant": "unbounded histories", "anchors": ["records/record.py:RecordBase.__setattr__", "records/record.py:RecordBase.__init_subclass__"]}
{"id": "C50", "title": "Attributes of frozen instances cannot be deleted", "statement": "del p.x on a frozen instance raises and changes nothing.", "quantifier": "every frozen instance and attribute", "why_tests_cant": "all instances", "anchors": ["records/record.py:RecordBase.__setattr__"]}
{"id": "C51", "title": "The hash of a frozen instance never changes", "statement": "hash(p) returns the same number at every point of any history, and computes it at most once.", "quantifier": "every history", "why_tests_cant": "unbounded histories", "anchors": ["records/record.py:RecordBase.__hash__"]}
{"id": "C52", "title": "Equal frozen records have equal hashes", "statement": "If p == q for frozen records then hash(p) == hash(q), provided == and hash of the field values satisfy Python's own contract.", "quantifier": "every class, instances, values, including fields equal to their default", "why_tests_cant": "all values", "anchors": ["records/record.py:RecordBase.__hash__", "records/record.py:RecordBase.__eq__", "records/record.py:RecordBase._to_dict"]}
{"id": "C53", "title": "Equality is field-wise equality of same-class records and an equivalence", "statement": "p == q holds iff both are of the same class and all fields are equal; it is reflexive, symmetric and transitive when == of the field values is; frozen records with hashable fields give the same answer as non-frozen ones.", "quantifier": "all instances", "why_tests_cant": "algebraic laws over all values", "anchors": ["records/record.py:RecordBase.__eq__"]}
{"id": "C54", "title": "Records can always be compared with ==", "statement": "p == q never raises if comparing the field values does not raise.", "quantifier": "all instances, including frozen ones with unhashable field values", "why_tests_cant": "all values", "anchors": ["records/record.py:RecordBase.__eq__", "records/record.py:RecordBase.__hash__"]}
{"id": "C55", "title": "copy returns an equal record", "statement": "copy.copy of a frozen record is the record itself; of a non-frozen record it is a new instance of the same class, equal to it (fillers accepting stored values), and the original is unchanged.", "quantifier": "all instances", "why_tests_cant": "all instances", "anchors": ["records/record.py:RecordBase.__copy__"]}
{"id": "C57", "title": "Ordered records are compared lexicographically", "statement": "For an ordered class, <, <=, > and >= on instances are the lexicographic order of the non-excluded fields in field order: < is a strict total order up to equality of those fields, <= is < or equal, and > and >= are their mirror images.", "quantifier": "all instances whose field values are totally ordered", "why_tests_cant": "order laws over all triples", "anchors": ["records/record.py:RecordBase.__lt__", "records/record.py:RecordBase.__le__", "records/record.py:RecordBase.__gt__", "records/record.py:RecordBase.__ge__", "records/record.py:exclude_from_ordering"]}
{"id": "C58", "title": "Ordering is refused where it is not defined", "statement": "Comparing instances of a class that is not ordered=True raises TypeError, as does comparing with an object that is not an instance of the class.", "quantifier": "all instances and objects", "why_tests_cant": "all objects", "anchors": ["records/record.py:RecordBase._check_comparable", "records/record.py:RecordBase.__lt__"]}
{"id": "C59", "title": "The fields of a class", "statement": "The fields of a record class are those of its record bases in base order followed by its own annotated, non-ClassVar names in declaration order (a name that a base annotates too takes the place it has there), without duplicates; a name that occurs twice, or an empty result, is a ValueError; required and optional fields partition them.", "quantifier": "every hierarchy", "why_tests_cant": "unbounded hierarchies", "anchors": ["records/record.py:RecordBase.__init_subclass__"]}
{"id": "C60", "title": "Diamond inheritance", "statement": "A class may inherit from two record classes that share a record base.", "quantifier": "every hierarchy", "why_tests_cant": "all hierarchies", "anchors": ["records/record.py:RecordBase.__init_subclass__"]}
{"id": "C61", "title": "Unary parsing default", "statement": "Unless given explicitly, unary parsing is enabled exactly when the class does not have exactly one required field.", "quantifier": "every class", "why_tests_cant": "all classes", "anchors": ["records/record.py:RecordBase.__init_subclass__"]}
{"id": "C62", "title": "filter_by_tag", "statement": "cls._fields.filter_by_tag(t) gives exactly the fields tagged t, in field order, for every record class.", "quantifier": "every class, every tag", "why_tests_cant": "all classes, including inheriting ones", "anchors": ["records/field.py:FieldDict.filter_by_tag", "records/record.py:RecordBase.__init_subclass__"]}
{"id": "C63", "title": "Clamp", "statement": "Clamp(ge, le) maps v to the nearest value of the closed interval: v itself if it lies inside, the crossed bound otherwise; it is idempotent and monotone; omitted bounds never clamp; Clamp with ge > le is rejected.", "quantifier": "every totally ordered type, all bounds and values", "why_tests_cant": "all values", "anchors": ["records/fillers/builtin_validators.py:Clamp"]}
{"id": "C64", "title": "Cyclic", "statement": "Cyclic(lo, hi) with lo < hi maps every integer v to the unique value of [lo, hi) congruent to v modulo hi - lo, leaves values of [lo, hi) alone and is idempotent.", "quantifier": "all integers", "why_tests_cant": "all values", "anchors": ["records/fillers/builtin_validators.py:Cyclic"]}
{"id": "C65", "title": "Within", "statement": "Within accepts v exactly if it lies in the interval with the declared open/closed ends, omitted bounds accepting everything, returns v itself and raises the configured error otherwise; a Within whose lower bound is greater than its upper bound, or equal to it without both being inclusive, could accept nothing and is rejected when created, no other is.", "quantifier": "every totally ordered type", "why_tests_cant": "all values", "anchors": ["records/fillers/builtin_validators.py:Within"]}
{"id": "C66", "title": "Whole only converts whole numbers, to that number", "statement": "Whole converts a number only if it is an integer, to the integer of the same value; every other number, and everything that is no number, is a TypeError.", "quantifier": "all integers, fractions, floats and complex numbers", "why_tests_cant": "all values", "anchors": ["records/fillers/builtin_fillers/std_fillers.py:Whole.func_args"]}
{"id": "C67", "title": "ToBytes round trip", "statement": "ToBytes without explicit length converts every non-negative integer (every integer when signed) to bytes that int.from_bytes turns back into the same integer.", "quantifier": "all integers, both byte orders, signed and unsigned", "why_tests_cant": "all integers", "anchors": ["records/fillers/builtin_fillers/std_fillers.py:ToBytes.func_args"]}
{"id": "C68", "title": "FromInteger", "statement": "FromInteger turns exactly the values equal to 0 and 1 into False and True and raises TypeError for all others, and can only be attached to bool fields.", "quantifier": "all values, all fillers", "why_tests_cant": "all values", "anchors": ["records/fillers/builtin_fillers/std_fillers.py:BoolFiller", "records/fillers/builtin_fillers/std_fillers.py:FromInteger", "records/fillers/filler.py:AnnotatedFiller.get_coercer"]}
{"id": "C69", "title": "MapCoercion", "statement": "MapCoercion returns the mapped value if the key is in value_map, else the result of calling the factory if the key is in factory_map, else raises TypeError; a factory is never called for a key of value_map.", "quantifier": "all maps and values", "why_tests_cant": "all maps", "anchors": ["records/fillers/coercers.py:MapCoercion.inner"]}
{"id": "C70", "title": "ComposeCoercer is function composition", "statement": "ComposeCoercer(a1,...,an) coerces v to a1(a2(...an(v))), stopping at the first exception, and nesting composes associatively.", "quantifier": "all lists of coercers", "why_tests_cant": "unbounded lists", "anchors": ["records/fillers/coercers.py:ComposeCoercer"]}
{"id": "C71", "title": "Type-constrained Loose coercers", "statement": "LooseUnpack.constrain(t1..tn) only calls the constructor with exactly n arguments of these types (any number of arguments of type t for (t, ...)); LooseUnpackMap.constrain only with known keys of the declared types; Loose.constrain(t) only with an instance of t.", "quantifier": "all inputs", "why_tests_cant": "all inputs", "anchors": ["records/fillers/builtin_fillers/std_fillers.py:Loose", "records/fillers/builtin_fillers/std_fillers.py:LooseUnpack", "records/fillers/builtin_fillers/std_fillers.py:LooseUnpackMap"]}
{"id": "C72", "title": "from_instance copies attributes", "statement": "cls.from_instance(v) for frozen cls and v an instance of cls is v itself; otherwise it constructs cls from the attributes of v named like fields, skipping missing optional ones, with extra mappings and keywords taking precedence; a missing required attribute raises AttributeError.", "quantifier": "every object", "why_tests_cant": "all objects", "anchors": ["records/record.py:RecordBase.from_instance", "records/record.py:RecordBase._to_dict"]}
{"id": "C73", "title": "Selection works for from_instance as for from_mapping", "statement": "cls.from_instance.select(s)(v) gives the same as cls.from_mapping.select(s)(vars(v)) whenever the latter succeeds.", "quantifier": "every select and object", "why_tests_cant": "all selects", "anchors": ["records/record.py:RecordBase._to_dict", "records/record.py:RecordBase.from_instance"]}
{"id": "C74", "title": "Assertion validators never change the value", "statement": "An assertion validator either returns the very object it was given or raises the configured error; with warn it never raises but reports one warning and returns the object.", "quantifier": "every predicate, value and configuration", "why_tests_cant": "all predicates", "anchors": ["records/fillers/validators.py:AssertValidation"]}
{"id": "C75", "title": "Subclassing a class that adds validators in pre_bind", "statement": "A record class whose pre_bind adds coercers, validators or a checking style to its fields can be subclassed; the subclass has the same rules for the inherited fields.", "quantifier": "every hierarchy, every pre_bind", "why_tests_cant": "all hierarchies and pre_bind bodies", "anchors": ["records/record.py:RecordBase.__init_subclass__", "records/record.py:RecordBase.pre_bind", "records/field.py:RecordField._apply_to_filler"]}
{"id": "C76", "title": "Deep copies are new equal records", "statement": "copy.deepcopy(p) of a record, frozen or not, is a new record of the same class that is equal to p, provided the deep copies of the exported field values are accepted by the field types and turned into values equal to the originals; no existing record changes.", "quantifier": "every record class, every instance, every deepcopy of the field values", "why_tests_cant": "all classes and values; deepcopy of field values is arbitrary user code", "anchors": ["records/record.py:RecordBase.__deepcopy__", "records/record.py:RecordBase.to_dict"]}
{"id": "C77", "title": "Deep copies share no mutable value", "statement": "copy.deepcopy(p) has in each field an object made by copy.deepcopy, never the object that p itself has in the field, unless that one is immutable.", "quantifier": "every record class, every instance, every field", "why_tests_cant": "sharing shows only when a value is mutated later; all fields and defaults", "anchors": ["records/record.py:RecordBase.__deepcopy__", "records/record.py:RecordBase._to_dict", "records/field.py:RecordField.make_default"]}
{"id": "C78", "title": "Unpickling changes no existing record", "statement": "Unpickling a record (pickle.loads, from_pickle) leaves all attributes of all records that exist already unchanged.", "quantifier": "every class, every pickled record, every program state", "why_tests_cant": "all classes, also those whose post_new returns another record", "anchors": ["records/record.py:RecordBase.__getnewargs_ex__", "records/record.py:RecordBase.__new__"]}
{"id": "C79", "title": "Eval only evaluates strings and never leaks an error", "statement": "The Eval coercer evaluates its argument only if it is a string, exactly once, and gives its value; any Exception of the expression becomes a TypeError that has it as its cause, interrupts such as KeyboardInterrupt are passed on; other arguments are TypeErrors.", "quantifier": "every expression, namespace and program state", "why_tests_cant": "evaluated expressions are arbitrary code", "anchors": ["records/fillers/builtin_fillers/std_fillers.py:Eval"]}
{"id": "C80", "title": "LiteralEval terminates and never gives a string", "statement": "The LiteralEval coercer terminates on every argument; what it gives is never a string but the outcome of evaluating the argument as often as the outcome is a string; it can only be attached to fields of a literal type.", "quantifier": "all strings, arbitrarily deeply quoted; all storage types", "why_tests_cant": "the loop runs once per level of quotes, without a bound", "anchors": ["records/fillers/builtin_fillers/std_fillers.py:LiteralEval"]}
{"id": "C81", "title": "Loose coercers need a class that can be instantiated", "statement": "Loose, LooseUnpack and LooseUnpackMap can be attached to a field exactly if its storage type is a class that is not abstract; otherwise creating the record class is a TypeError.", "quantifier": "every annotation", "why_tests_cant": "all storage types", "anchors": ["records/fillers/builtin_fillers/std_fillers.py:LooseMixin"]}
{"id": "C82", "title": "A checked field with Clamp or Cyclic stores values in range", "statement": "If the last validator of a checked field is Clamp(lo, hi) (Cyclic(lo, hi) for exact numbers), every value the field takes lies in [lo, hi] (in [lo, hi)), whatever the coercers and asserting validators before it do and whatever argument is given.", "quantifier": "every totally ordered type, all coercers, all validators that only assert, every argument and program state", "why_tests_cant": "coercers are arbitrary user code, arguments are arbitrary objects", "anchors": ["records/fillers/builtin_validators.py:Clamp", "records/fillers/builtin_validators.py:Cyclic", "records/fillers/filler.py"]}
{"id": "C83", "title": "A checked field with Within stores values in range", "statement": "If Within(lo, hi) is among the validators of a checked field all of whose validators only assert, every value the field takes lies between the bounds.", "quantifier": "every totally ordered type, all coercers and asserting validators in any order, every argument and program state", "why_tests_cant": "coercers are arbitrary user code, arguments are arbitrary objects", "anchors": ["records/fillers/builtin_validators.py:Within", "records/fillers/filler.py"]}
{"id": "C84", "title": "Fields without callbacks accept exactly what their annotation describes", "statement": "A field whose annotation has checking styles but no coercers and no validators accepts exactly the objects that belong to the annotation (classes, Any, Callable, Union, Literal, Type, containers and their elements, each in its effective style), stores the very object it was given, and raises an ordinary exception for every other object.", "quantifier": "every annotation tree, every mix of styles in it, every object and program state", "why_tests_cant": "annotation trees, nesting of containers and objects are unbounded", "anchors": ["records/fillers/filler.py:AnnotatedFiller.fill", "records/fillers/builtin_fillers/typing_fillers.py:UnionFiller", "records/fillers/builtin_fillers/typing_fillers.py:LiteralFiller", "records/fillers/builtin_fillers/typing_fillers.py:TupleFiller", "records/fillers/builtin_fillers/typing_fillers.py:GenericIterableFiller", "records/fillers/builtin_fillers/typing_fillers.py:GenericMappingFiller", "records/fillers/builtin_fillers/typing_fillers.py:TypeFiller"]}
{"id": "C85", "title": "In a class that checks types, annotations mean what typing says", "statement": "A field of a record class whose default is check (check_strict), annotated with a type as it is written with typing (classes, NewTypes, Unions, Literals, Any, Type, Callable, tuples, generic containers, doc strings), accepts exactly the values that the annotation describes in the sense of PEP 484, where a value is of a class if it is an instance of it (if its type is that class).", "quantifier": "every annotation, every object", "why_tests_cant": "annotations and values are trees of unbounded depth", "anchors": ["records/fillers/builtin_fillers/typing_fillers.py:_typing", "records/fillers/get_filler.py:get_annotated_filler", "records/fillers/builtin_fillers/std_fillers.py:std_filler_map", "records/fillers/filler.py:AnnotatedFiller.fill"]}
{"id": "C86", "title": "Which annotations a record class can have", "statement": "Creating a class that checks types succeeds exactly if all parts of its annotations can be checked: no type variables inside known generics, no NewTypes of Annotated types, no parameters of generics that records does not know, nothing that is not a type, and no abstract classes if types are compared strictly.  A class that does not check can have any annotation that is not Annotated, and stores values as they are.", "quantifier": "every annotation without coercers and validators", "why_tests_cant": "annotations are trees of unbounded depth", "anchors": ["records/fillers/builtin_fillers/typing_fillers.py:_typing", "records/fillers/get_filler.py:get_annotated_filler", "records/fillers/get_filler.py:DumbFiller", "records/fillers/builtin_fillers/std_fillers.py:SimpleFiller.bind", "records/fillers/builtin_fillers/typing_fillers.py:GenericFillerN"]}
{"id": "C87", "title": "Metadata that records does not know is ignored", "statement": "Doc strings, foreign markers and other objects in Annotated that are not tokens have no effect (PEP 593): the class can be created if it can be created without them, and its fields do the same.", "quantifier": "every annotation with any number of such objects anywhere in it, all tokens, every value", "why_tests_cant": "annotation trees and metadata are unbounded", "anchors": ["records/fillers/filler.py:AnnotatedFiller.apply", "records/fillers/get_filler.py:get_annotated_filler", "records/fillers/util.py:_as_instance"]}
{"id": "C88", "title": "Token classes and factories may be given uncalled", "statement": "A coercion or validation token class, or a factory of tokens, written in an annotation without being called does the same as its instance.", "quantifier": "every annotation with any number of such classes, every value", "why_tests_cant": "annotation trees and callbacks are unbounded", "anchors": ["records/fillers/util.py:_as_instance", "records/fillers/filler.py:AnnotatedFiller.apply", "records/fillers/builtin_fillers/std_fillers.py:Eval"]}
{"id": "C89", "title": "NewTypes are transparent", "statement": "Replacing NewTypes by the types they were made from, anywhere in an annotation, changes nothing about the record class.", "quantifier": "every annotation and every sequence of tokens applied to it", "why_tests_cant": "annotation trees are unbounded", "anchors": ["records/fillers/builtin_fillers/typing_fillers.py:_typing", "records/fillers/get_filler.py:get_annotated_filler"]}
{"id": "C90", "title": "Comparing a record with an instance of a subclass", "statement": "Instances of an ordered class and of a subclass of it can be compared, whichever is on the left, with the same answer: p < q iff q > p, and p <= q iff q >= p.  If the subclass only adds fields, the fields of the base class are compared lexicographically, and on a tie the instance of the subclass is the greater one if it has further fields to compare.", "quantifier": "every class, subclass, pair of instances and values of totally ordered types", "why_tests_cant": "which operand Python asks first depends on the classes; the number of fields is unbounded", "anchors": ["records/record.py:RecordBase.__lt__", "records/record.py:RecordBase.__init_subclass__"]}
{"id": "C91", "title": "from_mapping of several mappings", "statement": "cls.from_mapping(m1, ..., mn, **kw) builds the class from the union of all items; if a name is in several of them, the first mapping that has it wins, and keywords come last.  A Select is applied to the union.  (Mappings whose items do not appear by being read; defaultdicts: C140.)", "quantifier": "every number of mappings of every size, every keywords, every Select", "why_tests_cant": "unboundedly many mappings", "anchors": ["records/record.py:RecordBase.from_mapping", "records/select.py:SelectableFactory.run"]}
{"id": "C92", "title": "from_pickle returns what was pickled", "statement": "If the unpickled object is an instance of the class or of a subclass, from_pickle returns it as it is; so a base class restores pickled instances of subclasses, equal to the originals.  Any other object is given to every parser of the class exactly once.", "quantifier": "every class, unpickled object, parser set and state", "why_tests_cant": "objects and parsers are arbitrary", "anchors": ["records/record.py:RecordBase.from_pickle", "records/record.py:RecordBase.parse"]}
{"id": "C93", "title": "from_instance passes on errors of attributes", "statement": "If reading an attribute of the object that is named like a field raises an exception other than AttributeError, from_instance raises that exception and creates no record, even if the field has a default.", "quantifier": "every class, object, exception, extra mapping and keywords", "why_tests_cant": "exceptions and effects of attributes are arbitrary", "anchors": ["records/record.py:RecordBase._to_dict", "records/record.py:RecordBase.from_instance"]}
{"id": "C94", "title": "What repr shows", "statement": "repr(p) is the name of the class followed by name=repr(value), separated by commas and in parentheses, for exactly the fields whose value is not equal to their (non-factory) default, in field order.", "quantifier": "every class and instance", "why_tests_cant": "the number of fields and the values are unbounded", "anchors": ["records/record.py:RecordBase.__repr__", "records/record.py:RecordBase._to_dict"]}
{"id": "C95", "title": "Equal records have equal reprs", "statement": "If p == q then repr(p) == repr(q).", "quantifier": "every class and pair of equal instances", "why_tests_cant": "equality and repr of values are arbitrary", "anchors": ["records/record.py:RecordBase.__repr__", "records/record.py:RecordBase.__eq__"]}
{"id": "C96", "title": "Tokens added in pre_bind act as if written in the annotation", "statement": "Validators, coercers and check styles that pre_bind adds with add_validator, add_assert_validator or add_coercer act as if they had been written at the head of the annotation of the field, or of the part that sub_key names: the class is refused in the same cases and the field accepts, rejects and returns the same.  A sub_key that names no part raises LookupError.", "quantifier": "every annotation, every sequence of additions to the field and its parts, every run time", "why_tests_cant": "annotations nest without bound, and tokens are arbitrary and may have effects", "anchors": ["records/field.py:RecordField.add_validator", "records/field.py:RecordField.add_coercer", "records/field.py:RecordField._apply_to_filler", "records/fillers/builtin_fillers/typing_fillers.py:UnionFiller.bind"]}
{"id": "C97", "title": "from_json with a Select is from_mapping with that Select", "statement": "cls.from_json.select(s)(t) does what cls.from_mapping.select(s)(json.loads(t)) does, and is refused if t is not the text of a JSON object.  Sending a record to a class as JSON, with a Select on either side, is sending it as a mapping.", "quantifier": "every class, Select, text and JSON implementation", "why_tests_cant": "texts, Selects and classes are arbitrary", "anchors": ["records/record.py:RecordBase.from_json", "records/record.py:RecordBase.to_json", "records/select.py:Select.__call__", "records/select.py:SelectableFactory.run"]}
{"id": "C98", "title": "from_instance takes any number of mappings", "statement": "cls.from_instance(v, m1, ..., mn, **kw) takes the values of the keywords first, then those of the mappings, then the attributes of v.", "quantifier": "every class, object, number of mappings and keywords", "why_tests_cant": "unboundedly many mappings", "anchors": ["records/record.py:RecordBase.from_instance"]}
{"id": "C99", "title": "What fields guarantee holds at any time", "statement": "If whatever the filler and the default of a field give has a property (such as being of the declared type), then this field has it in every record at any time, whatever is done with the records.", "quantifier": "every program, every order of constructing, parsing, copying, exporting, comparing, hashing and assigning, every field, type and state", "why_tests_cant": "the histories are unbounded", "anchors": ["records/record.py:RecordBase.__new__", "records/record.py:RecordBase.__setattr__", "records/record.py:RecordBase.__hash__", "records/record.py:RecordBase.__copy__", "records/fillers/filler.py:AnnotatedFiller.fill"]}
{"id": "C100", "title": "Frozen records can be shared between threads", "statement": "Threads that hash, compare, export or try to change the same records of frozen classes get the outcomes they would get alone, however they are scheduled; no field changes; no thread has to wait.", "quantifier": "every number of threads, jobs and records, every schedule", "why_tests_cant": "the number of schedules is exponential", "anchors": ["records/record.py:RecordBase.__hash__", "records/record.py:RecordBase.__eq__", "records/record.py:RecordBase.__setattr__", "records/record.py:RecordBase._to_dict"]}
{"id": "C101", "title": "Exports are snapshots", "statement": "to_dict shows the fields as they all were at one moment, also if other threads assign to fields meanwhile.", "quantifier": "every record, every schedule", "why_tests_cant": "the number of schedules is exponential", "anchors": ["records/record.py:RecordBase._to_dict", "records/record.py:RecordBase.__setattr__"]}
{"id": "C102", "title": "What the built-in coercers call", "statement": "A checked field with CallCoercion(f, *args, **kw), ClassMethodCoercion, Eval, Loose or Falsish that is given an object of another class stores what f(v, *args, **kw), the method of its class, the expression in the given names, the class itself give for that object, if that is of the declared class; if they raise, the field raises.", "quantifier": "every class, object, callable, positional and keyword arguments, state", "why_tests_cant": "callables, arguments and states are arbitrary", "anchors": ["records/fillers/coercers.py:CallCoercion", "records/fillers/coercers.py:ClassMethodCoercion", "records/fillers/builtin_fillers/std_fillers.py:Eval", "records/fillers/builtin_fillers/std_fillers.py:Loose", "records/fillers/builtin_fillers/std_fillers.py:Falsish"]}
{"id": "C103", "title": "What the built-in validators ask", "statement": "Every value that a checked field takes has passed FullMatch, Truth and AssertCallValidation validators of the field: the pattern matches it, it is true, the function gives something true for it. If not, the configured error is raised.", "quantifier": "every class, tokens, condition, value and state", "why_tests_cant": "conditions are arbitrary code", "anchors": ["records/fillers/builtin_validators.py:FullMatch", "records/fillers/builtin_validators.py:Truth", "records/fillers/validators.py:AssertCallValidation", "records/fillers/validators.py:AssertValidation"]}
{"id": "C104", "title": "Final declares a field like any other", "statement": "In a frozen class, x: Final[T] and x: Annotated[Final[T], tokens] mean what x: T and x: Annotated[T, tokens] mean; in a class that is not frozen they are a TypeError.", "quantifier": "every class statement, every set of fields with Final", "why_tests_cant": "annotations, tokens and class statements are arbitrary", "anchors": ["records/field.py:RecordField.from_type_hint", "records/record.py:RecordBase.__init_subclass__"]}
{"id": "C105", "title": "A field is required exactly if the class body gives it no value", "statement": "A field declared in a class body is required if the body assigns nothing to its name; otherwise its default is the assigned object, or what the assigned Factory makes.", "quantifier": "every class statement, field name, base classes and metaclass", "why_tests_cant": "field names and bases are arbitrary", "anchors": ["records/record.py:RecordBase.__init_subclass__", "records/field.py:RecordField._apply_factory", "records/field.py:Factory"]}
{"id": "C106", "title": "Which parsers a class has", "statement": "The parsers of a class are the callables marked with @parser that it has, its own and the inherited ones, each once and in the order of their names, except those whose name a nearer class or a field of the class uses for something else.", "quantifier": "every class statement, every hierarchy of bases", "why_tests_cant": "hierarchies are unbounded", "anchors": ["records/record.py:parser", "records/record.py:RecordBase.__init_subclass__"]}
{"id": "C107", "title": "default_type_check applies to all fields of the class", "statement": "All fields of a class, inherited ones too, use the default_type_check of the class unless their annotation says otherwise.", "quantifier": "every class statement, annotation and object", "why_tests_cant": "annotations and objects are arbitrary", "anchors": ["records/record.py:RecordBase.__init_subclass__", "records/fillers/filler.py:AnnotatedFiller.bind"]}
{"id": "C108", "title": "Selecting fields on export works for every record of the class", "statement": "to_dict.select(keys_to_remove=..., keys_to_rename=...)() with removed and renamed fields of the class and new names that are not fields succeeds for every record of the class, and the result has the value of every renamed field under its new name and nothing under removed or old names.", "quantifier": "every class, record, export arguments, list of removals and renames", "why_tests_cant": "which values equal their default depends on the record", "anchors": ["records/fillers/builtin_fillers/std_fillers.py:Exporter", "records/record.py:RecordBase._to_dict", "records/fillers/builtin_fillers/std_fillers.py:Select.__call__"]}
{"id": "C109", "title": "A checking style in the annotation overrides default_type_check", "statement": "A field whose annotation has a checking style among its metadata behaves as it would without it in a class with that default_type_check, wherever among the metadata the style is; the style of a container is not that of its elements.", "quantifier": "every annotation, metadata, default_type_check and object", "why_tests_cant": "annotations and objects are arbitrary", "anchors": ["records/fillers/filler.py:AnnotatedFiller.apply", "records/fillers/filler.py:AnnotatedFiller.bind"]}
{"id": "C110", "title": "Only the library's __init__ runs", "statement": "Calling a record class runs no __init__ but the library's: one defined in the class, or by a mixin, is reported by a warning when the class is created (overridden, not called) and is never called.", "quantifier": "every class hierarchy, class statement, constructor call and state", "why_tests_cant": "hierarchies and initialisers are arbitrary code", "anchors": ["records/record.py:RecordBase.__init_subclass__", "records/record.py:RecordBase.__init__", "records/record.py:RecordBase.__new__"]}
{"id": "C111", "title": "__setattr__ and __hash__ are those of the library", "statement": "Whatever __setattr__ or __hash__ a record class or its bases define, instances of classes declared frozen refuse assignment of fields and hash by their values, and instances of other record classes accept assignments and are not hashable.", "quantifier": "every class hierarchy with multiple inheritance, methods, instances and values", "why_tests_cant": "hierarchies and methods are arbitrary", "anchors": ["records/record.py:RecordBase.__init_subclass__", "records/record.py:RecordBase.__setattr__", "records/record.py:RecordBase.__hash__"]}
{"id": "C112", "title": "Subclasses of frozen classes are frozen", "statement": "Instances of a subclass of a frozen record class are immutable and hashable like those of the class itself.", "quantifier": "every frozen class, subclass, instance and assignment", "why_tests_cant": "hierarchies are arbitrary", "anchors": ["records/record.py:RecordBase.__init_subclass__"]}
{"id": "C113", "title": "Exports to a file write what the export without file returns", "statement": "to_json(io=f) and to_pickle(io=f) append to f exactly what to_json() and to_pickle() return, or raise what they raise, and leave everything else in the same state.", "quantifier": "every record, export arguments, Select, encoder and file contents", "why_tests_cant": "encoders and values are arbitrary", "anchors": ["records/record.py:RecordBase.to_json", "records/record.py:RecordBase.to_pickle"]}
{"id": "C114", "title": "A failed export leaves the file as it was", "statement": "If to_json(io=f) or to_pickle(io=f) raises, f contains what it contained before.", "quantifier": "every record, encoder and point at which encoding or writing fails", "why_tests_cant": "the export can fail between any two pieces that are written", "anchors": ["records/record.py:RecordBase.to_json", "records/record.py:RecordBase.to_pickle"]}
{"id": "C115", "title": "Records written to a file are read back in order", "statement": "Any number of records written to a file with to_pickle(io=f), one after the other, are read back by as many from_pickle_io(f) in the same order, each as from_pickle of its own pickle would be, and from_json_io reads what to_json(io=f) wrote. If writing fails at some point, all records written before can still be read.", "quantifier": "every list of records, states, and every crash point", "why_tests_cant": "the number of records and the point of failure are unbounded", "anchors": ["records/record.py:RecordBase.from_json_io", "records/record.py:RecordBase.from_pickle_io", "records/record.py:RecordBase.to_pickle"]}
{"id": "C116", "title": "Keywords of from_json are additional fields", "statement": "As documented, additional keyword arguments of from_json and from_json_io are values of fields.", "quantifier": "every class, text and keyword", "why_tests_cant": "classes and keywords are arbitrary", "anchors": ["records/record.py:RecordBase.from_json", "records/record.py:RecordBase.from_json_io"]}
{"id": "C117", "title": "A class body can change the default of an inherited field", "statement": "Declaring or assigning in a class body the name of an inherited field changes the type or default of that field.", "quantifier": "every hierarchy of record classes, class body and inherited field", "why_tests_cant": "hierarchies and class bodies are arbitrary", "anchors": ["records/record.py:RecordBase.__init_subclass__"]}
{"id": "C118", "title": "Deep copies keep the structure of what is copied", "statement": "copy.deepcopy of a structure of lists, tuples, dicts and records gives new objects that are connected as the originals are: an object that occurs several times is copied once, different objects have different copies, cycles stay cycles, and the originals are unchanged.", "quantifier": "every graph of objects, with sharing and cycles, and every object in it", "why_tests_cant": "graphs are unbounded", "anchors": ["records/record.py:RecordBase.__deepcopy__"]}
{"id": "C119", "title": "Constructions in several threads do not influence each other", "statement": "Constructing records from several threads at the same time gives each thread what it would get alone: the same records or the same refusals, if coercers and validators depend on their arguments only; in any case field values are of the declared types, and what fields guarantee holds for all records at any time.", "quantifier": "every schedule, annotation, class, argument and whatever the other threads do", "why_tests_cant": "there are unboundedly many interleavings", "anchors": ["records/record.py:RecordBase.__new__", "records/fillers/filler.py:Filler.fill"]}
{"id": "C120", "title": "Annotations written as text mean the same as annotations not quoted", "statement": "A record class whose annotations are written as text (quoted, or under \"from __future__ import annotations\") has the same fields, types and behaviour as the class with the same annotations not quoted; parts of annotations can be quoted too. A name that is bound nowhere is a NameError when the class is created.", "quantifier": "every class body, annotation expression, scope and module, with texts nested in annotations to any depth", "why_tests_cant": "annotation expressions and scopes are arbitrary", "anchors": ["records/record.py:RecordBase.__init_subclass__", "records/utils/typing_compatible.py:get_type_hints"]}
{"id": "C121", "title": "Annotations mean the same whatever classes were created before", "statement": "The types of the fields of a class do not depend on which other classes were created before it, although objects in annotations remember how they were evaluated.", "quantifier": "every class and every history of evaluations before it", "why_tests_cant": "histories are unbounded", "anchors": ["records/record.py:RecordBase.__init_subclass__", "records/utils/typing_compatible.py:get_type_hints"]}
{"id": "C122", "title": "Only the annotations of the class body decide about the new fields", "statement": "The types of the fields a class body declares depend on the annotations of that body only, not on those of its base classes.", "quantifier": "every class, base class and annotation", "why_tests_cant": "hierarchies are unbounded", "anchors": ["records/record.py:RecordBase.__init_subclass__", "records/utils/typing_compatible.py:get_type_hints"]}
{"id": "C123", "title": "A record class can refer to itself in its annotations", "statement": "An annotation that mentions the class being defined, as text, is understood as that class.", "quantifier": "every class, place where it is defined, and annotation that mentions it", "why_tests_cant": "annotations and places are arbitrary", "anchors": ["records/record.py:RecordBase.__init_subclass__", "records/utils/typing_compatible.py:get_type_hints"]}
{"id": "C124", "title": "A tag is as good as any tag equal to it", "statement": "Tag(x) and Tag(y) are equal, with equal hashes, exactly if x == y; filter_by_tag and blacklist_tags treat a field marked with a tag as marked with every tag equal to it, whatever else is in the sets; objects that are not tags exclude nothing.", "quantifier": "every class, every object that tags hold with its == and hash, every set of tags", "why_tests_cant": "equality and hashes of what tags hold are arbitrary, sets are unbounded", "anchors": ["records/tags.py:Tag", "records/field.py:RecordField._apply", "records/field.py:FieldDict.filter_by_tag", "records/record.py:RecordBase._to_dict"]}
{"id": "C125", "title": "Decorators of fields may be given keywords first", "statement": "@cls.x.add_validator(k=v, ...) and the other decorators of fields do what calling them with the function and the keywords does: they return the function, and the function is called with the value and exactly these keywords (sub_key names a part of the annotation; add_assert_validator takes err and warn).", "quantifier": "every function and all keywords", "why_tests_cant": "keywords are arbitrary", "anchors": ["records/utils/decorators.py:decorator_kw_method", "records/field.py:RecordField.add_validator", "records/field.py:RecordField.add_assert_validator", "records/field.py:RecordField.add_coercer"]}
{"id": "C126", "title": "A name annotated ClassVar is no field", "statement": "A name annotated ClassVar or ClassVar[T], also within Annotated, is an attribute of the class and no field of it.", "quantifier": "every class statement", "why_tests_cant": "class statements and annotations are arbitrary", "anchors": ["records/field.py:RecordField.from_type_hint", "records/record.py:RecordBase.__init_subclass__"]}
{"id": "C127", "title": "A Select does not change after it was made", "statement": "A Select does the same to equal mappings at every time after it was made, whatever is done with it, with other Selects and with the objects it was made of.", "quantifier": "every history of making, using and merging Selects and of changing the lists they were made of", "why_tests_cant": "histories are unbounded and the lists are changed in arbitrary ways in between", "anchors": ["records/select.py:Select.__init__", "records/select.py:Select.__bool__", "records/select.py:Select._merge", "records/select.py:Select.__call__"]}
{"id": "C128", "title": "Filled containers keep their class and options", "statement": "If filling a field of type Sequence, List, Set, Deque, Tuple[T, ...], Dict, Mapping and so on changes elements of a container, the value stored is a container of the same class and with the same options (maxlen, default_factory) that holds the filled elements, all of them and in order.", "quantifier": "every container, every filler of elements with any effects", "why_tests_cant": "containers are unbounded, what fills their elements is arbitrary code that runs while the new container is built", "anchors": ["records/fillers/builtin_fillers/typing_fillers.py:GenericIterableFiller", "records/fillers/builtin_fillers/typing_fillers.py:GenericMappingFiller", "records/fillers/builtin_fillers/typing_fillers.py:GenericDequeFiller", "records/fillers/builtin_fillers/typing_fillers.py:DefaultDictFiller", "records/fillers/builtin_fillers/typing_fillers.py:TupleFiller", "records/fillers/builtin_fillers/typing_fillers.py:_split_at"]}
{"id": "C129", "title": "Records that refer to each other can be printed and compared", "statement": "repr(p) and p == q end and give a result for all records, also if records, lists, tuples and dicts contain each other in cycles, as repr does for lists and dicts by themselves; without cycles p == q says whether p and q are of one class and all their fields are equal, however deep.", "quantifier": "all structures of records, lists, tuples and dicts", "why_tests_cant": "structures are unbounded in size and depth and can be cyclic", "anchors": ["records/record.py:RecordBase.__repr__", "records/record.py:RecordBase.__eq__"]}
{"id": "C130", "title": "A record returned by post_new replaces the new record", "statement": "If post_new returns a record, the constructor returns that record; if it returns None, the constructor returns the new record.", "quantifier": "every class, its post_new and all arguments", "why_tests_cant": "post_new is arbitrary code and so is the truth of records", "anchors": ["records/record.py:RecordBase.post_new", "records/record.py:RecordBase.__new__"]}
{"id": "C131", "title": "Records within records are compared and hashed by content", "statement": "For records that contain records, however deep, p == q answers only what the contents say, and records that are equal have the same hash, whatever was compared or hashed before and whichever of the classes are frozen; without cycles, and with hashable contents of frozen records, there is always an answer.", "quantifier": "all objects (records of frozen and other classes, tuples, lists, dicts), with fields, defaults and depths, and all histories of == and hash, including calls that fail", "why_tests_cant": "comparing hashes nested records, which keep their hash: the answer could depend on the history; tests compare few and shallow records", "anchors": ["records/record.py:RecordBase.__eq__", "records/record.py:RecordBase.__hash__", "records/record.py:RecordBase._to_dict", "records/field.py:RecordField.is_default"]}
{"id": "C132", "title": "Annotations mean the same on all supported versions of Python", "statement": "A field with a given annotation accepts the same values and does the same with them on Python 3.7, 3.8, 3.9 and later, if the annotation can be written there.", "quantifier": "all annotations made of classes, NewTypes, aliases with and without parameters, Callable, Union, Literal, Annotated and names as text; all supported versions", "why_tests_cant": "needs several interpreters and all nestings of annotations", "anchors": ["records/utils/typing_compatible.py:get_origin", "records/utils/typing_compatible.py:get_args", "records/utils/typing_compatible.py:Annotated", "records/utils/typing_compatible.py:is_annotation", "records/utils/typing_compatible.py:split_annotation", "records/fillers/get_filler.py:get_filler", "records/fillers/builtin_fillers/typing_fillers.py:_typing"]}
{"id": "C133", "title": "Modules put into records.extras are used from then on", "statement": "After records.extras.json = m, every to_json and from_json, to text or to files, also those inside constructors and parse, of all classes and records, whenever made, calls m, until another module is put there; the same holds for pickle. A FullMatch keeps asking the pattern compiled by the re that was there when it was made.", "quantifier": "all histories of assignments to records.extras and of everything else a program does with records", "why_tests_cant": "histories are unbounded, and a module could be captured anywhere", "anchors": ["records/extras.py", "records/record.py:RecordBase.from_json", "records/record.py:RecordBase.to_json", "records/record.py:RecordBase.to_pickle", "records/record.py:RecordBase.from_pickle", "records/fillers/builtin_validators.py:FullMatch"]}
{"id": "C134", "title": "Ranges declared with Clamp, Cyclic and Within hold in all records at any time", "statement": "If a field is declared with Clamp, Cyclic or Within, then in every record of its class, or of a class that inherits the field, the value of the field lies in the range at any time, however the record was made and whatever was done before.", "quantifier": "all ranges, all classes and subclasses, all histories of constructions, copies, imports, assignments and other actions", "why_tests_cant": "histories, classes and arguments are unbounded", "anchors": ["records/fillers/builtin_validators.py:Clamp", "records/fillers/builtin_validators.py:Cyclic", "records/fillers/builtin_validators.py:Within", "records/record.py:RecordBase.__new__", "records/record.py:RecordBase.__init_subclass__"]}
{"id": "C135", "title": "Filling a container ends, also if it changes meanwhile", "statement": "Filling a list, deque, tuple or dict of any depth ends, also if coercers and validators change containers, those that are being filled included; if they change none, every element is filled exactly once, in order, and the field holds the container itself if all elements fill to themselves and a new one of the filled elements otherwise.", "quantifier": "all containers, nested to any depth, all coercers and validators with any effects on containers", "why_tests_cant": "sizes, depths and effects of user code are unbounded; that a loop never ends cannot be observed", "anchors": ["records/fillers/builtin_fillers/typing_fillers.py:GenericIterableFiller", "records/fillers/builtin_fillers/typing_fillers.py:GenericMappingFiller", "records/fillers/builtin_fillers/typing_fillers.py:TupleFiller", "records/fillers/builtin_fillers/typing_fillers.py:_split_at"]}
{"id": "C136", "title": "Containers hold what the annotation says when they are stored", "statement": "When a field is filled, the value that is stored is of the declared type in the state at that moment: the container, its elements, their elements, to any depth.", "quantifier": "all annotations of lists, deques, tuples and dicts nested to any depth, all values, all coercers and validators", "why_tests_cant": "elements are checked one after the other while user code runs and containers are shared; an element checked first could be wrong when the last one has been checked", "anchors": ["records/fillers/builtin_fillers/typing_fillers.py:GenericIterableFiller", "records/fillers/builtin_fillers/typing_fillers.py:GenericMappingFiller", "records/fillers/builtin_fillers/typing_fillers.py:TupleFiller", "records/fillers/builtin_fillers/typing_fillers.py:_split_at"]}
{"id": "C137", "title": "Fields keep their declared types after the record was made", "statement": "A field of container type, in particular in a frozen record, holds a value of the declared type at any time after the record was made.", "quantifier": "all containers, all that a program does after the record was made", "why_tests_cant": "what happens to a container later is arbitrary, and containers are shared", "anchors": ["records/fillers/builtin_fillers/typing_fillers.py:GenericIterableFiller", "records/fillers/builtin_fillers/typing_fillers.py:GenericMappingFiller", "records/fillers/builtin_fillers/typing_fillers.py:TupleFiller", "records/fillers/builtin_fillers/typing_fillers.py:_split_at", "records/record.py:RecordBase.__new__"]}
{"id": "C138", "title": "A field shares containers with the arguments only if nothing had to be converted", "statement": "If all elements of a container fill to themselves, the field holds the container that was given; otherwise it holds a container that did not exist before, and neither the given container nor any other is changed; changing what was given then does not change the record.", "quantifier": "all containers, all fillers of elements", "why_tests_cant": "needs all values and all fillers of elements, nested to any depth", "anchors": ["records/fillers/builtin_fillers/typing_fillers.py:GenericIterableFiller", "records/fillers/builtin_fillers/typing_fillers.py:GenericMappingFiller", "records/fillers/builtin_fillers/typing_fillers.py:TupleFiller", "records/fillers/builtin_fillers/typing_fillers.py:_split_at"]}
{"id": "C139", "title": "Fields can have any name", "statement": "Whatever names the fields of a class and the attributes of its records have, constructing, exporting, repr, hash, comparing, copying and deep copying work as for any other names.", "quantifier": "all classes with all field names, all records with all attributes, all values", "why_tests_cant": "names are unbounded, and a name that hides a method matters only in the operations that look it up", "anchors": ["records/record.py:RecordBase.__new__", "records/record.py:RecordBase.__init_subclass__", "records/record.py:RecordBase.__repr__", "records/record.py:RecordBase.__hash__", "records/record.py:RecordBase.__eq__", "records/record.py:RecordBase.__copy__", "records/record.py:RecordBase.__deepcopy__", "records/select.py:Exporter"]}
{"id": "C140", "title": "Mappings and keywords supply what earlier mappings lack", "statement": "cls.from_mapping(m1, ..., mn, **kw) takes a name that an earlier mapping does not have from the later ones, and from the keywords if none has it, whatever kinds of mappings they are: dicts, defaultdicts, ChainMaps, read-only proxies, mappings of the program.", "quantifier": "every list of mappings, every nesting, every keywords, every Select", "why_tests_cant": "unboundedly many mappings of unboundedly many kinds", "anchors": ["records/record.py:RecordBase.from_mapping", "records/select.py:SelectableFactory.run", "records/select.py:Select.__call__"]}
{"id": "C141", "title": "Registered fillers are used for the annotations they are registered for", "statement": "records.fillers.builtin_filler_map and builtin_filler_checkers decide which filler class an annotation gets.  The class last registered for an annotation is used for it; a class registered for a class C is also used for subclasses of C that have no entry of their own (repo.py: \"the mapping is checked again for subclassing\"); all other annotations keep their fillers.  Checkers appended to the list are asked, in order, about annotations that nothing before them recognises.  With what the library registers itself, the search ends for every annotation.", "quantifier": "every annotation, every history of registrations, every checker", "why_tests_cant": "histories of registrations and annotations are unbounded", "anchors": ["records/fillers/get_filler.py:get_annotated_filler", "records/fillers/builtin_fillers/repo.py:builtin_filler_map", "records/fillers/builtin_fillers/repo.py:builtin_filler_checkers", "records/fillers/builtin_fillers/std_fillers.py:std_filler_map", "records/fillers/builtin_fillers/typing_fillers.py:_typing"]}
{"id": "C142", "title": "Exporting through the class", "statement": "A.to_dict(x, ...), A.to_json(x, ...) and every other exporter, called on a record class with a record of that class as first argument (or as the keyword instance), do what x.to_dict(...) etc. do, after any chain of select and export_with.  Called with any other object they export the fields of A only, in field order, as far as the arguments ask for them; with include_defaults defaults stand in for missing attributes; a missing attribute without default raises AttributeError.  For a record of a class that descends from A that is what the record exports, restricted to the fields of A.  A.from_instance(v) is A.from_mapping of A.to_dict(v).", "quantifier": "every class, object, exporter, chain of select and export_with, and arguments", "why_tests_cant": "all objects and all chains", "anchors": ["records/select.py:Exporter.__get__", "records/select.py:Exporter.BoundToClass", "records/select.py:Exporter.run", "records/record.py:RecordBase._to_dict", "records/record.py:RecordBase.from_instance"]}
{"id": "C143", "title": "A deleted attribute is missing", "statement": "After del p.x on a record, p.x raises AttributeError, and exports raise AttributeError, or leave x out if it has a default (\"raises AttributeError: if obj lacks an attribute that has not been blacklisted\").  The other attributes and all other records stay as they are.  Assigning to p.x again has the effect it would have had without the deletion.", "quantifier": "every class, record, field and state", "why_tests_cant": "all classes and states", "anchors": ["records/record.py:RecordBase.__init_subclass__", "records/record.py:RecordBase._to_dict", "records/record.py:RecordBase.__setattr__"]}
{"id": "C144", "title": "Blacklists and whitelists may be any container", "statement": "blacklist_tags and whitelist_keys, annotated as Container, may be given as a single tag or name, a set, a list, a tuple or an object of any other class with \"in\": only which elements are in it decides which fields are exported.", "quantifier": "every class, object, state, container and other options of exports", "why_tests_cant": "user-defined containers; all classes, field tags and states", "anchors": ["records/record.py:RecordBase._to_dict"]}
{"id": "C145", "title": "Records can be pickled with any protocol", "statement": "x.to_pickle(p) and pickle.dumps(x, p), for every protocol p that the pickle module has and without one, give a pickle that is unpickled to a record equal to x.", "quantifier": "every class, record, state and protocol", "why_tests_cant": "all classes and records; what the standard library does with them is not visible in the code", "anchors": ["records/record.py:RecordBase.to_pickle", "records/record.py:RecordBase.__getnewargs_ex__", "records/record.py:RecordBase.__slots__", "records/record.py:RecordBase.__hash__"]}
{"id": "C146", "title": "Generic record classes can be called with parameters", "statement": "If A is a record class and Generic, A[T](...) gives the record that A(...) gives, and fails as it fails.", "quantifier": "every class, arguments and state", "why_tests_cant": "all classes, with all user code; needs what typing does after the call", "anchors": ["records/record.py:RecordBase.__new__", "records/record.py:RecordBase.__setattr__", "records/record.py:RecordBase.__init_subclass__"]}
{"id": "C147", "title": "Records within records can be written as JSON and read back", "statement": "If the values of the fields of x are scalars, records, or lists of such values, to any depth, x.to_json() gives a JSON text, and from_json() of it gives a new record of the same class whose fields hold the same scalars and, in the place of every list and record, a list or a record of the same class with the same content.", "quantifier": "every class, every record, to any depth, and every state in which the text is read", "why_tests_cant": "all trees of records and lists, of any depth and size", "anchors": ["records/record.py:RecordBase.to_json", "records/record.py:RecordBase.from_json", "records/record.py:RecordBase.from_mapping", "records/record.py:RecordBase._to_dict", "records/fillers/filler.py:AnnotatedFiller.fill"]}
{"id": "C148", "title": "Frozen records can be the keys of a dict", "statement": "If frozen records with hashable values are used as the keys of a dict (or the members of a set), then at any time d[p] is the value that was last assigned to a record of the same class with equal values in all fields and not removed since, and there is none if there was no such assignment; no two keys of the dict are equal. The program may do anything in between except assigning to p._hash, or deleting attributes of frozen records.", "quantifier": "all histories of assignments, removals and lookups, with any actions of the program in between, and all user code that keeps its contracts", "why_tests_cant": "all interleavings of dict operations, hash caching and other actions", "anchors": ["records/record.py:RecordBase.__hash__", "records/record.py:RecordBase.__eq__", "records/record.py:RecordBase.__setattr__"]}
{"id": "C149", "title": "Records of an ordered class can be sorted", "statement": "sorted() of instances of a class with ordered=True gives the same records in an order in which none is less than one before it, by the fields not excluded from ordering, compared lexicographically; records that are equal in these fields keep their order, with reverse=True too. min() and max() give the first of the least and of the greatest. Nothing is changed.", "quantifier": "lists of any length, all ordered classes, and all field values with a total order", "why_tests_cant": "all lists of records", "anchors": ["records/record.py:RecordBase.__lt__", "records/record.py:RecordBase.__gt__", "records/record.py:RecordBase.__ordering_key", "records/record.py:exclude_from_ordering"]}
{"id": "C150", "title": "== and != between a record and any other object agree", "statement": "p == x is the same as x == p, p != x is the negation of p == x, and a record is not equal to any object of another class.", "quantifier": "all records, and all other objects with any __eq__", "why_tests_cant": "all answers that other objects can give", "anchors": ["records/record.py:RecordBase.__eq__"]}
{"id": "C151", "title": "Mappings may have keys of any kind", "statement": "A Select does the documented edits on a mapping whose keys are any hashable objects, as it does on keys that are strings, equal keys being the same key. from_mapping with a Select accepts such mappings if the Select removes all keys that are not strings, or renames them to strings; otherwise it raises a TypeError and nothing is constructed.", "quantifier": "all types of keys with an equivalence as ==, all Selects, all mappings, any number of mappings and all classes", "why_tests_cant": "all key types, Selects and mappings", "anchors": ["records/select.py:Select.__call__", "records/select.py:Select.__bool__", "records/select.py:Select._merge", "records/record.py:RecordBase.from_mapping", "records/select.py:SelectableFactory.run"]}
{"id": "C152", "title": "A construction gives the same record in every run of Python", "statement": "The order in which Python iterates sets differs between runs (PYTHONHASHSEED). Constructing a record from the same keywords in the same state gives the same error or the same values in all runs, and so do comparing, hashing, exporting and printing it. Fields that are left out get their defaults in the order of their declaration.", "quantifier": "all iteration orders, all classes with any fields and default factories, all keywords and states", "why_tests_cant": "all iteration orders of sets: a test runs with a few hash seeds", "anchors": ["records/record.py:RecordBase.__new__", "records/record.py:RecordBase.__init_subclass__", "records/field.py:RecordField.make_default"]}
{"id": "C153", "title": "The order of keyword arguments does not matter", "statement": "Constructing a record from the same keywords in another order gives the same: a refusal in both cases, or a record with the same values. The error that is raised is the same too.", "quantifier": "all classes, keywords, orders of the keywords and states", "why_tests_cant": "all permutations of any number of keywords, and all fillers", "anchors": ["records/record.py:RecordBase.__new__"]}
{"id": "C154", "title": "Changed copies", "statement": "cls.from_instance(x, **changes), for x an instance of cls, frozen or not, gives a new record that has what the fields make of the changes and, in all other fields, values equal to those of x; x stays as it is. Changing a record twice gives the same values as one change by both, the later ones taking precedence; changing fields to the values they have gives an equal record.", "quantifier": "all classes, records, changes of any number of fields and sequences of changes", "why_tests_cant": "all classes, records and changes", "anchors": ["records/record.py:RecordBase.from_instance", "records/record.py:RecordBase._to_dict", "records/record.py:RecordBase.__new__"]}
{"id": "C155", "title": "A stored value can be stored again", "statement": "Whatever a field made of an argument and stored, it stores unchanged, the very object, when it is given that object again. Copies, changed copies, unpickled records and records rebuilt from exported data rely on this: they hand the stored values to the fields a second time.", "quantifier": "all declarations (annotations of any depth, with any tokens), arguments and states", "why_tests_cant": "all annotations, coercers, validators and values", "anchors": ["records/fillers/filler.py:AnnotatedFiller.fill", "records/fillers/typing_fillers.py:UnionFiller.fill", "records/fillers/typing_fillers.py:GenericIterableFiller", "records/record.py:RecordBase._to_dict"]}
{"id": "C156", "title": "At any time a record can be made again from its own data", "statement": "In a program whose record classes check types and validate only by tests (no validators that change values, no Unions of containers with coercers), every record, whenever and however it was made, can be made again from its own data: from_mapping of its to_dict gives an equal record, copy.copy gives a record with the very same objects, and from_instance with changes gives a record with the changes and otherwise the very same objects. Own and inherited fields, defaults that the fields could store, failed constructions and failed assignments included.", "quantifier": "all class statements of that kind, with bases and pre_bind, all histories of operations on records, all records at the end of them", "why_tests_cant": "all annotations and all histories; whether a field accepts what another operation stored there long before depends on all of them", "anchors": ["records/record.py:RecordBase.to_dict", "records/record.py:RecordBase.from_mapping", "records/record.py:RecordBase.from_instance", "records/record.py:RecordBase.__copy__", "records/fillers/filler.py:AnnotatedFiller.fill"]}
{"id": "C157", "title": "Equal records export equal data", "statement": "Two records of the same class that are equal export the same names in the same order with equal values, whatever the arguments of to_dict and the Select; where one export raises, the other raises the same error. Conversely, records of a class whose to_dict() are equal are equal. Their JSON is the same.", "quantifier": "all classes, pairs of records, export arguments and Selects", "why_tests_cant": "all values, defaults and Selects", "anchors": ["records/record.py:RecordBase._to_dict", "records/record.py:RecordBase.to_dict", "records/record.py:RecordBase.to_json", "records/select.py:Select.__call__"]}
{"id": "C158", "title": "Records of one class can be made from records of another", "statement": "cls.from_instance(v), for a record v of another class or any other object, makes a record each of whose fields has what the field makes of the attribute of its name; it has its default if v has no such attribute or one equal to the default. Other attributes of v do not matter and no record changes. If cls is a base class of the class of v that is not frozen, and the fields settle (C155), the new record has the very objects v has, at any time. A record that is turned into a record of another class and back is equal to what it was, if the fields of both classes store its values as they are.", "quantifier": "all classes, all objects with their attributes, all programs and histories, all values", "why_tests_cant": "the classes, their bases, the values and what happened before are arbitrary", "anchors": ["records/record.py:RecordBase.from_instance", "records/record.py:RecordBase._to_dict", "records/record.py:RecordBase.__new__", "records/field.py:RecordField.is_default"]}
{"id": "C159", "title": "A sub_key names a part of the annotation as Python indices do", "statement": "add_validator, add_assert_validator and add_coercer with a sub_key add to the part of the annotation the key names: the members of a Union or a Tuple are counted from the front or, with negative numbers, from the end; the elements of a collection and the keys and values of a mapping are named by whatever is equal to 0 or 1. None is the field itself. A key names at most one part; every other key is refused with LookupError. It does not matter which of its keys names a part: the field is the same.", "quantifier": "all annotations, all keys (None, ints, any other object), all sequences of tokens and keys", "why_tests_cant": "the annotations, keys and tokens are arbitrary", "anchors": ["records/field.py:RecordField._apply_to_filler", "records/fillers/filler.py:Filler.sub_filler", "records/fillers/builtin_fillers/typing_fillers.py:UnionFiller.sub_filler", "records/fillers/builtin_fillers/typing_fillers.py:TupleFiller.sub_filler", "records/fillers/builtin_fillers/typing_fillers.py:GenericIterableFiller.sub_filler", "records/fillers/builtin_fillers/typing_fillers.py:GenericMappingFiller.sub_filler"]}
{"id": "C160", "title": "Assertions only restrict and coercers only extend what a field accepts", "statement": "Taking assertions out of the declaration of a field, or adding coercers behind those it has, anywhere in the declaration, keeps everything the field accepts: the same values are accepted, the same objects are stored for them and the same effects happen. Equivalently, adding an assertion never makes a field accept more nor changes what it stores. A call of the class with keyword arguments that made a record makes the same record with the more generous declarations.", "quantifier": "all annotations, styles, coercers and validators with arbitrary effects, assertions, values and states; all classes and keyword arguments", "why_tests_cant": "the declarations, the callables attached to them, the values and the states are arbitrary, and the change may be at any depth", "anchors": ["records/fillers/filler.py:AnnotatedFiller.fill", "records/fillers/filler.py:AnnotatedFiller.apply", "records/fillers/builtin_fillers/typing_fillers.py:GenericFiller", "records/record.py:RecordBase.__new__"]}
{"id": "C161", "title": "A class that checks types less strictly accepts at least as much", "statement": "Whatever a field accepts under the type checking style strict, it accepts under check, and stores the same object with the same effects. Whatever it accepts under strict or check, it accepts under hollow, and stores the argument itself. So making the default type checking style of a class less strict breaks no call that worked.", "quantifier": "all annotations, metadata, validators (with effects), values and states", "why_tests_cant": "the annotations, their nesting, the callables attached to them, the values and the states are arbitrary", "anchors": ["records/fillers/filler.py:AnnotatedFiller.fill", "records/fillers/filler.py:AnnotatedFiller.bind", "records/fillers/filler.py:TypeCheckStyle", "records/fillers/builtin_fillers/typing_fillers.py:UnionFiller.fill"]}
{"id": "C162", "title": "The coercers of a Literal field are asked for values of other classes only", "statement": "A value whose class is the class of one of the literals is never handed to the coercers of a Literal field, and unless the field is strict neither is one whose class inherits from such a class: the field treats it as if it had no coercers. Any other value, as long as the field has met no value of its class before, is handed to them; the error of a single coercer is the error of the field, a literal it gives is the value, anything else it gives is refused; without coercers the value is refused with TypeError.", "quantifier": "all sets of literals, values, coercers, tokens, default styles and states", "why_tests_cant": "the literals, the values and the coercers are arbitrary", "anchors": ["records/fillers/builtin_fillers/typing_fillers.py:LiteralFiller.type_check", "records/fillers/filler.py:AnnotatedFiller.fill"]}
{"id": "C163", "title": "Records exported by one version of a class can be read by a later version", "statement": "Let a later version of a class have further fields with default values, lack some fields, and take the values of the others. Then what to_dict or to_json of a record of the earlier version gives is read by from_mapping or from_json of the later one with keys_to_maybe_remove naming the fields that are gone. Every value that differs from its default is continued; a value equal to its default becomes the default the field has in the later version; a new field has its default. With include_defaults=True every value is continued whatever happened to the defaults. With keys_to_remove instead, reading fails with KeyError whenever the record had the default in that field.", "quantifier": "all pairs of class versions, records, transports between the two processes and states", "why_tests_cant": "the classes, the values and what the transport makes of them are arbitrary", "anchors": ["records/record.py:RecordBase.to_dict", "records/record.py:RecordBase.from_mapping", "records/record.py:RecordBase.from_json", "records/select.py:Select.__call__"]}
{"id": "C164", "title": "The order of the fields in a class statement matters for nothing but ordering", "statement": "If a class statement defines a class, so does the statement with its annotations in another order, with the same fields in another order. Constructing records with keywords or a positional argument that is not parsed, comparing them with == and exporting them then gives the same: the same error or record, the same answer, the same items, and with sort=True the same dict in the same order. (Assumed: default factories of different fields do not influence each other, and no post_new.) The comparisons < <= > >= depend on the order of the fields by design.", "quantifier": "all class statements, permutations of their annotations, keywords, records, export arguments and states", "why_tests_cant": "the statement and the permutation are arbitrary", "anchors": ["records/record.py:RecordBase.__init_subclass__", "records/record.py:RecordBase.__new__", "records/record.py:RecordBase.__eq__", "records/record.py:RecordBase._to_dict", "records/record.py:RecordBase.__lt__"]}
{"id": "C165", "title": "A Type[B] field stores exactly the classes that inherit from B; coercion tokens that a field cannot use are errors", "statement": "A field annotated Type[B] stores every class that inherits from B as it is, refuses every other class with ValueError and every other object with TypeError, and passes on an error of issubclass; with type checking HOLLOW it stores every object. A coercion token that the class of a field has no coercer for (FromInteger unless the field is a bool, a token that is not callable, a composition containing one) is never ignored: the class statement fails, whatever tokens surround it, and with TypeError if it is the first coercer or assertion.", "quantifier": "all bases, type checking styles, objects and states; all classes, tokens around the unknown one and nestings of compositions", "why_tests_cant": "the objects and token lists are arbitrary", "anchors": ["records/fillers/builtin_fillers/typing_fillers.py:TypeFiller", "records/fillers/filler.py:AnnotatedFiller.get_coercer", "records/fillers/filler.py:AnnotatedFiller.get_validator", "records/fillers/builtin_fillers/std_fillers.py:BoolFiller.get_coercer"]}
{"id": "C166", "title": "Grouping members of a Union in a Union of their own changes nothing but ambiguities", "statement": "A Union can be a member of another without being merged with it: behind a NewType, or Annotated. The class statement then succeeds or fails as the one with all members in one Union does, with the same error. What the merged Union accepts, the grouped one accepts, storing the same object; the members are asked in the same order and with the same effects. What the grouped one accepts, the merged one accepts too, storing the same object, or refuses with ValueError because two members disagree. (At least one member of the group checks types.)", "quantifier": "all members before, inside and behind the group, tokens on the Union, type checking styles, callbacks with any effects, values and states", "why_tests_cant": "the members and their callbacks are arbitrary", "anchors": ["records/fillers/builtin_fillers/typing_fillers.py:UnionFiller.fill", "records/fillers/builtin_fillers/typing_fillers.py:UnionFiller.bind"]}
{"id": "C167", "title": "An Optional field stores None as None and treats everything else as the field without Optional", "statement": "In a class that checks types, a field annotated Optional[T] stores the same as a field annotated T for every object but None, with the same effects, and refuses what that one refuses (with TypeError; Union[None, T] fails with the very same error). None is stored as None, in either order, whether T refuses it, accepts it as it is, or has a coercer that would turn it into something else (if None is not exactly of type T). An assertion on the Optional itself is asked about None too, and refuses it.", "quantifier": "all annotations T with any callbacks, strict and non-strict checking, all objects and states", "why_tests_cant": "the annotation, its callbacks and the object are arbitrary", "anchors": ["records/fillers/builtin_fillers/typing_fillers.py:UnionFiller.fill", "records/fillers/builtin_fillers/std_fillers.py:none_checker"]}
{"id": "C168", "title": "Tuple[T, ..., T] is Tuple[T, ...] with a length", "statement": "A field annotated with a tuple of n times T does with every tuple of n elements what a field annotated Tuple[T, ...] with the same tokens does: the same stored object or error, and the same effects. Tuples of another length it refuses with ValueError, unless types are not checked. Whether an argument is a tuple or is converted to one is decided as by a field annotated tuple. So what the first stores the second stores too.", "quantifier": "all annotations T with any callbacks, n > 0, tokens on the tuple, type checking styles, objects and states", "why_tests_cant": "the annotation, the length and the object are arbitrary", "anchors": ["records/fillers/builtin_fillers/typing_fillers.py:TupleFiller"]}
{"id": "C169", "title": "A further member of a Union only matters to what it accepts", "statement": "In a class that checks types, adding a member to a Union, at any place, changes nothing for arguments that this member refuses: they are stored as before or refused as before, with the same effects. An object that the old Union and the new member both store as it is, is stored as it is; so values stored under the old annotation can be stored under the new one. What the new Union stores, the old one or the new member stores too.", "quantifier": "all members with any callbacks, all places, tokens on the Union, new members whose refusing and storing has no effects, all objects and states", "why_tests_cant": "the members and their callbacks are arbitrary", "anchors": ["records/fillers/builtin_fillers/typing_fillers.py:UnionFiller.fill", "records/fillers/builtin_fillers/typing_fillers.py:UnionFiller.bind"]}
{"id": "C170", "title": "Tokens of different kinds may stand in any order in an annotation", "statement": "The arguments of Annotated, anywhere in an annotation, and the tokens added to a field later may be mixed in any way as long as those of one kind (type checking styles; coercers; validators and assertions; other metadata) keep their order: the field is accepted in both orders or in neither, and does the same with every object, with the same result, the same error and the same effects. A class whose fields are declared in the other order does the same in every call and every factory.", "quantifier": "all annotations including Unions, containers and Annotated inside Annotated, all tokens with any callbacks, all objects and states, all classes and all arguments", "why_tests_cant": "the annotations nest without bound and the callbacks are arbitrary", "anchors": ["records/fillers/filler.py:AnnotatedFiller.apply", "records/fillers/filler.py:AnnotatedFiller.bind", "records/fillers/get_filler.py:get_annotated_filler", "records/fillers/builtin_fillers/typing_fillers.py:UnionFiller.bind"]}
{"id": "C171", "title": "Tokens on a Union are tokens of each of its members", "statement": "Annotated[Union[A, B], t, ...] is the Union of Annotated[A, t, ...] and Annotated[B, t, ...], with the tokens of the Union in front of those the member has: the one is refused if and only if the other is, and they do the same with every object, with the same result, the same error and the same effects.", "quantifier": "all members (containers, NewTypes and Unions included) with any tokens and callbacks, all tokens on the Union, all objects and states", "why_tests_cant": "the members nest without bound and the callbacks are arbitrary", "anchors": ["records/fillers/builtin_fillers/typing_fillers.py:UnionFiller.bind", "records/fillers/builtin_fillers/typing_fillers.py:UnionFiller.apply", "records/fillers/filler.py:AnnotatedFiller.bind"]}
{"id": "C172", "title": "A subclass that declares nothing stores what its parent stores", "statement": "A record class whose body declares no fields stores the same objects for the same keyword arguments as its parent, with the same effects, and refuses the same ones with the same errors, whatever options the subclass is given. A subclass whose own fields all have defaults accepts the keyword arguments its parent accepts and stores the same objects for the fields of the parent.", "quantifier": "all parent classes with all their fields, tokens, callbacks and defaults, all options of the subclass, all keyword arguments and states", "why_tests_cant": "the fields of the parent, their callbacks and the options of the subclass can be combined without bound", "anchors": ["records/record.py:RecordBase.__init_subclass__", "records/record.py:RecordBase.__new__"]}
{"id": "C173", "title": "To say something twice in an annotation changes nothing", "statement": "In an annotation it changes nothing to give a token twice if what it gave is kept when it is asked again, and of several type checking styles only the last counts. The field is accepted or refused alike, and does the same with every object: the same result, the same error and the same effects, also inside Unions and containers and in all factories of the class.", "quantifier": "all annotations with tokens anywhere in them, all coercers and validators that keep their results and refusals, all objects and states", "why_tests_cant": "annotations nest without bound and the callbacks are arbitrary", "anchors": ["records/fillers/filler.py:AnnotatedFiller.fill", "records/fillers/filler.py:AnnotatedFiller.apply", "records/fillers/filler.py:AnnotatedFiller.bind"]}
{"id": "C174", "title": "The order of assertions decides about the error only", "statement": "Assertions in an annotation may stand in any order: the field refuses the same objects, gives the same result for all others and has the same effects, also inside Unions and containers. Which error is raised may depend on the order. A class whose fields differ in this way does the same in every call and in every factory but for the error.", "quantifier": "all annotations with assertions anywhere in them, all other tokens and callbacks, all objects, keyword arguments and states", "why_tests_cant": "annotations nest without bound, and the order matters for no object or for some that no test tries", "anchors": ["records/fillers/filler.py:AnnotatedFiller.fill", "records/fillers/validators.py:AssertValidation", "records/fillers/builtin_fillers/typing_fillers.py:UnionFiller.fill"]}
{"id": "C175", "title": "A Select of optional edits may be applied to data it was applied to", "statement": "If a Select only has keys_to_maybe_remove, keys_to_maybe_rename and keys_to_maybe_add, and no name is both an old and a new one, then applying it to what it made succeeds and changes nothing: every key keeps its value, so from_mapping makes the same record of both. If it has no renamings it refuses no mapping at all.", "quantifier": "all Selects that can be made, merged and called, all mappings they accept, all keys and values", "why_tests_cant": "the lists of edits and the mappings have any length, and only some combinations of names collide", "anchors": ["records/select.py:Select.__call__", "records/select.py:Select.__init__"]}
{"id": "C176", "title": "The edits in one argument of a Select may stand in any order", "statement": "The names and pairs in each argument of Select may be given in any order: for every mapping both Selects refuse it, or both give every key the same value, and from_mapping makes the same record. Selects may be merged in either order. This needs renamings without chains, and no key that is optionally renamed or added twice.", "quantifier": "all Selects that can be made, merged and called, all reorderings of their arguments, all mappings", "why_tests_cant": "the number of orders grows with the factorial of the number of edits", "anchors": ["records/select.py:Select.__call__", "records/select.py:Select.__init__", "records/record.py:RecordBase.from_mapping"]}
