{
 "claims": [
  {
   "property": "C01",
   "status": "proved",
   "theorems": [
    "c01_hollow"
   ],
   "note": "at the level of a field filler; constructing stores the filler output (see the record theorems)"
  },
  {
   "property": "C02",
   "status": "proved",
   "theorems": [
    "c02_type_soundness"
   ],
   "note": "for all annotation trees, coercers and assert-only validators; assumes constructors of container classes keep their promise (honest_containers)"
  },
  {
   "property": "C03",
   "status": "partial",
   "theorems": [
    "c03_callable_refuted",
    "c03_none_refuted",
    "c03_partial"
   ],
   "note": "refuted for fields with coercers (c03_none_refuted, c03_callable_refuted); holds without coercers"
  },
  {
   "property": "C04",
   "status": "proved",
   "theorems": [
    "c04_matching_not_coerced",
    "c04_matching_not_coerced_special"
   ],
   "note": "for class annotations, None and callable"
  },
  {
   "property": "C05",
   "status": "proved",
   "theorems": [
    "c05_cases",
    "c05_first_coercer_wins"
   ],
   "note": "for class annotations; c05_cases shows the case analysis is exhaustive"
  },
  {
   "property": "C06",
   "status": "partial",
   "theorems": [
    "c06_partial",
    "c06_refuted"
   ],
   "note": "refuted: a wrong-typed coercion result replaces the argument (c06_refuted); holds if coercers return right-typed values or raise"
  },
  {
   "property": "C07",
   "status": "proved",
   "theorems": [
    "c07_validators_in_order"
   ],
   "note": "for class, None, callable and Any annotations: checking and coercion as without validators, then the validators in order"
  },
  {
   "property": "C08",
   "status": "proved",
   "theorems": [
    "c08_match_kinds",
    "c08_order_irrelevant"
   ],
   "note": "for members whose outcome on the argument does not depend on the program state"
  },
  {
   "property": "C09",
   "status": "proved",
   "theorems": [
    "c09_union",
    "c09_verdict"
   ],
   "note": ""
  },
  {
   "property": "C10",
   "status": "proved",
   "theorems": [
    "c10_elements",
    "c10_elements_tuple"
   ],
   "note": "call equation of the bound filler against fill_elements of Spec_Filler.v"
  },
  {
   "property": "C11",
   "status": "proved",
   "theorems": [
    "c11_fixed_tuple"
   ],
   "note": "call equation against fill_positions / check_length of Spec_Filler.v"
  },
  {
   "property": "C12",
   "status": "proved",
   "theorems": [
    "c12_mapping"
   ],
   "note": "call equation against fill_items of Spec_Filler.v"
  },
  {
   "property": "C13",
   "status": "proved",
   "theorems": [
    "c13_errors",
    "c13_literal"
   ],
   "note": ""
  },
  {
   "property": "C14",
   "status": "partial",
   "theorems": [
    "c14_fields_partial",
    "c14_literal_refuted",
    "c14_records_partial"
   ],
   "note": "Refuted: c14_literal_refuted, a Literal field with a coercer accepts 7 in a fresh program and rejects it after a failed construction from 5. What holds for every state, for fields and for records: filling does not depend on the state if no coercer or validator applies to a Literal and the coercers, validators and container constructors do not depend on it themselves. Missing: Literals with coercers or validators."
  },
  {
   "property": "C15",
   "status": "proved",
   "theorems": [
    "c15_exact",
    "c15_hollow_container",
    "c15_hollow_with_coercers",
    "c15_not_a_type",
    "c15_refused",
    "c15_strict_abstract",
    "c15_unspecialised"
   ],
   "note": "at filler level; the five exception classes are stated for a contradiction at the top of the annotation"
  },
  {
   "property": "C16",
   "status": "partial",
   "theorems": [
    "c16_elements_refuted",
    "c16_partial",
    "c16_union_refuted"
   ],
   "note": "refuted for hollow Unions and hollow elements of checked containers; holds at every checked non-container place"
  },
  {
   "property": "C17",
   "status": "partial",
   "theorems": [
    "c17_partial",
    "c17_refuted"
   ],
   "note": "refuted: container validators run before elements are filled; holds when no element had to be changed"
  },
  {
   "property": "C18",
   "status": "proved",
   "theorems": [
    "c18_class_fields",
    "c18_sealed"
   ],
   "note": "at filler level and for the fields of every record class (c18_class_fields)"
  },
  {
   "property": "C19",
   "status": "proved",
   "theorems": [
    "c19_interrupts",
    "c19_records"
   ],
   "note": "c19_interrupts for coercers and validators at every depth, c19_records for constructors, parsers, post_new, exports, comparison, hashing and copying"
  },
  {
   "property": "C20",
   "status": "proved",
   "theorems": [
    "c20_construct",
    "c20_instance",
    "c20_succeeds"
   ],
   "note": "c20_construct gives the exact computation, c20_instance the resulting object, c20_succeeds the converse. Keyword names cls, arg and self are excluded (C29)."
  },
  {
   "property": "C21",
   "status": "proved",
   "theorems": [
    "c21_missing",
    "c21_unknown"
   ],
   "note": ""
  },
  {
   "property": "C22",
   "status": "proved",
   "theorems": [
    "c22_both_ways",
    "c22_no_trivial_field",
    "c22_positional"
   ],
   "note": ""
  },
  {
   "property": "C23",
   "status": "partial",
   "theorems": [
    "c23_both",
    "c23_factory_refuted",
    "c23_no_trivial_field",
    "c23_only_parsing_partial",
    "c23_only_trivial",
    "c23_parse_error"
   ],
   "note": "Refuted in one case (c23_factory_refuted): a default factory that raises during the trivial reading makes cls(v) raise although v parses. The other cases are proved; when only parsing works the parse result must also be true (C31)."
  },
  {
   "property": "C24",
   "status": "proved",
   "theorems": [
    "c24_order",
    "c24_parse"
   ],
   "note": "c24_parse holds for parsers with any effects; c24_order for parsers without side effects. Parsers that are interrupted by a non-Exception are covered by C19."
  },
  {
   "property": "C25",
   "status": "partial",
   "theorems": [
    "c25_constructor_refuted",
    "c25_names_field_partial"
   ],
   "note": "refuted for error classes whose constructor refuses the message with another error than TypeError (c25_constructor_refuted, for all classes and arguments); proved for all other errors"
  },
  {
   "property": "C26",
   "status": "proved",
   "theorems": [
    "c26_defaults",
    "c26_unused_factories"
   ],
   "note": ""
  },
  {
   "property": "C27",
   "status": "partial",
   "theorems": [
    "c27_default_refuted",
    "c27_passed_partial"
   ],
   "note": "Refuted (c27_default_refuted): defaults are stored without going through the field type. Proved for the values that are passed."
  },
  {
   "property": "C28",
   "status": "proved",
   "theorems": [
    "c28_post_new"
   ],
   "note": ""
  },
  {
   "property": "C29",
   "status": "partial",
   "theorems": [
    "c29_arg_refuted",
    "c29_cls_refuted",
    "c29_keyword_partial",
    "c29_self_refuted"
   ],
   "note": "Refuted for fields called cls, self and arg (c29_*_refuted); proved for all other names."
  },
  {
   "property": "C30",
   "status": "partial",
   "theorems": [
    "c30_all_optional_refuted",
    "c30_mapping_partial"
   ],
   "note": "Refuted for classes all of whose fields have defaults (c30_all_optional_refuted); proved for classes with at least two required fields."
  },
  {
   "property": "C31",
   "status": "partial",
   "theorems": [
    "c31_false_result_refuted",
    "c31_true_result_partial"
   ],
   "note": "Refuted for parse results that are false, e.g. records with __len__ or __bool__ (c31_false_result_refuted); proved for true ones."
  },
  {
   "property": "C32",
   "status": "proved",
   "theorems": [
    "c32_to_dict"
   ],
   "note": ""
  },
  {
   "property": "C33",
   "status": "proved",
   "theorems": [
    "c33_sorted"
   ],
   "note": "c33_sorted compares the sorted export with the unsorted one of C32"
  },
  {
   "property": "C34",
   "status": "proved",
   "theorems": [
    "c34_exports",
    "c34_history",
    "c34_untouched"
   ],
   "note": "the exported dict is a value of its own in the model; that it shares no structure with the instance is by construction of _to_dict"
  },
  {
   "property": "C35",
   "status": "proved",
   "theorems": [
    "c35_export_with_accumulates",
    "c35_exporter_chain",
    "c35_factory_selects_accumulate",
    "c35_noarg_exporter_call",
    "c35_select_leaves_operands",
    "c35_unconfigured"
   ],
   "note": "chained select/export_with on bound factories and exporters, chains of any length and order for exporters (c35_exporter_chain); operands keep their behaviour"
  },
  {
   "property": "C36",
   "status": "proved",
   "theorems": [
    "c36_arguments",
    "c36_mapping"
   ],
   "note": "c36_mapping without arguments, c36_arguments with any export arguments that hide only defaults; for classes whose post_new accepts records equal to the exported one, and whose fillers return stored values unchanged"
  },
  {
   "property": "C37",
   "status": "proved",
   "theorems": [
    "c37_records",
    "c37_rename_roundtrip"
   ],
   "note": "c37_rename_roundtrip is about mappings, c37_records about to_dict and from_mapping of records; the renamed fields must be exported, see C108"
  },
  {
   "property": "C38",
   "status": "partial",
   "theorems": [
    "c38_default_refuted",
    "c38_frozen_partial",
    "c38_not_default_partial"
   ],
   "note": "Refuted for non-frozen records (c38_default_refuted): values equal to the default of their field are replaced by the default. Proved for frozen records and for all other values."
  },
  {
   "property": "C39",
   "status": "proved",
   "theorems": [
    "c39_json"
   ],
   "note": "what json.dumps and json.loads do is a parameter: the theorem assumes that the decoded items are turned by the fillers into values equal to the stored ones"
  },
  {
   "property": "C40",
   "status": "proved",
   "theorems": [
    "c40_pickle"
   ],
   "note": "pickle of the field values is a parameter; post_new must accept what the fillers make of the copies"
  },
  {
   "property": "C41",
   "status": "partial",
   "theorems": [
    "c41_hashed_refuted",
    "c41_not_hashed_partial"
   ],
   "note": "Refuted for records hashed before pickling (c41_hashed_refuted); proved for records not hashed yet."
  },
  {
   "property": "C42",
   "status": "proved",
   "theorems": [
    "c42_added",
    "c42_frame",
    "c42_maybe_added",
    "c42_maybe_renamed",
    "c42_removed_are_gone",
    "c42_renamed",
    "c42_select_refines_spec"
   ],
   "note": "refinement of the edit specification in Spec_Select.v plus direct per-key consequences"
  },
  {
   "property": "C43",
   "status": "proved",
   "theorems": [
    "c43_errors",
    "c43_never_overwrites",
    "c42_select_refines_spec"
   ],
   "note": "error cases come from the same refinement (c42_select_refines_spec); c43_never_overwrites and c43_errors spell them out"
  },
  {
   "property": "C44",
   "status": "proved",
   "theorems": [
    "c44_empty_select_is_noop",
    "c44_merge_assoc",
    "c44_merge_empty",
    "c44_merge_is_fold",
    "c44_merge_nothing"
   ],
   "note": "laws hold for all Selects built from re-iterable arguments, merged and used any number of times"
  },
  {
   "property": "C45",
   "status": "partial",
   "theorems": [
    "c45_after_removing_partial",
    "c45_in_order_partial",
    "c45_merge_is_sequential_partial",
    "c45_merge_is_sequential_refuted"
   ],
   "note": "refuted in general (c45_merge_is_sequential_refuted); holds if edits of the first Select and edits of the second that belong to an earlier phase are about different keys (c45_in_order_partial)"
  },
  {
   "property": "C46",
   "status": "partial",
   "theorems": [
    "c46_custom_refuted",
    "c46_dict_argument_refuted",
    "c46_from_instance_partial",
    "c46_from_mapping_partial",
    "c46_mapping_error",
    "c46_to_dict",
    "c46_two_mappings",
    "c34_exports"
   ],
   "note": "mappings as shared objects: from_mapping and from_instance leave every dict as it was (no defaultdict among the mappings), to_dict returns a new dict; refuted for custom factories that return a dict they keep, which is edited itself, and for defaultdicts (C140)"
  },
  {
   "property": "C47",
   "status": "partial",
   "theorems": [
    "c47_generators_refuted",
    "c47_one_shot_refuted",
    "c47_reusable_partial"
   ],
   "note": "refuted for one-shot iterators (c47_one_shot_refuted); holds for re-iterable arguments"
  },
  {
   "property": "C48",
   "status": "partial",
   "theorems": [
    "c48_maybe_rename_skips_partial",
    "c48_maybe_rename_skips_refuted"
   ],
   "note": "the documented skip is refuted (ValueError is raised); skipping when the old name is missing is proved"
  },
  {
   "property": "C49",
   "status": "proved",
   "theorems": [
    "c49_assignment",
    "c49_history",
    "c49_not_frozen"
   ],
   "note": "histories of the listed operations, with arbitrary other code in between that does not itself write to frozen records; deletion is C50, unpickling C78"
  },
  {
   "property": "C50",
   "status": "partial",
   "theorems": [
    "c50_delete_refuted"
   ],
   "note": "Refuted for every frozen record (c50_delete_refuted); nothing remains to be proved of the claim."
  },
  {
   "property": "C51",
   "status": "partial",
   "theorems": [
    "c51_assignment_refuted",
    "c51_history_partial"
   ],
   "note": "Refuted by assignment to _hash (c51_assignment_refuted); proved for histories without such assignments."
  },
  {
   "property": "C52",
   "status": "proved",
   "theorems": [
    "c52_equal_hash"
   ],
   "note": "for instances whose hash slot is empty or holds the hash of their content"
  },
  {
   "property": "C53",
   "status": "proved",
   "theorems": [
    "c53_equivalence",
    "c53_fieldwise",
    "c53_other_class"
   ],
   "note": "for frozen classes the field values must be hashable (C54)"
  },
  {
   "property": "C54",
   "status": "partial",
   "theorems": [
    "c54_frozen_refuted",
    "c54_not_frozen_partial",
    "c53_fieldwise"
   ],
   "note": "Refuted for frozen records with unhashable fields (c54_frozen_refuted); proved for non-frozen ones (c54_not_frozen_partial), and for frozen ones whose values are hashable (c53_fieldwise)."
  },
  {
   "property": "C55",
   "status": "proved",
   "theorems": [
    "c55_copy",
    "c55_frozen"
   ],
   "note": "for classes whose post_new accepts records equal to the copied one"
  },
  {
   "property": "C57",
   "status": "proved",
   "theorems": [
    "c57_lexicographic",
    "c57_order"
   ],
   "note": ""
  },
  {
   "property": "C58",
   "status": "proved",
   "theorems": [
    "c58_not_ordered",
    "c58_not_ordered_subclass",
    "c58_other_object",
    "c58_other_record"
   ],
   "note": "an object that is not a record may implement the mirrored comparison itself; then its answer is returned"
  },
  {
   "property": "C59",
   "status": "proved",
   "theorems": [
    "c59_declaration_order",
    "c59_distinct",
    "c59_duplicate",
    "c59_empty",
    "c59_fields",
    "c59_names",
    "c59_partition"
   ],
   "note": "class statements as data (Decl); c60_bases_partial shows creation also succeeds whenever the statement is in order"
  },
  {
   "property": "C60",
   "status": "partial",
   "theorems": [
    "c60_bases_partial",
    "c60_diamond_refuted"
   ],
   "note": "refuted: a shared field always makes class creation fail (c60_diamond_refuted); bases without a common field can be combined"
  },
  {
   "property": "C61",
   "status": "proved",
   "theorems": [
    "c61_unary_default"
   ],
   "note": ""
  },
  {
   "property": "C62",
   "status": "partial",
   "theorems": [
    "c62_filter_partial",
    "c62_inherited_refuted"
   ],
   "note": "refuted for classes that inherit fields: their _fields is a plain dict (c62_inherited_refuted); holds otherwise"
  },
  {
   "property": "C63",
   "status": "proved",
   "theorems": [
    "c63_clamp",
    "c63_idempotent_monotone",
    "c63_nan_refuted",
    "c63_refused",
    "c63_unordered_refuted"
   ],
   "note": "for total orders; a Clamp of floats lets nan pass (c63_nan_refuted)"
  },
  {
   "property": "C64",
   "status": "proved",
   "theorems": [
    "c64_cyclic",
    "c64_float_refuted",
    "c64_wrong_bounds"
   ],
   "note": "for all exact numbers, integers and fractions; on floats rounding can give the upper bound itself (c64_float_refuted)"
  },
  {
   "property": "C65",
   "status": "proved",
   "theorems": [
    "c65_answers",
    "c65_refused",
    "c65_within"
   ],
   "note": ""
  },
  {
   "property": "C66",
   "status": "partial",
   "theorems": [
    "c66_float_near_partial",
    "c66_float_partial",
    "c66_float_refuted",
    "c66_rational_partial"
   ],
   "note": "Refuted for floats (c66_float_refuted): 2.9999999999 becomes 2 and -1e-20 becomes 0. Proved for rationals, for floats that are whole and for inf and nan. c66_float_near_partial says which finite floats are taken: exactly those that are whole or at most about 1e-9 below an integer (the last digits of that bound depend on roundings)."
  },
  {
   "property": "C67",
   "status": "proved",
   "theorems": [
    "c67_coercer",
    "c67_explicit_length",
    "c67_round_trip",
    "c67_unsigned"
   ],
   "note": "the byte order is given explicitly"
  },
  {
   "property": "C68",
   "status": "proved",
   "theorems": [
    "c68_from_integer"
   ],
   "note": ""
  },
  {
   "property": "C69",
   "status": "proved",
   "theorems": [
    "c69_map",
    "c69_unhashable"
   ],
   "note": ""
  },
  {
   "property": "C70",
   "status": "proved",
   "theorems": [
    "c70_associative",
    "c70_compose",
    "c70_no_token",
    "c70_tokens"
   ],
   "note": ""
  },
  {
   "property": "C71",
   "status": "partial",
   "theorems": [
    "c71_loose_partial",
    "c71_loose_refuted",
    "c71_unpack",
    "c71_unpack_map",
    "c71_unpack_map_twice"
   ],
   "note": "Refuted for Loose.constrain(()) (c71_loose_refuted); proved for all other constraints. LooseUnpackMap: for arguments whose items() and keyword unpacking agree."
  },
  {
   "property": "C72",
   "status": "proved",
   "theorems": [
    "c72_attributes",
    "c72_missing",
    "c72_same"
   ],
   "note": ""
  },
  {
   "property": "C73",
   "status": "partial",
   "theorems": [
    "c73_default_refuted",
    "c73_maybe_add_refuted",
    "c73_replace_refuted",
    "c73_same_partial"
   ],
   "note": "Refuted in three ways: attribute equal to a default and removed or renamed (c73_default_refuted), required name maybe-added (c73_maybe_add_refuted), name removed and added (c73_replace_refuted). Proved otherwise (c73_same_partial)."
  },
  {
   "property": "C74",
   "status": "proved",
   "theorems": [
    "c74_assert",
    "c74_builtin",
    "c74_warn_never_raises"
   ],
   "note": "with warn, an error is only raised if the condition itself or the warning machinery raises"
  },
  {
   "property": "C75",
   "status": "partial",
   "theorems": [
    "c75_prebind_inherited_refuted",
    "c59_fields"
   ],
   "note": "refuted: an inherited pre_bind that touches an inherited field makes creation fail; fields inherited without it keep their filler (c59_fields)"
  },
  {
   "property": "C76",
   "status": "proved",
   "theorems": [
    "c76_deepcopy"
   ],
   "note": "for classes whose post_new accepts records equal to the copied one"
  },
  {
   "property": "C77",
   "status": "partial",
   "theorems": [
    "c77_default_shared_refuted",
    "c77_not_default_partial"
   ],
   "note": "Refuted for fields equal to their default (c77_default_shared_refuted); proved for the other fields."
  },
  {
   "property": "C78",
   "status": "partial",
   "theorems": [
    "c78_fresh_result_partial",
    "c78_no_post_new_partial",
    "c78_post_new_refuted"
   ],
   "note": "Refuted for classes whose post_new returns an existing record (c78_post_new_refuted); proved for classes whose post_new returns None, the new record, or anything that was no record before (c78_fresh_result_partial)."
  },
  {
   "property": "C79",
   "status": "proved",
   "theorems": [
    "c79_eval"
   ],
   "note": ""
  },
  {
   "property": "C80",
   "status": "proved",
   "theorems": [
    "c80_error",
    "c80_result",
    "c80_terminates",
    "c80_types"
   ],
   "note": "that evaluating a string literal gives a shorter string, if a string, is a hypothesis about ast.literal_eval"
  },
  {
   "property": "C81",
   "status": "proved",
   "theorems": [
    "c81_loose"
   ],
   "note": ""
  },
  {
   "property": "C82",
   "status": "proved",
   "theorems": [
    "c82_clamp_field",
    "c82_cyclic_field"
   ],
   "note": "fields annotated with a class other than None and Ellipsis"
  },
  {
   "property": "C83",
   "status": "proved",
   "theorems": [
    "c83_within_field"
   ],
   "note": "fields annotated with a class"
  },
  {
   "property": "C84",
   "status": "proved",
   "theorems": [
    "c84_exact"
   ],
   "note": "for run times in which issubclass raises ordinary exceptions only"
  },
  {
   "property": "C85",
   "status": "partial",
   "theorems": [
    "c85_check_partial",
    "c85_strict_any_refuted",
    "c85_strict_partial",
    "c85_type_any_refuted"
   ],
   "note": "Refuted for Type[Any] (c85_type_any_refuted: no value is accepted; likewise Type[Union[..]] and Type[NewType]) and for Any in strict classes (c85_strict_any_refuted). Proved for all other annotations that the class can have (C86)."
  },
  {
   "property": "C86",
   "status": "proved",
   "theorems": [
    "c86_check",
    "c86_hollow",
    "c86_strict"
   ],
   "note": "for annotations without tokens"
  },
  {
   "property": "C87",
   "status": "partial",
   "theorems": [
    "c87_ignored_partial",
    "c87_unsupported_refuted",
    "c87_wrapped_refuted"
   ],
   "note": "Refuted for functions with __wrapped__, which are called (c87_wrapped_refuted), and for annotations that are no types in classes that do not check (c87_unsupported_refuted). Proved for everything else, except parameters of Type[..] other than one class and doc strings on type variables."
  },
  {
   "property": "C88",
   "status": "partial",
   "theorems": [
    "c88_errors",
    "c88_factory_refuted",
    "c88_no_class",
    "c88_uncalled_partial"
   ],
   "note": "Refuted for validation tokens made by functools.wraps-decorated factories (c88_factory_refuted): they are taken for coercers. Proved for token classes and coercer factories."
  },
  {
   "property": "C89",
   "status": "partial",
   "theorems": [
    "c89_annotated_refuted",
    "c89_newtype_partial"
   ],
   "note": "Refuted for NewTypes of Annotated types (c89_annotated_refuted). Proved for all others."
  },
  {
   "property": "C90",
   "status": "partial",
   "theorems": [
    "c90_default_refuted",
    "c90_lexicographic_partial",
    "c90_mirror_partial"
   ],
   "note": "Refuted for subclasses that do not repeat ordered=True, whose instances can be compared with nothing (c90_default_refuted). Proved for ordered subclasses."
  },
  {
   "property": "C91",
   "status": "proved",
   "theorems": [
    "c91_first_wins",
    "c91_shadowed"
   ],
   "note": ""
  },
  {
   "property": "C92",
   "status": "proved",
   "theorems": [
    "c92_instance",
    "c92_other",
    "c92_round_trip"
   ],
   "note": "from_pickle is modelled from the unpickled object on"
  },
  {
   "property": "C93",
   "status": "proved",
   "theorems": [
    "c93_attribute_error"
   ],
   "note": "for from_instance without a Select"
  },
  {
   "property": "C94",
   "status": "proved",
   "theorems": [
    "c94_repr"
   ],
   "note": ""
  },
  {
   "property": "C95",
   "status": "partial",
   "theorems": [
    "c95_same_partial",
    "c95_same_refuted"
   ],
   "note": "Refuted for values that are equal but print differently, such as 1 and True (c95_same_refuted). Proved if equal values have equal reprs."
  },
  {
   "property": "C96",
   "status": "partial",
   "theorems": [
    "c96_apply_at",
    "c96_members_partial",
    "c96_no_part",
    "c96_sub_filler",
    "c96_union_partial",
    "c96_union_refuted",
    "c96_written_partial"
   ],
   "note": "Refuted for Unions, whose added tokens come last (c96_union_refuted, c96_union_partial). Proved for all other fields and for parts of fields that are not Unions themselves, and for members of Unions without tokens."
  },
  {
   "property": "C97",
   "status": "partial",
   "theorems": [
    "c97_exchange",
    "c97_not_json",
    "c97_pairs_refuted",
    "c97_select"
   ],
   "note": "Refuted for JSON lists of pairs, which from_json takes if it has a Select (c97_pairs_refuted). Proved for JSON objects and texts that are not JSON."
  },
  {
   "property": "C98",
   "status": "partial",
   "theorems": [
    "c98_many_refuted",
    "c98_single_partial"
   ],
   "note": "Refuted for more than one mapping, which always raises (c98_many_refuted). Proved for one."
  },
  {
   "property": "C99",
   "status": "partial",
   "theorems": [
    "c99_always_partial",
    "c99_assignment_refuted",
    "c99_types_partial"
   ],
   "note": "Refuted for assignments to fields of records that are not frozen, which check nothing (c99_assignment_refuted). Proved for all histories in which such assignments are of values with the property."
  },
  {
   "property": "C100",
   "status": "proved",
   "theorems": [
    "c100_alone",
    "c100_finishes",
    "c100_schedules"
   ],
   "note": "hash, ==, to_dict and assignments in steps of single attribute accesses and calls; other code that threads run must leave records of frozen classes alone"
  },
  {
   "property": "C101",
   "status": "partial",
   "theorems": [
    "c101_fields_partial",
    "c101_whole_refuted"
   ],
   "note": "Refuted for records that are not frozen: to_dict reads field after field (c101_whole_refuted). Proved for each field by itself; for frozen records see C100."
  },
  {
   "property": "C102",
   "status": "proved",
   "theorems": [
    "c102_coercer"
   ],
   "note": "for fields whose annotation is a class with that one coercer; fields with several coercers: C05"
  },
  {
   "property": "C103",
   "status": "proved",
   "theorems": [
    "c103_decides",
    "c103_passed"
   ],
   "note": "c103_passed for fields with validators that only assert"
  },
  {
   "property": "C104",
   "status": "partial",
   "theorems": [
    "c104_annotated_refuted",
    "c104_dropped",
    "c104_final_partial",
    "c104_not_frozen"
   ],
   "note": "Refuted for Annotated[Final[T], tokens], whose tokens are dropped (c104_annotated_refuted; c104_dropped says what is left); proved for Final[...] around whole annotations, and for classes that are not frozen."
  },
  {
   "property": "C105",
   "status": "partial",
   "theorems": [
    "c105_default",
    "c105_names_refuted",
    "c105_required_partial"
   ],
   "note": "Refuted for every field whose name a base class, RecordBase or the metaclass uses (c105_names_refuted), e.g. parse or mro; c105_default gives the exact rule; proved for all other names."
  },
  {
   "property": "C106",
   "status": "proved",
   "theorems": [
    "c106_as_assumed",
    "c106_inherited",
    "c106_parsers"
   ],
   "note": "c106_as_assumed shows that Classes.v, which takes the parsers as given, agrees"
  },
  {
   "property": "C107",
   "status": "partial",
   "theorems": [
    "c107_declaring_class_partial",
    "c107_inherited_refuted"
   ],
   "note": "Refuted for inherited fields (c107_inherited_refuted); proved that every field uses the default_type_check of the class that declares it."
  },
  {
   "property": "C108",
   "status": "partial",
   "theorems": [
    "c108_default_refuted",
    "c108_include_defaults_partial",
    "c108_selected_partial"
   ],
   "note": "Refuted for every value that equals the default of its field and is left out of the export (c108_default_refuted). Proved for Selects whose removed and renamed fields are exported, in particular with include_defaults."
  },
  {
   "property": "C109",
   "status": "proved",
   "theorems": [
    "c109_elements",
    "c109_override"
   ],
   "note": "c109_override for annotations without parameters and any other metadata; c109_elements for lists and the like"
  },
  {
   "property": "C110",
   "status": "partial",
   "theorems": [
    "c110_after_partial",
    "c110_no_warning_partial",
    "c110_own_refuted",
    "c110_parent_refuted",
    "c110_runs_refuted"
   ],
   "note": "Refuted for __init__ of the class itself (c110_own_refuted) and of mixins before RecordBase (c110_parent_refuted): both run, although the warnings say they do not. Proved for programs without such warnings, and if no class before RecordBase in the __mro__ defines __init__."
  },
  {
   "property": "C111",
   "status": "proved",
   "theorems": [
    "c111_assignment",
    "c111_frozen",
    "c111_hash",
    "c111_unfrozen"
   ],
   "note": "class hierarchies with C3 linearisation; c111_assignment and c111_hash show that Record.v agrees"
  },
  {
   "property": "C112",
   "status": "partial",
   "theorems": [
    "c112_subclass_refuted",
    "c111_frozen",
    "c111_unfrozen"
   ],
   "note": "Refuted: frozen is not inherited (c112_subclass_refuted). Subclasses that repeat frozen=True are frozen by c111_frozen."
  },
  {
   "property": "C113",
   "status": "proved",
   "theorems": [
    "c113_as_assumed",
    "c113_json",
    "c113_pickle"
   ],
   "note": "files whose writes succeed; encoders are generators that may run any code except writing to the file; c113_as_assumed ties the model to Record.v"
  },
  {
   "property": "C114",
   "status": "partial",
   "theorems": [
    "c114_failed_refuted",
    "c114_kept_partial"
   ],
   "note": "Refuted: a part of the text stays in the file (c114_failed_refuted). Proved that what was in the file before stays."
  },
  {
   "property": "C115",
   "status": "proved",
   "theorems": [
    "c115_crash",
    "c115_json",
    "c115_pickles"
   ],
   "note": "that pickles are self-delimiting is a hypothesis about the module pickle; the contents of each pickle: C40, C41"
  },
  {
   "property": "C116",
   "status": "partial",
   "theorems": [
    "c116_keywords_refuted"
   ],
   "note": "Refuted for every class and keyword that json.loads does not know (c116_keywords_refuted); nothing remains to be proved of the claim."
  },
  {
   "property": "C117",
   "status": "partial",
   "theorems": [
    "c117_default_refuted"
   ],
   "note": "Refuted for every inherited field and class body (c117_default_refuted); nothing remains to be proved of the claim."
  },
  {
   "property": "C118",
   "status": "partial",
   "theorems": [
    "c118_cycle_refuted",
    "c118_ends",
    "c118_self_refuted",
    "c118_sharing_partial",
    "c118_tuple_refuted"
   ],
   "note": "Refuted for tuples whose first part is a record (c118_tuple_refuted) and for records in cycles (c118_self_refuted: RecursionError, c118_cycle_refuted). Proved for lists, dicts and records in which no record refers to itself, with arbitrary sharing and cycles of lists and dicts (c118_sharing_partial), and that copying ends without cycles (c118_ends)."
  },
  {
   "property": "C119",
   "status": "partial",
   "theorems": [
    "c119_alone",
    "c119_always_partial",
    "c119_literal_refuted",
    "c119_records_partial",
    "c119_same_partial",
    "c119_types"
   ],
   "note": "Refuted for Literal fields with coercers (c119_literal_refuted): a construction that fails in one thread makes one in another thread fail. Proved that types and other guarantees hold under every schedule (c119_types, c119_always_partial) and that results do not depend on the schedule for all other fields (c119_same_partial, c119_records_partial)."
  },
  {
   "property": "C120",
   "status": "partial",
   "theorems": [
    "c120_class",
    "c120_local_refuted",
    "c120_meaning",
    "c120_own_name_refuted",
    "c120_quoted_partial",
    "c120_unknown_name"
   ],
   "note": "Refuted for names local to a function (c120_local_refuted) and for classes called like something they annotate with (c120_own_name_refuted). Proved otherwise, with texts nested to any depth: c120_meaning, c120_class, c120_quoted_partial; unknown names are errors (c120_unknown_name)."
  },
  {
   "property": "C121",
   "status": "proved",
   "theorems": [
    "c121_history"
   ],
   "note": "forward references remember values; the values are never used because a scope of the class is always passed"
  },
  {
   "property": "C122",
   "status": "partial",
   "theorems": [
    "c122_base_refuted",
    "c122_bases_partial"
   ],
   "note": "Refuted for base classes whose annotation text has unbound names (c122_base_refuted). Proved for base classes whose annotations can be read (c122_bases_partial)."
  },
  {
   "property": "C123",
   "status": "partial",
   "theorems": [
    "c123_own_name_partial",
    "c123_qualname_refuted",
    "c123_subclass_refuted"
   ],
   "note": "Refuted for qualified names of nested classes (c123_qualname_refuted) and for subclasses of such classes inside functions (c123_subclass_refuted). Proved for the name of the class in its own annotations (c123_own_name_partial)."
  },
  {
   "property": "C124",
   "status": "partial",
   "theorems": [
    "c124_blacklist",
    "c124_equality",
    "c124_filter",
    "c124_hashable",
    "c124_nan_refuted",
    "c124_numbers",
    "c124_unhashable"
   ],
   "note": "Refuted for objects not equal to themselves (c124_nan_refuted). Proved if == is an equivalence that hash respects; c124_numbers justifies the numbers for tags in Classes.v and Record.v; c124_unhashable: tags of objects without hash."
  },
  {
   "property": "C125",
   "status": "partial",
   "theorems": [
    "c125_assert",
    "c125_before_partial",
    "c125_calls_partial",
    "c125_reserved_refuted"
   ],
   "note": "Refuted for keywords called f, func and self (c125_reserved_refuted). Proved for all others (c125_before_partial, c125_calls_partial, c125_assert)."
  },
  {
   "property": "C126",
   "status": "partial",
   "theorems": [
    "c126_bare_checked_refuted",
    "c126_bare_refuted",
    "c126_classvar_partial",
    "c126_declared"
   ],
   "note": "Refuted for ClassVar without parameter: it makes a field (c126_bare_refuted), or an error in classes that check types (c126_bare_checked_refuted). Proved for ClassVar[T] (c126_classvar_partial); c126_declared links the annotations as objects with Classes.v."
  },
  {
   "property": "C127",
   "status": "partial",
   "theorems": [
    "c127_changes_refuted",
    "c127_copied_partial",
    "c127_list_refuted",
    "c127_merged_partial",
    "c127_stale_refuted"
   ],
   "note": "Refuted for Selects made of lists: they follow the list until first asked for their truth, applied or merged (c127_list_refuted, c127_changes_refuted), and stay without effect if the list was empty then (c127_stale_refuted). Proved for Selects made of mappings, tuples and names (c127_copied_partial) and for merges of two true Selects (c127_merged_partial), over every history."
  },
  {
   "property": "C128",
   "status": "partial",
   "theorems": [
    "c128_bytes_partial",
    "c128_classes_refuted",
    "c128_collision_refuted",
    "c128_counter_refuted",
    "c128_defaultdict_refuted",
    "c128_elements_refuted",
    "c128_mappings_partial",
    "c128_maxlen_refuted",
    "c128_on_demand",
    "c128_sequences_partial",
    "c128_sets_partial",
    "c128_str_refuted"
   ],
   "note": "Refuted for str (the text of an iterator, c128_str_refuted), ranges and namedtuples (c128_classes_refuted), deques with maxlen in Sequence fields (c128_maxlen_refuted), defaultdicts in Dict and Mapping fields (c128_defaultdict_refuted), Counters (c128_counter_refuted) and dicts whose keys collide (c128_collision_refuted). Proved for lists, tuples, deques in Deque fields (c128_sequences_partial), sets and frozensets of hashable elements (c128_sets_partial), bytes (c128_bytes_partial; otherwise c128_elements_refuted), dicts, OrderedDicts and defaultdicts in DefaultDict fields (c128_mappings_partial); c128_on_demand links filling on demand with Filler.v."
  },
  {
   "property": "C129",
   "status": "partial",
   "theorems": [
    "c129_equal_partial",
    "c129_equal_right",
    "c129_itself_partial",
    "c129_itself_refuted",
    "c129_repr_exact",
    "c129_repr_partial",
    "c129_repr_refuted",
    "c129_repr_text"
   ],
   "note": "Refuted for records that refer to themselves over records only: RecursionError (c129_repr_refuted, c129_itself_refuted). Proved that printing ends exactly if no such record is reached, with any cycles of lists, tuples and dicts (c129_repr_exact, c129_repr_partial) and what it prints (c129_repr_text), that comparing, if it ends, answers structural equality also with cycles (c129_equal_right), that comparing ends and is structural equality without cycles (c129_equal_partial), and that every object equals itself (c129_itself_partial)."
  },
  {
   "property": "C130",
   "status": "partial",
   "theorems": [
    "c130_false_refuted",
    "c130_true_partial"
   ],
   "note": "Refuted for records that are false (c130_false_refuted). Proved for true ones and for None (c130_true_partial)."
  },
  {
   "property": "C131",
   "status": "proved",
   "theorems": [
    "c131_answers",
    "c131_equal",
    "c131_failures",
    "c131_frozen",
    "c131_hash",
    "c131_history",
    "c131_relation"
   ],
   "note": "If == of the objects that are no records, lists, tuples or dicts is symmetric and transitive and respects hash. c131_relation: == is symmetric and transitive on all objects; c131_answers gives a bound for the depth of the stack; c131_failures: without cycles the only failure is the TypeError of objects without hash."
  },
  {
   "property": "C132",
   "status": "partial",
   "theorems": [
    "c132_current",
    "c132_nested_refuted",
    "c132_old_versions",
    "c132_text_refuted",
    "c132_versions_partial"
   ],
   "note": "Refuted for Annotated of Annotated (c132_nested_refuted) and for text in Annotated (c132_text_refuted): on 3.7 and 3.8 the class cannot be created. Proved for all others (c132_versions_partial), for all on 3.9 (c132_current), and that 3.7 and 3.8 never differ (c132_old_versions)."
  },
  {
   "property": "C133",
   "status": "proved",
   "theorems": [
    "c133_history",
    "c133_json",
    "c133_pattern",
    "c133_pickle"
   ],
   "note": "c133_history for all calls in a history, c133_json and c133_pickle for what exports and imports compute with the module put last, c133_pattern for FullMatch. Other code of the program must not replace modules between its own steps."
  },
  {
   "property": "C134",
   "status": "partial",
   "theorems": [
    "c134_clamp_partial",
    "c134_cyclic_partial",
    "c134_default_refuted",
    "c134_frozen",
    "c134_within_partial"
   ],
   "note": "Refuted for defaults, which are not filled (c134_default_refuted), and for assignments to records that are not frozen (c99_assignment_refuted). Proved for all histories if the default and the values assigned to records that are not frozen are in the range (c134_clamp_partial, c134_cyclic_partial, c134_within_partial); for frozen classes nothing need be asked of assignments (c134_frozen). Clamp and Cyclic must come after validators that only assert; other code must not break the range by other means."
  },
  {
   "property": "C135",
   "status": "partial",
   "theorems": [
    "c135_append_refuted",
    "c135_ends_partial",
    "c135_unchanged_partial"
   ],
   "note": "Refuted for validators that append to the list being filled: the construction never ends (c135_append_refuted). Proved that filling ends if coercers and validators make no container longer (c135_ends_partial), and that every element is filled once, in order, if they change none (c135_unchanged_partial, which also links these fillers with those of C128)."
  },
  {
   "property": "C136",
   "status": "partial",
   "theorems": [
    "c136_change_refuted",
    "c136_types_partial"
   ],
   "note": "Refuted for validators that replace elements of the list being filled (c136_change_refuted). Proved for coercers and validators that change no containers that exist, to any depth (c136_types_partial); for dicts the keys must not collide when filled (see C128)."
  },
  {
   "property": "C137",
   "status": "partial",
   "theorems": [
    "c137_append_refuted",
    "c137_later_partial"
   ],
   "note": "Refuted: a list that fills to itself is stored as it is and can be appended to, in frozen records too (c137_append_refuted). Proved as long as no container that can be reached from the value is changed (c137_later_partial)."
  },
  {
   "property": "C138",
   "status": "partial",
   "theorems": [
    "c138_inner_refuted",
    "c138_stored",
    "c138_stored_mapping"
   ],
   "note": "Refuted for inner containers: a list that is made anew still holds the given inner lists in which nothing was converted (c138_inner_refuted). Proved for the container itself (c138_stored, c138_stored_mapping), if coercers and validators change no containers."
  },
  {
   "property": "C139",
   "status": "partial",
   "theorems": [
    "c139_callable_refuted",
    "c139_construct_partial",
    "c139_copy_refuted",
    "c139_deepcopy_partial",
    "c139_eq_partial",
    "c139_fields_refuted",
    "c139_frozen_refuted",
    "c139_hash_field_refuted",
    "c139_hash_refuted",
    "c139_post_new_refuted",
    "c139_pre_bind_refuted",
    "c139_records_partial",
    "c139_statement_partial",
    "c139_style_method_refuted",
    "c139_style_refuted",
    "c139_to_dict_refuted"
   ],
   "note": "Refuted for names that records look up themselves: to_dict (c139_to_dict_refuted), post_new (c139_post_new_refuted), _hash (c139_hash_refuted, c139_hash_field_refuted), from_instance (c139_copy_refuted), _frozen (c139_frozen_refuted), is_frozen and parse (c139_callable_refuted). Refuted for names that the class statement looks up: there is no class with a field called _fields or pre_bind (c139_fields_refuted, c139_pre_bind_refuted), none with a field called default_type_check_style if some field does not say how it is checked (c139_style_method_refuted), and a field called _default_type_check_style makes the checks of all fields strict (c139_style_refuted). Proved for all other names: the class statement makes the class (c139_statement_partial); the operations with lookups are then the operations of Record.v (c139_construct_partial, c139_records_partial, c139_eq_partial, c139_deepcopy_partial). Names of methods also give fields a default, see C105."
  },
  {
   "property": "C140",
   "status": "partial",
   "theorems": [
    "c140_defaultdict_refuted",
    "c46_from_mapping_partial"
   ],
   "note": "holds for all mappings without defaultdicts (c46_from_mapping_partial); refuted for a defaultdict: its default replaces the keywords it lacks, and they are inserted into it"
  },
  {
   "property": "C141",
   "status": "partial",
   "theorems": [
    "c141_checkers",
    "c141_library",
    "c141_others",
    "c141_registered",
    "c141_subclasses_partial",
    "c141_subclasses_refuted",
    "c141_unregister"
   ],
   "note": "refuted for subclasses: the entry of object, which comes first, stops the search (c141_subclasses_refuted, for all histories and classes); everything else is proved, and c141_library proves that the model of fillers agrees with the registry as the library fills it"
  },
  {
   "property": "C142",
   "status": "proved",
   "theorems": [
    "c142_ancestor",
    "c142_errors",
    "c142_from_instance",
    "c142_keyword",
    "c142_meaning",
    "c142_missing",
    "c142_object",
    "c142_once",
    "c142_same"
   ],
   "note": "c142_same is about calls without a keyword named instance, which the class takes for the record"
  },
  {
   "property": "C143",
   "status": "partial",
   "theorems": [
    "c143_export_refuted",
    "c143_others_partial",
    "c143_read_refuted",
    "c143_restore_partial",
    "c143_twice"
   ],
   "note": "refuted for all classes, records and fields: the RecordField that stands in the class shows up instead, on reading (c143_read_refuted) and in exports (c143_export_refuted); that the rest stays as it is, and that assigning again restores the record, is proved"
  },
  {
   "property": "C144",
   "status": "partial",
   "theorems": [
    "c144_blacklist_refuted",
    "c144_same_partial",
    "c144_sets"
   ],
   "note": "Refuted for blacklists that do not know &, such as lists and tuples: exports of classes with a field that is not whitelisted raise TypeError (c144_blacklist_refuted). Proved for whitelists in any container whose \"in\" has no side effects, and blacklists in any container whose & with a frozenset has none (c144_same_partial)."
  },
  {
   "property": "C145",
   "status": "partial",
   "theorems": [
    "c145_frozen_refuted",
    "c145_getstate",
    "c145_getstate_partial",
    "c145_old_refuted",
    "c145_protocols_partial",
    "c145_unknown"
   ],
   "note": "Refuted for protocols 0 and 1: no record can be pickled with them (c145_old_refuted), and frozen records of classes with __getstate__ are restored without a hash and cannot be compared (c145_frozen_refuted). Proved for all other protocols (c145_protocols_partial, c145_getstate) and for classes that are not frozen and have __getstate__ (c145_getstate_partial)."
  },
  {
   "property": "C146",
   "status": "partial",
   "theorems": [
    "c146_call_partial",
    "c146_errors",
    "c146_frozen_refuted",
    "c146_replaced"
   ],
   "note": "Refuted for frozen classes: the call raises TypeError after the record was made (c146_frozen_refuted). Proved for all others (c146_call_partial), for failing calls (c146_errors) and for objects returned by post_new (c146_replaced)."
  },
  {
   "property": "C147",
   "status": "partial",
   "theorems": [
    "c147_default_refuted",
    "c147_hollow_refuted",
    "c147_nested_partial"
   ],
   "note": "Refuted without json's argument default, for all records that hold a record (c147_default_refuted), and for fields that are not checked: a dict takes the place of the record (c147_hollow_refuted). Proved, for trees of any depth, with default=lambda x: x.to_dict(include_defaults=True) and fields of record classes declared with from_mapping as a coercer, lists of them and Optional[...] of them (c147_nested_partial)."
  },
  {
   "property": "C148",
   "status": "proved",
   "theorems": [
    "c148_entries",
    "c148_get",
    "c148_hash_assigned",
    "c148_put_pop"
   ],
   "note": "c148_get, c148_put_pop and c148_entries hold for all histories (used). Programs that assign to p._hash are excluded, as they must be (c148_hash_assigned); other code must keep attributes and computed hashes of frozen records (steady). Keys with the same hash are met in insertion order."
  },
  {
   "property": "C149",
   "status": "proved",
   "theorems": [
    "c149_any_sort",
    "c149_empty",
    "c149_min_max",
    "c149_reverse",
    "c149_sorted"
   ],
   "note": "sorted() is modelled as insertion sort; c149_any_sort shows that every right way to sort by comparing gives the same."
  },
  {
   "property": "C150",
   "status": "partial",
   "theorems": [
    "c150_ne",
    "c150_other",
    "c150_other_side_partial",
    "c150_records",
    "c150_symmetric_refuted"
   ],
   "note": "Refuted for objects that claim to be equal to a record, like unittest.mock.ANY: x == p is true and p == x is false (c150_symmetric_refuted). Proved: a record is not equal to objects of other classes, which are not asked (c150_other, c150_records); != is the negation of == (c150_ne); x == p is false for objects that answer NotImplemented or whose class is a base class of the record class (c150_other_side_partial)."
  },
  {
   "property": "C151",
   "status": "partial",
   "theorems": [
    "c151_accounted",
    "c151_from_mapping",
    "c151_merge",
    "c151_none_refuted",
    "c151_select",
    "c151_strings",
    "c151_transfer"
   ],
   "note": "Refuted for Selects whose first key to remove is None and that add nothing: their truth value is False, so they are ignored altogether, with their renames, also when merged (c151_none_refuted; csv.DictReader gives rows with the key None). Proved for all other Selects: c151_select, c151_from_mapping, c151_accounted, c151_merge; c151_transfer carries over everything proved about strings; c151_strings says that on strings it is the model of the other theorems."
  },
  {
   "property": "C152",
   "status": "partial",
   "theorems": [
    "c152_factories_refuted",
    "c152_orders_partial",
    "c152_others",
    "c152_reads"
   ],
   "note": "Refuted: the names of omitted fields are iterated as a set, so default factories that draw from one counter give other values in other runs, and not in the order of declaration (c152_factories_refuted). Proved for classes without post_new whose factories do not influence each other (c152_orders_partial, c152_reads), and for everything that is done with a record afterwards (c152_others)."
  },
  {
   "property": "C153",
   "status": "partial",
   "theorems": [
    "c153_error",
    "c153_errors_refuted",
    "c153_order",
    "c153_post_new"
   ],
   "note": "Refuted for errors: if several values are refused, the error names the first one in the order of the keywords (c153_errors_refuted). Proved: success and values do not depend on the order if filling one field does not influence filling another one (c153_order; with post_new c153_post_new), and if only one value is refused the error is the same (c153_error)."
  },
  {
   "property": "C154",
   "status": "partial",
   "theorems": [
    "c154_changed",
    "c154_refill_refuted",
    "c154_same",
    "c154_twice"
   ],
   "note": "Refuted for fields that store something else when they are given a value they have stored: all fields are filled again (c154_refill_refuted). Proved for fields that accept their values unchanged: c154_changed, c154_twice, c154_same."
  },
  {
   "property": "C155",
   "status": "partial",
   "theorems": [
    "c155_container_refuted",
    "c155_copy_partial",
    "c155_none_refuted",
    "c155_record_partial",
    "c155_settles_partial",
    "c155_union_refuted",
    "c155_untouched",
    "c155_validator_refuted"
   ],
   "note": "Refuted for validators that change values (c155_validator_refuted), for tests on containers whose elements are coerced, where a stored value can fail its own validator and copying the record raises (c155_container_refuted), for Unions of containers with coercers, where copying a record then raises \"multiple sub-fillers matched\" (c155_union_refuted), and for None fields with coercers (c155_none_refuted). Proved for all other declarations: tests as validators, on containers only if their elements have no coercers, any coercers otherwise, containers to any depth, Unions of classes with coercers or of anything without (c155_settles_partial, c155_untouched), with the consequences for new records and copies (c155_record_partial, c155_copy_partial), which so need no assumption about what the fields do to stored values."
  },
  {
   "property": "C156",
   "status": "proved",
   "theorems": [
    "c156_always",
    "c156_changed",
    "c156_copy",
    "c156_fields",
    "c156_mapping"
   ],
   "note": "c156_fields from the class statements (own and inherited fields), c156_always over histories (with C99), and c156_mapping, c156_copy, c156_changed, which are C36, C38 and C154 with their assumption about the stored values proved. Assignments to records that are not frozen must be of values that the field stores as they are (nothing is filled on assignment, C99)."
  },
  {
   "property": "C157",
   "status": "partial",
   "theorems": [
    "c157_equal",
    "c157_export",
    "c157_json_partial",
    "c157_json_refuted"
   ],
   "note": "Proved for to_dict with any arguments and any Select (c157_export), with the converse (c157_equal). Refuted for JSON: 1 and True are equal and give different texts (c157_json_refuted); it holds if json.dumps cannot tell equal values apart (c157_json_partial)."
  },
  {
   "property": "C158",
   "status": "proved",
   "theorems": [
    "c158_any",
    "c158_back",
    "c158_base"
   ],
   "note": "A frozen class returns instances of subclasses themselves (c72_same). Fields whose default comes from a factory need the attribute."
  },
  {
   "property": "C159",
   "status": "proved",
   "theorems": [
    "c159_added",
    "c159_no_field",
    "c159_one",
    "c159_part",
    "c159_refused"
   ],
   "note": "What added tokens do is C96."
  },
  {
   "property": "C160",
   "status": "partial",
   "theorems": [
    "c160_assert_partial",
    "c160_coercer_partial",
    "c160_data_partial",
    "c160_first_refuted",
    "c160_positional_refuted",
    "c160_record_partial",
    "c160_union_assert_refuted",
    "c160_union_coercer_refuted",
    "c160_wider_partial"
   ],
   "note": "Holds for everything but Unions (c160_wider_partial, c160_assert_partial, c160_coercer_partial, c160_record_partial; c160_data_partial for all arguments, mappings and JSON in classes that do not parse). Refuted by the code on Unions: a further coercer on one member makes the Union ambiguous (c160_union_coercer_refuted) and an assertion resolves an ambiguity (c160_union_assert_refuted); for coercers added in front of others (c160_first_refuted); and for a single positional argument, which becomes ambiguous when the only required field understands what a parser understands (c160_positional_refuted)."
  },
  {
   "property": "C161",
   "status": "partial",
   "theorems": [
    "c161_check_partial",
    "c161_class_partial",
    "c161_coercer_refuted",
    "c161_data_partial",
    "c161_elements_refuted",
    "c161_hollow_partial",
    "c161_tests_partial",
    "c161_union_refuted"
   ],
   "note": "Holds from strict to check without coercers and Unions, whatever the validators do (c161_check_partial), with Unions if validators are tests (c161_tests_partial), and to hollow if there are no coercers and the validators are tests (c161_hollow_partial). For records: keywords (c161_class_partial), and all arguments, mappings and JSON in classes that do not parse (c161_data_partial). Refuted by the code with coercers (c161_coercer_refuted: True in an int field is converted when types are checked strictly and stored otherwise), for Unions with validators that change values (c161_union_refuted), and for such validators on elements of containers (c161_elements_refuted)."
  },
  {
   "property": "C162",
   "status": "proved",
   "theorems": [
    "c162_asked",
    "c162_not_asked"
   ],
   "note": "That only literals are accepted is C13; that a Literal field can meet classes while it fills values is C14 and is why c162_asked asks for a field that has met none."
  },
  {
   "property": "C163",
   "status": "proved",
   "theorems": [
    "c163_always",
    "c163_defaults",
    "c163_json",
    "c163_mapping",
    "c163_strict"
   ],
   "note": "The two processes may have different runtimes and different classes; what the transport does to the data (arrives) is a hypothesis, and c163_always shows that it holds of data sent unchanged in the programs of C156. The outcome stems_from tells in particular that changing a default value changes what is read from data exported without defaults."
  },
  {
   "property": "C164",
   "status": "partial",
   "theorems": [
    "c164_construct",
    "c164_equal",
    "c164_export",
    "c164_less_refuted",
    "c164_positional",
    "c164_statement"
   ],
   "note": "Proved for construction, == and exports; refuted for < (c164_less_refuted), which compares the fields in the order of their declaration. Positional arguments are covered if they are not parsed (c164_positional)."
  },
  {
   "property": "C165",
   "status": "proved",
   "theorems": [
    "c165_error",
    "c165_type",
    "c165_unknown"
   ],
   "note": "issubclass, isinstance and type() are arbitrary functions."
  },
  {
   "property": "C166",
   "status": "partial",
   "theorems": [
    "c166_ambiguous_refuted",
    "c166_statement",
    "c166_values"
   ],
   "note": "The equivalence is refuted for values that two members of the group convert differently (c166_ambiguous_refuted): merged they are ambiguous, grouped a third member decides. c166_values says that this is the only difference. The group has no tokens of its own."
  },
  {
   "property": "C167",
   "status": "proved",
   "theorems": [
    "c167_asserted",
    "c167_first",
    "c167_none",
    "c167_present",
    "c167_tokens"
   ],
   "note": "Tokens on the Optional itself apply to both members: c167_tokens and c167_asserted; coercers there are not covered, since the None member has them too. That None is not exactly of type T is said with match_kind (Spec_Filler.v), for T other than a Union."
  },
  {
   "property": "C168",
   "status": "proved",
   "theorems": [
    "c168_tuples",
    "c168_variable"
   ],
   "note": "tuple must be a class without a filler of its own, as in C10 and C11."
  },
  {
   "property": "C169",
   "status": "partial",
   "theorems": [
    "c169_ambiguous_refuted",
    "c169_converted_refuted",
    "c169_kept",
    "c169_one",
    "c169_refused",
    "c169_source"
   ],
   "note": "That accepted arguments stay accepted and are stored as before is refuted for those that the old Union converts: the new member may accept them as they are (c169_converted_refuted) or convert them to something else, which is ambiguous (c169_ambiguous_refuted). The rest is proved if one of the old members checks types."
  },
  {
   "property": "C170",
   "status": "proved",
   "theorems": [
    "c170_coercers_refuted",
    "c170_order",
    "c170_record",
    "c170_refused",
    "c170_validators_refuted"
   ],
   "note": "Which of several errors a refused annotation raises may depend on the order. Tokens of one kind must keep their order (c170_coercers_refuted, c170_validators_refuted)."
  },
  {
   "property": "C171",
   "status": "partial",
   "theorems": [
    "c171_behind_refuted",
    "c171_members",
    "c171_nested_refuted",
    "c171_refused",
    "c171_style_refuted"
   ],
   "note": "Proved for members that are no annotated Unions themselves (c171_members, c171_refused). For an annotated Union inside a Union it is refuted: there the tokens of the outer Union come behind (c171_nested_refuted), so that its type checking style overrides the inner one (c171_style_refuted). That the tokens come in front is not what nesting Annotated does (c171_behind_refuted)."
  },
  {
   "property": "C172",
   "status": "partial",
   "theorems": [
    "c172_fields",
    "c172_further_partial",
    "c172_keywords_partial",
    "c172_positional_refuted"
   ],
   "note": "Proved for keyword arguments and classes whose __post_new__ does nothing (c172_fields, c172_keywords_partial); for further fields with defaults (c172_further_partial) also only if no default is a factory. Refuted for positional arguments: unary_parse is not inherited (c172_positional_refuted)."
  },
  {
   "property": "C173",
   "status": "partial",
   "theorems": [
    "c173_apart_refuted",
    "c173_assertions",
    "c173_last_style",
    "c173_record",
    "c173_refused",
    "c173_repeated",
    "c173_validator_refuted"
   ],
   "note": "Proved for repetitions with no token of the same kind between (c173_repeated, c173_refused, c173_last_style, c173_record, c173_assertions). Refuted for validators that change what they returned (c173_validator_refuted), and for a coercer repeated behind another one, which is then given what the other returned (c173_apart_refuted)."
  },
  {
   "property": "C174",
   "status": "partial",
   "theorems": [
    "c174_assertions",
    "c174_error_refuted",
    "c174_record",
    "c174_refused",
    "c174_validator_refuted"
   ],
   "note": "Proved for assertions that look at nothing but the object and raise Exceptions, with no other validators between them (c174_assertions, c174_refused, c174_record). That the error stays the same is refuted (c174_error_refuted), and so is moving an assertion over a validator that changes the object (c174_validator_refuted)."
  },
  {
   "property": "C175",
   "status": "partial",
   "theorems": [
    "c175_again",
    "c175_merged",
    "c175_never_refuses",
    "c175_record",
    "c175_reused_refuted",
    "c175_strict_refuted"
   ],
   "note": "Proved for optional edits without reused names (c175_again, c175_never_refuses), for such a Select merged with itself (c175_merged), and for the records from_mapping makes in classes without post_new (c175_record). Refuted for strict edits, which do not find their keys a second time (c175_strict_refuted), and for a removed key whose name is a new name (c175_reused_refuted)."
  },
  {
   "property": "C176",
   "status": "partial",
   "theorems": [
    "c176_chain_refuted",
    "c176_export",
    "c176_json",
    "c176_merge",
    "c176_order",
    "c176_record",
    "c176_twice_refuted"
   ],
   "note": "Proved without chains and doubled optional edits (c176_order), for two Selects merged in either order (c176_merge), for to_dict (c176_export) and for the records from_mapping and from_json make in classes without post_new (c176_record, c176_json). Refuted for chains of renamings, where one order refuses what the other accepts (c176_chain_refuted), and for a key optionally added twice (c176_twice_refuted)."
  }
 ]
}