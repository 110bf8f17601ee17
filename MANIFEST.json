{
 "claims": [
  {
   "property": "C01",
   "status": "partial",
   "theorems": [
    "C01_file_round_trip_partial",
    "C01_blob_round_trip",
    "C01_marker_refuted"
   ],
   "note": "Size and bytes survive for every loaded or freshly made object; for blobs made by the library the round trip is exact. Refuted for streams whose encoding marker is not DATA_AND_STOP: the marker is written back as 0."
  },
  {
   "property": "C02",
   "status": "proved",
   "theorems": [
    "C02_header_checked",
    "C02_header_ignored"
   ],
   "note": "All byte strings of eight or more bytes, header checking on and off."
  },
  {
   "property": "C03",
   "status": "partial",
   "theorems": [
    "C03_short_files_partial",
    "C03_missing_file",
    "C03_unreadable_file_partial",
    "C03_truncated_refuted"
   ],
   "note": "Exact outcome for every missing or unreadable file and every file shorter than eight bytes. Refuted: some of them make the constructor use an uninitialised byte."
  },
  {
   "property": "C04",
   "status": "proved",
   "theorems": [
    "C04_list_type_name"
   ],
   "note": "Any element text, any container name without an opening bracket."
  },
  {
   "property": "C05",
   "status": "proved",
   "theorems": [
    "C05_map_type_name",
    "C05_keys_are_bracketed"
   ],
   "note": "Any bracketed key, any value, any number of blanks; C05_keys_are_bracketed shows every printed type expression over plain names qualifies."
  },
  {
   "property": "C06",
   "status": "proved",
   "theorems": [
    "C06_components",
    "C06_terminates"
   ],
   "note": "Exact result on every printed type expression; termination on every string."
  },
  {
   "property": "C07",
   "status": "partial",
   "theorems": [
    "C07_normalise_partial",
    "C07_normalise_idempotent",
    "C07_no_boxed_left",
    "C07_normalise_refuted",
    "C07_exactly"
   ],
   "note": "Positive for names that are boxed or do not resemble a boxed name; idempotence and absence of boxed names in the result for every string. The full statement is refuted: a class name containing a boxed name (com.java.lang.IntegerCache) is rewritten. C07_exactly says which texts are left alone and which names are treated right, for all texts without line breaks."
  },
  {
   "property": "C08",
   "status": "partial",
   "theorems": [
    "C08_array_recognised",
    "C08_element_partial",
    "C08_safe_refuted",
    "C08_element_refuted",
    "C08_element_exactly"
   ],
   "note": "Exact characterisation on every string. Refuted: out-of-range reads on \"\", \"]\" and \"p]\"; element type of a nested array is wrong. C08_element_exactly says for which names the element type is the right one."
  },
  {
   "property": "C09",
   "status": "proved",
   "theorems": [
    "C09_java_names",
    "C09_parse_back"
   ],
   "note": "All namespace paths and nesting depths."
  },
  {
   "property": "C10",
   "status": "proved",
   "theorems": [
    "C10_insert_conserves",
    "C10_schema_conserves"
   ],
   "note": "Arbitrary scores, and the schema's own scores on every list of entries."
  },
  {
   "property": "C11",
   "status": "proved",
   "theorems": [
    "C11_groups_independent",
    "C11_schema_groups_independent",
    "C11_nested_refuted"
   ],
   "note": "Symmetric scores in general; the schema's own scores where no class uses another only inside a container. C11_nested_refuted shows why that condition is there."
  },
  {
   "property": "C12",
   "status": "proved",
   "theorems": [
    "C12_dependencies_first",
    "C12_schema_dependencies_first"
   ],
   "note": "In general and for the schema's own scores."
  },
  {
   "property": "C13",
   "status": "proved",
   "theorems": [
    "C13_dependencies_last",
    "C13_schema_dependencies_last"
   ],
   "note": "In general; for the schema's own scores when the containers in between are listed too."
  },
  {
   "property": "C14",
   "status": "partial",
   "theorems": [
    "C14_any_order_refuted",
    "C14_insert_partial",
    "C14_insert_exactly",
    "C14_bridged_partial",
    "C14_listed_partial",
    "C14_listed_orders"
   ],
   "note": "Refuted for arbitrary arrival orders. insert_exactly says exactly when an insertion keeps the order; proved for all arrival orders in which whoever arrives between two others finds them in order already, which covers dependencies first, dependencies last, and any order of containers and then classes where indirect use implies direct use."
  },
  {
   "property": "C15",
   "status": "partial",
   "theorems": [
    "C15_scores_partial",
    "C15_nested_refuted",
    "C15_wildcard_refuted"
   ],
   "note": "Exact scores for classes, lists and maps except a class using another only inside a container (refuted) and wildcards without a required type (undefined behaviour, refuted)."
  },
  {
   "property": "C16",
   "status": "partial",
   "theorems": [
    "C16_scores_partial",
    "C16_array_refuted",
    "C16_enum_refuted"
   ],
   "note": "Exact scores except arrays against containers and maps of enums (both refuted)."
  },
  {
   "property": "C17",
   "status": "proved",
   "theorems": [
    "C17_type_found",
    "C17_type_missing",
    "C17_descriptor_found",
    "C17_descriptor_missing"
   ],
   "note": "All schemas and keys."
  },
  {
   "property": "C18",
   "status": "proved",
   "theorems": [
    "C18_codes_survive",
    "C18_documented_codes",
    "C18_other_codes"
   ],
   "note": "All 32-bit codes; all 64-bit values for names and registry."
  },
  {
   "property": "C19",
   "status": "partial",
   "theorems": [
    "C19_field_written",
    "C19_field_parsed",
    "C19_required_types_refuted"
   ],
   "note": "Every acceptable property, anywhere in a blob, nullable default and label included. Refuted for the required types of a property of primitive type, which are dropped."
  },
  {
   "property": "C20",
   "status": "proved",
   "theorems": [
    "C20_class_written",
    "C20_class_parsed"
   ],
   "note": "Any number of acceptable properties, any strings."
  },
  {
   "property": "C21",
   "status": "proved",
   "theorems": [
    "C21_container_written",
    "C21_container_parsed"
   ],
   "note": "Every list or map type expression over plain names that are boxed or unrelated to boxed names (C07)."
  },
  {
   "property": "C22",
   "status": "proved",
   "theorems": [
    "C22_envelope_written",
    "C22_type_parsed",
    "C22_envelope_parsed"
   ],
   "note": "Classes, lists, maps, enums and arrays in any number of groups."
  },
  {
   "property": "C23",
   "status": "partial",
   "theorems": [
    "C23_malformed_throws_partial",
    "C23_unknown_code_refuted",
    "C23_wrong_code_refuted",
    "C23_empty_type_refuted"
   ],
   "note": "Throws when the element is not described or its code is not a number; refuted for unregistered codes (all of them), for registered codes in the wrong place and for empty type names. C92 says exactly what happens for every tree."
  },
  {
   "property": "C24",
   "status": "proved",
   "theorems": [
    "C24_every_type_resolves",
    "C24_readers_match_entries",
    "C24_complete_schema_processed",
    "C24_ordered_schema_processed"
   ],
   "note": "Every history of processed schemas (failed ones included) and serialisers installed for unused types; process returns normally on complete schemas, in particular on those C12 and C13 order, with any factory whose earlier uses succeeded."
  },
  {
   "property": "C25",
   "status": "proved",
   "theorems": [
    "C25_process_again"
   ],
   "note": "At once or after any further operations; the fingerprint part needs that a fingerprint stands for one type."
  },
  {
   "property": "C26",
   "status": "partial",
   "theorems": [
    "C26_failed_schema_refuted",
    "C26_failed_schema_partial"
   ],
   "note": "Refuted (undefined behaviour: a debug line follows the null entry before the assertion checks it); holds for later schemas that do not mention a type an earlier one lacked. C83 says exactly when."
  },
  {
   "property": "C27",
   "status": "proved",
   "theorems": [
    "C27_readers_stable",
    "C27_fingerprint_refuted"
   ],
   "note": "By name without condition; by fingerprint if a fingerprint stands for one type, refuted otherwise."
  },
  {
   "property": "C28",
   "status": "partial",
   "theorems": [
    "C28_install_partial",
    "C28_reinstall_refuted",
    "C28_late_install_refuted"
   ],
   "note": "Proved for types without a reader; refuted for types in use (dangling or unused)."
  },
  {
   "property": "C29",
   "status": "partial",
   "theorems": [
    "C29_wildcard_refuted",
    "C29_wildcard_partial"
   ],
   "note": "Refuted for wildcards that require nothing; otherwise processing returns or throws."
  },
  {
   "property": "C30",
   "status": "proved",
   "theorems": [
    "C30_inspection_restores"
   ],
   "note": "Any cursor position, any tree, any factory; custom serialisers must themselves stay put."
  },
  {
   "property": "C31",
   "status": "proved",
   "theorems": [
    "C31_inspection_faithful",
    "C31_ordered_inspection_faithful",
    "C31_fresh_inspection_faithful",
    "C31_numerals_read_back"
   ],
   "note": "Any conforming value, with a fresh factory, one of any consistent history or one whose earlier uses succeeded; floats and chars are C35, value-first compilers C32."
  },
  {
   "property": "C32",
   "status": "partial",
   "theorems": [
    "C32_maps_in_order_partial",
    "C32_maps_swapped_refuted"
   ],
   "note": "Proved for compilers that evaluate the key first; refuted for those that evaluate the value first."
  },
  {
   "property": "C33",
   "status": "partial",
   "theorems": [
    "C33_null_object_partial",
    "C33_null_value_refuted"
   ],
   "note": "Proved for class-typed properties; refuted for every other type."
  },
  {
   "property": "C34",
   "status": "partial",
   "theorems": [
    "C34_wrong_type_partial",
    "C34_wrong_type_refuted"
   ],
   "note": "Proved for string properties (symbols apart); refuted for all others, with what is printed instead."
  },
  {
   "property": "C35",
   "status": "partial",
   "theorems": [
    "C35_primitives_partial",
    "C35_float_char_refuted"
   ],
   "note": "Proved for six of the eight primitive types; refuted for float and char."
  },
  {
   "property": "C36",
   "status": "proved",
   "theorems": [
    "C36_balanced"
   ],
   "note": "Any blob, conforming or not."
  },
  {
   "property": "C37",
   "status": "proved",
   "theorems": [
    "C37_inspect_again",
    "C37_inspect_elsewhere"
   ],
   "note": "Same factory after any further use, or two factories of any consistent histories."
  },
  {
   "property": "C38",
   "status": "proved",
   "theorems": [
    "C38_payload_exact"
   ],
   "note": "Any sequence of objects written with one writer (without unsafe pointers to char, C73, here and in all later properties); C39_schema_exact gives the blob of one object."
  },
  {
   "property": "C39",
   "status": "proved",
   "theorems": [
    "C39_schema_exact",
    "C39_once",
    "C39_properties"
   ],
   "note": "For objects in which no class shares name and fingerprint with a container."
  },
  {
   "property": "C40",
   "status": "partial",
   "theorems": [
    "C40_order_refuted",
    "C40_order_partial"
   ],
   "note": "Refuted; holds exactly for classes that write their properties in alphabetical order."
  },
  {
   "property": "C41",
   "status": "proved",
   "theorems": [
    "C41_blob_repeatable"
   ],
   "note": "Any writer state reached by writing; pn_data_append is taken not to change its source."
  },
  {
   "property": "C42",
   "status": "partial",
   "theorems": [
    "C42_null_pointer_refuted",
    "C42_empty_vector_refuted",
    "C42_self_contained_partial"
   ],
   "note": "Refuted for null pointers and empty containers; proved for all other objects."
  },
  {
   "property": "C43",
   "status": "proved",
   "theorems": [
    "C43_round_trip"
   ],
   "note": "Strings without NUL bytes; no nulls and no vectors (C44, C45, C46)."
  },
  {
   "property": "C44",
   "status": "partial",
   "theorems": [
    "C44_strings_refuted",
    "C44_strings_partial",
    "C44_plain_partial"
   ],
   "note": "Refuted; what is read is the part of each string before its first NUL byte."
  },
  {
   "property": "C45",
   "status": "partial",
   "theorems": [
    "C45_null_refuted",
    "C45_null_string_refuted"
   ],
   "note": "Refuted for every object with a null pointer at any depth: an exception, or undefined behaviour for a pointer to a string."
  },
  {
   "property": "C46",
   "status": "partial",
   "theorems": [
    "C46_vectors_refuted"
   ],
   "note": "Refuted for every object with a vector at any depth: an exception."
  },
  {
   "property": "C47",
   "status": "partial",
   "theorems": [
    "C47_wrong_class_refuted",
    "C47_wrong_kind_partial",
    "C47_wrong_string_refuted"
   ],
   "note": "Refuted; what is rejected is a value of another kind than the one read."
  },
  {
   "property": "C48",
   "status": "partial",
   "theorems": [
    "C48_again_refuted"
   ],
   "note": "Refuted for every object: the second read always throws."
  },
  {
   "property": "C49",
   "status": "partial",
   "theorems": [
    "C49_never_wrong_partial",
    "C49_ordered_partial",
    "C49_chain_refuted",
    "C49_shared_fingerprint_refuted"
   ],
   "note": "The text is never wrong, for every factory history that does not involve the object's types; inspection does print it, with any factory whose earlier uses succeeded, when the alphabetical order of the types is one of those of C14 (dependencies first, last, or any in which newcomers find their neighbours in order). Refuted otherwise: a chain of five classes makes inspection throw (C14). Classes that share a fingerprint are shown under each other's names, or abort (shared_fingerprint_refuted). The exact criterion is C84."
  },
  {
   "property": "C50",
   "status": "partial",
   "theorems": [
    "C50_mandatory_refuted",
    "C50_mandatory_partial"
   ],
   "note": "Refuted; what the flag does mean is proved for every property."
  },
  {
   "property": "C51",
   "status": "proved",
   "theorems": [
    "C51_raw_dump_faithful",
    "C51_raw_dump_restores"
   ],
   "note": "Text for every map-free payload; position restored for every tree, maps and malformed data included."
  },
  {
   "property": "C52",
   "status": "partial",
   "theorems": [
    "C52_raw_maps_refuted",
    "C52_raw_entry_refuted",
    "C52_raw_empty_map_partial"
   ],
   "note": "Refuted, with the exact text printed for every map of single values; only the empty map is right."
  },
  {
   "property": "C53",
   "status": "partial",
   "theorems": [
    "C53_assertions_exact",
    "C53_string_assertion",
    "C53_string_assertion_refuted",
    "C53_tests_exact",
    "C53_primitive_exact",
    "C53_primitive_refuted"
   ],
   "note": "Exact for twelve assertions and the tests; the string assertion is characterised and refuted, and so is the test for primitive values (null and timestamps are primitive types of AMQP)."
  },
  {
   "property": "C54",
   "status": "proved",
   "theorems": [
    "C54_data_unchanged"
   ],
   "note": "Any sequence of inspections, dumps and reads, exceptions included."
  },
  {
   "property": "C55",
   "status": "proved",
   "theorems": [
    "C55_position_kept"
   ],
   "note": "Every tree; also shows the recursion bound of the model is never reached."
  },
  {
   "property": "C56",
   "status": "partial",
   "theorems": [
    "C56_versions_refuted"
   ],
   "note": "Refuted; C24_readers_match_entries is the part that holds (one version per class name)."
  },
  {
   "property": "C57",
   "status": "partial",
   "theorems": [
    "C57_fewer_refuted",
    "C57_more_refuted"
   ],
   "note": "Refuted both ways: surplus properties are ignored and the last one is read again for missing ones."
  },
  {
   "property": "C58",
   "status": "partial",
   "theorems": [
    "C58_raw_outline",
    "C58_raw_mentions_partial",
    "C58_constants_refuted"
   ],
   "note": "The exact text is proved for every schema; it names everything but the constants of enums. Refuted: the constants are not shown."
  },
  {
   "property": "C59",
   "status": "proved",
   "theorems": [
    "C59_schema_dump_restores",
    "C59_malformed_throws"
   ],
   "note": "Any data, any target."
  },
  {
   "property": "C60",
   "status": "partial",
   "theorems": [
    "C60_single_class_partial",
    "C60_listing_partial",
    "C60_several_types_refuted",
    "C60_collections_refuted",
    "C60_exactly"
   ],
   "note": "Proved for schemas with one class of simple properties, after any number of containers; the part printed for each such class is right in every schema. Refuted: classes followed by any other type, and classes with list, map or array properties. C60_exactly puts the two together: for schemas whose texts need no escaping the dump is JSON iff the schema is containers followed by one class of simple properties."
  },
  {
   "property": "C61",
   "status": "partial",
   "theorems": [
    "C61_no_package_refuted",
    "C61_wildcard_refuted",
    "C61_groups_refuted",
    "C61_amqp_form_refuted"
   ],
   "note": "Refuted: the AMQP form is empty; own name as namespace, undefined behaviour for a wildcard without required types, failed assertion for several groups."
  },
  {
   "property": "C62",
   "status": "partial",
   "theorems": [
    "C62_in_a_row_partial"
   ],
   "note": "Any number of objects whose types, in alphabetical order, are listed as in C14; other orders are refuted by C14 and C49."
  },
  {
   "property": "C63",
   "status": "partial",
   "theorems": [
    "C63_usage",
    "C63_foreign_file_partial",
    "C63_success_means",
    "C63_exceptions_reported_partial",
    "C63_avro_exception_refuted",
    "C63_bad_body_refuted",
    "C63_inspector_refuted"
   ],
   "note": "Usage errors and foreign files for all tools and files; success is truthful. Refuted: bodies that do not decode abort, schema-dumper in Avro mode lets exceptions escape, blob-inspector checks neither header nor reads."
  },
  {
   "property": "C64",
   "status": "partial",
   "theorems": [
    "C64_data_dumper_partial",
    "C64_schema_dumper",
    "C64_inspector_right",
    "C64_inspector_partial"
   ],
   "note": "What main prints, debug lines of the library apart. Data-dumper for objects without maps (C52), schema-dumper in raw form for all objects, blob-inspector as in C49. Proton decoding what it encoded is a hypothesis."
  },
  {
   "property": "C65",
   "status": "proved",
   "theorems": [
    "C65_save_after_reading"
   ],
   "note": "Proton decoding what it encoded is a hypothesis."
  },
  {
   "property": "C66",
   "status": "partial",
   "theorems": [
    "C66_nothing_made_up",
    "C66_missing_part_refuted",
    "C66_extra_part_refuted",
    "C66_source_known"
   ],
   "note": "Any tree and position. Refuted: the last part is taken in place of missing ones, and surplus parts are ignored."
  },
  {
   "property": "C67",
   "status": "proved",
   "theorems": [
    "C67_inspection_blind",
    "C67_dump_blind",
    "C67_schema_dump_blind",
    "C67_tools_blind",
    "C67_length_refuted"
   ],
   "note": "C67_length_refuted shows that the number of bytes does show in inspection, as the statement allows. Texts of exceptions are not modelled. Installed serialisers are assumed to be discreet; the built-in one for public keys is."
  },
  {
   "property": "C68",
   "status": "partial",
   "theorems": [
    "C68_shown_is_there",
    "C68_shown_exactly",
    "C68_values_displayed",
    "C68_missing_property_refuted",
    "C68_surplus_property_refuted",
    "C68_other_class_refuted",
    "C68_not_a_list_refuted",
    "C68_other_fingerprint_refuted"
   ],
   "note": "C68_shown_is_there and C68_shown_exactly give the rendering exactly, for any payload. Refuted: the last property is shown in place of missing ones, surplus ones are ignored, an object of another class with as many properties is shown under that class's names, whatever is not a list is shown as an empty one, and a list may carry any fingerprint of the schema."
  },
  {
   "property": "C69",
   "status": "partial",
   "theorems": [
    "C69_installed_decides",
    "C69_key_property",
    "C69_key_elements_refuted",
    "C69_key_shown"
   ],
   "note": "Proved for properties. Refuted for collections: the serialiser for public keys needs a property name, so no list with a public key in it is ever shown."
  },
  {
   "property": "C70",
   "status": "partial",
   "theorems": [
    "C70_deserialised_exactly",
    "C70_undefined_exactly",
    "C70_otherwise_throws",
    "C70_without_strings",
    "C70_undefined_refuted"
   ],
   "note": "C70_deserialised_exactly and C70_undefined_exactly hold for any blob, without restriction. Refuted: where a string is expected and something else is found, and where a vector starts with a list, the behaviour is undefined and nothing is thrown. Missing members are taken to be the last one there is."
  },
  {
   "property": "C71",
   "status": "proved",
   "theorems": [
    "C71_through_a_file"
   ],
   "note": "Proton decoding what it encoded is a hypothesis."
  },
  {
   "property": "C72",
   "status": "proved",
   "theorems": [
    "C72_raw_exactly",
    "C72_undefined_exactly",
    "C72_aborts_exactly",
    "C72_otherwise_throws",
    "C72_position_kept"
   ],
   "note": "Exact, for any tree. How maps are rendered is part of the specification, SpecRaw: the key of each entry is not shown and the value is out of step (C52)."
  },
  {
   "property": "C73",
   "status": "partial",
   "theorems": [
    "C73_char_pointer_refuted",
    "C73_serialises_partial"
   ],
   "note": "Exact: undefined for every object with a pointer to a char other than zero, at any depth, because the debug output that is switched on takes it for a C string; a blob for every other object in which no class shares name and fingerprint with a container."
  },
  {
   "property": "C74",
   "status": "partial",
   "theorems": [
    "C74_primitives_partial",
    "C74_strings_checked_partial",
    "C74_wrong_type_refuted",
    "C74_float_refuted",
    "C74_binary_refuted",
    "C74_types_refuted",
    "C74_types_text_refuted",
    "C74_write_refuted",
    "C74_unknown_refuted"
   ],
   "note": "Proved for int, long, double, boolean and string values, with any factory history. Refuted: numbers of another type are read as zero, floats throw, binary values are read as false, objects and containers as the number 1; writing writes nothing; using a type the factory does not know is undefined."
  },
  {
   "property": "C75",
   "status": "proved",
   "theorems": [
    "C75_schema"
   ],
   "note": "For programs with proper class names, distinct names and fingerprints, whose classes write their properties in alphabetical order (C40)."
  },
  {
   "property": "C76",
   "status": "proved",
   "theorems": [
    "C76_same_types"
   ],
   "note": "For programs without float and char and without containers of bool (C77), objects without null pointers to primitives and with an object of the class of each null pointer, factories that have not seen the types."
  },
  {
   "property": "C77",
   "status": "partial",
   "theorems": [
    "C77_shown_partial",
    "C77_without_text_refuted"
   ],
   "note": "Proved where the alphabetical order is one of those of C14 (C49 has a chain for which it does not). Refuted for every object that holds a float or a char, or a vector or map of bool or char, even an empty one: it is serialised and cannot be inspected. The exact criterion is C84."
  },
  {
   "property": "C78",
   "status": "partial",
   "theorems": [
    "C78_test1",
    "C78_test2",
    "C78_test3",
    "C78_test4_refuted",
    "C78_test5",
    "C78_test6",
    "C78_test7",
    "C78_test8",
    "C78_test8_empty_refuted",
    "C78_test9",
    "C78_test9_empty_refuted",
    "C78_test10",
    "C78_test11",
    "C78_test11_empty_refuted",
    "C78_test12",
    "C78_test12_empty_refuted"
   ],
   "note": "Proved for tests 1, 2, 3, 5, 6, 7 and 10, and for 8, 9, 11 and 12 if their containers are not empty. Refuted: test 4 throws for all arguments (it has a float), and the others when the container of objects is empty."
  },
  {
   "property": "C79",
   "status": "proved",
   "theorems": [
    "C79_other_uses",
    "C79_objects"
   ],
   "note": "For types not mentioned in the earlier schemas: a factory that was told about them is the subject of C25 to C27. The types of a schema have distinct names that are not those of primitive types, and no earlier operation left a null pointer for one of them."
  },
  {
   "property": "C80",
   "status": "partial",
   "theorems": [
    "C80_object_file",
    "C80_writer_tests",
    "C80_first_test",
    "C80_terminated_refuted"
   ],
   "note": "Proved where inspection gives a text. Refuted where it throws: the exception is not caught and the process is terminated, as for writer-test-04 with any arguments. Proton decoding what it encoded is a hypothesis, and no type is called java.security.PublicKey."
  },
  {
   "property": "C81",
   "status": "proved",
   "theorems": [
    "C81_streams",
    "C81_others",
    "C81_objects"
   ],
   "note": "Proton is a parameter. The encoding byte of the stream is not looked at. A failed assertion ends the program if the bytes do not decode."
  },
  {
   "property": "C82",
   "status": "partial",
   "theorems": [
    "C82_printed",
    "C82_list_refuted",
    "C82_arguments",
    "C82_inspected",
    "C82_inspected_refuted"
   ],
   "note": "Proved for nested classes, pointers and all primitive types, strings up to the first zero byte. Refuted: the program with a list of integers ends with an exception for every list, and the blob-inspector cannot show the file of the one with a float."
  },
  {
   "property": "C83",
   "status": "proved",
   "theorems": [
    "C83_processed",
    "C83_thrown",
    "C83_undefined",
    "C83_left_behind",
    "C83_spoiled"
   ],
   "note": "For schemas as the library makes them whose wildcard properties name a type (C21, C28) and whose types are not called like primitive ones. An exact characterisation: which types an earlier failure affects is derived from the history."
  },
  {
   "property": "C84",
   "status": "proved",
   "theorems": [
    "C84_exactly",
    "C84_shown_or_thrown",
    "C84_programs"
   ],
   "note": "For the objects of C49 (no null pointers to primitives, text defined for all parts), factories that were not told about the types of the object. Says exactly when C49 and C77 hold; the order is the one that C12 to C14 are about."
  },
  {
   "property": "C85",
   "status": "partial",
   "theorems": [
    "C85_schema_lines",
    "C85_schema",
    "C85_level_lines",
    "C85_type_lines",
    "C85_levels",
    "C85_types",
    "C85_types_refuted"
   ],
   "note": "Proved: lines of schemas, levels and types, and exactly when two of them print the same. Refuted: lists of required names that differ, mandatory and optional properties, and enums with other choices print the same."
  },
  {
   "property": "C86",
   "status": "partial",
   "theorems": [
    "C86_nothing_shown_partial",
    "C86_reported_partial",
    "C86_reported_refuted"
   ],
   "note": "Proved: nothing is ever shown. Partial: from the eighth byte on an assertion fails instead of an error being reported. Refuted: with less than eight bytes the blob-inspector reads uninitialised memory, the dumpers with six or seven. That Proton does not decode a proper prefix is a hypothesis."
  },
  {
   "property": "C87",
   "status": "partial",
   "theorems": [
    "C87_without_exceptions",
    "C87_exceptions",
    "C87_cut",
    "C87_cut_anywhere",
    "C87_closed",
    "C87_inspected_refuted",
    "C87_key_refuted"
   ],
   "note": "The payload, the schema and the exception are given exactly for every script of writing, throwing and catching. Refuted: a key that throws leaves a key without value, and inspection shows a made-up value for a property that was not written."
  },
  {
   "property": "C88",
   "status": "proved",
   "theorems": [
    "C88_decoded",
    "C88_unambiguous",
    "C88_prefix",
    "C88_surplus",
    "C88_encoded",
    "C88_objects",
    "C88_assumptions_met",
    "C88_writer_tests",
    "C88_data_dumper",
    "C88_interrupted"
   ],
   "note": "Arrays, which the library never writes, are left out of the codec. That proton follows the standard is part of the trusted base; the other theorems about files hold for any decoder and encoder that agree, and C88_assumptions_met shows that those of AMQP 1.0 do."
  },
  {
   "property": "C89",
   "status": "partial",
   "theorems": [
    "C89_same",
    "C89_buffers",
    "C89_reading",
    "C89_rejected",
    "C89_trees_refuted",
    "C89_never_released_refuted",
    "C89_growth_refuted"
   ],
   "note": "Proved for the buffers of CordaBytes. Refuted for the trees of proton: none is ever released; how many an object leaves is given exactly. Copies of binary values made while reading, and objects made for pointers, are C99."
  },
  {
   "property": "C90",
   "status": "proved",
   "theorems": [
    "C90_nearest",
    "C90_ties",
    "C90_exact",
    "C90_sign",
    "C90_order",
    "C90_told_apart",
    "C90_small_refuted",
    "C90_others",
    "C90_inspected"
   ],
   "note": "std::to_string is modelled as the C++17 standard defines it (sprintf with %f), with the rounding of glibc. C90_small_refuted says which values cannot be told from zero."
  },
  {
   "property": "C91",
   "status": "partial",
   "theorems": [
    "C91_exactly",
    "C91_one_ending",
    "C91_written",
    "C91_straight",
    "C91_caught_partial",
    "C91_null_refuted",
    "C91_lost_refuted",
    "C91_map_refuted"
   ],
   "note": "The ending is given exactly for every program (C91_exactly, C91_written) where whatever is described is a list, that is for objects without maps. Refuted: after the exception for a null pointer the same null is read again, so the next property is lost; after the exception for a map the object is not closed."
  },
  {
   "property": "C92",
   "status": "proved",
   "theorems": [
    "C92_exactly",
    "C92_exceptions",
    "C92_safe",
    "C92_kind",
    "C92_conditions_needed"
   ],
   "note": "Exact for every tree (C92_exactly); C92_conditions_needed shows for each condition of C92_safe that behaviour can be undefined without it."
  },
  {
   "property": "C93",
   "status": "proved",
   "theorems": [
    "C93_exactly",
    "C93_defined",
    "C93_undefined",
    "C93_exceptions",
    "C93_aborts",
    "C93_tool"
   ],
   "note": "For a factory in which only serialisers have been installed (C79 and C83 say what earlier schemas change), and for types that are not named like primitives. What user-written serialisers do is a parameter: they must stay in their place."
  },
  {
   "property": "C94",
   "status": "proved",
   "theorems": [
    "C94_exactly",
    "C94_like_new"
   ],
   "note": "Exact for every history (C94_exactly). C94_ex shows what the factory remembers to ill effect: undefined behaviour after a failure (C83), the types of another version of a class (C56). Replacing a serialiser or one for a known type is C28."
  },
  {
   "property": "C95",
   "status": "proved",
   "theorems": [
    "C95_exactly",
    "C95_raw",
    "C95_avro",
    "C95_tool",
    "C95_conditions_needed"
   ],
   "note": "Exact for every tree (C95_exactly). C95_conditions_needed shows for each condition that without it the dump can abort or be undefined."
  },
  {
   "property": "C96",
   "status": "partial",
   "theorems": [
    "C96_exactly",
    "C96_same_result",
    "C96_tool",
    "C96_result_at_the_end",
    "C96_result_on_its_own_line",
    "C96_alone_refuted",
    "C96_failure_silent_refuted"
   ],
   "note": "Exact for every tree (C96_exactly, C96_tool), and a refinement of the model without output for any cursor (C96_same_result). Refuted, for every successful run: the result is never alone on standard output (C96_alone_refuted); failing runs can leave text there. schema-dumper is C97; the debug output of the other tools is not modelled."
  },
  {
   "property": "C97",
   "status": "partial",
   "theorems": [
    "C97_exactly",
    "C97_same_result",
    "C97_tool",
    "C97_result_at_the_end",
    "C97_result_on_its_own_line",
    "C97_avro_alone_refuted",
    "C97_avro_json_refuted",
    "C97_raw_alone_refuted"
   ],
   "note": "Exact for every tree (C97_exactly, C97_tool), and a refinement of the model without output for any cursor (C97_same_result). Refuted: what the Avro form writes is never the result alone (C97_avro_alone_refuted) nor a JSON text (C97_avro_json_refuted); the raw form is alone only when the blob is described by a symbol (C97_raw_alone_refuted)."
  },
  {
   "property": "C98",
   "status": "partial",
   "theorems": [
    "C98_told_apart_partial",
    "C98_doubles_are_words",
    "C98_quotes_refuted",
    "C98_classes_refuted"
   ],
   "note": "Both directions hold for objects whose strings have no quotation marks and enums whose constants have no blanks or commas (C98_told_apart_partial); the texts of doubles meet the condition (C98_doubles_are_words). Refuted with quotation marks, which are not escaped, for a class of pairs (C98_quotes_refuted); the class of an object does not show (C98_classes_refuted)."
  },
  {
   "property": "C99",
   "status": "partial",
   "theorems": [
    "C99_same_result",
    "C99_no_binary_partial",
    "C99_binaries_refuted",
    "C99_key_refuted",
    "C99_owned",
    "C99_no_pointers_partial",
    "C99_exception_refuted",
    "C99_every_exception"
   ],
   "note": "Counting is a refinement of the readers and of the deserialiser for any data (C99_same_result, C99_owned). Holds without binary values (C99_no_binary_partial), for classes without pointers (C99_no_pointers_partial) and whenever an object is returned (C99_owned). Refuted, with the exact sizes and numbers: all binary values of an object are lost on each inspection (C99_binaries_refuted), so are public keys (C99_key_refuted), and the pointers read before any exception of C47 (C99_exception_refuted, C99_every_exception). Memory of proton is C89."
  },
  {
   "property": "C100",
   "status": "partial",
   "theorems": [
    "C100_blobs_told_apart",
    "C100_files_told_apart",
    "C100_versions_refuted"
   ],
   "note": "Both directions for blobs (C100_blobs_told_apart) and for files with any AMQP 1.0 encoder (C100_files_told_apart), for all objects of a program whose types have different fingerprints. Refuted for two versions of a class with one fingerprint whose properties are written in different orders, for any number of properties (C100_versions_refuted)."
  },
  {
   "property": "C101",
   "status": "partial",
   "theorems": [
    "C101_same_result",
    "C101_exactly",
    "C101_silent_refuted",
    "C101_pointers_partial"
   ],
   "note": "Exact for every object (C101_exactly), and a refinement of the model without output for any writer (C101_same_result). Refuted, for every object: something is written, and in it every primitive value held (C101_silent_refuted). Proved: values that are only pointed to do not show (C101_pointers_partial)."
  },
  {
   "property": "C102",
   "status": "partial",
   "theorems": [
    "C102_same_result",
    "C102_exactly",
    "C102_silent_refuted",
    "C102_schema_partial"
   ],
   "note": "Exact for every blob, also for exceptions (C102_exactly), and a refinement of the model without output for any data (C102_same_result). Refuted whenever an object is returned: something is written, and in it every primitive value of the object (C102_silent_refuted). Proved: nothing after the payload shows (C102_schema_partial)."
  },
  {
   "property": "C103",
   "status": "partial",
   "theorems": [
    "C103_inspector_refuted",
    "C103_contents_refuted",
    "C103_payload_partial",
    "C103_dumper_refuted",
    "C103_raw_partial"
   ],
   "note": "Refuted for every output of blob-inspector (C103_inspector_refuted) and of dumpContents (C103_contents_refuted), given that serialisers installed by the user show the name they are given; for data-dumper unless the fingerprint begins like an array (C103_dumper_refuted, the condition is needed: C103_ex_dumper). Exact criterion for the text of the payload, for values whose strings need no escaping (C103_payload_partial); data-dumper: numbers, booleans and nulls in lists that are not empty (C103_raw_partial)."
  },
  {
   "property": "C104",
   "status": "proved",
   "theorems": [
    "C104_lists",
    "C104_maps",
    "C104_arrays",
    "C104_containers",
    "C104_mentioned",
    "C104_normalised"
   ],
   "note": "Exact on every text, against a specification on characters (SpecNames.v) that does not use the parsers. The same specification is what C19, C20, C66, C92, C95, C11 - C16 now refer to instead of the parsers."
  },
  {
   "property": "C105",
   "status": "partial",
   "theorems": [
    "C105_same_result",
    "C105_exactly",
    "C105_silent_refuted",
    "C105_hidden_partial"
   ],
   "note": "Exact for every blob, also for exceptions, given that what serialisers installed by the user write depends on what they find (C105_exactly); a refinement of the model without output for any data (C105_same_result). What is written before the payload is reached (reading the schema, making the readers) is a parameter. Refuted whenever a text is returned and there is an integer property inside objects and lists (C105_silent_refuted). Proved: texts, longs, floating-point numbers, truth values and bytes do not show (C105_hidden_partial)."
  },
  {
   "property": "C106",
   "status": "proved",
   "theorems": [
    "C106_exactly",
    "C106_same_result",
    "C106_exactly_given",
    "C106_schema_shown",
    "C106_hidden"
   ],
   "note": "Exact for every blob, also for exceptions (C106_exactly), and a refinement of the model without output for any data (C106_same_result). C106_exactly_given is the same with the texts of Field::make, Restricted::make, inserting a type and making the readers as parameters; C106_exactly fills in those of C107 and C108, where behaviour is defined. The names and fingerprints of all types and the names and types of all properties are written (C106_schema_shown); texts, longs, floating-point numbers, truth values and bytes of the payload are not (C106_hidden)."
  },
  {
   "property": "C107",
   "status": "proved",
   "theorems": [
    "C107_same_result",
    "C107_property",
    "C107_container",
    "C107_comparison",
    "C107_insertion",
    "C107_defined",
    "C107_hidden"
   ],
   "note": "Exact for properties and containers (C107_property, C107_container), for comparisons and for insertion of types (C107_comparison, C107_insertion) unless behaviour is undefined, which takes a property whose required type is missing (C107_defined). The results are those of the model without output (C107_same_result); what does not show: C107_hidden."
  },
  {
   "property": "C108",
   "status": "proved",
   "theorems": [
    "C108_same_result",
    "C108_making",
    "C108_install",
    "C108_new",
    "C108_inspect",
    "C108_hidden"
   ],
   "note": "Exact for every schema and every factory whose serialisers are known (C108_making), for installing a serialiser (C108_install, C108_new) and, with the texts of C107, for inspecting a blob from beginning to end (C108_inspect). The outcome is that of the model without output for any factory (C108_same_result); what does not show: C108_hidden."
  }
 ]
}