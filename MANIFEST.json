{
 "claims": [
  {
   "property": "C01",
   "status": "proved",
   "theorems": [
    "C01_unsigned_bits_roundtrip"
   ],
   "note": ""
  },
  {
   "property": "C02",
   "status": "proved",
   "theorems": [
    "C02_signed_bits_roundtrip"
   ],
   "note": ""
  },
  {
   "property": "C03",
   "status": "proved",
   "theorems": [
    "C03_writer_history",
    "C03_writer_step"
   ],
   "note": ""
  },
  {
   "property": "C04",
   "status": "proved",
   "theorems": [
    "C04_range_checks"
   ],
   "note": ""
  },
  {
   "property": "C05",
   "status": "proved",
   "theorems": [
    "C05_read_bits_exact"
   ],
   "note": ""
  },
  {
   "property": "C06",
   "status": "proved",
   "theorems": [
    "C06_read_history_safe",
    "C06_setter_exact",
    "C06_negative_bitsize_refuted"
   ],
   "note": "A negative bitsize, which the constructor accepts, is excluded by hypothesis; C06_negative_bitsize_refuted shows why."
  },
  {
   "property": "C07",
   "status": "proved",
   "theorems": [
    "C07_varint_roundtrip"
   ],
   "note": ""
  },
  {
   "property": "C08",
   "status": "proved",
   "theorems": [
    "C08_varint_size_exact_minimal"
   ],
   "note": ""
  },
  {
   "property": "C09",
   "status": "proved",
   "theorems": [
    "C09_varint_out_of_range"
   ],
   "note": ""
  },
  {
   "property": "C10",
   "status": "proved",
   "theorems": [
    "C10_varint_decode_safe"
   ],
   "note": ""
  },
  {
   "property": "C100",
   "status": "partial",
   "theorems": [
    "C100_attached",
    "C100_one_owner",
    "C100_field",
    "C100_unused",
    "C100_sticky",
    "C100_indented_partial",
    "C100_verbatim",
    "C100_terminator",
    "C100_crlf_refuted",
    "C100_location",
    "C100_location_only",
    "C100_paragraphs",
    "C100_paragraphs_only"
   ],
   "note": "Missing because false: indented markdown comments with carriage returns (C100_crlf_refuted). Lines of indented comments have no other line terminators of Java either."
  },
  {
   "property": "C101",
   "status": "partial",
   "theorems": [
    "C101_sound",
    "C101_own",
    "C101_qualified_partial",
    "C101_unqualified_partial",
    "C101_package",
    "C101_own_import_refuted"
   ],
   "note": "Uses the model of packages and imports of C71. Missing because false: a package that imports its own symbol (C101_own_import_refuted) and the overlapping imports of C71."
  },
  {
   "property": "C11",
   "status": "proved",
   "theorems": [
    "C11_bytes_roundtrip",
    "C11_string_roundtrip",
    "C11_bitbuffer_roundtrip"
   ],
   "note": ""
  },
  {
   "property": "C12",
   "status": "proved",
   "theorems": [
    "C12_bitsizeof_bytes",
    "C12_bitsizeof_string",
    "C12_bitsizeof_bitbuffer"
   ],
   "note": ""
  },
  {
   "property": "C13",
   "status": "proved",
   "theorems": [
    "C13_alignto_least_multiple",
    "C13_writer_alignto",
    "C13_reader_alignto",
    "C13_bits_to_bytes",
    "C13_bytesize_least"
   ],
   "note": ""
  },
  {
   "property": "C14",
   "status": "proved",
   "theorems": [
    "C14_bitbuffer_equality",
    "C14_bitbuffer_hash"
   ],
   "note": ""
  },
  {
   "property": "C15",
   "status": "proved",
   "theorems": [
    "C15_hash_range",
    "C15_hash_polynomial",
    "C15_hash_int64_words",
    "C15_float_zero_hash_refuted",
    "C15_float_hash"
   ],
   "note": "Holds for integers, bytes, strings, bit buffers and arrays of them; for floats the only exception is 0.0 == -0.0, shown by C15_float_zero_hash_refuted."
  },
  {
   "property": "C16",
   "status": "proved",
   "theorems": [
    "C16_float16_roundtrip",
    "C16_float16_conversions_inverse"
   ],
   "note": ""
  },
  {
   "property": "C17",
   "status": "partial",
   "theorems": [
    "C17_float16_nearest_partial",
    "C17_overflow_to_nan_refuted",
    "C17_overflow_to_zero_refuted",
    "C17_overflow_raises_refuted",
    "C17_not_nearest_refuted"
   ],
   "note": "Proved for floats exact in single precision with magnitude in [2^-24, 2^16); the code violates the rest of the claim, shown by the C17_*_refuted theorems (overflow gives NaN, -0.0 or an exception; tiny values and double rounding are not nearest)."
  },
  {
   "property": "C18",
   "status": "proved",
   "theorems": [
    "C18_float64_roundtrip",
    "C18_float32_roundtrip"
   ],
   "note": ""
  },
  {
   "property": "C19",
   "status": "proved",
   "theorems": [
    "C19_numbits_least",
    "C19_numbits_stores",
    "C19_bitfield_bounds",
    "C19_signed_bitfield_bounds",
    "C19_limits_exact",
    "C19_isset",
    "C19_lengthof_string"
   ],
   "note": ""
  },
  {
   "property": "C20",
   "status": "proved",
   "theorems": [
    "C20_array_roundtrip",
    "C20_array_accepts",
    "C20_implicit_roundtrip"
   ],
   "note": "Element kinds of the runtime (integers, floats, bool, bytes, string, bit buffer); object elements belong to C27."
  },
  {
   "property": "C21",
   "status": "proved",
   "theorems": [
    "C21_array_bitsizeof_exact",
    "C21_array_initialize_exact"
   ],
   "note": ""
  },
  {
   "property": "C22",
   "status": "proved",
   "theorems": [
    "C22_offsets_point_to_elements",
    "C22_offsets_unique"
   ],
   "note": ""
  },
  {
   "property": "C23",
   "status": "proved",
   "theorems": [
    "C23_packed_roundtrip",
    "C23_packed_accepts"
   ],
   "note": ""
  },
  {
   "property": "C24",
   "status": "proved",
   "theorems": [
    "C24_packed_bitsizeof_exact",
    "C24_packed_initialize_exact",
    "C24_packed_offsets_pass"
   ],
   "note": ""
  },
  {
   "property": "C25",
   "status": "proved",
   "theorems": [
    "C25_packed_cost"
   ],
   "note": ""
  },
  {
   "property": "C26",
   "status": "partial",
   "theorems": [
    "C26_packed_read_safe_partial",
    "C26_packed_read_range_refuted"
   ],
   "note": "Safety and element count proved; the range part is false of the code, shown by C26_packed_read_range_refuted."
  },
  {
   "property": "C27",
   "status": "proved",
   "theorems": [
    "C27_object_roundtrip",
    "C27_root_roundtrip",
    "C27_serialize_roundtrip",
    "C27_serialize_bytes_roundtrip",
    "C27_empty_extended_refuted"
   ],
   "note": "All hypotheses are in SpecSchema.v: wf_schema (expressions do not see what reading changes; extended fields only in the outermost type, as the compiler demands; an implicit array at the very end, at any depth of nesting in last place), sound (annotated types, unused fields None), ext_visible (last present extended field not empty; C27_empty_extended_refuted shows it is needed). Elements of implicit arrays have at least 8 bits, or they could not be told from the padding of the last byte."
  },
  {
   "property": "C28",
   "status": "proved",
   "theorems": [
    "C28_object_bitsizeof_exact",
    "C28_initialize_offsets",
    "C28_initialize_offsets_without_offsets",
    "C28_bitsizeof_ignores_offsets"
   ],
   "note": "bitsizeof is exact for every schema of C27 and does not depend on offsets; for an object that write accepts, initialize_offsets returns the end and leaves the object alone, also in schemas with offsets."
  },
  {
   "property": "C29",
   "status": "proved",
   "theorems": [
    "C29_write_checks",
    "C29_read_checks"
   ],
   "note": ""
  },
  {
   "property": "C30",
   "status": "proved",
   "theorems": [
    "C30_newer_reads_older",
    "C30_older_reads_newer"
   ],
   "note": "Both versions of the type live in one schema and share the types they refer to."
  },
  {
   "property": "C31",
   "status": "proved",
   "theorems": [
    "C31_mask_operators",
    "C31_mask_from_value",
    "C31_mask_read",
    "C31_enum_read",
    "C31_enum_read_exact",
    "C31_enum_write_removed",
    "C31_enum_from_name",
    "C31_packed_mask_refuted"
   ],
   "note": "A bitmask read inside a packed array is not range checked and can be out of bounds: shown by C31_packed_mask_refuted."
  },
  {
   "property": "C32",
   "status": "proved",
   "theorems": [
    "C32_equal_hash",
    "C32_hash_range",
    "C32_symmetric",
    "C32_transitive",
    "C32_deserialized_equal",
    "C32_stale_optional_refuted",
    "C32_float_zero_refuted",
    "C32_empty_case_refuted"
   ],
   "note": "Each condition is needed: C32_stale_optional_refuted (clause looks at an unused field), C32_float_zero_refuted, C32_empty_case_refuted (comparing an object read with an empty choice case raises AttributeError)."
  },
  {
   "property": "C33",
   "status": "proved",
   "theorems": [
    "C33_from_reader_safe"
   ],
   "note": "The set X of exceptions that user expressions of the schema may raise is a parameter of the theorem."
  },
  {
   "property": "C34",
   "status": "proved",
   "theorems": [
    "C34_string_roundtrip",
    "C34_string_valid",
    "C34_string_accepted",
    "C34_value_roundtrip",
    "C34_solidus_refuted",
    "C34_surrogate_pair_refuted"
   ],
   "note": ""
  },
  {
   "property": "C35",
   "status": "proved",
   "theorems": [
    "C35_chunks_agree",
    "C35_tokens",
    "C35_tokens_whole",
    "C35_last_value_refuted"
   ],
   "note": ""
  },
  {
   "property": "C36",
   "status": "proved",
   "theorems": [
    "C36_layout",
    "C36_json",
    "C36_parsed",
    "C36_unique",
    "C36_default"
   ],
   "note": ""
  },
  {
   "property": "C37",
   "status": "proved",
   "theorems": [
    "C37_enum",
    "C37_mask"
   ],
   "note": "Names of items are identifiers and distinct; bitmask values in range and not negative."
  },
  {
   "property": "C38",
   "status": "proved",
   "theorems": [
    "C38_walk",
    "C38_tree_unique",
    "C38_unset_array_refuted"
   ],
   "note": "C38_unset_array_refuted: walking a new choice whose selected member is an array raises AttributeError."
  },
  {
   "property": "C39",
   "status": "proved",
   "theorems": [
    "C39_any_filter",
    "C39_depth",
    "C39_array_length"
   ],
   "note": ""
  },
  {
   "property": "C40",
   "status": "proved",
   "theorems": [
    "C40_conjunction"
   ],
   "note": ""
  },
  {
   "property": "C41",
   "status": "partial",
   "theorems": [
    "C41_accepted",
    "C41_only_trees",
    "C41_prefix",
    "C41_refused",
    "C41_rebuild_partial",
    "C41_extended_refuted"
   ],
   "note": "The grammar is proved both ways in full. Rebuilding an object from a walk (C41_rebuild_partial) needs all extended fields present; C41_extended_refuted shows that it fails otherwise. begin calls may also raise what the constructor or an argument expression raises."
  },
  {
   "property": "C42",
   "status": "partial",
   "theorems": [
    "C42_service_call_partial",
    "C42_unknown_method",
    "C42_byte_array_stays",
    "C42_publish_partial",
    "C42_offsets_refuted"
   ],
   "note": "Proved for objects that can be written as they are. Missing because false: the service and Pub/Sub classes do not set offsets, so an object that serialize writes may be refused (C42_offsets_refuted)."
  },
  {
   "property": "C43",
   "status": "partial",
   "theorems": [
    "C43_write_partial",
    "C43_write_in_transaction",
    "C43_unknown_column",
    "C43_create_schema",
    "C43_delete_schema",
    "C43_autocommit_refuted"
   ],
   "note": "All or nothing is proved for the committed database, for every engine that runs statements in transactions. Missing because false: after a failing row the connection stays in a transaction, the rows before it are seen by reads, and later writes are not committed (C43_autocommit_refuted)."
  },
  {
   "property": "C44",
   "status": "partial",
   "theorems": [
    "C44_packed_write_first_checked_partial",
    "C44_packed_write_range_refuted"
   ],
   "note": "Only the first element is checked; the full claim is false of the code, shown by C44_packed_write_range_refuted."
  },
  {
   "property": "C45",
   "status": "partial",
   "theorems": [
    "C45_plain_read_bounded_partial",
    "C45_packed_amplification_refuted"
   ],
   "note": "Proved for plain arrays; false of packed arrays, shown by C45_packed_amplification_refuted."
  },
  {
   "property": "C46",
   "status": "partial",
   "theorems": [
    "C46_round_trip_partial",
    "C46_extended_refuted"
   ],
   "note": "For objects all of whose extended fields are present (C46_extended_refuted: otherwise they appear), whose nested parameters are those of the schema, whose names are distinct. float_repr_law is assumed of Python's repr and float."
  },
  {
   "property": "C47",
   "status": "partial",
   "theorems": [
    "C47_regex",
    "C47_regex_within_partial",
    "C47_element_refuted"
   ],
   "note": "C47_regex is exact for the code. The claim as documented holds for patterns that do not match only the path of an object in an array (C47_regex_within_partial); otherwise it is false (C47_element_refuted)."
  },
  {
   "property": "C48",
   "status": "proved",
   "theorems": [
    "C48_object",
    "C48_raises",
    "C48_documented_refuted"
   ],
   "note": "C48_documented_refuted: not only PythonRuntimeException as documented."
  },
  {
   "property": "C49",
   "status": "partial",
   "theorems": [
    "C49_rows_read_back_partial",
    "C49_plain_rows_read_back_partial",
    "C49_update",
    "C49_columns_refuted",
    "C49_types_partial",
    "C49_typed",
    "C49_values_refuted"
   ],
   "note": "Proved for engines that keep rows in the order of insertion (record keeps, met by the engine of ExampleSql), separately for tables with and without blobs, enums and bitmasks. Missing because false: the same shape of rows for both kinds of tables (C49_columns_refuted). C49_types_partial: the column types chosen leave the values handed over unchanged under SQLite's affinity rules (as documented, SpecSqlTypes); missing because false: NaN, minus zero, integers of 64 bits (C49_values_refuted)."
  },
  {
   "property": "C50",
   "status": "partial",
   "theorems": [
    "C50_create_query_partial",
    "C50_virtual_column_refuted",
    "C50_ordinary"
   ],
   "note": "Proved when the last column is not virtual. Missing because false: a virtual column after an ordinary one leaves a comma before the closing parenthesis (C50_virtual_column_refuted). C50_ordinary: no condition is needed for ordinary tables accepted by the compiler (C96)."
  },
  {
   "property": "C51",
   "status": "proved",
   "theorems": [
    "C51_from_file",
    "C51_close"
   ],
   "note": ""
  },
  {
   "property": "C52",
   "status": "proved",
   "theorems": [
    "C52_initialize_then_write",
    "C52_serialize_sets_offsets"
   ],
   "note": "For schemas whose other expressions do not look at offset fields; offset fields are unsigned bit fields of 1 to 64 bits, and the values the caller left in them fit. Arguments that are themselves objects with offsets are outside (blind requires equal arguments)."
  },
  {
   "property": "C53",
   "status": "proved",
   "theorems": [
    "C53_write_stores_encoding",
    "C53_serialize_to_bytes",
    "C53_serialize"
   ],
   "note": "Holds for every schema (no wf_schema), with alignments that are not negative, and objects whose bytes are bytes and floats are bit patterns. The specification (SpecWire.v) gives the bytes of all worked examples of the guide."
  },
  {
   "property": "C54",
   "status": "proved",
   "theorems": [
    "C54_write_accepts_exactly",
    "C54_write_accepts"
   ],
   "note": "checked_object (SpecChecks.v) and encoding (SpecWire.v) are the specification; the theorem is an equivalence, and an accepted object is stored as its encoding."
  },
  {
   "property": "C55",
   "status": "proved",
   "theorems": [
    "C55_read_can_be_written",
    "C55_read_write_read",
    "C55_bytes_read_write_read"
   ],
   "note": "The three exceptions are witnessed by C55_exceptions_refuted: bytes that are read but not accepted by write (negative array length, removed enum item, packed array with an element out of range)."
  },
  {
   "property": "C56",
   "status": "proved",
   "theorems": [
    "C56_field_at_offset",
    "C56_element_at_offset",
    "C56_object_at_offset",
    "C56_serialized_object_at_offset"
   ],
   "note": "Hypotheses as in C27 plus values_ok (bytes are bytes). Parts inside packed arrays are excluded: their encoding depends on the elements before them. Implicit arrays, and types that end with one, are excluded, as they extend to the end of the stream (free_field, refers_plain, plain_type)."
  },
  {
   "property": "C57",
   "status": "proved",
   "theorems": [
    "C57_constructor",
    "C57_setters",
    "C57_indicators",
    "C57_condition",
    "C57_read_used",
    "C57_determined",
    "C57_read_objects",
    "C57_setters_like_constructor",
    "C57_union_constructor",
    "C57_union_setter",
    "C57_choice_constructor",
    "C57_choice_setter"
   ],
   "note": "Objects are those with all attributes (object_of), shown to include what the constructor and from_reader return. Members are given by number. C57_choice_setter also states that all fields of a choice share one attribute. C57_read_used is about fields that are not extended."
  },
  {
   "property": "C58",
   "status": "partial",
   "theorems": [
    "C58_objects_independent_partial",
    "C58_default_bytes_shared",
    "C58_constructor",
    "C58_objects_independent_refuted"
   ],
   "note": "False of the code for bytes fields left to their default: bytearray() is a default argument, evaluated once, so all such objects share it (C58_default_bytes_shared, C58_objects_independent_refuted). Proved for all other fields and arguments. C58_constructor says what a new object shows."
  },
  {
   "property": "C59",
   "status": "partial",
   "theorems": [
    "C59_emitted_code_valid_partial",
    "C59_expressions_partial",
    "C59_comparison_chain_refuted",
    "C59_negation_refuted",
    "C59_valueof_refuted",
    "C59_division_refuted",
    "C59_modulo_refuted",
    "C59_index_refuted"
   ],
   "note": "False of the code for an equality whose operand is a comparison (Python chains comparisons), a negation to the right of an equality (a syntax error), valueof of an unparenthesised conditional enum, divisions and remainders with operands of different sign, and negative indices (each refuted). Proved for all other expressions; relational operators on integers only, equality on operands of the same type."
  },
  {
   "property": "C60",
   "status": "proved",
   "theorems": [
    "C60_decode",
    "C60_decode_end",
    "C60_deserialize",
    "C60_deserialize_bytes",
    "C60_prefix_free",
    "C60_same_bytes"
   ],
   "note": "Combines the round trip (C27) with the converse of the wire format (C54): decoding is a matter of the bits alone. Conditions as in C27 and C54; plain_type excludes types that end with extended fields or an implicit array, which the *_end, deserialize and same_bytes theorems cover."
  },
  {
   "property": "C61",
   "status": "proved",
   "theorems": [
    "C61_continuation",
    "C61_truncated",
    "C61_local",
    "C61_truncated_buffer",
    "C61_truncated_bytes",
    "C61_local_refuted"
   ],
   "note": "Exact locality needs that an array of dynamic bit fields has no negative length together with a negative width (array_widths_ok): Array.read multiplies the two for its early check of the stream end, C61_local_refuted. Continuation and truncation hold without the condition. Types with extended fields or implicit arrays depend on the stream end by design."
  },
  {
   "property": "C62",
   "status": "partial",
   "theorems": [
    "C62_conversion",
    "C62_members_partial",
    "C62_arguments",
    "C62_keywords_partial",
    "C62_items",
    "C62_services",
    "C62_packages",
    "C62_resetter_refuted",
    "C62_offset_refuted",
    "C62_keywords_refuted",
    "C62_items_refuted",
    "C62_words",
    "C62_generated_names"
   ],
   "note": "False of the code in four places (C62_resetter_refuted, C62_offset_refuted, C62_keywords_refuted, C62_items_refuted); the partial theorems hold for scopes that avoid resetter and offset method names, and names that are keywords in another case. Arguments, services, Pub/Sub, bitmasks and packages hold without exception. The lists of template methods and the class members are transcribed from the templates."
  },
  {
   "property": "C63",
   "status": "partial",
   "theorems": [
    "C63_declarations_partial",
    "C63_expressions_partial",
    "C63_builtin_types",
    "C63_range_bounds",
    "C63_bit_sizes",
    "C63_hash_functions"
   ],
   "note": "The types, bounds, sizes and hash functions without exception; expressions as far as C59 holds (C63_declarations_partial, C63_expressions_partial). Fields that are absent or hold a value of another type have no meaning in the language, and nothing is claimed for expressions that use them. The number of nested function calls is bounded by a parameter the theorems quantify over."
  },
  {
   "property": "C64",
   "status": "partial",
   "theorems": [
    "C64_checked_conditions",
    "C64_well_formed_partial",
    "C64_root_types_partial",
    "C64_closed_types_partial",
    "C64_roundtrip_partial",
    "C64_decode_partial",
    "C64_write_accepts_exactly",
    "C64_alignment_refuted",
    "C64_implicit_refuted"
   ],
   "note": "False of the code for align(0) and for implicit arrays that are conditional, in a choice or follow each other (C64_alignment_refuted, C64_implicit_refuted); proved for schemas without align(0), with implicit arrays last and choices with a field. C64_write_accepts_exactly and C64_checked_conditions hold for every accepted schema."
  },
  {
   "property": "C65",
   "status": "partial",
   "theorems": [
    "C65_integers",
    "C65_floats",
    "C65_strings_partial",
    "C65_string_texts",
    "C65_octal_refuted",
    "C65_surrogates_refuted",
    "C65_calculated_values"
   ],
   "note": "False of the code for octal escapes of three digits after the zero (C65_octal_refuted): string literals are proved for the others. Pairs of surrogates are read as documented but cannot be encoded (C65_surrogates_refuted)."
  },
  {
   "property": "C66",
   "status": "partial",
   "theorems": [
    "C66_bounds_partial",
    "C66_dynamic_bit_fields_partial",
    "C66_numbits_upper_bound",
    "C66_negation_refuted",
    "C66_shift_left_refuted",
    "C66_shift_right_refuted",
    "C66_numbits_refuted",
    "C66_inverted_mask_refuted",
    "C66_constant_division_refuted",
    "C66_wide_length_refuted",
    "C66_declared_partial",
    "C66_generated_partial",
    "C66_declared_length_partial"
   ],
   "note": "Partial because the full statement is false of the code: bounds of -x are not exchanged, bounds of shifts are wrong for negative operands or non-constant shifts, numbits(0) is 1 for the compiler and 0 for the code, ~ of a bitmask constant is taken as a negative number, lengths from 2^31 wrap, constant division by zero in a branch that is not taken makes the compiler fail (refuted by witnesses). Proved for all expressions without these; what declarations say of names, fields, elements, lengths and functions is a hypothesis there, and derived from the declarations of a schema in C66_declared_partial, C66_generated_partial and C66_declared_length_partial, for objects that hold values of their declared types."
  },
  {
   "property": "C67",
   "status": "partial",
   "theorems": [
    "C67_packed_code_partial",
    "C67_element_factories_partial",
    "C67_self_packed_refuted",
    "C67_only_where_used",
    "C67_packable_types",
    "C67_packable_fields",
    "C67_no_indirect_recursion",
    "C67_contexts_finite"
   ],
   "note": "Partial because the full statement is false of the code: a type with a packed array of its own type whose other fields have generated classes that are in no other packed array gets code that calls methods which were not generated (refuted by a witness). Proved for all other schemas; templates of the schema language are not modelled."
  },
  {
   "property": "C68",
   "status": "partial",
   "theorems": [
    "C68_enum_values",
    "C68_enum_accepted_partial",
    "C68_enum_class",
    "C68_removed_items",
    "C68_mask_values_partial",
    "C68_mask_checked",
    "C68_mask_text",
    "C68_constants_partial",
    "C68_zero_refuted",
    "C68_conditional_item_refuted",
    "C68_conditional_constant_refuted",
    "C68_constant_division_refuted",
    "C68_constant_shift_refuted"
   ],
   "note": "Partial because the full statement is false of the code: after a value 0 the next bitmask value is 2 although 1 is unused; items whose value the compiler does not calculate (conditional expressions) make it fail with a NullPointerException; constants are checked only if the compiler calculates their value, and with division rounding towards zero, which the generated code does not (refuted by witnesses). Proved for all other items and constants. Base types that are dynamic bit fields are not modelled; values of names in expressions are those declarations promise (as in C66)."
  },
  {
   "property": "C69",
   "status": "partial",
   "theorems": [
    "C69_selection_partial",
    "C69_accepted_partial",
    "C69_runtime_choices",
    "C69_both_labels_refuted",
    "C69_negated_label_refuted",
    "C69_inverted_label_refuted",
    "C69_conditional_label_refuted",
    "C69_function_label_refuted",
    "C69_division_label_refuted",
    "C69_constant_label_refuted"
   ],
   "note": "Partial because the full statement is false of the code (refuted by witnesses): a boolean choice with both labels for one branch generates code that starts with else; labels whose value the compiler does not calculate (booleans other than true and false, conditionals) or calculates differently from the generated code (inverted bitmasks, divisions of negative numbers) can be equal; constants of another enumeration and functions of parameters are accepted as labels. Proved for labels whose value the compiler calculates and for which C59 and C66 hold. Simplified: the text of an expression is compared as its tree."
  },
  {
   "property": "C70",
   "status": "partial",
   "theorems": [
    "C70_preceding_fields_partial",
    "C70_members_partial",
    "C70_names_known_partial",
    "C70_calls_end",
    "C70_methods_callable",
    "C70_later_field_refuted",
    "C70_function_names_refuted",
    "C70_other_object_refuted"
   ],
   "note": "Proved for all schemas in which no field has the name of a constant (C70_calls_end needs no such restriction). False without: C70_later_field_refuted, C70_function_names_refuted. C70_other_object_refuted: a schema all whose expressions are determined by what has been read can be rejected."
  },
  {
   "property": "C71",
   "status": "partial",
   "theorems": [
    "C71_import_order",
    "C71_references_import_order",
    "C71_unqualified_partial",
    "C71_only_imported",
    "C71_qualified_partial",
    "C71_qualified_expression_partial",
    "C71_plain_expression",
    "C71_type_reference_partial",
    "C71_type_reference_qualified_partial",
    "C71_type_reference_rejected",
    "C71_expression_kinds",
    "C71_wildcard_added",
    "C71_symbol_added",
    "C71_local_refuted",
    "C71_precedence_refuted",
    "C71_ambiguity_refuted",
    "C71_own_import_refuted",
    "C71_hidden_package_refuted",
    "C71_function_dot_refuted"
   ],
   "note": "The order of imports, visibility only by import and the absence of silent changes are proved without restriction. Partial because the documented rules are false of the code where single imports overlap with local symbols or with imports of whole packages, for imports of own symbols and for expressions that start with the name of a field (refuted by witnesses)."
  },
  {
   "property": "C72",
   "status": "partial",
   "theorems": [
    "C72_importable_partial",
    "C72_condition_necessary",
    "C72_recursive_subtype_fails",
    "C72_importable_refuted"
   ],
   "note": "The condition is proved both sufficient (any sequence of imports) and necessary. Partial because without it the claim is false of the code: an accepted schema whose structure is used by itself under the name of a subtype cannot be imported (refuted by witness)."
  },
  {
   "property": "C73",
   "status": "partial",
   "theorems": [
    "C73_reference",
    "C73_types",
    "C73_arguments",
    "C73_names_partial",
    "C73_other_names",
    "C73_names_refuted",
    "C73_visible_refuted",
    "C73_hidden_refuted",
    "C73_parameter_refuted"
   ],
   "note": "Proved without restriction for types. Partial because the claim about names in expressions is false of the code unless the reference to the argument means the same in the package of the template and no field hides it (refuted by witnesses)."
  },
  {
   "property": "C74",
   "status": "partial",
   "theorems": [
    "C74_shared_partial",
    "C74_told_apart_partial",
    "C74_requested_partial",
    "C74_default",
    "C74_names_partial",
    "C74_ends_partial",
    "C74_ends_refuted",
    "C74_shared_refuted",
    "C74_told_apart_refuted",
    "C74_accepted_refuted",
    "C74_requested_refuted",
    "C74_names_refuted"
   ],
   "note": "Partial: shared and told apart for references whose arguments name no `instantiate` type and no subtype of an instantiation and whose names fit in 64 characters; names distinct if none is cut or looks like one with a hash code; ends if finitely many types are reached. Each restriction is one that the code needs (the _refuted theorems)."
  },
  {
   "property": "C75",
   "status": "partial",
   "theorems": [
    "C75_accepted_exactly",
    "C75_objects",
    "C75_type_info_exactly",
    "C75_type_info_fails",
    "C75_type_info_partial",
    "C75_type_info_refuted",
    "C75_check_refuted"
   ],
   "note": "Acceptance and objects are proved in full; type_info is proved to return exactly when the types that it asks for are not recursive, which acceptance gives only without compound types in parameters, results of functions and template arguments (C75_type_info_refuted). The check itself does not end for some rejected schemas (C75_check_refuted)."
  },
  {
   "property": "C76",
   "status": "partial",
   "theorems": [
    "C76_shape",
    "C76_code",
    "C76_sets_partial",
    "C76_sets_refuted",
    "C76_constant_refuted",
    "C76_duplicates",
    "C76_duplicates_refuted"
   ],
   "note": "The shape of accepted expressions, their code and the meaning of the assignment are proved in full. The claim itself fails for expressions that end in a parameter of another object or in a constant of a named package, which are accepted and never set (C76_sets_refuted, C76_constant_refuted); different paths can be the same place (C76_duplicates_refuted)."
  },
  {
   "property": "C77",
   "status": "partial",
   "theorems": [
    "C77_shape",
    "C77_walk",
    "C77_json",
    "C77_round_trip_partial",
    "C77_mask_refuted",
    "C77_empty_case_refuted"
   ],
   "note": "Layout, walking and writing JSON are proved in full. Reading the JSON back fails for bitmasks out of range, which packed arrays deliver (C77_mask_refuted), for cases of choices without a field (C77_empty_case_refuted) and for extended fields (C46_extended_refuted); it is proved for schemas without the latter two and values without the former."
  },
  {
   "property": "C78",
   "status": "proved",
   "theorems": [
    "C78_stream",
    "C78_one",
    "C78_lookahead_refuted"
   ],
   "note": "Objects that JSON keeps are those of C46. What follows an object matters: read looks at the token behind it (C78_lookahead_refuted)."
  },
  {
   "property": "C79",
   "status": "proved",
   "theorems": [
    "C79_true",
    "C79_compiled",
    "C79_length_refuted",
    "C79_encoding",
    "C79_written"
   ],
   "note": "Hypothesis steady_schema: an expression that has a value before later members are set keeps it, proved of all compiled schemas (C79_compiled). A negative length is read as an empty array (C79_length_refuted). C79_encoding and C79_written say what IMPLICIT, PACKED, EXTENDED, ALIGN and OFFSET are for: a schema rebuilt from the type information alone has the same encoding."
  },
  {
   "property": "C80",
   "status": "proved",
   "theorems": [
    "C80_backward",
    "C80_backward_deserialize",
    "C80_appended",
    "C80_serialized",
    "C80_forward",
    "C80_empty_default_refuted",
    "C80_no_field_refuted"
   ],
   "note": "Expressions must be the same functions in both versions. The guide's permission to add a case beside an empty default is false (C80_empty_default_refuted), and adding one to a choice none of whose cases has a field too (C80_no_field_refuted)."
  },
  {
   "property": "C81",
   "status": "partial",
   "theorems": [
    "C81_class_partial",
    "C81_packages_partial",
    "C81_own_names_partial",
    "C81_class_refuted",
    "C81_package_refuted",
    "C81_library_refuted"
   ],
   "note": "Proved for packages not named like a library or builtin used by templates; the class works exactly if no member takes the name of a decorator needed after it, and packages are found in methods exactly if not named like one of their local variables. Without these conditions it is false (C81_class_refuted, C81_package_refuted, C81_library_refuted)."
  },
  {
   "property": "C82",
   "status": "partial",
   "theorems": [
    "C82_extent_partial",
    "C82_members_partial",
    "C82_value_partial",
    "C82_shown",
    "C82_quotes_refuted",
    "C82_escapes_refuted"
   ],
   "note": "The doc string ends where it should exactly if no string of the comment has three quotes in a row that are not escaped, and has the value as written if there are no backslashes. Without these conditions it is false (C82_quotes_refuted, C82_escapes_refuted)."
  },
  {
   "property": "C83",
   "status": "proved",
   "theorems": [
    "C83_reaches"
   ],
   "note": "Modules of types and constants are assumed to be importable, which is C72."
  },
  {
   "property": "C84",
   "status": "partial",
   "theorems": [
    "C84_constants_partial",
    "C84_initializers_partial",
    "C84_dynamic_bit_fields_partial",
    "C84_conditional_refuted",
    "C84_division_refuted",
    "C84_numbits_refuted",
    "C84_negative_shift_refuted",
    "C84_dynamic_length_refuted"
   ],
   "note": "partial: false of the code for conditionals (not checked at all), divisions with a remainder and operands of different signs, numbits(0), shifts by negative numbers, and dynamic bit fields of a length known only at run time (refuted); expressions for which C59 fails are excluded."
  },
  {
   "property": "C85",
   "status": "partial",
   "theorems": [
    "C85_expressions_partial",
    "C85_conditions_partial",
    "C85_results_partial",
    "C85_repeated_refuted",
    "C85_operators_refuted",
    "C85_objects_refuted",
    "C85_elements_refuted",
    "C85_recursive_refuted",
    "C85_conditional_refuted"
   ],
   "note": "partial: false of the code for expressions that mention an optional field more than once, for conditions with && as an operand of other operators, for elements of arrays of the type itself, for conditions on fields of other objects of the type itself, and for the ternary operator, which the compiler does not check by design (refuted, a theorem each)."
  },
  {
   "property": "C86",
   "status": "partial",
   "theorems": [
    "C86_parsed",
    "C86_whole",
    "C86_written",
    "C86_one_reading",
    "C86_two_operators",
    "C86_signs",
    "C86_conditionals",
    "C86_shapes",
    "C86_expressions",
    "C86_shift_partial",
    "C86_shift_refuted"
   ],
   "note": "partial only for the check that >> contains no space, which is false of the code across lines (refuted). The treatment of left recursive rules by ANTLR is trusted; expressions of the length of bit fields, which > follows, are covered by C89."
  },
  {
   "property": "C87",
   "status": "partial",
   "theorems": [
    "C87_words_partial",
    "C87_empty_comment",
    "C87_words_refuted",
    "C87_lossless",
    "C87_longest",
    "C87_comments",
    "C87_errors",
    "C87_names",
    "C87_integers",
    "C87_fractions",
    "C87_strings",
    "C87_expressions_partial",
    "C87_values_partial"
   ],
   "note": "ANTLR's choice of rules (longest match, then first rule, non-greedy loops end as soon as possible within their rule) is trusted. C87_words_partial and C87_expressions_partial exclude /**/ followed by */ (C87_empty_comment says exactly what happens then, C87_words_refuted that the documented rule is violated)."
  },
  {
   "property": "C88",
   "status": "proved",
   "theorems": [
    "C88_packages",
    "C88_ends",
    "C88_accepted",
    "C88_import_order",
    "C88_absolute_refuted"
   ],
   "note": "What files contain is given; C71 says what imported names mean, C87 why names are identifiers. C88_absolute_refuted: absolute names of input files are documented but never accepted without source path or top level package."
  },
  {
   "property": "C89",
   "status": "partial",
   "theorems": [
    "C89_one_reading_partial",
    "C89_declarations_partial",
    "C89_texts_partial",
    "C89_length_or_template",
    "C89_offsets",
    "C89_constraint_or_offset",
    "C89_one_reading_refuted",
    "C89_words",
    "C89_words_differ",
    "C89_builtin_words"
   ],
   "note": "The grammar as trees and the words of a tree; that ANTLR finds a tree of the words if there is one is trusted. Partial because of the two exceptions, for which the precise condition (C89_length_or_template, C89_offsets) and a schema with two readings (C89_one_reading_refuted) are given."
  },
  {
   "property": "C90",
   "status": "partial",
   "theorems": [
    "C90_paths",
    "C90_one_meaning",
    "C90_one_reading",
    "C90_valid_partial",
    "C90_literal_refuted",
    "C90_package_refuted",
    "C90_function_refuted",
    "C90_example",
    "C90_plain_example",
    "C90_names",
    "C90_modules"
   ],
   "note": "C90_valid_partial excludes dots after expressions without type that are not names of packages, for which the claim is false (C90_literal_refuted, C90_package_refuted, C90_function_refuted). Items written after a value of an enumeration (`color.RED`) and calls of functions in parentheses are accepted by the compiler but have no documented meaning; they are covered by C90_valid_partial only."
  },
  {
   "property": "C91",
   "status": "partial",
   "theorems": [
    "C91_up_to_date_partial",
    "C91_ignore_timestamps",
    "C91_nothing_to_do",
    "C91_header",
    "C91_files",
    "C91_kept",
    "C91_shared_refuted",
    "C91_restored_refuted",
    "C91_cut_refuted",
    "C91_left_over_refuted",
    "C91_example",
    "C91_files_example",
    "C91_settled_example"
   ],
   "note": "What a text declares and what is generated for the texts that were read are arbitrary functions. C91_up_to_date_partial excludes sources that get another text with an older time, runs that end inside of a file and several schemas in one directory, for which the claim is false (C91_shared_refuted, C91_restored_refuted, C91_cut_refuted; C91_kept is the general reason). Files that are no longer generated stay (C91_left_over_refuted)."
  },
  {
   "property": "C92",
   "status": "partial",
   "theorems": [
    "C92_value_partial",
    "C92_accepted",
    "C92_text",
    "C92_joined",
    "C92_length_partial",
    "C92_length_refuted",
    "C92_example"
   ],
   "note": "C92_value_partial excludes literals with \\0coo (false for these, C65_octal_refuted). C92_length_partial: the run-time length is never more, and the same exactly if no escape is used; that it is always the same is false (C92_length_refuted)."
  },
  {
   "property": "C93",
   "status": "proved",
   "theorems": [
    "C93_printed",
    "C93_accepted",
    "C93_order"
   ],
   "note": ""
  },
  {
   "property": "C94",
   "status": "proved",
   "theorems": [
    "C94_rules",
    "C94_sql",
    "C94_global_refuted"
   ],
   "note": "C94_global_refuted is about the sentence of the language overview that identifiers of rules must be unique globally: by default they are checked package by package."
  },
  {
   "property": "C95",
   "status": "proved",
   "theorems": [
    "C95_order",
    "C95_text",
    "C95_directive",
    "C95_packed",
    "C95_warned",
    "C95_package_refuted",
    "C95_extension"
   ],
   "note": "C95_packed is about the version the root package requires. Versions that other packages require are not checked (C95_package_refuted), there is a warning only (C95_warned)."
  },
  {
   "property": "C96",
   "status": "partial",
   "theorems": [
    "C96_explicit",
    "C96_provider",
    "C96_once_partial",
    "C96_accepted",
    "C96_quiet",
    "C96_twice_refuted"
   ],
   "note": "What SqlConstraint.java finds in the text of constraints is given (C99). Missing because false: a method is defined once also if parameters of one type are declared by different subtypes (C96_twice_refuted)."
  },
  {
   "property": "C97",
   "status": "partial",
   "theorems": [
    "C97_reported",
    "C97_once",
    "C97_removable_partial",
    "C97_expression_refuted",
    "C97_template_refuted"
   ],
   "note": "Missing because false: types named in expressions only (C97_expression_refuted) and by templates without instances only (C97_template_refuted) are reported, though the schema needs them."
  },
  {
   "property": "C98",
   "status": "partial",
   "theorems": [
    "C98_service",
    "C98_pubsub_partial",
    "C98_topic_refuted"
   ],
   "note": "Missing because false: the topic of a message of bytes is not checked (C98_topic_refuted)."
  },
  {
   "property": "C99",
   "status": "partial",
   "theorems": [
    "C99_primary_key_partial",
    "C99_unique_partial",
    "C99_words",
    "C99_order_refuted",
    "C99_second_refuted",
    "C99_quoted_refuted"
   ],
   "note": "Names of columns are letters, digits and underscores. Missing because false: columns with ASC or DESC (C99_order_refuted), a second UNIQUE (C99_second_refuted), words inside quotes (C99_quoted_refuted)."
  }
 ]
}