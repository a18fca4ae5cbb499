{
 "claims": [
  {
   "property": "C01",
   "status": "partial",
   "theorems": [
    "C01_bytes_write_read_frame",
    "C01_integer_write_read_frame",
    "C01_string_write_read_frame",
    "C01_out_of_range_aborts",
    "C01_access_check_no_wrap",
    "C01_access_check_wrap_refuted"
   ],
   "note": "false beyond 2^64: assertValidAccess wraps (C01_access_check_wrap_refuted); proved for all offsets and sizes below"
  },
  {
   "property": "C02",
   "status": "proved",
   "theorems": [
    "C02_inside_ancestor",
    "C02_inside_blackboard",
    "C02_disjoint",
    "C02_container"
   ],
   "note": ""
  },
  {
   "property": "C03",
   "status": "partial",
   "theorems": [
    "C03_others_unchanged",
    "C03_rejected_unchanged",
    "C03_history",
    "C03_overlapping_bits_refuted"
   ],
   "note": "proved for every structure whose bit fields are disjoint, for single requests and for every history; overlapping bit fields, which nothing forbids, refute it"
  },
  {
   "property": "C04",
   "status": "proved",
   "theorems": [
    "C04_integer_text",
    "C04_integer_write_back"
   ],
   "note": ""
  },
  {
   "property": "C05",
   "status": "partial",
   "theorems": [
    "C05_integer_handle_partial",
    "C05_unsigned_setter_refuted",
    "C05_unsigned_setter_accepts_refuted",
    "C05_signed_setter_refuted",
    "C05_signed_getter_refuted"
   ],
   "note": "true when the setter can represent both bounds (C05_integer_handle_partial); four refutations by witness otherwise"
  },
  {
   "property": "C06",
   "status": "partial",
   "theorems": [
    "C06_enum_accepts_only_declared",
    "C06_enum_literal",
    "C06_enum_number",
    "C06_enum_write_back_partial",
    "C06_raw_write_back_refuted",
    "C06_raw_hexa_refuted",
    "C06_numeric_literal_refuted",
    "C06_raw_overflow_refuted"
   ],
   "note": "acceptance, literals and numbers proved; raw space of 32 bit enumerations, numeric-looking literals and raw overflow refuted"
  },
  {
   "property": "C07",
   "status": "proved",
   "theorems": [
    "C07_boolean_text",
    "C07_boolean_handle"
   ],
   "note": ""
  },
  {
   "property": "C08",
   "status": "partial",
   "theorems": [
    "C08_set_text",
    "C08_set_any_text",
    "C08_handle",
    "C08_boolean_handle",
    "C08_merge",
    "C08_handle_truncates_refuted"
   ],
   "note": "proved for every layout and value; only the uint32 getter of fields wider than 32 bits is refuted"
  },
  {
   "property": "C09",
   "status": "partial",
   "theorems": [
    "C09_garbage_refuted",
    "C09_misread_refuted",
    "C09_saturates_refuted",
    "C09_numbers_partial"
   ],
   "note": "false of the code (strtoull without checks): refuted by witnesses; the part that holds for number texts is proved"
  },
  {
   "property": "C10",
   "status": "partial",
   "theorems": [
    "C10_set_double",
    "C10_refuse_double",
    "C10_write_back_double_partial",
    "C10_write_back_refuted",
    "C10_set_text",
    "C10_refuse_text",
    "C10_double_is_nearest",
    "C10_write_back_text_partial",
    "C10_raw_text",
    "C10_raw_write_back"
   ],
   "note": "exact when the unused low bits are zero; unused bits set are lost on write back (refuted witness)"
  },
  {
   "property": "C11",
   "status": "partial",
   "theorems": [
    "C11_string_bounds",
    "C11_string_round_trip_partial",
    "C11_embedded_nul_refuted",
    "C11_set_terminates",
    "C11_read_own_bytes_partial",
    "C11_unterminated_refuted",
    "C11_unterminated_end_refuted"
   ],
   "note": "bounds proved; texts with an embedded NUL and unterminated memory refuted"
  },
  {
   "property": "C12",
   "status": "partial",
   "theorems": [
    "C12_set_values",
    "C12_too_many_values",
    "C12_refused_value_partial",
    "C12_rejected_atomic_refuted",
    "C12_set_frame",
    "C12_index_partial",
    "C12_index_refuted",
    "C12_get_element",
    "C12_get_whole",
    "C12_get_element_refuted",
    "C12_write_back_partial",
    "C12_integer_write_back",
    "C12_boolean_write_back",
    "C12_write_back_refuted",
    "C12_set_vector",
    "C12_get_vector",
    "C12_defaults"
   ],
   "note": "proved for well-formed settings; a refused value leaves the values before it written, and index syntax corner cases are refuted"
  },
  {
   "property": "C13",
   "status": "proved",
   "theorems": [
    "C13_rule_meaning",
    "C13_only_mentioned"
   ],
   "note": ""
  },
  {
   "property": "C14",
   "status": "partial",
   "theorems": [
    "C14_round_trip_partial",
    "C14_round_trip_exclusive",
    "C14_joined_value_refuted",
    "C14_unwritable_literal_refuted"
   ],
   "note": "same rule after a round trip when every value is a single declared value and names are writable; joined inclusive values and literals with syntax characters are refuted"
  },
  {
   "property": "C15",
   "status": "partial",
   "theorems": [
    "C15_accepts_syntax",
    "C15_outcomes_partial",
    "C15_abort_refuted",
    "C15_last_root_refuted",
    "C15_ignored_text_refuted"
   ],
   "note": "every text of the documented syntax is accepted with its meaning, every refused text leaves the rule; process abort, multiple roots and ignored text are refuted by witnesses"
  },
  {
   "property": "C16",
   "status": "partial",
   "theorems": [
    "C16_add_value_pair",
    "C16_one_to_one",
    "C16_lookup",
    "C16_numerical_value",
    "C16_smallest_int_refuted",
    "C16_listed"
   ],
   "note": "proved for every history; addValuePair(INT_MIN) on an inclusive type is undefined behaviour (refuted witness)"
  },
  {
   "property": "C17",
   "status": "proved",
   "theorems": [
    "C17_first_or_none",
    "C17_first_applicable_is_applied"
   ],
   "note": ""
  },
  {
   "property": "C18",
   "status": "proved",
   "theorems": [
    "C18_settings_applied",
    "C18_recorded_is_read",
    "C18_others_unchanged"
   ],
   "note": ""
  },
  {
   "property": "C19",
   "status": "proved",
   "theorems": [
    "C19_second_application_is_idle",
    "C19_criteria_brought_back"
   ],
   "note": ""
  },
  {
   "property": "C20",
   "status": "proved",
   "theorems": [
    "C20_synchronisation_order"
   ],
   "note": ""
  },
  {
   "property": "C21",
   "status": "proved",
   "theorems": [
    "C21_association",
    "C21_attached_domains_exist"
   ],
   "note": ""
  },
  {
   "property": "C22",
   "status": "proved",
   "theorems": [
    "C22_save_restore",
    "C22_save_restore_read"
   ],
   "note": ""
  },
  {
   "property": "C23",
   "status": "proved",
   "theorems": [
    "C23_split_keeps_settings",
    "C23_merge_keeps_settings",
    "C23_recorded_read"
   ],
   "note": ""
  },
  {
   "property": "C24",
   "status": "partial",
   "theorems": [
    "C24_split_reports_its_failure_refuted",
    "C24_split_leaf_refuted",
    "C24_split_effect_partial"
   ],
   "note": "The code reports success when the element is not associated with the domain or has no children (refuted twice). Proved instead: what the command does in every case, whatever it reports."
  },
  {
   "property": "C25",
   "status": "partial",
   "theorems": [
    "C25_names_designate_partial",
    "C25_empty_names_refuted",
    "C25_empty_configuration_names_refuted",
    "C25_name_of_the_kind_refuted",
    "C25_import_refuted"
   ],
   "note": "Proved for create, rename and delete when the names given are not empty and not the kind's own name; false otherwise and after the import of a document that repeats a name (witnesses)."
  },
  {
   "property": "C26",
   "status": "proved",
   "theorems": [
    "C26_last_applied_exists"
   ],
   "note": ""
  },
  {
   "property": "C27",
   "status": "partial",
   "theorems": [
    "C27_sequence",
    "C27_error_changes_nothing_refuted"
   ],
   "note": "An accepted sequence puts the listed elements first, in that order, keeps the others in their order, and loses none. A refused sequence may already have moved elements (refuted)."
  },
  {
   "property": "C28",
   "status": "partial",
   "theorems": [
    "C28_refused_out_of_tuning",
    "C28_tuning_off_partial",
    "C28_settings_protected_refuted",
    "C28_rules_protected_refuted"
   ],
   "note": "The commands that test the tuning mode change nothing outside of it. setConfigurationParameter, renaming and setting a rule do not test it (refuted twice), hence the partial theorem about the others."
  },
  {
   "property": "C29",
   "status": "proved",
   "theorems": [
    "C29_tuning_freezes_application",
    "C29_leaving_tuning_reapplies"
   ],
   "note": ""
  },
  {
   "property": "C30",
   "status": "partial",
   "theorems": [
    "C30_no_push",
    "C30_sync",
    "C30_autosync_on",
    "C30_every_parameter_pushed",
    "C30_handle_refuted",
    "C30_apply_refuted"
   ],
   "note": "Holds for the commands; the setters of client handles and the application of configurations push whatever the mode is (refuted twice)."
  },
  {
   "property": "C31",
   "status": "proved",
   "theorems": [
    "C31_all_called",
    "C31_restore"
   ],
   "note": ""
  },
  {
   "property": "C32",
   "status": "partial",
   "theorems": [
    "C32_handle_set",
    "C32_interleaved_partial",
    "C32_race_refuted",
    "C32_race_domain_refuted",
    "C32_bytes_refuted"
   ],
   "note": "Holds for a setter that runs alone; under interleaving, for the schedules where nothing comes between the test and the commit. The other schedules and the byte access are refuted."
  },
  {
   "property": "C33",
   "status": "proved",
   "theorems": [
    "C33_rogue_element",
    "C33_rogue_parameter",
    "C33_listed"
   ],
   "note": ""
  },
  {
   "property": "C34",
   "status": "proved",
   "theorems": [
    "C34_request_round_trip",
    "C34_trimmed_determined",
    "C34_answer_round_trip",
    "C34_session",
    "C34_nul_refuted",
    "C34_blanks"
   ],
   "note": "Proved for requests, answers and whole connections (requests processed once, in order, answered in order). The refuted theorem lies outside the quantifier: a text containing a NUL is cut there."
  },
  {
   "property": "C35",
   "status": "proved",
   "theorems": [
    "C35_altered_rejected",
    "C35_sync_rejected",
    "C35_nothing_executed",
    "C35_size_refuted",
    "C35_swap_refuted"
   ],
   "note": "Proved for every byte of the identifier, the payload, the checksum and the synchronisation word, and for the server (nothing executed). The refuted theorems record what the checksum does not protect: the size field and the order of the payload bytes."
  },
  {
   "property": "C36",
   "status": "partial",
   "theorems": [
    "C36_framing_total",
    "C36_decoded_exactly_partial",
    "C36_overread_refuted",
    "C36_size_zero_refuted"
   ],
   "note": "False: a string length larger than the message makes the decoder read past its end, and a size of zero ends the process. Proved: framing takes exactly one frame from the stream, rejects, or aborts exactly on size zero; a received payload is decoded exactly when it is a sequence of length-prefixed strings and otherwise read past its end."
  },
  {
   "property": "C37",
   "status": "partial",
   "theorems": [
    "C37_printed_path",
    "C37_printed_parameter_path",
    "C37_located_exists",
    "C37_same_name_refuted",
    "C37_kind_name_refuted",
    "C37_slash_refuted"
   ],
   "note": "proved when siblings have distinct path names without slash; equal names, a name equal to a kind name and a slash in a name refute it (the loader accepts them)"
  },
  {
   "property": "C38",
   "status": "proved",
   "theorems": [
    "C38_split_merge",
    "C38_split_fields",
    "C38_join_split_merge",
    "C38_join_split_fields"
   ],
   "note": ""
  },
  {
   "property": "C39",
   "status": "partial",
   "theorems": [
    "C39_convert_int_exact",
    "C39_int_text_functional",
    "C39_print_parse",
    "C39_formfeed_refuted"
   ],
   "note": "exact for texts without form feed; a leading form feed is skipped (C39_formfeed_refuted)"
  },
  {
   "property": "C40",
   "status": "partial",
   "theorems": [
    "C40_accepted",
    "C40_objects",
    "C40_required",
    "C40_one_object",
    "C40_covered",
    "C40_many_keys_refuted",
    "C40_loaded"
   ],
   "note": "Proved for subsystems with at most 32 context keys: objects are created exactly on the outermost elements having a creator key, with the context collected on the way, success is characterised, and the resulting system satisfies one_syncer. Finding C40_many_keys_refuted: undefined shift with more than 32 context keys."
  },
  {
   "property": "C41",
   "status": "partial",
   "theorems": [
    "C41_amended_prefix",
    "C41_amended_partial",
    "C41_kept",
    "C41_quotes",
    "C41_refuted"
   ],
   "note": "C41_amended_prefix characterises the result for every text; the claim holds when every % designates a key (C41_amended_partial). Finding C41_refuted: nothing is replaced after a % that designates no defined key."
  },
  {
   "property": "C42",
   "status": "proved",
   "theorems": [
    "C42_written",
    "C42_accepted",
    "C42_lookup"
   ],
   "note": "Acceptance and lookup characterised for every mapping string."
  },
  {
   "property": "C43",
   "status": "partial",
   "theorems": [
    "C43_round_trip",
    "C43_raw_decimal",
    "C43_import",
    "C43_command",
    "C43_as_bytes",
    "C43_real_float_refuted",
    "C43_raw_hex_refuted",
    "C43_enum_space_refuted",
    "C43_out_of_range_refuted"
   ],
   "note": "Proved on the model for every structure, state and document alike the exported one, for the values that have a text that gives them back (restorable): in the raw decimal format, all values of their types when no enumeration has a negative number. False otherwise, with witnesses: real value space loses floating point digits, raw hexadecimal text of small floating point numbers is refused, negative enumeration numbers, values out of range. Parsing of the document text (libxml2) and schema validation are not modelled."
  },
  {
   "property": "C44",
   "status": "partial",
   "theorems": [
    "C44_round_trip",
    "C44_wrong_length",
    "C44_bit_parameter_refuted"
   ],
   "note": "proved for every structure, element and memory; a bit parameter has size 0 so that its value is not saved (refuted)"
  },
  {
   "property": "C45",
   "status": "partial",
   "theorems": [
    "C45_never_sets",
    "C45_undefined",
    "C45_set_bytes_refuted"
   ],
   "note": "False of the code: setElementBytes never sets anything. In tuning mode, on an existing element, a first value that is a byte leads to undefined behaviour (C45_undefined, C45_set_bytes_refuted); every other call fails and changes nothing (C45_never_sets)."
  },
  {
   "property": "C46",
   "status": "partial",
   "theorems": [
    "C46_unknown",
    "C46_too_few_partial",
    "C46_supplied",
    "C46_argument_refuted",
    "C46_effect",
    "C46_only",
    "C46_session"
   ],
   "note": "Everything but setSequenceAwareness, whose handler reads a second argument though only one is mandatory (C46_argument_refuted, hence C46_too_few_partial). C46_session carries the effect of commands over whole connections. XML imports are an oracle."
  },
  {
   "property": "C47",
   "status": "partial",
   "theorems": [
    "C47_accepted",
    "C47_terminates_partial",
    "C47_flat",
    "C47_stable",
    "C47_created",
    "C47_rejected",
    "C47_self_refuted"
   ],
   "note": "Exact characterisation of the structures accepted and of the ones whose instantiation ends, and of what is created. The property itself is false: a type containing itself inside a parameter block is accepted and its instantiation never ends (C47_self_refuted)."
  },
  {
   "property": "C48",
   "status": "partial",
   "theorems": [
    "C48_start_total",
    "C48_uncontrolled_read_back_partial",
    "C48_uncontrolled_default",
    "C48_controlled_applied",
    "C48_others_not_read_partial",
    "C48_simulation_default_partial",
    "C48_controlled_read_refuted",
    "C48_lone_bit_not_read_refuted"
   ],
   "note": "Proved for every structure, domain set and hardware answer: the start succeeds; an uncontrolled parameter holds what its syncer read (or its default when the read fails); a controlled one holds its recorded settings; a syncer serving no uncontrolled element has no influence. Refuted as stated: a controlled parameter that shares a syncer with an uncontrolled one is read too, and a syncer mapped on a single bit parameter reads nothing. Plugins are an oracle that writes exactly the memory it is given."
  },
  {
   "property": "C49",
   "status": "partial",
   "theorems": [
    "C49_setters",
    "C49_getters",
    "C49_getter_mismatch",
    "C49_empty_array_refuted",
    "C49_texts",
    "C49_reads"
   ],
   "note": "Every mismatch of type, size or array is refused, except an empty array given to a scalar in tuning mode (refuted)."
  },
  {
   "property": "C50",
   "status": "partial",
   "theorems": [
    "C50_joined_value_refuted",
    "C50_negative_number_refuted",
    "C50_awareness_refuted",
    "C50_missing_child_refuted",
    "C50_round_trip",
    "C50_without_settings",
    "C50_single",
    "C50_any_document",
    "C50_shaped_document",
    "C50_start",
    "C50_raw_decimal"
   ],
   "note": "Proved for every structure with distinct names, every pair of states with the same criteria reached by commands and imports, and every document alike the exported one, when rules use one literal per criterion and the recorded values have a text that gives them back (raw decimal: all values of their types when no enumeration has a negative number). Without settings the rest comes back and live values are recorded. Whatever the document the import is defined or lacks a child that the schemas require. False otherwise, with witnesses: joined literals, negative raw enumeration numbers, a SequenceAware text that is no Boolean, missing children. The Description attribute, libxml2 and schema validation are not modelled."
  },
  {
   "property": "C51",
   "status": "partial",
   "theorems": [
    "C51_settings_valid",
    "C51_apply_and_restore_defined",
    "C51_after_imports",
    "C51_commands_after_imports",
    "C51_single_import_refuted",
    "C51_missing_settings"
   ],
   "note": "Proved for all commands, setElementXML, the start from any settings file and imports of all domains, and for imports of one domain that carry settings for all its elements. False for a domain imported alone without settings (witness: restoring it zeroes the parameters)."
  },
  {
   "property": "C52",
   "status": "partial",
   "theorems": [
    "C52_nothing_else_changes",
    "C52_edited_value_is_read",
    "C52_success_partial",
    "C52_recorded_value_is_read_refuted",
    "C52_array_cell_refuted",
    "C52_failure_changes_nothing_refuted"
   ],
   "note": "What an accepted edit does is proved; reading the last applied configuration reads the live value, cells of arrays are refused, and a failed push leaves the edit in place (refuted)."
  },
  {
   "property": "C53",
   "status": "partial",
   "theorems": [
    "C53_history",
    "C53_modified",
    "C53_wrap_refuted"
   ],
   "note": "proved for every history; the uint32 change counter wraps after 2^32 changes (refuted witness)"
  },
  {
   "property": "C54",
   "status": "partial",
   "theorems": [
    "C54_formatted_state_partial",
    "C54_none_refuted",
    "C54_undeclared_refuted"
   ],
   "note": "proved for nonzero declared states; state 0 of an inclusive criterion and undeclared bits are refuted"
  },
  {
   "property": "C55",
   "status": "partial",
   "theorems": [
    "C55_set_double",
    "C55_float_is_nearest",
    "C55_refuse_double",
    "C55_write_back_double",
    "C55_set_text",
    "C55_refuse_text",
    "C55_raw_text",
    "C55_raw_write_back_partial",
    "C55_raw_hex_write_back_refuted",
    "C55_text_write_back_refuted",
    "C55_text_write_back_rejected_refuted",
    "C55_nan_refuted",
    "C55_text_shown",
    "C55_not_a_number",
    "C55_raw_hex_text",
    "C55_raw_hex_zero"
   ],
   "note": "Codec, accepted and refused values, the six digit text shown, raw texts. False: the text shown does not always write back (three refuted theorems)."
  },
  {
   "property": "C56",
   "status": "partial",
   "theorems": [
    "C56_zero_default",
    "C56_defaults",
    "C56_integer_default",
    "C56_enum_default",
    "C56_float_default_refuted",
    "C56_initial_memory_refuted"
   ],
   "note": "effect of setDefaultValues proved on every structure; floating point defaults out of range and the zero initial memory refute validity"
  },
  {
   "property": "C57",
   "status": "proved",
   "theorems": [
    "C57_values_of_the_type",
    "C57_from_start",
    "C57_values_not_invented"
   ],
   "note": ""
  },
  {
   "property": "C58",
   "status": "proved",
   "theorems": [
    "C58_asking",
    "C58_switch"
   ],
   "note": "All the commands of the table; the text of help, version, status, dumps and XML exports is an oracle."
  },
  {
   "property": "C59",
   "status": "partial",
   "theorems": [
    "C59_answered_partial",
    "C59_enumeration_refuted"
   ],
   "note": "False for 32 bit enumerations in raw hexadecimal (C59_enumeration_refuted), setElementBytes (C45), setSequenceAwareness with one argument (C46) and rules that stop the parser. C59_answered_partial proves every other request answered, given XML imports that return."
  },
  {
   "property": "C60",
   "status": "partial",
   "theorems": [
    "C60_by_index",
    "C60_not_set",
    "C60_by_key_refuted",
    "C60_by_key"
   ],
   "note": "Reading by index proved. Finding C60_by_key_refuted: getItem(key) returns the key instead of the value."
  },
  {
   "property": "C61",
   "status": "partial",
   "theorems": [
    "C61_context_key",
    "C61_one_object",
    "C61_array_refuted"
   ],
   "note": "General theorem: an array of blocks or components with a context key and no creator key always makes the mapping fail (C61_context_key), so the property is refuted (C61_array_refuted); with a creator key, one object covers the array."
  },
  {
   "property": "C62",
   "status": "partial",
   "theorems": [
    "C62_names",
    "C62_shared_path",
    "C62_refuted"
   ],
   "note": "Holds when the names brought by Extends are also distinct (C62_names); otherwise two elements share a path (C62_shared_path, C62_refuted)."
  },
  {
   "property": "C63",
   "status": "partial",
   "theorems": [
    "C63_atomic_refuted",
    "C63_space_leaks_refuted"
   ],
   "note": "False of the code: witnesses for both halves. What a refused import does change is bounded by C43_import (nothing outside the element, no hardware call)."
  },
  {
   "property": "C64",
   "status": "partial",
   "theorems": [
    "C64_all_refuted",
    "C64_not_xml",
    "C64_not_tuning",
    "C64_single"
   ],
   "note": "False for the import of all the domains: a refused document deletes them all (witness). Proved for the import of one domain, for unreadable texts and outside of the tuning mode."
  },
  {
   "property": "C65",
   "status": "partial",
   "theorems": [
    "C65_declared",
    "C65_accepted",
    "C65_defined",
    "C65_one_system",
    "C65_content",
    "C65_well_formed",
    "C65_system_ok",
    "C65_names",
    "C65_fixed_point_bits_refuted",
    "C65_enum_value_refuted",
    "C65_overlap_refuted",
    "C65_subsystem_names_refuted",
    "C65_fixed_point_size_refuted",
    "C65_bit_position_refuted",
    "C65_bit_size_refuted",
    "C65_definition_order_refuted"
   ],
   "note": "Proved for all documents that follow the schemas of the repository (the schemas are not validated by default). Refuted beyond: wrapping additions, sizes that are not whole bytes, overlapping bit fields and equal subsystem names are accepted; the instance definition is taken by its place. The completeness of the whole file (not of each declaration) is the conjunction of C40_accepted, C47_accepted and C65_accepted, not restated."
  },
  {
   "property": "C66",
   "status": "partial",
   "theorems": [
    "C66_within_range",
    "C66_set",
    "C66_set_exact",
    "C66_monotone",
    "C66_read_after_set",
    "C66_write_back_partial",
    "C66_write_back_exact",
    "C66_write_back_offset",
    "C66_write_back_refuted",
    "C66_read_is_accepted_refuted",
    "C66_no_adaptation",
    "C66_out_of_range_refuted",
    "C66_floor",
    "C66_no_floor_refuted",
    "C66_default_base_refuted",
    "C66_null_slope_refuted",
    "C66_undefined",
    "C66_no_number",
    "C66_null_slope",
    "C66_default_base"
   ],
   "note": "Write back is exact only when the operations are; the general theorem (one step towards the offset) is the strongest true one and the full claim is refuted."
  },
  {
   "property": "C67",
   "status": "partial",
   "theorems": [
    "C67_reload",
    "C67_system",
    "C67_same_layout",
    "C67_same_values",
    "C67_tells_apart",
    "C67_float_bound_refuted",
    "C67_adaptation_refuted",
    "C67_mapping_refuted",
    "C67_system_class_refuted"
   ],
   "note": "Proved for structures without adaptations, floating point bounds that six decimals tell and a virtual subsystem; kept mapping, adaptations and other bounds are refuted."
  },
  {
   "property": "C68",
   "status": "partial",
   "theorems": [
    "C68_start_refused",
    "C68_start",
    "C68_before_start",
    "C68_session",
    "C68_criterion",
    "C68_unknown_criterion",
    "C68_staged_partial",
    "C68_bind",
    "C68_set_int_partial",
    "C68_set_string",
    "C68_domain_parameter",
    "C68_retry_refuted",
    "C68_failed_start_refuted",
    "C68_failed_start_writes_refuted",
    "C68_staged_refuted",
    "C68_tuning_refuted",
    "C68_any_value_refuted",
    "C68_unsigned_refuted",
    "C68_unsynchronised_refuted"
   ],
   "note": "The theorems hold for every description of criteria, every content of the files and every sequence of calls. Refuted: a failed start can be tried again; nothing can be set after a failed start; a criterion that is set affects nothing before the application (leaving tuning mode applies it); a success in tuning mode means that something was done; a criterion takes only its own numbers; unsigned parameters read back as set; a failed set stores nothing."
  },
  {
   "property": "C69",
   "status": "proved",
   "theorems": [
    "C69_edit",
    "C69_others",
    "C69_tuning",
    "C69_switches",
    "C69_restore",
    "C69_bytes",
    "C69_set_parameter",
    "C69_handle_set"
   ],
   "note": "Rule texts: the rule stored is the one the text is written for when it follows the grammar of C15; for other texts only that the stored rule is about the criteria."
  },
  {
   "property": "C70",
   "status": "partial",
   "theorems": [
    "C70_list_elements",
    "C70_list_parameters",
    "C70_listed_path",
    "C70_list_unknown",
    "C70_parameters_only_refuted",
    "C70_domains_of_element",
    "C70_associated_elements",
    "C70_conflicting_elements",
    "C70_rogue_elements",
    "C70_status",
    "C70_pending",
    "C70_pending_refuted",
    "C70_criteria",
    "C70_dump_element",
    "C70_dump_domains",
    "C70_imports",
    "C70_import_option",
    "C70_documents",
    "C70_domain_document",
    "C70_element_document",
    "C70_unread",
    "C70_unread_element",
    "C70_shown",
    "C70_shown_domain",
    "C70_shown_missing",
    "C70_shown_no_configuration",
    "C70_bytes",
    "C70_help",
    "C70_properties",
    "C70_properties_refuted"
   ],
   "note": "Refuted: listParameters also lists a block without children; the status is ambiguous when a configuration is named \"<none>\"; showProperties writes the bounds of 8 bit integers as characters. listCriteria XML, showMapping, version and exports to files are oracles."
  },
  {
   "property": "C71",
   "status": "partial",
   "theorems": [
    "C71_create_list_partial",
    "C71_create_list_refuted",
    "C71_create_count_partial",
    "C71_create_count_refuted",
    "C71_state_name_refuted",
    "C71_set_number",
    "C71_set_names",
    "C71_set_several",
    "C71_state_kept",
    "C71_policy",
    "C71_schema_uri_refuted",
    "C71_start",
    "C71_start_failed",
    "C71_session",
    "C71_apply",
    "C71_refused",
    "C71_number_name_refuted",
    "C71_any_number_refuted",
    "C71_same_name_refuted",
    "C71_help",
    "C71_help_refuted",
    "C71_new",
    "C71_rejected"
   ],
   "note": ""
  },
  {
   "property": "C72",
   "status": "partial",
   "theorems": [
    "C72_domains",
    "C72_single",
    "C72_start",
    "C72_domain_names_refuted",
    "C72_rule_type_refuted",
    "C72_accepted",
    "C72_accepted_single"
   ],
   "note": "Documents with the nesting and keys of the schemas on structures with distinct sibling names. An array whose text has fewer values than cells: the other cells are not specified. Findings: two domains of one name are accepted; an unknown Type of a compound rule is read as Any."
  },
  {
   "property": "C73",
   "status": "partial",
   "theorems": [
    "C73_generates",
    "C73_settings",
    "C73_blank_lines",
    "C73_bad_criterion",
    "C73_start_refused",
    "C73_code",
    "C73_never_started_refuted",
    "C73_fatal_code_refuted",
    "C73_kind_refuted",
    "C73_many_values_refuted"
   ],
   "note": "Proved for scripts of criteria, one start, then the commands of C46 and the importing commands of C70; the refuted parts are findings about the tool."
  },
  {
   "property": "C74",
   "status": "partial",
   "theorems": [
    "C74_includes",
    "C74_started",
    "C74_sound",
    "C74_not_a_configuration",
    "C74_lenient",
    "C74_port_refuted",
    "C74_tuning_refuted",
    "C74_no_name_refuted",
    "C74_cast_refuted"
   ],
   "note": "Proved for every environment of documents, addresses, libraries and hardware answers. Refuted: a port above 65535, which the schema allows, or a TuningAllowed that is not a boolean throws out of start; without SystemClassName any structure is accepted; an element of another kind in the plugins group is cast."
  },
  {
   "property": "C75",
   "status": "partial",
   "theorems": [
    "C75_loads",
    "C75_all_that_can",
    "C75_complete",
    "C75_any_order",
    "C75_types",
    "C75_types_any_order",
    "C75_same_type_refuted"
   ],
   "note": "Proved. Refuted: two libraries that bring the same type - the order decides, silently."
  },
  {
   "property": "C76",
   "status": "partial",
   "theorems": [
    "C76_confined",
    "C76_nothing_before",
    "C76_send",
    "C76_receive",
    "C76_failure",
    "C76_unsupported",
    "C76_start",
    "C76_reads_neighbour_refuted",
    "C76_writes_neighbour_refuted",
    "C76_unsupported_out_of_range_refuted"
   ],
   "note": "Findings: nothing confines an object that does not confine itself, and a subsystem that cannot be read back leaves zero, perhaps outside of the range."
  },
  {
   "property": "C77",
   "status": "partial",
   "theorems": [
    "C77_alive",
    "C77_written",
    "C77_read",
    "C77_round_trip",
    "C77_string_round_trip",
    "C77_no_file",
    "C77_restart",
    "C77_blank_refuted",
    "C77_short_file_refuted",
    "C77_too_large_refuted",
    "C77_out_of_range_refuted",
    "C77_same_name_refuted",
    "C77_string_parameter_refuted",
    "C77_sent"
   ],
   "note": "Findings: blanks, short files, values out of range, files shared by elements of the same name, and the cast of the type of a string parameter."
  },
  {
   "property": "C78",
   "status": "partial",
   "theorems": [
    "C78_lines",
    "C78_spaces",
    "C78_refused_file",
    "C78_read",
    "C78_read_or_refused",
    "C78_script",
    "C78_text_to_script",
    "C78_places",
    "C78_same_parameters",
    "C78_rule",
    "C78_order_of_file_refuted",
    "C78_nothing_lost_refuted",
    "C78_every_conf_refuted",
    "C78_no_crash_refuted",
    "C78_type_anywhere_refuted",
    "C78_added_once_refuted",
    "C78_characters"
   ],
   "note": ""
  },
  {
   "property": "C79",
   "status": "partial",
   "theorems": [
    "C79_built",
    "C79_values",
    "C79_rules",
    "C79_code_zero",
    "C79_empty_sequence_refuted"
   ],
   "note": ""
  },
  {
   "property": "C80",
   "status": "partial",
   "theorems": [
    "C80_criteria",
    "C80_bad_criterion",
    "C80_bad_edd",
    "C80_tool",
    "C80_empty_line_refuted",
    "C80_trailing_blank_refuted",
    "C80_trailing_blanks",
    "C80_no_values_refuted",
    "C80_first_colon_refuted",
    "C80_one_word_refuted"
   ],
   "note": "Proved for all inputs; the refuted theorems record where the criteria file is not read as one would think (empty line, blank at the end of a line, no values, colon in a value, type and name in one word)."
  },
  {
   "property": "C81",
   "status": "partial",
   "theorems": [
    "C81_adapted",
    "C81_configured",
    "C81_port",
    "C81_virtual",
    "C81_start",
    "C81_generator",
    "C81_absolute_path_refuted",
    "C81_twice_refuted"
   ],
   "note": ""
  },
  {
   "property": "C82",
   "status": "proved",
   "theorems": [
    "C82_codes",
    "C82_not_asked",
    "C82_command",
    "C82_script"
   ],
   "note": ""
  },
  {
   "property": "C83",
   "status": "partial",
   "theorems": [
    "C83_serial",
    "C83_progress",
    "C83_bounded",
    "C83_race_refuted",
    "C83_late_refuted"
   ],
   "note": ""
  },
  {
   "property": "C84",
   "status": "partial",
   "theorems": [
    "C84_quiet",
    "C84_each",
    "C84_one_change",
    "C84_seen",
    "C84_torn_refuted",
    "C84_missed_refuted",
    "C84_mixed_refuted",
    "C84_unnoticed_refuted",
    "C84_forced",
    "C84_settled"
   ],
   "note": "The positive part is proved for every course of the criteria; the last sentence is false (C84_torn_refuted, C84_missed_refuted, C84_mixed_refuted, C84_unnoticed_refuted): setCriterionState takes no lock."
  },
  {
   "property": "C85",
   "status": "partial",
   "theorems": [
    "C85_scenario",
    "C85_stops",
    "C85_undefined",
    "C85_empty_refuted",
    "C85_unknown_refuted",
    "C85_menu_one",
    "C85_menu_many",
    "C85_menu_refuted",
    "C85_unset_refuted",
    "C85_twice_refuted",
    "C85_choice_refuted",
    "C85_choice"
   ],
   "note": "Proved for scenarios (effect on the criteria at each application, scripts, the stop at a value that is not allowed) and for the entries of the menus. Refuted: an object without criteria resets all of them; an unknown criterion is ignored without a word; a value whose spelling is part of the current one is not offered; unsetting the only value, the same entry twice, or a number above the last one ends the program. Not covered: the shell and the processes launched, an inclusive criterion asked for the empty text."
  }
 ]
}