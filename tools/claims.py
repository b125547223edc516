claim("C05", "proved", "C05_bytes_roundtrip C05_bytearray_roundtrip C05_base64 C05_base85 C05_standard_base64 C05_standard_base85 C05_base85_unique C05_document",
      "encode then decode of any bytes/bytearray, both encodings, through the JSON text; SpecBase says what base64 and base85 are, by bits and by numbers")
claim("C06", "proved", "C06_binary_payload_total C06_base85_malformed",
      "every JSON payload gives bytes; malformed base85 gives b''")
claim("C23", "proved", "C23_later_registration_wins C23_supplied_class_used C23_no_import C23_type_document C23_object_document",
      "table built from classes=, its precedence, no import of a supplied name in any run, and the documents py/type and py/object using it")
claim("C24", "proved", "C24_class_name_resolves C24_function_name_resolves C24_only_prefixes_imported C24_module_name_resolves C24_module_of_other_package C24_module_missing C24_class_missing",
      "importability (module imports, attributes lead to the object, no longer prefix is a module leading elsewhere) is the hypothesis")
claim("C25", "proved", "C25_lookup_by_class C25_direct_wins C25_base_applies C25_oldest_base C25_lookup_by_name C25_same_name_refuted",
      "two classes with the same importable name interfere on unregister: refuted by witness, excluded in the positive theorems")
claim("C39", "proved", "C39_text_roundtrip C39_surrogate_pair_refuted",
      "documents without surrogate pairs spelled as two code units; the pair case is refuted")
claim("C26", "proved", "C26_encode_fallthrough C26_encode_preferred_only C26_decode_fallthrough C26_decode_preferred_only",
      "for every reachable manager state; backend behaviour is an arbitrary oracle")
claim("C27", "proved", "C27_reachable_wf C27_no_backend C27_listed_complete C27_prefer C27_prefer_missing C27_preferred_stays_first C27_remove_forgets C27_load_true C27_load_false C27_double_load_refuted",
      "loading one name twice lists it twice, so removing it once leaves a dangling name: refuted by witness and excluded in C27_remove_forgets")
claim("C28", "proved", "C28_encoder_options C28_decoder_options C28_encode_keeps_state C28_decode_keeps_state",
      "options reach the backend call unchanged; calls leave the stored options alone")
claim("C04", "proved", "C04_decode_terminates",
      "fuel bounded by the length of the text; user code is assumed to return and handlers to restore only parts of their document")
claim("C07", "proved", "C07_plain_json", "")
claim("C08", "proved", "C08_safe_never_evaluates C08_safe_decode C08_only_repr_evaluates C08_repr_evaluates C08_safe_still_calls C08_safe_same",
      "handlers are assumed to restore only parts of their document in the safe=False direction")
claim("C09", "proved", "C09_decoder_history C09_encoder_history C09_encode_any_pickler", "every history of calls, including calls that raised; the heap is the one the history left")
claim("C03", "proved", "C03_encode_terminates C03_unpicklable_false_refuted",
      "also shows the answer independent of fuel and pickler state; user code must return, handlers must not reset; with unpicklable=False a cyclic list never ends (witness)")
claim("C10", "proved", "C10_isomorphic C10_reencode C10_reencode_hookless C10_key_refuted C10_max_depth_refuted C10_set_order_refuted C10_escaped_key_refuted",
  "equal text for every two isomorphic graphs, and for a supported graph and its decoded copy, when user code (and, where it is written, repr) answers alike; as stated the property is false: an address shows through the default repr of keys (keys=False) or of what max_depth cuts off, equal sets may iterate in different orders, and with keys=True an escaped string key moves behind the others")
claim("C12", "proved", "C12_unpicklable_false_plain C12_other_graphs_refuted",
      "reserved names; py/b64 and py/b85 are the exception for bytes; classes and __getnewargs__ still give tags (witness)")
claim("C13", "proved", "C13_make_refs_false_terminates C13_no_references C13_enum_refuted",
      "termination without enum members (an enum member whose value is a set containing it recurses for ever: witness); handlers, fail_safe and repr of keys are assumed not to write py/id themselves")
claim("C22", "proved", "C22_ignore C22_warn C22_error C22_error_decode C22_callback C22_case_insensitive C22_policy_strings",
      "any document position for the first four; the string policy is lowered")
claim("C40", "proved", "C40_malformed_reference C40_keys_refuted C40_top_refuted C40_negative_refuted",
      "lists and dicts nested in any way; false for dicts with keys=True, at the top of a document and for negative numbers inside the range, shown by witnesses")
claim("C01", "proved", "C01_roundtrip",
      "for every graph satisfying `supported` (SpecGraph.v), including order of elements and attributes; encode is shown to return")
claim("C02", "proved", "C02_aliasing C02_same_positions", "paths through elements, keys, attributes and states; same graphs as C01")
claim("C16", "proved", "C16_keys C16_equal_documents_refuted", "keys may be any hashable values whose documents differ (sharing through keys: C02); false for distinct instances with the same document (witness)")
claim("C29", "proved", "C29_state C29_list_state_refuted", "at every position of the graphs of C01; i_state lists every call of __setstate__; pairs of dicts: case in C29_pair_case; without __setstate__ a state that is neither a dict nor a pair replaces the object (witness)")
claim("C30", "proved", "C30_reduce", "state, list items and dict items as given by __reduce__; list and dict items given as tuples; the function is a class or an importable function")
claim("C31", "proved", "C31_constructor_arguments C31_empty_keywords_refuted C31_two_methods_refuted", "includes namedtuples and tuple subclasses whose elements are all within the arguments; false when __getnewargs_ex__ gives no keyword arguments, and references break when __getnewargs__ and __getinitargs__ are both defined (witnesses)")
claim("C32", "proved", "C32_default_factory C32_function_factory_refuted", "factories that are classes; a factory that is not a class does disturb references (refuted with a witness)")
claim("C34", "proved", "C34_subclasses C34_equal_items_refuted", "for the graphs of C01; a dict subclass whose items equal its attributes loses the attributes (witness)")
claim("C35", "proved", "C35_slots C35_dict_and_slots_refuted C35_private_refuted C35_names", "for the graphs of C01: classes without __dict__, private slots of the class itself included; slots of instances that also have a __dict__, private slots of a base class and slots like __x__ are lost (witnesses)")
claim("C36", "proved", "C36_exclude C36_excluded_not_in_document C36_list_subclass_refuted C36_dict_item_refuted C36_pair_state_refuted", "round trip for the graphs of C01; document of any ordinary instance; the names are not excluded in list and set subclasses, and nor in pair states, and in dict subclasses items under such a key are lost (witnesses)")
claim("C44", "proved", "C44_classes_functions_modules", "for the graphs of C01")
claim("C15", "proved", "C15_max_iter", "iterators without protocols of their own; termination for infinite iterators with max_iter is part of C03")
claim("C18", "proved", "C18_tag_keys C18_any_string C18_bytes_tag_refuted C18_order_refuted", "false for the names of the bytes tags and for an escaped key with a mutable value before an unescaped key (witnesses); proved for the rest")
claim("C17", "proved", "C17_coercion C17_collision_refuted", "with numeric_keys and without; colliding keys lose entries (witness)")
claim("C19", "proved", "C19_functions_in_lists C19_functions_in_dicts C19_functions_in_instances", "entries under reserved names are dropped as well")
claim("C20", "proved", "C20_contained C20_replaced C20_balanced C20_balanced_encode C20_user_code_raises", "containment and balanced depth for every graph; replacement at any place for objects whose handler or pickling method raises; exact text for lists of objects with __getstate__")
claim("C21", "proved", "C21_earlier_references C21_references_refuted", "For graphs of lists, string-keyed dicts, tuples, sets, classes, plain instances and replaced objects: if no reference is to an object numbered after a replaced one, decode gives a copy of the graph with the (scalar) replacements in place. In general false (witness): the failed object keeps its number")
claim("C48", "proved", "C48_not_modified C48_readonly_refuted C48_sort_keys_refuted", "false with handle_readonly and with sort_keys (witnesses); handlers are assumed not to reset the pickler")
claim("C37", "proved", "C37_test C37_delivered C37_call_still_binds C37_withheld C37_withheld_only_if_unnamed C37_encode C37_decode C37_decode_calls",
      "Signatures as lists of parameters with Python's argument binding written out; encode and decode act as if each handler were handed exactly what is due to its signature, and every handler call logged by decode carries the context iff supplied and accepted.")
claim("C46", "proved", "C46_rle_roundtrip C46_rle_runs C46_payload C46_payload_total C46_surrogates C46_no_compression_refuted",
      "Run-length coding, UTF-8 and base64 are modelled; the compression module is a pair of functions with decompress(compress(b)) = b. With compression None and a payload over the threshold encoding raises TypeError (refuted).")
claim("C47", "proved", "C47_collisions C47_distinct_tags C47_reverse_map C47_ambiguous_refuted",
      "Tags are distinct, and REVERSE_TYPE_MAP inverts TYPE_MAP, when no name is a shortened form of another; in general two names share a tag only if one is written in full, which does happen (refuted with 'a', 'abc', 'ab').")
claim("C38", "proved", "C38_identity C38_numbers_distinct C38_bytes_cache_refuted",
      "The tables keyed by id() run against an allocator that reuses addresses, under every schedule; the document cache used with make_refs=False or unpicklable=False does confuse temporary bytes objects, which are not kept alive (refuted).")
claim("C45", "proved", "C45_handler C45_builtin_handlers C45_array_values C45_bytes_pattern_refuted",
      "At every position of the graphs of C01: uuid, datetime/date/time with optional tzinfo, array, regex (text patterns), lock and queue handlers modelled line by line; any other handler by C45_handler. Compiled bytes patterns cannot be encoded (refuted).")
claim("C33", "proved", "C33_earlier_references C33_null_refuted", "As for C21, the objects being null: references to objects numbered before the first null object are right. In general false (witness): the object encoded as null takes a number in the encoder only")
claim("C41", "proved", "C41_no_placeholder C41_constructor_cycle_refuted C41_keys_refuted", "for the graphs of C01; false when constructor arguments lead back to the object through a tuple, and with keys=True when a dict in a reduce state leads back to the object (witnesses); C70 covers states that lead back in general")
claim("C42", "proved", "C42_attribute_names C42_underscores_refuted C42_default_factory_refuted C42_default_factory_value_refuted C42_names", "for the graphs of C01; false for names that begin with two underscores and for the name default_factory (witnesses)")
claim("C43", "proved", "C43_contents C43_identity_refuted", "contents for the graphs of C01; shared sets and bytearrays do not stay shared (witness)")
claim("C49", "proved", "C49_references C49_calls C49_missing_class_refuted C49_no_instance_refuted", "false in general: objects inside the dict that stands for an absent object take no number (C49_missing_class_refuted), and an object whose class is there but makes no instance takes two (C49_no_instance_refuted); references keep their meaning when the absent objects have scalar attributes")
claim("C14", "proved", "C14_max_depth C14_enum_refuted C14_repr_refuted C14_make_refs_refuted",
      "With references on, no enum members and exceptions of __repr__ contained: nesting at most B + K*m and encoding ends. In general false for every bound: enum members are not cut, an AttributeError of __repr__ swallowed by a slots object leaves the depth counter wrong, and with make_refs=False cached documents are reused at any depth.")
claim("C11", "proved", "C11_references C11_reading", "for the graphs of C01 without custom handlers (a handler may write any document, also a literal reference)")
claim("C50", "proved", "C50_iterator C50_number_encoding C50_number_decoding C50_second_reference_refuted",
      "For iterators without protocols of their own given to encode, whose items do not lead back to the iterator; numbering for any position in a document. A second reference to the same iterator decodes to the list behind it (refuted).")
claim("C51", "proved", "C51_reduce_like_pickle C51_pickle_runs_something C51_methods_found C51_methods_absent C51_own_methods C51_containers_not_asked C51_list_like_refuted C51_instance_attribute_refuted",
      "Subclasses of dict, list, set and tuple outside collections, and list-like classes, are never asked (refuted for a list-like class with its own __reduce__); a function stored on the instance under the name is taken for the method (refuted).")
claim("C52", "proved", "C52_by_value C52_storage_form C52_views C52_zero_d_refuted C52_fortran_view_refuted C52_byteorder_refuted C52_single_bytes_refuted",
      "Proved by value except for 0-d arrays in text form (they come back with one axis, refuted); views proved for bases in native byte order that are in C order or small. Refuted otherwise: views of large Fortran-order bases, of large bases in foreign byte order, and native views of single-byte bases show wrong items.")
claim("C53", "proved", "C53_plain_data C53_transparent C53_readonly_refuted",
      "Trees without sharing, distinct keys that are no names of the wire format (with keys=True also without json:// prefix), max_depth absent or not below the depth of the tree. With handle_readonly=True a dict loses keys such as 'items' (refuted).")
claim("C54", "proved", "C54_error_reported C54_type_error_refuted C54_type_error_reduce_refuted C54_attribute_error_refuted",
  "proved for all exceptions other than TypeError and AttributeError; false for these two: a TypeError inside a tuple, set, iterator or reduce list, and an AttributeError of __setstate__ in the reduce path, are swallowed (witnesses)")
claim("C55", "proved", "C55_decode C55_scalar_properties C55_object_property_refuted C55_method_refuted",
  "the added entries never change what decode does (every document whose classes are there, keys=False); proved for graphs whose classes have members with scalar values only; false for object-valued properties and for classes with methods: such a member takes a reference number that decode does not count, later references are shifted (witnesses)")
claim("C56", "proved", "C56_decode C56_graphs C56_plain_data C56_dict_refuted C56_attribute_refuted",
  "proved for graphs whose dicts have ascending keys and whose instances, except the one given to encode, have ascending attributes (encode sorts the attributes of that one and leaves them sorted), and for plain trees with any keys; false otherwise: only the outermost object is sorted before the numbers are given out, so references behind an unsorted dict or nested object mean other objects (witnesses)")
claim("C57", "proved", "C57_references C57_collision_refuted",
  "proved for lists, dicts, tuples, sets, classes and plain instances when the keys of each dict become different strings that are no names of the wire format; false when two keys of a dict become the same string ({1: .., '1': ..}): the lost value has taken reference numbers, later references mean other objects (witness)")
claim("C58", "proved", "C58_document C58_decode C58_same_text C58_cycle_refuted",
  "proved for lists, dicts with string keys, tuples, sets, classes and plain instances, graphs without cycles; C58_cycle_refuted: in a graph with a cycle the inner occurrence becomes a string")
claim("C59", "proved", "C59_members C59_identity C59_by_name C59_by_name_refuted",
  "proved for __reduce__ giving (class, args) with args scalars and tuples of such, in graphs as for C49; C59_by_name, C59_by_name_refuted: an object whose __reduce__ gives a global name is written as a reference to itself, and decode puts another object in its place")
claim("C60", "proved", "C60_frames C60_total C60_unlisted_dtype C60_capitals_unlisted C60_duplicate_labels_refuted C60_nullable_refuted",
  "proved for frames with distinct labels whose dtypes are in the lists of tags_pd, with the nested encode/decode calls and pandas' conversions as parameters; columns with another dtype come back as object (C60_unlisted_dtype), among them all whose name has a capital, such as the nullable Int64 (C60_nullable_refuted); two columns with one label cannot be encoded")
claim("C61", "proved", "C61_index C61_string_name_refuted C61_number_name_refuted",
  "proved for indexes without a name, with a tuple as name, and for the names of a MultiIndex; a string name is taken apart into its characters, and an index with a number as name cannot be decoded (refuted for every such name)")
claim("C62", "proved", "C62_added_names C62_old_documents C62_order_refuted C62_shared_name_refuted",
  "names added at the end of the lists change nothing, unless a new pandas name is also a numpy name (C62_shared_name_refuted); with the same names in another order a tag means another dtype (C62_order_refuted), and the order of the pandas names is that of a set of classes")
claim("C63", "proved", "C63_encode_session C63_decode_first C63_decode_session_refuted C63_stale_refuted C63_after_failure_refuted C63_placeholder_refuted",
  "writing is right for all sequences of successful calls with default options, reading for the first document. Reading more documents with reset=False is wrong: ids mean objects of earlier documents (C63_decode_session_refuted); with make_refs=False the old text of a changed object is returned (C63_stale_refuted); after a call that raised references lead nowhere (C63_after_failure_refuted); reset=False leaves placeholders in cyclic reduce states (C63_placeholder_refuted)")
claim("C64", "proved", "C64_gmpy_off C64_numpy_off C64_pandas_off C64_datetime64_refuted C64_own_handler_refuted C64_index_subclass_refuted",
  "true for registries without handlers for the extension's classes, except for numpy.datetime64, which unregister_handlers forgets (C64_datetime64_refuted); a handler of one's own for such a class is lost (C64_own_handler_refuted); a subclass of MultiIndex or PeriodIndex gets the handler of Index (C64_index_subclass_refuted)")
claim("C65", "proved", "C65_parts_of_two C65_part_elsewhere C65_order_refuted C65_reset_refuted C65_skipped_refuted C65_twice_refuted C65_cycle_refuted",
  "the conditions are needed: parts restored in another order (C65_order_refuted), flattened without reset=False (C65_reset_refuted), not restored (C65_skipped_refuted) or restored twice (C65_twice_refuted) make references elsewhere in the document wrong; a part that refers back to the handled object is a placeholder (C65_cycle_refuted)")
claim("C66", "proved", "C66_read C66_decode C66_write C66_write_read C66_options C66_default C66_roundtrip C66_escaping_refuted",
  "the grammar (SpecText.v) is stated apart from reader and writer; separators must be a comma and a colon with blanks around them, the indent must be blank. Float tokens are kept as written. Exception: ensure_ascii joins the halves of a surrogate pair that are separate characters (C66_escaping_refuted, see C39)")
claim("C67", "proved", "C67_values C67_shared_index C67_record_refuted C67_series_name_refuted",
  "a dtype stands for its text; names of Series are None, booleans, numbers or strings, ends of Intervals likewise (Timestamps as ends are not modelled); a Timestamp stands for its isoformat and a Period for its start and frequency. Exceptions: the dtype of a record array loses the record type (C67_record_refuted), a Series named by a tuple can be written but not read (C67_series_name_refuted)")
claim("C68", "proved", "C68_old C68_graph C68_current_refuted",
  "C68_old is an equation between the two runs of decode; C68_graph adds that the result is a copy of the graph the current document was made from. Documents: lists, dicts with string keys, tuples, sets of scalars, classes, plain instances of classes that are there; keys=False. Exception: the flag has to fit the document (C68_current_refuted)")
claim("C69", "proved", "C69_same C69_bool_refuted",
  "for graphs that refer to nothing outside themselves, also through user code (self_contained), none of whose dicts has a boolean key and whose float keys are spelled by repr as by JSON, and no two keys of one dict become the same string (of such keys the code writes both, the model the second). Exception: booleans (C69_bool_refuted)")
claim("C70", "proved", "C70_back C70_state_first_refuted C70_frozen_refuted",
  "keys=False; the same classes on both sides; __reduce__ gives a class (not a function), a tuple of arguments and None or a non-empty dict, on a class without __setstate__. Exceptions: the state dict reached before the object (C70_state_first_refuted), a frozen dataclass in the cycle (C70_frozen_refuted), cycles through a tuple and keys=True (C41_constructor_cycle_refuted, C41_keys_refuted)")
claim("C71", "proved", "C71_named C71_imports C71_nothing C71_fuel",
  "C71_named is about the log of one run, C71_imports an equation between runs in two worlds that differ in the import system and eval; the import of a.b also imports a, which is a name before a dot as well. Handlers are arbitrary functions that restore only parts of their object (part_handlers). C71_fuel: the fuel of the model does not matter beyond the length of the text")
claim("C72", "proved", "C72_data",
  "for all worlds, without assumption on handlers (none is reached); placeholders of the unpickler (in a tuple that refers to an object in the making) count as data")
claim("C73", "proved", "C73_encode C73_graph C73_decode",
  "equations between runs with two registries; C73_encode from every state with no instance in the heap, C73_graph with none in the graph (all options but handle_readonly and sorted keys); decode: handlers restore only parts of their object (part_handlers)")
claim("C74", "proved", "C74_elsewhere",
  "for every self-contained set of objects with the argument in it")
claim("C75", "proved", "C75_decode C75_no_such_class",
  "no assumption on handlers; AttributeError is caught nowhere around the restoring of parts")
claim("C76", "proved", "C76_reports C76_warn C76_error C76_type_error_refuted",
  "no assumption on handlers; exceptions of the function other than TypeError are proved to leave decode (or the run is that of 'ignore'); a TypeError inside a tuple is shown to be swallowed")
claim("C77", "proved", "C77_warn C77_keys C77_keys_graph C77_warn_sorted_refuted",
  "warn: from every state; keys: for all objects of the heap from every state, and for the graph alone from a new Pickler (through C74)")
claim("C78", "proved", "C78_same_names C78_further C78_malformed_refuted",
  "from every state; the names a classes argument gives are `bindings`, in order, the last one counting (as in C23)")
claim("C79", "proved", "C79_same C79_list",
  "the ufunc may be in a list of any length with repetitions; other containers are not stated; that numpy.ufunc itself is found by decode is a hypothesis")
claim("C80", "proved", "C80_own_context C80_classes C80_reentered_refuted",
  "only the attribute context of handler objects is modelled; a method is a tree of looks and calls, so an exception cuts the tree; one thread")
claim("C81", "proved", "C81_rest C81_object C81_type C81_places C81_type_refuted",
  "C81_rest needs no condition on classes; C81_places also goes into instances and leaves out the tags beside py/object and py/type, with keys=False, for classes that are found, have no handler and allow blank instances")
claim("C82", "proved", "C82_columns",
  "pandas is given by what read_csv, to_timedelta and astype make of one column, as variables of the theorem; the columns with a dtype are in the text; the index, the names of column levels and the empty frame are not modelled")
claim("C83", "proved", "C83_kept C83_missing C83_registered C83_last C83_error_refuted",
  "PyYAML is given by what importing it, looking up names and calling dump and safe_load do; each such call has one outcome for the same arguments; yaml is not registered already")
claim("C84", "proved", "C84_one_slash C84_slashes C84_document C84_value C84_names_refuted",
  "import and eval are variables of the theorems; the builtins, which eval adds to the names, are not modelled; C84_document and C84_value are about the decoder of the other properties")
claim("C85", "proved", "C85_lists C85_same C85_unpicklable_refuted",
  "arrays as in C52; the document of a Python scalar is a variable of the theorems; that lists of scalars are written in full without unpicklable is taken from the pickler (C12)")
