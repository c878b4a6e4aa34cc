{
 "claims": [
  {
   "property": "C01",
   "status": "proved",
   "theorems": [
    "C01_cursor_is_list"
   ],
   "note": "cursor refines the list of remaining children, over all call histories"
  },
  {
   "property": "C02",
   "status": "proved",
   "theorems": [
    "C02_peek_unobservable"
   ],
   "note": "peeks inserted anywhere in a history"
  },
  {
   "property": "C03",
   "status": "proved",
   "theorems": [
    "C03_child_takes_first"
   ],
   "note": "from every reachable cursor state"
  },
  {
   "property": "C04",
   "status": "partial",
   "theorems": [
    "C04_text_whole_partial",
    "C04_text_whole_refuted"
   ],
   "note": "holds when no comment or processing instruction splits the text; refuted otherwise"
  },
  {
   "property": "C05",
   "status": "proved",
   "theorems": [
    "C05_root_checked"
   ],
   "note": ""
  },
  {
   "property": "C06",
   "status": "proved",
   "theorems": [
    "C06_borrowed_silent",
    "C06_context_calls",
    "C06_exactly_once"
   ],
   "note": ""
  },
  {
   "property": "C07",
   "status": "partial",
   "theorems": [
    "C07_before_start_partial",
    "C07_late_refuted"
   ],
   "note": "everything set before the start tag is written; false for what is set later (C07_late_refuted)"
  },
  {
   "property": "C08",
   "status": "proved",
   "theorems": [
    "C08_never_stuck",
    "C08_typed",
    "C08_typed_refuted"
   ],
   "note": "decoded values have the declared type; never stuck for schemas whose references are resolved (compiles, grounded). C08_typed_refuted: a group repeated inside a choice, which rustc rejects"
  },
  {
   "property": "C09",
   "status": "partial",
   "theorems": [
    "C09_decoding_ends_partial",
    "C09_decoding_refuted"
   ],
   "note": "proved when the references of the schema are resolved as intended and no type contains itself without an element in between; false otherwise (C09_decoding_refuted)"
  },
  {
   "property": "C10",
   "status": "proved",
   "theorems": [
    "C10_described"
   ],
   "note": "the value describes the consumed children (relation rep_doc); in document order when no xs:all is involved, as a shuffle otherwise. That re-encoding writes the same elements is C24"
  },
  {
   "property": "C11",
   "status": "proved",
   "theorems": [
    "C11_document",
    "C11_never_defaulted",
    "C11_required_next"
   ],
   "note": "field reader, document, and \"never defaulted\""
  },
  {
   "property": "C12",
   "status": "partial",
   "theorems": [
    "C12_all_partial",
    "C12_all_refuted",
    "C12_deep_partial"
   ],
   "note": "proved for required members, at any depth (C12_deep_partial); false with optional members (C12_all_refuted)"
  },
  {
   "property": "C13",
   "status": "proved",
   "theorems": [
    "C13_optional",
    "C13_repeated"
   ],
   "note": ""
  },
  {
   "property": "C14",
   "status": "partial",
   "theorems": [
    "C14_bounds_refuted",
    "C14_kept_partial"
   ],
   "note": "false as stated (C14_bounds_refuted): minOccurs/maxOccurs other than 0/1/many are not enforced. C14_kept_partial: if the bounds of all members are 1..1, 0..1 or 0..unbounded, whatever is decoded keeps to them, apart from children that no member accounts for"
  },
  {
   "property": "C15",
   "status": "proved",
   "theorems": [
    "C15_choice",
    "C15_order",
    "C15_selects"
   ],
   "note": ""
  },
  {
   "property": "C16",
   "status": "partial",
   "theorems": [
    "C16_progress_partial",
    "C16_progress_refuted",
    "C16_skipped"
   ],
   "note": "proved when group names refer to groups; false when the derived name of a group collides with a simple type (C16_progress_refuted)"
  },
  {
   "property": "C17",
   "status": "partial",
   "theorems": [
    "C17_attributes_refuted",
    "C17_fixed_elements_partial"
   ],
   "note": "proved for elements; false for attributes (C17_attributes_refuted)"
  },
  {
   "property": "C18",
   "status": "proved",
   "theorems": [
    "C18_attributes",
    "C18_undeclared"
   ],
   "note": ""
  },
  {
   "property": "C19",
   "status": "proved",
   "theorems": [
    "C19_duplicates_refuted",
    "C19_enum_literals"
   ],
   "note": "for pairwise different literals (as the property says); without that hypothesis refuted (C19_duplicates_refuted)"
  },
  {
   "property": "C20",
   "status": "partial",
   "theorems": [
    "C20_empty_refuted",
    "C20_extended_partial"
   ],
   "note": "false for an empty element whose text is read (C20_empty_refuted); proved otherwise"
  },
  {
   "property": "C21",
   "status": "proved",
   "theorems": [
    "C21_layout"
   ],
   "note": "also for arbitrary character data, since it is never looked at there"
  },
  {
   "property": "C22",
   "status": "partial",
   "theorems": [
    "C22_balanced",
    "C22_no_tag_refuted",
    "C22_one_element_partial",
    "C22_pieces"
   ],
   "note": "output balanced for all values; one root element for types that write a tag; false otherwise (C22_no_tag_refuted)"
  },
  {
   "property": "C23",
   "status": "partial",
   "theorems": [
    "C23_fixed_ref_refuted",
    "C23_simple_extension_refuted",
    "C23_tags_partial",
    "C23_variant_refuted"
   ],
   "note": "writable_b schemas: the document has an element for every element occurrence of the value (C23_tags_partial); three shapes whose tag is missing are refuted"
  },
  {
   "property": "C24",
   "status": "proved",
   "theorems": [
    "C24_round_trip",
    "C24_typed_values"
   ],
   "note": "for schemas passing unambiguous_b, writable_b, entry_b; canonical values characterised by the Rust types (C24_typed_values) under stated laws of the number formats; all indentations"
  },
  {
   "property": "C25",
   "status": "partial",
   "theorems": [
    "C25_attributes_refuted",
    "C25_carriage_return_refuted",
    "C25_stable_partial",
    "C25_text_partial"
   ],
   "note": "same schemas, documents whose texts survive XML, and texts without numeric references (C25_text_partial); refuted otherwise (lost base attributes; carriage returns)"
  },
  {
   "property": "C26",
   "status": "partial",
   "theorems": [
    "C26_choice_refuted",
    "C26_import_refuted",
    "C26_namespaces_partial"
   ],
   "note": "proved for writable_b schemas; refuted for references as choice variants and for unqualified imports"
  },
  {
   "property": "C27",
   "status": "partial",
   "theorems": [
    "C27_base_attributes_partial",
    "C27_sequence_refuted"
   ],
   "note": "proved for extensions without a sequence; refuted when the extension adds a sequence"
  },
  {
   "property": "C28",
   "status": "partial",
   "theorems": [
    "C28_panic_refuted",
    "C28_returns_partial",
    "C28_terminates"
   ],
   "note": "terminates for every document; returns Ok/Err when attribute values are ASCII; panics on a derived name starting with a multi-byte character (C28_panic_refuted)"
  },
  {
   "property": "C29",
   "status": "partial",
   "theorems": [
    "C29_accepted",
    "C29_cycle_refuted",
    "C29_diverges",
    "C29_endless",
    "C29_exact",
    "C29_one_result",
    "C29_terminates_partial"
   ],
   "note": "proved when no chain of includes is endless; a self-including file diverges (C29_cycle_refuted). C29_exact says exactly when reading comes to an end, and no schema with an endless chain is ever returned (C29_endless)"
  },
  {
   "property": "C30",
   "status": "proved",
   "theorems": [
    "C30_files",
    "C30_generate_all",
    "C30_never_unreachable"
   ],
   "note": "the only panics on accepted schemas are about identifiers rejected by proc_macro2"
  },
  {
   "property": "C31",
   "status": "partial",
   "theorems": [
    "C31_checked_partial",
    "C31_prohibited_refuted",
    "C31_shadowed_refuted",
    "C31_typed_children_refuted",
    "C31_untyped_children_refuted"
   ],
   "note": "proved for every construct the generator looks into (reached), for names not hidden by a foreign attribute; refuted for children of typed elements, unknown children of untyped elements, prohibited attributes, and shadowed names"
  },
  {
   "property": "C32",
   "status": "partial",
   "theorems": [
    "C32_accepted_partial",
    "C32_attribute_refuted",
    "C32_documentation_refuted",
    "C32_hidden_refuted",
    "C32_ignored_partial",
    "C32_moved_partial"
   ],
   "note": "proved for the main document and all loaded files, with errors at the place of the same element or attribute, for foreign attributes whose local name is neither that of an attribute the parser reads nor of an unprefixed attribute of the element, and for markup not in front of documentation text; refuted in the three other cases"
  },
  {
   "property": "C33",
   "status": "proved",
   "theorems": [
    "C33_interning"
   ],
   "note": ""
  },
  {
   "property": "C34",
   "status": "proved",
   "theorems": [
    "C34_meaning",
    "C34_resolves"
   ],
   "note": "by the declarations of the schema element; for namespaces in scope see C51"
  },
  {
   "property": "C35",
   "status": "proved",
   "theorems": [
    "C35_max_occurs",
    "C35_min_occurs"
   ],
   "note": ""
  },
  {
   "property": "C36",
   "status": "proved",
   "theorems": [
    "C36_choice",
    "C36_sequence"
   ],
   "note": ""
  },
  {
   "property": "C37",
   "status": "partial",
   "theorems": [
    "C37_definitions",
    "C37_named",
    "C37_overwritten_refuted",
    "C37_represented_partial",
    "C37_symbol_spaces_refuted"
   ],
   "note": "every name has a type (C37_named), the types are exactly the log of definitions (C37_definitions), and the type is the one of the declaration when made-up names are in no namespace and no later one has the name; refuted otherwise"
  },
  {
   "property": "C38",
   "status": "partial",
   "theorems": [
    "C38_files",
    "C38_located",
    "C38_refuted"
   ],
   "note": "proved for documents without include/import and for every file's own errors; an included file that cannot be opened is reported without a range (C38_refuted)"
  },
  {
   "property": "C39",
   "status": "partial",
   "theorems": [
    "C39_derived_name_partial",
    "C39_derived_name_refuted"
   ],
   "note": "holds for names whose snake-case form starts with an ASCII character; refuted otherwise"
  },
  {
   "property": "C40",
   "status": "proved",
   "theorems": [
    "C40_ascii_stable",
    "C40_longest",
    "C40_prefix_maximal",
    "C40_shared_prefix",
    "C40_shared_suffix",
    "C40_suffix_maximal"
   ],
   "note": ""
  },
  {
   "property": "C41",
   "status": "proved",
   "theorems": [
    "C41_cleanup_docs",
    "C41_words_unique"
   ],
   "note": ""
  },
  {
   "property": "C42",
   "status": "proved",
   "theorems": [
    "C42_closure",
    "C42_terminates"
   ],
   "note": ""
  },
  {
   "property": "C43",
   "status": "partial",
   "theorems": [
    "C43_escape_ident_partial",
    "C43_escape_ident_refuted"
   ],
   "note": "false as stated (C43_escape_ident_refuted); proved for all identifier-shaped names outside the listed keywords"
  },
  {
   "property": "C44",
   "status": "proved",
   "theorems": [
    "C44_letter_first",
    "C44_readable",
    "C44_variant_names"
   ],
   "note": ""
  },
  {
   "property": "C45",
   "status": "partial",
   "theorems": [
    "C45_aliases_partial",
    "C45_aliases_refuted",
    "C45_necessary"
   ],
   "note": "false as stated (C45_aliases_refuted); proved for acyclic aliases, and acyclicity is shown necessary for success"
  },
  {
   "property": "C46",
   "status": "proved",
   "theorems": [
    "C46_ids",
    "C46_keeps",
    "C46_order"
   ],
   "note": ""
  },
  {
   "property": "C47",
   "status": "proved",
   "theorems": [
    "C47_accepts",
    "C47_roundtrip"
   ],
   "note": ""
  },
  {
   "property": "C48",
   "status": "proved",
   "theorems": [
    "C48_builtin_names",
    "C48_rust_type",
    "C48_same_type",
    "C48_xsd_name"
   ],
   "note": ""
  },
  {
   "property": "C49",
   "status": "proved",
   "theorems": [
    "C49_decoder_meets_spec",
    "C49_deterministic",
    "C49_stable"
   ],
   "note": ""
  },
  {
   "property": "C50",
   "status": "partial",
   "theorems": [
    "C50_lookahead_partial",
    "C50_lookahead_refuted"
   ],
   "note": "false as stated (C50_lookahead_refuted); proved for groups whose lookahead covers their first elements and no xs:all"
  },
  {
   "property": "C51",
   "status": "partial",
   "theorems": [
    "C51_default_refuted",
    "C51_nested_refuted",
    "C51_unprefixed_partial"
   ],
   "note": "proved without default namespace; refuted for default namespaces other than XSD and for prefixes declared below the schema element"
  },
  {
   "property": "C52",
   "status": "partial",
   "theorems": [
    "C52_chameleon_refuted",
    "C52_own_namespace",
    "C52_same_partial"
   ],
   "note": "false as stated (C52_chameleon_refuted): the included types stay in the namespace of their own file (C52_own_namespace); proved when both files have the same target namespace or both have none (C52_same_partial)"
  },
  {
   "property": "C53",
   "status": "proved",
   "theorems": [
    "C53_reading_sound",
    "C53_writing_total"
   ],
   "note": "for every module of the IR, generated or not, that passes the static semantics of RustSpec"
  },
  {
   "property": "C54",
   "status": "partial",
   "theorems": [
    "C54_attribute_refuted",
    "C54_compiles",
    "C54_empty_refuted",
    "C54_exact",
    "C54_fields_refuted",
    "C54_functions_partial",
    "C54_group_refuted",
    "C54_keyword_refuted",
    "C54_missing_refuted",
    "C54_names_refuted",
    "C54_prelude_refuted",
    "C54_recursion_refuted",
    "C54_schema"
   ],
   "note": "false as stated (nine refutations, one per reason); C54_exact gives the exact condition on the schema: schema_ok (Rust names pairwise different, no keyword or prelude name, references resolved, no type containing itself in place), attribute types are strings or enumerations, no group is repeated in a choice, looked-up groups exist"
  },
  {
   "property": "C55",
   "status": "partial",
   "theorems": [
    "C55_choice_refuted",
    "C55_group_refuted",
    "C55_valid_decoded_partial"
   ],
   "note": "proved for schemas that need one element of lookahead, whose module compiles and whose choices have no optional alternatives; false without (C55_choice_refuted, C55_group_refuted)"
  },
  {
   "property": "C56",
   "status": "partial",
   "theorems": [
    "C56_checked_partial",
    "C56_fixed_refuted",
    "C56_none_refuted",
    "C56_prohibited_refuted",
    "C56_too_few_refuted",
    "C56_too_many_refuted",
    "C56_trailing_refuted"
   ],
   "note": "false as stated (six refutations, one per missing check); proved: everything else is checked (checked_document)"
  },
  {
   "property": "C57",
   "status": "partial",
   "theorems": [
    "C57_decoding",
    "C57_documents",
    "C57_duplicates_refuted",
    "C57_encoding"
   ],
   "note": "proved for schemas whose enumerations list each value once; false without (C57_duplicates_refuted)"
  },
  {
   "property": "C58",
   "status": "partial",
   "theorems": [
    "C58_accepted",
    "C58_expansion",
    "C58_file_refuted",
    "C58_inner_refuted",
    "C58_keeps_partial",
    "C58_names_refuted",
    "C58_panics"
   ],
   "note": "proved for modules with a body and without inner attributes; false otherwise (C58_inner_refuted, C58_file_refuted, C58_names_refuted); C58_accepted says exactly when the result compiles"
  },
  {
   "property": "C59",
   "status": "proved",
   "theorems": [
    "C59_position",
    "C59_unique"
   ],
   "note": "given that roxmltree's ranges start between characters and texts are UTF-8"
  },
  {
   "property": "C60",
   "status": "partial",
   "theorems": [
    "C60_accepted_partial",
    "C60_boolean_refuted",
    "C60_large_refuted",
    "C60_meaning_partial",
    "C60_minus_zero_refuted",
    "C60_white_space_refuted",
    "C60_written_partial",
    "C60_zero_refuted"
   ],
   "note": "proved for representable values in Rust's spelling and up to positiveInteger zero; five refutations for the rest; decimal and float are the subject of C73"
  },
  {
   "property": "C61",
   "status": "proved",
   "theorems": [
    "C61_declarations",
    "C61_denotes_unique"
   ],
   "note": "given that no type is named like a primitive type (Inflector's pascal case never gives such a name)"
  },
  {
   "property": "C62",
   "status": "partial",
   "theorems": [
    "C62_choice_refuted",
    "C62_enumeration_refuted",
    "C62_fields_partial",
    "C62_reference_refuted",
    "C62_second_refuted",
    "C62_type_partial",
    "C62_undocumented"
   ],
   "note": "proved for declared types other than enumerations, for elements declared in a sequence or all without bounds, and for attributes; refuted for enumerations, alternatives of a choice, references, and second documentation elements"
  },
  {
   "property": "C63",
   "status": "proved",
   "theorems": [
    "C63_answers",
    "C63_names",
    "C63_reading"
   ],
   "note": "given that Inflector's pascal case never gives `lookahead` or `from_xml_node` (proved for ASCII); that there is always an answer needs the conditions of C09"
  },
  {
   "property": "C64",
   "status": "proved",
   "theorems": [
    "C64_round_trip",
    "C64_typed",
    "C64_writing"
   ],
   "note": "the round trip under the conditions of C24; writing into a Vec does not fail"
  },
  {
   "property": "C65",
   "status": "proved",
   "theorems": [
    "C65_enumerations",
    "C65_literals"
   ],
   "note": "decimal and float types are left out (their texts are parameters); enumerations that repeat a literal are left out (C19_duplicates_refuted)"
  },
  {
   "property": "C66",
   "status": "proved",
   "theorems": [
    "C66_collision_refuted",
    "C66_modules",
    "C66_order",
    "C66_parses",
    "C66_prefixes_refuted",
    "C66_types",
    "C66_uses"
   ],
   "note": "under the stated conditions: made-up names that collide (C66_collision_refuted) and prefixes of other namespaces, which are numbered by first use (C66_prefixes_refuted), make the order matter"
  },
  {
   "property": "C67",
   "status": "proved",
   "theorems": [
    "C67_files",
    "C67_scope_refuted",
    "C67_true"
   ],
   "note": "prefixes bound below the schema element are not looked at, so a prefix reported as missing may be bound where it is used (C67_scope_refuted)"
  },
  {
   "property": "C68",
   "status": "proved",
   "theorems": [
    "C68_decode",
    "C68_decode_refuted",
    "C68_file_refuted",
    "C68_macro",
    "C68_names",
    "C68_not_found",
    "C68_schema",
    "C68_total",
    "C68_true"
   ],
   "note": "texts of library errors are arguments; without the conditions texts can coincide (C68_decode_refuted, C68_file_refuted)"
  },
  {
   "property": "C69",
   "status": "proved",
   "theorems": [
    "C69_about",
    "C69_absent",
    "C69_absent_refuted",
    "C69_true"
   ],
   "note": "errors are related to the schema by FaultSpec.v (which type an element is read as, which children the members before account for); C69_absent for xs:all; C69_absent_refuted: in a sequence the element may be there, out of order"
  },
  {
   "property": "C70",
   "status": "proved",
   "theorems": [
    "C70_functions",
    "C70_module"
   ],
   "note": "tokens, not characters: the lexer is that of the templates (Quote.v); inferred types are not in the text; types named like a variable of the functions are excluded (C70_taken: such a module reads differently)"
  },
  {
   "property": "C71",
   "status": "proved",
   "theorems": [
    "C71_exact",
    "C71_functions",
    "C71_meaning",
    "C71_text"
   ],
   "note": "rules written from the Rust reference; lifetimes and borrows not represented (mutability: C82); C71_exact is up to two corners (plain_module)"
  },
  {
   "property": "C72",
   "status": "partial",
   "theorems": [
    "C72_answers",
    "C72_chain",
    "C72_checked_partial",
    "C72_errors",
    "C72_one_chain",
    "C72_round_trip_partial",
    "C72_valid_partial"
   ],
   "note": "composition of C24, C54-C56, C58, C63, C64 and C69-C71 and partial where they are: valid documents and round trips need conditions on the schema that are checked by a program (C55 and C24 are false without)"
  },
  {
   "property": "C73",
   "status": "partial",
   "theorems": [
    "C73_bound_refuted",
    "C73_decimal_accepted_partial",
    "C73_decimal_meaning_partial",
    "C73_decimal_written",
    "C73_float_accepted",
    "C73_float_back",
    "C73_float_meaning_partial",
    "C73_float_shortest",
    "C73_float_unique",
    "C73_float_written_partial",
    "C73_infinity_refuted",
    "C73_large_refuted",
    "C73_precision_refuted",
    "C73_scalar_laws",
    "C73_underscore_refuted",
    "C73_white_space_refuted",
    "C73_words_refuted"
   ],
   "note": "about the library functions as modelled in Numbers.v; float: all texts without white space around are read as the nearest value, all values but the infinities are written as texts of the type, the shortest and of these the nearest; decimal: numbers that fit into 96 bits and 28 digits after the point; seven refutations for the rest (infinity is written as inf, words and underscores are accepted, digits are rounded away, large numbers, white space, bounds of a restriction of float)"
  },
  {
   "property": "C74",
   "status": "proved",
   "theorems": [
    "C74_exact",
    "C74_items",
    "C74_macro",
    "C74_types_exact"
   ],
   "note": "rules written from the Rust reference and the error index; visibility not represented; the converse needs names apart from those of the language and prelude, and declarations with what their templates need (decl_fits)"
  },
  {
   "property": "C75",
   "status": "partial",
   "theorems": [
    "C75_ascii",
    "C75_changed_refuted",
    "C75_declarations",
    "C75_declared_refuted",
    "C75_end_partial",
    "C75_kept",
    "C75_round_trip",
    "C75_text",
    "C75_unreadable_refuted"
   ],
   "note": "about roxmltree and xml-rs as modelled in XmlRead.v and XmlWrite.v; names of namespaces without characters that need escapes and not the reserved ones, a prefix stands for one namespace throughout (proved of generated code); round trips under the conditions of C24; refutations for control characters, carriage returns, tabs, prefixes declared anew and quotes in names of namespaces"
  },
  {
   "property": "C76",
   "status": "proved",
   "theorems": [
    "C76_types",
    "C76_unique"
   ],
   "note": "in terms of the types of the schema as parsed (C34, C36 and C37 relate them to the schema document); case conversions are Inflector's, as parameters"
  },
  {
   "property": "C77",
   "status": "proved",
   "theorems": [
    "C77_reader",
    "C77_rejected",
    "C77_unique",
    "C77_written"
   ],
   "note": "of the reader as modelled in XmlRead.v, in the place of roxmltree; the grammar is written from the productions of XML 1.0 (5th edition) and Namespaces 1.0; comments and instructions keep their line ends; no document type declarations, limits and kinds of errors"
  },
  {
   "property": "C78",
   "status": "proved",
   "theorems": [
    "C78_attribute",
    "C78_document",
    "C78_element",
    "C78_files",
    "C78_message",
    "C78_nested",
    "C78_position",
    "C78_readable"
   ],
   "note": "of the reader as modelled in XmlRead.v (C77); the position that roxmltree reports for texts that are not XML is an argument"
  },
  {
   "property": "C79",
   "status": "proved",
   "theorems": [
    "C79_decoded",
    "C79_document",
    "C79_equivalence",
    "C79_macro",
    "C79_message",
    "C79_schema",
    "C79_windows"
   ],
   "note": "of the reader as modelled in XmlRead.v (C77); for files that are not XML position and text of the message are roxmltree's; rows count line feeds, so messages differ for files with carriage returns alone (C79_macintosh)"
  },
  {
   "property": "C80",
   "status": "proved",
   "theorems": [
    "C80_include",
    "C80_manifest",
    "C80_moved",
    "C80_only",
    "C80_trees"
   ],
   "note": "paths of Unix, as modelled in Path.v from std; a tree of directories is a step function on places, so \"..\" and links are what the tree says; that a slash or dot in the middle of a path needs a directory is left to the steps behind it"
  },
  {
   "property": "C81",
   "status": "proved",
   "theorems": [
    "C81_back",
    "C81_choice_names_refuted",
    "C81_decoded",
    "C81_errors",
    "C81_exchange",
    "C81_exchange_partial",
    "C81_known_names_refuted",
    "C81_valid_partial",
    "C81_written"
   ],
   "note": "the conditions are needed: a further alternative of an unnamed choice can rename a member (C81_choice_names_refuted), documents that contain added names are read differently (C81_known_names_refuted). For schemas that one element of lookahead can read, documents valid by the old schema and documents written for values of the old module are read whatever the names of added elements (C81_valid_partial, C81_exchange_partial)"
  },
  {
   "property": "C82",
   "status": "proved",
   "theorems": [
    "C82_mut"
   ],
   "note": "which library methods take &mut is part of the specification; lifetimes and the overlap of borrows are not represented"
  },
  {
   "property": "C83",
   "status": "proved",
   "theorems": [
    "C83_constant_refuted",
    "C83_depth",
    "C83_layers",
    "C83_writing"
   ],
   "note": "counts open calls of generated functions (the frames inside one such call are constant); that no constant depth is enough is C83_constant_refuted. How many bytes a frame has and how deep roxmltree recurses are not represented"
  },
  {
   "property": "C84",
   "status": "proved",
   "theorems": [
    "C84_counts",
    "C84_rate",
    "C84_spin_refuted",
    "C84_steps"
   ],
   "note": "steps as counted by CostSpec.v; what is done inside one question to the cursor (child looks through the children skipped so far) and inside one reading of a text or attribute is not counted. False without the conditions (C84_spin_refuted)"
  },
  {
   "property": "C85",
   "status": "proved",
   "theorems": [
    "C85_amount",
    "C85_items",
    "C85_one_file",
    "C85_together_refuted"
   ],
   "note": "a file counts as often as it is opened; that counting each file once is enough is not proved"
  },
  {
   "property": "C86",
   "status": "proved",
   "theorems": [
    "C86_files",
    "C86_linear_refuted",
    "C86_namespaces",
    "C86_repeated",
    "C86_text"
   ],
   "note": "tokens as in Emit.v and Impl.v, a literal counts as one whatever its length. That the length is linear in the number of elements is false (C86_linear_refuted)"
  },
  {
   "property": "C87",
   "status": "proved",
   "theorems": [
    "C87_events",
    "C87_same_names_refuted"
   ],
   "note": "counts events without that of the XML declaration, and not the attributes and namespaces inside a start tag nor the characters of a text"
  }
 ]
}