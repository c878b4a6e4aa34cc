C01 | proved | cursor refines the list of remaining children, over all call histories
C02 | proved | peeks inserted anywhere in a history
C03 | proved | from every reachable cursor state
C04 | partial | holds when no comment or processing instruction splits the text; refuted otherwise
C05 | proved |
C06 | proved |
C07 | partial | everything set before the start tag is written; false for what is set later (C07_late_refuted)
C08 | proved | decoded values have the declared type; never stuck for schemas whose references are resolved (compiles, grounded). C08_typed_refuted: a group repeated inside a choice, which rustc rejects
C09 | partial | proved when the references of the schema are resolved as intended and no type contains itself without an element in between; false otherwise (C09_decoding_refuted)
C10 | proved | the value describes the consumed children (relation rep_doc); in document order when no xs:all is involved, as a shuffle otherwise. That re-encoding writes the same elements is C24
C11 | proved | field reader, document, and "never defaulted"
C12 | partial | proved for required members, at any depth (C12_deep_partial); false with optional members (C12_all_refuted)
C13 | proved |
C14 | partial | false as stated (C14_bounds_refuted): minOccurs/maxOccurs other than 0/1/many are not enforced. C14_kept_partial: if the bounds of all members are 1..1, 0..1 or 0..unbounded, whatever is decoded keeps to them, apart from children that no member accounts for
C15 | proved |
C16 | partial | proved when group names refer to groups; false when the derived name of a group collides with a simple type (C16_progress_refuted)
C17 | partial | proved for elements; false for attributes (C17_attributes_refuted)
C18 | proved |
C19 | proved | for pairwise different literals (as the property says); without that hypothesis refuted (C19_duplicates_refuted)
C20 | partial | false for an empty element whose text is read (C20_empty_refuted); proved otherwise
C21 | proved | also for arbitrary character data, since it is never looked at there
C22 | partial | output balanced for all values; one root element for types that write a tag; false otherwise (C22_no_tag_refuted)
C23 | partial | writable_b schemas: the document has an element for every element occurrence of the value (C23_tags_partial); three shapes whose tag is missing are refuted
C24 | proved | for schemas passing unambiguous_b, writable_b, entry_b; canonical values characterised by the Rust types (C24_typed_values) under stated laws of the number formats; all indentations
C25 | partial | same schemas, documents whose texts survive XML, and texts without numeric references (C25_text_partial); refuted otherwise (lost base attributes; carriage returns)
C26 | partial | proved for writable_b schemas; refuted for references as choice variants and for unqualified imports
C27 | partial | proved for extensions without a sequence; refuted when the extension adds a sequence
C28 | partial | terminates for every document; returns Ok/Err when attribute values are ASCII; panics on a derived name starting with a multi-byte character (C28_panic_refuted)
C29 | partial | proved when no chain of includes is endless; a self-including file diverges (C29_cycle_refuted). C29_exact says exactly when reading comes to an end, and no schema with an endless chain is ever returned (C29_endless)
C30 | proved | the only panics on accepted schemas are about identifiers rejected by proc_macro2
C31 | partial | proved for every construct the generator looks into (reached), for names not hidden by a foreign attribute; refuted for children of typed elements, unknown children of untyped elements, prohibited attributes, and shadowed names
C32 | partial | proved for the main document and all loaded files, with errors at the place of the same element or attribute, for foreign attributes whose local name is neither that of an attribute the parser reads nor of an unprefixed attribute of the element, and for markup not in front of documentation text; refuted in the three other cases
C33 | proved |
C34 | proved | by the declarations of the schema element; for namespaces in scope see C51
C35 | proved |
C36 | proved |
C37 | partial | every name has a type (C37_named), the types are exactly the log of definitions (C37_definitions), and the type is the one of the declaration when made-up names are in no namespace and no later one has the name; refuted otherwise
C38 | partial | proved for documents without include/import and for every file's own errors; an included file that cannot be opened is reported without a range (C38_refuted)
C39 | partial | holds for names whose snake-case form starts with an ASCII character; refuted otherwise
C40 | proved |
C41 | proved |
C42 | proved |
C43 | partial | false as stated (C43_escape_ident_refuted); proved for all identifier-shaped names outside the listed keywords
C44 | proved |
C45 | partial | false as stated (C45_aliases_refuted); proved for acyclic aliases, and acyclicity is shown necessary for success
C46 | proved |
C47 | proved |
C48 | proved |
C49 | proved |
C50 | partial | false as stated (C50_lookahead_refuted); proved for groups whose lookahead covers their first elements and no xs:all
C51 | partial | proved without default namespace; refuted for default namespaces other than XSD and for prefixes declared below the schema element
C52 | partial | false as stated (C52_chameleon_refuted): the included types stay in the namespace of their own file (C52_own_namespace); proved when both files have the same target namespace or both have none (C52_same_partial)
C53 | proved | for every module of the IR, generated or not, that passes the static semantics of RustSpec
C54 | partial | false as stated (nine refutations, one per reason); C54_exact gives the exact condition on the schema: schema_ok (Rust names pairwise different, no keyword or prelude name, references resolved, no type containing itself in place), attribute types are strings or enumerations, no group is repeated in a choice, looked-up groups exist
C55 | partial | proved for schemas that need one element of lookahead, whose module compiles and whose choices have no optional alternatives; false without (C55_choice_refuted, C55_group_refuted)
C56 | partial | false as stated (six refutations, one per missing check); proved: everything else is checked (checked_document)
C57 | partial | proved for schemas whose enumerations list each value once; false without (C57_duplicates_refuted)
C58 | partial | proved for modules with a body and without inner attributes; false otherwise (C58_inner_refuted, C58_file_refuted, C58_names_refuted); C58_accepted says exactly when the result compiles
C59 | proved | given that roxmltree's ranges start between characters and texts are UTF-8
C60 | partial | proved for representable values in Rust's spelling and up to positiveInteger zero; five refutations for the rest; decimal and float are the subject of C73
C61 | proved | given that no type is named like a primitive type (Inflector's pascal case never gives such a name)
C62 | partial | proved for declared types other than enumerations, for elements declared in a sequence or all without bounds, and for attributes; refuted for enumerations, alternatives of a choice, references, and second documentation elements
C63 | proved | given that Inflector's pascal case never gives `lookahead` or `from_xml_node` (proved for ASCII); that there is always an answer needs the conditions of C09
C64 | proved | the round trip under the conditions of C24; writing into a Vec does not fail
C65 | proved | decimal and float types are left out (their texts are parameters); enumerations that repeat a literal are left out (C19_duplicates_refuted)
C66 | proved | under the stated conditions: made-up names that collide (C66_collision_refuted) and prefixes of other namespaces, which are numbered by first use (C66_prefixes_refuted), make the order matter
C67 | proved | prefixes bound below the schema element are not looked at, so a prefix reported as missing may be bound where it is used (C67_scope_refuted)
C68 | proved | texts of library errors are arguments; without the conditions texts can coincide (C68_decode_refuted, C68_file_refuted)
C69 | proved | errors are related to the schema by FaultSpec.v (which type an element is read as, which children the members before account for); C69_absent for xs:all; C69_absent_refuted: in a sequence the element may be there, out of order
C70 | proved | tokens, not characters: the lexer is that of the templates (Quote.v); inferred types are not in the text; types named like a variable of the functions are excluded (C70_taken: such a module reads differently)
C71 | proved | rules written from the Rust reference; lifetimes and borrows not represented (mutability: C82); C71_exact is up to two corners (plain_module)
C72 | partial | composition of C24, C54-C56, C58, C63, C64 and C69-C71 and partial where they are: valid documents and round trips need conditions on the schema that are checked by a program (C55 and C24 are false without)
C73 | partial | about the library functions as modelled in Numbers.v; float: all texts without white space around are read as the nearest value, all values but the infinities are written as texts of the type, the shortest and of these the nearest; decimal: numbers that fit into 96 bits and 28 digits after the point; seven refutations for the rest (infinity is written as inf, words and underscores are accepted, digits are rounded away, large numbers, white space, bounds of a restriction of float)
C74 | proved | rules written from the Rust reference and the error index; visibility not represented; the converse needs names apart from those of the language and prelude, and declarations with what their templates need (decl_fits)
C75 | partial | about roxmltree and xml-rs as modelled in XmlRead.v and XmlWrite.v; names of namespaces without characters that need escapes and not the reserved ones, a prefix stands for one namespace throughout (proved of generated code); round trips under the conditions of C24; refutations for control characters, carriage returns, tabs, prefixes declared anew and quotes in names of namespaces
C76 | proved | in terms of the types of the schema as parsed (C34, C36 and C37 relate them to the schema document); case conversions are Inflector's, as parameters
C77 | proved | of the reader as modelled in XmlRead.v, in the place of roxmltree; the grammar is written from the productions of XML 1.0 (5th edition) and Namespaces 1.0; comments and instructions keep their line ends; no document type declarations, limits and kinds of errors
C78 | proved | of the reader as modelled in XmlRead.v (C77); the position that roxmltree reports for texts that are not XML is an argument
C79 | proved | of the reader as modelled in XmlRead.v (C77); for files that are not XML position and text of the message are roxmltree's; rows count line feeds, so messages differ for files with carriage returns alone (C79_macintosh)
C80 | proved | paths of Unix, as modelled in Path.v from std; a tree of directories is a step function on places, so ".." and links are what the tree says; that a slash or dot in the middle of a path needs a directory is left to the steps behind it
C81 | proved | the conditions are needed: a further alternative of an unnamed choice can rename a member (C81_choice_names_refuted), documents that contain added names are read differently (C81_known_names_refuted). For schemas that one element of lookahead can read, documents valid by the old schema and documents written for values of the old module are read whatever the names of added elements (C81_valid_partial, C81_exchange_partial)
C82 | proved | which library methods take &mut is part of the specification; lifetimes and the overlap of borrows are not represented
C83 | proved | counts open calls of generated functions (the frames inside one such call are constant); that no constant depth is enough is C83_constant_refuted. How many bytes a frame has and how deep roxmltree recurses are not represented
C84 | proved | steps as counted by CostSpec.v; what is done inside one question to the cursor (child looks through the children skipped so far) and inside one reading of a text or attribute is not counted. False without the conditions (C84_spin_refuted)
C85 | proved | a file counts as often as it is opened; that counting each file once is enough is not proved
C86 | proved | tokens as in Emit.v and Impl.v, a literal counts as one whatever its length. That the length is linear in the number of elements is false (C86_linear_refuted)
C87 | proved | counts events without that of the XML declaration, and not the attributes and namespaces inside a start tag nor the characters of a text
