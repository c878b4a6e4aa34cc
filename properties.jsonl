{"id": "C01", "title": "Child cursor behaves like a plain list", "statement": "For any document element, any interleaving of peek_child, next_child and child calls on its decode::Node returns exactly what the same calls would return on the plain list of the element's not-yet-taken element children in document order (peek: does the head match; next: take the head if it matches; child: take the first match anywhere). No child is lost, duplicated or reordered.", "quantifier": "every element, every finite history of cursor calls with arbitrary names/namespaces", "why_tests_cant": "the buffer state (next/peeked/rest) depends on the whole call history; tests exercise a handful of histories", "anchors": ["xsd/src/decode.rs: Node::peek_child, Node::next_child, Node::child, Children"]}
{"id": "C02", "title": "Peeking is unobservable", "statement": "Inserting any number of peek_child calls anywhere in a history of cursor calls changes none of the results of the other calls.", "quantifier": "every history and every insertion of peeks", "why_tests_cant": "quantifies over all histories", "anchors": ["xsd/src/decode.rs: Node::peek_child"]}
{"id": "C03", "title": "child() skips without losing", "statement": "child(name, ns) takes the first remaining element with that expanded name wherever it stands and leaves all other remaining elements in their order; it returns nothing and changes nothing observable if there is none.", "quantifier": "every cursor state reachable by cursor calls", "why_tests_cant": "needs all interleavings of skipped and buffered children", "anchors": ["xsd/src/decode.rs: Node::child, Node::try_child"]}
{"id": "C04", "title": "Text content is read whole", "statement": "Node::text() returns the complete character data of an element that has no element children; an element without any child reads as the empty string. (Expected to fail when comments split the text.)", "quantifier": "every element content", "why_tests_cant": "content may be split by comments or processing instructions in arbitrarily many ways", "anchors": ["xsd/src/decode.rs: Node::text"]}
{"id": "C05", "title": "Root element is checked", "statement": "T::from_xml(doc) looks at the content of the document only if the root element has T's local name and namespace; otherwise it returns MissingElement carrying that name and namespace.", "quantifier": "every schema, type and document", "why_tests_cant": "all documents with a different root", "anchors": ["xsd/src/decode.rs: Document::child, Document::try_child", "xsd-internal/src/xsd/schema.rs: Schema::generate_element"]}
{"id": "C06", "title": "Element context emits its attributes once", "statement": "Attributes and namespace declarations put on an xsd::Context, or on any chain of wrapped contexts derived from it, before write_start_element are written on exactly that start tag, in call order, exactly once; wrapped contexts themselves never write a tag.", "quantifier": "every sequence of set_attr/set_ns/set_default_ns/wrap/write_start_element calls", "why_tests_cant": "quantifies over call histories and wrapping depth", "anchors": ["xsd/src/lib.rs: Context::wrap, set_attr, set_ns, write_start_element, write_end_element"]}
{"id": "C07", "title": "Late attributes", "statement": "Everything set on an element's context (directly or through a wrapped context) reaches the document even if it is set by the code that writes the element's content. (Expected to fail: set_attr after write_start_element is dropped.)", "quantifier": "every call sequence", "why_tests_cant": "call histories", "anchors": ["xsd/src/lib.rs: Context::write_start_element", "xsd-internal/src/ast/element_definition.rs: ElementDefinition::to_xml_impl"]}
{"id": "C08", "title": "Decoded values have their declared type", "statement": "Whenever generated from_xml returns Ok(v), v is an inhabitant of the generated Rust type (field names, Option/Vec nesting, enum variants, integer ranges), and the generated decoder never gets stuck on a missing type or conversion if the generated module type-checks.", "quantifier": "every schema context accepted by the generator, every document", "why_tests_cant": "all schemas times all documents", "anchors": ["xsd-internal/src/ast/leaf.rs: Leaf::to_impl, Leaf::from_xml_impl", "xsd-internal/src/ast/root.rs: Root::to_declaration, Root::from_xml_impl", "xsd-internal/src/ast/attribute.rs"]}
{"id": "C09", "title": "Decoding terminates", "statement": "Generated from_xml returns (Ok or Err) on every document; in particular the `while lookahead` loops of repeated groups cannot spin.", "quantifier": "every well-formed schema, every document", "why_tests_cant": "termination is not testable", "anchors": ["xsd-internal/src/ast/leaf.rs: Leaf::from_xml_impl", "xsd-internal/src/ast/root.rs: Root::lookahead_impl"]}
{"id": "C10", "title": "Decoded value accounts for the consumed children", "statement": "If from_xml succeeds on an ordered type, the children consumed are, in order, exactly the elements the value describes: their expanded names are the names of the elements that re-encoding the value would write; nothing is invented, nothing consumed is dropped.", "quantifier": "every schema, document, value", "why_tests_cant": "all documents", "anchors": ["xsd-internal/src/ast/leaf.rs: Leaf::from_xml_impl", "xsd-internal/src/ast/root.rs: Root::from_xml_impl"]}
{"id": "C11", "title": "Required elements are required", "statement": "If a required single element of a sequence is not the next child, decoding fails with MissingElement naming that element; it is never defaulted.", "quantifier": "every schema, document", "why_tests_cant": "all documents lacking the element at any position", "anchors": ["xsd-internal/src/ast/leaf.rs: Leaf::from_xml_impl", "xsd/src/decode.rs: try_next_child"]}
{"id": "C12", "title": "xs:all is order-insensitive", "statement": "For an xs:all group whose elements have distinct names, every permutation of the children decodes to the same value. (Expected to fail for optional members.)", "quantifier": "every member list, every permutation of the children", "why_tests_cant": "factorially many permutations", "anchors": ["xsd-internal/src/ast/leaf.rs: Leaf::from_xml_impl (is_unordered)", "xsd-internal/src/xsd/parse/complex_type.rs: parse"]}
{"id": "C13", "title": "Optional and repeated elements", "statement": "An optional element decodes to None exactly when the next child is not that element; a repeated element decodes to the maximal run of next children with that name, in order; an optional repeated element is None exactly when that run is empty.", "quantifier": "every remaining child list", "why_tests_cant": "all run lengths", "anchors": ["xsd-internal/src/ast/leaf.rs: Leaf::from_xml_impl"]}
{"id": "C14", "title": "Occurrence bounds", "statement": "A document violating minOccurs/maxOccurs of a repeated element is rejected. (Expected to fail: only 0/1/many is kept.)", "quantifier": "every bound, every document", "why_tests_cant": "all bounds and counts", "anchors": ["xsd-internal/src/ast/leaf.rs: Leaf::is_vec, Leaf::is_optional, Leaf::from_xml_impl"]}
{"id": "C15", "title": "Choice selects by the next child", "statement": "A choice of elements with pairwise different expanded names decodes to the variant named by the next child and fails with MissingVariant when the next child is none of them, whatever the declaration order of the variants.", "quantifier": "every variant list, every permutation of it, every child list", "why_tests_cant": "all variant orders and documents", "anchors": ["xsd-internal/src/ast/root.rs: Root::from_xml_impl (Choice)"]}
{"id": "C16", "title": "Lookahead implies progress", "statement": "If the generated lookahead of a group says the group starts at the next child, decoding the group consumes at least one child or fails; if it says no, an optional group is None and nothing is consumed.", "quantifier": "every group nesting, every remaining child list", "why_tests_cant": "all nestings of optional groups", "anchors": ["xsd-internal/src/ast/root.rs: Root::lookahead_impl", "xsd-internal/src/ast/leaf.rs: Leaf::from_xml_impl"]}
{"id": "C17", "title": "Fixed values", "statement": "An element or attribute declared fixed is accepted only if the document carries exactly the fixed value. (Expected to hold for elements, to fail for attributes.)", "quantifier": "every fixed value, every document value", "why_tests_cant": "all received strings", "anchors": ["xsd-internal/src/ast/leaf_content.rs: LeafContent::from_xml_impl, from_str_impl"]}
{"id": "C18", "title": "Attributes", "statement": "A required attribute that is absent yields MissingAttribute; an optional one decodes to None exactly when it is absent; attributes in a foreign namespace or not declared never influence the result.", "quantifier": "every attribute list of the document", "why_tests_cant": "all attribute sets", "anchors": ["xsd-internal/src/ast/attribute.rs: Attribute::from_xml_impl", "xsd/src/decode.rs: Node::attribute"]}
{"id": "C19", "title": "Enumeration literals", "statement": "For a generated enum with pairwise different literals: from_str(v.as_str()) = v for every variant, from_str accepts exactly the literals, and this does not depend on the order in which the generator's hash map lists the variants.", "quantifier": "every enumeration, every string, every iteration order", "why_tests_cant": "hash order and arbitrary literals", "anchors": ["xsd-internal/src/ast/root.rs: Root::to_declaration (Enum), escape_enum_names"]}
{"id": "C20", "title": "Unknown trailing content is ignored uniformly", "statement": "Adding undeclared attributes to an element, or appending children after the ones the decoder consumes whose names the type never looks at, does not change the decoded value.", "quantifier": "every document and extension", "why_tests_cant": "all extensions", "anchors": ["xsd/src/decode.rs: Node", "xsd-internal/src/ast/root.rs: Root::from_xml_impl"]}
{"id": "C21", "title": "Insignificant nodes are insignificant", "statement": "Inserting or removing whitespace text, comments or processing instructions between the element children of elements with element-only content does not change the result of decoding.", "quantifier": "every document, every insertion", "why_tests_cant": "all placements", "anchors": ["xsd/src/decode.rs: Node::new"]}
{"id": "C22", "title": "Encoder output is one balanced element", "statement": "to_xml of a value emits one start tag carrying the type's XML name, a balanced body and its end tag: the output has exactly one root element. (Expected to fail for elements whose type is a named simple type.)", "quantifier": "every schema, type, value", "why_tests_cant": "all schemas and values", "anchors": ["xsd-internal/src/ast/root.rs: Root::to_xml_impl", "xsd-internal/src/ast/element_definition.rs: to_xml_impl", "xsd-internal/src/ast/leaf.rs: Leaf::to_xml_impl"]}
{"id": "C23", "title": "Every modelled element gets its tag", "statement": "Each element occurrence in a value (also as a choice variant, a ref to a fixed element, or simpleContent over a named simple type) is written with its own tag. (Expected to fail for several shapes.)", "quantifier": "every schema and value", "why_tests_cant": "combinations of content kinds", "anchors": ["xsd-internal/src/ast/root.rs: Root::to_xml_impl (Choice)", "xsd-internal/src/ast/leaf.rs: Leaf::to_xml_impl (wrap)", "xsd-internal/src/ast/element_definition.rs: to_xml_impl (is_named_leaf)"]}
{"id": "C24", "title": "Encode then decode is the identity", "statement": "For every schema meeting a decidable unambiguity condition and every canonical value v of one of its types, to_xml(v) succeeds and from_xml of the resulting document returns v, whatever whitespace the pretty-printer inserts between elements.", "quantifier": "every schema, type, value, indentation", "why_tests_cant": "unbounded values and schemas", "anchors": ["xsd-internal/src/xsd/schema.rs: generate_element", "xsd-internal/src/ast/leaf.rs", "xsd-internal/src/ast/root.rs", "xsd-internal/src/ast/element_content.rs", "xsd-internal/src/ast/attribute.rs"]}
{"id": "C25", "title": "Decode, encode, decode is stable", "statement": "If from_xml accepts a document with value v then v is canonical, to_xml(v) succeeds and decodes to v again.", "quantifier": "every schema, document", "why_tests_cant": "all documents", "anchors": ["xsd-internal/src/ast/leaf.rs", "xsd-internal/src/ast/root.rs"]}
{"id": "C26", "title": "Written elements live in their schema namespace", "statement": "Every element to_xml writes resolves, with the prefixes declared in the output, to the namespace the decoder expects for it. (Expected to fail for choice variants and for unqualified imports.)", "quantifier": "every schema, value", "why_tests_cant": "all namespace configurations", "anchors": ["xsd-internal/src/xsd/context.rs: get_xml_element_name, quote_xml_namespace", "xsd-internal/src/xsd/schema.rs: generate_element", "xsd-internal/src/ast/root.rs: Root::to_xml_impl (Choice)"]}
{"id": "C27", "title": "Inherited attributes survive extension", "statement": "A value of a complexContent extension writes the attributes of its base type. (Expected to fail when the extension adds a sequence.)", "quantifier": "every base type, value", "why_tests_cant": "all values", "anchors": ["xsd-internal/src/xsd/parse/complex_content.rs: parse", "xsd-internal/src/ast/element_definition.rs: to_xml_impl"]}
{"id": "C28", "title": "Schema parsing terminates", "statement": "Schema::parse returns (Ok or Err) for every XML document without include/import.", "quantifier": "every XML document", "why_tests_cant": "termination", "anchors": ["xsd-internal/src/xsd/schema.rs: parse_schema_with_context", "xsd-internal/src/xsd/parse/element.rs", "xsd-internal/src/xsd/parse/complex_type.rs"]}
{"id": "C29", "title": "Include cycles", "statement": "Schema::parse_file returns for every set of schema files. (Expected to fail: a file that includes itself.)", "quantifier": "every file system", "why_tests_cant": "termination", "anchors": ["xsd-internal/src/xsd/schema.rs: parse_schema_with_context (include/import)"]}
{"id": "C30", "title": "Accepted schemas never hit the generator's unreachable arms", "statement": "For every schema Schema::parse accepts, generate_all never reaches unreachable!() and never panics looking up a namespace id.", "quantifier": "every accepted schema document", "why_tests_cant": "all schemas", "anchors": ["xsd-internal/src/ast/leaf.rs: Leaf::from_xml_impl unreachable!()", "xsd-internal/src/ast/root.rs: unreachable!()", "xsd-internal/src/ast/namespaces.rs: Namespaces::get_by_id"]}
{"id": "C31", "title": "Unsupported constructs are rejected", "statement": "A schema whose element/attribute/complexType/sequence/choice carries an un-namespaced attribute the generator does not know, or an XSD child it does not know, is rejected rather than silently ignored.", "quantifier": "every schema document", "why_tests_cant": "all positions of unknown constructs", "anchors": ["xsd-internal/src/xsd/node.rs: prevent_unvisited_attributes, prevent_unvisited_children"]}
{"id": "C32", "title": "Foreign markup in a schema is ignored", "statement": "Elements and attributes of other namespaces inside a schema do not change the outcome of parsing. (Expected to fail for attributes whose local name equals an XSD attribute.)", "quantifier": "every schema, every foreign insertion", "why_tests_cant": "all insertions", "anchors": ["xsd-internal/src/xsd/node.rs: From<roxmltree::Node>, ChildrenFilterBuilder::iter"]}
{"id": "C33", "title": "Namespace interning", "statement": "Over any history of namespace registrations: the same URI always gets the same id, different URIs different ids and different prefixes, ids once given stay valid and keep their URI, and looking up an issued id never panics.", "quantifier": "every history of get_or_insert calls", "why_tests_cant": "all histories", "anchors": ["xsd-internal/src/ast/namespaces.rs: Namespaces"]}
{"id": "C34", "title": "Type name resolution", "statement": "type/ref/base attributes resolve by the prefix declarations of the schema element: a prefix bound to the XSD namespace gives a built-in type or UnsupportedType, any other bound prefix gives that namespace's name, an unbound prefix is MissingNamespace.", "quantifier": "every prefix table and attribute value", "why_tests_cant": "all tables and strings", "anchors": ["xsd-internal/src/xsd/context.rs: Context::get_type_name, literal_from_str"]}
{"id": "C35", "title": "Occurrence attributes", "statement": "minOccurs/maxOccurs accept exactly the decimal u32 strings (and `unbounded` for maxOccurs), default to 1, and anything else is a ParseInt error.", "quantifier": "every attribute value string", "why_tests_cant": "all strings", "anchors": ["xsd-internal/src/xsd/parse/element.rs: parse_min_occurs, parse_max_occurs"]}
{"id": "C36", "title": "Sequences keep their particles", "statement": "Parsing a sequence or choice yields exactly one leaf per non-annotation XSD child, in document order; element children keep their name and occurrence bounds.", "quantifier": "every sequence/choice node", "why_tests_cant": "all lengths and nestings", "anchors": ["xsd-internal/src/xsd/parse/sequence.rs: parse", "xsd-internal/src/xsd/parse/choice.rs: parse", "xsd-internal/src/xsd/parse/element.rs: parse_child"]}
{"id": "C37", "title": "Every declaration is represented", "statement": "After Schema::parse each top-level element/complexType/simpleType of the schema is represented by a type generated from that declaration. (Expected to fail: one symbol space, and derived names overwrite.)", "quantifier": "every schema", "why_tests_cant": "all name combinations", "anchors": ["xsd-internal/src/xsd/schema.rs: parse_schema_with_context", "xsd-internal/src/xsd/context.rs: Context::add_root", "xsd-internal/src/xsd/parse/mod.rs: derive_virtual_name"]}
{"id": "C38", "title": "Errors point into the document", "statement": "Every error of Schema::parse on a parsed XML document carries a source range, and that range is the range of a node or attribute of the document.", "quantifier": "every rejected schema document", "why_tests_cant": "all error paths", "anchors": ["xsd-internal/src/xsd/error.rs: XsdError::range", "xsd-internal/src/xsd/node.rs: NodeError::range", "xsd-internal/src/xsd/schema.rs: parse_with_context"]}
{"id": "C39", "title": "Derived names do not panic", "statement": "Deriving a name for an anonymous type never panics. (Holds when names start with an ASCII character, expected to fail otherwise.)", "quantifier": "every list of names", "why_tests_cant": "all Unicode names", "anchors": ["xsd-internal/src/xsd/parse/mod.rs: derive_virtual_name"]}
{"id": "C40", "title": "Shared prefix/suffix of names", "statement": "The prefix (suffix) used to name an anonymous group is a common prefix (suffix) of the snake-case forms of all member names, contains no underscore, and is maximal with that property for two names.", "quantifier": "every list of names", "why_tests_cant": "all lists", "anchors": ["xsd-internal/src/xsd/parse/mod.rs: derive_mutal_prefix, derive_mutal_suffix, mutal_prefix, mutal_suffix"]}
{"id": "C41", "title": "Documentation clean-up", "statement": "cleanup_docs keeps the words of the text in order, separates them by single spaces, leaves no leading or trailing whitespace, and is idempotent.", "quantifier": "every text", "why_tests_cant": "all strings", "anchors": ["xsd-internal/src/xsd/parse/annotation.rs: cleanup_docs"]}
{"id": "C42", "title": "Dependency closure", "statement": "generate_element_and_dependencies generates exactly the not-yet-generated names reachable from the requested one through recorded dependencies, each once, and terminates also on cyclic dependencies.", "quantifier": "every dependency graph", "why_tests_cant": "all graphs", "anchors": ["xsd-internal/src/xsd/schema.rs: generate_element_and_dependencies"]}
{"id": "C43", "title": "Identifier escaping", "statement": "escape_ident never produces a bare Rust keyword and never panics for an identifier-shaped name. (Expected to fail for `break`, `as`, `self`, `super`, `crate`.)", "quantifier": "every name", "why_tests_cant": "all names", "anchors": ["xsd-internal/src/utils.rs: escape_ident"]}
{"id": "C44", "title": "Enum variant names", "statement": "escape_enum_names terminates, gives every literal exactly one variant, all variants different and non-empty.", "quantifier": "every literal list", "why_tests_cant": "all collisions", "anchors": ["xsd-internal/src/ast/root.rs: escape_enum_names"]}
{"id": "C45", "title": "Type aliases", "statement": "Code generation terminates for every parsed schema. (Expected to fail: an element whose type has the element's own name; holds when aliases are acyclic.)", "quantifier": "every alias graph", "why_tests_cant": "termination", "anchors": ["xsd-internal/src/xsd/context.rs: SchemaContext::resolve", "xsd-internal/src/ast/leaf_content.rs: LeafContent::to_impl"]}
{"id": "C46", "title": "Imports", "statement": "Merging an included schema keeps all its types unless redefined later, keeps namespace ids consistent between the files, and does not depend on hash iteration order.", "quantifier": "every file set and iteration order", "why_tests_cant": "hash order, all files", "anchors": ["xsd-internal/src/xsd/schema.rs: parse_schema_with_context, into_shared", "xsd-internal/src/xsd/context.rs: take_shared, set_shared"]}
{"id": "C47", "title": "Literal values", "statement": "For the integer, boolean and string types: decoding the encoded text gives the value back; texts outside the Rust type's range are ParseType errors, never wrapped or truncated.", "quantifier": "every value, every text", "why_tests_cant": "all 64-bit values and strings", "anchors": ["xsd-internal/src/ast/literal_type.rs: to_xml_impl, from_str_impl"]}
{"id": "C48", "title": "Built-in type table", "statement": "Every built-in name the schema parser accepts maps to the type whose Rust representation is used for both decoding and encoding, and xsd_name of an accepted type is again accepted as the same type.", "quantifier": "every string", "why_tests_cant": "all strings", "anchors": ["xsd-internal/src/xsd/context.rs: literal_from_str", "xsd-internal/src/ast/literal_type.rs: xsd_name, to_impl"]}
{"id": "C49", "title": "Generated decoder implements the schema-level reading rules", "statement": "For a generated module with unique type names, from_xml of a type ends with a given value or error exactly when the reading rules stated on the schema (sequences member by member, optional, repeated, xs:all, choices, groups with lookahead, attributes, no cursor, no generated code) give that value or error; the rules give at most one result.", "quantifier": "every schema context, every generated type, every document", "why_tests_cant": "equivalence over all schemas and documents", "anchors": ["xsd-internal/src/xsd/schema.rs: Schema::generate_element", "xsd-internal/src/ast/leaf.rs: Leaf::from_xml_impl", "xsd-internal/src/ast/root.rs: Root::from_xml_impl, Root::lookahead_impl"]}
{"id": "C50", "title": "Lookahead recognises every start of a group", "statement": "If decoding a group from the remaining children would succeed and consume at least one child, the generated lookahead of that group is true there. (Expected to fail: the scan stops at the first required member even if that member is a group that may be empty.)", "quantifier": "every group nesting, every remaining child list", "why_tests_cant": "all nestings of groups and all child lists", "anchors": ["xsd-internal/src/ast/root.rs: Root::lookahead_impl"]}
{"id": "C51", "title": "References resolve by the namespaces in scope", "statement": "A type/ref/base attribute resolves by the namespace declarations in scope at its element: an unprefixed name lies in the default namespace, a prefix means its innermost declaration. (Expected to fail: default namespaces other than XSD and declarations below the schema element are ignored.)", "quantifier": "every schema document, every reference", "why_tests_cant": "all placements of namespace declarations", "anchors": ["xsd-internal/src/xsd/context.rs: Context::new, Context::get_type_name"]}
{"id": "C52", "title": "Chameleon includes", "statement": "The types of an included schema without targetNamespace become types of the including schema's target namespace. (Expected to fail: they stay in no namespace.)", "quantifier": "every pair of schema documents", "why_tests_cant": "all schemas and references", "anchors": ["xsd-internal/src/xsd/schema.rs: Schema::parse_with"]}
{"id": "C53", "title": "Accepted modules do not go wrong", "statement": "In a generated module that the Rust compiler accepts, from_xml of every type never panics and returns only values of that type, and to_xml of every value of the type succeeds.", "quantifier": "every module, type, document and value", "why_tests_cant": "all modules, documents and values", "anchors": ["xsd-internal/src/ast/leaf.rs", "xsd-internal/src/ast/root.rs", "xsd-internal/src/ast/element_definition.rs"]}
{"id": "C54", "title": "Generated modules are accepted", "statement": "The Rust compiler accepts the module generated for every schema that is accepted. (Expected to fail: names, recursion, attribute types, repeated groups in choices.)", "quantifier": "every schema", "why_tests_cant": "all schemas; the compiler only sees the generated ones", "anchors": ["xsd-internal/src/xsd/schema.rs: generate_all", "xsd-internal/src/utils.rs: escape_ident", "xsd-internal/src/ast/root.rs: to_declaration"]}
{"id": "C55", "title": "Valid documents are decoded", "statement": "A document that is valid by the schema (content models with their occurrence bounds, lexical forms of the simple types, attributes) is decoded, and the value accounts for exactly the children of the document.", "quantifier": "every schema, every valid document", "why_tests_cant": "all schemas and all documents", "anchors": ["xsd-internal/src/ast/root.rs: Root::from_xml_impl", "xsd-internal/src/ast/leaf.rs: Leaf::from_xml_impl", "xsd-internal/src/ast/element_definition.rs: from_xml_impl"]}
{"id": "C56", "title": "Decoded documents are valid", "statement": "A document that is decoded is valid by the schema. (Expected to fail: the decoder does not check everything; then: what it does check.)", "quantifier": "every schema, every document that is decoded", "why_tests_cant": "all schemas and all documents", "anchors": ["xsd-internal/src/ast/root.rs: Root::from_xml_impl", "xsd-internal/src/ast/leaf.rs: Leaf::from_xml_impl", "xsd-internal/src/ast/attribute.rs: Attribute::from_xml_impl"]}
{"id": "C57", "title": "Builds agree whatever the hash order", "statement": "The generator keeps types, enumeration variants and namespaces in hash maps whose iteration order varies between builds. The decoders and encoders of two builds of the same schema agree on every input. (Fails when an enumeration lists a value twice.)", "quantifier": "every set of schema files, every order of every hash map, every document and value", "why_tests_cant": "a test run sees one order", "anchors": ["xsd-internal/src/xsd/schema.rs: generate_all, generate_element", "xsd-internal/src/ast/root.rs: escape_enum_names, to_declaration", "xsd-internal/src/xsd/context.rs: SchemaContext"]}
{"id": "C58", "title": "The attribute macro keeps the user's module", "statement": "xsd::all on a module emits the module with its attributes, visibility, name and items, followed by the types of the schema; every failure is a compile error; the result compiles if the types do. (Expected exceptions: inner attributes, modules in files, types with the same name.)", "quantifier": "every module, argument list, file system and schema", "why_tests_cant": "one test has module content", "anchors": ["xsd-derive/src/lib.rs: all, generate", "xsd-derive/src/generator.rs: generate"]}
{"id": "C59", "title": "Error positions", "statement": "The row and column of a schema error are those of the offending element or attribute in the named file, never 0:0, and determine the place in the text.", "quantifier": "every set of schema files", "why_tests_cant": "all schemas and texts", "anchors": ["xsd-internal/src/xsd/schema.rs: parse_with_context", "xsd-internal/src/xsd/error.rs: XsdError::range"]}
{"id": "C60", "title": "Built-in types mean what XML Schema says", "statement": "A text is accepted for a built-in type (string, boolean, integer, long, int, nonNegativeInteger, positiveInteger) exactly if XML Schema Part 2 gives it a value of that type, and it is read as that value; what is written for a value is a text of it. (Expected to fail: white space, booleans 1 and 0, large integers, zero.)", "quantifier": "every text, every value", "why_tests_cant": "all texts", "anchors": ["xsd-internal/src/ast/literal_type.rs: LiteralType::to_impl, from_str_impl, to_xml_impl"]}
{"id": "C61", "title": "Emitted declarations", "statement": "The tokens emitted for a type read, by the grammar of Rust, as one public struct or enum that derives Debug, Clone and PartialEq, has the name of the type, and has exactly the fields or variants, with the types, that the decoder and encoder use; doc comments are the non-empty documentation texts.", "quantifier": "every schema whose module satisfies the rules of Rust for declarations", "why_tests_cant": "all schemas", "anchors": ["xsd-internal/src/ast/root.rs: Root::to_declaration", "xsd-internal/src/xsd/schema.rs: generate_element"]}
{"id": "C62", "title": "Documentation becomes doc comments", "statement": "The documentation of a declaration, of an element or of an attribute is the doc comment of the type, field or variant generated from it, and there are no other doc comments. (Expected to fail for enumerations, alternatives of a choice, references, second documentation elements.)", "quantifier": "every schema", "why_tests_cant": "all schemas", "anchors": ["xsd-internal/src/xsd/parse/annotation.rs: parse", "xsd-internal/src/ast/root.rs: Root::docs", "xsd-internal/src/ast/leaf.rs: Leaf::to_impl"]}
{"id": "C63", "title": "Emitted readers run as Rust", "statement": "Running the emitted body of from_xml (with from_xml_node and lookahead) by the rules of Rust on a document returns the value or the error that the schema-level reading rules give, and nothing else; every document gets an answer of the declared type or an error.", "quantifier": "every schema whose module is accepted by rustc, every document", "why_tests_cant": "all schemas and documents", "anchors": ["xsd-internal/src/ast/root.rs: Root::from_xml_impl, lookahead_impl", "xsd-internal/src/ast/leaf.rs: Leaf::from_xml_impl", "xsd-internal/src/xsd/schema.rs: generate_element"]}
{"id": "C64", "title": "Emitted writers run as Rust", "statement": "Running the emitted body of to_xml by the rules of Rust on a value of the type returns Ok and gives the XML writer the start of a document followed by the events of the model of writing; running from_xml on the document so written returns the value.", "quantifier": "every schema whose module is accepted by rustc, every value of the type (round trip: the values and schemas of C24)", "why_tests_cant": "all schemas and values", "anchors": ["xsd-internal/src/ast/root.rs: Root::to_xml_impl", "xsd-internal/src/ast/leaf.rs: Leaf::to_xml_impl", "xsd-internal/src/ast/attribute.rs: to_xml_impl", "xsd-internal/src/xsd/schema.rs: generate_element"]}
{"id": "C65", "title": "FromStr and Display of generated types", "statement": "For an enumeration, from_str accepts exactly the literals of the schema and to_string is its inverse; for a type made from a built-in type, from_str accepts exactly the texts of the Rust type, reports other texts under the name of the generated type, and to_string is its inverse.", "quantifier": "every enumeration without repeated literals, every type made from a string, boolean or integer type, every text", "why_tests_cant": "all schemas and texts", "anchors": ["xsd-internal/src/ast/root.rs: Root::to_declaration"]}
{"id": "C66", "title": "Order of declarations", "statement": "A schema document without includes whose prefixes stand for its own namespace is accepted exactly if each of its top-level declarations is accepted as the only one. A type name stands for what the last declaration that makes a type of that name makes of it on its own, and the recorded dependencies are those of the single declarations. If no two declarations make types of the same name, reordering the declarations gives the same types, namespaces and dependencies, and a module with the same items that reads and writes the same.", "quantifier": "every such schema document, every reordering of its declarations, every XML document and value", "why_tests_cant": "all documents and all orders", "anchors": ["xsd-internal/src/xsd/schema.rs: parse_schema_with_context", "xsd-internal/src/xsd/context.rs: Context"]}
{"id": "C67", "title": "Errors tell the truth", "statement": "If a schema document is rejected, the error is a true statement about it, or about a file it includes: the element or attribute the error points at is there, with the name and value the error gives; what is said to be missing is required and absent, what is said to be unknown is not one of the names understood in that place, a prefix said to be unbound is not bound by the schema element, a type said to be unsupported is an XSD type without counterpart, a number said to be unreadable is none in range. A file said not to open does not open.", "quantifier": "every schema document, every set of files, every error", "why_tests_cant": "all documents and all errors", "anchors": ["xsd-internal/src/xsd/error.rs: XsdError", "xsd-internal/src/xsd/node.rs: NodeError", "xsd-internal/src/xsd/parse", "xsd-internal/src/xsd/schema.rs: parse_schema_with_context"]}
{"id": "C68", "title": "Texts of error messages", "statement": "Every error of reading schema files has a message. A message \"Error on line R (offset C in F): T\" is right: F is a file, an element or attribute of its document starts in line R before character C, and T is a true statement about the document. The text of an error determines the error but for the source range, as long as names contain no spaces and backticks and file names no parentheses and colons; so does the text of a decoding error. The message of the attribute macro says what is wrong with its use: the first argument that is not `schema`, a missing argument, or the message of the schema error; generation itself reports an error only for a name the schema does not have.", "quantifier": "every disk, every error", "why_tests_cant": "all errors and all names and values in them", "anchors": ["xsd-internal/src/xsd/error.rs: XsdError", "xsd-internal/src/xsd/node.rs: NodeError", "xsd-internal/src/xsd/schema.rs: SchemaError", "xsd/src/decode.rs: FromXmlError", "xsd-derive/src/lib.rs: all, generate"]}
{"id": "C69", "title": "Decoding errors tell the truth", "statement": "If decoding a document ends with an error, the error is a true statement about the document: the root element has another name; or a required member of a type that an element of the document is read as is not the next child left over by the members before it (of an xs:all: not among the children left); or no alternative of a choice starts with the next child; or an element lacks a required attribute; or an element whose text is read starts with something else; or a text or attribute value that is there is not of the declared type, not one of the enumerated values, or not the fixed value. In types that are an xs:all of elements of different names, an element said to be missing is not there at all; in a sequence it may be there, out of order.", "quantifier": "every generated module, every document, every error", "why_tests_cant": "all schemas, documents and errors", "anchors": ["xsd/src/decode.rs: FromXmlError", "xsd/src/decode.rs: Node, Children", "xsd-internal/src/ast/leaf.rs: to_impl"]}
{"id": "C70", "title": "The generated text", "statement": "The tokens of a generated module that rustc accepts read, by the grammar of Rust, as a sequence of items: for each type its declaration and implementations which contain exactly the functions whose meaning is proved (C63-C65), with the signatures expected: every expression, statement, pattern and path is the one of the model, up to the types that rustc infers.", "quantifier": "every schema context, every generated module whose functions type-check and whose types are not named like a primitive type, std, node or s", "why_tests_cant": "all combinations of templates, names and literals; a misplaced semicolon, brace or interpolation shows up only for the schemas that use it", "anchors": ["xsd-internal/src/xsd/schema.rs: generate_element", "xsd-internal/src/ast/root.rs: to_declaration, to_xml_impl, from_xml_impl, lookahead_impl", "xsd-internal/src/ast/leaf.rs: to_xml_impl, from_xml_impl", "xsd-internal/src/ast/leaf_content.rs", "xsd-internal/src/ast/attribute.rs"]}
{"id": "C71", "title": "The generated functions are well typed", "statement": "The functions read from the text of an accepted module have types by the typing rules of Rust (names resolved in the module, the crates and the prelude; method calls, coercions, conversions of ?, patterns and exhaustiveness, moved variables), in one way only: the types that inference finds are those of the model, so that running the text gives the results that are proved about it. A generated module with well-formed declarations whose functions have types is one that the model accepts.", "quantifier": "every schema context, every generated module; for the second part, modules without attributes of tuple struct types", "why_tests_cant": "the type of a FromStr call or of a receiver depends on the declared types all over the module; a wrong or ambiguous inference shows up only for the schemas that combine them", "anchors": ["xsd-internal/src/xsd/schema.rs: generate_element", "xsd-internal/src/ast/root.rs: to_declaration, to_xml_impl, from_xml_impl, lookahead_impl", "xsd-internal/src/ast/leaf_content.rs: from_str_impl", "xsd/src/decode.rs", "xsd/src/lib.rs"]}
{"id": "C72", "title": "From the macro to the results of the running code", "statement": "A use of the macro whose output Rust accepts determines one schema, one list of types, one text, one reading of that text and one meaning of its functions. Running these functions, from_xml gives every document one answer: a value of the type or an error. A valid document is decoded to the value it stands for, a decoded document is valid as far as the decoder checks, an error is a true statement about the document and the schema, and what to_xml writes is read back as the value, also when it is indented.", "quantifier": "every disk, every argument list and module item, every fuel, every document and every value of the declared types; valid documents and round trips under the conditions of C55 and C24", "why_tests_cant": "a test fixes one schema and a few documents; here the statement goes through all stages at once, so that no stage may use a weaker fact than the one before it proves", "anchors": ["xsd-derive/src/lib.rs: all, generate", "xsd-derive/src/generator.rs: generate", "xsd-internal/src/xsd/schema.rs: parse, generate_element", "xsd-internal/src/ast/root.rs: to_xml_impl, from_xml_impl", "xsd/src/decode.rs", "xsd/src/lib.rs"]}
{"id": "C73", "title": "decimal and float mean what XML Schema says", "statement": "For xs:float and xs:decimal, a text of the type is decoded to the value XML Schema gives it (for float the value of binary32 nearest to the number, of two the even one), every text that is accepted is a text of the type, and what is written for a value is a text of the type that stands for that value, is read back as it, and for float has as few digits as any such text.", "quantifier": "every text and every value of f32 and Decimal, for the library functions as modelled in Numbers.v", "why_tests_cant": "there are 2^32 floats and unboundedly many texts for each; correct rounding and shortest output fail, if at all, on rare inputs", "anchors": ["xsd-internal/src/ast/literal_type.rs:53-54, 67-83", "xsd-internal/src/xsd/parse/simple_type.rs:78-95"]}
{"id": "C74", "title": "The items of the generated text keep Rust's rules", "statement": "The structs, enums and implementations read from the text of an accepted module keep Rust's rules for items: distinct names of types, fields, variants, methods and parameters; every type that is mentioned exists, has its arguments and a finite size; every derive is allowed by the fields; every implementation is for a type of the module, implements a trait once and not beside a derive of it, and has exactly the associated types and functions of the trait with their signatures; lifetimes are declared. Conversely a text that keeps the rules and whose functions have types is that of an accepted module.", "quantifier": "every generated module, every text the macro emits", "why_tests_cant": "tests compile the modules of a few schemas; that every other accepted one compiles is about all combinations of declarations", "anchors": ["xsd-internal/src/ast/root.rs:33-170", "xsd-internal/src/xsd/schema.rs:227-330"]}
{"id": "C75", "title": "Written texts are read as the value", "statement": "The text that the writer produces for the events of a document (declaration, indentation, escaping, namespace declarations left out where already made) is well-formed XML with namespaces and is parsed as that document, up to white space between elements. Hence the text that the generated to_xml returns for a value is parsed and decoded by the generated from_xml as the value.", "quantifier": "every list of events that is a document, every generated module and value under the conditions of C24, every version of the writer in what it escapes", "why_tests_cant": "tests compare texts of a few documents; which characters, names and nestings of declarations survive writing and parsing is about all texts", "anchors": ["xsd-internal/src/xsd/schema.rs:257-302", "xsd/src/lib.rs:47-107", "xsd/src/decode.rs:51-54"]}
{"id": "C76", "title": "Types a user sees", "statement": "The declarations of a generated module are determined by the types of the schema: a type is named by the pascal case of its name, a field by the snake case, a variant of a choice by the pascal case (keywords as raw identifiers); fields come in the order of the content and then the attributes; the type of a member is that of its content, in a Vec if it may occur more than once and in an Option if it may be absent; the variants of an enumeration are the readable names of the literals in order, or Variant and the next free number.", "quantifier": "every schema, every accepted module", "why_tests_cant": "tests see a few schemas; that names and types of all members follow one rule is about all of them", "anchors": ["xsd-internal/src/ast/root.rs:52-164, 420-462", "xsd-internal/src/ast/leaf.rs:50-70", "xsd-internal/src/ast/attribute.rs:18-34", "xsd-internal/src/ast/element_content.rs:16-37", "xsd-internal/src/utils.rs:3-13"]}
{"id": "C77", "title": "Which texts are XML documents, and which tree they are", "statement": "A text is read by the XML reader exactly if it is a document of XML 1.0 with Namespaces (UTF-8 with or without a byte order mark, no document type declaration), and the tree is the one that the grammar gives: names, namespaces in scope, values of attributes with references replaced and white space normalised, text with line ends normalised and CDATA joined, positions of elements and attributes. A text has one such tree at most. The texts that the generated to_xml writes are such documents.", "quantifier": "every text", "why_tests_cant": "tests feed a few documents; which texts are accepted and what every piece of them means is about all texts", "anchors": ["xsd/src/decode.rs:51-54", "xsd-internal/src/xsd/schema.rs:51-66", "xsd-internal/src/xsd/schema.rs:257-302"]}
{"id": "C78", "title": "Documents and schema files as texts", "statement": "The range of an element of a document is exactly the part of the text that is this element, that of an attribute is its name, equals sign and quoted value; children lie strictly inside their parents. Names have no colon, no two attributes of an element have the same name, prefixes are declared once and not against the rules for reserved ones, all texts consist of XML characters. So for schema files that are UTF-8 texts the position in every schema error is the line and column (in characters) where an element or attribute stands that the message is about, unless the file is not an XML document, without further conditions on ranges.", "quantifier": "every text, every disk of texts, every error", "why_tests_cant": "the tests check no position at all; which bytes a range covers depends on all texts", "anchors": ["xsd-internal/src/xsd/schema.rs:51-84", "xsd-internal/src/xsd/error.rs: XsdError", "xsd/src/decode.rs:51-54"]}
{"id": "C79", "title": "The line ends of a text do not matter", "statement": "Texts that differ in their line ends only (LF, CR LF or CR) are XML documents together and have the same tree, with elements and attributes in corresponding places. So generated from_xml reads the same value from them or reports the same error, and the macro emits the same module for schema files that differ in line ends, or fails with the same error at the corresponding place. The message, row and column included, is the same for files with the line ends of Unix and of Windows, unless a file is not XML.", "quantifier": "every text, every disk of texts, every generated module, every error", "why_tests_cant": "all test files have the line ends of the checkout; that nothing anywhere depends on them is about all texts", "anchors": ["xsd/src/decode.rs:51-54", "xsd-internal/src/xsd/schema.rs:51-84", "xsd-derive/src/lib.rs:10-67"]}
{"id": "C80", "title": "Which files are read, and moving a project", "statement": "The schema given to the macro is looked up from the directory of the manifest, and the location of an include or import from the directory of the file that it is written in, however the paths are spelled (dots, doubled and trailing slashes); absolute locations from the root. Files that are not included, directly or by others, have no influence. So a project that is moved or copied to another directory or machine gives the same module, or the same error, if its locations are relative and do not leave it.", "quantifier": "every tree of directories, working directory, path and location, every disk", "why_tests_cant": "the tests run in one directory with one spelling of each path", "anchors": ["xsd-internal/src/xsd/schema.rs:28-45", "xsd-internal/src/xsd/schema.rs:71", "xsd-internal/src/xsd/schema.rs:114-130", "xsd-derive/src/lib.rs:57-60"]}
{"id": "C81", "title": "Two versions of a schema", "statement": "Let a schema grow: optional elements and attributes, alternatives of choices, values of enumerations and types are added, documentation and restrictions changed, and the names of the old types and members, also those that are made up for unnamed groups, stay. A document that uses none of the added names is decoded by the new module if it is by the old one, to the same value with the added members None; without added enumeration values the errors are the same as well, and nothing else is decoded. A value of the old module and the same value with the added members None are written as the same document, so a document that the old module reads and writes back unchanged, the new one does too.", "quantifier": "every pair of schemas of which one grows out of the other, every document, every value", "why_tests_cant": "the tests compile each schema on its own; compatibility is about pairs of schemas and all documents", "anchors": ["xsd-internal/src/ast/leaf.rs:53-258", "xsd-internal/src/ast/attribute.rs:20-86", "xsd-internal/src/ast/root.rs:50-464", "xsd/src/decode.rs:45-193"]}
{"id": "C82", "title": "What the generated code changes is declared mutable", "statement": "In the text of every accepted module, a variable that is borrowed with &mut, on which a method that takes &mut self is called, or that is handed to a function that takes a &mut, is declared so: by let mut, as a mut parameter, or as a parameter of a type &mut T. Blocks, closures, loops and arms of a match bring their own variables.", "quantifier": "every set of types of every schema context that generation accepts with sound names", "why_tests_cant": "the compiler checks this only for the modules of the test schemas; which declarations and calls meet depends on which constructs (optional, repeated, wrapped, flattened, attributes, namespaces) a schema combines", "anchors": ["xsd-internal/src/xsd/schema.rs:203-322", "xsd-internal/src/ast/leaf.rs:72-245", "xsd-internal/src/ast/root.rs:166-333", "xsd-internal/src/ast/attribute.rs:36-60", "xsd/src/lib.rs:13-106"]}
{"id": "C83", "title": "The stack needed to read a document grows with its nesting only", "statement": "Reading a document never has more generated functions open at once than the number of types of the module times the height of the document plus one; the number of siblings, attributes and the length of texts do not count. Writing what was read needs at most one call more. No constant depth is enough for schemas that refer to themselves.", "quantifier": "every schema whose module compiles and in which no type contains itself without an element in between, and every document", "why_tests_cant": "tests read small documents with a large stack; that no document, however wide, needs more is a statement about all documents", "anchors": ["xsd-internal/src/ast/leaf.rs:142-245", "xsd-internal/src/ast/root.rs:260-418", "xsd-internal/src/ast/element_content.rs:61-80", "xsd-internal/src/xsd/schema.rs:203-322", "xsd/src/decode.rs:45-193"]}
{"id": "C84", "title": "Reading takes a number of steps linear in the size of the document", "statement": "For every schema there is a number k such that reading any document takes at most k steps for each of its elements, whether it ends with a value or an error. A step is a call of a generated function or lookahead, the reading of a text or an attribute, a round of a loop, or a question to the cursor. Without the conditions on the schema there is no bound: a loop may go on for ever.", "quantifier": "every schema whose module compiles and in which no type contains itself without an element in between, and every document", "why_tests_cant": "tests measure a few documents; repeated groups inside repeated groups with lookahead could take quadratic or exponential time on documents nobody tried", "anchors": ["xsd-internal/src/ast/leaf.rs:142-245", "xsd-internal/src/ast/root.rs:260-418", "xsd-internal/src/ast/element_content.rs:61-80", "xsd-internal/src/xsd/schema.rs:203-322", "xsd/src/decode.rs:45-193"]}
{"id": "C85", "title": "No more types than elements in the schema files", "statement": "The number of types made of an accepted schema is at most the number of elements of the files opened for it, not counting the schema elements; so are the number of parts of these types (fields, attributes, variants, values, restrictions), the number of uses of a type in a type, and the number of generated items. Which files are opened is determined by their includes and imports; a file counts as often as it is opened. Types and parts together may be more than the elements.", "quantifier": "every set of schema files that is accepted", "why_tests_cant": "tests compile a few schemas; inline types, groups in groups, extensions and files included several times could multiply the generated code for schemas nobody tried", "anchors": ["xsd-internal/src/xsd/parse/element.rs:10-184", "xsd-internal/src/xsd/parse/complex_type.rs:11-134", "xsd-internal/src/xsd/parse/complex_content.rs:11-118", "xsd-internal/src/xsd/parse/sequence.rs:12-104", "xsd-internal/src/xsd/parse/choice.rs:10-74", "xsd-internal/src/xsd/parse/attribute.rs:6-89", "xsd-internal/src/xsd/schema.rs:28-160"]}
{"id": "C86", "title": "The length of the generated code", "statement": "The text emitted for a schema has at most a fixed number of tokens for each type, for each part of a type, and for each pair of a type and a namespace. There are no more namespaces than elements in the schema files, so the text is at most quadratic in the number of elements of the files. It is that long: every type declares all namespaces of the schema again, at least five tokens for each pair of a type and a namespace, so no constant number of tokens for each element is enough.", "quantifier": "every set of schema files that is accepted", "why_tests_cant": "tests look at the code for a few schemas; templates repeated for every field inside templates repeated for every field could blow up for schemas nobody tried", "anchors": ["xsd-internal/src/xsd/schema.rs:152-322", "xsd-internal/src/ast/leaf.rs:50-245", "xsd-internal/src/ast/root.rs:52-418", "xsd-internal/src/ast/attribute.rs:18-85", "xsd-internal/src/ast/namespaces.rs:18-34"]}
{"id": "C87", "title": "The written document is as long as the value is large", "statement": "If the generated module compiles, to_xml gives the XML writer at most five events (start tags, end tags, texts) for each value contained in the value that is written, less two. An enumeration value reaches this number. For a module that Rust does not accept because two fields have the same name it is false.", "quantifier": "every schema whose declarations Rust accepts, every type and every value", "why_tests_cant": "tests write a few values; a field written several times or tags repeated in nested groups could make the output much longer for schemas nobody tried", "anchors": ["xsd-internal/src/ast/leaf.rs:72-140", "xsd-internal/src/ast/root.rs:166-256", "xsd-internal/src/ast/element_content.rs:39-58", "xsd-internal/src/ast/element_definition.rs:36-64", "xsd/src/lib.rs:72-106"]}
