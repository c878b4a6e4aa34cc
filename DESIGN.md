# A Rocq model of rkusa/xsd

`xsd` is a procedural macro: it reads an XSD file, builds an AST, and emits Rust
types with `from_xml` / `to_xml`. The model follows the same pipeline, so that a
theorem can speak about what happens to an XML document when the code generated
for a schema reads or writes it.

    schema document --Parse.v--> AST (Ast.v) --Gen.v--> IR of the emitted Rust
                                                          |
    XML document --Run.v (from_xml, lookahead)--> value --Run.v (to_xml)--> writer events --Writer.v--> XML document

Build: `cd rocq && coq_makefile -f _CoqProject -o Makefile && make -j4` (Coq 8.16.1,
standard library only, about five minutes on four cores).

## Trusted base

1. The Coq 8.16.1 kernel (with its virtual machine: `vm_compute` is used for
   concrete examples and refutations).
2. Axioms: none. Every theorem of the `Prop*.v` files is followed by
   `Print Assumptions`, and each prints *Closed under the global context*; the
   list is at the end of this document. No axiom is added, and none of the
   standard library's is used. (Loading the standard library's ssreflect-free
   `Lia`/`List`/`String` modules brings the sealed constants of
   `Coq.ssr.ssrunder` into the list of *declared* library axioms; no theorem
   depends on them.)
3. That the model definitions say what the Rust code does. Each definition cites
   the file and lines it transcribes (table below). `Conformance.v` replays the
   repository's own integration tests (xsd/tests) on the model, `TextConformance.v` the
   same on texts: it parses the text of the schema and of the document and compares the
   text that is written with the one expected there.
4. That the specifications (`*Spec.v`) say what the property texts mean. They
   are written without the functions of the model wherever the property is not
   itself about such a function.
5. The stated assumptions about third-party crates (next section).

## What is modelled

| file (rocq/theories) | models | lines of /repo |
|---|---|---|
| `Base.v` | result type with explicit panic and out-of-fuel, UTF-8 strings as byte strings, integer and decimal texts (`str::parse`), maps as association lists | Rust std |
| `Numbers.v` | `FromStr` and `Display` of `f32` and `rust_decimal::Decimal` (core::num::dec2flt and flt2dec, rust_decimal's str.rs), from documentation and memory of the sources; used by the concrete instance and C73 | ast/literal_type.rs:53-54, 67-83; xsd/parse/simple_type.rs:78-95 |
| `XmlChars.v` | characters and names of XML; what is read back from written text | - |
| `XmlRead.v` | `roxmltree::Document::parse`: the text of a document to its tree (XML 1.0, 5th edition, with namespaces, without document types) | xsd/src/decode.rs:51-54; xsd/schema.rs:57 |
| `XmlWrite.v` | xml-rs's `EventWriter` with indentation: events to text | xsd/schema.rs:257-275; xsd/src/lib.rs:71-107 |
| `Libs.v` | third-party functions as a record of parameters (a type class), plus one concrete instance (ASCII names, the numbers of `Numbers.v`, the characters of `XmlChars.v`) | - |
| `Xml.v` | the roxmltree view of a document | - |
| `Ast.v` | data types, `Namespaces`, `SchemaContext`, `with_docs` | xsd-internal/src/ast/*.rs |
| `XsdNode.v` | schema nodes: attributes, visited sets, child lists, errors and their ranges | xsd/node.rs, xsd/error.rs |
| `Parse.v` | contexts, all parsers, include/import, dependency closure | xsd/context.rs, xsd/parse/*.rs, xsd/schema.rs:17-202 |
| `Gen.v` | `to_declaration`, `to_xml_impl`, `from_xml_impl`, `from_str_impl`, `lookahead_impl`, `generate_element`, `escape_ident`, `escape_enum_names` | utils.rs, ast/*.rs, xsd/schema.rs:152-160, 204-322 |
| `Decode.v` | the cursor over child elements, text, attributes | xsd/src/decode.rs |
| `Writer.v` | `Context`, start/end events, and the document a parser reads back | xsd/src/lib.rs |
| `Run.v` | what the emitted Rust does: interpreter of the IR for `from_xml`, `lookahead`, `to_xml` | the `quote!` templates |
| `Macro.v` | the attribute macro: arguments, path, emitted module; row and column of errors (with roxmltree's `text_pos_at`) | xsd-derive/src/{lib,generator}.rs, xsd/schema.rs:57-84 |
| `Message.v` | the texts of error messages (`Display` of `NodeError`, `XsdError`, `SchemaError`, `FromXmlError`; `{:?}` of strings) | xsd/error.rs, xsd/node.rs:11-48, xsd/schema.rs:328-347, xsd/src/decode.rs:7-36, xsd-derive/src/lib.rs |
| `Emit.v` | the tokens of the emitted type declarations, doc comments | ast/{root,leaf,attribute,element_content,element_definition,leaf_content,literal_type}.rs `to_declaration`, `to_impl`, `docs`; xsd/schema.rs:214-234 |
| `Rust.v` | syntax and semantics of the subset of Rust the emitted functions use; knows neither the templates nor the IR | the Rust reference |
| `Body.v` | the bodies of the emitted functions as Rust: `from_xml`, `from_xml_node`, `lookahead`, `to_xml`, `to_xml_writer`, `from_str`, `as_str`, `fmt` | the `quote!` templates of ast/*.rs, xsd/schema.rs:204-322 |
| `Quote.v` | `quote!`: templates, interpolation, repetition | the quote crate |
| `Impl.v` | the tokens of the emitted functions | the `quote!` templates of ast/*.rs, xsd/schema.rs:152-160, 204-322 |
| `Harness.v`, `Samples.v`, `Conformance.v`, `TextConformance.v` | running the model on concrete inputs; tests, not proofs | xsd/tests |

All code of the three crates is covered except the following.

Not modelled:

* syn: the macro's arguments are a list of `path = value` and the item is a
  module with attributes, visibility, name and items (`Macro.v`); tokens and
  spans are not represented.
* The characters of the generated text. `Gen.v` produces an IR with one constructor
  per `quote!` template that matters for behaviour; `Emit.v` and `Impl.v` give the tokens
  (the templates of `Impl.v` are copied from the source and interpolated by `Quote.v`);
  `Body.v` writes each template out as a Rust syntax tree. C61 and C70 show that the
  tokens read, by the grammar of Rust, as the declarations and those trees, and C63-C65
  that running the trees by the semantics of `Rust.v` gives what the interpreter `Run.v`
  says. What type inference adds (the type of a receiver or of a `FromStr` call) is
  written into the trees and not in the tokens; C71 shows that the typing rules of
  `TypingSpec.v` allow exactly this reading. Spans are not represented.
* In `Rust.v`: references are transparent (moves and borrows are rustc's concern), the
  writer never fails (it writes into a `Vec`), and what it produces are the
  events it is given; C75 is about the text that `XmlWrite.v` makes of them.
* rustc. `RustSpec.v` states which modules of the IR it accepts (names,
  declarations, sizes, the types of the function bodies); that this is what
  rustc does is part of the trusted base. It is checked against the 52 schemas
  of the repository's tests, whose modules are compiled there (`C54_repository`).
  For the function bodies, `TypingSpec.v` gives typing rules for Rust that know nothing
  of the templates (written from the Rust reference and the signatures of xsd, xml and
  std), and C71 shows that a module has types by these rules exactly when `RustSpec.v`
  accepts it, up to two corners (`plain_module`): an attribute whose type is a tuple struct
  with `FromStr`, which Rust accepts and `RustSpec.v` and `Run.v` do not represent, and a
  call of `Self::lookahead`. The rules track moved variables. They do not represent
  lifetimes or borrows; inference is the existence of a typing. Mutability is a matter
  of the text: `MutSpec.v` walks the tokens and refuses a change of a variable that is not
  declared for it, C82 shows that no accepted module is refused. Visibility is part of the
  items of C70 and C74.
  For the items around the bodies, `ItemSpec.v` gives Rust's rules for declarations,
  derives and implementations; C74 shows that the items read from the text of an accepted
  module keep them, and that together with C71 they characterise acceptance.
* The texts of errors of libraries (roxmltree, std::io, the number parsers, syn); they
  are arguments of the texts in `Message.v`. `{:?}` of a string copies characters
  outside ASCII (std escapes the unprintable ones).
* Reading files: a file system is a function from paths to parsed documents
  (or to "not well-formed", or to "cannot be opened"), with the path operations
  `parent`/`push` as functions. `Path.v` models these operations as std has them on
  Unix, and C80 says what they mean in a tree of directories.
* Memory and stack limits in bytes. Recursion is on explicit fuel; results of the form
  "ends" say that some fuel suffices, and more fuel never changes a result. How many
  generated functions are open at once is C83.

Simplifications, each also noted at the definition:

* Hash maps are association lists, so the iteration order of the Rust code is
  fixed in the model. Where the order can be observed it is a parameter:
  `MergeSpec.v` lets the types of a loaded file be visited in any order and C46
  shows that the outcome does not depend on it; `HashSpec.v` lets the types, the
  variants of an enumeration and the namespaces be visited in any order and C57
  shows that the generated decoders and encoders agree. Which of several unsupported
  attributes is reported first is fixed to document order.
* Strings are byte strings holding UTF-8; characters are the UTF-8 sequences.
* `i64`, `u64`, `i32`, `u32`, `usize` are `Z`/`N` with range checks where Rust
  has them (parsing); `usize` is 64 bit. `f32` is its bits (all NaNs are one
  value), `Decimal` sign, mantissa and scale; their texts are parameters of
  `Libs`, and `Numbers.v` gives a model of them.
* A borrowed writer context (`Context::Virtual`) is passed by value and handed
  back, which is equivalent because it is never used concurrently.
* `Panic` of the interpreter `Run.v` marks states that do not exist in Rust
  because the module would not compile: C53 proves that modules rustc accepts
  never get there. `OutOfFuel` is excluded by the theorems or proved
  unreachable (C08, C09).

Assumptions about other crates (all of them visible as parameters or as the
shape of a definition):

* roxmltree: gives the element tree with resolved names, merges adjacent text
  and CDATA, keeps comments and processing instructions as separate children,
  gives the namespaces in scope of an element without duplicate prefixes
  (hypotheses `prefixes_once`, `files_bind_once` where needed). `text_pos_at`
  counts line feeds and characters; ranges start between characters (hypothesis
  `ranges_sound`). All these hypotheses, and `texts_sound`, are proved for the
  reader of `XmlRead.v` and texts in UTF-8 (`C78_files`); there the assumption is
  that roxmltree accepts the same texts with the same trees and ranges.
* syn: reads an item as `MacroSpec.syn_reads` says (inner attributes of a module
  come after the outer ones in one list).
* xml-rs: writes the events it is given; a namespace declaration already in
  scope is not repeated (`checked_target` in xml-rs, modelled in `Writer.v`);
  with indentation it adds white space only between elements (`indented` in
  `CanonSpec.v` allows every such layout). It writes URIs of declarations
  unescaped and does not check prefixes; documents where that matters are
  excluded by the hypothesis that texts survive (`xml_text_back`, `xml_attr_back`).
* C75 is about roxmltree and xml-rs as modelled in `XmlRead.v` and `XmlWrite.v` (hypothesis
  `xml_are`: the functions `xml_text_back`, `xml_attr_back` and `is_ncname` of `Libs` are those
  of `XmlChars.v`). Neither crate is part of /repo nor available here, so these two files are
  trusted to be what they do: for roxmltree the grammar of XML 1.0 and Namespaces in XML
  (C77: exactly the grammar of `XmlGrammar.v`, so that what is left to trust is that
  roxmltree reads the language of the standards; limits and kinds of errors not represented); for xml-rs indentation, escapes and the
  choice of declarations, from memory of its emitter.rs, namespace.rs and escape.rs. What is
  known to differ between its versions is a parameter (`emitter`: whether `>` and
  carriage returns in text, tabs in attributes and the names of namespaces are escaped) and
  the theorems hold for every choice.
* Inflector: arbitrary functions `to_snake_case`, `to_pascal_case`; laws are
  hypotheses where needed. `ascii_libs` transcribes Inflector 0.11.4 for ASCII.
* proc_macro2: an arbitrary predicate `ident_valid`.
* f32 and rust_decimal texts: arbitrary functions; that reading back a written
  number gives the number is a stated hypothesis (`scalar_laws`) of the round trip theorems.
  C73 is about the functions of `Numbers.v` (hypothesis `numbers_are`) and proves the
  hypothesis for them. They are not part of /repo and its dependencies are not
  available here, so `Numbers.v` is trusted to be what std and rust_decimal do:
  for f32 that reading rounds to the nearest value (ties to even) and accepts the
  grammar in the documentation of `f32::from_str`, that writing gives the shortest digits
  that are read as the value, without exponent, and `inf`, `-inf`, `NaN`; for Decimal that
  underscores after the first digit are skipped, that digits past the 28th
  after the point or past 96 bits are rounded away, and that an integer part past 96 bits is
  an error. The positive theorems about Decimal only concern texts without these cases.

## How the proofs are organised

`*Spec.v` files hold specifications, `*Proof*.v` lemmas, `Prop*.v` the theorems
with examples. Names: `Cnn_...` is about property Cnn; `_partial` covers part of
it (the comment and the manifest note say what is missing); `_refuted` is a
witness that the property as stated is false of the code.

| area | specification | theorems |
|---|---|---|
| child cursor (C01-C04) | `CursorSpec`: a list from which elements are taken, call histories | `PropCursor` |
| names, namespaces, docs, closure (C33, C39-C42) | `TextSpec`, `MiscSpec` | `PropNames` |
| generator functions (C05, C19, C35, C43-C45, C47, C48) | `GenSpec`, `LitSpec` | `PropGen` |
| decoding (C10-C15, C17, C18, C20, C21, C49) | `DecSpec` (what a field, a choice, a sequence should read), `RepSpec` (which elements a value stands for), `SimSpec` (documents that differ only where nobody looks, or in the order of the members of `xs:all`), `ReadSpec` | `PropDecode`, `PropOrder` |
| typing, termination, lookahead (C08, C09, C16, C50) | `WfSpec` | `PropTerm` |
| contexts and tags (C06, C07, C22, C23, C26, C27) | `WriterSpec`, `EncSpec` | `PropWriter` |
| writing and reading back (C23-C27) | `LlSpec` (one element of lookahead suffices), `CanonSpec` (values that can be written, layouts), `StableSpec`, `RoundSpec` | `PropRound`; on texts `PropStable` |
| schema parsing: ends, errors, panics (C28-C30, C38) | `ParseSpec` | `PropParse` |
| meaning of declarations (C31, C34, C36, C37) | `DeclSpec`: an independent relation between a schema document and the types it declares | `PropDecl` |
| several files (C46, C51, C52) | `MergeSpec`, `DeclSpec` | `PropMerge` |
| hash order (C57) | `HashSpec`: modules emitted when hash maps are visited in any order | `PropHash` |
| foreign markup (C32) | `ForeignSpec` | `PropForeign` |
| attribute macro, error positions (C58, C59) | `MacroSpec`: modules as written, lines and columns of a text | `PropMacro` |
| modules and rustc (C53, C54) | `RustSpec`: a static semantics of generated modules, `RustLook`; `SchemaSpec`: the same as conditions on the schema | `PropRust` |
| function bodies (C63-C65) | `Rust`: semantics; `BodySpec`: what is compared | `PropBody` (rules for the semantics without fuel in `RustRules`, proofs in `BodyRead`, `BodyWrite`, `BodyGen`) |
| generated text (C70) | `GramSpec`: a parser for functions, implementations and files, from the Rust reference | `PropGram` (the parser as a grammar without fuel in `GramRules`, proofs in `GramProof`, `GramRead`, `GramWrite`, `GramItem`) |
| types of the generated text (C71) | `TypingSpec`: typing rules for Rust functions | `PropTyping` (typings of the templates in `TypingRead`, `TypingWrite`; that there are no others in `TypingInv`, `TypingReadInv`, `TypingFnInv`, `TypingWriteInv`; `TypingConv`, `TypingRun`) |
| items of the generated text (C74) | `ItemSpec`: Rust's rules for declarations, derives, implementations and signatures | `PropItem` (proofs in `ItemProof`) |
| texts of documents (C75) | `XmlSpec`: which declarations keep their meaning; `indented` of `CanonSpec` | `PropXml`, `PropXmlEnd` (the reader on written text in `XmlProof`-`XmlProof5`, what generated code declares in `XmlGen`) |
| declarations of the generated module (C76) | `ApiSpec`: names and types of types, fields and variants | `PropApi` |
| grammar of XML (C77) | `XmlGrammar`: the productions of XML 1.0 and Namespaces 1.0 as relations between texts, pieces and trees | `PropGrammar` (characters, values, tags, trees and documents in `GrammarProof1`-`GrammarProof5`) |
| places in texts (C78) | `PlaceSpec`: the part of a text that is an element or an attribute, disks of texts; `XmlGrammar` | `PropPlace` (proofs in `PlaceProof`) |
| line ends (C79) | `LinesSpec`: texts that differ in line ends, the same tree at corresponding places, disks of the same files | `PropLines` (proofs in `LinesProof`, `LinesProof2`-`4`) |
| paths (C80) | `Path`: `push` and `parent` of std; `PathSpec`: trees of directories, what a path names, trees with the same files | `PropPath` (proofs in `PathProof`) |
| two versions of a schema (C81) | `EvoSpec`: schemas that grow, values with further members that are absent, documents without the added names | `PropEvo` (reading in `EvoProof`, `EvoProof2`, writing in `EvoWrite`, `EvoProof3`) |
| chains of includes, exactly (C29) | `EndlessSpec`: which file refers to which, endless chains, which file is opened while which one is read | `PropEndless` (`EndlessProof`) |
| what is changed is declared `mut` (C82) | `MutSpec`: a walk over the tokens with the variables in scope and how they may be used; the methods and arguments of the libraries that need a `&mut` | `PropMut` (`MutProof`, `MutWrite`, `MutDecl`) |
| depth of calls (C83) | `DepthSpec`: the interpreter with calls and rounds of loops counted apart; types in layers | `PropDepth` (`DepthProof`, `DepthGen`) |
| number of steps (C84) | `CostSpec`: the interpreter with a count of calls, rounds, readings and questions to the cursor; size of a document | `PropCost` (`CostProof`, `CostBound`, `CostGen`) |
| amount of generated types (C85) | `AmountSpec`: the documents opened for a file, the parts of a type; size of a document from `CostSpec` | `PropAmount` (`AmountProof`) |
| length of the generated code (C86) | `BulkSpec`: number of tokens, number of namespaces; parts and opened documents from `AmountSpec` | `PropBulk` (`BulkProof`, `BulkNames`, `BulkMany`) |
| length of what is written (C87) | `OutSpec`: the number of values in a value | `PropOut` (`OutProof`) |
| all stages together (C72) | the specifications of the parts | `PropEnd` (`chain`: file, schema, types, tokens, items, functions) |
| order of declarations (C66) | `LocalSpec`: a declaration on its own, reordered documents, names made by two declarations | `PropLocal` (proofs in `LocalProof`, `LookupProof`) |
| errors (C67) | `ErrSpec`: what each error says about the document | `PropErr` (proofs in `ErrProof`) |
| error messages (C68) | `MessageSpec`: names, files, errors up to ranges | `PropMessage` (proofs in `MessageProof`, `GenErr`, model in `Message`) |
| decoding errors (C69) | `FaultSpec`: which type an element is read as, what each error says | `PropFault` (proofs in `FaultProof`) |
| built-in types (C60) | `LexSpec`: texts and values by XML Schema Part 2 | `PropLex` |
| decimal and float (C73) | `NumberSpec`: texts and rational values, values of binary32 and the nearest one; `NumberLibs`: what is assumed of the libraries | `NumberProof` (rounding), `NumberText` (reading), `NumberRound` (writing and reading back), `NumberShort` (shortest texts), `PropNumber` |
| validity (C14, C55, C56) | `ValidSpec`: valid documents in the sense of XML Schema, without values or decoder | `PropValid`, `PropBounds` |

Methods: refinement of the cursor to a list (C01-C04); a simulation argument for
fuel and unobserved markup; induction on fuel for decoder and encoder, with the
measure (remaining children, tree height, rank of same-node calls) for
termination; one walk through all parsers proving their invariants together
(`ParseProof`), a second one relating them to `DeclSpec`, a third one relating
runs on two documents (`ForeignProof`); decision procedures for the hypotheses
on schemas (`WfCheck`, `LlSpec`, `CanonSpec`, `TypedCheck`) so that examples can be
checked by computation.

## Findings

Behaviour of the code that contradicts a property as stated, each with a witness
theorem. The witness is a concrete schema, document or value.

* Text: a comment cuts the text of an element, or makes it an error when it
  comes first (`C04_text_whole_refuted`); an unknown child added to an empty
  element of a text type makes it an error (`C20_empty_refuted`).
* `Context`: attributes set after the start tag are lost (`C07_late_refuted`).
* An optional member of `xs:all` that is not the first child is lost (`C12_all_refuted`).
* Occurrence bounds other than 0, 1, many are not enforced (`C14_bounds_refuted`).
* If an enumeration lists a value twice, the variant that is read depends on the
  iteration order of a hash map, so it varies between builds (`C57_duplicates_refuted`).
* Texts of built-in types: `1` and `0` are no booleans, white space around a
  number or boolean is an error, integers beyond 64 bits and `-0` for unsigned
  types are rejected, positiveInteger accepts 0 (the five C60 refutations).
* An inner attribute or inner doc comment of the annotated module makes the
  output invalid (`C58_inner_refuted`); the items of a module in a file of its
  own are lost (`C58_file_refuted`).
* A fixed attribute may have any value (`C17_attributes_refuted`).
* An optional group that starts with a group that may be empty is taken to be
  absent (`C50_lookahead_refuted`).
* A group repeated inside a choice gives code that rustc rejects
  (`C08_typed_refuted`); a derived name that collides with a simple type gives a
  decoder that loops without progress (`C09_decoding_refuted`, `C16_progress_refuted`).
* Elements of a named simple type are written without their tag
  (`C22_no_tag_refuted`, `C23_variant_refuted`, `C23_fixed_ref_refuted`,
  `C23_simple_extension_refuted`).
* Some references and imported types are written in the wrong namespace
  (`C26_choice_refuted`, `C26_import_refuted`).
* An extension that adds a sequence loses the attributes of its base type
  (`C27_sequence_refuted`, `C25_attributes_refuted`); carriage returns are written
  unescaped (`C25_carriage_return_refuted`).
* A derived name starting with a multi-byte character panics
  (`C28_panic_refuted`, `C39_derived_name_refuted`); a file that includes itself is
  never finished (`C29_cycle_refuted`); identifiers rejected by proc_macro2 panic
  and `break` is not escaped because of a stray blank in the list
  (`C43_escape_ident_refuted`).
* Documentation is lost for enumerations, alternatives of a choice, references and
  after the first documentation element (the four C62 refutations).
* Unknown constructs are silently accepted in four places (the C31 refutations).
* Attributes are looked up by local name: `x:type` overrides `type`, and hides
  unsupported attributes (`C32_attribute_refuted`, `C32_hidden_refuted`); markup in
  front of documentation text is an error (`C32_documentation_refuted`).
* Elements and types share one symbol space, and made-up names replace declared
  ones (`C37_symbol_spaces_refuted`, `C37_overwritten_refuted`).
* An included file that cannot be opened is reported without position (`C38_refuted`).
* Default namespaces other than XSD and prefixes declared below the schema
  element are not resolved (`C51_default_refuted`, `C51_nested_refuted`); included
  files without target namespace stay in no namespace (`C52_chameleon_refuted`).
* An element whose type has the element's own name makes code generation recurse
  without end (`C45_aliases_refuted`).

* Accepted schemas whose module rustc rejects: two names with the same Rust name,
  an attribute with the name of a child, a type named like one of the prelude,
  keywords that are not escaped, references to undeclared types, attributes of a
  named type that is neither a string nor an enumeration, a repeated group in a
  choice, an empty choice, recursion through an optional child (the nine C54
  refutations).
* Valid documents are rejected when a choice has an optional alternative and none
  is there (`C55_choice_refuted`), and when an optional group starts with a group
  that is empty (`C55_group_refuted`).
* Invalid documents are accepted when occurrence bounds other than "at most one,
  at least one" are violated, after the last expected child, and when a fixed
  attribute has another value (the six C56 refutations); nothing else is unchecked
  (`C56_checked_partial`).

## Mutation testing

`tools/mutate.py` edits one model definition in a scratch copy, rebuilds, and
records which lemmas fail and which `Prop*` theorems depend on them; one line per
attempt in `seeded/LOG.jsonl`. A mutant that no theorem notices leads to a
stronger theorem, or is recorded with the reason why it is equivalent or outside
of every property.

`tools/templates.py` compares the `quote!` templates written in `Impl.v` with those
of `/repo`, up to white space.

## Status per property

<!-- status:begin -->
| property | status | theorems | note |
|---|---|---|---|
| C01 Child cursor behaves like a plain list | proved | `C01_cursor_is_list` | cursor refines the list of remaining children, over all call histories |
| C02 Peeking is unobservable | proved | `C02_peek_unobservable` | peeks inserted anywhere in a history |
| C03 child() skips without losing | proved | `C03_child_takes_first` | from every reachable cursor state |
| C04 Text content is read whole | partial | `C04_text_whole_partial`, `C04_text_whole_refuted` | holds when no comment or processing instruction splits the text; refuted otherwise |
| C05 Root element is checked | proved | `C05_root_checked` |  |
| C06 Element context emits its attributes once | proved | `C06_borrowed_silent`, `C06_context_calls`, `C06_exactly_once` |  |
| C07 Late attributes | partial | `C07_before_start_partial`, `C07_late_refuted` | everything set before the start tag is written; false for what is set later (C07_late_refuted) |
| C08 Decoded values have their declared type | proved | `C08_never_stuck`, `C08_typed`, `C08_typed_refuted` | decoded values have the declared type; never stuck for schemas whose references are resolved (compiles, grounded). C08_typed_refuted: a group repeated inside a choice, which rustc rejects |
| C09 Decoding terminates | partial | `C09_decoding_ends_partial`, `C09_decoding_refuted` | proved when the references of the schema are resolved as intended and no type contains itself without an element in between; false otherwise (C09_decoding_refuted) |
| C10 Decoded value accounts for the consumed children | proved | `C10_described` | the value describes the consumed children (relation rep_doc); in document order when no xs:all is involved, as a shuffle otherwise. That re-encoding writes the same elements is C24 |
| C11 Required elements are required | proved | `C11_document`, `C11_never_defaulted`, `C11_required_next` | field reader, document, and "never defaulted" |
| C12 xs:all is order-insensitive | partial | `C12_all_partial`, `C12_all_refuted`, `C12_deep_partial` | proved for required members, at any depth (C12_deep_partial); false with optional members (C12_all_refuted) |
| C13 Optional and repeated elements | proved | `C13_optional`, `C13_repeated` |  |
| C14 Occurrence bounds | partial | `C14_bounds_refuted`, `C14_kept_partial` | false as stated (C14_bounds_refuted): minOccurs/maxOccurs other than 0/1/many are not enforced. C14_kept_partial: if the bounds of all members are 1..1, 0..1 or 0..unbounded, whatever is decoded keeps to them, apart from children that no member accounts for |
| C15 Choice selects by the next child | proved | `C15_choice`, `C15_order`, `C15_selects` |  |
| C16 Lookahead implies progress | partial | `C16_progress_partial`, `C16_progress_refuted`, `C16_skipped` | proved when group names refer to groups; false when the derived name of a group collides with a simple type (C16_progress_refuted) |
| C17 Fixed values | partial | `C17_attributes_refuted`, `C17_fixed_elements_partial` | proved for elements; false for attributes (C17_attributes_refuted) |
| C18 Attributes | proved | `C18_attributes`, `C18_undeclared` |  |
| C19 Enumeration literals | proved | `C19_duplicates_refuted`, `C19_enum_literals` | for pairwise different literals (as the property says); without that hypothesis refuted (C19_duplicates_refuted) |
| C20 Unknown trailing content is ignored uniformly | partial | `C20_empty_refuted`, `C20_extended_partial` | false for an empty element whose text is read (C20_empty_refuted); proved otherwise |
| C21 Insignificant nodes are insignificant | proved | `C21_layout` | also for arbitrary character data, since it is never looked at there |
| C22 Encoder output is one balanced element | partial | `C22_balanced`, `C22_no_tag_refuted`, `C22_one_element_partial`, `C22_pieces` | output balanced for all values; one root element for types that write a tag; false otherwise (C22_no_tag_refuted) |
| C23 Every modelled element gets its tag | partial | `C23_fixed_ref_refuted`, `C23_simple_extension_refuted`, `C23_tags_partial`, `C23_variant_refuted` | writable_b schemas: the document has an element for every element occurrence of the value (C23_tags_partial); three shapes whose tag is missing are refuted |
| C24 Encode then decode is the identity | proved | `C24_round_trip`, `C24_typed_values` | for schemas passing unambiguous_b, writable_b, entry_b; canonical values characterised by the Rust types (C24_typed_values) under stated laws of the number formats; all indentations |
| C25 Decode, encode, decode is stable | partial | `C25_attributes_refuted`, `C25_carriage_return_refuted`, `C25_stable_partial`, `C25_text_partial` | same schemas, documents whose texts survive XML, and texts without numeric references (C25_text_partial); refuted otherwise (lost base attributes; carriage returns) |
| C26 Written elements live in their schema namespace | partial | `C26_choice_refuted`, `C26_import_refuted`, `C26_namespaces_partial` | proved for writable_b schemas; refuted for references as choice variants and for unqualified imports |
| C27 Inherited attributes survive extension | partial | `C27_base_attributes_partial`, `C27_sequence_refuted` | proved for extensions without a sequence; refuted when the extension adds a sequence |
| C28 Schema parsing terminates | partial | `C28_panic_refuted`, `C28_returns_partial`, `C28_terminates` | terminates for every document; returns Ok/Err when attribute values are ASCII; panics on a derived name starting with a multi-byte character (C28_panic_refuted) |
| C29 Include cycles | partial | `C29_accepted`, `C29_cycle_refuted`, `C29_diverges`, `C29_endless`, `C29_exact`, `C29_one_result`, `C29_terminates_partial` | proved when no chain of includes is endless; a self-including file diverges (C29_cycle_refuted). C29_exact says exactly when reading comes to an end, and no schema with an endless chain is ever returned (C29_endless) |
| C30 Accepted schemas never hit the generator's unreachable arms | proved | `C30_files`, `C30_generate_all`, `C30_never_unreachable` | the only panics on accepted schemas are about identifiers rejected by proc_macro2 |
| C31 Unsupported constructs are rejected | partial | `C31_checked_partial`, `C31_prohibited_refuted`, `C31_shadowed_refuted`, `C31_typed_children_refuted`, `C31_untyped_children_refuted` | proved for every construct the generator looks into (reached), for names not hidden by a foreign attribute; refuted for children of typed elements, unknown children of untyped elements, prohibited attributes, and shadowed names |
| C32 Foreign markup in a schema is ignored | partial | `C32_accepted_partial`, `C32_attribute_refuted`, `C32_documentation_refuted`, `C32_hidden_refuted`, `C32_ignored_partial`, `C32_moved_partial` | proved for the main document and all loaded files, with errors at the place of the same element or attribute, for foreign attributes whose local name is neither that of an attribute the parser reads nor of an unprefixed attribute of the element, and for markup not in front of documentation text; refuted in the three other cases |
| C33 Namespace interning | proved | `C33_interning` |  |
| C34 Type name resolution | proved | `C34_meaning`, `C34_resolves` | by the declarations of the schema element; for namespaces in scope see C51 |
| C35 Occurrence attributes | proved | `C35_max_occurs`, `C35_min_occurs` |  |
| C36 Sequences keep their particles | proved | `C36_choice`, `C36_sequence` |  |
| C37 Every declaration is represented | partial | `C37_definitions`, `C37_named`, `C37_overwritten_refuted`, `C37_represented_partial`, `C37_symbol_spaces_refuted` | every name has a type (C37_named), the types are exactly the log of definitions (C37_definitions), and the type is the one of the declaration when made-up names are in no namespace and no later one has the name; refuted otherwise |
| C38 Errors point into the document | partial | `C38_files`, `C38_located`, `C38_refuted` | proved for documents without include/import and for every file's own errors; an included file that cannot be opened is reported without a range (C38_refuted) |
| C39 Derived names do not panic | partial | `C39_derived_name_partial`, `C39_derived_name_refuted` | holds for names whose snake-case form starts with an ASCII character; refuted otherwise |
| C40 Shared prefix/suffix of names | proved | `C40_ascii_stable`, `C40_longest`, `C40_prefix_maximal`, `C40_shared_prefix`, `C40_shared_suffix`, `C40_suffix_maximal` |  |
| C41 Documentation clean-up | proved | `C41_cleanup_docs`, `C41_words_unique` |  |
| C42 Dependency closure | proved | `C42_closure`, `C42_terminates` |  |
| C43 Identifier escaping | partial | `C43_escape_ident_partial`, `C43_escape_ident_refuted` | false as stated (C43_escape_ident_refuted); proved for all identifier-shaped names outside the listed keywords |
| C44 Enum variant names | proved | `C44_letter_first`, `C44_readable`, `C44_variant_names` |  |
| C45 Type aliases | partial | `C45_aliases_partial`, `C45_aliases_refuted`, `C45_necessary` | false as stated (C45_aliases_refuted); proved for acyclic aliases, and acyclicity is shown necessary for success |
| C46 Imports | proved | `C46_ids`, `C46_keeps`, `C46_order` |  |
| C47 Literal values | proved | `C47_accepts`, `C47_roundtrip` |  |
| C48 Built-in type table | proved | `C48_builtin_names`, `C48_rust_type`, `C48_same_type`, `C48_xsd_name` |  |
| C49 Generated decoder implements the schema-level reading rules | proved | `C49_decoder_meets_spec`, `C49_deterministic`, `C49_stable` |  |
| C50 Lookahead recognises every start of a group | partial | `C50_lookahead_partial`, `C50_lookahead_refuted` | false as stated (C50_lookahead_refuted); proved for groups whose lookahead covers their first elements and no xs:all |
| C51 References resolve by the namespaces in scope | partial | `C51_default_refuted`, `C51_nested_refuted`, `C51_unprefixed_partial` | proved without default namespace; refuted for default namespaces other than XSD and for prefixes declared below the schema element |
| C52 Chameleon includes | partial | `C52_chameleon_refuted`, `C52_own_namespace`, `C52_same_partial` | false as stated (C52_chameleon_refuted): the included types stay in the namespace of their own file (C52_own_namespace); proved when both files have the same target namespace or both have none (C52_same_partial) |
| C53 Accepted modules do not go wrong | proved | `C53_reading_sound`, `C53_writing_total` | for every module of the IR, generated or not, that passes the static semantics of RustSpec |
| C54 Generated modules are accepted | partial | `C54_attribute_refuted`, `C54_compiles`, `C54_empty_refuted`, `C54_exact`, `C54_fields_refuted`, `C54_functions_partial`, `C54_group_refuted`, `C54_keyword_refuted`, `C54_missing_refuted`, `C54_names_refuted`, `C54_prelude_refuted`, `C54_recursion_refuted`, `C54_schema` | false as stated (nine refutations, one per reason); C54_exact gives the exact condition on the schema: schema_ok (Rust names pairwise different, no keyword or prelude name, references resolved, no type containing itself in place), attribute types are strings or enumerations, no group is repeated in a choice, looked-up groups exist |
| C55 Valid documents are decoded | partial | `C55_choice_refuted`, `C55_group_refuted`, `C55_valid_decoded_partial` | proved for schemas that need one element of lookahead, whose module compiles and whose choices have no optional alternatives; false without (C55_choice_refuted, C55_group_refuted) |
| C56 Decoded documents are valid | partial | `C56_checked_partial`, `C56_fixed_refuted`, `C56_none_refuted`, `C56_prohibited_refuted`, `C56_too_few_refuted`, `C56_too_many_refuted`, `C56_trailing_refuted` | false as stated (six refutations, one per missing check); proved: everything else is checked (checked_document) |
| C57 Builds agree whatever the hash order | partial | `C57_decoding`, `C57_documents`, `C57_duplicates_refuted`, `C57_encoding` | proved for schemas whose enumerations list each value once; false without (C57_duplicates_refuted) |
| C58 The attribute macro keeps the user's module | partial | `C58_accepted`, `C58_expansion`, `C58_file_refuted`, `C58_inner_refuted`, `C58_keeps_partial`, `C58_names_refuted`, `C58_panics` | proved for modules with a body and without inner attributes; false otherwise (C58_inner_refuted, C58_file_refuted, C58_names_refuted); C58_accepted says exactly when the result compiles |
| C59 Error positions | proved | `C59_position`, `C59_unique` | given that roxmltree's ranges start between characters and texts are UTF-8 |
| C60 Built-in types mean what XML Schema says | partial | `C60_accepted_partial`, `C60_boolean_refuted`, `C60_large_refuted`, `C60_meaning_partial`, `C60_minus_zero_refuted`, `C60_white_space_refuted`, `C60_written_partial`, `C60_zero_refuted` | proved for representable values in Rust's spelling and up to positiveInteger zero; five refutations for the rest; decimal and float are the subject of C73 |
| C61 Emitted declarations | proved | `C61_declarations`, `C61_denotes_unique` | given that no type is named like a primitive type (Inflector's pascal case never gives such a name) |
| C62 Documentation becomes doc comments | partial | `C62_choice_refuted`, `C62_enumeration_refuted`, `C62_fields_partial`, `C62_reference_refuted`, `C62_second_refuted`, `C62_type_partial`, `C62_undocumented` | proved for declared types other than enumerations, for elements declared in a sequence or all without bounds, and for attributes; refuted for enumerations, alternatives of a choice, references, and second documentation elements |
| C63 Emitted readers run as Rust | proved | `C63_answers`, `C63_names`, `C63_reading` | given that Inflector's pascal case never gives `lookahead` or `from_xml_node` (proved for ASCII); that there is always an answer needs the conditions of C09 |
| C64 Emitted writers run as Rust | proved | `C64_round_trip`, `C64_typed`, `C64_writing` | the round trip under the conditions of C24; writing into a Vec does not fail |
| C65 FromStr and Display of generated types | proved | `C65_enumerations`, `C65_literals` | decimal and float types are left out (their texts are parameters); enumerations that repeat a literal are left out (C19_duplicates_refuted) |
| C66 Order of declarations | proved | `C66_collision_refuted`, `C66_modules`, `C66_order`, `C66_parses`, `C66_prefixes_refuted`, `C66_types`, `C66_uses` | under the stated conditions: made-up names that collide (C66_collision_refuted) and prefixes of other namespaces, which are numbered by first use (C66_prefixes_refuted), make the order matter |
| C67 Errors tell the truth | proved | `C67_files`, `C67_scope_refuted`, `C67_true` | prefixes bound below the schema element are not looked at, so a prefix reported as missing may be bound where it is used (C67_scope_refuted) |
| C68 Texts of error messages | proved | `C68_decode`, `C68_decode_refuted`, `C68_file_refuted`, `C68_macro`, `C68_names`, `C68_not_found`, `C68_schema`, `C68_total`, `C68_true` | texts of library errors are arguments; without the conditions texts can coincide (C68_decode_refuted, C68_file_refuted) |
| C69 Decoding errors tell the truth | proved | `C69_about`, `C69_absent`, `C69_absent_refuted`, `C69_true` | errors are related to the schema by FaultSpec.v (which type an element is read as, which children the members before account for); C69_absent for xs:all; C69_absent_refuted: in a sequence the element may be there, out of order |
| C70 The generated text | proved | `C70_functions`, `C70_module` | tokens, not characters: the lexer is that of the templates (Quote.v); inferred types are not in the text; types named like a variable of the functions are excluded (C70_taken: such a module reads differently) |
| C71 The generated functions are well typed | proved | `C71_exact`, `C71_functions`, `C71_meaning`, `C71_text` | rules written from the Rust reference; lifetimes and borrows not represented (mutability: C82); C71_exact is up to two corners (plain_module) |
| C72 From the macro to the results of the running code | partial | `C72_answers`, `C72_chain`, `C72_checked_partial`, `C72_errors`, `C72_one_chain`, `C72_round_trip_partial`, `C72_valid_partial` | composition of C24, C54-C56, C58, C63, C64 and C69-C71 and partial where they are: valid documents and round trips need conditions on the schema that are checked by a program (C55 and C24 are false without) |
| C73 decimal and float mean what XML Schema says | partial | `C73_bound_refuted`, `C73_decimal_accepted_partial`, `C73_decimal_meaning_partial`, `C73_decimal_written`, `C73_float_accepted`, `C73_float_back`, `C73_float_meaning_partial`, `C73_float_shortest`, `C73_float_unique`, `C73_float_written_partial`, `C73_infinity_refuted`, `C73_large_refuted`, `C73_precision_refuted`, `C73_scalar_laws`, `C73_underscore_refuted`, `C73_white_space_refuted`, `C73_words_refuted` | about the library functions as modelled in Numbers.v; float: all texts without white space around are read as the nearest value, all values but the infinities are written as texts of the type, the shortest and of these the nearest; decimal: numbers that fit into 96 bits and 28 digits after the point; seven refutations for the rest (infinity is written as inf, words and underscores are accepted, digits are rounded away, large numbers, white space, bounds of a restriction of float) |
| C74 The items of the generated text keep Rust's rules | proved | `C74_exact`, `C74_items`, `C74_macro`, `C74_types_exact` | rules written from the Rust reference and the error index; visibility not represented; the converse needs names apart from those of the language and prelude, and declarations with what their templates need (decl_fits) |
| C75 Written texts are read as the value | partial | `C75_ascii`, `C75_changed_refuted`, `C75_declarations`, `C75_declared_refuted`, `C75_end_partial`, `C75_kept`, `C75_round_trip`, `C75_text`, `C75_unreadable_refuted` | about roxmltree and xml-rs as modelled in XmlRead.v and XmlWrite.v; names of namespaces without characters that need escapes and not the reserved ones, a prefix stands for one namespace throughout (proved of generated code); round trips under the conditions of C24; refutations for control characters, carriage returns, tabs, prefixes declared anew and quotes in names of namespaces |
| C76 Types a user sees | proved | `C76_types`, `C76_unique` | in terms of the types of the schema as parsed (C34, C36 and C37 relate them to the schema document); case conversions are Inflector's, as parameters |
| C77 Which texts are XML documents, and which tree they are | proved | `C77_reader`, `C77_rejected`, `C77_unique`, `C77_written` | of the reader as modelled in XmlRead.v, in the place of roxmltree; the grammar is written from the productions of XML 1.0 (5th edition) and Namespaces 1.0; comments and instructions keep their line ends; no document type declarations, limits and kinds of errors |
| C78 Documents and schema files as texts | proved | `C78_attribute`, `C78_document`, `C78_element`, `C78_files`, `C78_message`, `C78_nested`, `C78_position`, `C78_readable` | of the reader as modelled in XmlRead.v (C77); the position that roxmltree reports for texts that are not XML is an argument |
| C79 The line ends of a text do not matter | proved | `C79_decoded`, `C79_document`, `C79_equivalence`, `C79_macro`, `C79_message`, `C79_schema`, `C79_windows` | of the reader as modelled in XmlRead.v (C77); for files that are not XML position and text of the message are roxmltree's; rows count line feeds, so messages differ for files with carriage returns alone (C79_macintosh) |
| C80 Which files are read, and moving a project | proved | `C80_include`, `C80_manifest`, `C80_moved`, `C80_only`, `C80_trees` | paths of Unix, as modelled in Path.v from std; a tree of directories is a step function on places, so ".." and links are what the tree says; that a slash or dot in the middle of a path needs a directory is left to the steps behind it |
| C81 Two versions of a schema | proved | `C81_back`, `C81_choice_names_refuted`, `C81_decoded`, `C81_errors`, `C81_exchange`, `C81_exchange_partial`, `C81_known_names_refuted`, `C81_valid_partial`, `C81_written` | the conditions are needed: a further alternative of an unnamed choice can rename a member (C81_choice_names_refuted), documents that contain added names are read differently (C81_known_names_refuted). For schemas that one element of lookahead can read, documents valid by the old schema and documents written for values of the old module are read whatever the names of added elements (C81_valid_partial, C81_exchange_partial) |
| C82 What the generated code changes is declared mutable | proved | `C82_mut` | which library methods take &mut is part of the specification; lifetimes and the overlap of borrows are not represented |
| C83 The stack needed to read a document grows with its nesting only | proved | `C83_constant_refuted`, `C83_depth`, `C83_layers`, `C83_writing` | counts open calls of generated functions (the frames inside one such call are constant); that no constant depth is enough is C83_constant_refuted. How many bytes a frame has and how deep roxmltree recurses are not represented |
| C84 Reading takes a number of steps linear in the size of the document | proved | `C84_counts`, `C84_rate`, `C84_spin_refuted`, `C84_steps` | steps as counted by CostSpec.v; what is done inside one question to the cursor (child looks through the children skipped so far) and inside one reading of a text or attribute is not counted. False without the conditions (C84_spin_refuted) |
| C85 No more types than elements in the schema files | proved | `C85_amount`, `C85_items`, `C85_one_file`, `C85_together_refuted` | a file counts as often as it is opened; that counting each file once is enough is not proved |
| C86 The length of the generated code | proved | `C86_files`, `C86_linear_refuted`, `C86_namespaces`, `C86_repeated`, `C86_text` | tokens as in Emit.v and Impl.v, a literal counts as one whatever its length. That the length is linear in the number of elements is false (C86_linear_refuted) |
| C87 The written document is as long as the value is large | proved | `C87_events`, `C87_same_names_refuted` | counts events without that of the XML declaration, and not the attributes and namespaces inside a start tag nor the characters of a text |
<!-- status:end -->

## Model definitions and the code they transcribe

<!-- cites:begin -->
| file | definition | cited code |
|---|---|---|
| `Ast.v` | `namespace` | xsd-internal/src/ast/name.rs:7-12 |
| `Ast.v` | `name` | xsd-internal/src/ast/name.rs:14-26 |
| `Ast.v` | `literal` | xsd-internal/src/ast/literal_type.rs:4-20 |
| `Ast.v` | `xsd_name` | xsd-internal/src/ast/literal_type.rs:23-41 |
| `Ast.v` | `leaf_content` | xsd-internal/src/ast/leaf_content.rs:7-12 |
| `Ast.v` | `restriction` | xsd-internal/src/ast/leaf_definition.rs:15-25 |
| `Ast.v` | `leaf_def` | xsd-internal/src/ast/leaf_definition.rs:7-13 |
| `Ast.v` | `max_occurs` | xsd-internal/src/ast/leaf.rs:22-26 |
| `Ast.v` | `leaf` | xsd-internal/src/ast/leaf.rs:9-17 |
| `Ast.v` | `max_is_vec` | xsd-internal/src/ast/leaf.rs:28-35 |
| `Ast.v` | `lf_is_optional` | xsd-internal/src/ast/leaf.rs:38-40 |
| `Ast.v` | `min_default` | xsd-internal/src/ast/leaf.rs:248-258 |
| `Ast.v` | `attribute` | xsd-internal/src/ast/attribute.rs:8-15 |
| `Ast.v` | `element_content` | xsd-internal/src/ast/element_content.rs:9-13 |
| `Ast.v` | `element_def` | xsd-internal/src/ast/element_definition.rs:9-15 |
| `Ast.v` | `choice_def` | xsd-internal/src/ast/root.rs:19-24 |
| `Ast.v` | `root` | xsd-internal/src/ast/root.rs:11-17 |
| `Ast.v` | `ed_with_docs` | xsd-internal/src/ast/element_definition.rs:18-23 |
| `Ast.v` | `root_with_docs` | xsd-internal/src/ast/root.rs:27-37 |
| `Ast.v` | `ns_def` | xsd-internal/src/ast/namespaces.rs; namespaces.rs:5-9 |
| `Ast.v` | `namespaces` | namespaces.rs:11-15 |
| `Ast.v` | `get_or_insert` | namespaces.rs:18-34 |
| `Ast.v` | `get_by_id` | namespaces.rs:45-49 |
| `Ast.v` | `schema_ctx` | xsd-internal/src/xsd/context.rs:29-36 |
| `Ast.v` | `get_xml_element_name` | context.rs:152-164 |
| `Ast.v` | `quote_xml_namespace` | context.rs:166-175 |
| `Ast.v` | `resolve_from` | context.rs:177-187 |
| `XsdNode.v` | `node_err` | xsd-internal/src/xsd/node.rs; error.rs; context.rs:38; node.rs:11-48 |
| `XsdNode.v` | `xsd_err` | error.rs:3-54 |
| `XsdNode.v` | `node_err_range` | node.rs:238-251 |
| `XsdNode.v` | `xsd_err_range` | error.rs:56-74 |
| `XsdNode.v` | `node` | node.rs:51-62 |
| `XsdNode.v` | `node_of` | node.rs:64-87 |
| `XsdNode.v` | `attr_lookup` | node.rs:67-80 |
| `XsdNode.v` | `n_attribute` | node.rs:142-146 |
| `XsdNode.v` | `n_try_attribute` | node.rs:148-155 |
| `XsdNode.v` | `unvisited` | node.rs:174-187 |
| `XsdNode.v` | `n_child` | node.rs:108-120 |
| `XsdNode.v` | `n_children` | node.rs:135-140, 273-276, 284-316 |
| `XsdNode.v` | `c_remove` | node.rs:346-358 |
| `XsdNode.v` | `c_try_remove` | node.rs:360-371 |
| `XsdNode.v` | `prevent_unvisited_children` | node.rs:373-383 |
| `XsdNode.v` | `n_try_text` | node.rs:157-172 |
| `Parse.v` | `shared_ctx` | xsd-internal/src/xsd/{context,schema}.rs; xsd/parse/*.rs; context.rs:21-27 |
| `Parse.v` | `ctx` | context.rs:12-19 |
| `Parse.v` | `pcollect` | sequence.rs:23; choice.rs:21; complex_type.rs:120; complex_content.rs:79; simple_content.rs:33 |
| `Parse.v` | `set_shared` | context.rs |
| `Parse.v` | `ctx_new` | context.rs:41-62 |
| `Parse.v` | `add_root` | context.rs:71-73 |
| `Parse.v` | `add_dependency` | context.rs:87-92 |
| `Parse.v` | `get_node_name` | context.rs:94-103 |
| `Parse.v` | `literal_from_str` | context.rs:190-211 |
| `Parse.v` | `get_type_name` | context.rs:105-144 |
| `Parse.v` | `bytes_of` | parse/annotation.rs; annotation.rs:30 |
| `Parse.v` | `words_go` | annotation.rs:30 |
| `Parse.v` | `cleanup_docs` | parse/annotation.rs:29-31 |
| `Parse.v` | `annotation_parse` | parse/annotation.rs:5-27 |
| `Parse.v` | `parse_annotation` | parse/mod.rs:109-111 |
| `Parse.v` | `common_chars` | parse/mod.rs; mod.rs:73-80 |
| `Parse.v` | `mutal_prefix` | mod.rs:73-80 |
| `Parse.v` | `derive_mutal` | mod.rs:59-71, 82-94 |
| `Parse.v` | `concat_upper` | mod.rs:48-54 |
| `Parse.v` | `derive_virtual_name` | mod.rs:19-57 |
| `Parse.v` | `parse_min_occurs` | parse/element.rs:186-215 |
| `Parse.v` | `facet` | parse/simple_type.rs:43-119 |
| `Parse.v` | `simple_type_parse` | parse/simple_type.rs:10-130 |
| `Parse.v` | `content_of_type` | element.rs:24-33, 115-123; attribute.rs:43-51 |
| `Parse.v` | `attribute_parse` | parse/attribute.rs:6-89 |
| `Parse.v` | `simple_content_parse` | parse/simple_content.rs:6-54 |
| `Parse.v` | `root_parse` | parse/root.rs:6-23; parse/element.rs:10-61; parse/complex_type.rs:11-134; parse/complex_content.rs:11-118; parse/sequence.rs:12-104; parse/choice.rs:10-74 |
| `Parse.v` | `fs` | schema.rs; schema.rs:28-45, 93-130 |
| `Parse.v` | `schema_err` | schema.rs:329-347 |
| `Parse.v` | `parse_err` | schema.rs:349-355 |
| `Parse.v` | `schema` | schema.rs:17-21 |
| `Parse.v` | `into_schema` | context.rs:75-85 |
| `Parse.v` | `into_shared` | schema.rs:141-146 |
| `Parse.v` | `schema_child` | schema.rs:114-136 |
| `Parse.v` | `parse_schema_with` | schema.rs:93-139 |
| `Parse.v` | `parse_with` | schema.rs:51-87 |
| `Parse.v` | `parse_file_with_context` | schema.rs:28-45 |
| `Parse.v` | `parse_file` | schema.rs:24-26 |
| `Parse.v` | `next_names` | schema.rs:162-202 |
| `Parse.v` | `closure_names` | schema.rs:162-202 |
| `Gen.v` | `prim` | xsd-internal/src/utils.rs; ast/*.rs; xsd/schema.rs:152-160, 204-322; ast/literal_type.rs:45-65 |
| `Gen.v` | `decl` | ast/root.rs:52-164 |
| `Gen.v` | `rx` | ast/leaf_content.rs:47-76 |
| `Gen.v` | `fr` | ast/leaf.rs:142-245 |
| `Gen.v` | `ax` | ast/leaf_content.rs:78-84 |
| `Gen.v` | `wx` | ast/leaf_content.rs:26-45 |
| `Gen.v` | `escaped_names` | utils.rs:3-13 |
| `Gen.v` | `not_raw` | utils.rs:9 |
| `Gen.v` | `G` | schema.rs:343-344 |
| `Gen.v` | `format_ident` | utils.rs:11 |
| `Gen.v` | `format_raw_ident` | utils.rs:9 |
| `Gen.v` | `escape_ident` | utils.rs:3-13 |
| `Gen.v` | `type_ident` | name.rs:29, 40; schema.rs:216 |
| `Gen.v` | `field_ident` | leaf.rs:51, 73, 143; attribute.rs:19, 37, 63; element_content.rs:19, 42, 64 |
| `Gen.v` | `look_ident` | leaf.rs:158, 188; root.rs:291, 368, 400 |
| `Gen.v` | `variant_ident` | root.rs:147, 209, 285 |
| `Gen.v` | `xml_name_of` | context.rs:152-164; namespaces.rs:45-49 |
| `Gen.v` | `xml_ns_of` | context.rs:166-175; namespaces.rs:45-49 |
| `Gen.v` | `content_to_impl` | ast/leaf_content.rs; leaf_content.rs:15-24 |
| `Gen.v` | `content_to_xml` | leaf_content.rs:26-45 |
| `Gen.v` | `content_from_xml` | leaf_content.rs:47-76 |
| `Gen.v` | `content_from_str` | leaf_content.rs:78-84 |
| `Gen.v` | `def_to_impl` | leaf_definition.rs:28-38 |
| `Gen.v` | `wrap_vec` | ast/leaf.rs |
| `Gen.v` | `leaf_to_impl` | leaf.rs:50-70 |
| `Gen.v` | `leaf_wrap` | leaf.rs:88-103 |
| `Gen.v` | `leaf_to_xml` | leaf.rs:72-140 |
| `Gen.v` | `leaf_from_xml` | leaf.rs:142-245 |
| `Gen.v` | `attr_to_impl` | ast/attribute.rs; attribute.rs:18-34 |
| `Gen.v` | `attr_to_xml` | attribute.rs:36-60 |
| `Gen.v` | `attr_from_xml` | attribute.rs:62-85 |
| `Gen.v` | `element_to_impl` | ast/element_content.rs; ast/element_definition.rs; element_content.rs:16-37; element_definition.rs:25-34 |
| `Gen.v` | `element_to_xml` | element_content.rs:39-59; element_definition.rs:36-65 |
| `Gen.v` | `element_from_xml` | element_content.rs:61-80; element_definition.rs:67-80 |
| `Gen.v` | `enum_char` | ast/root.rs:421-464 |
| `Gen.v` | `enum_fresh` | root.rs:451-458 |
| `Gen.v` | `enum_variants` | ast/root.rs |
| `Gen.v` | `root_to_declaration` | root.rs:52-164 |
| `Gen.v` | `root_to_xml` | root.rs:166-258 |
| `Gen.v` | `variant_from_xml` | root.rs:260-334 |
| `Gen.v` | `leaf_look` | root.rs:336-418 |
| `Gen.v` | `element_nss` | schema.rs:204-322 |
| `Gen.v` | `generate_all` | schema.rs:152-160 |
| `Gen.v` | `generate_element_and_dependencies` | schema.rs:162-202 |
| `Decode.v` | `from_xml_err` | xsd/src/decode.rs; decode.rs:7-37 |
| `Decode.v` | `children` | decode.rs:45-49 |
| `Decode.v` | `children_new` | decode.rs:77-86 |
| `Decode.v` | `pop_peeked_or_next` | decode.rs:91-94, 108-109 |
| `Decode.v` | `peek_child` | decode.rs:88-101 |
| `Decode.v` | `next_child` | decode.rs:103-118 |
| `Decode.v` | `remove_first` | decode.rs:142-147 |
| `Decode.v` | `skip_to` | decode.rs:149-156 |
| `Decode.v` | `child` | decode.rs:132-159 |
| `Decode.v` | `or_missing` | decode.rs:120-130, 161-167 |
| `Decode.v` | `d_attribute` | decode.rs:169-178 |
| `Decode.v` | `d_text` | decode.rs:180-188 |
| `Decode.v` | `doc_try_child` | decode.rs:57-73 |
| `Writer.v` | `event` | xsd/src/lib.rs; xsd/src/lib.rs:68-107 |
| `Writer.v` | `inner` | lib.rs:19-23 |
| `Writer.v` | `wctx` | lib.rs:14-17 |
| `Writer.v` | `ctx_create` | lib.rs:27-33 |
| `Writer.v` | `ctx_wrap` | lib.rs:35-40 |
| `Writer.v` | `set_attr` | lib.rs:42-47 |
| `Writer.v` | `ns_put` | xsd/src/lib.rs:45-66 |
| `Writer.v` | `set_ns` | lib.rs:49-58 |
| `Writer.v` | `write_start_element` | lib.rs:71-94 |
| `Writer.v` | `write_end_element` | lib.rs:96-106 |
| `Run.v` | `value` | ast/*.rs; xsd/schema.rs:256-318; ast/root.rs:52-164 |
| `Run.v` | `prim_from_str` | leaf_content.rs:26-85; literal_type.rs:67-83 |
| `Run.v` | `value_to_string` | literal_type.rs:67-69 |
| `Run.v` | `lit_from_str` | ast/literal_type.rs:71-82 |
| `Run.v` | `enum_from_str` | ast/root.rs:85-134 |
| `Run.v` | `real_ops` | xsd/src/decode.rs:76-167 |
| `Run.v` | `while_look` | leaf.rs:159-167 |
| `Run.v` | `while_next` | leaf.rs:199-207 |
| `Run.v` | `run_arms` | ast/root.rs:324-331 |
| `Run.v` | `run_look` | schema.rs:310-318 |
| `Run.v` | `run_type` | schema.rs:304-306 |
| `Run.v` | `from_xml_with` | schema.rs:298-302 |
| `Run.v` | `write_leaf_one` | leaf.rs:77-117 |
| `Run.v` | `write_leaf` | leaf.rs:119-139 |
| `Run.v` | `attr_to_string` | attribute.rs:39-43; root.rs:119-131 |
| `Run.v` | `write_attr` | attribute.rs:44-59 |
| `Run.v` | `write_arm_one` | root.rs:208-239 |
| `Run.v` | `write_item` | schema.rs:284-285 |
| `Run.v` | `to_xml` | schema.rs:258-275 |
| `Macro.v` | `disk` | schema.rs:34-42; schema.rs:57-69 |
| `Macro.v` | `fs_of` | xsd-internal/src/xsd/schema.rs:28-69 |
| `Macro.v` | `char_boundary` | schema.rs:77 |
| `Macro.v` | `count_newlines` | schema.rs:77 |
| `Macro.v` | `chars_to_newline` | schema.rs:77 |
| `Macro.v` | `text_pos_at` | schema.rs:77 |
| `Macro.v` | `error_position` | schema.rs:57-84; schema.rs:328-347 |
| `Macro.v` | `attr_style` | xsd-derive/src/generator.rs:11 |
| `Macro.v` | `user_item` | xsd-derive/src/generator.rs:14-18 |
| `Macro.v` | `item_mod` | xsd-derive/src/lib.rs:12; generator.rs:11-18 |
| `Macro.v` | `meta_value` | xsd-derive/src/lib.rs:14-25; xsd-derive/src/lib.rs:17 |
| `Macro.v` | `meta_args` | xsd-derive/src/lib.rs:15, 24 |
| `Macro.v` | `macro_err` | xsd-derive/src/lib.rs:12, 17, 21, 24, 29-33, 63 |
| `Macro.v` | `read_args` | lib.rs:15-24 |
| `Macro.v` | `out_mod` | generator.rs:20-28 |
| `Macro.v` | `emit_module` | generator.rs:7-32 |
| `Macro.v` | `expand` | lib.rs:10-67 |
| `Message.v` | `hex_digit` | node.rs:13; decode.rs:11 |
| `Message.v` | `debug_option` | node.rs:13; decode.rs:11 |
| `Message.v` | `node_text` | xsd-internal/src/xsd/node.rs:11-48 |
| `Message.v` | `xsd_text` | xsd-internal/src/xsd/error.rs:3-54 |
| `Message.v` | `schema_text` | xsd-internal/src/xsd/schema.rs:328-347 |
| `Message.v` | `lib_texts` | schema.rs:36; schema.rs:59 |
| `Message.v` | `macro_message` | xsd-derive/src/lib.rs:12-63 |
| `Message.v` | `from_xml_text` | xsd/src/decode.rs:7-36 |
| `Emit.v` | `tok` | xsd/schema.rs:228 |
| `Emit.v` | `root_docs` | ast/root.rs:43-50 |
| `Emit.v` | `doc_tokens` | xsd/schema.rs:223-227; leaf.rs:59-65; attribute.rs:24-29; element_content.rs:20-25 |
| `Emit.v` | `prim_tokens` | ast/literal_type.rs:45-65 |
| `Emit.v` | `rty_tokens` | leaf_content.rs:15-24; name.rs:28-31; leaf.rs:53-58; attribute.rs:20-23; root.rs:148-151 |
| `Emit.v` | `field_tokens` | leaf.rs:66-69; element_content.rs:34; attribute.rs:30-33; element_content.rs:27-30 |
| `Emit.v` | `field_docs` | element_content.rs:16-37; element_definition.rs:25-34 |
| `Emit.v` | `variant_tokens` | root.rs:152-154 |
| `Emit.v` | `declaration_tokens` | root.rs:52-164 |
| `Emit.v` | `item_tokens` | xsd/schema.rs:214-234; root.rs:39-41 |
| `Body.v` | `ns_code` | xsd/context.rs:166-175 |
| `Body.v` | `lit_code` | ast/literal_type.rs:71-82 |
| `Body.v` | `rx_code` | ast/leaf_content.rs:47-76; ast/name.rs:39-44 |
| `Body.v` | `while_look_code` | ast/leaf.rs:159-167 |
| `Body.v` | `next_stms` | ast/leaf.rs:199-207; root.rs:306-310 |
| `Body.v` | `vec_code` | ast/leaf.rs:169-178, 209-218 |
| `Body.v` | `fr_code` | ast/leaf.rs:142-245; element_content.rs:62-70 |
| `Body.v` | `ax_code` | ast/leaf_content.rs:78-84; name.rs:46-50 |
| `Body.v` | `ra_code` | ast/attribute.rs:62-85 |
| `Body.v` | `arms_code` | ast/root.rs:284-331 |
| `Body.v` | `read_code` | ast/root.rs:259-333; element_definition.rs:66-79; schema.rs:304-306 |
| `Body.v` | `lk1_code` | ast/root.rs:336-419 |
| `Body.v` | `from_xml_code` | xsd/schema.rs:298-302 |
| `Body.v` | `xml_event` | schema.rs:258, 282 |
| `Body.v` | `text_stms` | ast/leaf_content.rs:30-35; root.rs:195-198 |
| `Body.v` | `wx_code` | ast/leaf_content.rs:26-45; literal_type.rs:67-69; name.rs:33-37 |
| `Body.v` | `wf_code` | ast/leaf.rs:72-140 |
| `Body.v` | `wa_code` | ast/attribute.rs:36-60 |
| `Body.v` | `wb_code` | ast/element_content.rs:39-58 |
| `Body.v` | `warm_code` | ast/root.rs:206-239 |
| `Body.v` | `write_code` | ast/root.rs:166-256; element_definition.rs:36-64 |
| `Body.v` | `ns_stm` | xsd/schema.rs:236-252 |
| `Body.v` | `writer_code` | xsd/schema.rs:277-289 |
| `Body.v` | `to_xml_code` | xsd/schema.rs:256-275 |
| `Body.v` | `enum_from_str_code` | ast/root.rs:106-117 |
| `Body.v` | `enum_as_str_code` | ast/root.rs:119-125 |
| `Body.v` | `enum_fmt_code` | ast/root.rs:127-131 |
| `Body.v` | `tuple_from_str_code` | ast/root.rs:62-75 |
| `Body.v` | `tuple_fmt_code` | ast/root.rs:77-81 |
| `Body.v` | `module_fn` | schema.rs:204-322 |
| `Impl.v` | `ns_tokens` | xsd/context.rs:166-175 |
| `Impl.v` | `lit_tokens` | ast/literal_type.rs:71-82 |
| `Impl.v` | `rx_tokens` | ast/leaf_content.rs:47-76; ast/name.rs:39-44 |
| `Impl.v` | `vec_tokens` | ast/leaf.rs:142-245; element_content.rs:62-70 |
| `Impl.v` | `field_from_tokens` | ast/leaf.rs:242-244; element_content.rs:77; element_content.rs:66-70 |
| `Impl.v` | `ax_tokens` | ast/leaf_content.rs:78-84; name.rs:46-50 |
| `Impl.v` | `ra_tokens` | ast/attribute.rs:62-85 |
| `Impl.v` | `arm_tokens` | ast/root.rs:285-322 |
| `Impl.v` | `read_tokens` | ast/root.rs:259-333; element_definition.rs:66-79 |
| `Impl.v` | `from_xml_tokens` | xsd/schema.rs:292-310 |
| `Impl.v` | `lk1_tokens` | ast/root.rs:336-419 |
| `Impl.v` | `lookahead_tokens` | xsd/schema.rs:312-320 |
| `Impl.v` | `start_tokens` | ast/leaf.rs:111-122; root.rs:179-183; element_definition.rs:54-62 |
| `Impl.v` | `wx_tokens` | ast/leaf_content.rs:26-45; literal_type.rs:67-69; name.rs:33-37 |
| `Impl.v` | `wf_tokens` | ast/leaf.rs:72-140 |
| `Impl.v` | `wa_tokens` | ast/attribute.rs:36-60 |
| `Impl.v` | `wb_tokens` | ast/element_content.rs:39-58 |
| `Impl.v` | `warm_tokens` | ast/root.rs:206-239 |
| `Impl.v` | `write_tokens` | ast/root.rs:166-256; element_definition.rs:36-64 |
| `Impl.v` | `ns_decl_tokens` | xsd/schema.rs:236-252 |
| `Impl.v` | `to_xml_tokens` | xsd/schema.rs:254-290 |
| `Impl.v` | `conversion_tokens` | ast/root.rs:52-140 |
| `Impl.v` | `impl_tokens` | xsd/schema.rs:203-322 |
| `Impl.v` | `element_tokens` | xsd/schema.rs:203-322 |
| `Impl.v` | `module_tokens` | xsd/schema.rs:152-160 |
| `Path.v` | `absolute` | xsd-internal/src/xsd/schema.rs:71; xsd-derive/src/lib.rs:57-60 |
| `Path.v` | `path_push` | schema.rs:119; lib.rs:60 |
| `Path.v` | `split_last` | schema.rs:71 |
| `Path.v` | `pop_part` | schema.rs:71 |
| `Path.v` | `is_component` | schema.rs:71 |
| `Path.v` | `trim_right` | schema.rs:71 |
| `Path.v` | `path_head` | schema.rs:71 |
| `Path.v` | `path_parent_opt` | schema.rs:71 |
| `Path.v` | `path_parent` | schema.rs:71 |
<!-- cites:end -->

## Print Assumptions

Each of the following prints `Closed under the global context`.

<!-- axioms:begin -->
* `PropAmount.v`: `C85_amount`, `C85_items`, `C85_one_file`, `C85_together_refuted`
* `PropApi.v`: `C76_types`, `C76_unique`
* `PropBody.v`: `C63_reading`, `C63_answers`, `C63_names`, `C64_writing`, `C64_typed`, `C64_round_trip`, `C65_enumerations`, `C65_literals`
* `PropBounds.v`: `C14_kept_partial`
* `PropBulk.v`: `C86_text`, `C86_namespaces`, `C86_files`, `C86_repeated`, `C86_linear_refuted`
* `PropCost.v`: `C84_steps`, `C84_counts`, `C84_rate`, `C84_spin_refuted`
* `PropCursor.v`: `C01_cursor_is_list`, `C02_peek_unobservable`, `C03_child_takes_first`, `C04_text_whole_partial`, `C04_text_whole_refuted`
* `PropDecl.v`: `C34_meaning`, `C34_resolves`, `C36_sequence`, `C36_choice`, `C37_definitions`, `C37_named`, `C37_represented_partial`, `C37_symbol_spaces_refuted`, `C37_overwritten_refuted`, `C31_checked_partial`, `C31_typed_children_refuted`, `C31_untyped_children_refuted`, `C31_prohibited_refuted`, `C31_shadowed_refuted`
* `PropDecode.v`: `C49_decoder_meets_spec`, `C49_stable`, `C49_deterministic`, `C10_described`, `C11_required_next`, `C11_document`, `C11_never_defaulted`, `C12_all_partial`, `C12_all_refuted`, `C13_optional`, `C13_repeated`, `C14_bounds_refuted`, `C15_selects`, `C15_order`, `C15_choice`, `C17_fixed_elements_partial`, `C17_attributes_refuted`, `C18_attributes`, `C18_undeclared`, `C20_extended_partial`, `C20_empty_refuted`, `C21_layout`
* `PropDepth.v`: `C83_depth`, `C83_layers`, `C83_writing`, `C83_constant_refuted`
* `PropEmit.v`: `C61_declarations`, `C61_denotes_unique`, `C62_type_partial`, `C62_undocumented`, `C62_fields_partial`, `C62_enumeration_refuted`, `C62_choice_refuted`, `C62_reference_refuted`, `C62_second_refuted`
* `PropEnd.v`: `C72_chain`, `C72_one_chain`, `C72_answers`, `C72_valid_partial`, `C72_checked_partial`, `C72_errors`, `C72_round_trip_partial`
* `PropEndless.v`: `C29_accepted`, `C29_endless`, `C29_exact`, `C29_diverges`, `C29_one_result`
* `PropErr.v`: `C67_true`, `C67_files`, `C67_scope_refuted`
* `PropEvo.v`: `C81_decoded`, `C81_errors`, `C81_back`, `C81_valid_partial`, `C81_written`, `C81_exchange`, `C81_exchange_partial`, `C81_choice_names_refuted`, `C81_known_names_refuted`
* `PropFault.v`: `C69_true`, `C69_about`, `C69_absent`, `C69_absent_refuted`
* `PropForeign.v`: `C32_ignored_partial`, `C32_moved_partial`, `C32_accepted_partial`, `C32_attribute_refuted`, `C32_hidden_refuted`, `C32_documentation_refuted`
* `PropGen.v`: `C05_root_checked`, `C19_enum_literals`, `C19_duplicates_refuted`, `C35_min_occurs`, `C35_max_occurs`, `C43_escape_ident_partial`, `C43_escape_ident_refuted`, `C44_variant_names`, `C44_readable`, `C44_letter_first`, `C45_aliases_partial`, `C45_necessary`, `C45_aliases_refuted`, `C47_roundtrip`, `C47_accepts`, `C48_builtin_names`, `C48_xsd_name`, `C48_same_type`, `C48_rust_type`
* `PropGram.v`: `C70_module`, `C70_functions`
* `PropGrammar.v`: `C77_reader`, `C77_unique`, `C77_rejected`, `C77_written`
* `PropHash.v`: `C57_decoding`, `C57_encoding`, `C57_documents`, `C57_duplicates_refuted`
* `PropItem.v`: `C74_items`, `C74_types_exact`, `C74_exact`, `C74_macro`
* `PropLex.v`: `C60_meaning_partial`, `C60_accepted_partial`, `C60_written_partial`, `C60_boolean_refuted`, `C60_white_space_refuted`, `C60_large_refuted`, `C60_minus_zero_refuted`, `C60_zero_refuted`
* `PropLines.v`: `C79_document`, `C79_windows`, `C79_equivalence`, `C79_decoded`, `C79_schema`, `C79_macro`, `C79_message`
* `PropLocal.v`: `C66_parses`, `C66_types`, `C66_uses`, `C66_order`, `C66_modules`, `C66_collision_refuted`, `C66_prefixes_refuted`
* `PropMacro.v`: `C58_expansion`, `C58_panics`, `C58_keeps_partial`, `C58_accepted`, `C58_inner_refuted`, `C58_file_refuted`, `C58_names_refuted`, `C59_position`, `C59_unique`
* `PropMerge.v`: `C46_keeps`, `C46_ids`, `C46_order`, `C51_unprefixed_partial`, `C51_default_refuted`, `C51_nested_refuted`, `C52_chameleon_refuted`, `C52_own_namespace`, `C52_same_partial`
* `PropMessage.v`: `C68_total`, `C68_true`, `C68_macro`, `C68_not_found`, `C68_schema`, `C68_names`, `C68_decode`, `C68_decode_refuted`, `C68_file_refuted`
* `PropMut.v`: `C82_mut`
* `PropNames.v`: `C33_interning`, `C39_derived_name_partial`, `C39_derived_name_refuted`, `C40_shared_prefix`, `C40_shared_suffix`, `C40_prefix_maximal`, `C40_suffix_maximal`, `C40_ascii_stable`, `C40_longest`, `C41_cleanup_docs`, `C41_words_unique`, `C42_closure`, `C42_terminates`
* `PropNumber.v`: `C73_float_accepted`, `C73_float_unique`, `C73_float_meaning_partial`, `C73_float_written_partial`, `C73_float_shortest`, `C73_float_back`, `C73_decimal_accepted_partial`, `C73_decimal_meaning_partial`, `C73_decimal_written`, `C73_scalar_laws`, `C73_infinity_refuted`, `C73_words_refuted`, `C73_white_space_refuted`, `C73_underscore_refuted`, `C73_precision_refuted`, `C73_large_refuted`, `C73_bound_refuted`
* `PropOrder.v`: `C12_deep_partial`
* `PropOut.v`: `C87_events`, `C87_same_names_refuted`
* `PropParse.v`: `C28_terminates`, `C28_returns_partial`, `C28_panic_refuted`, `C29_terminates_partial`, `C29_cycle_refuted`, `C30_generate_all`, `C30_files`, `C30_never_unreachable`, `C38_located`, `C38_files`, `C38_refuted`
* `PropPath.v`: `C80_include`, `C80_manifest`, `C80_only`, `C80_trees`, `C80_moved`
* `PropPlace.v`: `C78_element`, `C78_attribute`, `C78_nested`, `C78_document`, `C78_files`, `C78_position`, `C78_message`, `C78_readable`
* `PropRound.v`: `C24_round_trip`, `C24_typed_values`, `C25_stable_partial`, `C25_attributes_refuted`, `C25_carriage_return_refuted`, `C23_tags_partial`, `C26_namespaces_partial`, `C27_base_attributes_partial`, `C50_lookahead_partial`
* `PropRust.v`: `C53_reading_sound`, `C53_writing_total`, `C54_functions_partial`, `C54_exact`, `C54_schema`, `C54_compiles`, `C54_names_refuted`, `C54_fields_refuted`, `C54_prelude_refuted`, `C54_keyword_refuted`, `C54_missing_refuted`, `C54_attribute_refuted`, `C54_group_refuted`, `C54_empty_refuted`, `C54_recursion_refuted`
* `PropStable.v`: `C25_text_partial`
* `PropTerm.v`: `C08_typed`, `C08_never_stuck`, `C08_typed_refuted`, `C09_decoding_ends_partial`, `C09_decoding_refuted`, `C16_progress_partial`, `C16_skipped`, `C16_progress_refuted`, `C50_lookahead_refuted`
* `PropTyping.v`: `C71_functions`, `C71_exact`, `C71_meaning`, `C71_text`
* `PropValid.v`: `C55_valid_decoded_partial`, `C55_choice_refuted`, `C55_group_refuted`, `C56_checked_partial`, `C56_too_few_refuted`, `C56_too_many_refuted`, `C56_none_refuted`, `C56_prohibited_refuted`, `C56_trailing_refuted`, `C56_fixed_refuted`
* `PropWriter.v`: `C06_context_calls`, `C06_exactly_once`, `C06_borrowed_silent`, `C07_before_start_partial`, `C07_late_refuted`, `C22_balanced`, `C22_pieces`, `C22_one_element_partial`, `C22_no_tag_refuted`, `C23_variant_refuted`, `C23_fixed_ref_refuted`, `C23_simple_extension_refuted`, `C26_choice_refuted`, `C26_import_refuted`, `C27_sequence_refuted`
* `PropXml.v`: `C75_text`, `C75_declarations`, `C75_round_trip`, `C75_kept`, `C75_ascii`, `C75_unreadable_refuted`, `C75_changed_refuted`, `C75_declared_refuted`
* `PropXmlEnd.v`: `C75_end_partial`
<!-- axioms:end -->
