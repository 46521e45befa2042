# Formal model of droyo/go-xml

Everything is in Rocq/Coq 8.16.1, standard library only, under `rocq/theories`.

## Method

* The Go code is modelled function by function as total Gallina functions; every
  definition cites the file and lines it models. Errors are values, nil and panics are
  explicit outcomes, slices are lists except where aliasing matters (then a heap of
  arrays with length and capacity is used), Go map iteration is an arbitrary
  permutation, `sort.Sort` is any function that returns a sorted permutation.
* Functions that need fuel return an explicit error when it runs out; theorems show that
  the fuel used suffices, or (C35, C56, C57, C76) that the Go code runs for ever exactly when no fuel does.
* `XModel.v` is the model, `XSpec.v` the vocabulary of the statements (it does not use the
  model's own helpers, apart from data types), `XProofs.v` the proofs, `XExamples.v` concrete inputs.
* Property theorems live in files named `Props*.v`, which contain nothing but statements closed
  by `exact`, with `Print Assumptions` and concrete examples beside them.
* Where a documented claim is false of the code, the theorem named `..._refuted` gives the
  witness, and the positive theorem states the condition under which the claim holds.
* Theorems are tested against wrong programs: `seeded/LOG.jsonl` records each edit of the model,
  the claim it breaks, the theorems that failed, and those that had to be tightened.

## Trusted base

1. Coq 8.16.1's kernel, with its virtual machine (`vm_compute` is used for examples and for finite
   tables; no `native_compute`).
2. Axioms: none. `Print Assumptions` answers "Closed under the global context" for each of the
   527 theorems of the `Props*.v` files. Some files load the standard library's
   `Coq.ssr.ssrunder` through `Lia`, which declares axioms; nothing uses them.
3. That the models below are the code at the pinned commit. This is checked by reading only: nothing has
   been built or run.
4. The meaning given below to what the code calls in other libraries.

Arbitrary functions ("oracles") are section variables or theorem arguments, so a theorem holds for every one of
them; they are not assumptions. Hypotheses on them are written in the theorem.

## What is modelled

| Go code | model | properties |
|---|---|---|
| xmltree/xmltree.go: Scope, Prefix, Resolve, ResolveNS, ResolveDefault, JoinScope, pushNS | `ScopeModel.v`; backing arrays: `ScopeHeap.v` | C01-C06 |
| xmltree/xmltree.go: Attr, SetAttr, SearchFunc, Search, Flatten | `TreeModel.v` | C07, C08 |
| xmltree/xmltree.go: Parse, 164-280 | `ParseModel.v` (tokens), `DecodeModel.v` (bytes, subset of encoding/xml), `TranscodeModel.v` (other encodings) | C09-C11, C13, C66, C96 |
| xmltree/marshal.go | `MarshalModel.v` on trees, `GraphElem.v` on pointer graphs, with sharing and cycles | C12-C17, C96 |
| xmltree/compare.go | `EqualModel.v` | C18-C20, C96 |
| internal/dependency/graph.go | `GraphModel.v` | C21-C24 |
| xsd/builtin.go, builtin_string.go, xsdgen/builtin.go, builtinSchema, case analysis of genSimpleListSpec | `BuiltinModel.v` | C25, C52, C53, C68 |
| xsd/parse.go: Normalize and its passes (92-128, 205-264, 291-501, 581-606), xsd/search.go, index.go, hasCycle | `NormModel.v` on a heap of cells and slices; `GraphElem.v` for hasCycle | C27-C35, C95 |
| xsd/walk.go, xsd/parse.go 612-1002, Imports, types of xsd/xsd.go | `XsdModel.v` | C26, C40, C41, C67, C70, C71, C74, C105 |
| xmltree.Unmarshal | `UnmModel.v` | C93 |
| xsd/xsd.go 242-290, parseAnnotation: documentation | `DocModel.v` | C89 |
| xsd/parse.go: Parse after Normalize (135-176, 503-574, 628-643, 1018-1109); FindType, XMLName, Base | `TypesModel.v` | C36-C39, C42 |
| xsdgen/xsdgen.go: NameOf, gen, expandComplexTypes, flatten, flatten1, genTypeSpec, nameGenerator, genComplexType, genSimpleType, genSimpleListSpec (declarations) | `SgModel.v`, `SgStruct.v`, `SgGen.v` | C43-C48, C50, C51, C72, C73, C75, C76, C79, C80, C86, C88, C92 |
| xsdgen: methods written by genComplexTypeMethods, genSimpleListSpec and addStandardHelpers, as programs | `CodecModel.v`, `ZeroModel.v`, `BindModel.v` | C54, C55, C69, C81-C83, C94 |
| xsdgen/config.go and wsdlgen/config.go: options | `OptModel.v` | C49, C77 |
| xsdgen/config.go: useFieldNames | `NamesModel.v` | C85 |
| xsdgen/config.go: parseSOAPArrayType, overrideWildcardType | `SoapModel.v` | C57 |
| xsdgen: which methods and functions a file has and what they refer to | `MethodModel.v` | C90 |
| xsdgen/config.go: soapArrayToSlice, the methods it writes; gen.TagKey | `SliceModel.v` | C78 |
| internal/gen/gen.go: Function, FieldList, Declarations, Snippets, parseBlock, FormattedSource, PackageDoc | `FuncModel.v` | C98 |
| xsdgen/cli.go: readFiles, GenAST, lookupTargetNS | `FilesModel.v` | C56 |
| xsdgen/cli.go: GenCode, GenAST, GenCLI over several calls; wsdlgen: GenAST, GenCLI | `CliModel.v` | C91 |
| flags of xsdgen, wsdlgen and xsdparse; Go's package flag | `ArgsModel.v` | C101 |
| wsdl/wsdl.go: Definition.String, Message.String | `ShowModel.v` | C104 |
| xsd/walk.go: parseError, stop, walk, catchParseError; the order of looking in xsd/parse.go:608-964 | `WhereModel.v` (over XsdModel and TypesModel) | C106 |
| xsd/parse.go:503-525, 1017-1098: what the errors tell | `MissModel.v` (over TypesModel) | C107 |
| wsdlgen/wsdlgen.go:142-250, 268-351: what the errors tell | `OopsModel.v` (over WsdlModel) | C108 |
| xsdgen/xsdgen.go:32-40, 134-195, 525-546, 592-767, 868-941, 1118-1127: what the errors tell | `LackModel.v` (over SgGen) | C109 |
| cmd/xsdgen, cmd/wsdlgen: main; wsdlgen/cli.go:82-88; GenSource of xsdgen and wsdlgen; default options | `MainModel.v` (over CliModel and ArgsModel) | C103 |
| xsdgen/cli.go: GenCode, from the texts on | `TextModel.v` (over XsdparseModel and PipeModel) | C102 |
| xsdgen/cli.go: GenCode | `PipeModel.v` (over TypesModel and SgGen) | C87 |
| internal/gen/gen.go: Sanitize, literals, comments, Struct; internal/commandline: replacement rules | `GenModel.v` | C58-C62 |
| wsdl/wsdl.go; wsdlgen/wsdlgen.go 126-351 | `WsdlModel.v` | C63-C65 |
| xsdgen/xsdgen.go: DocType; wsdlgen: getPartType | `PartModel.v` (over PipeModel and SgGen) | C99 |
| wsdlgen/wsdlgen.go 126-150, with the code of xsdgen | `LinkModel.v` (over WsdlModel and PartModel) | C100 |
| wsdlgen/helper.go | `ClientModel.v` | C84 |

## What is simplified or assumed, by model

* **Strings** are byte strings. `unicode.IsSpace` as used by TrimSpace and Fields is its table of white space,
  encoded in UTF-8. Integers in Go `int` are 64 bits where their size matters (C40, C68).
* **Scope**: a scope is the list of its declarations; `ScopeHeap.v` has the arrays, with spare capacity decided by an
  arbitrary function.
* **Tree**: elements are values; pointers to elements are paths.
* **Parse**: encoding/xml's Decoder is an oracle (tokens with offsets, names translated). C13 and C96 use `DecodeModel.v`,
  a strict-mode subset: tags, attributes, text, entities; comments, CDATA, processing instructions and directives
  stop it. Bytes from 0x80 up are accepted in text and not in names.
* **Transcode**: x/text's `transform.Reader` has 4096-byte buffers and `bytes.Buffer` grows by 512 bytes, as in those
  libraries (C66); the decoding of single bytes is arbitrary.
* **Marshal**: text/template is its sequence of writes; the writer is an arbitrary state machine.
* **Equal**: its two arguments share no memory; sort is any function returning a sorted permutation.
* **Normalize**: an element is a cell of an array, a pointer is array and index, slices start at index 0 and grow by an
  arbitrary policy (refutations use doubling). Scopes are values there. A panic in `deref` is not told apart from running
  for ever (`Runs`).
* **Reading types (XsdModel)**: `parseAnnotation` (C89 is about it), `strconv.ParseFloat`, `time.Parse` and
  `regexp.Compile` are arbitrary functions.
* **Documentation (DocModel)**: xmltree.Unmarshal gives the Decoder the children of the element, or the content if there are
  none (`C93_annotation` proves it); the tokens of a content without children are any tokens without tags.
* **Unmarshal (UnmModel)**: of xml.Unmarshal what does not depend on the type: the Decoder of `DecodeModel.v`, read until the first
  element has ended; a carriage return in an attribute value is outside.
* **TypesModel**: the bounds and patterns of restrictions are dropped (they are C70, C71); the expansion nested inside
  the `_self` type is not modelled.
* **xsdgen (Sg models)**: `Elements` and `Attributes` are lists; log output is left out, except where computing its
  arguments panics; `nameTransform`/strings.Title is the arbitrary function `public`; typing of the generated Go code is not
  modelled beyond identifiers (C73, C79); methods and helper functions are in `MethodModel.v` (C90), by their names and what they refer to;
  pre-processing (SOAP arrays, field names) has been done before; `NameOf`'s cache for built-ins is left out. Attribute filters
  look at names only in C48, C75, C76, C79, C80, C86-C88, C92, and so do element filters in C88, C92.
* **Generated methods**: base64, hex, bytes.Fields, strconv and time.Parse/Format are modelled on bytes (time by its
  layout chunks, with the fraction rule of Go 1.17 and later). encoding/xml in `BindModel.v` and `ClientModel.v` is
  typeinfo.go, marshal.go and read.go on trees, as far as generated tags need it, with the newer conflict rule (equal name and
  name space); values are passed by pointer; names contain no `>`; values that are not structs are read and written by arbitrary functions; text is
  related by `reads_back` (C81).
* **Options**: an option is a datum with an interpreter; Configs are on a heap; regular expressions and user functions are
  arbitrary; logging is left out.
* **SOAP**: the copy of a base shares the array of its Elements with the base: modelled as a list of copies that show what is
  written to their original, up to their own length; later steps treat the two as separate lists. A nameless type in
  FindType counts as running for ever. Types copied this way break the distinct-names hypothesis of C79.
* **Files**: the file system and xmltree.Parse are arbitrary functions; a file does not change while it is read.
* **Slice**: how one item is read and written is an arbitrary function on token streams; encoding/xml's treatment of
  Unmarshalers is a few lines of the model; the Go parser accepts the generated text.
* **Pipe**: documents are read and normalised; the helper types are a list; the standard schemas are part of the documents.
* **Text**: the trees that Normalize leaves in memory are read off as values before they are parsed, which xsd.Parse does one by one from the
  memory; this changes nothing as parsing does not write to them. The error is one, whichever text has it.
* **Functions and files** (C98): the Go parser, text/template, fmt.Sprintf, go/format and imports.Process are arbitrary functions
  that fail or return a value; of an error only what failed is modelled.
* **Args**: FlagSet.Parse of Go's package flag; messages and exit status are left out.
* **Main**: a process has one Config and starts with it zero; an end by log.Fatal, by the package flag, by a panic, and no end are told apart, exit codes are not.
* **Cli**: xsd.Parse, gen, wsdl.Parse, FormattedSource are arbitrary functions, and so is whether a file can be
  written; WriteFile writes all or nothing.
* **WSDL**: strings.ToUpper, strings.Title, `NameOf` of types that are not built in, DocType and whether go/parser accepts
  the text are arbitrary; C99 and C100 are about the printer with the DocType and NameOf of xsdgen (for the parts C100 is about NameOf leaves the code as it is, so that looking each one up in the same code is no simplification).
* **Client**: the HTTP server, http.NewRequest, the hook on requests, and the codecs of the structs are arbitrary; the
  context, the response hook, the status and what a struct holds after a read error are left out.

## What is not modelled

* Logging, go/format and go/printer; addSpecMethods' call of the Go parser.
* xmltree.Element.String, which is Marshal.
* Concurrency: nothing in the library starts goroutines; no claim is made on concurrent use of a Config or an Element.
* Time and memory use, except that calls return.

## Findings

Claims that turned out to be false of the code are the theorems `*_refuted`; the most consequential:

* C04: `C04_prefix_inverse_refuted`, `C04_prefix_shadowed_default_refuted`, `C04_prefix_unknown_namespace_refuted`
* C06: `C06_join_of_join_clobbers_refuted`
* C09: `C09_foreign_xmlns_attribute_refuted`
* C101: `C101_late_flag_refuted`
* C103: `C103_missing_file_refuted`
* C104: `C104_elements_refuted`
* C105: `C105_restriction_attributes_refuted`, `C105_paragraphs_refuted`
* C106: `C106_head_refuted`, `C106_element_refuted`
* C107: `C107_name_refuted`
* C108: `C108_untyped_refuted`, `C108_text_refuted`
* C109: `C109_everything_refuted`
* C11: `C11_content_refuted`, `C11_no_space_refuted`, `C11_empty_panics_refuted`
* C12: `C12_subtree_duplicate_declaration_refuted`, `C12_detached_scope_refuted`
* C13: `C13_quote_in_attribute_refuted`, `C13_attribute_in_default_namespace_refuted`, `C13_undeclared_namespace_refuted`, `C13_mixed_content_refuted`
* C15: `C15_deep_trees_truncated_refuted`
* C16: `C16_transient_failure_refuted`
* C17: `C17_prefix_ignored_refuted`
* C18: `C18_repeated_names_order_sensitive_refuted`, `C18_joined_key_refuted`
* C19: `C19_symmetry_refuted`, `C19_repeated_attribute_refuted`
* C25: `C25_xml_attributes_refuted`, `C25_builtin_schema_complete_refuted`
* C26: `C26_each_include_once_refuted`
* C27: `C27_foreign_type_refuted`
* C29: `C29_nested_refuted`
* C30: `C30_siblings_refuted`, `C30_nested_refuted`
* C32: `C32_type_lost_refuted`, `C32_foreign_attribute_refuted`, `C32_type_unnamed_refuted`
* C33: `C33_union_refuted`, `C33_shifted_refuted`, `C33_clash_refuted`
* C34: `C34_two_types_refuted`, `C34_four_types_refuted`
* C35: `C35_refs_left_refuted`
* C37: `C37_shared_namespace_refuted`
* C38: `C38_document_order_refuted`
* C39: `C39_cycle_accepted_refuted`
* C40: `C40_invalid_max_is_an_error_refuted`
* C43: `C43_wildcard_refuted`, `C43_text_refuted`, `C43_thousand_refuted`
* C44: `C44_same_name_refuted`, `C44_ring_refuted`, `C44_restriction_refuted`
* C48: `C48_list_refuted`
* C49: `C49_allow_first_refuted`, `C49_allow_twice_refuted`, `C49_other_config_refuted`, `C49_only_ports_refuted`, `C49_log_level_refuted`
* C50: `C50_masked_refuted`, `C50_asked_twice_refuted`
* C51: `C51_flatten_order_refuted`, `C51_collision_refuted`
* C52: `C52_notation_refuted`
* C53: `C53_every_atomic_refuted`
* C54: `C54_bytes_refuted`
* C55: `C55_hex_space_refuted`, `C55_base64_space_refuted`
* C56: `C56_once_refuted`, `C56_no_location_refuted`, `C56_error_reported_refuted`, `C56_nothing_missing_refuted`
* C57: `C57_attributes_kept_refuted`, `C57_builtin_item_refuted`, `C57_sized_arrays_refuted`, `C57_returns_refuted`, `C57_order_refuted`
* C59: `C59_all_strings_refuted`
* C60: `C60_text_after_a_long_line_refuted`
* C63: `C63_soap12_action_refuted`, `C63_every_service_refuted`, `C63_own_action_refuted`
* C64: `C64_result_count_refuted`, `C64_input_struct_refuted`, `C64_distinct_parameters_refuted`, `C64_hidden_type_refuted`, `C64_distinct_fields_refuted`, `C64_date_refuted`
* C65: `C65_only_ports_refuted`
* C66: `C66_long_documents_corrupted_refuted`
* C67: `C67_element_namespace_refuted`, `C67_prohibited_left_out_refuted`, `C67_attribute_namespace_refuted`
* C68: `C68_byte_refuted`
* C69: `C69_far_years_refuted`, `C69_offset_seconds_refuted`
* C70: `C70_patterns_kept_refuted`
* C71: `C71_linked_datetime_refuted`
* C73: `C73_repeated_refuted`
* C75: `C75_recursive_refuted`
* C78: `C78_methods_refuted`, `C78_names_refuted`, `C78_errors_refuted`
* C79: `C79_recursive_refuted`, `C79_mixed_refuted`, `C79_list_refuted`
* C80: `C80_replaced_refuted`, `C80_excluded_refuted`, `C80_helper_used_refuted`
* C81: `C81_unexported_refuted`, `C81_nested_refuted`, `C81_declaration_refuted`
* C82: `C82_dates_in_order_refuted`, `C82_optional_left_out_refuted`
* C83: `C83_last_occurrence_refuted`
* C84: `C84_response_refuted`
* C85: `C85_order_refuted`, `C85_clash_refuted`
* C86: `C86_text_refuted`, `C86_names_refuted`
* C87: `C87_masked_refuted`, `C87_repeated_refuted`, `C87_imports_last_refuted`
* C88: `C88_firm_refuted`
* C89: `C89_appinfo_refuted`, `C89_markup_refuted`
* C90: `C90_type_t_refuted`, `C90_field_t_refuted`, `C90_field_method_refuted`, `C90_slices_refuted`
* C91: `C91_other_documents_refuted`, `C91_unreadable_refuted`, `C91_rules_refuted`, `C91_namespaces_refuted`, `C91_comment_refuted`
* C92: `C92_kinds_refuted`
* C93: `C93_mixed_content_refuted`, `C93_quote_refuted`, `C93_prefix_read_as_attribute_refuted`
* C94: `C94_reproduced_refuted`, `C94_zone_refuted`
* C95: `C95_group_in_choice_refuted`
* C96: `C96_content_refuted`, `C96_indent_refuted`
* C97: `C97_ns_restricts_refuted`
* C98: `C98_error_kept_refuted`, `C98_parameters_dropped_refuted`, `C98_format_again_refuted`
* C99: `C99_foreign_type_refuted`

Other observations, met while modelling and not stated as theorems: included documents of the same name space are lost
(`C37`, `C87` state when they are not); default values of elements appear only as comments in UnmarshalXML; `omitempty` has no
effect on overridden fields; a union without members has a nil base; `parsePlural` skips maxOccurs when minOccurs exceeds 1;
`parseSimpleContent` ignores the attributes of a restriction; GenAST drops readFiles' error; the nil test in gen.TagKey is inverted;
OnlyTypes matches local names only.

## Properties

For each property: how it is proved, and its theorems.

* **C01 Prefix resolution picks the innermost binding** (proved; PropsScope.v) — ScopeModel.v: `resolve_ns` is the Go loop (from the last entry down). Spec: `innermost` binding relation on the list of declarations. Induction on the list. Theorems: `C01_resolve_innermost`, `C01_every_qname_splits`.
* **C02 Unresolvable and reserved prefixes** (proved; PropsScope.v) — Same model; iff over all scopes and strings. Theorems: `C02_resolve_failure`.
* **C03 ResolveDefault** (proved; PropsScope.v) — Same model; case analysis. Theorems: `C03_resolve_default`.
* **C04 Prefix is the inverse of Resolve** (proved; PropsScope.v) — `prefix` is the Go loop with its accumulator. Inverse law under NoDup of declared prefixes, closed-form description of the result, and `_refuted` witnesses for the unconditional law. Note: inverse law under no_shadowing; three refutations of the unconditional documentation. Theorems: `C04_prefix_result`, `C04_prefix_inverse`, `C04_prefix_inverse_refuted`, `C04_prefix_shadowed_default_refuted`, `C04_prefix_unknown_namespace_refuted`.
* **C05 JoinScope searches the argument first** (proved; PropsScope.v) — `join_scope` = append; law by induction. Aliasing part is C06. Theorems: `C05_join_scope`.
* **C06 Parsing never clobbers a previously captured scope** (proved; PropsScope.v) — Slice heap: arrays, (array, len, cap) headers, append writes in place when capacity is spare. Invariant over every history of pushes: contents of every captured header never change. `_refuted` for JoinScope. Note: refinement for all histories in which no JoinScope result is extended; refutation for the others. Theorems: `C06_scopes_behave_as_values`, `C06_captured_scope_never_clobbered`, `C06_join_of_join_clobbers_refuted`.
* **C07 Attr and SetAttr obey get/set laws** (proved; PropsTree.v) — Attribute lists as lists; laws by induction. Theorems: `C07_attr_first_match`, `C07_setattr`, `C07_setattr_leaves_others`.
* **C08 SearchFunc/Flatten/Search return exactly the matching descendants in document order** (proved; PropsTree.v) — Tree as an inductive type; search returns paths. Spec: set of proper descendant paths, document order on paths. Theorems: `C08_searchfunc_exact`, `C08_searchfunc_document_order`, `C08_searchfunc_once`, `C08_flatten_all_descendants`, `C08_search_by_name`, `C08_document_order_is_strict`.
* **C09 Parse reproduces the document tree** (proved; PropsParse.v, PropsValue.v) — Token level model of Parse: decoder = oracle giving (token, offset) pairs. Spec: tree of a document, serialisation of a document. Both directions by induction. Theorems: `C09_parse_document`, `C09_parse_only_documents`, `C09_foreign_xmlns_attribute_refuted`, `C09_attribute_values`.
* **C10 Parse depth limit, truncation and mismatched tags are errors** (proved; PropsParse.v) — Same model: error outcomes; depth by induction. Theorems: `C10_depth_limit`, `C10_truncated_document`, `C10_no_fuel_error`.
* **C100 The types of a generated client** (proved; PropsLink.v) — C63's model of the printer is instantiated with the code of xsdgen; `part_agrees` shows that its part types are those of C99's getPartType; the types come from C86, C87 and C99. Note: documents as in C99; the method bodies are those of C64 and C65. Theorems: `C100_client`, `C100_missing`.
* **C101 Command lines** (proved; PropsArgs.v) — `line` is the grammar of command lines; `flags_read` proves the parser sound and complete for it by induction over the arguments; the flags are folds over the settings, compared with `said` and `values`; files by C91. Note: Go's package flag is modelled from its source (parseOne); messages and the exit status are left out; regexp.Compile is an arbitrary function. Theorems: `C101_flags`, `C101_xsdgen`, `C101_wsdlgen`, `C101_xsdparse`, `C101_late_flag_refuted`.
* **C102 From the text of schemas to code** (proved; PropsText.v) — C95 and C97 say what Normalize leaves of a plain schema (`normal_form`); `short_read` and `simple_read` read types off it by C17-C20's specifications; `written_types` carries this to all texts; `code_of_texts` applies C87 to what is parsed and `fields_of_texts` C88. Note: for plain schemas; types that extend or restrict others, references and anonymous types are in C87, C88 and C95 apart; the decoder, the sorting of name spaces and the growth of slices are arbitrary functions; the conditions on what is parsed (documents, imports_first) are checked on the real standard schemas in C102_case_standard. Theorems: `C102_read`, `C102_code`, `C102_fields`, `C102_malformed`.
* **C103 The commands xsdgen and wsdlgen** (proved; PropsMain.v) — The default options are computed to one Config (`start`); flags by C101's `line` and `says_x`, their effect by C91's `flagged_is` and `wsdl_left_flags`; `carried_out` describes the rest of the run. Note: the generator, the formatter, regular expressions, the file system and wsdl.Parse are arbitrary functions (C87, C90, C98, C63-C65 are about them); what is written to standard error is left out; C103_source and C103_wsdl_source need a formatter that does not look at the file name and an output that is not among the files read. Theorems: `C103_xsdgen`, `C103_files`, `C103_wsdlgen`, `C103_source`, `C103_source_alone`, `C103_wsdl_source`, `C103_wsdl_source_alone`, `C103_missing_file_refuted`.
* **C104 What Definition.String tells** (proved; PropsShow.v) — Text before the first separator is unique (`split_eq`); lists of types are read back from `joined`; induction over operations, then ports. Note: for definitions whose names have no newlines, port names no spaces, operations no (, and types of parts that are not empty and have no comma, ) or newline; C104_elements_refuted shows the exception. Theorems: `C104_tells`, `C104_lines`, `C104_elements_refuted`.
* **C105 Complex types as they are declared** (proved; PropsContent.v) — Each walk keeps the documentation beside the type (`doc_track`); the other fields by induction over the children; one content between annotations by `one_content`. Note: elements and attributes of complex content are in C41; C105_restriction_attributes_refuted and C105_paragraphs_refuted are the exceptions; the documentation theorems are for annotations of documentations that say something (C89). Theorems: `C105_head`, `C105_mixed`, `C105_simple_content`, `C105_accepted`, `C105_refused`, `C105_documentation`, `C105_simple_type`, `C105_restriction_attributes_refuted`, `C105_paragraphs_refuted`.
* **C106 What errors of xsd.Parse tell** (proved; PropsWhere.v) — `WhereModel` repeats the parse functions with errors that carry the path; `forget` of them is XsdModel (`complex_type_same`, `simple_type_same`, `types_same`); each failing call is analysed into a constructor of `located` or `located_simple`. Note: about normalised schemas, as Parse reads them; messages are left out; C106_head_refuted and C106_element_refuted are the exceptions; where two things of one type are wrong, any of them that the order of the code reaches first may be told. Theorems: `C106_reported`, `C106_where`, `C106_descends`, `C106_child`, `C106_first`, `C106_text`, `C106_head_refuted`, `C106_element_refuted`.
* **C107 What errors of xsd.Parse tell of types that are not found** (proved; PropsMiss.v) — `MissModel` repeats resolvePartialTypes and addElementTypeAliases with errors that tell; forgetting what they tell gives TypesModel (`told_same`), so the invariant of C36 holds up to the failing step, where the definition is as read and `labelled` splits at the first name that lookupType does not know. Note: from the definitions read from normalised schemas; C107_name_refuted is the case of two documents of a namespace; C107_text gives the local names of types, elements and attributes, and the whole name of what is missing; C107_self is for documents whose top-level elements are plain, as in C99. Theorems: `C107_reported`, `C107_told`, `C107_name`, `C107_name_refuted`, `C107_unknown`, `C107_self`, `C107_text`.
* **C108 What the errors of wsdlgen tell** (proved; PropsOops.v) — `OopsModel` repeats getPartType, opArgs, operation and port with errors that tell; forgetting what they tell gives WsdlModel (`untold_ports`), and a map that stops at the first error splits its list there (`map_oops`). Note: C108_untyped_refuted and C108_text_refuted are where the texts mislead or leave out; the text of go/parser is not modelled. Theorems: `C108_reported`, `C108_told`, `C108_untyped_refuted`, `C108_text`, `C108_named`, `C108_text_refuted`.
* **C109 What the errors of xsdgen tell** (proved; PropsLack.v) — `LackModel` gives the error of each type for which SgGen.gen_type fails (`fail_told`). Generating a type only adds fields to it (`grown`), which what is told survives (`lacking_grown`); a type that is generated lacks nothing (`ret_lacks_none`). Note: for runs that neither panic nor loop (see C75, C76, C79 for when they do not); the text of go/parser is not modelled; C109_everything_refuted: one thing is told of each type. Theorems: `C109_reported`, `C109_told`, `C109_everything_refuted`, `C109_lines`.
* **C11 Content of non-UTF-8 documents** (proved; PropsTranscode.v) — Byte-level model of the transcoding branch (padding, `[len(padding)+1:]`) with offsets; what is computed for every document, and a refutation of the expected law. Theorems: `C11_content_off_by_one`, `C11_errors_unchanged`, `C11_content_refuted`, `C11_no_space_refuted`, `C11_empty_panics_refuted`.
* **C12 Marshal emits a self-contained document** (proved; PropsMarshal.v) — Marshal model producing output events, interpreted with the in-force declarations; invariant along the tree. Theorems: `C12_marshal_declares_every_scope`, `C12_parsed_subtrees`, `C12_subtree_duplicate_declaration_refuted`, `C12_detached_scope_refuted`.
* **C13 Parse inverts Marshal** (proved; PropsMarshal.v) — Byte-level model of the subset of encoding/xml's tokenizer needed; composition with the Parse model. Round trip by tree induction; refutations by computation. Theorems: `C13_parse_inverts_marshal`, `C13_scopes_up_to_sorting`, `C13_fixed_point`, `C13_quote_in_attribute_refuted`, `C13_attribute_in_default_namespace_refuted`, `C13_undeclared_namespace_refuted`, `C13_mixed_content_refuted`.
* **C14 diffScope removes exactly the inherited declarations** (proved; PropsMarshal.v) — List lemma about the Go loop. Theorems: `C14_diff_scope_extension`, `C14_diff_scope_longest_common_prefix`.
* **C15 Encode terminates on every element graph, including cyclic ones** (proved; PropsGraphElem.v) — Pointer graph model (finite map from addresses to cells); fuel = unvisited nodes; termination as existence of a result for a computed fuel; agreement with tree encoding. Theorems: `C15_encode_terminates`, `C15_acyclic_graph_as_tree`, `C15_cycles_become_comments`, `C15_deep_trees_truncated_refuted`, `C15_parsed_trees_not_truncated`.
* **C16 Encode reports write errors** (proved; PropsMarshal.v) — Writer as an arbitrary state machine; encode as sequence of write events with checked / unchecked flags. Theorems: `C16_encode_reports_write_errors`, `C16_encode_writes_marshal`, `C16_transient_failure_refuted`.
* **C17 MarshalIndent only adds line breaks and indentation** (proved; PropsMarshal.v) — Marshal model with indent; erasure to Marshal. Theorems: `C17_marshal_indent_layout`, `C17_only_adds_space`, `C17_prefix_has_no_effect`, `C17_prefix_ignored_refuted`.
* **C18 Equal accepts a tree against itself and ignores prefixes and order** (proved; PropsEqual.v) — Model of compare.go with sort as any function returning a sorted permutation. Theorems: `C18_equal_ignores_order_and_space`, `C18_equal_same_order`, `C18_equal_reflexive`, `C18_repeated_names_order_sensitive_refuted`, `C18_joined_key_refuted`.
* **C19 Equal is sound but not symmetric** (proved; PropsEqual.v) — Same model; soundness by induction on trees, refutations by computation. Theorems: `C19_equal_sound`, `C19_deep_trees_never_equal`, `C19_symmetry_refuted`, `C19_repeated_attribute_refuted`.
* **C20 Equal changes its arguments only by reordering children** (proved; PropsEqual.v) — Same model, returning the reordered trees; permutation relation on trees. Theorems: `C20_equal_only_reorders`.
* **C21 Graph.Flatten visits every vertex exactly once** (proved; PropsGraph.v) — graph.go as lists and association lists; DFS with fuel proved sufficient. Theorems: `C21_flatten_visits_every_vertex_once`.
* **C22 Graph.Flatten visits dependencies first** (proved; PropsGraph.v) — DFS invariant with grey/black sets. Theorems: `C22_flatten_visits_dependencies_first`.
* **C23 Graph.Flatten order is determined by the edge set** (proved; PropsGraph.v) — Extensionality of DFS in adjacency; canonical form of sorted sets. Theorems: `C23_flatten_depends_on_edge_set_only`.
* **C24 Graph.Len counts distinct targets** (proved; PropsGraph.v) — Binary search invariant. Theorems: `C24_len_counts_distinct_targets`, `C24_sets_sorted_and_duplicate_free`.
* **C25 Builtin names and ParseBuiltin are inverse** (proved; PropsBuiltin.v) — Tables as in the code; finite check for the 50 values plus a proof for all other names. Theorems: `C25_parse_builtin`, `C25_names_distinct`, `C25_w3c_names`, `C25_xml_attributes_refuted`, `C25_builtin_schema`, `C25_builtin_schema_complete_refuted`.
* **C26 Imports lists every import and include** (proved; PropsXsd.v) — Imports over the tree model; spec by document-order lists. Theorems: `C26_imports`, `C26_lists_unique`, `C26_each_include_once_refuted`.
* **C27 Default types** (proved; PropsNorm.v) — Normalize pass as in-place update of matching descendants; spec pointwise on paths. Note: for scopes without shadowed prefixes; refuted otherwise. Theorems: `C27_parsed_memory`, `C27_default_types`, `C27_default_resolves`, `C27_foreign_type_refuted`.
* **C28 Choice members become optional** (proved; PropsNorm.v) — idem. Theorems: `C28_choices_optional`.
* **C29 complexType shorthand is expanded** (proved; PropsNorm.v) — idem; idempotence. Theorems: `C29_expanded`, `C29_long_form`, `C29_every_type_has_content`, `C29_idempotent`, `C29_nested_refuted`.
* **C30 Groups are unpacked in place** (proved; PropsRefs.v) — idem; refutation of full unpacking by computation. Note: under groups_apart, for shared memory; two refutations show groups left behind otherwise. Theorems: `C30_unpacked`, `C30_unpacked_all`, `C30_no_groups_left`, `C30_no_groups_no_change`, `C30_siblings_refuted`, `C30_nested_refuted`.
* **C31 hasCycle detects exactly the reachable cycles** (proved; PropsGraphElem.v) — Pointer graph; iff by DFS invariants. Theorems: `C31_has_cycle_exact`.
* **C32 deref merges reference and definition** (proved; PropsRefs.v) — deref over attribute lists; refutation using the composition with the defaulting pass. Note: for attributes that do not clash across namespaces; three refutations, including the default type that overrides the definition's. Theorems: `C32_merged`, `C32_attributes`, `C32_type`, `C32_type_lost_refuted`, `C32_foreign_attribute_refuted`, `C32_type_unnamed_refuted`.
* **C33 Anonymous types get unique names** (proved; PropsAnon.v) — Counter threading over the list of schema trees. Note: for schemas where each element has one anonymous type, nothing after it has one, and a top-level declaration with one comes before all others with one; unions with several anonymous members, what follows an anonymous type in its parent, and a type already called _anon1 refuted by witnesses; fuel covers the height of the tree. Theorems: `C33_named_together`, `C33_in_order`, `C33_reference_resolves`, `C33_reference_says`, `C33_unexpected_iff`, `C33_error_iff`, `C33_union_refuted`, `C33_shifted_refuted`, `C33_clash_refuted`.
* **C34 Hoisting anonymous types through pointers** (proved; PropsAnon.v) — Heap of cells and slices; refinement of the in-place pass to a function on trees, for every growth policy where it holds; refutation by execution otherwise. Note: refinement to a tree function in every memory with enough room in the root's child slice, and for every growth policy when a top-level declaration with an anonymous type comes first; without room refuted: the type is copied but stays in place. Theorems: `C34_copied`, `C34_named`, `C34_copied_together`, `C34_copy_tree`, `C34_distinct_names`, `C34_two_types_refuted`, `C34_four_types_refuted`.
* **C35 Unknown and recursive references** (proved; PropsRefs.v) — flattenRef over a store of cells; error iff missing; refutations by execution. Note: error characterised exactly; result and absence of references when definitions are completed first (timely); refuted otherwise; divergence of recursive groups proved for every fuel. Theorems: `C35_flattened`, `C35_no_refs_left`, `C35_error_iff`, `C35_no_panic`, `C35_cycle_check_is_dead`, `C35_refs_left_refuted`, `C35_recursive_never_ends`.
* **C36 Parse leaves no unresolved type reference** (proved; PropsTypes.v) — Types as heap of nodes; map iteration = arbitrary permutation. Note: error/success characterised for every order; order independence under unique type names and chains within the depth limit. Theorems: `C36_read_by_name`, `C36_resolved`, `C36_error`, `C36_order`, `C36_unique_names`, `C36_keyed`.
* **C37 Every declared type is returned by Parse** (proved; PropsTypes.v) — Parse's `parsed` map; union over schemas; refutation. Note: positive theorem under its two conditions; refuted for documents that share a namespace. Theorems: `C37_declared`, `C37_shared_namespace_refuted`.
* **C38 Mixed content propagation** (proved; PropsTypes.v) — Heap model; inductive spec of mixed; permutation independence. Note: Mixed characterised; the panic is characterised and exhibited. Theorems: `C38_mixed`, `C38_panic`, `C38_document_order_refuted`.
* **C39 Base chains end in a Builtin** (proved; PropsTypes.v) — Well-founded base relation; refutation by a cyclic schema that resolves. Note: chains end in a builtin when finite; cyclic bases are accepted (refuted). Theorems: `C39_ends_in_builtin`, `C39_cycle_accepted_refuted`.
* **C40 Occurrence constraints** (proved; PropsContent.v, PropsXsd.v) — String-level model of parseInt/parseBool/parsePlural. Theorems: `C40_element_kept`, `C40_wildcard_type`, `C40_integers`, `C40_booleans`, `C40_plural`, `C40_element`, `C40_element_accepted`, `C40_invalid_max_is_an_error_refuted`, `C40_wildcard`.
* **C41 Repeated elements are merged** (proved; PropsXsd.v) — Fold model of the merge loop. Theorems: `C41_merge`, `C41_firsts_distinct`, `C41_complex_type`.
* **C42 FindType** (proved; PropsTypes.v) — Permutation-indexed model. Theorems: `C42_find_type`.
* **C43 Struct field names are distinct** (proved; PropsSg.v) — Model of nameGenerator with a list of used names. Note: up to 1001 requests, for structs without wildcard and text; the other fields in general; three refutations. Theorems: `C43_generator`, `C43_first_comer_keeps_its_name`, `C43_struct`, `C43_plain_fields`, `C43_field_names`, `C43_attribute_suffix`, `C43_wildcard_refuted`, `C43_text_refuted`, `C43_thousand_refuted`.
* **C44 Derived types contain inherited fields** (proved; PropsExpand.v) — expandComplexTypes in dependency order over a type map; inheritance spec by recursion on ancestors. Note: C44_expand: expandComplexTypes returns; every wanted derived type gets exactly the fields of `inherits` (C44_nearest: the nearest type of the lineage having that name) and Extends=false, everything else is unchanged. Hypotheses: base chains end in a Builtin, distinct type names, no duplicates in the list; C44_after_flatten shows that flatten's result meets them. C44_again: idempotent across schemas. Without distinct names / with cycles / for restrictions the claim fails: *_refuted. Theorems: `C44_expand`, `C44_nearest`, `C44_again`, `C44_after_flatten`, `C44_same_name_refuted`, `C44_ring_refuted`, `C44_restriction_refuted`.
* **C45 Restrictions inherit attributes** (proved; PropsSg.v) — List model. Theorems: `C45_merge`, `C45_distinct`.
* **C46 IgnoreAttributes and IgnoreElements** (proved; PropsSg.v) — List model. Theorems: `C46_names`, `C46_no_filter`.
* **C47 dedup keeps the first type of each name** (proved; PropsSg.v) — List model. Theorems: `C47_dedup`, `C47_named_types`.
* **C48 Simple types are flattened to built-ins** (proved; PropsFlat.v) — flatten1 on simple types. Note: for every resolved set of types, recursive ones included; attribute filters by name; list types lost under restriction is refuted. Theorems: `C48_simple_type`, `C48_flatten`, `C48_list_refuted`.
* **C49 Options can be reverted** (proved; PropsOpt.v) — Config record, options as functions returning (config, undo). Note: options as data with an interpreter; Configs on a heap; the exceptions are proved as *_refuted for all configurations they concern. Theorems: `C49_revert`, `C49_revert_all`, `C49_method_reverts_last`, `C49_allow_type`, `C49_allow_first_refuted`, `C49_allow_twice_refuted`, `C49_other_config_refuted`, `C49_wsdlgen`, `C49_only_ports_refuted`, `C49_log_level_refuted`.
* **C50 Missing namespaces are reported** (proved; PropsSg.v) — Model of the check; refutation. Note: for distinct namespaces; two refutations for repeated ones. Theorems: `C50_found`, `C50_missing`, `C50_masked_refuted`, `C50_asked_twice_refuted`.
* **C51 Generated declarations are ordered and independent of map order** (proved; PropsFlat.v, PropsSg.v) — Map of specs by name; sort; permutations. Note: for the specs in any order; collision refuted; dependence of flattening on the map order refuted. Theorems: `C51_flatten_order_refuted`, `C51_sorted_once`, `C51_any_order`, `C51_collision_refuted`.
* **C52 Every built-in maps to a Go type** (proved; PropsBuiltin.v) — Table model with explicit panic outcome. Theorems: `C52_total`, `C52_panics`, `C52_go_types`, `C52_notation_refuted`.
* **C53 List types** (proved; PropsBuiltin.v) — Table model over base chains. Theorems: `C53_lists`, `C53_panic`, `C53_every_atomic_refuted`.
* **C54 Generated list codecs round-trip** (proved; PropsCodec.v) — bytes.Fields / strconv.Itoa/Atoi models on strings. Theorems: `C54_strings`, `C54_ints`, `C54_uints`, `C54_items`, `C54_accepts_ints`, `C54_bytes_refuted`.
* **C55 Generated binary codecs round-trip** (proved; PropsCodec.v) — hex and base64 functions modelled on byte lists. Theorems: `C55_hex`, `C55_hex_text`, `C55_base64`, `C55_base64_text`, `C55_base64_wrapped`, `C55_hex_space_refuted`, `C55_base64_space_refuted`.
* **C56 Following imports** (proved; PropsFiles.v) — Import graph model with fuel; refutation for cycles. Note: file system and XML parser are arbitrary; C56_loaded, C56_returns and C56_cycle cover every import graph. The exceptions are *_refuted (C56_error_reported_refuted holds for every GenCode). Theorems: `C56_loaded`, `C56_returns`, `C56_cycle`, `C56_no_follow`, `C56_once_refuted`, `C56_no_location_refuted`, `C56_error_reported_refuted`, `C56_nothing_missing_refuted`.
* **C57 SOAP array item types** (proved; PropsSoap.v) — Type heap model. Note: C57_array gives the result for every array type whose base chain ends (C57_plain: all others unchanged). The array of Elements shared by a base and its copies is modelled (C57_shared, C57_copy). Exceptions as *_refuted. Theorems: `C57_array`, `C57_shared`, `C57_plain`, `C57_others`, `C57_schema`, `C57_copy`, `C57_again`, `C57_attributes_kept_refuted`, `C57_builtin_item_refuted`, `C57_sized_arrays_refuted`, `C57_returns_refuted`, `C57_order_refuted`.
* **C58 Sanitize never yields a Go keyword** (proved; PropsGen.v) — Keyword table. Theorems: `C58_never_a_keyword`, `C58_others_unchanged`, `C58_collisions`.
* **C59 String literals denote their argument** (proved; PropsGen.v) — Models of strconv.Quote on bytes / raw string literal semantics. Theorems: `C59_quoted_denotes`, `C59_literal_denotes`, `C59_one_meaning`, `C59_all_strings_refuted`.
* **C60 Documentation cannot escape its comment** (proved; PropsGen.v) — bufio.ScanLines model. Theorems: `C60_every_line_is_a_comment`, `C60_text_kept`, `C60_text_cut`, `C60_lines_total`, `C60_in_order`, `C60_text_after_a_long_line_refuted`.
* **C61 Struct pairs names, types and tags** (proved; PropsGen.v) — List model with panic. Theorems: `C61_struct_fields`.
* **C62 Replacement rules** (proved; PropsGen.v) — String model. Theorems: `C62_one_rule`, `C62_command_line_order`.
* **C63 WSDL messages and operations** (proved; PropsWsdl.v) — Tree model. Note: all trees; C63_definition also shows that the relation reads_definition determines documentation and ports, C63_messages the messages. Exceptions as *_refuted. strings.ToUpper is an arbitrary function. Theorems: `C63_messages`, `C63_definition`, `C63_one_binding`, `C63_no_binding`, `C63_one_action`, `C63_soap12_action_refuted`, `C63_every_service_refuted`, `C63_own_action_refuted`.
* **C64 Argument thresholds** (proved; PropsWsdl.v) — List model of opArgs. Note: C64_declared gives the declarations of every operation; the cases in which they are wrong Go or wrong SOAP are *_refuted and C64_result_struct_unused (universal). strings.Title, NameOf for types not built in, DocType and the Go parser are arbitrary. Theorems: `C64_declared`, `C64_parameter_name`, `C64_result_struct_unused`, `C64_result_count_refuted`, `C64_input_struct_refuted`, `C64_distinct_parameters_refuted`, `C64_hidden_type_refuted`, `C64_distinct_fields_refuted`, `C64_date_refuted`.
* **C65 Methods of the ports, OnlyPorts** (proved; PropsWsdl.v) — Model of the port loop. Note: C65_methods and C65_fails: which methods there are; C65_filter_ignored: OnlyPorts never matters (universal), with the counterexample to its documentation. Theorems: `C65_methods`, `C65_fails`, `C65_operation_fails`, `C65_one_way_fails`, `C65_filter_ignored`, `C65_only_ports_refuted`.
* **C66 Transcoding in place** (proved; PropsTranscode.v) — Model of the reader and the buffer that share one array; invariant on what has been read, moved and overwritten; the condition on sizes under which nothing is lost. Theorems: `C66_copy_in_place`, `C66_long_documents_corrupted_refuted`.
* **C67 Element and attribute names** (proved; PropsXsd.v) — XsdModel: parseElement, parseAttribute; names as a function of form and target name space. Theorems: `C67_element_type_and_name`, `C67_element_namespace_refuted`, `C67_attribute`, `C67_prohibited_left_out_refuted`, `C67_attribute_namespace_refuted`.
* **C68 Bounded integers fit their Go types** (proved; PropsBuiltin.v) — Tables: facets of the built-in types against the range of the Go type each maps to. Theorems: `C68_ranges`, `C68_byte_refuted`.
* **C69 Generated date and time codecs round-trip** (proved; PropsCodec.v) — time.Parse/Format as a walk over the chunks of a layout; round trip by chunks. Theorems: `C69_dateTime`, `C69_date`, `C69_time`, `C69_gDay`, `C69_gMonth`, `C69_gMonthDay`, `C69_gYear`, `C69_gYearMonth`, `C69_white_space`, `C69_far_years_refuted`, `C69_offset_seconds_refuted`.
* **C70 Facets of simple types** (proved; PropsContent.v, PropsXsd.v) — XsdModel: fold over the facets; what each sets, errors. Theorems: `C70_documentation`, `C70_uncompiled`, `C70_facets`, `C70_patterns`, `C70_patterns_kept_refuted`.
* **C71 Bounds of simple types** (proved; PropsContent.v, PropsXsd.v) — XsdModel: bounds as read against bounds as written; refutations. Theorems: `C71_linked`, `C71_bounds`, `C71_linked_datetime_refuted`.
* **C72 Fields are bound to their elements and attributes** (proved; PropsSg.v) — Struct tags read back by a model of typeinfo.go; induction over the fields of genComplexType. Note: struct tags are read by a model of encoding/xml's typeinfo.go. Theorems: `C72_fields`, `C72_inherited`, `C72_simple`, `C72_element_tag`, `C72_attribute_tag`.
* **C73 Conversions match the fields they convert** (proved; PropsSg.v) — genComplexTypeMethods against genComplexType's field types. Note: types match for fields that are not repeated; refuted for repeated ones. Theorems: `C73_overlays`, `C73_complete`, `C73_repeated_refuted`.
* **C74 Simple type definitions** (proved; PropsXsd.v) — XsdModel: parseSimpleType by cases. Theorems: `C74_simple_type`.
* **C75 Generated code is closed** (proved; PropsExpand.v, PropsFlat.v) — Closure of the flattened set under reference; ranks by containment up to the depth limit. Note: for non-recursive types of depth up to 1000; refuted for recursive ones. Theorems: `C75_fields`, `C75_closed`, `C75_recursive_refuted`.
* **C76 Recursive types: flattening returns, but at what price** (proved; PropsFlat.v) — Termination of flatten for every store, by the set of types not yet seen; what recursion leaves unflattened. Note: attribute filters by name. Theorems: `C76_returns`, `C76_doubles`.
* **C77 Options take effect in order** (proved; PropsOpt.v) — Interpreter of options; algebra of two options in a row; refutations. Note: regular expressions and user functions are arbitrary; logging left out. Theorems: `C77_effects`.
* **C78 SOAP arrays become slices that read back what they write** (proved; PropsSlice.v) — Which declarations become slices; the two generated methods as programs on token streams; round trip for every item codec. Note: C78_slice, C78_only: which types; the methods as programs on token streams with arbitrary decoding and encoding of single items; encoding/xml's treatment of Unmarshalers is a few lines of the model; exceptions as *_refuted. Theorems: `C78_slice`, `C78_only`, `C78_all`, `C78_unmarshal`, `C78_round_trip`, `C78_returns`, `C78_array_type`, `C78_methods`, `C78_methods_refuted`, `C78_names_refuted`, `C78_errors_refuted`.
* **C79 Every type the generated code mentions is declared** (proved; PropsCode.v) — Invariant over the fold of gen from schema to schema: every name mentioned is declared, built in or still to come; closure of flatten composed with expand. Note: C79_closed, C79_present under `generable` (resolved, distinct names, ranked by containment up to depth 1000, mixed content over mixed content, built-ins with a Go type, lists with methods); attribute filters look at names only; the store is that after pre-processing, so SOAP arrays whose base was copied (two types of one name) are not covered; methods are not part of the declarations here; without the hypotheses refuted by witnesses. Theorems: `C79_closed`, `C79_present`, `C79_nothing_else`, `C79_recursive_refuted`, `C79_mixed_refuted`, `C79_list_refuted`.
* **C80 NameOf gives names that exist** (proved; PropsCode.v) — NameOf against the declarations made by gen, through the same invariant. Note: same hypotheses as C79; the types replaced and those filtered out are *_refuted. Theorems: `C80_declared`, `C80_plain`, `C80_replaced_refuted`, `C80_excluded_refuted`, `C80_helper_used_refuted`.
* **C81 Values of generated types survive encoding/xml** (proved; PropsBind.v) — encoding/xml on trees; round trip by induction on the depth of the value; the override fields of MarshalXML/UnmarshalXML. Note: encoding/xml (typeinfo.go, marshal.go, read.go) modelled on trees of names, attributes and text as far as the generated tags need it; text-level encoding is the relation reads_back; values of types that are not structs, their printing, reading and emptiness are arbitrary (hypothesis: they survive); the exceptions are *_refuted. Theorems: `C81_round_trip`, `C81_unexported_refuted`, `C81_nested_refuted`, `C81_declaration_refuted`.
* **C82 Elements are written as the schema orders them** (proved; PropsBind.v) — Same model: order of the written children is that of the fields, which is that of the schema's elements. Note: same model of encoding/xml as C81; complex types without mixed content; the exceptions are *_refuted. Theorems: `C82_elements`, `C82_in_order`, `C82_dates_in_order_refuted`, `C82_optional_left_out_refuted`.
* **C83 What xml.Unmarshal puts into the fields** (proved; PropsBind.v) — Same model: fold over attributes and children; each step changes the field its name selects and no other. Note: same model of encoding/xml as C81; at most one wildcard in a type; names apart as in C81; read errors of simple values are arbitrary. Theorems: `C83_decoded`, `C83_order_irrelevant`, `C83_unknown_element`, `C83_unknown_attribute`, `C83_nothing_required`, `C83_last_occurrence_refuted`.
* **C84 A call of the generated SOAP client** (proved; PropsClient.v) — Method `do` as a program over oracles for server and codecs; the envelope by encoding/xml on trees. Note: encoding of the envelope follows encoding/xml on trees; the HTTP server, http.NewRequest, the request hook and how arguments and results are written and read are arbitrary functions; context, response hook and the struct after a read error are left out; the lost response is C84_response_refuted and, for all responses, C84_ignored. Theorems: `C84_request`, `C84_not_sent`, `C84_result`, `C84_no_answer`, `C84_ignored`, `C84_response_refuted`, `C84_arguments_unused`.
* **C85 UseFieldNames names anonymous types** (proved; PropsNames.v) — Fold over an arbitrary order of the map; names given as a function of the first user of an anonymous type. Note: UseFieldNames as the only pre-processing step; the order of Go's map is the arbitrary list l; the exceptions are *_refuted. Theorems: `C85_kept`, `C85_returns`, `C85_still_anonymous`, `C85_named`, `C85_any_order`, `C85_generable`, `C85_order_refuted`, `C85_clash_refuted`.
* **C86 The generated code does not depend on map order** (proved; PropsOrder.v) — Two runs related by a simulation on stores; declarations equal for all orders of all schemas. Note: C79's hypotheses plus steady, wild_named, names_apart (among the types that are selected or referred to by such); orders are arbitrary lists with the same elements; methods are not part of the declarations here, they are functions of the specs; text over text and equal Go names are *_refuted. Theorems: `C86_same_code`, `C86_text_refuted`, `C86_names_refuted`.
* **C87 From schema documents to code: what Config.GenCode does with a set of documents** (proved; PropsPipe.v, PropsRefuse.v) — Composition of TypesModel and SgGen: hypotheses on documents imply those of C79, C80, C86. Note: hypotheses stated on what the documents declare (documents, imports_first, orderly), ranks up to depth 1000; documents are read and normalised beforehand (C87_case goes from XML trees); addStandardHelpers is the list of helper types; the documents' order is refuted by C87_imports_last_refuted (a panic); the report of missing namespaces counts documents: C87_masked_refuted, C87_repeated_refuted. Theorems: `C87_parses`, `C87_code`, `C87_order`, `C87_missing`, `C87_masked_refuted`, `C87_repeated_refuted`, `C87_imports_last_refuted`, `C87_refused`, `C87_unknown`.
* **C88 What the generated declarations look like** (proved; PropsPipeWhole.v, PropsShape.v) — Invariant `tracks` from schema to schema: what the store holds against the types as they were at the start; shape of declarations in terms of `inherits` and the original types. Note: C79's hypotheses plus wild_named (wildcards are the nameless elements, as the parser makes them) and firm; types are those before gen runs; shape, struct_for, elem_field etc. in SgShapeSpec.v do not mention gen; the elements lost without firm are C88_firm_refuted; documentation of simple types is C75; C88_documents is the same from the documents on. Theorems: `C88_documents`, `C88_shape`, `C88_firm_refuted`.
* **C89 Documentation of annotations** (proved; PropsDoc.v) — Tokens of a tree (`inner`), skipping and reading one element by induction on the tree, then the loop by induction on the children; trimming by `trim_unique` (C19) and a lemma that no white space character longer than a byte contains a newline. Note: encoding/xml is a token stream (Token, Skip, DecodeElement into []byte); raw, the tokens of a text without tags, is any function whose results have no tags; documentation before the first other child only: C89_after_other says exactly what is lost, C89_appinfo_refuted and C89_markup_refuted are witnesses. Theorems: `C89_total`, `C89_documentation`, `C89_paragraphs`, `C89_after_other`, `C89_element`, `C89_attribute`, `C89_appinfo_refuted`, `C89_markup_refuted`.
* **C90 The methods and functions of a generated file** (proved; PropsMethod.v) — An invariant of declarations (`made`: a list, a text type, a struct with its overrides, a slice of one, or a helper) kept by flattening, expanding and generating, from which each method's references follow; then induction over the blocks of the file for the helper functions. Note: of a body only what it refers to in the same file is modelled; what the bodies do is C54, C55, C69, C78, C81-C83; distinct methods, valid local declarations and fields apart from methods need the stated conditions, and the four refutations are their witnesses. Theorems: `C90_file`, `C90_bodies`, `C90_helpers`, `C90_type_t_refuted`, `C90_field_t_refuted`, `C90_field_method_refuted`, `C90_slices_refuted`.
* **C91 A Config used more than once; GenCLI** (proved; PropsCli.v) — GenCode in closed form (`code_is`): its result and the Config it leaves as functions of the Config alone; histories by induction over the operations; GenCLI's options as a fold over setters that commute with changes of the fields they overwrite. Note: Configs are on a heap (OptModel) with the helpers left and the file system; parsing, generating, formatting and whether a file can be written are arbitrary functions; flags are already parsed; the witnesses use the model of GenCode (C87) on two documents. Theorems: `C91_history`, `C91_repeated`, `C91_apart`, `C91_remembered`, `C91_cli`, `C91_cli_fresh`, `C91_wsdl`, `C91_wsdl_left`, `C91_other_documents_refuted`, `C91_unreadable_refuted`, `C91_rules_refuted`, `C91_namespaces_refuted`, `C91_comment_refuted`.
* **C92 Values of all the types of a generated file** (proved; PropsPipeWhole.v, PropsWhole.v) — Where a declared struct comes from (`made`, an invariant of generation kept beside the shape of C88); its elements and attributes are those inherited in the original store but for their types (`kept`), so that names, tags and kinds of types carry over; then C81-C83 for the structs among the declarations. From the documents on: wild_declared and firm_declared carry over to the store that Parse makes. Note: composes the model of generation (SgGen) with that of encoding/xml (BindModel): the conditions of C81-C83 on generated structs follow from conditions on the types of the schema; how simple values are written and read is an arbitrary codec that inverts itself; replacing structs by slices (SOAP arrays) is off; C92_documents and C92_documents_decoded start from the documents, with only clear_code (names and kinds of fields) stated of the parsed types. Theorems: `C92_documents`, `C92_documents_decoded`, `C92_round_trip`, `C92_elements`, `C92_decoded`, `C92_kinds_refuted`.
* **C93 Unmarshal reads of an element what the document has there** (proved; PropsUnm.v, PropsValue.v) — Tokens of a document as a node (`dnode`, by induction over the ghost document of C01); no two texts in a row (`lone`), so that the content of a leaf is one text; the round trip of C13, without its condition on prefixes declared twice; then C92 through `reads_back`. Note: of xml.Unmarshal what does not depend on the type is in UnmModel: the Decoder read up to the end of the first element; documents with comments, processing instructions, CDATA and character references are outside DecodeModel. Theorems: `C93_tree_as_read`, `C93_exact`, `C93_characters`, `C93_annotation`, `C93_part_of_document`, `C93_parse_loses_nothing`, `C93_generated_types`, `C93_mixed_content_refuted`, `C93_quote_refuted`, `C93_prefix_read_as_attribute_refuted`, `C93_attribute_values`.
* **C94 Zero times are not written** (proved; PropsZero.v) — Day numbers by the usual closed formula, tied to the calendar by the successor laws; bounds on months and years; invariant of parse_chunks on which fields a layout can set; C69 for the rest. Note: IsZero is computed from civil fields (C94_calendar ties the day count to the calendar); of encoding/xml: a MarshalXML that writes nothing leaves no trace, nameless attributes are skipped. Theorems: `C94_calendar`, `C94_left_out`, `C94_element`, `C94_attribute`, `C94_instant`, `C94_always_written`, `C94_reproduced_refuted`, `C94_zone_refuted`.
* **C95 Normalising again changes nothing** (proved; PropsAgain.v) — Each pass is the identity on memory if its search finds nothing or writes what is there; the passes that do something are composed from C27-C29, showing that each keeps what the others establish. Beside other schemas: the invariant of C97 says that what happens to the others does not touch the memory of this one, and each pass is followed on it alone. Note: on the memory model of Normalize; fuel at least three times the height, as expansion adds two levels per complexType. Theorems: `C95_normal_unchanged`, `C95_reaches_normal`, `C95_twice`, `C95_among`, `C95_group_in_choice_refuted`.
* **C96 Parse inverts MarshalIndent** (proved; PropsIndent.v) — As C13, with one text token before each tag: the newline after a tag and the indentation before the next are one text. The positions of the tokens are those of the document with these texts. Note: on the byte-level Decoder model of C13; hypotheses on names and values as there. Theorems: `C96_parse_inverts_indent`, `C96_scopes_up_to_sorting`, `C96_again`, `C96_equal`, `C96_equal_marshal`, `C96_content_refuted`, `C96_indent_refuted`.
* **C97 What xsdparse prints** (proved; PropsXsdparse.v) — An invariant of all passes of Normalize on any schemas whatever: pointers reached from the roots stay in a set of arrays that is closed under reachability and apart from the arrays the roots are in, so that only the children of roots are written. The example runs the model on the four documents of the package. For printing again: every pass on a plain schema keeps what can be written (names of the XML Schema namespace get the same prefix whatever their local part), C96 reads it back up to the order of declarations, and on a normal form all passes are the identity. Note: encoding/xml, the sorting of name spaces and the contents of StandardSchema are parameters; the claim that -ns restricts the output is refuted; the documents of the example are those of the package without annotations; the theorem about printing again is for files with one schema and the modelled decoder, and says nothing of whether the second run succeeds. Theorems: `C97_normalize`, `C97_output`, `C97_plain_output`, `C97_read_again`, `C97_again`, `C97_ns_ignored`, `C97_ns_restricts_refuted`, `C97_no_panic`.
* **C98 Functions, blocks of source and the text of files** (proved; PropsFunc.v) — Relational descriptions of fields (`is_field`), lists of fields, documentation and bodies; the model agrees with them in both directions. The text of a file is put together from C60's comments. Note: the Go parser, text/template, fmt.Sprintf, go/format and imports.Process are arbitrary functions that fail or return a value; the name of the program is a parameter. Theorems: `C98_decl`, `C98_calls`, `C98_comment`, `C98_error_kept_refuted`, `C98_parameters_dropped_refuted`, `C98_blocks`, `C98_snippets`, `C98_source`, `C98_marked`, `C98_format_again_refuted`.
* **C99 Parts of messages that refer to elements** (proved; PropsPart.v) — The elements below the root of a document are those of its `_self` type, with their types resolved (on the model of reading and of Parse); generation never touches a type that nothing uses (`gen_alone`, induction over all steps of gen); `NameOf` is C86's. Note: documents as in C87 (read, normalised, what they import first), whose top-level elements have distinct names and nothing declared inside them, and no type of which uses the type that stands for a document (_self). Theorems: `C99_elements`, `C99_foreign_type_refuted`.
