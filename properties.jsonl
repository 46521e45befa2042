{"id": "C01", "title": "Prefix resolution picks the innermost binding", "statement": "Scope.ResolveNS(\"p:l\"), for a prefix p other than xml/xmlns, returns the namespace of the innermost (last) declaration of p in the scope together with true; a name without a colon resolves through the innermost default declaration; only the first colon splits the name.", "quantifier": "every scope, every QName string", "why_tests_cant": "scopes and QNames are unbounded; shadowing depth is arbitrary", "anchors": ["xmltree/xmltree.go:Scope.ResolveNS", "xmltree/xmltree.go:Scope.Resolve"]}
{"id": "C02", "title": "Unresolvable and reserved prefixes", "statement": "ResolveNS reports false exactly when the prefix is neither xml nor xmlns and has no declaration in the scope, and then the returned Space is the prefix itself; the prefixes xml and xmlns always resolve to their fixed namespaces whatever the scope declares; Local is always the text after the first colon.", "quantifier": "every scope, every QName string", "why_tests_cant": "absence of a binding must be checked against every scope", "anchors": ["xmltree/xmltree.go:Scope.ResolveNS"]}
{"id": "C03", "title": "ResolveDefault", "statement": "ResolveDefault(q, d) equals {d, q} when d is non-empty and q has no colon, and equals Resolve(q) otherwise.", "quantifier": "every scope, QName and default namespace", "why_tests_cant": "the three-way case split ranges over all strings", "anchors": ["xmltree/xmltree.go:Scope.ResolveDefault"]}
{"id": "C04", "title": "Prefix is the inverse of Resolve", "statement": "For a name whose namespace is declared in the scope, Prefix returns Local (if the namespace is also declared as a default namespace) or p:Local for the closest declared prefix p; Resolve(Prefix(n)) = n whenever no prefix is declared twice in the scope. Without that condition the inverse law is false (a shadowed prefix or default is still used), and for an undeclared namespace Prefix returns the empty string instead of the documented unqualified name.", "quantifier": "every scope and every name", "why_tests_cant": "the law must hold for every combination of declarations, in particular shadowed ones", "anchors": ["xmltree/xmltree.go:Scope.Prefix"]}
{"id": "C05", "title": "JoinScope searches the argument first", "statement": "Resolving through outer.JoinScope(inner) gives inner's answer when inner resolves the prefix and outer's answer otherwise; the receiver and argument still resolve everything as before.", "quantifier": "every pair of scopes and every QName", "why_tests_cant": "unbounded scopes and names", "anchors": ["xmltree/xmltree.go:Scope.JoinScope"]}
{"id": "C06", "title": "Parsing never clobbers a previously captured scope", "statement": "Scopes share backing arrays, yet no namespace declaration processed later during parsing (siblings, descendants, later elements, in any order) changes what a previously captured Scope contains; this depends on the capacity clipping after each push. JoinScope results are not clipped: two joins on one such result can overwrite each other.", "quantifier": "every history of scope copies and pushes", "why_tests_cant": "aliasing bugs only show for particular capacities and interleavings of appends", "anchors": ["xmltree/xmltree.go:Scope.pushNS", "xmltree/xmltree.go:Element.parse", "xmltree/xmltree.go:Scope.JoinScope"]}
{"id": "C07", "title": "Attr and SetAttr obey get/set laws", "statement": "After SetAttr(space, local, v), Attr(space, local) returns v; attributes other than the one written (the first match) are unchanged and keep their order; at most one attribute is appended, and only if none matched; an empty space matches any namespace.", "quantifier": "every attribute list, name and value", "why_tests_cant": "all attribute lists and duplicate-name patterns", "anchors": ["xmltree/xmltree.go:Element.Attr", "xmltree/xmltree.go:Element.SetAttr"]}
{"id": "C08", "title": "SearchFunc/Flatten/Search return exactly the matching descendants in document order", "statement": "SearchFunc(f) returns each proper descendant satisfying f exactly once, in depth-first document order, and never the root; Flatten returns all of them; Search(space, local) those whose local name matches and whose namespace matches or space is empty.", "quantifier": "every tree and predicate", "why_tests_cant": "trees of any shape and size", "anchors": ["xmltree/xmltree.go:Element.SearchFunc", "xmltree/xmltree.go:Element.Flatten", "xmltree/xmltree.go:Element.Search"]}
{"id": "C09", "title": "Parse reproduces the document tree", "statement": "For every token stream that is the serialisation of a document tree within the depth limit, Parse returns the tree with: the same element nesting and names, each element's attributes minus namespace declarations in order (with the values the document spells, in either kind of quotes, with entities), Scope = parent's Scope followed by the element's own declarations (sorted), and Content = exactly the input bytes between its start and end tags. Conversely Parse succeeds only on such streams.", "quantifier": "every token stream with offsets, every legal sort of declarations", "why_tests_cant": "documents are unbounded in size and shape", "anchors": ["xmltree/xmltree.go:Parse", "xmltree/xmltree.go:Element.parse", "xmltree/xmltree.go:Scope.pushNS"]}
{"id": "C10", "title": "Parse depth limit, truncation and mismatched tags are errors", "statement": "Parse never returns a partial tree: nesting deeper than 3000 levels below the root, an end tag that does not match, or a stream that ends inside an element all give an error; text before the root and everything after the root's end tag is ignored.", "quantifier": "every token stream", "why_tests_cant": "failure points anywhere in an unbounded stream", "anchors": ["xmltree/xmltree.go:Parse", "xmltree/xmltree.go:Element.parse", "xmltree/xmltree.go:recursionLimit"]}
{"id": "C11", "title": "Content of non-UTF-8 documents", "statement": "For a document whose declared encoding is not UTF-8, every element's Content should be the transcoded text between its tags. In the code the byte following the XML declaration is dropped from the decoder's input without being accounted for, so every Content slice is shifted one byte to the left.", "quantifier": "every transcoded document and every element", "why_tests_cant": "needs every document layout; the existing test only inspects attributes", "anchors": ["xmltree/xmltree.go:Parse"]}
{"id": "C12", "title": "Marshal emits a self-contained document", "statement": "In the output of Marshal every element's tag is written with the prefix its own Scope assigns, and the namespace declarations in force at that point of the output are exactly the element's Scope, for every tree whose scopes extend their parents' (in particular every parsed tree and every subtree of it marshalled alone).", "quantifier": "every tree with nested scopes, every subtree", "why_tests_cant": "scopes and trees are unbounded", "anchors": ["xmltree/marshal.go:Marshal", "xmltree/marshal.go:diffScope", "xmltree/marshal.go:encoder.encode"]}
{"id": "C13", "title": "Parse inverts Marshal", "statement": "Parsing the bytes produced by Marshal yields a tree with the same names, attributes, scopes and children, for every tree in the documented shape (names resolvable in scope, values free of markup, at most 3000 levels). Outside that shape it fails: attribute values are not escaped, an attribute in the default namespace loses its namespace, and a name in an undeclared namespace is written as the empty string.", "quantifier": "every such tree", "why_tests_cant": "round trip over all trees and strings", "anchors": ["xmltree/marshal.go:Marshal", "xmltree/xmltree.go:Parse"]}
{"id": "C14", "title": "diffScope removes exactly the inherited declarations", "statement": "When the child's scope extends the parent's, diffScope returns the extension; in general the result is a suffix of the child's scope, what was removed is a common prefix of both, and it is the longest one.", "quantifier": "every pair of scopes", "why_tests_cant": "unbounded scopes", "anchors": ["xmltree/marshal.go:diffScope"]}
{"id": "C15", "title": "Encode terminates on every element graph, including cyclic ones", "statement": "Encoding terminates for every pointer graph of elements; an element that is its own ancestor is replaced by a comment; on acyclic graphs of depth at most 3000 the output is the plain tree encoding. Trees deeper than 3000 levels are silently truncated, but a tree returned by Parse never is.", "quantifier": "every finite pointer graph", "why_tests_cant": "cycles of any length and arbitrary sharing", "anchors": ["xmltree/marshal.go:encoder.encode", "xmltree/marshal.go:recursionLimit"]}
{"id": "C16", "title": "Encode reports write errors", "statement": "For every writer that, once failed, keeps failing, Encode returns an error if any write failed; it returns nil only if all bytes were accepted. For a writer that fails transiently the error can be lost, because the writes of Content, of the cycle comment and of indentation are unchecked.", "quantifier": "every tree and every failure schedule of the writer", "why_tests_cant": "the failing write can be any one of an unbounded number", "anchors": ["xmltree/marshal.go:Encode", "xmltree/marshal.go:encoder.encode", "xmltree/marshal.go:encoder.encodeOpenTag", "xmltree/marshal.go:encoder.encodeCloseTag"]}
{"id": "C17", "title": "MarshalIndent only adds line breaks and indentation", "statement": "MarshalIndent writes the same tags and contents as Marshal in the same order, each open tag preceded by depth copies of indent; removing the inserted indentation and newlines gives Marshal's output. The prefix argument is ignored although documented.", "quantifier": "every tree, prefix and indent string", "why_tests_cant": "all trees and strings", "anchors": ["xmltree/marshal.go:MarshalIndent", "xmltree/marshal.go:encoder.encodeOpenTag", "xmltree/marshal.go:encoder.encodeCloseTag"]}
{"id": "C18", "title": "Equal accepts a tree against itself and ignores prefixes and order", "statement": "Equal(a, a) holds for trees at most 1000 levels deep whose attribute names are distinct; the answer does not depend on Scope, on attribute order, on namespace declarations left among the attributes, on white space around leaf content, or (when sibling names are distinct) on the order of children. With repeated sibling names it is order sensitive.", "quantifier": "every pair of trees, every permutation of children at every level", "why_tests_cant": "permutations and depths are unbounded", "anchors": ["xmltree/compare.go:Equal", "xmltree/compare.go:equal", "xmltree/compare.go:equalElement"]}
{"id": "C19", "title": "Equal is sound but not symmetric", "statement": "If Equal(a, b) then names, child counts and trimmed leaf contents agree recursively after sorting and every attribute of b occurs in a with the same value; the converse inclusion is not checked, so Equal is not symmetric, and it is false for trees deeper than 1000 levels.", "quantifier": "every pair of trees", "why_tests_cant": "relation properties quantify over all pairs", "anchors": ["xmltree/compare.go:Equal", "xmltree/compare.go:equalElement"]}
{"id": "C20", "title": "Equal changes its arguments only by reordering children", "statement": "After Equal(a, b) each argument still has the same elements, attributes and contents, with children at each level permuted.", "quantifier": "every pair of trees", "why_tests_cant": "side effects at any depth", "anchors": ["xmltree/compare.go:equal"]}
{"id": "C21", "title": "Graph.Flatten visits every vertex exactly once", "statement": "For every sequence of Add calls, Flatten calls walk exactly once for each vertex mentioned (as target or dependency) and for nothing else, and terminates even if the graph has cycles.", "quantifier": "every history of Add calls", "why_tests_cant": "arbitrary graphs including cyclic ones", "anchors": ["internal/dependency/graph.go:Graph.Flatten", "internal/dependency/graph.go:Graph.flatten", "internal/dependency/graph.go:Graph.Add"]}
{"id": "C22", "title": "Graph.Flatten visits dependencies first", "statement": "For every edge target->dependency, the dependency is visited before the target unless the dependency can itself reach the target (a cycle).", "quantifier": "every history of Add calls", "why_tests_cant": "arbitrary graphs", "anchors": ["internal/dependency/graph.go:Graph.Flatten", "internal/dependency/graph.go:Graph.flatten"]}
{"id": "C23", "title": "Graph.Flatten order is determined by the edge set", "statement": "Two histories of Add with the same set of edges, in any order and with any repetitions, give the same visiting order.", "quantifier": "every pair of histories with equal edge sets", "why_tests_cant": "all permutations of insertions", "anchors": ["internal/dependency/graph.go:insertUnique", "internal/dependency/graph.go:Graph.Flatten"]}
{"id": "C24", "title": "Graph.Len counts distinct targets", "statement": "Len equals the number of distinct first arguments passed to Add; the internal sets stay sorted and duplicate-free under binary-search insertion.", "quantifier": "every history of Add calls", "why_tests_cant": "histories of any length", "anchors": ["internal/dependency/graph.go:Graph.Len", "internal/dependency/graph.go:insertUnique"]}
{"id": "C25", "title": "Builtin names and ParseBuiltin are inverse", "statement": "ParseBuiltin(b.Name()) = b for all fifty built-in types, names are pairwise distinct, and ParseBuiltin fails on every other name; in the schema namespace it knows exactly the names of XML Schema Part 2. The attributes of the XML namespace are not found under their names, and the built-in schema appended by Parse omits unsignedShort and everything after it.", "quantifier": "every Builtin value and every xml.Name", "why_tests_cant": "every other name must be rejected, an infinite set", "anchors": ["xsd/builtin.go:Builtin.Name", "xsd/builtin.go:ParseBuiltin", "xsd/builtin_string.go:String", "xsd/standard-schema.go:builtinSchema"]}
{"id": "C26", "title": "Imports lists every import and include", "statement": "Imports returns one Ref for every <import> below the root, in document order, with its namespace and location, followed by one Ref for every <include> of every schema with that schema's target namespace.", "quantifier": "every document tree", "why_tests_cant": "documents of any shape", "anchors": ["xsd/parse.go:Imports"]}
{"id": "C27", "title": "Default types", "statement": "After Normalize's defaulting passes every <attribute> and <element> below the root has a type attribute which, in its scope, resolves to xs:anySimpleType respectively xs:anyType if it had none (for scopes without shadowed prefixes); nothing else in the tree changes.", "quantifier": "every schema tree", "why_tests_cant": "trees of any shape", "anchors": ["xsd/parse.go:attributeDefaultType", "xsd/parse.go:elementDefaultType"]}
{"id": "C28", "title": "Choice members become optional", "statement": "After the pass of Normalize that looks at choices every child of an <xs:choice> that is not a <sequence>, and every child of a <sequence> directly inside a choice, has minOccurs=\"0\"; no other attribute or element changes. (Groups are unpacked later: see C95.)", "quantifier": "every schema tree", "why_tests_cant": "trees of any shape", "anchors": ["xsd/parse.go:setChoicesOptional"]}
{"id": "C29", "title": "complexType shorthand is expanded", "statement": "After expansion every complexType below the root has a simpleContent or complexContent child; types that already had one are untouched; otherwise annotations and foreign children stay, followed by one complexContent/restriction of xs:anyType holding the remaining children in order. Applying it twice is the same as once.", "quantifier": "every schema tree", "why_tests_cant": "trees of any shape and nesting", "anchors": ["xsd/parse.go:expandComplexShorthand"]}
{"id": "C30", "title": "Groups are unpacked in place", "statement": "unpackGroups replaces every group or attributeGroup child by its children, in place and in order, and keeps every other child, whatever parts of the trees are shared in memory; a tree without groups is untouched. This needs every element with groups to have no earlier-unpacked group standing in its way: a group directly inside a group, or in a type that uses both a group and an attribute group, is left behind.", "quantifier": "every schema tree", "why_tests_cant": "trees of any shape", "anchors": ["xsd/parse.go:unpackGroups"]}
{"id": "C31", "title": "hasCycle detects exactly the reachable cycles", "statement": "hasCycle(root) is true iff some element reachable from root is its own descendant; it terminates on every finite pointer graph.", "quantifier": "every finite pointer graph", "why_tests_cant": "cycles of any length, arbitrary sharing", "anchors": ["xsd/parse.go:hasCycle"]}
{"id": "C32", "title": "deref merges reference and definition", "statement": "The element replacing a ref has the definition's name and content, keeps every attribute of the definition not overridden by the reference, takes the reference's other attributes, drops ref, and re-expresses type so that it names the same type in the reference's scope. Because the defaulting pass runs first, a ref without an explicit type always loses the definition's type.", "quantifier": "every pair of elements", "why_tests_cant": "all attribute combinations and scopes", "anchors": ["xsd/parse.go:deref", "xsd/parse.go:flattenRef", "xsd/parse.go:elementDefaultType"]}
{"id": "C33", "title": "Anonymous types get unique names", "statement": "Normalising several schemas together, each element, attribute, list or restriction with an anonymous type gives it up: the type goes to the end of the schema with the next name _anon1, _anon2, ... (one counter for all schemas, so the names are distinct) and _isAnonymous, the element's type/itemType/base attribute resolves to that name, and no anonymous type remains. It fails iff an anonymous type is somewhere else. This needs one anonymous type per element, none in what follows it, and at the top level that nothing before it has one: every second anonymous member of a union is lost, what follows an anonymous type is passed over, and a type of the schema called _anon1 clashes.", "quantifier": "every list of schema trees, every slice capacity and growth policy", "why_tests_cant": "collisions and losses only for particular shapes", "anchors": ["xsd/parse.go:nameAnonymousTypes", "xsd/parse.go:anonTypeName", "xsd/parse.go:Normalize"]}
{"id": "C34", "title": "Hoisting anonymous types through pointers", "statement": "Both passes that hoist anonymous types work through element pointers collected beforehand. They do what the same passes do on immutable trees as long as each top-level declaration with an anonymous type comes while the root's child slice has room; then elements and attributes give their type their own name and refer to it, the names are distinct and unused before, and a declaration keeps its type only if its name is in use. When an append reallocates, the pointers are stale: of four top-level elements with a complex type in each, two keep it after Normalize, and there are seven types.", "quantifier": "every schema tree, slice capacity and growth policy", "why_tests_cant": "depends on slice capacities", "anchors": ["xsd/parse.go:copyEltNamesToAnonTypes", "xsd/parse.go:nameAnonymousTypes"]}
{"id": "C35", "title": "Unknown and recursive references", "statement": "flattenRef returns an error exactly if some ref names no indexed element, and never panics; if every definition is completed before it is copied, the result is every schema with each ref replaced by the merged definition and groups unpacked, and no element has a ref attribute. The check for cycles never reports one. The code leaves refs behind in definitions copied before their own direct children were dereferenced, and recursive groups make it diverge instead of reporting a cycle.", "quantifier": "every set of schema trees", "why_tests_cant": "reference graphs of any shape", "anchors": ["xsd/parse.go:flattenRef", "xsd/parse.go:unpackGroups", "xsd/index.go:indexSchema"]}
{"id": "C36", "title": "Parse leaves no unresolved type reference", "statement": "If xsd type resolution succeeds, no type in the schema has an unresolved base, element type, attribute type or union member, and each reference was replaced by the type registered under exactly that name (built-ins first, then all schemas, then the own schema); it fails only if some reference has no such type. With unique type names the result is independent of Go's map iteration order.", "quantifier": "every set of types, every map iteration order", "why_tests_cant": "map iteration order is random; type graphs are unbounded", "anchors": ["xsd/parse.go:Schema.resolvePartialTypes", "xsd/parse.go:Schema.lookupType"]}
{"id": "C37", "title": "Every declared type is returned by Parse", "statement": "Every complexType and simpleType declared in a schema document is in the Types of a returned Schema. If two documents share a target namespace, the types of all but the last are lost.", "quantifier": "every list of schemas", "why_tests_cant": "needs all combinations of target namespaces", "anchors": ["xsd/parse.go:Parse", "xsd/parse.go:Schema.parseTypes"]}
{"id": "C38", "title": "Mixed content propagation", "statement": "After Parse a complex type is Mixed iff it declares so, or extends anyType, or extends a mixed complex type, or derives from a simple type; the result does not depend on map iteration order (inheritance chains up to 1000). Parse panics only when a type inherits from a non-mixed complex type of a schema later in the list whose base is unresolved; swapping two documents can thus turn success into a panic.", "quantifier": "every acyclic type hierarchy, every map iteration order", "why_tests_cant": "hierarchies of any size, random iteration", "anchors": ["xsd/parse.go:propagateMixedAttr", "xsd/parse.go:Schema.propagateMixedAttr"]}
{"id": "C39", "title": "Base chains end in a Builtin", "statement": "Following Base from a type returned by Parse ends in a Builtin. This holds for acyclic hierarchies in which every type has a base; a type that (indirectly) extends itself is accepted by Parse and makes FindType and code generation loop forever.", "quantifier": "every type graph", "why_tests_cant": "cycles of any length", "anchors": ["xsd/xsd.go:ComplexType", "xsd/xsd.go:SimpleType", "xsd/parse.go:Schema.resolvePartialTypes", "xsd/xsd.go:findType"]}
{"id": "C40", "title": "Occurrence constraints", "statement": "An element is Plural iff minOccurs > 1 or maxOccurs is unbounded, negative or > 1; it is Optional iff minOccurs is given and 0, or a default is given; booleans accept exactly 0,1,true,false and empty, everything else is an error.", "quantifier": "every attribute value", "why_tests_cant": "all strings", "anchors": ["xsd/parse.go:parsePlural", "xsd/parse.go:parseInt", "xsd/parse.go:parseBool", "xsd/parse.go:parseElement"]}
{"id": "C41", "title": "Repeated elements are merged", "statement": "In a parsed complex type element names are unique: repeated declarations are merged into the first, which is Plural/Optional/Nillable if any was and Abstract only if all were, keeps the default value only if all agree, and has the documentation of all, one after the other on lines of their own; the order of first occurrences is kept.", "quantifier": "every list of element declarations", "why_tests_cant": "lists of any length with any duplication pattern", "anchors": ["xsd/parse.go:ComplexType.parseComplexContent", "xsd/parse.go:joinElem"]}
{"id": "C42", "title": "FindType", "statement": "FindType(n) returns a type named n if some type of the schema or an ancestor of one is named n, and nil otherwise, for every map iteration order (acyclic hierarchies).", "quantifier": "every schema, name and map iteration order", "why_tests_cant": "random iteration order", "anchors": ["xsd/xsd.go:Schema.FindType", "xsd/xsd.go:findType"]}
{"id": "C43", "title": "Struct field names are distinct", "statement": "Field names allotted by the name generator within one struct are pairwise distinct as long as no name collides more than 1000 times; they are the Go names of the elements and attributes where these differ, an attribute called like an element gets the suffix Attr, wildcards are called Item, or Items if repeated; wildcard fields bypass the generator and can collide with an element called Item or Items, and so does the text field of a type based on a simple type.", "quantifier": "every sequence of element and attribute names", "why_tests_cant": "all collision patterns", "anchors": ["xsdgen/xsdgen.go:nameGenerator.unique", "xsdgen/xsdgen.go:nameGenerator.element", "xsdgen/xsdgen.go:nameGenerator.attribute", "xsdgen/xsdgen.go:Config.genComplexType"]}
{"id": "C44", "title": "Derived types contain inherited fields", "statement": "After expandComplexTypes each complex type has, for every ancestor, all elements and attributes not overridden by name on the way down, with base elements before own ones; types that are not derived from complex types are unchanged. Expanding again, as happens with several schemas, leaves expanded types alone. Types that share a name, cyclic derivations and restrictions are not handled: fields are lost, the loop does not end, dropped elements return.", "quantifier": "every acyclic type hierarchy", "why_tests_cant": "hierarchies of any depth and order", "anchors": ["xsdgen/xsdgen.go:Config.expandComplexTypes", "internal/dependency/graph.go:Graph.Flatten"]}
{"id": "C45", "title": "Restrictions inherit attributes", "statement": "mergeAttributes returns the derived type's own attributes followed by each base attribute whose name is not already present.", "quantifier": "every pair of attribute lists", "why_tests_cant": "all lists", "anchors": ["xsdgen/xsdgen.go:mergeAttributes"]}
{"id": "C46", "title": "IgnoreAttributes and IgnoreElements", "statement": "filterFields keeps, in order, exactly the attributes and elements not named by the configured filter.", "quantifier": "every type and every list of names", "why_tests_cant": "all combinations", "anchors": ["xsdgen/config.go:Config.filterFields", "xsdgen/config.go:IgnoreAttributes", "xsdgen/config.go:IgnoreElements"]}
{"id": "C47", "title": "dedup keeps the first type of each name", "statement": "dedup returns a duplicate-free (by name) list with the same set of names, keeping the first occurrence of each name in order.", "quantifier": "every list of types", "why_tests_cant": "all lists", "anchors": ["xsdgen/xsdgen.go:dedup"]}
{"id": "C48", "title": "Simple types are flattened to built-ins", "statement": "After flatten every simple type reached has a Builtin base; a simple type without list, union, non-trivial base, enumeration, pattern or length limits is replaced by its Builtin. References to other types change only for complex types without attributes but with text, which give way to the simple or built-in type of the text.", "quantifier": "every chain of simple types", "why_tests_cant": "chains of any length", "anchors": ["xsdgen/xsdgen.go:Config.flatten1"]}
{"id": "C49", "title": "Options can be reverted", "statement": "For each xsdgen option the Option returned when applying it restores the previous configuration exactly, also for several options reverted last first; the Option method reverts its last argument. AllowType (no name allowed before, or this one allowed already), wsdlgen's OnlyPorts and wsdlgen's log options with different xsdgen settings do not restore it; the undo of a filter ignores the Config it is given.", "quantifier": "every configuration", "why_tests_cant": "all configurations", "anchors": ["xsdgen/config.go:Option", "xsdgen/config.go:AllowType", "wsdlgen/config.go:OnlyPorts"]}
{"id": "C50", "title": "Missing namespaces are reported", "statement": "GenCode fails if a requested namespace has no schema. The error lists exactly the missing ones. The code only compares counts, so a namespace declared by two schemas masks a missing one, and a namespace requested twice is an error that names none.", "quantifier": "every list of namespaces and schemas", "why_tests_cant": "all multisets", "anchors": ["xsdgen/cli.go:Config.GenCode"]}
{"id": "C51", "title": "Generated declarations are ordered and independent of map order", "statement": "GenAST emits each declared name once, sorted; the set of declarations is independent of map iteration order when Go names are distinct. Two types mapping to the same Go name overwrite each other in iteration order.", "quantifier": "every set of types and every iteration order", "why_tests_cant": "random iteration order", "anchors": ["xsdgen/xsdgen.go:Code.GenAST", "xsdgen/xsdgen.go:Config.gen"]}
{"id": "C52", "title": "Every built-in maps to a Go type", "statement": "builtinExpr gives every built-in except the four xml: ones the Go type that suits it (NOTATION, a single name, is wrongly a slice). It panics for exactly one integer, the first past the table.", "quantifier": "every integer", "why_tests_cant": "the set of panicking values over all integers", "anchors": ["xsdgen/builtin.go:builtinExpr", "xsdgen/builtin.go:builtinTbl", "xsdgen/builtin.go:nonTrivialBuiltin"]}
{"id": "C53", "title": "List types", "statement": "genSimpleListSpec for an item type derived in any number of steps from a built-in succeeds exactly for the supported built-ins, with the codec of its family; positiveInteger, float, boolean and others are rejected. It panics exactly if the chain of bases does not end in a built-in.", "quantifier": "every chain of item types", "why_tests_cant": "chains of any length", "anchors": ["xsdgen/xsdgen.go:Config.genSimpleListSpec"]}
{"id": "C54", "title": "Generated list codecs round-trip", "statement": "The generated UnmarshalText applied to the generated MarshalText appends the same list: for string lists iff no item is empty or contains white space, for integer lists always; any text of integer literals separated by white space is accepted and any other rejected. Lists of byte are not read as numbers.", "quantifier": "every list and every text", "why_tests_cant": "all lists and texts", "anchors": ["xsdgen/xsdgen.go:Config.genSimpleListSpec"]}
{"id": "C55", "title": "Generated binary codecs round-trip", "statement": "xsdHexBinary and xsdBase64Binary: UnmarshalText(MarshalText(b)) = b for every byte string, and the text is that of RFC 4648. Surrounding white space is an error, against the whiteSpace=collapse of these types.", "quantifier": "every byte string", "why_tests_cant": "all byte strings", "anchors": ["xsdgen/config.go:Config.addStandardHelpers"]}
{"id": "C56", "title": "Following imports", "statement": "With FollowImports exactly the documents that are given, imported or included, directly or not, are loaded, each after those it imports; reading ends with an error exactly if one of them cannot be read or parsed. Cyclic imports are not detected: reading never ends. Documents imported on two paths are loaded twice, an import without schemaLocation is an error, and GenAST drops the error and goes on without any document.", "quantifier": "every file system and import graph", "why_tests_cant": "graphs of any shape", "anchors": ["xsdgen/cli.go:Config.readFiles", "xsdgen/cli.go:Config.GenAST"]}
{"id": "C57", "title": "SOAP array item types", "statement": "HandleSOAPArrayType gives the wildcard element of an array type (its own or an inherited one) the type named in wsdl:arrayType, and removes arrayType from its attributes and from a private copy of its base; no other type changes (copies of the type made before share its elements), and running it again changes nothing. Exceptions: attributes after arrayType are dropped, with arrays derived from arrays the map order decides whether it panics, built-in item types are only found if some type is derived from them, sized and nested arrays are not recognised, and a base without attributes panics.", "quantifier": "every set of types and search order", "why_tests_cant": "all hierarchies", "anchors": ["xsdgen/config.go:Config.parseSOAPArrayType", "xsdgen/config.go:Config.overrideWildcardType"]}
{"id": "C58", "title": "Sanitize never yields a Go keyword", "statement": "Sanitize(s) is never a Go keyword, and is s itself for every non-keyword. It is not injective.", "quantifier": "every string", "why_tests_cant": "all strings", "anchors": ["internal/gen/gen.go:Sanitize"]}
{"id": "C59", "title": "String literals denote their argument", "statement": "The literal built by gen.String denotes exactly the given string; it fails exactly for strings with a double quote and without a back quote that contain a carriage return or are not valid Go source text (NUL, byte order mark, invalid UTF-8), which are put in a raw literal.", "quantifier": "every string", "why_tests_cant": "all strings", "anchors": ["internal/gen/gen.go:String"]}
{"id": "C60", "title": "Documentation cannot escape its comment", "statement": "Every line produced by CommentGroup starts with // and contains no line break, for any documentation text; the lines are the trimmed lines of the text. Text from the first line of 64 KB or more is dropped.", "quantifier": "every list of strings", "why_tests_cant": "all strings", "anchors": ["internal/gen/gen.go:CommentGroup"]}
{"id": "C61", "title": "Struct pairs names, types and tags", "statement": "gen.Struct(args) panics iff the number of arguments is not a multiple of three, otherwise it has one field per triple in order.", "quantifier": "every argument list", "why_tests_cant": "all lengths", "anchors": ["internal/gen/gen.go:Struct"]}
{"id": "C62", "title": "Replacement rules", "statement": "ReplaceRuleList.Set accepts exactly strings containing ->, splits at the first one, trims both sides and appends; rules keep command line order.", "quantifier": "every string and every history of Set calls", "why_tests_cant": "all strings", "anchors": ["internal/commandline/cli.go:ReplaceRuleList.Set"]}
{"id": "C63", "title": "WSDL messages and operations", "statement": "wsdl.Parse maps each message name to its parts in document order (last message of a name wins) and each port of the last service to the operations of the port type of its binding, with input and output message names resolved in the scope of the input/output elements, the address of the port and the verb and SOAP actions of the binding. Ports of other services and the actions of SOAP 1.2 bindings are lost; overloaded operations share the action of the last.", "quantifier": "every document tree", "why_tests_cant": "names are matched through several indirections, in any order and any number of declarations", "anchors": ["wsdl/wsdl.go:Parse", "wsdl/wsdl.go:parseMessages", "wsdl/wsdl.go:parsePorts", "wsdl/wsdl.go:parseOperations"]}
{"id": "C64", "title": "Argument thresholds", "statement": "A generated method takes one parameter per input part if there are at most InputThreshold parts and otherwise one struct with a field per part, sends every part under its name and namespace to the address of the port with its verb and the SOAP action of the operation, and returns one value per output part (received under its name and namespace) and an error, or one struct and an error above OutputThreshold. Exceptions: above the output threshold the body still returns the individual fields, above the input threshold the parameter type is not the declared struct unless the message name is capitalised, parameters can clash with each other, with ctx or with the types of later ones, and dates are sent as time.Time.", "quantifier": "every definition, operation and threshold", "why_tests_cant": "all part lists, names and thresholds", "anchors": ["wsdlgen/wsdlgen.go:printer.opArgs", "wsdlgen/wsdlgen.go:printer.operation", "wsdlgen/wsdlgen.go:exposeType"]}
{"id": "C65", "title": "Methods of the ports, OnlyPorts", "statement": "The generated file has one method per operation of each port, in order, or generation fails, exactly if some operation has an unknown message, an untyped part or a declaration that is not Go; an operation without output makes it fail. OnlyPorts should restrict this to the named ports, but the filter is stored and never consulted, so ports sharing a port type yield methods of the same name.", "quantifier": "every definition and configuration", "why_tests_cant": "all definitions", "anchors": ["wsdlgen/config.go:OnlyPorts", "wsdlgen/wsdlgen.go:printer.genAST", "wsdlgen/wsdlgen.go:printer.port", "wsdlgen/wsdlgen.go:printer.operation"]}
{"id": "C66", "title": "Transcoding in place", "statement": "When a document in a single-byte encoding is converted to UTF-8, the buffer holds the conversion of the whole document. The conversion is written into the caller's slice while it is still being read: it is right for documents of at most 4096 bytes after the declaration or without multi-byte results, and longer documents with a non-ASCII character are corrupted.", "quantifier": "every document and single-byte encoding", "why_tests_cant": "needs documents of every length and every position of non-ASCII characters", "anchors": ["xmltree/xmltree.go:Parse"]}
{"id": "C68", "title": "Bounded integers fit their Go types", "statement": "The value range of long, int, short, unsignedLong, unsignedInt, unsignedShort and unsignedByte is contained in that of the Go type chosen for it, on 32-bit platforms too. byte is mapped to Go's unsigned byte.", "quantifier": "every built-in with a bounded range", "why_tests_cant": "a range is a statement about all its values", "anchors": ["xsdgen/builtin.go:builtinTbl"]}
{"id": "C69", "title": "Generated date and time codecs round-trip", "statement": "For the eight date and time types UnmarshalText(MarshalText(t)) returns the components the type has, for every valid time of years 0 to 9999 with an offset of whole minutes; surrounding white space is ignored. Other years, or offsets with seconds, are not read back.", "quantifier": "every time", "why_tests_cant": "all times and offsets", "anchors": ["xsdgen/config.go:Config.addStandardHelpers"]}
{"id": "C67", "title": "Element and attribute names", "statement": "An element's type is anyType without a type attribute, the built-in it names, or a reference to the named type; its name is its name attribute in the target namespace and an attribute's name is its (qualified) name. In the code an element of user type gets the namespace of that type, and a qualified attribute name the target namespace.", "quantifier": "every element declaration in every scope", "why_tests_cant": "all combinations of prefixes, scopes and target namespaces", "anchors": ["xsd/parse.go:parseElement", "xsd/parse.go:parseAttribute"]}
{"id": "C70", "title": "Facets of simple types", "statement": "Restriction.Enum lists the enumeration values in document order, the length and digit facets hold the value of the last such facet, and Pattern is the alternation of all pattern facets if they compile. A pattern that does not compile silently drops the ones before it.", "quantifier": "every restriction element, whatever regexp.Compile accepts", "why_tests_cant": "facet lists of any length in any order", "anchors": ["xsd/parse.go:parseSimpleRestriction"]}
{"id": "C71", "title": "Bounds of simple types", "statement": "MinDate/Min and MaxDate/Max hold the last lower/upper bound, as a date for date and dateTime and as a number otherwise. A dateTime bound in a type derived from a user type is accepted but lost.", "quantifier": "every restriction element", "why_tests_cant": "facet lists of any length in any order", "anchors": ["xsd/parse.go:parseMinMaxRestriction", "xsd/parse.go:parseSimpleRestriction"]}
{"id": "C72", "title": "Fields are bound to their elements and attributes", "statement": "The struct generated for a complex type has one field per element and attribute kept by the filters, in order, elements first; its type is the Go expression of the XML type (a slice if repeated), and its tag is read by encoding/xml as the namespace and local name of the element, or as an attribute of that name (qualified only if form=\"qualified\"), with omitempty exactly if optional or nillable. A type based on a complex type also has the attributes of the base that have other names, and its first wildcard if it has none of its own; a simple type is declared as its base, a union as string.", "quantifier": "every complex type, filter and way of naming", "why_tests_cant": "needs all combinations of flags and names in types of any size", "anchors": ["xsdgen/xsdgen.go:Config.genComplexType"]}
{"id": "C73", "title": "Conversions match the fields they convert", "statement": "The overlay used by generated MarshalXML/UnmarshalXML has one field for each field with a default value or a date, time or binary type, with the same name and tag, converting between the type of the field and the helper type of its XML type. For repeated elements the field is a slice but the conversion is for a single value.", "quantifier": "every complex type", "why_tests_cant": "types with any mixture of fields", "anchors": ["xsdgen/xsdgen.go:Config.genComplexType", "xsdgen/xsdgen.go:Config.genComplexTypeMethods"]}
{"id": "C74", "title": "Simple type definitions", "statement": "A parsed simple type is a list exactly if it has a list child, its Union holds the member types of all union children in document order, its Base is that named by the last restriction, list or non-empty union, and its Restriction that of the last restriction child.", "quantifier": "every simpleType element", "why_tests_cant": "children in any number and order", "anchors": ["xsd/parse.go:parseSimpleType"]}
{"id": "C75", "title": "Generated code is closed", "statement": "For types that are not recursive, everything flatten returns can be declared with what it returns: simple types have a Builtin base; the fields of complex types, inherited ones included, and their text have types in the result; no field has a simple type that adds nothing to its Builtin.", "quantifier": "every resolved set of types ranked by containment, every filter", "why_tests_cant": "an undeclared type shows only in the right combination of base types, filters, depth and order", "anchors": ["xsdgen/xsdgen.go:Config.flatten", "xsdgen/xsdgen.go:Config.flatten1", "xsdgen/xsdgen.go:dedup"]}
{"id": "C76", "title": "Recursive types: flattening returns, but at what price", "statement": "flatten1 returns on every resolved set of types, recursive ones included, whatever the depth left. But only the depth is limited: for a type with two elements of its own type exactly 2^(k+1)-2 types are pushed with k levels left, so that flatten, which starts with 1001, never ends in practice.", "quantifier": "every resolved set of types; every depth", "why_tests_cant": "no test can wait for 2^1001 steps, and none shows termination for all types", "anchors": ["xsdgen/xsdgen.go:Config.flatten1"]}
{"id": "C77", "title": "Options take effect in order", "statement": "After any sequence of options the name transformation is the composition of all Replace rules in order (invalid expressions do nothing), type and spec transformations likewise; of several IgnoreAttributes, IgnoreElements, OnlyTypes, Namespaces, PackageName or FollowImports the last one holds; AllowType accumulates. No option touches another Config.", "quantifier": "every sequence of options and every configuration", "why_tests_cant": "sequences of any length, arbitrary user functions", "anchors": ["xsdgen/config.go:Replace", "xsdgen/config.go:ProcessTypes", "xsdgen/config.go:IgnoreAttributes", "xsdgen/config.go:OnlyTypes", "xsdgen/config.go:AllowType"]}
{"id": "C78", "title": "SOAP arrays become slices that read back what they write", "statement": "With SOAPArrayAsSlice, exactly the structs with a single field of slice type that come from a complex type whose first wildcard element has a named type are replaced by a slice of that field's items. The generated UnmarshalXML appends the children that can be decoded, in document order, and reads up to the end of the element; MarshalXML followed by UnmarshalXML is the identity on slices whose items survive their own encoding; the arrayType attribute written names the type of the items when resolved where it stands. Exceptions: child elements that cannot be decoded are dropped without an error, the element name of the field's tag is ignored on reading and replaced by item on writing, and for item types with a helper (dates, binary data) both methods are generated twice.", "quantifier": "all complex types, filters, item decoders and encoders, and token streams", "why_tests_cant": "Whether items get lost or the methods stop depends on every shape of content and on every item type; tests decode one array.", "anchors": ["xsdgen/config.go:735-866", "internal/gen/gen.go:418-425", "xsdgen/xsdgen.go:780-866"]}
{"id": "C79", "title": "Every type the generated code mentions is declared", "statement": "For types that are not recursive, whose built-ins have a Go type and whose lists have methods, gen succeeds and each identifier in the generated type declarations, and each helper type of the conversions, is a type of Go or declared in the same file, with any filters and options. Each selected type is declared, or a simple or built-in type it is derived from stands for it, never if it has an attribute or no text; only selected types other than a schema's own _self type, the types these refer to, and helpers are declared. Exceptions: with recursive types, and with mixed content over content that is not mixed, there are undeclared types in the code; one list type without methods and there is no code at all.", "quantifier": "every resolved set of types ranked by containment and every partition into schemas, every filter, allow list and naming", "why_tests_cant": "an undeclared identifier shows only in the right combination of base types, filters, order and depth", "anchors": ["xsdgen/xsdgen.go:Config.gen", "xsdgen/xsdgen.go:Config.genTypeSpec", "xsdgen/xsdgen.go:Config.genComplexType", "xsdgen/xsdgen.go:Config.genSimpleType"]}
{"id": "C80", "title": "NameOf gives names that exist", "statement": "After generation NameOf returns, for each selected type that no other can stand for, its Go name, which is declared; for a plain simple type a declared name or the Go type of its built-in. It declares nothing. Exceptions: for a complex type that was replaced by the simple type of its text, and for types that are filtered out, it returns names that the file does not declare; if such a type needs a helper type that is already declared, it returns ERROR and the name.", "quantifier": "every resolved set of types ranked by containment, every filter, allow list and naming", "why_tests_cant": "depends on what flattening did to each type", "anchors": ["xsdgen/xsdgen.go:Code.NameOf"]}
{"id": "C81", "title": "Values of generated types survive encoding/xml", "statement": "A value of a generated struct type, nested structs, slices, text, attributes and dates included, is written by xml.Marshal as one element, and xml.Unmarshal of that document into a zero value gives the same value, whatever prefix declarations and text between the elements the document carries, provided the values of the simple types survive their own text form. Required of the schema: exported and distinct field names, element names that differ in their local part or in their namespaces, likewise attributes, no repeated list types and no repeated dates or binary data. Exceptions: fields with names that are not exported are dropped without an error, repeated list types come back with other item boundaries, and a prefix declaration is taken for an attribute that has the name of the prefix.", "quantifier": "every set of types, every value, every way of reading and writing simple values", "why_tests_cant": "values nest to any depth and the conversions depend on every combination of fields", "anchors": ["xsdgen/xsdgen.go:Config.genComplexType", "xsdgen/xsdgen.go:Config.genComplexTypeMethods"]}
{"id": "C82", "title": "Elements are written as the schema orders them", "statement": "xml.Marshal writes for a value of a generated struct type, for each element of the complex type, as many elements of its name as the field has items, one if it is not a slice, none if it is optional or nillable and empty, and it writes them in the order of the schema. Exceptions: dates, times and binary data, for which the generated MarshalXML has an overlay, come after all others, so that the document breaks the order of its sequence, and are written even if optional and empty.", "quantifier": "every complex type without text, every value", "why_tests_cant": "order and number depend on every mixture of fields", "anchors": ["xsdgen/xsdgen.go:Config.genComplexType", "xsdgen/xsdgen.go:Config.genComplexTypeMethods"]}
{"id": "C83", "title": "What xml.Unmarshal puts into the fields", "statement": "Unmarshaling an element into a generated struct succeeds exactly if each field can be read, and then each field holds what its own part of the document gives: the child elements of its name, read one after the other in document order (a wildcard gets those that no other field has), the attribute of its name, or the text; all other fields keep their value. So elements of different names may come in any order, unknown elements and attributes do not matter, and nothing is required: a document without the mandatory elements is accepted. A second occurrence of an element that is not repeated in the schema is merged into the first.", "quantifier": "every document, every generated struct, every value before", "why_tests_cant": "documents with any mixture and order of elements and attributes", "anchors": ["xsdgen/xsdgen.go:Config.genComplexType", "xsdgen/xsdgen.go:Config.genComplexTypeMethods"]}
{"id": "C84", "title": "A call of the generated SOAP client", "statement": "A generated method sends exactly one HTTP request with the verb, address and SOAPAction of the operation, after the request hook has seen it; with POST and PUT its body is an envelope with an empty header and the arguments in the body, and nothing is sent only if the arguments cannot be written or the request is refused. The call returns an error \"code: text\" exactly if there is a soap Fault in the body of the answer, an error if the answer is no envelope or cannot be read, and nil otherwise, whatever the HTTP status. But the response is read only from an element whose local name is Message: any other response, including the one the WSDL describes, leaves the result at its zero value without an error. With other verbs the arguments are not sent at all.", "quantifier": "every method, verb, argument and answer of the server", "why_tests_cant": "the tests only compile the generated client; no server answers", "anchors": ["wsdlgen/helper.go:helpers"]}
{"id": "C85", "title": "UseFieldNames names anonymous types", "statement": "UseFieldNames (a default option) gives an anonymous type the name of an element or attribute that has this type and changes nothing else. If no two anonymous types have elements or attributes of the same name and no other type has the name, every anonymous type of an element or attribute is named, in whatever order the types are looked at, and the types remain fit for code generation. A complex type stays anonymous if another type has the name of its element; which of two types gets the name then depends on the iteration order of a Go map. Anonymous simple types are named without such a check: of two attributes of the same name with different simple types, one type is not declared, and which one depends on the order.", "quantifier": "every schema, every order of its types", "why_tests_cant": "map iteration order and all combinations of element names", "anchors": ["xsdgen/config.go:useFieldNames", "xsdgen/config.go:UseFieldNames", "xsdgen/xsdgen.go:Config.gen"]}
{"id": "C86", "title": "The generated code does not depend on map order", "statement": "The types of a schema are kept in a Go map, so that gen meets them in any order. For types as in C79, with distinct Go names for those that are generated or referred to, simple types derived from simple types and no complex type without attributes derived from a complex type that has text and nothing else, two runs that meet the types of each schema in different orders produce the same declarations, byte for byte in the same order, leave the types in the same state and give the same names in NameOf, whatever sorting algorithm is used and with or without SOAPArrayAsSlice. Without these conditions it does: for an element whose type has only text inherited from a type that has only text, the field's type depends on the order, and so does which of two types with the same Go name is declared.", "quantifier": "every set of types, every order of every schema's types, every filter and option", "why_tests_cant": "Go randomises map order, so a test sees one order per run, and only some sets of types have orders that differ", "anchors": ["xsdgen/xsdgen.go:Config.gen", "xsdgen/xsdgen.go:Config.flatten", "xsdgen/xsdgen.go:Config.expandComplexTypes"]}
{"id": "C87", "title": "From schema documents to code: what Config.GenCode does with a set of documents", "statement": "For normalised schema documents with distinct namespaces and names, whose types all have a base, refer only to declared types and not to themselves, whose built-ins have a Go type and whose lists have methods: if no document derives a type, or gives an element a type, from a later document's type that is itself derived from a declared type, then GenCode succeeds, whatever the order in which maps are ranged over. Every type of the chosen namespaces passing the filters that has an attribute or no text, or is a list, a union or a restriction with a facet, is declared; everything declared is such a type, one referred to by them, or a helper; every identifier mentioned is declared. If moreover simple types restrict simple types, no type without attributes is derived from another one that has text only, and the generated names differ, the sorted file is the same for all orders. Otherwise-fine documents in the wrong order make Parse panic. GenCode returns the error of Parse just when Parse fails; a reference to a name that nothing has never gives code. If some of the namespaces asked for, which are different, have no document, the result is an error that lists exactly those; that is not so when two documents share a namespace, which hides one that is missing, or when a namespace is given twice, which is an error listing none.", "quantifier": "every list of parsed documents, every choice of namespaces, every order of map iteration in Parse and in gen, every filter, allow list and naming", "why_tests_cant": "composes parsing, resolution, flattening, expansion and generation over unbounded schemas and all orders", "anchors": ["xsdgen/cli.go:Config.GenCode", "xsd/parse.go:Parse", "xsdgen/xsdgen.go:Config.gen"]}
{"id": "C88", "title": "What the generated declarations look like", "statement": "For types as in C79, and without SOAPArrayAsSlice: each declaration is that of a helper type or belongs to a type of the schemas, under its Go name. A simple type becomes a slice of the Go type of its built-in if it is a list, a string if it is a union, the Go type of its built-in otherwise. A complex type becomes a struct: a chardata field with the Go type of its text if it has text, then one field per element, those inherited from its bases first and those redefined only once, then one per attribute, less those ignored; each with the tag of its name, a slice if repeated, and the Go type of the schema's type or of a simple or built-in type that may stand for it. This holds although gen rewrites the types from schema to schema. Exception: if others are derived from a complex type that has text and elements but no attributes, its elements are lost.", "quantifier": "every resolved set of types ranked by containment, every partition into schemas, every filter by name, allow list and naming", "why_tests_cant": "fields pass through flattening, expansion and inheritance, for each schema anew, on shared types", "anchors": ["xsdgen/xsdgen.go:Config.gen", "xsdgen/xsdgen.go:Config.genComplexType", "xsdgen/xsdgen.go:Config.genSimpleType", "xsdgen/xsdgen.go:Config.expandComplexTypes", "xsdgen/xsdgen.go:Config.flatten1"]}
{"id": "C89", "title": "Documentation of annotations", "statement": "Reading an annotation never fails. The documentation of an annotation whose children are all xs:documentation elements is their texts, each without surrounding white space, in document order with a blank line between them; the Doc of an element or attribute is that of all its annotations, likewise separated. Exceptions: at the first child that is not a documentation (appinfo, an element of another name space) everything that follows in the annotation is lost; a documentation with markup in it says nothing.", "quantifier": "every annotation, element and attribute, every content", "why_tests_cant": "children in any number and order; the loss after an appinfo shows only with both present in one order", "anchors": ["xsd/xsd.go:254-290", "xsd/parse.go:905-910", "xsd/parse.go:parseElement", "xsd/parse.go:parseAttribute"]}
{"id": "C90", "title": "The methods and functions of a generated file", "statement": "Whatever types are generated, in the file: a method stands below the type of its receiver; every helper function and every method that a method calls is there; helper functions are there only if called; whatever is laid over a field of a struct is in its UnmarshalXML and, unless only for a default value, in its MarshalXML; a simple type whose text needs a helper has both text methods, calling those of the helper type; the helper types of built-ins have both text methods themselves, those of dates and times MarshalXML and MarshalXMLAttr too; if the declarations are closed (C79) all types named in methods are declared; without SOAP array conversion, no method is there twice. With field names that are distinct and not T, in a type not named T, the local declarations of methods are valid; no field has the name of a method if it is none of the five. Exceptions: a type named T with a date, a date element named T, an element named UnmarshalXML, a SOAP array of dates: the generated Go does not compile.", "quantifier": "every configuration, set of schemas and sorting", "why_tests_cant": "which helpers are needed depends on all types together, the witnesses on single names", "anchors": ["xsdgen/xsdgen.go:genComplexTypeMethods", "xsdgen/xsdgen.go:addSpecMethods", "xsdgen/xsdgen.go:genSimpleListSpec", "xsdgen/xsdgen.go:212-260", "xsdgen/config.go:594-733", "xsdgen/config.go:787-864"]}
{"id": "C91", "title": "A Config used more than once; GenCLI", "statement": "If GenCode is only called on Configs with namespaces, what it returns depends on the options set so far and on the documents, not on earlier calls: helper types used up before are there again. Called again with the same documents it returns the same, with or without namespaces. A Config without namespaces keeps those of the first documents, and later documents without them are refused. GenCLI writes the output file exactly if it reports success, and no other file; what it does does not depend on the namespaces, FollowImports or helpers of the Config before; it leaves flags in the Config, replacement rules after those that were there; other Configs stay as they are. wsdlgen's GenCLI succeeds only if all files can be read; it leaves its flags in its Config, with the package name ws and the comment \"Package ...\" if there are none, only the given ports selected, and in the Config of xsdgen inside the package name, the log level and the rules. GenCode on a Config changes neither other Configs nor their helpers. Exceptions: xsdgen's GenCLI with a file name that does not exist reports success and replaces the output by an empty package; the Namespaces option is lost in GenCLI without -ns; replacement rules of two GenCLI calls add up; wsdlgen keeps the comment made from the first package name.", "quantifier": "every sequence of options and calls, any number of Configs, every file system and generator", "why_tests_cant": "sequences of calls of any length; state hidden in the Config", "anchors": ["xsdgen/cli.go:GenCode", "xsdgen/cli.go:GenAST", "xsdgen/cli.go:GenCLI", "wsdlgen/cli.go:GenCLI", "wsdlgen/wsdlgen.go:GenAST", "xsdgen/config.go:594-733"]}
{"id": "C92", "title": "Values of all the types of a generated file", "statement": "Code is generated for types that satisfy conditions on the schema alone: Go names of types are apart from those of Go, of helpers and of simple types; in each type with what it inherits, the elements and attributes have different exported Go names and names that can be told apart, elements that occur more than once are neither lists nor dates, times or binary data and have no default, attributes are of simple types. Then for every struct that is declared and every value of its type: what encoding/xml writes is one element, and any document that says the same is read back as the same value; the elements written are those of the type in the schema (inherited ones included, ignored ones left out), in order but for those replaced, each as often as the value has it; and a document is decoded field by field from the elements, attributes and text declared for it. A struct that has the Go name of a simple type breaks this. All this holds of the code generated from documents whatever the order in which their types are visited, if the documents can be generated from (as in C87), only wildcards lack a name, and a complex type that others are derived from has a declaration of its own or nothing to inherit.", "quantifier": "every set of types in schemas that satisfies the conditions, every declared struct and value, every document", "why_tests_cant": "all types of all schemas at once, with everything generation does to them (flattening, expansion, inheritance), and all their values", "anchors": ["xsdgen/xsdgen.go:gen", "xsdgen/xsdgen.go:genComplexType", "xsdgen/xsdgen.go:flatten", "xsdgen/xsdgen.go:expandComplexTypes", "xsdgen/xsdgen.go:134-225", "xsdgen/xsdgen.go:593-790"]}
{"id": "C93", "title": "Unmarshal reads of an element what the document has there", "statement": "For an element of a parsed document, or any tree that can be written as XML, xmltree.Unmarshal hands to encoding/xml an element with the same name and attributes (apart from declarations of prefixes, which are those of its Scope), with the same elements in it, in the same order, and with the same text where there are no elements; entities and line ends are read once, as in the document: the five entities as their characters, in text and in attribute values in either kind of quotes, a carriage return with or without a line feed as one line feed. Hence, if the part of a document says what encoding/xml writes for a value of a generated type, Unmarshal of the corresponding Element gives that value. A prefix may be declared again in between. Text beside elements is not read; an attribute value with a quotation mark makes Unmarshal fail; a prefix declared around the element may be read as an attribute of the same name.", "quantifier": "every document, every element of its tree, every value of every type of every generated file that satisfies the conditions of C92", "why_tests_cant": "all documents, positions and values; the text goes through Parse, Marshal and encoding/xml's reader", "anchors": ["xmltree/xmltree.go:Unmarshal", "xmltree/xmltree.go:77-83", "xmltree/xmltree.go:Parse", "xmltree/marshal.go:Marshal", "xmltree/marshal.go:marshal"]}
{"id": "C94", "title": "Zero times are not written", "statement": "A field of a date or time type is written, as element or attribute, exactly unless it holds January 1, year 1, 00:00:00 UTC (told in any zone). Read back into a new struct it holds what its XML type keeps of the time, and a dateTime is the same instant. What was read as time, gDay or gMonth is always written again; the date 0001-01-01, the year 0001 and the like are read but dropped when written, even where required, and the zone of the zero time is lost.", "quantifier": "every time in the years 0 to 9999, every text", "why_tests_cant": "all instants and zones", "anchors": ["xsdgen/config.go:Config.addStandardHelpers", "xsdgen/config.go:646-675"]}
{"id": "C95", "title": "Normalising again changes nothing", "statement": "Normalize leaves schemas in normal form as they are: types on all elements and attributes, named types, optional choice members, complexTypes in long form, no references, no groups. It brings schemas without references, groups and anonymous types into normal form, so that normalising the result again changes nothing; and it does so whatever other schemas stand beside them (those of the package have references and groups), as long as it succeeds. With groups it does not: they are unpacked after choices have been looked at, and the members of a group in a choice stay required until the schema is normalised a second time.", "quantifier": "all schema trees, all memory layouts", "why_tests_cant": "trees of any shape and depth; growth of slices", "anchors": ["xsd/parse.go:Normalize"]}
{"id": "C96", "title": "Parse inverts MarshalIndent", "statement": "For a tree in the documented shape and an indent of spaces, tabs and newlines, parsing what MarshalIndent writes yields a tree with the same names, attributes, children, contents of elements without children, and the same resolution of prefixes. Marshal and MarshalIndent write the same for the tree read back as for the original if its declarations are in the order Parse leaves them in, so that formatting a formatted document changes nothing and can be undone. Equal reports the tree and the one read back as equal, for Marshal too (down to 1000 levels). Content of an element with children does change, and other indents may make the document unreadable.", "quantifier": "every such tree, every prefix and every blank indent", "why_tests_cant": "round trip over all trees and strings", "anchors": ["xmltree/marshal.go:MarshalIndent", "xmltree/xmltree.go:Parse", "xmltree/compare.go:Equal"]}
{"id": "C97", "title": "What xsdparse prints", "statement": "Normalize returns the schemas of all documents in the order they are found, each still with its name, attributes and scope. xsdparse prints, each indented and followed by a newline, the normalised schemas of the files in order except those whose target name space is that of a standard schema, which are printed, the package's own copy too, only if -ns names their name space. A -ns that names no standard name space changes nothing (so -ns does not restrict the output, contrary to its description). The program does not panic as long as the standard schemas can be parsed. What is printed of a schema without references, groups and anonymous types is its normal form; if the schema could be written at all, Parse reads the printed text as a schema in normal form, and xsdparse, given its own output, prints it unchanged.", "quantifier": "all files, all -ns, any growth of slices; documents without schemas inside schemas", "why_tests_cant": "whole-program statement over all documents, through an in-place rewriting of shared memory", "anchors": ["cmd/xsdparse/xsdparse.go:main", "xsd/parse.go:Normalize"]}
{"id": "C98", "title": "Functions, blocks of source and the text of files", "statement": "The calls that build a function each set their own part (comment, receiver, parameters, results, body), whatever their order, the last call winning. A function declaration is made just when it has a name, a body and no recorded error, and each parameter, result and the receiver has a type that can be parsed, and the body can; the declaration then has that name, those parameters and results in order, each under the word before its first space if it has one, and the body of the first function parsed. Its documentation becomes one comment per line of the text, and no line escapes its comment. Declarations and Snippets return the declarations of all blocks in order, and Declarations those before the first block that fails. What FormattedSource formats begins with the line that marks generated code, then has one comment per line of the package comment, then the file. Not so: an error of BodyTmpl is forgotten once Body succeeds; a parameter list that begins with an empty one keeps the others; a file can be formatted twice (its package comment is lost).", "quantifier": "every function, any texts, any parser, template engine and formatter", "why_tests_cant": "all texts, and all behaviours of the Go parser and of text/template", "anchors": ["internal/gen/gen.go:Function.Decl", "internal/gen/gen.go:FieldList", "internal/gen/gen.go:Declarations", "internal/gen/gen.go:Snippets", "internal/gen/gen.go:FormattedSource", "internal/gen/gen.go:PackageDoc"]}
{"id": "C99", "title": "Parts of messages that refer to elements", "statement": "Once code has been generated from a set of documents, a WSDL part that names an element of one of them, whose type is of XML Schema or of the element's own namespace, is of the Go type that NameOf gives for the type of the element; if that type has a declaration of its own, this is the Go name it was declared under, the name is declared, and the code is left as it is. A part whose element no document declares in that namespace is an error. Not so for every declared element: an element whose type is in another namespace is known under the namespace of its type, and a part that names it is an error.", "quantifier": "every set of documents, every configuration, every order of maps, every part", "why_tests_cant": "all sets of documents and all parts; depends on how elements were read, on what Parse did to the type that stands for a document and on what generation leaves alone", "anchors": ["wsdlgen/wsdlgen.go:getPartType", "xsdgen/xsdgen.go:DocType", "xsdgen/xsdgen.go:NameOf", "xsd/parse.go:parseSelfType", "xsd/parse.go:parseElement"]}
{"id": "C100", "title": "The types of a generated client", "statement": "Take the code generated from a set of documents and a service description whose operations have both messages, with parts of types that can be used: a type of XML Schema that has a Go type, or a type with a declaration of its own; a part may name such a type or an element of one. Then the client is generated unless the Go parser rejects a piece of it: it has one method per operation, in order, and the Go type of each part is the Go type of its XML type, either that of the built-in type or the name under which the code declares it. A part that names an element which none of the documents has makes generation fail.", "quantifier": "every set of documents, every service description, every configuration, every order of maps", "why_tests_cant": "all documents and all descriptions; depends on both generators agreeing on names", "anchors": ["wsdlgen/wsdlgen.go:genAST", "wsdlgen/wsdlgen.go:operation", "wsdlgen/wsdlgen.go:opArgs", "wsdlgen/wsdlgen.go:getPartType", "xsdgen/xsdgen.go:NameOf"]}
{"id": "C101", "title": "Command lines", "statement": "Arguments are accepted just when they are flags, each written as -name value, -name=value or, for a Boolean, -name, with one dash or two, with values of the right kind, followed by arguments the first of which begins with no dash (or is - alone), or by -- and any arguments; otherwise the process ends before anything is read or written. xsdgen and wsdlgen then work with the last value of each flag or its default, with all values of -ns, -port and -r in order, and with the other arguments as files; success changes the file named by -o, or the default output, and no other, failure changes none, and without files they fail. xsdparse takes the last -ns. Exception: after the first file -o is a file name too, and xsdgen, which takes a file it cannot read for no documents, then reports success, writes an empty package to the default output and nothing to the file meant.", "quantifier": "every list of arguments, every file system, every compiler of expressions", "why_tests_cant": "all lists of arguments; the interplay of flags, files and errors", "anchors": ["xsdgen/cli.go:GenCLI", "wsdlgen/cli.go:GenCLI", "cmd/xsdparse/xsdparse.go:main", "internal/commandline/cli.go"]}
{"id": "C102", "title": "From the text of schemas to code", "statement": "GenCode on texts of schemas that fulfil the conditions of C87, beside the schemas that come with the package: there is code for every complex type written in the short form, every list and every enumeration right in a plain schema (no anonymous types, no references, one target namespace) of the namespaces asked for, or of the namespaces of the texts, under its Go name. If no other type has that name, the complex type is a struct with a field for each element of the sequences, choices and alls right in it, with the name of the element in the tag, and one for each attribute right in it, which may be left out just when it is not required, less those ignored. The standard schemas themselves fulfil the conditions. A text that is not well-formed XML is an error, whatever the others are.", "quantifier": "every set of texts that fulfils the conditions, every configuration, every order of the maps, every growth of slices", "why_tests_cant": "all texts and configurations; what is written passes through parsing, normalising, resolving, flattening and printing", "anchors": ["xsdgen/cli.go:GenCode", "xsdgen/xsdgen.go:lookupTargetNS", "xsd/parse.go:Parse", "xsd/parse.go:Normalize", "xsdgen/xsdgen.go:Config.gen"]}
{"id": "C103", "title": "The commands xsdgen and wsdlgen", "statement": "A run of xsdgen or wsdlgen, from its command line and the files to the files it leaves and how it ends: if the arguments are no command line (C101), or no files are named, nothing is written and the status says so; otherwise code is generated from the documents by one Config which has the default options and what the flags say: package ws unless -pkg, the namespaces of -ns or else of the documents, attributes id, href, ref and offset left out, separators taken out of names and then the rules of -r in order, SOAP arrays as slices, the fixed thresholds, the ports of -port; the result is written to -o or the default output, and no other file is ever changed; unless the end is a success no file is. wsdlgen fails if any file cannot be read. GenSource of xsdgen and of wsdlgen, after GenCLI on the same Config and files, returns what GenCLI has written; by itself it changes no file, and fails exactly where a file cannot be read (wsdlgen), the schemas are refused, or code cannot be generated or formatted. Exception: xsdgen with a file that is not there succeeds and replaces the output by an empty package.", "quantifier": "every command line, every file system, every generator, formatter and set of regular expressions", "why_tests_cant": "all command lines and file systems; the result depends on defaults, flags and documents together", "anchors": ["cmd/xsdgen/xsdgen.go:main", "cmd/wsdlgen/wsdlgen.go:main", "wsdlgen/cli.go:GenCLI", "xsdgen/cli.go:GenSource", "wsdlgen/cli.go:GenSource", "xsdgen/config.go:DefaultOptions", "wsdlgen/config.go:DefaultOptions"]}
{"id": "C104", "title": "What Definition.String tells", "statement": "For definitions with names of which lines can be made, Definition.String returns the same text for two definitions exactly if they have the same target namespace and, in order, ports with the same names and addresses, whose operations have, in order, the same names and the same types of parameters and results. The text has one line for the namespace, one for each port and, after it, one with a tab for each of its operations. Exception: parts that refer to elements leave no trace of their element.", "quantifier": "every pair of definitions", "why_tests_cant": "all definitions; that different definitions are told apart is a statement about pairs", "anchors": ["wsdl/wsdl.go:Definition.String", "wsdl/wsdl.go:Message.String"]}
{"id": "C105", "title": "Complex types as they are declared", "statement": "xsd.Parse gives a complexType its name in the target namespace, and Abstract as declared; it is Mixed if its content is simple, otherwise as mixed of its complexContent says, or, without that, mixed of the type itself. A type with simple content has no elements, the base of its extension or restriction, Extends exactly for an extension, and the attributes of the extension in order. A declaration of this form whose values are well formed is accepted, and one with any other child in the schema namespace is an error. Doc of complex and simple types is made of their annotations, as paragraphs. Exceptions: attributes in a restriction of simple content are lost; the documentation of the content and of the type run together.", "quantifier": "every declaration, every reading of annotations", "why_tests_cant": "all declarations, also those that schemas of the tests do not have", "anchors": ["xsd/parse.go:parseComplexType", "xsd/parse.go:parseSimpleContent", "xsd/parse.go:parseComplexContent", "xsd/parse.go:parseSimpleType"]}
{"id": "C106", "title": "What errors of xsd.Parse tell", "statement": "If reading the types of a schema fails, the error is about the first complexType that cannot be read, or, if all can, about the first simpleType; of several schemas, about the first with such a type. Its text is 'Error at ', the names of elements from the type down, separated by '>', each with its name attribute in parentheses, and the message. Every element told is below the one before; what is wrong is in the last: an annotation that cannot be read, a child that is not expected, a value of a facet, or a value of an element or wildcard below it. The child of the type that is told, or in which the error is, is the first with which the type cannot be read. An error is returned exactly if the types cannot be read. Exceptions: a complexType with a wrong abstract or mixed is not told at all, and an element with wrong values is not told, only the content it is in.", "quantifier": "every schema, every reading of annotations, numbers and times", "why_tests_cant": "all schemas and all places in them where something can be wrong", "anchors": ["xsd/walk.go:walk", "xsd/walk.go:parseError.Error", "xsd/walk.go:stop", "xsd/parse.go:parseTypes", "xsd/parse.go:parseComplexType", "xsd/parse.go:parseSimpleType"]}
{"id": "C107", "title": "What errors of xsd.Parse tell of types that are not found", "statement": "If Parse fails because a type is not found, the error tells of a complexType or simpleType, of the base, element, attribute or union member it refers to another type for, and of the name referred to; or of a top-level element and the name of its type. The type is declared in the schema and makes that very reference, no type of any schema has that name and it is no built-in, and every reference the type makes before it, in the order base, elements, attributes or base, members, is to a name that is known. This holds for every order in which the maps are ranged over. The name told is that of the type if every namespace has one document; with two documents of a namespace it may be the name of an element of another namespace instead. A schema with a reference to a name that nothing has is not parsed successfully. If every namespace has one document, a missing type of a top-level element is told as that of an element of the complexType _self, which stands for the document. What is told can be read back from the text, if names have no spaces and need no escapes.", "quantifier": "every list of schemas, every order of ranging over maps", "why_tests_cant": "all graphs of types and all orders of iteration", "anchors": ["xsd/parse.go:resolvePartialTypes", "xsd/parse.go:addElementTypeAliases", "xsd/parse.go:lookupType", "xsd/parse.go:Parse"]}
{"id": "C108", "title": "What the errors of wsdlgen tell", "statement": "If the operations of a WSDL definition cannot be generated, the error is about the first operation, in the order of ports and their operations, that cannot be, and what it tells is so: the input message named is not declared; or the output message named is not, while the input message is; or the part named is the first part of the input and then the output that has no Go type, being without a type and with an element whose namespace is not known, or with none, or with one that its namespace does not declare; or a declaration of the operation is not valid Go. A part whose element is not declared in a known namespace is told to have no element or type, although it has an element. Which error it is and the names in it can be read back from the text if names have no spaces, except for the namespace of a message, which the text leaves out.", "quantifier": "every definition, set of schemas and Config", "why_tests_cant": "all definitions with any number of wrong operations, messages and parts", "anchors": ["wsdlgen/wsdlgen.go:operation", "wsdlgen/wsdlgen.go:getPartType", "wsdlgen/wsdlgen.go:opArgs", "wsdlgen/wsdlgen.go:port"]}
{"id": "C109", "title": "What the errors of xsdgen tell", "statement": "If types of a schema cannot be generated, xsdgen returns no code but an error that tells of each of them: the types told are, in order, among those that the schema is flattened to, and what is told of each is so: it has content, an element or an attribute that is not filtered out, or a base, of a built-in type that Go has no type for or that needs a helper type the Config does not have, or it is a list of items for which no methods can be written, or whose methods are not valid Go. Every type that lacks any of these is told, however many others there are; of what a type lacks, one thing is told only. The text has one line for each type, if names have no line breaks.", "quantifier": "every set of types, every Config, every order of types", "why_tests_cant": "all graphs of types with any number of faults", "anchors": ["xsdgen/xsdgen.go:gen", "xsdgen/xsdgen.go:errorList", "xsdgen/xsdgen.go:genTypeSpec", "xsdgen/xsdgen.go:genComplexType", "xsdgen/xsdgen.go:genSimpleType", "xsdgen/xsdgen.go:genSimpleListSpec", "xsdgen/config.go:expr"]}
