{"id": "C01", "title": "Annotation text is parsed exactly according to the grammar", "statement": "Annotation parsing succeeds on a text if and only if the text is derivable from the documented annotation grammar (comma separated annotations, optional parenthesised comma separated literal arguments, trailing commas allowed, horizontal whitespace between tokens), and on success the annotations returned are the unique ones denoted by the text, in source order with arguments in source order.", "quantifier": "every byte string given as annotation text", "why_tests_cant": "There are infinitely many annotation texts; both directions (nothing outside the grammar accepted, nothing inside rejected) and uniqueness of the parse need induction over the text.", "anchors": ["src/annotations/parser.cpp:Parser::parseAnnotations", "src/annotations/parser.cpp:Parser::parseAnnotation", "src/annotations/parser.cpp:Parser::parseAnnotationArguments", "src/annotations/parser.cpp:Parser::parseAnnotationValue", "src/annotations/parser.cpp:Parser::Tokenizer::tokenize", "include/genpybind/annotations/parser.h", "include/genpybind/annotations/annotations.def"]}
{"id": "C02", "title": "Rejected annotation text is diagnosed at its first offending token", "statement": "If annotation text is rejected, exactly one error is produced; it names the first token at which no grammatical continuation exists, and its kind tells whether this is an unknown annotation name, an unlexable or out-of-place token, or a missing closing parenthesis. The annotations completed before that token (and only these) remain appended to the caller's list after the ones already there.", "quantifier": "every byte string and every list of annotations already collected by the caller", "why_tests_cant": "A test fixes a handful of malformed inputs; that the reported position is always the earliest dead end is a statement about all prefixes and all possible continuations.", "anchors": ["src/annotations/parser.cpp:Parser::parseAnnotations", "src/annotations/parser.cpp:Parser::parseAnnotationArguments", "src/annotations/parser.cpp:Parser::Error::log", "src/annotated_decl.cpp:parseAnnotations"]}
{"id": "C03", "title": "Tokenisation is total and lossless", "statement": "Splitting any text into tokens terminates, yields end-of-file exactly once the text is used up, and the token texts interleaved with the skipped horizontal whitespace spell out the input byte for byte; each token is a maximal munch of its class.", "quantifier": "every byte string", "why_tests_cant": "Termination and byte-for-byte reconstruction range over unbounded inputs, including unterminated strings and arbitrary bytes.", "anchors": ["src/annotations/parser.cpp:Parser::Tokenizer::tokenize", "src/annotations/parser.cpp:tokenizeNumber", "src/annotations/parser.cpp:tokenizeString", "src/annotations/parser.cpp:tokenizeIdentifier", "include/genpybind/annotations/parser.h:Tokenizer"]}
{"id": "C04", "title": "Horizontal whitespace between tokens is irrelevant", "statement": "Two annotation texts that consist of the same tokens separated by different amounts of horizontal whitespace (where separation is needed) are both rejected or parse to the same annotations.", "quantifier": "every pair of texts with equal token sequences and arbitrary whitespace runs", "why_tests_cant": "Quantifies over all pairs of layouts of the same token sequence.", "anchors": ["src/annotations/parser.cpp:Parser::Tokenizer::tokenize", "src/annotations/parser.cpp:Parser::parseAnnotations"]}
{"id": "C05", "title": "Integer literals are exact or rejected", "statement": "A decimal digit run used as annotation argument is accepted if and only if its mathematical value is at most 4294967295, and the resulting value is exactly that number; leading zeros do not matter and no value ever wraps around.", "quantifier": "every digit string of any length", "why_tests_cant": "Digit runs are unbounded; absence of wrap-around must hold for all lengths.", "anchors": ["src/annotations/parser.cpp:Parser::Tokenizer::tokenizeNumber", "src/annotations/literal_value.cpp:setUnsigned"]}
{"id": "C06", "title": "Printing an annotation and parsing it again", "statement": "Parsing the printed form of an annotation gives back an equal annotation. (Holds whenever no argument is absent and every string argument is printable ASCII free of double quotes and backslashes; fails otherwise.)", "quantifier": "every annotation kind and every argument list", "why_tests_cant": "Round-trips range over all annotations with unbounded argument lists and strings.", "anchors": ["src/annotations/annotation.cpp:Annotation::print", "src/annotations/literal_value.cpp:LiteralValue::print", "src/annotations/parser.cpp:Parser::parseAnnotations"]}
{"id": "C07", "title": "Annotation argument values never leak, double free or use freed memory", "statement": "For any sequence of creating, copying, moving, assigning, setting and destroying annotation argument values, every heap string is owned by at most one live value, no string is released twice or used after release, and after all values are destroyed no string remains allocated.", "quantifier": "every finite sequence of value operations on any number of values", "why_tests_cant": "Ownership errors depend on the history of operations; tests only exercise a few histories.", "anchors": ["src/annotations/literal_value.cpp", "include/genpybind/annotations/literal_value.h"]}
{"id": "C08", "title": "Moved-from argument values can be read", "statement": "A value that has been moved from can still be observed (kind query, printing, comparison, copying) without undefined behaviour. (Holds after move construction and after move assignment onto a string; fails after move assignment of a string onto a non-string.)", "quantifier": "every value and every pair of source and target of a move", "why_tests_cant": "Depends on the combination of histories of both operands.", "anchors": ["src/annotations/literal_value.cpp:LiteralValue::operator=(LiteralValue &&)", "src/annotations/literal_value.cpp:LiteralValue::LiteralValue(LiteralValue &&)"]}
{"id": "C09", "title": "Copies of argument values are independent and equal", "statement": "After copying, the copy compares equal to the original and no later operation on one of them changes what is observed through the other; equality of values is an equivalence relation.", "quantifier": "every value, every history before the copy and every sequence of operations after it", "why_tests_cant": "Aliasing only shows after particular later mutations; needs a statement about all continuations.", "anchors": ["src/annotations/literal_value.cpp:LiteralValue::operator=(const LiteralValue &)", "src/annotations/literal_value.cpp:LiteralValue::operator=="]}
{"id": "C10", "title": "String literals in generated code denote the intended bytes", "statement": "Wherever generated code contains a string literal for a name, docstring or message, a C++ compiler reading that literal obtains exactly the original bytes, and the literal ends where the generator ended it (no premature termination, no digit or escape absorption, no line break in the literal).", "quantifier": "every byte string", "why_tests_cant": "Escaping errors show only for particular byte combinations (for example an octal escape followed by a digit); needs all strings.", "anchors": ["src/expose.cpp:emitStringLiteral"]}
{"id": "C11", "title": "Derived Python names are always valid identifiers", "statement": "Converting a non-empty C++ name into an identifier yields a string consisting of an ASCII letter or underscore followed by letters, digits and underscores; each maximal run of invalid characters becomes a single underscore and all other characters are kept in order. Names that already are identifiers are unchanged and converting twice equals converting once.", "quantifier": "every byte string", "why_tests_cant": "Ranges over all strings; runs of invalid characters may be of any length and position.", "anchors": ["src/string_utils.cpp:makeValidIdentifier", "src/string_utils.cpp:isValidIdentifier"]}
{"id": "C12", "title": "In-place identifier conversion stays within its buffer", "statement": "During the in-place conversion every character is read before its cell is overwritten, no access leaves the buffer, the result is never longer than the input and the work done is linear.", "quantifier": "every byte string and every intermediate step of the conversion", "why_tests_cant": "A statement about all intermediate pointer positions for all inputs.", "anchors": ["src/string_utils.cpp:makeValidIdentifier"]}
{"id": "C13", "title": "No annotation is silently ignored", "statement": "For every declaration and every annotation attached to it, storing the annotations either applies the annotation (its kind applies to this kind of declaration and its arguments match one of the accepted forms) or reports at least one error for that annotation; if there is no error every annotation has been applied, and an error is reported for exactly the annotations whose kind, argument count, argument types or argument values are not accepted.", "quantifier": "every declaration kind, every annotation kind and every argument list, in any number and order", "why_tests_cant": "The product of declaration kinds, annotation kinds and argument lists is unbounded.", "anchors": ["src/annotated_decl.cpp:AnnotationStorage::insert", "src/annotated_decl.cpp:ArgumentsDispatcher", "src/annotated_decl.cpp:NamedDeclAttrs::processAnnotation", "src/annotated_decl.cpp:RecordDeclAttrs", "src/annotated_decl.cpp:FunctionDeclAttrs", "src/annotated_decl.cpp:MethodDeclAttrs"]}
{"id": "C14", "title": "Explicit visibility: the last annotation wins", "statement": "After storing the annotations of a declaration its explicit visibility is determined by the last of its visible / hidden annotations (visible(default) resets it to unspecified); without any of these, a declaration other than a namespace that carries at least one annotation is visible and an unannotated one is unspecified.", "quantifier": "every annotation list on every kind of declaration", "why_tests_cant": "Ordering interactions range over all annotation lists.", "anchors": ["src/annotated_decl.cpp:NamedDeclAttrs::processAnnotation", "src/annotated_decl.cpp:AnnotationStorage::insert", "README.md"]}
{"id": "C15", "title": "An annotation macro without arguments implies visibility", "statement": "As documented, attaching the annotation macro to a declaration implies visibility even if the macro has no arguments.", "quantifier": "every annotated declaration", "why_tests_cant": "The documentation makes a claim about all annotated declarations; only a model of the storing code shows the exception.", "anchors": ["README.md", "src/annotated_decl.cpp:AnnotationStorage::insert", "src/annotated_decl.cpp:hasAnnotations"]}
{"id": "C16", "title": "Exposed spellings are valid identifiers", "statement": "Whatever annotations a declaration carries, the Python spelling stored for it is either absent or a valid identifier, and it is the one requested by the last accepted expose_as (or, for namespaces, module) annotation; expose_as(default) removes it.", "quantifier": "every annotation list", "why_tests_cant": "Quantifies over all annotation lists and argument strings.", "anchors": ["src/annotated_decl.cpp:NamedDeclAttrs::processAnnotation", "src/annotated_decl.cpp:getSpelling"]}
{"id": "C17", "title": "Storing annotations is idempotent and local", "statement": "Storing a declaration's annotations again changes nothing and reports nothing new, and storing annotations of one declaration never changes what is stored for another one, so that the stored attributes depend only on the set of declarations stored, not on the order.", "quantifier": "every sequence of declarations being stored", "why_tests_cant": "Order independence is a property of all permutations of all declaration sequences.", "anchors": ["src/annotated_decl.cpp:AnnotationStorage::insert", "src/annotated_decl.cpp:AnnotationStorage::has"]}
{"id": "C18", "title": "Annotation of reopened namespaces must agree", "statement": "If a reopened namespace contains annotated declarations and its stored attributes differ from those of the first declaration of that namespace, an error is reported at the reopened namespace; if there are no annotated declarations inside it or the attributes are equal, no such error is reported; comparison of stored attributes is an equivalence relation.", "quantifier": "every translation unit tree of namespaces and declarations, nested to any depth", "why_tests_cant": "Depends on what is nested inside each reopening at arbitrary depth.", "anchors": ["include/genpybind/lookup_context_collector.h:TraverseNamespaceDecl", "src/lookup_context_collector.cpp", "src/annotated_decl.cpp:AnnotationStorage::equal"]}
{"id": "C19", "title": "keep_alive refers to the named arguments", "statement": "For a function annotated with keep_alive(a, b), the indices in the generated call policy designate, in the numbering used by the binding library (0 return value, then the implicit object for non-static member functions, then the parameters), the return value, object or parameter named. (Holds for free functions, constructors and non-static methods with non-reserved parameter names, fails for static methods.)", "quantifier": "every function with any number of named and unnamed parameters", "why_tests_cant": "Index arithmetic must be right for all parameter lists and all function kinds.", "anchors": ["src/annotated_decl.cpp:FunctionDeclAttrs::processAnnotation", "src/expose.cpp:emitPolicies"]}
{"id": "C20", "title": "noconvert and required reach the named parameters", "statement": "For every function, the generated argument descriptor of a parameter carries noconvert (none(false) for required) if and only if that parameter was named in a noconvert (required) annotation. (Holds if the function has no variadic Python parameters; fails after such a parameter.)", "quantifier": "every parameter list and every set of annotated names", "why_tests_cant": "Off-by-one errors appear only for particular positions of variadic parameters.", "anchors": ["src/annotated_decl.cpp:FunctionDeclAttrs::processAnnotation", "src/expose.cpp:emitParameters"]}
{"id": "C21", "title": "Every context has at most one place of exposure", "statement": "In the context graph each context other than the root has exactly one parent, which is the context of the unique expose_here alias for it if there is one, and else the context lexically/semantically containing it; if two aliases claim the same target an error naming both is reported and no graph is produced.", "quantifier": "every translation unit with any number of contexts and aliases", "why_tests_cant": "Uniqueness of the place of exposure is an invariant over all alias sets and processing orders.", "anchors": ["src/decl_context_graph_builder.cpp:DeclContextGraphBuilder::buildGraph", "src/decl_context_graph_builder.cpp:addEdgeForExposeHereAlias"]}
{"id": "C22", "title": "Relocation cycles are diagnosed, nothing is lost silently", "statement": "A cycle error is reported if and only if some context cannot be reached from the root of the context graph; every reported alias belongs to an unreachable context, every cycle of relocations has a reported alias on it, and without error all contexts are reachable, so none is silently dropped from the output. (The last part holds if every context enclosing a context is itself looked at; it fails for a template specialisation declared outside of the skipped namespace it belongs to.)", "quantifier": "every context graph the builder can produce", "why_tests_cant": "Cycles can have any length and be nested in any way.", "anchors": ["src/decl_context_graph_processing.cpp:reportExposeHereCycles", "src/decl_context_graph_processing.cpp:reachableDeclContexts"]}
{"id": "C23", "title": "Effective visibility is inherited from the nearest deciding ancestor", "statement": "The effective visibility of a context is decided by the nearest context on the path from it to the root that has an explicit visibility or is a non-public member (which makes it hidden unless explicitly annotated), and is hidden if there is none.", "quantifier": "every context graph and every assignment of annotations and access specifiers", "why_tests_cant": "Paths are of unbounded length.", "anchors": ["src/decl_context_graph_processing.cpp:deriveEffectiveVisibility"]}
{"id": "C24", "title": "Contexts kept for output are exactly those with something to expose", "statement": "A namespace-like context is considered non-empty if and only if a visible declaration or visible type that is not hidden from Python by an intermediate hidden class is found in it or, transitively, in contexts nested in it.", "quantifier": "every context graph, visibility assignment and set of declarations found by name lookup", "why_tests_cant": "Needs induction over trees of arbitrary shape.", "anchors": ["src/decl_context_graph_processing.cpp:declContextsWithVisibleNamedDecls"]}
{"id": "C25", "title": "Pruning keeps exactly the exposed part of the tree", "statement": "After pruning a context is in the graph if and only if it and all of its ancestors are to be preserved (visible class or enumeration, or non-empty namespace); parents of kept contexts are kept and unchanged, so the result is a tree with the same root, and every visible context that gets lost is warned about.", "quantifier": "every context graph and visibility assignment", "why_tests_cant": "Tree surgery at arbitrary depth.", "anchors": ["src/decl_context_graph_processing.cpp:pruneGraph", "src/decl_context_graph_processing.cpp:reportUnreachableVisibleDeclContexts"]}
{"id": "C26", "title": "only_expose_in hides exactly the foreign parts", "statement": "When generating module m, a context is hidden because of only_expose_in if and only if some ancestor-or-self namespace on its path to the root carries only_expose_in with a name different from m; all other contexts keep their visibility and stay in the set of contexts to be exposed.", "quantifier": "every context graph, module name and placement of only_expose_in annotations", "why_tests_cant": "Sub-tree tracking during traversal must be right for every tree shape and traversal order.", "anchors": ["src/decl_context_graph_processing.cpp:hideNamespacesBasedOnExposeInAnnotation"]}
{"id": "C27", "title": "Python scope is the nearest enclosing module or class", "statement": "The scope in which a context is registered is its nearest proper ancestor in the context graph that is a class, a namespace annotated with module, or a namespace without annotations; annotated namespaces that are not modules are transparent.", "quantifier": "every context graph", "why_tests_cant": "Nesting depth is unbounded.", "anchors": ["src/decl_context_graph_processing.cpp:findEnclosingScopes"]}
{"id": "C28", "title": "Exposition order respects dependencies", "statement": "If the dependency graph (scopes before members, public bases before derived classes) is acyclic, the computed order lists every context of the graph exactly once and every context after its scope and after its direct public base classes that are exposed.", "quantifier": "every context graph and inheritance relation", "why_tests_cant": "Topological ordering correctness is a property of all finite graphs.", "anchors": ["src/decl_context_graph_processing.cpp:declContextsSortedByDependencies", "src/decl_context_graph_processing.cpp:lexicographicalTopologicalSort"]}
{"id": "C29", "title": "Dependency cycles are always detected", "statement": "The ordering reports a cycle if and only if the dependency relation has one, in which case an error is reported and nothing is generated; the declaration reported is one that depends (transitively) on a cycle. (That it lies on a cycle, as documented, fails.)", "quantifier": "every dependency graph", "why_tests_cant": "Cycles of any length and in any position.", "anchors": ["src/decl_context_graph_processing.cpp:lexicographicalTopologicalSort", "src/decl_context_graph_processing.cpp:declContextsSortedByDependencies", "src/expose.cpp:emitModule"]}
{"id": "C30", "title": "Exposition order is deterministic", "statement": "The computed order does not depend on the iteration order of hash tables or on pointer values, only on dependencies and source locations: it is the lexicographically smallest dependency-respecting order with respect to source location.", "quantifier": "every dependency graph and every iteration order of the containers used", "why_tests_cant": "Non-determinism from hash order is not controllable in tests.", "anchors": ["src/decl_context_graph_processing.cpp:lexicographicalTopologicalSort", "src/sort_decls.cpp"]}
{"id": "C31", "title": "Base classes named in a class binding are registered before", "statement": "Every class listed as base in the binding of a class is itself exposed and registered before it. (Holds for direct public bases; fails for bases reached through inlined bases.)", "quantifier": "every class hierarchy, inlining annotation and relocation", "why_tests_cant": "Order violations need a specific interplay of inlining and relocation in arbitrary hierarchies.", "anchors": ["src/expose.cpp:RecordExposer::emitType", "src/decl_context_graph_processing.cpp:declContextsSortedByDependencies"]}
{"id": "C32", "title": "Module structure is complete and ordered", "statement": "In the generated module each exposed context has exactly one exposing function which is declared, called and defined exactly once with one and the same name and parameter; contexts are introduced in dependency order, every parent object referred to in an introduction has been introduced before, and all bindings are called before the postamble code.", "quantifier": "every pruned context graph", "why_tests_cant": "Ranges over all graphs and all numbers of contexts.", "anchors": ["src/expose.cpp:TranslationUnitExposer::emitModule"]}
{"id": "C33", "title": "Distribution over output files", "statement": "With k output files every definition is written to exactly one existing file, definitions keep their order (file numbers are monotone), sizes of files differ by at most one definition, and the concatenation of the definitions over all files is the same for every k.", "quantifier": "every number of output files and every number of contexts", "why_tests_cant": "Arithmetic on unbounded counts.", "anchors": ["src/expose.cpp:TranslationUnitExposer::emitModule", "src/tool.cpp:HandleTranslationUnit"]}
{"id": "C34", "title": "Generated identifiers are distinct", "statement": "The identifiers generated for different contexts of a module are pairwise distinct. (Fails when a context name has the form of another one's numbered variant; holds if no name ends in an underscore followed by digits.)", "quantifier": "every sequence of context names", "why_tests_cant": "Collisions only show for particular combinations of names.", "anchors": ["src/expose.cpp:DiscriminateIdentifiers", "src/expose.cpp:emitModule"]}
{"id": "C35", "title": "Hidden declarations are never exposed, visible ones always", "statement": "A declaration found in an exposed context is handed to the emitting code if and only if its own explicit visibility, or without one the effective visibility of the context, says visible; in particular no declaration annotated hidden is ever emitted.", "quantifier": "every context, declaration and annotation", "why_tests_cant": "Quantifies over all declarations and contexts.", "anchors": ["src/expose.cpp:DeclContextExposer::handleDecl", "src/expose.cpp:emitModule", "src/visible_decls.cpp:collectVisibleDecls"]}
{"id": "C36", "title": "Python operators compute the C++ operator with operands in the right order", "statement": "For every exposed operator overload (member, friend or free, on either side), the Python special method generated for class T, when invoked by the Python data model for an expression `a op b` (directly or reflected), evaluates the C++ expression with a and b in the same positions.", "quantifier": "every binary and unary operator, every position of the class among the parameter types and all operand values", "why_tests_cant": "Needs a semantic statement on all operands rather than text comparison.", "anchors": ["src/expose.cpp:RecordExposer::emitOperator", "src/expose.cpp:emitOperatorDefinition", "src/expose.cpp:pythonBinaryOperatorName", "src/expose.cpp:pythonUnaryOperatorName"]}
{"id": "C37", "title": "Every exposed operator gets a Python name", "statement": "Every operator definition that is emitted has a non-empty special method name, and different operators of the same arity and direction get different names. (Fails for logical not and for compound assignments whose right operand is the class.)", "quantifier": "every operator kind, arity and direction", "why_tests_cant": "Combination of operator kinds with operand positions; the failing combinations are not covered by any test.", "anchors": ["src/expose.cpp:pythonUnaryOperatorName", "src/expose.cpp:pythonBinaryOperatorName", "src/expose.cpp:emitOperatorDefinition", "README.md"]}
{"id": "C38", "title": "Properties are built from exactly one getter and at most one setter", "statement": "For each class the emitted properties are exactly the names with an accepted getter, each once and in lexicographic order, read-only exactly if no setter was given; a second getter or setter for a name and a setter without a getter are reported as errors, and nothing else is.", "quantifier": "every sequence of methods with getter_for and setter_for annotations", "why_tests_cant": "Depends on the order and multiplicity of annotations over arbitrarily many methods.", "anchors": ["src/expose.cpp:RecordExposer::emitProperties", "src/expose.cpp:RecordExposer::handleDeclImpl"]}
{"id": "C39", "title": "Inlining of base classes is transitive closure over annotations", "statement": "The set of base classes whose members are inlined into a class is exactly the set of classes reachable through inline_base requests and lying on a public inheritance path free of hidden bases; hidden bases are the union of all hide_base requests met; computing it terminates.", "quantifier": "every class hierarchy (including diamonds) and every placement of inline_base and hide_base", "why_tests_cant": "Closure over arbitrary hierarchies.", "anchors": ["src/visible_decls.cpp:RecordInliningPolicy::createFromAnnotations", "src/visible_decls.cpp:RecordInliningPolicy::RecordInliningPolicy"]}
{"id": "C40", "title": "Listed bases are public, exposed and neither hidden nor inlined", "statement": "The bases listed in the binding of a class are exactly the exposed classes reached from it by public inheritance through inlined bases only, with hidden and inlined ones left out.", "quantifier": "every class hierarchy and inlining policy", "why_tests_cant": "Recursion over arbitrary hierarchies.", "anchors": ["src/expose.cpp:RecordExposer::emitType", "src/visible_decls.cpp:RecordInliningPolicy::shouldInline"]}
{"id": "C41", "title": "The compile command is adjusted to C++17 or later", "statement": "For every command line the adjusted command selects the C++ language for the input, its effective -std is C++17 or a later C++ standard requested by the user, the GNU/ISO flavour is preserved, all other arguments, the separator and what follows it are kept in order and adjusting twice equals adjusting once. (Fails for requested standards that are not C++ standards.)", "quantifier": "every argument list", "why_tests_cant": "Argument lists are unbounded and options interact by position.", "anchors": ["src/tool.cpp:getCpp17OrLaterAdjuster"]}
{"id": "C42", "title": "Failing runs leave no bindings behind", "statement": "If any error is reported during processing, the output files are erased unless keeping them was requested, and the exit status is non-zero exactly if the run failed (inverted under --xfail). (Fails for outputs of an earlier run if processing stops before outputs are opened, for standard output, with several compile commands, if a file cannot be renamed, and for rejected options under --xfail.)", "quantifier": "every sequence of pipeline stage outcomes and every option combination", "why_tests_cant": "Ranges over all points at which a stage can fail.", "anchors": ["src/tool.cpp:GenpybindAction::EndSourceFileAction", "src/tool.cpp:HandleTranslationUnit", "src/tool.cpp:shouldEraseOutputFiles", "src/tool.cpp:main"]}
{"id": "C43", "title": "Annotated templates are instantiated to a fixed point", "statement": "Implicit instantiation for annotated aliases terminates if finitely many types are involved, instantiates each specialisation at most once, and ends with every specialisation needed by an annotated alias, directly or inside another instantiated class, being complete.", "quantifier": "every finite system of templates and aliases", "why_tests_cant": "Fixed point over arbitrary dependency systems.", "anchors": ["src/instantiate_annotated_templates.cpp"]}
{"id": "C44", "title": "encourage only affects declarations with default visibility", "statement": "An encourage alias makes its target visible only if the target's visibility is unspecified (as documented); an explicitly hidden target stays hidden. (Fails.)", "quantifier": "every alias and target", "why_tests_cant": "Claim over all combinations of annotations on alias and target; needs a model of both processing steps.", "anchors": ["src/decl_context_graph_builder.cpp:buildGraph", "public/genpybind/genpybind.h", "README.md"]}
{"id": "C45", "title": "Unscoped enumerations export their values by default", "statement": "For every exposed enumeration the enumerators are exported to the enclosing scope exactly if export_values says so or, without such an annotation, if the enumeration is unscoped. (Fails for enumerations that are visible without carrying an annotation of their own.)", "quantifier": "every enumeration and annotation state", "why_tests_cant": "Interplay of inherited visibility and presence of stored attributes.", "anchors": ["src/expose.cpp:EnumExposer::finalizeDefinition", "src/annotated_decl.cpp:EnumDeclAttrs"]}
{"id": "C46", "title": "Variadic Python parameters are trailing", "statement": "For every function, code is only emitted without error if no parameter follows a keyword-variadic parameter; otherwise an error is reported.", "quantifier": "every parameter list", "why_tests_cant": "Ranges over all parameter lists.", "anchors": ["src/expose.cpp:emitParameters"]}
{"id": "C47", "title": "Members are exposed from the right place", "statement": "Name lookup results considered for a context contain no shadowed or inaccessible declaration, no member of a base that is not inlined, no declaration that is an exposed context of its own, and no implicit declaration without location; using-declarations count as their target.", "quantifier": "every lookup result sequence", "why_tests_cant": "Ranges over all lookup results and inheritance positions.", "anchors": ["src/visible_decls.cpp:ExposableDeclConsumer::FoundDecl", "src/visible_decls.cpp:collectVisibleDecls"]}
{"id": "C48", "title": "Include pragmas reach the output verbatim and malformed ones are errors", "statement": "For each `#pragma genpybind include` directive with a well-formed header name and nothing else on the line exactly one include with that spelling is recorded in source order; every other genpybind pragma yields an error and records nothing. The recorded headers appear verbatim and in order in every output. (Fails for trailing tokens directly before the end of the file; with other trailing tokens the header is recorded although an error is reported.)", "quantifier": "every token sequence following the pragma", "why_tests_cant": "All token sequences.", "anchors": ["src/pragmas.cpp:HandlePragma"]}
{"id": "C49", "title": "The recorded command line can be read back", "statement": "The quoted argument list written in verbose mode can be split back unambiguously into the original arguments. (Fails for empty arguments and for arguments that start with a quote but contain no space.)", "quantifier": "every argument list", "why_tests_cant": "Injectivity over all argument lists.", "anchors": ["src/tool.cpp:emitQuotedArguments"]}
{"id": "C50", "title": "An unannotated reopening does not change how a namespace is exposed", "statement": "Adding an unannotated reopening without annotated declarations, which is documented to be fine, does not change the Python module in which the namespace's members are exposed. (Fails if the reopening comes first.)", "quantifier": "every namespace and every position of the reopening", "why_tests_cant": "Interplay of graph construction, pruning and identifier reuse.", "anchors": ["src/expose.cpp:emitModule", "src/decl_context_graph_processing.cpp:findEnclosingScopes", "tests/lit/namespace-annotations-should-match-for-all-redecls-with-annotated-decls.h"]}
{"id": "C51", "title": "Storing annotations never reports while another report is in progress", "statement": "Whatever annotations a declaration carries, each diagnostic is completed before the next one is started, as the compiler's diagnostics interface requires. (Fails for an annotation without meaning for aliases on an alias whose target is neither a class nor an enumeration; holds in all other cases.)", "quantifier": "every declaration and every annotation list", "why_tests_cant": "Needs the combination of an unsupported alias target and an inapplicable annotation; release builds of the compiler libraries do not check the requirement.", "anchors": ["src/annotated_decl.cpp:reportInvalidAnnotationError", "src/annotated_decl.cpp:TypedefNameDeclAttrs::supports", "src/annotated_decl.cpp:friendlyName"]}
{"id": "C52", "title": "Annotations are collected once, completely and in source order", "statement": "After collecting a translation unit, attributes are stored for exactly the declarations that carry the annotation macro and are not inside implementation namespaces, dependent contexts or incomplete types; each is processed once and in source order, its stored attributes depend on its own annotations only, and the contexts and aliases passed on are complete and in source order.", "quantifier": "every translation unit tree", "why_tests_cant": "Holds for all nestings of namespaces, classes and templates.", "anchors": ["include/genpybind/lookup_context_collector.h", "src/annotated_decl.cpp:AnnotationStorage::insert"]}
{"id": "C53", "title": "Relocated declarations take over name and visibility of the alias", "statement": "A class or enumeration that is the target of an expose_here alias is exposed under the alias's exposed name and with the alias's visibility (or as visible, if an encourage alias for it comes later); an encourage alias only changes the visibility; all other attributes of the target, and all attributes of declarations that are not the target of such an alias, are those of their own annotations.", "quantifier": "every translation unit, any number and order of aliases", "why_tests_cant": "Interaction of several aliases for one target and their order.", "anchors": ["src/decl_context_graph_builder.cpp:DeclContextGraphBuilder::buildGraph", "src/annotated_decl.cpp:propagateAnnotations"]}
{"id": "C54", "title": "Emitting bindings never hits an assertion", "statement": "For every exposed context and every list of declarations found in it that clang can produce, emission of the bindings completes: no assertion fails, no unreachable code is reached and no null pointer is dereferenced. (Fails for free shift operators whose first parameter is of an unnamed class.)", "quantifier": "every context, every list of declarations with any annotations", "why_tests_cant": "the combinations of kind of declaration, annotation and context are unbounded", "anchors": ["src/expose.cpp:DeclContextExposer::handleDeclImpl", "src/expose.cpp:RecordExposer::handleDeclImpl", "src/expose.cpp:isOstreamOperator"]}
{"id": "C55", "title": "Free operators are exposed with the classes of their operands", "statement": "When the bindings of a class are written, the free operators considered besides its members are exactly those (including specialisations of templates) that argument dependent lookup finds for an operator with a counterpart in Python and that have a parameter of the class (by value or reference). Each that is visible, not deleted and not for output to a stream is bound such that the Python expression with the same operator and the class in the same position invokes it.", "quantifier": "every class, every set of free operators and templates found by argument dependent lookup, all annotations", "why_tests_cant": "the combinations of operators, operand types, operand order, templates and annotations are unbounded", "anchors": ["src/expose.cpp:collectOperatorDeclsViaArgumentDependentLookup", "src/expose.cpp:RecordExposer::emitOperator", "src/expose.cpp:TranslationUnitExposer::emitModule"]}
{"id": "C56", "title": "Added arguments take effect and do not disturb the command", "statement": "For every command line whose language options have values other than the separator, the final command keeps all other options in order, followed by the location of the builtin headers exactly if none was given and one was found, the option that silences warnings and the definition of __GENPYBIND__; all of these precede the argument separator, and the separator and what follows are unchanged.", "quantifier": "every argument list and every detected resource directory", "why_tests_cant": "Argument lists are unbounded; insertions depend on the position of the separator.", "anchors": ["src/tool.cpp:getDefaultResourceDirAdjuster", "src/tool.cpp:main"]}
{"id": "C57", "title": "Each output receives its part", "statement": "If a run succeeds, or outputs are to be kept despite errors, the i-th output holds exactly the include directives followed by the i-th part of the generated module, parts for `-` are printed in order, and no other file is changed. (Fails if an output is given twice.)", "quantifier": "every list of outputs, every file system state and every translation unit", "why_tests_cant": "Ranges over all output lists, initial file systems and inputs.", "anchors": ["src/tool.cpp:HandleTranslationUnit", "src/tool.cpp:shouldEraseOutputFiles"]}
{"id": "C58", "title": "Output paths do not depend on the working directory", "statement": "Every accepted output is `-` or starts at the root directory; if any output is not acceptable, nothing is processed, no file is changed and the exit status is 1. Paths starting at the root are accepted unless they consist of a root name only (such as `//a`).", "quantifier": "every list of outputs", "why_tests_cant": "All strings.", "anchors": ["src/tool.cpp:OutputFilenameParser::parse", "src/tool.cpp:main"]}
{"id": "C59", "title": "The default module name is a valid identifier derived from the header", "statement": "Without an explicit name the module is named after the file name of the header without directory and extension, with runs of invalid characters replaced by underscores, which is a valid identifier. (Fails for files such as `.h`, which yield the empty name.)", "quantifier": "every path", "why_tests_cant": "All paths.", "anchors": ["src/tool.cpp:HandleTranslationUnit", "src/string_utils.cpp:makeValidIdentifier"]}
{"id": "C60", "title": "Printed graphs show every context once, in its place", "statement": "With `--dump-graph`, and if no errors have occurred, the text printed for each of the two stages ends, and consists of the title and one line for every context that is reachable in the graph of this stage, indented below the line of the context it is exposed in, with its kind, qualified name, its name in Python if different, and its effective visibility; nesting and lines can be recovered from the text. Only an empty graph is reported to have no children. Nothing is printed after errors.", "quantifier": "every translation unit, names of declarations, combination of stages", "why_tests_cant": "Trees of any depth and width; the printer delays the last child of every node through a stack of pending callbacks.", "anchors": ["src/inspect_graph.cpp:printGraph", "src/tool.cpp:inspectGraph"]}
{"id": "C61", "title": "Default arguments keep their meaning in the generated code", "statement": "The text generated for the default argument of an exposed parameter denotes, at global scope, the same expression as in the header: every name is given by a path starting from global scope, types are fully qualified, list initialisation without type is given its type, arguments supplied by defaults are left out. Exceptions are reported as refutations: lists that already come with their type, arrays, local names, and members of unnamed namespaces, classes and unions.", "quantifier": "every expression built from literals, operators, calls, list initialisation, casts, temporaries, references to declarations, member accesses and lambdas, nested to any depth", "why_tests_cant": "Arbitrarily nested expressions; whether a type is printed depends on state kept while printing the enclosing expressions.", "anchors": ["src/expose.cpp:AttemptFullQualificationPrinter", "src/expose.cpp:emitParameters"]}
{"id": "C62", "title": "Generated files consist of exactly the intended statements", "statement": "Read as C++ text, every generated file is a sequence of well-formed parts, one for each declaration, definition and the module block, in order: each exposing statement starts with the pybind11 call it is meant to be, ends with the first semicolon outside of brackets, and has properly nested parentheses, brackets and braces; string literals in it denote exactly the Python names and docstrings, whatever characters these contain. Nothing of one statement runs over into the next. This holds if the texts of types, names, default arguments and manual bindings supplied by clang are complete pieces of code; return value policies, holder types and module names are not checked and can break the file, which is shown by refutations.", "quantifier": "every translation unit with arbitrary names and docstrings, every list of output files, every text of types, default arguments and manual bindings that is itself complete", "why_tests_cant": "Arbitrary characters in docstrings, spellings and nested code; an unclosed literal or bracket changes the meaning of all following statements.", "anchors": ["src/expose.cpp:emitStringLiteral", "src/expose.cpp:emitParameters", "src/expose.cpp:emitFunctionPointer", "src/expose.cpp:emitManualBindings", "src/expose.cpp:TranslationUnitExposer::emitModule"]}
{"id": "C63", "title": "Generated statements pass the intended arguments to pybind11", "statement": "Every generated file is, character by character, the sequence of calls its exposing statements stand for, in order and with all arguments in the positions pybind11 expects: functions are defined with Python name, pointer to the overload with its original parameter types (and the const selector exactly for const member functions), docstring, one keyword argument per parameter, return value policy and lifetimes to keep; each keyword argument forbids conversion or None exactly if asked for and has the default argument of the C++ parameter exactly if there is one; lambda functions for operators take the operands' types, return the result type, and apply the operator of C++ to their parameters, in swapped order exactly for reversed operators; constructors, implicit conversions, properties, members, enumerators, classes with bases and holder and submodules likewise. For co_await, which is not excluded, the text does not apply the operator, shown by a refutation.", "quantifier": "every translation unit, every text of types, names and comments, every list of output files", "why_tests_cant": "Arguments depend on arbitrary combinations of attributes, overloads, operators, default arguments and documentation.", "anchors": ["src/expose.cpp:emitParameter", "src/expose.cpp:emitParameters", "src/expose.cpp:emitPolicies", "src/expose.cpp:emitFunctionPointer", "src/expose.cpp:RecordExposer::emitOperatorDefinition", "src/expose.cpp:RecordExposer::handleDeclImpl", "src/expose.cpp:EnumExposer::handleDeclImpl"]}
{"id": "C64", "title": "Exposed classes are found under their Python path", "statement": "Importing the generated module executes its block without an exception, and afterwards following the Python path of a class, enumeration or namespace annotated with `module` (names of the enclosing classes and modules, then its own) from the module object leads to the object registered for it; modules and classes have no other classes, enumerations or submodules as attributes than these. Provided that identifiers are distinct, blocks of namespaces agree in their annotations, no two of them have to share a name in the same object, and listed bases come first and have the same kind of holder. The last two are not ensured: two visible classes of the same name in different namespaces, or a base without the derived class's holder type, give a module that cannot be imported without any diagnostic, shown by refutations.", "quantifier": "every translation unit for which bindings are written, every set of visible contexts, reopened namespaces and alias placed elsewhere, every iteration order", "why_tests_cant": "The place of a class depends on arbitrary nesting of namespaces, modules, reopened blocks and aliases, and on the order in which dependencies make them appear; tests import a handful of modules.", "anchors": ["src/expose.cpp:TranslationUnitExposer::emitModule", "src/expose.cpp:DeclContextExposer::emitIntroducer", "src/expose.cpp:NamespaceExposer::emitIntroducer", "src/expose.cpp:RecordExposer::emitIntroducer", "src/expose.cpp:EnumExposer::emitIntroducer", "src/expose.cpp:RecordExposer::emitType", "src/decl_context_graph_processing.cpp:findEnclosingScopes"]}
{"id": "C65", "title": "Imported modules give access to all members", "statement": "Importing the generated module executes the exposing functions without an exception, and afterwards the attributes of module and classes are exactly the exposed classes, enumerations and submodules, and what statements define for them: functions, methods and constructors of the same name form one attribute with all overloads in the order of definition, also across namespaces that are not modules; properties, variables, enumerators and enumerators exported into the enclosing scope are single values. Nothing that is exposed is lost. Provided that only overloads of one kind share a name, names differ from those of classes, and functions do not hide other members of base classes. The code does not ensure this: a class and a function of the same name, a method named like a data member of the base class, or static and other overloads of the same name give a module that cannot be imported, and variables of the same name in two namespaces replace each other, each without any diagnostic, shown by refutations.", "quantifier": "every translation unit for which bindings are written, every set of visible members, all namespaces, classes, enumerations and overloads, every effect of manual bindings that leaves attributes alone", "why_tests_cant": "Which statements meet in the same Python object depends on arbitrary nesting, reopened and transparent namespaces, exported enumerators and base classes; tests have a handful of overloads.", "anchors": ["src/expose.cpp:TranslationUnitExposer::emitModule", "src/expose.cpp:DeclContextExposer::handleDecl", "src/expose.cpp:RecordExposer::handleDeclImpl", "src/expose.cpp:EnumExposer::finalizeDefinition", "src/expose.cpp:EnumExposer::handleDeclImpl", "src/expose.cpp:RecordExposer::finalizeDefinition"]}
{"id": "C66", "title": "CMake builds compile the whole generated module", "statement": "For every use of genpybind_add_module in which other arguments do not follow directly on LINK_LIBRARIES or NUM_BINDING_FILES, the tool is asked to write exactly the requested number (at least one) of distinct files with absolute paths and the target's name for the module; these files and all other arguments, and nothing else, are passed on as sources; and after the command has succeeded the i-th file holds the i-th part of the generated code, nothing is printed, and no other file has changed.", "quantifier": "every directory, target name, header, order and number of arguments, number of binding files, every header for which the tool succeeds", "why_tests_cant": "Tests build with 1 and 8 files only; file names, argument orders and contents are unbounded.", "anchors": ["tools/genpybind.cmake:genpybind_add_module", "src/tool.cpp:OutputFilenameParser", "src/tool.cpp:main"]}
{"id": "C67", "title": "Arguments for pybind11_add_module may come last", "statement": "As documented, genpybind_add_module accepts arguments for pybind11_add_module after HEADER, LINK_LIBRARIES and NUM_BINDING_FILES and passes them on. (Fails: after NUM_BINDING_FILES with a positive number configuring always fails, and after LINK_LIBRARIES they are taken for libraries. C66 tells what holds for other orders.)", "quantifier": "every use in the documented order", "why_tests_cant": "The tests and the README use other orders, in which no further arguments follow on these keywords.", "anchors": ["tools/genpybind.cmake:genpybind_add_module"]}
{"id": "C68", "title": "Diagnostics about annotations name the fault", "statement": "Every diagnostic reported for the annotations of a declaration is justified by what is written there: the named annotation is present; its number of arguments is indeed wrong, the shown argument is one of its arguments and indeed has a wrong type, is no identifier, or names no parameter; the signature, scope, kind of declaration or bases indeed do not fit; conflicting annotations are both present. The message can be produced and shows the annotation and the text at fault.", "quantifier": "every declaration, every list of annotation texts, every diagnostic reported", "why_tests_cant": "Tests compare messages for a few wrong annotations; texts, kinds of declarations and combinations are unbounded.", "anchors": ["src/annotated_decl.cpp:processAnnotation", "src/annotated_decl.cpp:ArgumentsDispatcher", "src/diagnostics.cpp:getCustomDiagID", "src/annotations/parser.cpp:Parser::Error::report"]}
{"id": "C69", "title": "Messages show the names and can be told apart", "statement": "All placeholders of every message are filled by suitable arguments, the message contains the names and annotations concerned, and two equal messages belong to the same kind of problem with the same names, annotations and texts.", "quantifier": "every diagnostic of the tool, all names and texts", "why_tests_cant": "A missing or swapped argument only shows in messages that are compared completely, and names are unbounded.", "anchors": ["src/diagnostics.cpp:getCustomDiagID", "src/expose.cpp", "src/decl_context_graph_builder.cpp", "src/decl_context_graph_processing.cpp:reportUnreachableVisibleDeclContexts"]}
{"id": "C70", "title": "Annotations reach the parser as they are written", "statement": "Annotations written in GENPYBIND(...), with any white space, line breaks and comments between the tokens, are parsed as exactly these annotations: the macro ends at the matching parenthesis (not at one in a string or comment), and strings arrive with their quotes and backslashes. This holds as long as no name used is a macro (otherwise the macro is expanded, which is shown to be possible).", "quantifier": "every list of annotations, every layout in the source file, every macro definition and remaining source text", "why_tests_cant": "Layouts, comments and string contents are unbounded; the test headers use a few plain layouts.", "anchors": ["public/genpybind/genpybind.h:GENPYBIND", "public/genpybind/genpybind.h:GENPYBIND__PRIVATE_STRINGIZE__", "src/annotated_decl.cpp:parseAnnotations"]}
{"id": "C71", "title": "Annotation macros leave the program unchanged", "statement": "Without __GENPYBIND__ exactly the uses of GENPYBIND(...) and GENPYBIND_MANUAL(...) disappear from a source file; with it they only add attributes and declarations of manual bindings, which carry the annotation manual and have distinct names within the file. Nothing else changes, unless the program itself uses __COUNTER__ (refuted in general).", "quantifier": "every source file, every set of object-like macros", "why_tests_cant": "Test headers are compiled with one fixed text each; files and nestings are unbounded.", "anchors": ["public/genpybind/genpybind.h:GENPYBIND", "public/genpybind/genpybind.h:GENPYBIND_MANUAL", "public/genpybind/genpybind.h:GENPYBIND__PRIVATE_UNIQUE__", "public/genpybind/genpybind.h:GENPYBIND_PARENT_TYPE"]}
{"id": "C72", "title": "Hidden functions, variables, members and values cannot be used from Python", "statement": "After importing a generated module, every function, constructor, operator, variable, data member, property or enumeration value that any attribute of any object gives access to is declared in an exposed context and visible there: its own annotations make it visible, or they leave this open and the context is visible in this module. So nothing whose last visibility annotation is hidden can be used, even if names clash.", "quantifier": "every translation unit, every set of annotations, module name, number of output files, method resolution order and outcome of conversions; manual bindings that add nothing themselves", "why_tests_cant": "Tests check the absence of a few attributes in a few modules; absence everywhere in every module is unbounded.", "anchors": ["src/expose.cpp:TranslationUnitExposer::emitModule", "src/expose.cpp:DeclContextExposer::handleDecl", "src/decl_context_graph_processing.cpp:deriveEffectiveVisibility", "src/annotated_decl.cpp:AnnotationStorage::insert"]}
{"id": "C73", "title": "Visible functions, variables, members and values can be used from Python", "statement": "After importing a generated module, every ordinary function, constructor, variable, data member, operator or enumeration value that is declared in an exposed context and visible there is available as attribute of the object for that context, with the name given by its annotations or otherwise its C++ name. Partial: needs the conditions of C65 (no clashes of names), which the code does not ensure.", "quantifier": "every translation unit, every set of annotations, module name, number of output files", "why_tests_cant": "Declarations, scopes and names are unbounded; tests check a few names.", "anchors": ["src/expose.cpp:TranslationUnitExposer::emitModule", "src/expose.cpp:DeclContextExposer::handleDecl", "src/expose.cpp:RecordExposer::handleDeclImpl", "src/expose.cpp:EnumExposer::handleDeclImpl"]}
{"id": "C74", "title": "Manual bindings are executed in a defined order", "statement": "When a generated module is imported, GENPYBIND_MANUAL blocks are executed context by context, in the order in which the contexts are exposed, those at the top level first; those of one context in the order of their declaration, with parent being the object for the context; and after everything else the blocks annotated with postamble, in order of declaration, with parent being the module. (What the README says about the order is not true in general: a block in a class is executed after blocks at the top level that are declared later, and code at the top level does not precede the introduction of classes or functions declared before.)", "quantifier": "every translation unit, every set of annotations and manual bindings of arbitrary effect, module name, number of output files", "why_tests_cant": "One integration test checks one order for one header; contexts, their dependencies and blocks are unbounded.", "anchors": ["src/expose.cpp:TranslationUnitExposer::emitModule", "src/expose.cpp:DeclContextExposer::handleDeclImpl", "README.md:GENPYBIND_MANUAL", "tests/integration/manual-order-of-execution_test.py"]}
{"id": "C75", "title": "Exactly the visible manual bindings are executed", "statement": "When a generated module is imported, a GENPYBIND_MANUAL block is executed if and only if it is visible in an exposed context, once for the object of each such context that it belongs to (its own and those that inline it). Partial: blocks annotated with postamble are executed even if they are hidden.", "quantifier": "every translation unit, every set of annotations, module name, number of output files", "why_tests_cant": "Blocks, contexts and annotations are unbounded; tests do not combine hidden and postamble.", "anchors": ["src/expose.cpp:TranslationUnitExposer::emitModule", "src/expose.cpp:DeclContextExposer::handleDeclImpl", "src/expose.cpp:RecordExposer::handleDeclImpl", "src/annotated_decl.cpp:AnnotationStorage::insert"]}
{"id": "C76", "title": "Visible type aliases refer to the Python class of their target", "statement": "When a generated module is imported, an attribute is set for a type alias of a class or enumeration exactly if the alias itself is annotated as visible (it does not inherit the default visibility) and not moved by expose_here, in the object for each exposed context it belongs to. Its value is the Python class of the target whenever the target is exposed anywhere in the module, regardless of the order of declarations, and no warning is issued. If the target is not exposed, the value is the class that other modules or manual bindings executed before have registered, and otherwise None together with a warning. (So an alias can be None although a manual binding that is declared earlier registers its target.)", "quantifier": "every translation unit, every set of annotations, module name, number of output files, manual bindings of arbitrary effect, types registered elsewhere; names may clash", "why_tests_cant": "Aliases, contexts and orders of declaration are unbounded; the integration test covers a handful of aliases, none with an unexposed target that is registered later.", "anchors": ["public/genpybind/binding-helpers.h:getObjectForType", "src/expose.cpp:DeclContextExposer::handleDeclImpl", "src/expose.cpp:TranslationUnitExposer::emitModule", "README.md:Type aliases", "tests/integration/typedefs-and-aliases_test.py"]}
{"id": "C77", "title": "Default arguments of instantiated functions are available", "statement": "Before bindings are generated, the default argument of every parameter of a valid instantiated function (or member of an instantiated class) in the translation unit is instantiated, or an error is reported for it. Default arguments that are available already are not changed, clang is asked only for those that need it, and not again after success. So all default arguments of exposed functions can be printed. Partial: functions that only come into being when another default argument is instantiated can be missed, although all specialisations of a visible function template are exposed.", "quantifier": "every translation unit (tree of declarations of arbitrary shape, implicit ones included), every behaviour of clang that adds declarations and fills in default arguments", "why_tests_cant": "Tests contain a few templates, none where instantiating one default argument instantiates another exposed template.", "anchors": ["src/instantiate_default_arguments.cpp:InstantiateDefaultArgumentsASTConsumer::VisitParmVarDecl", "src/instantiate_default_arguments.cpp:InstantiateDefaultArgumentsASTConsumer::HandleTranslationUnit", "include/genpybind/instantiate_default_arguments.h", "src/expose.cpp:emitParameters"]}
{"id": "C78", "title": "The number and order of output files do not matter for the module", "statement": "If bindings for a header are generated with any two numbers of output files, and the files are compiled and linked in any order, then the two modules behave the same when imported: either both cannot be linked or imported, or all objects, attributes, functions and effects of manual bindings are the same, and the same diagnostics are reported while generating.", "quantifier": "every translation unit and set of annotations, every two positive numbers of output files, every order of linking, manual bindings of arbitrary effect", "why_tests_cant": "Integration tests build each module with one number of files and one order; both are unbounded.", "anchors": ["src/expose.cpp:TranslationUnitExposer::emitModule", "src/tool.cpp:HandleTranslationUnit", "tools/genpybind.cmake:genpybind_add_module"]}
{"id": "C79", "title": "The Python entry point tells success as the tool does", "statement": "The genpybind-tool command installed with the Python package passes all arguments on unchanged, and ends with status zero exactly if the tool itself ends with status zero; it never looks successful if the tool fails, crashes or cannot be started, and any status of a tool that ended normally is passed on. So its status is zero exactly if bindings have been generated (or, with --xfail, have not).", "quantifier": "every list of arguments, every ending of the tool (all exit codes and signals), all runs of the tool", "why_tests_cant": "There is no test of the entry point; crashes, signals and argument lists are unbounded.", "anchors": ["python/genpybind/__init__.py:tool", "src/tool.cpp:main", "pyproject.toml"]}
{"id": "C80", "title": "Every invalid annotation is reported where it is and makes the run fail", "statement": "If an annotation of a declaration that is looked at cannot be read, does not apply to this kind of declaration, has unsuitable arguments or conflicts with another one, then an error is reported at this declaration, no bindings are written and the exit status is not zero. Looked at are the annotated declarations of the source, what aliases with expose_here or encourage refer to, and everything declared in exposed contexts including specializations of function templates. Conversely errors about annotations are reported only at declarations with invalid annotations, in the order of the source.", "quantifier": "all translation units, annotations, module names and command lines", "why_tests_cant": "Tests check single misspelled annotations; a swallowed error would leave a declaration silently exposed with other attributes than asked for, for any of unboundedly many combinations of declarations.", "anchors": ["src/annotated_decl.cpp:AnnotationStorage::insert", "src/decl_context_graph_builder.cpp:DeclContextGraphBuilder::buildGraph", "src/tool.cpp:HandleTranslationUnit"]}
{"id": "C81", "title": "Visible classes and enumerations, and no others, are available in Python", "statement": "Whenever import of a generated module succeeds, the classes and enumerations registered with Python are exactly those that are visible (by their own annotations, those of the alias that relocates them, by being encouraged, or inherited from the innermost enclosing context that decides) together with all classes they are nested in, and that are not in a namespace restricted to other modules. If names and identifiers are distinct and bases usable, import succeeds and exactly these can be accessed from the module. A visible class that is left out for another reason has its enclosing class warned about.", "quantifier": "all translation units, annotations, relocations, module names and numbers of output files", "why_tests_cant": "Visibility depends on the combination of annotations along unboundedly deep paths of contexts and of aliases anywhere in the source; tests have a few fixed hierarchies.", "anchors": ["src/decl_context_graph_builder.cpp:DeclContextGraphBuilder::buildGraph", "src/decl_context_graph_processing.cpp:deriveEffectiveVisibility", "src/decl_context_graph_processing.cpp:pruneGraph", "src/expose.cpp:TranslationUnitExposer::emitModule"]}
{"id": "C82", "title": "Calls from Python reach the first suitable function and respect its declaration", "statement": "A call of a function of the generated module reaches the first overload for which the arguments are suitable without conversions, or else the first for which they are suitable with conversions; if there is none the call is rejected. Each parameter receives the argument given at its position, or under the name it is declared with, or its default argument, and no argument is lost. A parameter named by required never receives None and one named by noconvert never receives a value that needs conversion. Variadic parameters are those declared last.", "quantifier": "all translation units, annotations and modules that can be imported, all calls with any positional and keyword arguments, all conversions", "why_tests_cant": "Tests call a few functions with few arguments; overload sets, flags, defaults and the ways of passing arguments combine without bound, and the parameter descriptors are generated separately from the annotations.", "anchors": ["src/expose.cpp:emitParameters", "src/annotated_decl.cpp:FunctionDeclAttrs::processAnnotation"]}
{"id": "C83", "title": "The generated code only refers to what is accessible", "statement": "Every function, variable, data member and value the generated code refers to by name is public (or not a class member), and so is every class and enumeration that is exposed and every one it is nested in, so that the generated code is not rejected for access to protected or private members.", "quantifier": "all translation units, annotations, class hierarchies and using-declarations", "why_tests_cant": "Access depends on combinations of access specifiers, inheritance, inlining of bases, using-declarations, templates, nesting and relocation by aliases; tests cover few of them and using-declarations of protected members are an open point in the project's own tests.", "anchors": ["src/visible_decls.cpp:ExposableDeclConsumer::FoundDecl", "src/decl_context_graph_processing.cpp:deriveEffectiveVisibility", "src/expose.cpp:RecordExposer"]}
{"id": "C84", "title": "Attributes in Python have the current value of the variables and data members they stand for", "statement": "In the imported module, the attribute for a variable or data member shows its current value, also after changes by C++ code or through other objects; assigning it changes that variable or data member and nothing else, unless it is const or annotated as readonly (or the value cannot be converted), in which case the assignment is refused. Whatever a Python program does, it changes (except by running C++ code) only values of visible members of exposed classes that are neither const nor readonly.", "quantifier": "all translation units, annotations, sequences of attribute accesses and calls, classes and instances, values", "why_tests_cant": "Programs interleave reads, assignments and calls arbitrarily over any number of objects, base classes and static members; tests check single accesses and cannot show that no program changes a read-only value.", "anchors": ["src/expose.cpp:RecordExposer::handleDeclImpl", "src/expose.cpp:DeclContextExposer::handleDeclImpl", "src/annotated_decl.cpp:processAnnotation"]}
{"id": "C85", "title": "Classes and enumerations have the options they are annotated with", "statement": "Wherever a class or enumeration is exposed, also by an alias elsewhere, it is created in Python with the options given by its own annotations, the last one counting: dynamic_attr and holder_type for classes, arithmetic for enumerations. In the imported module, attributes that a class does not have can be added to an instance exactly if the class or one of its bases in Python is annotated with dynamic_attr, and they then belong to this instance only; otherwise the assignment is refused and changes nothing.", "quantifier": "all translation units, annotations, class hierarchies, instances, attribute names and values", "why_tests_cant": "Whether instances accept attributes depends on all annotations along inheritance chains of any length and on the order in which classes are registered; tests look at one class.", "anchors": ["src/expose.cpp:RecordExposer::emitIntroducer", "src/expose.cpp:EnumExposer::emitIntroducer", "src/annotated_decl.cpp:processAnnotation", "src/annotated_decl.cpp:propagateAnnotations"]}
{"id": "C86", "title": "The headers of clang's version are used", "statement": "If no resource directory is given, the one of an installed clang is added in front of positional arguments: that of the program for the major version the tool is built against if there is one, otherwise that of the program called clang, with symbolic links resolved if possible; arguments are unchanged if there is no clang or a resource directory is given.", "quantifier": "all versions, installed programs, symbolic links and command lines", "why_tests_cant": "The result depends on the programs installed on the machine; where only one clang is installed under the plain name the wrong choice cannot be noticed.", "anchors": ["src/tool.cpp:findClangExecutable", "src/tool.cpp:findResourceDir", "src/tool.cpp:getDefaultResourceDirAdjuster"]}
{"id": "C87", "title": "Names used in Python are identifiers and tell specialisations apart", "statement": "Whatever is made available in Python has a name that is a valid identifier: the given one, otherwise that of the declaration; operators for which Python has no method are the only exception. Specialisations of class templates are named after the template and its arguments, distinct specialisations being named differently.", "quantifier": "all translation units, declaration names, template arguments and annotations", "why_tests_cant": "Any name and any printed template argument may occur; clashes only arise for pairs of arguments that differ in characters which are not part of identifiers.", "anchors": ["src/annotated_decl.cpp:getSpelling", "src/expose.cpp:emitSpelling", "src/string_utils.cpp:makeValidIdentifier"]}
{"id": "C88", "title": "Reading and assigning properties calls the annotated getters and setters", "statement": "If no error is reported, each property of an exposed class has exactly one visible member function annotated with getter_for its name, and one annotated with setter_for it unless it is read-only. Reading the attribute of an object calls the getter; assigning it calls the setter and changes nothing else, and is refused without setter. Conversely, each visible getter gives an attribute of its class.", "quantifier": "all translation units, annotations, class hierarchies, objects, states of memory and values", "why_tests_cant": "Any number of member functions, names and inherited attributes may be combined; the project's test has a property that does not work but nothing states for which functions this is so.", "anchors": ["src/expose.cpp:RecordExposer::emitProperties", "src/annotated_decl.cpp:processAnnotation", "tests/integration/properties.h"]}
{"id": "C89", "title": "Python's classes are derived from each other as in C++", "statement": "Bases are listed in the order of declaration, those of inlined bases in place of these. If the classes can be created, a class that is derived from another in Python publicly inherits from it in C++; conversely, a class that publicly inherits from an exposed one via exposed ones, neither to be inlined nor hidden, is derived from it in Python. The classes can be created, and attributes are searched depth-first, if each exposed class is inherited from by one path only.", "quantifier": "all translation units, class hierarchies and annotations", "why_tests_cant": "Whether Python accepts a list of bases depends on the orders of all of them (C3 linearisation); arbitrary hierarchies and requests for inlining can be combined.", "anchors": ["src/expose.cpp:RecordExposer::emitType", "src/visible_decls.cpp:RecordInliningPolicy"]}
{"id": "C90", "title": "Attributes of derived classes hide those of bases like members do in C++", "statement": "If all bases of a class are exposed as they are, looking up an attribute of the class in Python finds the one that lookup of members in C++ would find among the attributes of the class and its bases: those of derived classes hide those of bases, also of virtual bases reached on another path, and nothing is found otherwise. A visible member of a base class that is not hidden this way can be used by its name for the derived class.", "quantifier": "all translation units, class hierarchies, annotations, classes and names", "why_tests_cant": "The order in which classes are searched in Python results from merging the orders of all bases; tests only compare it with lookup in C++ for single hierarchies.", "anchors": ["src/expose.cpp:RecordExposer::emitType", "src/visible_decls.cpp:RecordInliningPolicy"]}
{"id": "C91", "title": "Values are converted implicitly exactly as annotated", "statement": "After import, a Python value that is not an object of an exposed class is taken for a parameter of that class only if the parameter may be converted and a visible constructor of the class annotated with `implicit_conversion` takes the value as it is; `noconvert` parameters only take objects of the class. Conversely, a value taken by such a constructor is converted, by the first constructor of the class that takes it as it is.", "quantifier": "all translation units, annotations, classes, functions, arguments and values", "why_tests_cant": "Whether a conversion exists depends on the annotations of all constructors and the class hierarchy, and which constructor is called depends on all overloads; tests only try some values for a few classes.", "anchors": ["src/expose.cpp:RecordExposer::handleDeclImpl", "src/annotated_decl.cpp:ConstructorDeclAttrs", "README.md:implicit_conversion"]}
{"id": "C92", "title": "Annotated objects are kept alive, and no others", "statement": "After a call of an exposed function annotated with `keep_alive(<bound>, <who>)` that completes (or throws on its own), the object passed or returned as `<who>` exists at least as long as the one passed or returned as `<bound>`, whatever is called, created or destroyed afterwards. Objects for which there is no such annotation can be destroyed. The annotations do not make calls fail.", "quantifier": "all translation units, annotations, functions, arguments given by position, keyword or default, and all later executions", "why_tests_cant": "Lifetimes depend on everything that happens after a call and on how arguments are passed; a wrong index only shows if the wrong object is released too early or too late.", "anchors": ["src/expose.cpp:emitPolicies", "src/annotated_decl.cpp:FunctionDeclAttrs::processAnnotation", "README.md:keep_alive"]}
{"id": "C93", "title": "Python expressions with operators evaluate the corresponding C++ operators", "statement": "When the generated module has been imported, a Python expression `a op c`, `a op= c` or `op a` that ends up in a generated operator evaluates a visible C++ operator with the same symbol and with the operands in the same order (or the mirrored comparison with the operands swapped, or `op` for `op=`), and the operands are passed as its parameters. Conversely, if there is such an operator that takes the operands, no TypeError is raised.", "quantifier": "all translation units, annotations, operators (members, free functions, of inlined bases) and operands, including reflected methods, subclass priority and NotImplemented", "why_tests_cant": "Which method Python calls depends on the classes of both operands, on inheritance and on all overloads; tests try a few combinations, for which swapped operands often go unnoticed.", "anchors": ["src/expose.cpp:RecordExposer::emitOperator", "README.md:operators"]}
{"id": "C94", "title": "Stream operators become methods that return what is written", "statement": "When the generated module has been imported, a method returns text written by a C++ `std::ostream` operator only if there is a visible stream operator for a class of the object that has been annotated to be exposed under the name of the method (`expose_as(__str__)`), and then it is the text `os << object` writes for this object. Conversely, the method given by such an annotation returns that text, also for objects of derived classes which do not define the name themselves. Without the annotation nothing is exposed for the operator.", "quantifier": "all translation units, annotations, classes, stream operators and objects", "why_tests_cant": "Tests call str() for one class; whether other stream operators are exposed unasked, under a wrong name, or for a wrong class depends on annotations, visibility and inheritance in general.", "anchors": ["src/expose.cpp:RecordExposer::handleDeclImpl", "public/genpybind/binding-helpers.h:string_from_lshift", "README.md:std::ostream operators"]}
{"id": "C95", "title": "Displayed context graphs show every context and every edge once", "statement": "With `--inspect-graph`, a graph is displayed once for each stage requested (before and after pruning), however often the option is given, and only if no error stops the tool before. The DOT text handed to the viewer is well formed and has exactly one box for each context of the graph and exactly one arrow for each pair of context and nested context, in whatever order nodes are stored. A box shows the qualified name of the context (its kind if it has none) and the name given by annotations; it is dotted if the annotations do not decide visibility, dashed if the context is explicitly hidden, and filled for namespaces and the root. Characters with a meaning in labels, such as those of template arguments, are shown as they are. What `--dump-graph` prints is not affected.", "quantifier": "all translation units, names, orders of nodes and lists of options", "why_tests_cant": "There are no tests for the viewer, and missing nodes, arrows to undefined nodes or unescaped characters show up only for particular graphs and names.", "anchors": ["src/inspect_graph.cpp:DOTGraphTraits", "src/inspect_graph.cpp:viewGraph", "src/tool.cpp:inspectGraph"]}
{"id": "C96", "title": "Results are copied, shared or owned as return_value_policy says", "statement": "When a function of the imported module returns an object, a reference or a pointer to an object of an exposed class that is not yet known in Python, the object obtained in Python has the content of the original, and from then on, whatever else happens, it is a separate object (values; references without a policy; `copy`; `move`), the same object which is left alone when it is dropped in Python (`reference`), additionally keeps the object the function was called for alive (`reference_internal`, and data members), or owns the original (`take_ownership`, and pointers without a policy) according to the last `return_value_policy` annotation of that overload. No other object changes. Dropping an object in Python destroys an object in C++ only if it was constructed for it or a function handed it over for that purpose. Such a call does not fail for existing objects of classes that can be copied.", "quantifier": "all translation units, annotations, results and programs before and after the call", "why_tests_cant": "Tests use one class and check the effect of one assignment right after the call; premature or double destruction and accidental sharing depend on what else the program does.", "anchors": ["README.md:return_value_policy", "src/expose.cpp:emitPolicies", "src/expose.cpp:emitProperties", "src/expose.cpp:emitOperator", "src/annotated_decl.cpp:FunctionDeclAttrs", "tests/integration/return-value-policy_test.py"]}
{"id": "C97", "title": "Comments are found in the documentation of the module", "statement": "Reading the `__doc__` of any function of the imported module line by line gives back the signature of each of its overloads in order, each together with the brief comment of exactly the C++ function this overload calls (or of the template it is an instance of), or none if it has none; all of these functions are visible. Conversely the comment of every visible function or constructor is found there. The `__doc__` of an exposed enumeration has its own comment and then lists precisely the visible values, in the order in which they are written and under their Python names, each with its comment.", "quantifier": "all translation units, annotations, overloads and comments", "why_tests_cant": "The test has one enumeration and two classes; mixing up comments of overloads or values, or listing hidden ones, depends on names, order and visibility of all declarations.", "anchors": ["README.md:docstrings", "src/expose.cpp:getDocstring", "src/expose.cpp:getBriefText", "src/expose.cpp:EnumExposer", "tests/integration/docstrings_test.py"]}
{"id": "C98", "title": "Modules generated for the same headers can be imported together", "statement": "Several generated modules, each of which can be imported on its own, can be imported one after the other into one interpreter, in any order, if no class or enumeration is exposed by two of them; each of them is then the same (variables, attributes, functions, values) as when imported on its own. If two of them expose the same class or enumeration, importing the second one fails. Annotating namespaces with `only_expose_in` such that of any two modules at least one leaves out each class or enumeration is enough for this.", "quantifier": "all finite sequences of generated modules, translation units, annotations, orders of import", "why_tests_cant": "The tests import the two modules with `only_expose_in` in separate processes, and these share a class; whether others can be combined depends on all annotations, names and the order of import.", "anchors": ["README.md:only_expose_in", "src/decl_context_graph_processing.cpp:hideNamespacesBasedOnExposeInAnnotation", "src/expose.cpp:RecordExposer", "tests/integration/only-expose-in-shared.h"]}
{"id": "C99", "title": "Values of enumerations in Python behave as in C++", "statement": "In an imported module, values of exposed enumerations and integers compare equal or different exactly as in C++; values that cannot be compared in C++ are different. Equality is an equivalence relation and equal values have equal hashes. Values are ordered as in C++, and support the arithmetic operators they have in C++ with the same results, exactly if one of the enumerations involved is annotated as `arithmetic` (by the last such annotation); otherwise a TypeError is raised. The name of a value is the Python name of the first visible enumerator of that enumeration that has the value.", "quantifier": "all translation units, enumerations (scoped or not), annotations, values and operators", "why_tests_cant": "The tests apply two operators to a few values of unscoped enumerations; scoped ones, mixed operands, duplicated values and hidden enumerators are not covered.", "anchors": ["README.md:arithmetic", "src/expose.cpp:EnumExposer", "src/annotated_decl.cpp:EnumDeclAttrs", "tests/integration/enums-can-be-arithmetic_test.py"]}
{"id": "C100", "title": "Objects are created in Python exactly by the visible constructors of their class", "statement": "Calling an exposed class in Python succeeds exactly if one of its visible constructors (not deleted, not a move constructor, class not abstract) takes the arguments; the first such constructor in source order that takes them without conversions, or otherwise the first that takes them with permitted conversions, is called. Its parameters get the arguments of the call by position, by name or their default arguments, respecting `required` and `noconvert`. Constructors of bases, hidden constructors and those of abstract classes are never called.", "quantifier": "all translation units, classes, annotations, imported modules, values and calls with positional and keyword arguments", "why_tests_cant": "The tests create objects of a few classes with at most a handful of constructors; inherited, hidden, deleted and move constructors are not covered in combination, nor are other entities exposed with the name __init__.", "anchors": ["src/expose.cpp:RecordExposer::handleDecl", "src/expose.cpp:RecordExposer::handleDeclImpl", "tests/integration/constructors_test.py"]}
{"id": "C101", "title": "Details of declarations that are not visible do not affect the generated code", "statement": "For two versions of a translation unit with the same declarations and annotations, in which the declarations that are visible in a context of the module have the same signatures, types, constness and aliased types, the result of a run (generated code, everything reported, success or failure) is the same; signatures and types of all other declarations may be changed arbitrarily. Operators found by argument dependent lookup have to keep the classes among their parameters.", "quantifier": "all pairs of translation units that differ in declarations that are not visible only, all annotations, module names and numbers of output files", "why_tests_cant": "This relates two runs for any two versions of the code; tests compare the output of single versions of a few inputs.", "anchors": ["src/expose.cpp:DeclContextExposer::handleDecl", "src/expose.cpp:TranslationUnitExposer::emitModule", "src/expose.cpp:collectOperatorDeclsViaArgumentDependentLookup"]}
{"id": "C102", "title": "Several compile commands are processed like separate runs, the last one determines the outputs", "statement": "Running the tool on a file with several compile commands has the same effect on files, standard output and exit status as separate runs for the commands, one after the other, with the module named as for the first one: standard output holds everything printed in order, the run fails if a command fails (under --xfail one failing command suffices for success). If the last command succeeds (or outputs are kept), each output file finally holds the part of the last occurrence of its path in the list of outputs; if it fails after outputs have been opened, no output file is left. Files that are not among the outputs are never changed.", "quantifier": "all lists of compile commands, outputs (repeated or not), options, initial files and environments in which opening or renaming may fail", "why_tests_cant": "Tests invoke the tool with a single compile command and distinct outputs; interactions of several commands and repeated outputs are not exercised.", "anchors": ["src/tool.cpp:main", "src/tool.cpp:GenpybindAction", "src/tool.cpp:HandleTranslationUnit"]}
{"id": "C103", "title": "Annotations of a function, member or variable affect the code generated for it only", "statement": "If the annotations of a function, constructor, data member, variable or enumerator are replaced by other valid ones that differ in expose_as, readonly, keep_alive, noconvert, required and return_value_policy only, then the files written are the same except for the statements that bind this declaration (which stay at their places), all reports are the same, and runs that stop or fail do so in the same way. This needs the declaration to be annotated before and after: the first annotation in a part of a reopened namespace can turn a run that succeeds into one that fails.", "quantifier": "all translation units, declarations of these kinds, valid annotations, numbers of outputs, module names and orders of iteration", "why_tests_cant": "Tests compare whole modules for fixed annotations; that one annotation cannot influence bindings of other declarations is a statement about all pairs of inputs.", "anchors": ["src/annotated_decl.cpp:AnnotationStorage::insert", "include/genpybind/lookup_context_collector.h:VisitNamedDecl", "src/decl_context_graph_processing.cpp", "src/expose.cpp:handleDeclImpl", "src/expose.cpp:emitModule"]}
{"id": "C104", "title": "How annotations are written does not matter", "statement": "Whether annotations are written in one GENPYBIND macro or several, with which white space, with or without empty parentheses, and whether macros without arguments or attributes of other tools are interspersed has no effect: as long as every declaration carries the same annotations in the same order (and the macro is used at all in both cases or in none), the run gives the same result, including all files, reports and stored annotations. More generally only the resulting attributes and complaints matter.", "quantifier": "all translation units, all pairs of texts of annotations for all declarations, module names, numbers of outputs and orders of iteration", "why_tests_cant": "Tests use one way of writing per declaration; there are infinitely many equivalent ones.", "anchors": ["src/annotated_decl.cpp:AnnotationStorage::insert", "src/annotated_decl.cpp:parseAnnotations", "src/annotated_decl.cpp:hasAnnotations", "src/annotations/parser.cpp", "src/tool.cpp:HandleTranslationUnit"]}
{"id": "C105", "title": "The order of annotations does not matter unless they are about the same", "statement": "The annotations of a declaration may be rearranged as long as annotations about the same (visibility: visible and hidden; the name: expose_as and module; encourage and expose_here; otherwise annotations of the same name) stay in order. If nothing is wrong with them, the whole run gives the same result; otherwise the same attributes are stored and the same complaints are made in some order.", "quantifier": "all translation units, all declarations, all rearrangements of any number of annotations, module names, numbers of outputs and orders of iteration", "why_tests_cant": "Tests fix one order per declaration; the number of orders grows factorially.", "anchors": ["src/annotated_decl.cpp:AnnotationStorage::insert", "src/annotated_decl.cpp:processAnnotation", "src/annotated_decl.cpp:ArgumentsDispatcher", "src/tool.cpp:HandleTranslationUnit"]}
{"id": "C106", "title": "Positions in the source matter through their order only", "statement": "The result of a run depends on the positions of declarations only in so far as one comes before another: changes of layout (white space, comments, other lines in between) that leave the declarations in the same order do not change files, reports and stored annotations.", "quantifier": "all translation units, all strictly order-preserving changes of positions, module names, numbers of outputs and orders of iteration", "why_tests_cant": "Tests fix one layout per header; there are infinitely many.", "anchors": ["src/sort_decls.cpp", "src/decl_context_graph_processing.cpp:declContextsSortedByDependencies", "src/expose.cpp:TranslationUnitExposer::emitModule", "src/tool.cpp:HandleTranslationUnit"]}
{"id": "C107", "title": "Cosmetic changes of a header do not affect the outputs", "statement": "Any sequence of cosmetic changes (how annotations are written and distributed among uses of the macro, their order unless they are about the same, layout) leaves the effect of the program unchanged: it leaves the same files with the same contents, writes the same to standard output and exits with the same status, whatever the options, the file system and the number of compile commands.", "quantifier": "all command lines, file systems, lists of compile commands, translation units and sequences of changes", "why_tests_cant": "Tests compare against one expected text for one way of writing a header.", "anchors": ["src/tool.cpp:main", "src/tool.cpp:HandleTranslationUnit", "src/annotated_decl.cpp:AnnotationStorage::insert", "src/sort_decls.cpp"]}
{"id": "C108", "title": "The name of the module is only a name", "statement": "The name of the module affects nothing but the name under which the generated module is defined, and what namespaces annotated with only_expose_in are part of it: for two names that these annotations do not tell apart, runs stop with the same errors or write the same files, except for the name in the definition of the module, and report the same.", "quantifier": "all translation units, pairs of names, numbers of outputs and orders of iteration", "why_tests_cant": "Tests use one name per header.", "anchors": ["src/tool.cpp:HandleTranslationUnit", "src/decl_context_graph_processing.cpp:hideNamespacesBasedOnExposeInAnnotation", "src/expose.cpp:TranslationUnitExposer::emitModule"]}
{"id": "C109", "title": "Without annotations nothing is exposed and nothing is rejected", "statement": "If no declaration has an annotation (not even an empty one), the run succeeds without errors and without reports about annotations, whatever the headers declare, and the module is empty: nothing is defined in it, and further output files are empty. In particular, removing the annotations from any header is always enough to get there.", "quantifier": "all translation units without annotations, facts about classes and lookups, module names, numbers of outputs and orders of iteration", "why_tests_cant": "Tests use a few headers without annotations; the claim is about whatever can be declared, e.g. cyclic dependencies, unsupported aliases or reopened namespaces.", "anchors": ["src/lookup_context_collector.cpp", "src/decl_context_graph_builder.cpp:buildGraph", "src/decl_context_graph_processing.cpp", "src/expose.cpp:TranslationUnitExposer::emitModule"]}
{"id": "C110", "title": "Unannotated declarations outside of visible contexts may as well be missing", "statement": "Functions, variables, members and aliases without annotations that are only found in contexts that are not visible (e.g. helpers in the global scope, declared by headers of other libraries) can be added or removed without any effect: the same files are written and the same reports made, or the run stops or fails in the same way. This does not hold for declarations annotated to be hidden: they can make a reopened namespace an error.", "quantifier": "all translation units, sets of such declarations, facts about classes and lookups, module names, numbers of outputs and orders of iteration", "why_tests_cant": "Tests add a few helpers; the claim is about any number of them anywhere in the source, with using-declarations, templates and argument-dependent lookup.", "anchors": ["src/lookup_context_collector.cpp", "src/decl_context_graph_processing.cpp:declContextsWithVisibleNamedDecls", "src/visible_decls.cpp", "src/expose.cpp:DeclContextExposer::handleDecl", "src/expose.cpp:TranslationUnitExposer::emitModule"]}
{"id": "C111", "title": "Hiding a declaration removes its bindings and nothing else", "statement": "Adding 'hidden' to an annotated function, data member, variable or enumerator (not a constructor, operator, manual binding or accessor of a property) removes the statements that bind it, and reports about its parameters, from the result: everything else is written as before, in the same order, to the same files, with the same reports; a run that stops or finds a cycle still does so. This requires that each context in which the declaration is found has something else to expose; otherwise the context itself disappears from the module.", "quantifier": "all translation units, declarations, annotations, facts about classes and lookups, module names, numbers of outputs and orders of iteration", "why_tests_cant": "Tests compare the output for single headers with expected output; they do not compare pairs of headers that differ in the visibility of one declaration.", "anchors": ["src/expose.cpp:DeclContextExposer::handleDecl", "src/decl_context_graph_processing.cpp:declContextsWithVisibleNamedDecls", "src/annotated_decl.cpp:processAnnotation", "src/expose.cpp:TranslationUnitExposer::emitModule"]}
{"id": "C112", "title": "Hiding a declaration does not break a header that is processed successfully", "statement": "If the program succeeds for a header (exit status 0), it also succeeds after adding 'hidden' to an annotated function, data member, variable or enumerator (with the exceptions of C111, and if each context in which it is found has something else to expose). Each output, written to a file or printed, then is the previous one without the statements that bind the declaration; all other files are as they are after the first run. This holds with and without --keep-output-files.", "quantifier": "all headers, declarations, annotations, command lines without --xfail, initial contents of the file system, and environments (files that can be opened and renamed)", "why_tests_cant": "Tests run the program on single headers; they do not compare runs for two headers that differ in the visibility of one declaration.", "anchors": ["src/tool.cpp:main", "src/tool.cpp:GenpybindASTConsumer::HandleTranslationUnit", "src/expose.cpp:DeclContextExposer::handleDecl"]}
{"id": "C113", "title": "Requesting another header adds one include directive and nothing else", "statement": "Adding '#pragma genpybind include <h>' to a header, before, between or after its other pragmas, leaves the exit status as it is. Each output written, to a file or printed, then is the previous one with the line '#include <h>' added at the same position, at the start of a line; all other files are the same. This includes runs that fail, runs with --xfail and with --keep-output-files (files not written by either run are as they were before).", "quantifier": "all headers, lists of pragmas, positions in them, header names, command lines, initial contents of the file system, and environments (files that can be opened and renamed)", "why_tests_cant": "Tests use single headers with few pragmas; they do not compare the outputs for two headers that differ in a pragma.", "anchors": ["src/pragmas.cpp:PragmaGenpybindHandler", "src/tool.cpp:GenpybindASTConsumer::HandleTranslationUnit", "src/tool.cpp:main"]}
{"id": "C114", "title": "What is in the file system before does not matter, and running again changes nothing", "statement": "For two file systems that differ arbitrarily the program has the same exit status, prints the same and leaves each file either with the same contents or as it was before. Hence running the program once more, on the file system it left behind, has the same exit status and output and changes no file. This holds for successful and for failing runs, and for several compile commands.", "quantifier": "all headers, compile commands, command lines, pairs of file systems, and environments (files that can be opened and renamed)", "why_tests_cant": "Tests run the program once in a fresh directory.", "anchors": ["src/tool.cpp:main", "src/tool.cpp:GenpybindASTConsumer::HandleTranslationUnit", "src/tool.cpp:GenpybindAction"]}
{"id": "C115", "title": "The options for failing runs matter for failing runs only", "statement": "--keep-output-files changes neither the exit status nor what is printed: each file is the same with and without it, or is an output that is erased without it; after a successful run all files are the same. --xfail, if the outputs are acceptable, changes neither files nor what is printed and exchanges success and failure in the exit status.", "quantifier": "all headers, lists of compile commands, command lines, contents of the file system, and environments (files that can be opened and renamed)", "why_tests_cant": "Tests run the program with one set of options each and do not compare the files and statuses of pairs of runs.", "anchors": ["src/tool.cpp:main", "src/tool.cpp:g_keep_output_files", "src/tool.cpp:expect_failure"]}
{"id": "C116", "title": "Hiding a declaration changes nothing under other names in Python", "statement": "If a module can be imported both before and after adding 'hidden' to an annotated declaration (with the conditions of C111), both imports end with the same submodules, classes and enumerations, and every module, class and enumeration has the same attributes under all names other than those under which the hidden declaration was bound; enumerations have the same values except for the hidden one. It is assumed that code of manual bindings does not itself depend on what was hidden.", "quantifier": "all translation units, declarations, annotations, facts about classes and lookups, module names, numbers of outputs, orders of iteration, method resolution orders, manual bindings with the stated condition, and statements that fail to execute", "why_tests_cant": "Tests import modules for single headers and look at selected attributes; they do not compare all attributes of the modules for two headers that differ in the visibility of one declaration.", "anchors": ["src/expose.cpp:DeclContextExposer::handleDecl", "src/expose.cpp:TranslationUnitExposer::emitModule", "src/annotated_decl.cpp:processAnnotation"]}
{"id": "C117", "title": "Annotations are switched on whatever the compile command defines or undefines", "statement": "For every compile command, including those that define or undefine __GENPYBIND__ themselves or end with an option without its value, the macro __GENPYBIND__ tested by the public header is defined when the program processes a file: the annotations the program sees are those written in the file. This assumes that no option of the compiler takes more than one separate value.", "quantifier": "all compile commands, resource directories, tables of options with at most one separate value, source texts and other macros", "why_tests_cant": "Tests use a few well-formed compile commands; interactions of the arguments given with the ones added by the program are not exercised.", "anchors": ["src/tool.cpp:main", "src/tool.cpp:getCpp17OrLaterAdjuster", "src/tool.cpp:getDefaultResourceDirAdjuster", "public/genpybind/genpybind.h:GENPYBIND"]}
{"id": "C118", "title": "Attributes are those written in the source file", "statement": "For every compile command and any number of annotation macros in front of a declaration, with any white space and comments in them: if what they contain follows the grammar of annotations and refers to no other macros, the attributes clang hands over make the program store exactly the attributes described by the annotations written, in order; errors are reported exactly if one of them is not acceptable after the ones before it, or if the declaration is an alias without suitable target.", "quantifier": "all compile commands, tables of options with at most one separate value, macros, lists of annotations and ways to write them, remaining source texts, declarations and previously stored attributes", "why_tests_cant": "Tests check single annotations written in one way; they do not vary white space, comments, compile commands, and combinations of annotations.", "anchors": ["public/genpybind/genpybind.h:GENPYBIND", "src/annotations/parser.cpp:Parser::parseAnnotations", "src/annotated_decl.cpp:AnnotationStorage::insert", "src/tool.cpp:main"]}
{"id": "C119", "title": "Errors prevent success, warnings do not", "statement": "Processing of the declarations of a header is given up exactly if a message of level error has been printed, in particular if annotations of a namespace that is opened again differ from the first ones or if two aliases compete for one target. If the header compiles and the outputs can be written, the exit status is zero exactly if no message of level error has been printed; messages of level warning have no influence.", "quantifier": "all translation units, environments, outputs and module names", "why_tests_cant": "Tests check single messages; they do not show that no message is taken for the wrong level, nor that no combination of messages changes the outcome.", "anchors": ["src/diagnostics.cpp:getCustomDiagID", "src/decl_context_graph_builder.cpp:DeclContextGraphBuilder::buildGraph", "src/tool.cpp:main"]}
{"id": "C120", "title": "Printed annotations show name and arguments", "statement": "The text printed for an annotation, e.g. in messages about annotations that do not fit a declaration, consists of its documented name and, in parentheses, all its arguments in order, separated by comma and blank: strings as C++ literals in plain ASCII that denote them, numbers in decimal without leading zeros, other values as words. Different annotations are never printed alike.", "quantifier": "all annotations with numbers that fit an unsigned int", "why_tests_cant": "Tests print some annotations; they do not show that no two annotations have the same text, whatever characters their strings contain.", "anchors": ["src/annotations/annotation.cpp:Annotation::print", "src/annotations/literal_value.cpp:LiteralValue::print"]}
