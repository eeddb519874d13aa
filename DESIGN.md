# Formal model of genpybind: design

Source: `/repo` (read as text, never built).  Everything Coq is in
`rocq/theories`, logical root `Verif`.

## Layout

Per area there are up to four kinds of files:

* `XModel.v`: Gallina transcription of the C++ functions; every definition
  carries a comment with file and lines.  No proofs.
* `XSpec.v`: small specification, written without reference to the model's
  helpers (grammar, path predicates, decoders, data model of Python, ...).
* `XProofs.v` (and further files for long proofs): lemmas.
* `XProps.v`: property theorems only, each closed by `exact lemma` (or by a
  witness for `..._refuted`), each followed by `Print Assumptions`, plus
  `Example`s showing that the hypotheses can be met.

Conventions: loops run on explicit fuel with a distinct out-of-fuel result that
the theorems exclude; undefined behaviour (null dereference, out-of-bounds
access, failed assertion) is a distinct result too.  Properties that are false
of the code are proved as `..._refuted` (with a witness) next to a
`..._partial` theorem giving the part that holds.

## Areas, and the properties they carry

| Area | Source | Properties | How |
|---|---|---|---|
| Parser, Basis | `annotations/parser.cpp`, `annotation.cpp`, `literal_value.cpp` (print) | C01-C06 | token machine with one token lookahead; inductive lexical and token grammar; soundness, completeness, viable prefix |
| Literal | `annotations/literal_value.cpp` | C07-C09 | heap with allocation, null and dangling pointers as UB; ownership invariant over all operation sequences; refinement to plain values |
| String | `string_utils.cpp`, `expose.cpp` `emitStringLiteral` | C10-C12 | array machine with three cursors refines a run-collapsing function; C++ literal decoder inverts the escaping |
| Annot | `annotated_decl.cpp` | C13-C17, C19, C51 | handlers per declaration class as in the `AttrTypes` tuple; acceptance table as specification |
| Collect | `lookup_context_collector.*` | C18, C52 | recursive traversal over namespace trees |
| Graph | `decl_context_graph*.cpp` | C21-C27, C44, C53 | adjacency graph; LLVM depth-first iterator as a stack machine with visited set and path; specifications by paths |
| Order | `decl_context_graph_processing.cpp` (sort) | C28-C30 | Kahn's algorithm with priority queue and multi-edges; specification by the dependency relation |
| Inline | `visible_decls.cpp`, `expose.cpp` `emitType` | C39, C40, C47 | worklist and path search over class hierarchies |
| Emit | `expose.cpp` (declarations) | C20, C35-C38, C45, C46, C54, C55 | emitted text is a list of abstract statements; meaning given by a small model of Python's operator dispatch |
| Module | `expose.cpp` (`emitModule`, exposers) | C29-C34, C50 | whole pipeline from annotated declarations to output files; specification by a block semantics (variables, parents) |
| Command | `tool.cpp` (adjusters) | C41, C49, C56 | list functions; specification by how a compiler driver reads a command line |
| Tool | `tool.cpp` (`main`, consumer), `pragmas.cpp` | C42, C48, C57-C59 | runs over several compile commands, with files, temporary files and exit status |
| Template | `instantiate_annotated_templates.cpp` | C43 | worklist with duplicates; least fixed point as specification |
| Printer | `expose.cpp` `AttemptFullQualificationPrinter` | C61 | expression trees as clang builds them; specification by an inductive relation between expressions and texts |
| Text | `expose.cpp` (text of statements) | C62 | concrete text of every item and statement; specification by a lexer with literals, digraphs and nested brackets |
| Call | `expose.cpp` (text of statements) | C63 | the same text as calls with lists of arguments |
| Import | `expose.cpp` (module block), pybind11 registration | C64 | the block as a sequence of registrations in Python objects |
| Exec | `expose.cpp` (exposing functions), pybind11 attributes | C65 | statements as assignments of attributes, overloads appended |
| Build | `tools/genpybind.cmake` | C66, C67 | function call to command and sources; command read by the tool |
| Message | `diagnostics.cpp`, arguments of all reports | C68, C69 | diagnostics to texts; justification by what is written |
| Macro | `public/genpybind/genpybind.h` | C70, C71 | C++ preprocessor as far as needed; layouts of annotations, relation between source files and results |
| Access | (no new code, combines Annot to Exec) | C72, C73 | from the texts of annotations to what can be used after import |
| Manual | (no new code, on top of Module, Import, Exec, Access) | C74, C75 | order in which manual bindings are executed, and which |
| Alias | `public/genpybind/binding-helpers.h` | C76 | value of an alias at run time from the types registered |
| Default | `instantiate_default_arguments.cpp` | C77 | traversal of a tree that grows while clang instantiates |
| Split | (no new code, on top of Module, Import, Exec) | C78 | linking of files in any order |
| Wrap | `python/genpybind/__init__.py` | C79 | status and arguments of the Python entry point |
| Invalid | (Annot, Collect, Graph, Module, Tool) | C80 | invalid annotations from the declaration to the exit status |
| Find | (Graph, Module, Import) | C81 | classes and enumerations from the source to the imported module |
| Dispatch | (Emit, Exec) | C82 | calls from Python: overloads, keywords, defaults, `noconvert`, `required` |
| Public | (Inline, Find, Module) | C83 | access to the members and classes that are referred to |
| Store | (Exec, Annot) | C84 | reading and assigning variables and data members from Python |
| Option | (Annot, Graph, Import, Store) | C85 | options of classes and enumerations, dynamic attributes |
| Clang | `tool.cpp` (search for clang) | C86 | macro with `#` as in Macro, installed programs as input |
| Name | `annotated_decl.cpp` (`getSpelling`) | C87 | printed names and template arguments as inputs |
| Property | `expose.cpp` (`emitProperties`), `annotated_decl.cpp` (signatures of accessors) | C88 | calls by pybind11 in terms of the number of arguments |
| Mro | `expose.cpp` (`RecordExposer::emitType`), `visible_decls.cpp` (`RecordInliningPolicy`) | C89 | creation of classes and method resolution order in Python |
| Hiding | `expose.cpp` (`RecordExposer::emitType`), `visible_decls.cpp` (`RecordInliningPolicy`) | C90 | lookup of attributes compared with name hiding in C++ |
| Convert | `expose.cpp` (constructors), `annotated_decl.cpp` (`implicit_conversion`) | C91 | casters of pybind11 over the executed statements |
| Life | `expose.cpp` L371-374, `annotated_decl.cpp` (`keep_alive`) | C92 | `keep_alive` of pybind11, objects created and destroyed |
| Oper | `expose.cpp` L1108-1226 | C93 | Python data model 3.3.1 and 3.3.8: reflected and in-place methods |
| Stream | `expose.cpp` L1296-1325, `public/genpybind/binding-helpers.h` L34-38 | C94 | text written by `os << obj` is left open |
| Note | `annotations/annotation.cpp`, `annotations/literal_value.cpp` (printing) | C120 | printing as in Parser; literals of C++ as in String |
| Level | `diagnostics.cpp` (levels), graph and tool as in Graph and Tool | C119 | levels of messages listed separately in LevelSpec |
| Source | compile commands, public header, parser and storage of annotations taken together | C118 | as for `Active`, `Parser` and `Annot`; clang attaches attributes to declarations in order |
| Active | adjusted compile commands together with the public header | C117 | as for `Command` and `Macro`; clang reads options in order, each followed by at most one separate value |
| Aside | what importing the module leaves behind for translation units in which one declaration is hidden | C116 | as for `Hide` and `Exec`; that both modules can be imported is assumed, and manual bindings are assumed not to depend on what is hidden |
| Switch | the whole program as a function of --keep-output-files and --xfail | C115 | as for `Tool` |
| Rerun | the whole program for different contents of the file system | C114 | whether files can be opened and renamed does not depend on their contents; headers are not among the outputs |
| Request | the whole program for headers with a further include pragma | C113 | one compile command; that the declarations of the header do not depend on the pragma |
| Withdraw | the whole program for headers in which one declaration is hidden | C112 | one compile command; runs that succeed for the original header |
| Hide | the whole run for translation units in which one declaration is hidden | C111 | what lookups find does not depend on annotations; nothing is claimed if the original run has no result (failed assertions) |
| Absent | the whole run for translation units from which declarations are removed | C110 | what is found without them is what is found otherwise, minus them (overload resolution and hiding by name are not modelled) |
| Bare | the whole run for translation units without annotations | C109 | as for `Module` |
| Title | the whole run as a function of the name of the module | C108 | as for `Module` |
| Cosmetic | `main` as a function of the way headers are written | C107 | as for `Tool` |
| Layout | the whole run as a function of positions | C106 | as for `Module` |
| Arrange | the whole run as a function of the order of annotations | C105 | as for `Module` |
| Virtual | `visible_decls.cpp` path search with virtual bases | C39 | no class is a direct base of another twice |
| Rewrite | the whole run as a function of the texts of annotations | C104 | as for `Module` |
| Local | the whole run as a function of the annotations of one declaration | C103 | as for `Module` |
| Runs | `main` with several compile commands and repeated outputs | C102 | as for `Tool` |
| Detail | two runs of `emitModule` for versions that differ in declarations that are not visible | C101 | annotations and the results of lookups are the same in both versions |
| Create | creation of objects: constructors defined by `RecordExposer` and the call of classes in Python | C100 | the object under construction is an arbitrary value |
| Enum | operators and names of values of enumerations: `EnumExposer` and pybind11's `enum_base` | C99 | integers without bounds |
| Shared | several generated modules in one interpreter: `only_expose_in` and pybind11's registry of types | C98 | declarations of shared headers have the same number in all units |
| Doc | `expose.cpp` (`getDocstring`, `getBriefText`) and pybind11's `__doc__` of functions and enumerations | C97 | signatures as an oracle; a reader of the text is the specification |
| Policy | `expose.cpp` (`emitPolicies`, `emitProperties`, `emitOperator`) and pybind11's `return_value_policy` | C96 | objects in C++ and Python as numbers, arbitrary programs as lists of events |
| View | `inspect_graph.cpp` (DOT), `tool.cpp` (`inspectGraph`, options), LLVM's `GraphWriter` | C95 | text as lists of characters; a reader of DOT text and record labels as specification |
| Inspect | `inspect_graph.cpp` (text), `tool.cpp` (`inspectGraph`) | C60 | printer with pending callbacks; outline as specification |

## Coverage of the source

Line numbers refer to the pinned commit.

| File | Modelled | Not modelled |
|---|---|---|
| `annotations/parser.cpp`, `.h` | all (texts of errors L234-263 in the Message group) | - |
| `annotations/annotation.cpp`, `.h`, `annotations.def` | kinds, spelling, printing, equality | `operator<<` for `raw_ostream` beyond the text |
| `annotations/literal_value.cpp`, `.h` | all | |
| `string_utils.cpp` | all | |
| `annotated_decl.cpp`, `.h` | L49-531 (texts of diagnostics in the Message group, `getSpelling` in the Name group), L533-941 | `getQualifierLoc` based warnings about base names (lookup results are inputs) |
| `lookup_context_collector.*` | all | |
| `decl_context_graph*.{cpp,h}` | all | |
| `sort_decls.cpp` | locations as numbers | `SourceManager` |
| `diagnostics.cpp` | severities, order and nesting of reports; texts see below | L16-28 |
| `visible_decls.cpp` | all but the lookup by clang (an input) | |
| `expose.cpp` | L64-273, L283-418, L420-637, L645-1379 | texts by clang: types, qualified names, template arguments, comments, bodies of lambda expressions (inputs, record `texts`) |
| `tool.cpp` | L68-93, L100-114, L135-157, L159-176, L193-306, L322-432, L440-518 | L95-98 `--dump-ast`, parsing of options, `findProgramByName`, `real_path` and `GetResourcesPath` (inputs), `--version` |
| `pragmas.cpp` | L26-96 | |
| `instantiate_annotated_templates.cpp` | L23-118 | |
| `instantiate_default_arguments.cpp`, `.h` | all | the instantiation itself (record `sema_spec`), which declarations RecursiveASTVisitor has as children |
| `inspect_graph.cpp` | L42-97, L101-187, L189-195 | the viewer program |
| `tools/genpybind.cmake` | L20-63 | L5-9 (compile_commands.json), dependencies, pybind11_add_module itself |
| `diagnostics.cpp`, `parser.cpp` L234-263 | L30-106, texts and arguments of all reports | L16-28 (names are arbitrary), notes by clang itself |
| `public/genpybind/genpybind.h` | L9-31 | include of type_traits, include guard |
| `public/genpybind/binding-helpers.h` | L19-38 | text of the warning, a failing warning (`-W error`) |
| `python/genpybind/__init__.py` | L10-12 | search for the package directory |

## Trusted base

* The kernel of Coq 8.16.1 (and `coqchk`), the `coqc` front end.
* `Print Assumptions` answers `Closed under the global context` for every
  theorem in every `*Props.v` file: no axioms are used, neither own ones nor
  those of the standard library.  (Seven `ssrunder` constants listed by the gate
  are part of Coq's `ssreflect` plugin, loaded with the prelude in use, and are
  not used by any theorem.)
* The transcription of the C++ code into `*Model.v`.
* Inputs standing for what clang provides (below), and recalled behaviour of
  LLVM, clang, the C++ language, Python and pybind11 where a specification or a
  model refers to it (below).

### Inputs (universally quantified, no axioms)

* Declarations, with kind, attributes (texts of the annotations), parameters,
  scopedness, access, ... ; the tree of declarations (`unit`); names; canonical
  declarations; numbers for source locations.
* Results of clang's name lookup, both for contexts (`found`, `w_results`) and for
  argument dependent lookup (`x_adl`); which constructors etc. are implicit.
* Public bases, class hierarchy with access and virtuality.
* The priority queue's choice among equals (`pop`) and the iteration order of
  hashed sets (`iteration`): theorems hold for every choice.
* Whether files can be opened and renamed; whether clang accepts a pragma
  directive (`accepted`); errors reported by clang.
* Names shown in printed graphs (`names`); C60 assumes for readability that they
  contain no line breaks (`plain_names`).
* Texts printed by clang (`texts`): types, qualified names, template argument lists,
  brief texts of comments, bodies of manual bindings.
* For templates: which specialisations are visited with annotations in the
  translation unit and in each definition, what has a definition, what else gets
  instantiated implicitly.

### Facts assumed about the inputs

They are hypotheses of the theorems, named as follows:

* `sane`, `placed`: declarations occur once; a namespace is not reopened inside
  itself; only namespaces and tag types are skipped; the translation unit is the
  root; targets of aliases and enclosing contexts are contexts.
* `well_nested`, `no_orphans`: for reports of cycles (C22): contexts are nested
  properly, and contexts enclosing contexts are looked at.
* `acyclic`: class hierarchies are acyclic; `distinct_bases` (C39): no class is a direct base
  of another twice.
* `consistent`, `in_place`, `first_class_named`, `overloadable`: the facts about a
  function agree with its declaration (number of operands, ...).
* `language`, `setting`, `proper_declarations`, `templates_once`: the same for
  whole translation units.
* `fine_texts`, `fine_defaults`, `fine_annotations` (C62): texts by clang, default
  arguments, return value policies and holder types are complete pieces of code
  (brackets and literals closed, no comments, raw strings or directives).  The last one is not checked by the code.
* `proper_statuses`, `instantiable`: states of class template specialisations.

Each Props file has examples meeting these hypotheses.

### Recalled behaviour of dependencies

* clang keeps a single diagnostic in flight, emitted at the end of the full
  expression; operands of `<<` are sequenced left to right (C51).
* `llvm::DenseMap::reserve` keeps the references used in `emitModule` valid;
  discriminator counters do not wrap around.
* `llvm::df_iterator` visits and path; `std::priority_queue` returns some
  greatest element; `std::map` and `std::set` iterate in order.
* `clang::CXXRecordDecl::lookupInBases` and `CXXBasePaths`, in particular that the
  bases of a virtual base are visited once (C39).
* `StringRef::split`, `consume_front`, `consumeInteger`; `raw_ostream::write_escaped`;
  `llvm::sys::path::{is_absolute,stem,filename}` (POSIX).
* `CompilerInstance::createOutputFile` and `clearOutputFiles` (temporary files,
  renamed at the end), `FrontendAction::EndSourceFile`, exit codes of
  `ClangTool::run`; `LexFromRawLexer` returns true at the end of the buffer; the
  adjuster that inserts arguments in front of `--`; which `-std` options there are
  and that the last one counts.
* The C++ rules for string literals (escape sequences, trigraphs) and the Python
  data model for operators (`EmitSpec`): which method names are tried for an
  expression, in which order of operands.
* `clang::TextTreeStructure` (prefix, pending children, last child).
* `clang::StmtPrinter`: the helper is asked for every expression; implicit nodes and
  calls of conversion functions are printed as their operand; arguments are printed up
  to the first default argument; parentheses are nodes; `std::initializer_list`
  constructions print no braces of their own; unnamed scopes are printed as
  `(anonymous ...)`.  In `EmitModel`/`ModuleModel` a default argument is an opaque text;
  `PrinterModel` says which.
* pybind11 (C64): registering a class fails if its scope has an attribute of that
  name, if the type is registered already, if a base is not, or if base and class
  differ in having the default holder; `def_submodule` with the same name in the
  same module returns the same module.  Attributes modules and classes have
  initially (`__doc__`, ...) are ignored.
* pybind11 (C65): `def`, `def_static` append to the overloads found in the object
  itself, hide functions of bases, and fail for other attributes of that name
  (also of bases) unless it starts with an underscore, and for static and other
  overloads of one name; `enum_::value` fails for a name given before;
  `export_values` assigns the values so far to the scope; other statements
  assign.  Setting an attribute of a class through the setter of a static
  property is not modelled (it fails in the model).  `__hash__` set for `__eq__`,
  aliases made for enumerations (`__members__`, ...), and the rest of
  initially present attributes are ignored.  Which classes are searched after
  a class, what manual bindings do, and whether a value can be converted to
  Python are parameters.
* CMake (C66, C67): `cmake_parse_arguments` gives one value to HEADER and all
  arguments up to the next keyword to LINK_LIBRARIES and NUM_BINDING_FILES;
  `LESS` reads the number at the start of the text, `math` rejects lists.
  Arguments are neither empty nor contain semicolons.
* clang's `FormatDiagnostic` (C68, C69): inserts strings for `%N`, selects for
  `%select`; escaping of unprintable characters is not modelled.
* The C++ preprocessor (C70, C71): modelled from the standard for comments,
  tokens, arguments, object-like macros, `#`, `##` and `__COUNTER__`; not
  modelled are line continuations, encoding prefixes, raw strings and
  function-like macros other than those of genpybind.h.
* Manual bindings (C72): arbitrary, but assumed not to give access to further
  declarations themselves.
* Types registered by other modules or manual bindings (C76): an arbitrary
  function of the manual bindings executed so far.  That pybind11 finds the Python
  class for a type registered in this module is assumed.
* clang (C77): instantiating a default argument makes it available or reports an
  error, only adds declarations and leaves available default arguments alone
  (`sema_spec`).  RecursiveASTVisitor follows lists of declarations as they grow
  but visits only those specialisations that a template has when it is reached.
* Python (C79): `subprocess.call` returns the exit code or the negated number of
  the signal; `sys.exit` keeps the lowest eight bits; other exceptions lead to 1.
* pybind11's dispatcher (C82, `DispatchSpec.v`): overloads are tried in the order
  of their definition, without conversions first if there are several; arguments
  are taken by position, then by keyword, then from `arg = default`; `none(false)`
  refuses None and `noconvert` conversions; `self` is recorded in front of the
  first `pybind11::arg` of methods; remaining arguments go to `args` and `kwargs`.
  Which values are accepted for a parameter is arbitrary.
* Python's attributes and pybind11's static properties (C84, `StoreSpec.v`): data
  descriptors found along the method resolution order come first, then attributes
  of the instance; the metaclass passes assignments on to static properties;
  `def_readonly` refuses assignments; values of variables of namespaces are
  converted during import.  `del` and replaced `__setattr__` are not modelled.
* pybind11 (C85, `OptionSpec.v`): instances have a dictionary if the class is created
  with `dynamic_attr` or has a base whose instances have one when it is created.
* Programs on the search path, `real_path` and `GetResourcesPath` are arbitrary
  (record of inputs of the Clang group); the preprocessor does not expand an
  argument that is an operand of `#`.
* Names: the printed forms of declaration names and of single template arguments
  are arbitrary texts; `clang::printTemplateArgumentList` is recalled from clang
  (brackets, commas and spaces), identifiers of C++ are taken to consist of ASCII
  characters, and only namespaces, classes and enumerations to be without a name.
* Properties: `def_property` is given pointers to functions, so that pybind11 passes
  the object (and the value) and requires exactly as many arguments as the function
  has parameters, including the object for non-static ones; recalled from pybind11.
  The effect of the functions is arbitrary and may fail.
* Python: creating a class fails if a base is given twice or if merging the orders of
  the bases (C3, `pmerge` in CPython's typeobject.c) fails; recalled from CPython. The
  common bases `pybind11_object` and `object` are left out, which is shown to make no
  difference (`common_base_makes_no_difference`).
* C++ name lookup in classes: declarations in a class hide those in its bases, lookup
  is ambiguous unless all other declarations seen are in bases of the class that is
  found (`HidingSpec`). Using-declarations in classes are not considered for this.
* pybind11: casters for classes take objects of the class and of classes derived from it,
  otherwise try the conversions registered by `implicitly_convertible`, each of which loads
  the value without conversion and calls the class (`ConvertSpec`). What is accepted for
  parameters of other types is an oracle (`other`), as are conversions made by the constructor
  that is called (`nested`). Flags that prevent conversions from being used recursively are
  assumed not to be set when a function is called.
* pybind11: `keep_alive` is processed before the function is called, or after it if the
  result is involved; it throws if there is no such argument or the first object can not be
  tracked, does nothing if one of them is None, and otherwise makes the second object exist
  until the first one is destroyed (`LifeSpec`). Which objects are destroyed when, apart from
  that, is left open; identities of objects are not used again.
* Python: how expressions with operators are evaluated by special methods of the classes of
  the operands (`OperSpec`): priority of derived classes, reflected methods, `NotImplemented`,
  `+=` falling back to `+`. Objects are of generated classes or of others (whose methods are
  left open), not of classes derived in Python. The default `==` and `!=` by identity count as
  `NotImplemented`. pybind11: functions with `is_operator` return `NotImplemented` if no
  overload suits (decided by the first overload). `__hash__`, which pybind11 sets to None
  together with `__eq__`, is not modelled.
* C++: the characters `os << obj` writes to a new `std::ostringstream` for an object of a class
  (`insert` in `StreamSpec`, any function of class and object); which overload of `<<` the
  compiler selects is not modelled. Python: `str` and `repr` call `__str__` and `__repr__` of
  the class of the object; objects are of generated classes.
* LLVM: `GraphWriter` and `DOT::EscapeString` as recalled in `ViewModel` (nodes in any order,
  named by distinct addresses, no ports, no title). Graphviz: the part of the DOT language and of
  record labels read in `ViewSpec`; the layout and the viewer program are not modelled.
* pybind11: conversion of results of exposed classes (`type_caster_base::cast`,
  `type_caster_generic::cast`, `return_value_policy_override`) as recalled in `PolicySpec`:
  known objects are found first by address and class, then the policy decides;
  `def_readwrite` etc. and `def_property` use `reference_internal`, static members `reference`.
  Holders, polymorphic down-casts and containers of objects are not modelled.
* pybind11: layout of `__doc__` (`cpp_function::initialize_generic`, `enum_base::init`) as recalled
  in `DocSpec`; docstring options are at their defaults.
* pybind11: one registry of types for all modules of an interpreter (no `module_local`); modules built
  with the same compiler and version of pybind11 (`SharedSpec`).
* pybind11: methods defined by `enum_base::init`, and C++'s built-in operators for enumerations and
  integers, as in `EnumSpec`.  Types that integers are converted to in C++ have all values involved.
* pybind11: every class has its own `__init__`, which raises an exception unless constructors have been
  defined for the class itself; calling the class dispatches to these (`CreateSpec`, `ConvertSpec`).
* pybind11: `keep_alive` counts the return value as 0 and the object as 1.

### Simplifications

* Numbers: `nat` or `N` for counters and locations; ranges are checked where the
  code does (C05).
* Output is a list of abstract items per file, except for preamble, string
  literals, identifiers and command lines; `TextModel` gives the text of the items.
* `get_named` for the root is a lookup in the storage that finds nothing.
* Only regular files written via temporary files, and `-`, are modelled;
  interleaving of several `-` outputs is not; neither is clean-up after crashes
  or signals.
* Traversing the definition of a specialisation yields the same annotated
  declarations each time.

## Not modelled

Clang's parsing and semantic analysis, name lookup itself, type printing,
the implementation of pybind11 and of the Python interpreter, concurrency (the
tool is sequential), the file system beyond contents of paths.  The parts of the
semantics of C++, pybind11 and Python needed to state what a generated module
does once it is imported are written as specifications in the `*Spec` files
(`ImportSpec`, `ExecSpec`, `DispatchSpec`, `ConvertSpec`, `LifeSpec`,
`PolicySpec`, `OperSpec`, `StreamSpec`, `DocSpec`, `SharedSpec` and others), and
what they assume is listed above.

## Testing the theorems

`seeded/LOG.jsonl` records deliberate errors put into the model in a scratch
copy: the definition edited, the edit, the claim broken, the theorems and
lemmas whose proofs failed, and theorems tightened as a consequence.
