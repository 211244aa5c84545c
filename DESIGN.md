# Formal model of modulegraph2 in Rocq (Coq 8.16.1)

## Approach

The Python code is modelled function by function as Gallina functions
(`rocq/theories/*.v`).  Every definition cites the file and lines it models.

- Exceptions are values (`result`), mutation is state passing.
- Unbounded recursion and `while` loops run on explicit fuel.  Out of fuel is a
  separate outcome (`None`), no theorem takes it for a result.
- Everything outside the repository is a parameter: importlib, the file system,
  the compiler, installed distributions (record `env`; every question carries the
  time, so answers may change from call to call), the iteration order of sets,
  and hooks.
- Hooks and users are programs (`prog`): arbitrary interaction trees of API calls
  that see the answers (and exceptions) of earlier calls.
- Ghost state (`s_log`, `s_run`, `s_saved`) records what happened; no modelled
  code reads it.
- Properties are stated in separate small specifications (`*Spec.v`, or the first
  part of the `Props*.v` file), not with the model's helpers.
- If the code violates a property, the full statement is kept as
  `Definition Cxx_statement` with `Theorem Cxx_refuted : ~ Cxx_statement` (the
  counterexample is computed in a concrete environment), and what does hold is
  proved as `Cxx_..._partial`.

## Files (all under `rocq/theories`)

| file | contents |
| --- | --- |
| `PyStr.v`, `PyStrFacts.v` | the `str` methods used (`rpartition`, `rsplit`, `lstrip`, `replace`, ...) |
| `Names.v` | `_utilities.split_package`, `_graphbuilder.relative_package` |
| `ImportInfo.v` | `_importinfo.py`, `_depinfo.py` |
| `AstScan.v` | `_ast_tools.py` |
| `Bytecode.v` | `_bytecode_tools.py` |
| `Callbacks.v` | `_callback_list.py` |
| `Dists.v`, `DistsGen.v` | `_distributions.py`; the generators as resumable machines |
| `DataFiles.v` | `_graphbuilder._contains_datafiles` |
| `Graph.v` | `_nodes.py`, the part of `objectgraph.ObjectGraph` that is used |
| `Machine.v` | state, environment, hook programs, the monad |
| `SpecNode.v` | `_graphbuilder.node_for_spec` |
| `Builder.v` | `_modulegraph.ModuleGraph`: work stack, loading, API calls, hooks |
| `BuiltinHooks.v` | `_swig_support.py`, `_mypyc_support.py`, `_implies.STDLIB_IMPLIES` |
| `Report.v` | `distributions`, `report`, `_dotbuilder.py`, `_htmlbuilder.py`, formatting functions of `__main__.py` |
| `Cli.v` | `_utilities.saved_sys_path`, the rest of `__main__.py` |
| `World.v` | concrete environments for examples and counterexamples |
| `*Spec.v` | specifications (`NamesSpec`, `AstSpec`, `BytecodeSpec`, `BuilderSpec`, `ReportSpec`, `HtmlSpec`) |
| `*Proofs.v`, `Bytecode{Chunks,Tree}.v` | lemmas |
| `Builder{Names,Steps,Chain,Wp,Pass,Close,Hist,Inv,Why,Order,Kinds,Calls,Fuel,Absent,Keep,Package,End}.v` | lemmas about the builder, see below |
| `Props*.v` | the theorems of the properties, concrete cases, `Print Assumptions` |

Proofs about the builder share a few generic theorems:

- `BuilderSteps/Chain/Wp/Pass`: every builder function is a chain of primitive
  state changes, for all environments, hooks and crash points.
- `BuilderClose`: weakest preconditions (`cwp`) with obligations: what a call has
  opened (an alias without target, a submodule without package edge, ...) is
  closed when it ends normally.
- `BuilderHist/Inv/Why/Order/Kinds`: invariants of all reachable states.
- `BuilderKeep`: an invariant that the primitive actions keep is kept by every
  call (`keeper`), with `BuilderPackage` as the largest instance.
- `BuilderFuel`: more fuel does not change a result.
- `BuilderHooks`: hooks have the effect they claim (C61, C62).
- `SourceSpec`, `BuilderSource`: the code of a node (source or bytecode), and the graph as a function of it (C63, C64).
- `ReachSpec`, `BuilderReach`: which nodes lead to which; every function leaves the nodes led to from loose ones, or from the node that it returns (C65).
- `SameSpec`, `BuilderSame`: in an environment that does not change, the class and statements of a node follow from its name, and every edge has a reason that does not mention the order of events (C66). A session excludes modules and adds implied actions, and then adds scripts, modules, source texts and distributions.
- `ModulesSpec`, `BuilderModules`: fake packages in `sys.modules` (C67).
- `AttrSpec`, `BuilderAttr`: attributes of nodes in terms of specs, code objects and the file system (C69, C70).
- `CompileSpec`, `CompileProofs`: the compiler as a relation between syntax trees and code objects, kept as loose as possible; CPython's compiler itself is not modelled (C71).
- `NodeAttrs`: the properties `uses_dunder_import` and `uses_dunder_file` of the class Module. `RunSpec`: runs of code objects (frames, function objects, the instructions that touch global names), as loose as possible; CPython's interpreter itself is not modelled. Names bound by star imports, `exec` and `globals()` are not part of it (C73).
- `StarSpec`: which module a star import takes its names from; what Python runs first (`runs_first`); which nodes can have work left on the stack while another node is worked on (`waits`, stated on the final graph and the order of its nodes) (C74).
- `LoadSpec`: which modules a program can load (`asks`, `loads`): import statements of the loaded modules, packages of modules, submodules named in from lists. It says what Python may do under some outcome of all conditions; what a star import finds in `__all__` and imports through `importlib` are not part of it (C75).
- `NeedSpec`: what a program and the configuration ask for (`needs`), an upper bound of the graph where `loads` is a lower bound: also what implied actions name, the targets of aliases and virtual modules, the library of namespace packages, and relative imports that leave the top level (C76).
- `MovesSpec`, `BuilderOrigin`: the modules of six.moves as six defines them, what an import of a redirected module gives (`stands_for`), why a module is missing (`absent`); every node that the builder added has an origin (`came`) in terms of specs, configuration and packages (C77, C78, C79). The names of six.moves are those of six 1.17, copied by hand; attributes of six.moves that are no modules are not part of it.
- `TextSpec`: the names that the statements of a text mention, and the real modules that one is led to from them (C80).
- `FineSpec`: names of modules, complete specs, environments that work, listings of packages, calls as they are meant, ranks of names (C81); hooks that make such calls only, no SWIG wrappers (C82).
- `ErrSpec`: exceptions of the package itself, of the import system, loaders and files, and about the argument of a call; programs of hooks that keep to a set of exceptions (C83).
- `ExcludeSpec`: two tables of implied actions, one with more excludes; graphs of which one only has less, and the part of a graph that does not need some names (C84).
- `ImplySpec`: two tables of implied actions, one with more references; what is behind the further ones (C89).
- `IdleSpec`: hooks that only look, lists of hooks alike but for them, two histories with the same calls (C90).
- `OtherSpec`: environments that agree on the names of a graph (C91).
- `NextSpec`: packages that cannot be imported, processes that build several graphs (C92).
- `RestSpec`: graphs that the built-in hooks have nothing to do for, sessions with the built-in hooks (C93).
- `UnionSpec`: the union of a family of graphs (C94).
- `MoreSpec`: programs that get more import statements (C95).
- `InstallSpec`: graphs where missing modules have been supplied (C96).
- `MustSpec`: Python statements, runs of programs with the import system, and the imports that every run makes (C97).
- `WithinSpec`: what calls import when they import by statements, modules without the excluded ones, and code that runs execute of modules with source or with a code object only (C98).
- `BundleSpec`: copies of Python that have the modules of a graph only (C99).
- `LeaveSpec`: installations that lack some of the modules (C100).
- `UsedSpec`: the files that modules are loaded from, and the nodes that distributions() looks at (C101).
- `ShownSpec`: names that an output tells of, and where the output is (C102).
- `AlwaysSpec`: how far runs get, without asking that they end (C103).
- `FaceSpec`: the import statements that runs get to, and modules that are not found (C104).
- `TakeSpec`: what the settings ask for (C106).
- `NamedSpec`: names that statements import from packages (C107).
- `DepthSpec`: parts of names, programs without hooks, the builder where calls are nested only so deep (C85); `BuilderDepth`: what that needs.
- `SeedSpec`: environments that differ in the iteration order of sets only, from lists without a name twice, the same statements with names in another order (C86).
- `EndSpec`, `BuilderEnd`, `BuilderEndCalls`: calls end (C27); what hooks may do, total correctness, whole histories.

## Per property

| | what is modelled, and how it is proved |
| --- | --- |
| C01, C02 | string functions; induction on strings; C02 against a transcription of CPython's `importlib._bootstrap._resolve_name` and a list-of-components view |
| C03 | builder; refuted by computation, exact characterisation by the number of dots |
| C04, C05 | rose tree of statements, the queue loop on fuel; specification by structural recursion over contexts; queue invariant |
| C06, C08 | refuted by a concrete tree; partial versions follow from C05, C07 |
| C07 | `create_importinfo`, for every set iteration order |
| C09-C11, C13 | code objects as trees, instructions as (opcode, argument); decode after encode; breadth first invariant |
| C12 | refuted with an EXTENDED_ARG prefix, proved without |
| C14-C16 | callbacks as state transformers with exceptions; loop by index over a live list |
| C17 | fold over configuration calls |
| C18-C26, C28-C42, C58, C59 | builder, all histories of calls; generic theorems above |
| C27 | builder in a finite universe, with hooks that keep to the rules of `EndSpec` (the built-in ones do); total correctness with a measure (absent names, lazy nodes, pending compiled nodes) and induction over stacks of work; refuted for redirections of loaders that never end |
| C43-C45 | `node_for_spec` and the built-in hooks; case analysis over all specs and answers |
| C46-C51 | RECORD codec round trip; import names; generators interleaved in any way; cache invariant; directory trees |
| C52, C53 | lists of nodes as any traversal with the contract of `iter_graph` yields them |
| C54, C55 | the printed text is read back by independent readers (`read_dot`, `hrefs`, `anchors`) |
| C61, C62 | the hooks themselves, not the ghost events: facts that a hook leaves true whenever it runs, kept by all steps of the builder (`BuilderHooks`, on top of `BuilderKeep`); C62 is refuted for loaders that stand for other modules (six.moves) |
| C63 | end to end: parse trees (`sites`), code objects, specs and the finished graph only; the record of what `node_for_spec` found for each node (`sourced`), C05 for the scanner, C25 and C59 for the builder; refuted after exceptions |
| C64 | both directions: C26 gives a reason in terms of the builder for every edge, each reason is traced to a statement of the code, a name, or the configuration; C63 gives the other direction |
| C65 | refuted by a left over missing module; an invariant relative to a set of nodes still to be linked, for the mutually recursive functions, gives the rest; `plain_history` rules out the cases that need hooks |
| C66 | refuted by a name that a package imports after its submodule was handled; an invariant gives each node the way it came about (`birth`) and each edge a reason (`due`); births of two sessions agree by induction on the length of the name, reasons carry over along paths from the roots |
| C67 | refuted by a package whose import fails; an invariant of all histories gives each fake package an exception that is to blame (`blamed`), for all hooks that make no such entries themselves and the SWIG hook |
| C68 | refuted by a hook with its own exception; the exact answer of `add_module` by following the call, for top level names, below missing packages and in packages that exist |
| C69 | refuted by a script (and, for modules, by names that are not bound); an invariant of all histories traces each name to the code or to a work item for an import statement (`held`), C13 relates the code to the scan |
| C70 | invariant: a node in the graph has the attributes `node_for_spec` gave it, which are described in terms of specs by induction over its recursive calls |
| C71 | mutual induction over the relation `emits`/`body` between trees and code objects: each import statement of the tree is an import of some code object below, with the function context of the path to it, and back; then C04, C05, C09, C11 for the scans and C64 for the edges; refuted by a class with type parameters |
| C72 | a reader of the sections (`HtmlSpec`); reading the printed lines back, by induction over the nodes; refuted by the heading `Used by:` of a module that only unreachable modules use |
| C73 | invariant of runs: every frame is a code object of the module with the scope of its place; then C13 and C11 for the scan, C69 for the nodes; conversely a run that calls the code objects on the path to an instruction; refuted by `class C: p = __file__` |
| C74 | invariant of the stack: a work item lies below another one only if its node waits for the node of the other; a star import is settled when its target has no work left, and the names of such a node never change again; refuted by a package with a star import whose submodule has a star import from the package, and by aliases |
| C75 | induction over what the program asks for, with the invariants of C66 (the class of a node follows from what Python finds) and the edges of C25, C28 and C59; refuted by a package that imports something else under the name of its submodule |
| C76 | induction over the chain of steps that made the graph: an edge for a name that a module imports itself comes after the edge of that module; other edges have a reason in the code or in the configuration (C66's invariant); refuted by a relative import in a script whose name has a dot, and by a package that cannot be decoded; with C75: exactly the modules that can be loaded |
| C77 | invariant of all histories: every added node has an origin; a missing node comes from `find_spec` that found nothing, a missing package, or `node_for_spec`, whose results are described by induction over its recursive calls; refuted by six.moves.collections_abc, which the table lacks |
| C78 | the same invariant; refuted by six.moves.tkinter_filedialog (the table has tkinter.FileDialog) and by setuptools.extern.x with x installed but not vendored; proved where the table agrees with six and vendored packages are complete |
| C79 | the same invariant, excluding the other origins, and C31 for the edge; refuted by six.moves.collections_abc |
| C80 | the names of the text are roots (C39); C75 and C76 for each of them, and the programs that they start together load what the script loads; refuted by `from os import getcwd` |
| C81 | an invariant over the builder (`BuilderFine`): nodes have names of modules (scripts and distributions may have paths, which are neither such names nor relative ones), edges end in the graph, work on the stack is for modules, packages, listings of packages and scripts, a program in a hook context makes calls as they are meant only, and what gets into the graph while a name is looked for does not rank above it; so a name is never added twice. Refuted by a missing package that implies its own module, and by `./main.py` |
| C82 | the invariant of C81 with the built-in hooks; the mypyc hook adds modules with names of modules and parses files that can be read; without SWIG wrappers the SWIG hook does nothing, because no node has `swig_import_helper` among the names it writes (star imports included). The configuration left after the excludes of the command line can be ranked. Refuted by a SWIG wrapper outside of any package |
| C83 | a logic of exceptions over the builder (`BuilderErr`): every function keeps to the set X that has the exceptions of the package and of the environment, as long as the hooks of the graph do; specs come from find_spec, so that their loaders' exceptions are exceptions of the environment; SyntaxErrors of get_source, get_code and compile are handled. The built-in hooks keep to X plus what reading a file raises. |
| C84 | the births of C66 for two tables: the nodes for a name agree unless it is excluded in the first only (induction on the length of the name); the reasons of edges carry over along paths of nodes that agree, in both directions; edges of excluded modules lead to their packages. Refuted by a star import of an excluded module |
| C85 | the loop of `_run_stack` is replaced by one where each round may nest calls as deep as the names in its work item say (`rounds`); every call without hooks gives the same answer and state. By a measure: entries of the table left, whether pkgutil and pkg_resources are in the graph yet, dots of the name, fake package there or not |
| C86 | as C66, for two environments that differ in iteration orders: the statements of a source are the same up to the order of names (C04), so are the nodes of a spec; roots are the same by C30 and C39. Refuted by `from . import a as b, b` in a package |
| C87 | what a call that succeeded leaves (C29, C31, C37, C39 with `cwp`) is still there later (C19); a small logic of computations that change nothing but clock and log, for the second call. Refuted by a call that failed in between and left work |
| C88 | the situations in which a call is turned down as an inductive relation (`refusal`), the calls run for each; growth of the graph (`cwp`, which also speaks about calls that raise) from the moment the script or distribution has been added. Refuted by import_module for an importing node that does not exist |
| C89 | as C84: the nodes for a name agree always, because references make no node of their own kind; the reasons of edges carry over, apart from the further references. Refuted by a reference that changes the order in which two modules are handled |
| C90 | a simulation between the functions with two lists of hooks (`BuilderIdle`), the same fuel on one side and a multiple of it on the other, in both directions; the outcome does not depend on the fuel (`BuilderFuel`). Refuted by a hook that registers two hooks while the list is iterated |
| C91 | a relation between the functions in two environments (`BuilderOther`): if a function returns and the names of the graph are among those on which the environments agree, it does the same in the other one. `_load_module` asks about a name before its node is added: that the name is there in the end is shown first, as the case of one environment. Refuted by a loader that redirects (a vendored module that is not there is looked for and not reported) |
| C92 | that only packages that cannot be imported are faked is kept by all calls, also by those that raise; then a relation between two states that differ in fake packages and time only (`BuilderNext`): what returns with fewer fake packages returns the same with more. Where a package is faked already, `_load_module` needs one call less. Refuted by `import_package`, which has no workaround for the ValueError that find_spec raises for a fake package |
| C93 | graphs only grow (nodes keep class, file and distribution, and lose no name they bind), so a hook that has nothing to do for the last graph had nothing to do for any graph before; the relation of C90 for hooks at the end of the lists, under the condition that the last graph is such a graph (`BuilderRest`). `PropsDefault` uses it to carry C66, C75, C76, C80, C84, C86, C89, C91 and C92 over to graphs with the built-in hooks |
| C94 | by induction on how a name is reached, from the lemmas on two graphs with the same settings of C66 (an edge of a node of one graph is an edge of it in every graph that reports the node); used in both directions for each part. With the built-in hooks by C93. Refuted without the condition on names (`settled`): the edge pkg.sub -> json of C66 is in the graph for pkg and pkg.sub but in neither part |
| C95 | two environments, each with its own modules, that agree on everything but the code of modules and scripts: for every spec the nodes that `node_for_spec` makes agree but for their globals, and the statements of the first are among those of the second (from the specification of the AST scan of C04 and C05, as for C86); then the reasons for edges of C66 hold in the second graph. `PropsMoreDefault` has the built-in hooks. Refuted without the condition on names (`settled`) |
| C96 | the lemmas of C95 without the assumption that no further modules are found: nodes of the first graph are missing, and then have no statements, or are as in the second one. Only nodes that are not missing give reasons for edges. With the same code for what was found before, the names that a package binds are the same, so that `no_repair` holds. `PropsInstallDefault` has the built-in hooks. Refuted without the condition on names (`settled`) |
| C97 | `MustSpec.run` is a big step semantics of statements, which says of values only that conditions, calls and loops can do anything (end, raise, import other modules); sys.modules grows as modules are loaded, a module that fails is dropped, one that is being loaded can be seen by others (circles). Not part of it: code that changes sys.modules or import hooks while the program runs, and programs that end by os._exit. Runs: what was loaded has run its statements, so all imports of `musts` are loaded or were seen in a circle (`run_inv`, induction on runs). Graph: an edge that is neither optional nor for a from list is due to an import outside of functions, if statements and try blocks (reasons for edges as in C92), or to the package of a module. `PropsMustDefault` has the built-in hooks. Refuted by `with suppress(ImportError)`, and for programs without such statements by a circle |
| C98 | runs as in C97, where calls import what statements of the script and of modules that have been started ask for (`by_statement`; functions are not followed further). By induction on runs all that is loaded, being loaded or has failed is what the program can load in the sense of C75 (`run_within`), with the packages of modules loaded before them; C75 then has the graph. Modules have source, or only a code object that is compiled from what runs execute (`coded`, with the compiler of C71). Not part of it: code objects of generic functions and classes, dead code with imports in such modules, importlib and __all__ of star imports; runs without end are in C103 |
| C99 | runs as in C98, with modules found in full (`kept`) or in the copy (`bundle_of`: the real nodes that the script leads to). Modules in the graph are found and are not excluded (`real_kept`, from the reasons for nodes in BuilderSame.v), and what the program asks for is in the graph by C75, so both ways to find modules agree where runs look (`bundle_agrees`); `run_same` carries runs over by induction. Calls import what statements ask for, in the full installation or in the copy (`by_statement`); that this is the same is proved too (`calls_bundle`, `bundle_calls`). The theorems named `more` have any part of the installation that has at least these modules (`includes_bundle`). Not part of it: data files, paths, metadata and anything else that a program can see of its installation |
| C100 | runs as in C97, with modules found by a part of the function that the graph was made with (`part_of`). What is true of all that is loaded (`run_inv`) holds for the part and so for the whole (`part_inv`); as in C97 all needed modules are loaded at the end, and loaded modules are found. Modules loaded before the run are found in the part as well (`at_rest`) |
| C101 | C98 has the module in the graph, reachable from the script; its node was made from the spec that Python finds (reasons for nodes in BuilderSame.v), so that it has the distribution of the file (`real_dist`, from `nfs_attrs` of C70), and C52 has the distribution among those reported. Which distribution has a file is told by the environment (see C50 for the function) |
| C102 | C60 has the graph that was asked for printed; its calls are a session with the built-in hooks (`asked_session`), so that C98 has all that a run loads in the graph, below the script or module, which is a root with that name (C36, C29 and, as no hook acts, C93: `module_asked`). C55 and C54 have it in the output. The configuration is any one that a graph can be made with; what the options exclude is added to it (`option_conf_says`). Not part of it: distributions on the command line, and all that is not part of C98 |
| C103 | a task of a run gets to one of its parts when the parts before that have been done (`goes`), and to the parts of parts (`gets_to`); nothing is said about an end. Each such step keeps the invariant of C98 (`goes_within`, with `run_within` for the parts that are done), and can be made in the copy of C99 (`goes_same`). `C103_ends`: what runs that do end have loaded, is got to on the way, so that C98 is a special case. Not part of it: as for C98, except runs without end |
| C104 | `faces`: the statement that a run has got to is about to import a module; the code that it is in is that of a module of the program (invariant of C103), so that its node is in the graph (C75), with an edge for each statement (C63); the node for a name that cannot be found was made as a missing one or copied from its package (`unfound_missing`, by induction on the packages). Not part of it: names of from lists, which can be attributes (C107), and as for C98 |
| C105 | C103 and C104 for the graph of the command line program, whose nodes are in the output as in C102 (`told`: what the output has to tell of at a time). Not part of it: as for C102 and C104 |
| C106 | `at_hand`: what is loaded or about to be imported when a run has got somewhere; its node is in the graph by C103 and C104. Of the reasons for a node (`birth`) only those that follow the settings are left when the packages are real (`hit_set`), and the edges of such nodes are there when it is finished (`paid`, `w_refs`). Not part of it: modules in packages that cannot be imported, which are as their package is (C33), and as for C98 |
| C107 | `picks`: the from statement that a run has got to names something in a package; as in C104 the node of its code is there (`code_stands`), and each name of a from list has been handled (`one_names`, C63): as a submodule with an edge when the package does not bind it (`unbound`, in terms of the names that the node has; C13, C69, C73 and C74 say what those are). Not part of it: names that the package binds at some time, but not when the statement is run; and as for C98 |
| C56, C57, C60 | Python lists as cells of a store; argparse actions; the main program on top of builder and reports |

`MANIFEST.json` has the status and exact theorem names, with one line about what
is refuted or missing.

## Trusted base

- Coq 8.16.1's kernel (`coqchk` also accepts the files).  `Print Assumptions`
  says "Closed under the global context" for every theorem listed in
  MANIFEST.json: no axioms, not even those of the standard library.
- The model is a reading of the Python source by hand; nothing is extracted or
  run.  Line citations are to the pinned commit.

Modelled: all of `_ast_tools.py`, `_bytecode_tools.py`, `_callback_list.py`,
`_depinfo.py`, `_importinfo.py`, `_implies.py`, `_utilities.py`, `_graphbuilder.py`,
`_swig_support.py`, `_mypyc_support.py`, `_dotbuilder.py`, `_htmlbuilder.py`,
`_modulegraph.py`, `_distributions.py`, `__main__.py`, and of `_nodes.py` what the
rest of the code looks at.

Not modelled, or simplified:

- Strings are byte strings; case folding, Unicode normalisation and
  `str.isidentifier` are parameters or restricted to ASCII.
- Static typing: `isinstance` checks of argument types, `TypeError`s of wrong use.
- Node attributes that the code stores but never looks at (`loader`, `code`,
  `extension_attributes`), `__slots__`, `repr`, hashing of nodes.
- `ObjectGraph` (package objectgraph) by contract: `add_node` raises ValueError
  for a taken identifier, `add_edge` and `add_root` raise KeyError for an unknown
  one, attributes of an edge are a set per pair of nodes, `outgoing`, `incoming`
  and `nodes` in order of creation, `iter_graph` yields the nodes reachable from
  the roots once each in any order.
- CPython: `ast.iter_child_nodes` order, `dis` and the compiler's instruction
  patterns, importlib's finders and loaders, pathlib, zipfile and csv are
  oracles, or small transcriptions where a property is about them (RECORD files,
  the import patterns of the compiler, `_resolve_name`).
- The environment is a function of time: it does not depend on the graph, apart
  from the fake entries that the code puts into `sys.modules`.
- Memory exhaustion, recursion limits, threads and signals between two
  instructions (an exception may come out of every question to the environment
  and every hook, which includes KeyboardInterrupt there).
- argparse: how argv is split into options; text on stderr.
- Output: a text is written at once (or cut short by an OSError); encoding
  errors are not modelled; widths in `report` count bytes.
- The names of a from list that is known from bytecode only are worked on in the
  order of the list; Python iterates over a set of them.  Another set order is that
  of the code object with the list permuted (sources: any order, see C86).
- `AProcessImports`: hooks call `_process_import_list` for nodes of the graph only.
