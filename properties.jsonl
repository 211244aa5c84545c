{"id": "C01", "title": "split_package is a lossless split", "statement": "For every non-empty module name whose part after the leading dots is non-empty and has no '..', split_package returns (package, name) such that name has no dot, and gluing package and name back (with a '.' unless package is only dots or None) gives the original name; package is None exactly when there is no dot at all. For every other string it raises ValueError.", "quantifier": "all strings", "why_tests_cant": "the domain is infinite; edge cases (leading dots, trailing dots, doubled dots) interact", "anchors": ["modulegraph2/_utilities.py: split_package"]}
{"id": "C02", "title": "Relative imports resolve as Python resolves them", "statement": "For every module or package node and every import level >= 1, relative_package gives the same anchor package as importlib's own resolution rule applied to the node's __package__, and reports 'invalid' exactly when Python raises ImportError for leaving the top-level package.", "quantifier": "all dotted names, all levels, package or plain module", "why_tests_cant": "unbounded nesting depth and level", "anchors": ["modulegraph2/_graphbuilder.py: relative_package"]}
{"id": "C03", "title": "A relative import in a script is reported as an invalid relative import", "statement": "For every script path and every relative import in that script the graph gets an InvalidRelativeImport node (a script has no parent package) and no module is imported.", "quantifier": "all script paths, all levels", "why_tests_cant": "the path string is parsed as if it was a dotted name, so the outcome depends on dots in the path", "anchors": ["modulegraph2/_graphbuilder.py: relative_package", "modulegraph2/_modulegraph.py: ModuleGraph._process_import"]}
{"id": "C04", "title": "The AST scan finds every import exactly once", "statement": "For every syntax tree, at any nesting depth, extract_ast_info yields exactly one record for each name of each 'import' statement and exactly one record for each 'from ... import' statement, and nothing else.", "quantifier": "all syntax trees", "why_tests_cant": "trees are unbounded; the scan is an explicit work queue whose completeness is an invariant", "anchors": ["modulegraph2/_ast_tools.py: extract_ast_info"]}
{"id": "C05", "title": "The AST scan flags state the context of the import", "statement": "For every import statement in every syntax tree: is_in_function holds iff the statement is below a (async) function definition, is_in_conditional iff below an if statement, is_in_tryexcept iff below a non-finally part of a try statement.", "quantifier": "all syntax trees, all positions", "why_tests_cant": "flags are inherited along an unbounded path through the queue", "anchors": ["modulegraph2/_ast_tools.py: extract_ast_info"]}
{"id": "C06", "title": "except* blocks count as try/except blocks", "statement": "An import in the body or a handler of any try statement, including 'try ... except*', is flagged is_in_tryexcept and so optional.", "quantifier": "all syntax trees", "why_tests_cant": "one statement class out of many; only an exhaustive case analysis shows it is missed", "anchors": ["modulegraph2/_ast_tools.py: extract_ast_info"]}
{"id": "C07", "title": "ImportInfo keeps the imported names", "statement": "For every from-list, create_importinfo records as import_names exactly the listed names other than '*', star_import holds iff '*' is listed, and the as-name of a name that is listed once is kept.", "quantifier": "all from-lists", "why_tests_cant": "sets with a str subclass as key; name collisions are data dependent", "anchors": ["modulegraph2/_importinfo.py: create_importinfo, import_name"]}
{"id": "C08", "title": "Every as-clause is kept", "statement": "For every from-list each (name, asname) pair of the statement is found in import_names.", "quantifier": "all from-lists", "why_tests_cant": "needs two entries with the same name and different as-names", "anchors": ["modulegraph2/_importinfo.py: create_importinfo, import_name"]}
{"id": "C09", "title": "Bytecode imports decode to the statement that was compiled", "statement": "For every instruction sequence a compiler emits for an import (level, from-list, IMPORT_NAME, each with or without one EXTENDED_ARG prefix) embedded in any surrounding code, _extract_single records the module name, level and from-list of the statement, in order, with the given function flag.", "quantifier": "all surrounding instruction lists, all constant indices, all EXTENDED_ARG patterns with at most one prefix", "why_tests_cant": "prefixes appear only with > 255 constants; combinations and offsets are unbounded", "anchors": ["modulegraph2/_bytecode_tools.py: _extract_single"]}
{"id": "C10", "title": "The bytecode scan visits the whole code tree", "statement": "For every code object, extract_bytecode_info processes every nested code object exactly as often as it is referenced, parents before children, and the union of what they contribute is the result.", "quantifier": "all nested code objects", "why_tests_cant": "unbounded nesting, explicit work queue", "anchors": ["modulegraph2/_bytecode_tools.py: _all_code_objects, extract_bytecode_info"]}
{"id": "C11", "title": "Function context is inherited by nested code", "statement": "For every code tree with pairwise different code objects, imports in a code object are flagged is_in_function iff the object or one of its ancestors is created as a function body.", "quantifier": "all code trees", "why_tests_cant": "classification of a child depends on the processing history of all ancestors", "anchors": ["modulegraph2/_bytecode_tools.py: _is_code_for_function, extract_bytecode_info"]}
{"id": "C12", "title": "A class body is never taken for a function", "statement": "For every compiled class statement, whatever the number of constants of the enclosing code, the class body is classified as class code, so a module level class does not make its imports 'in function'.", "quantifier": "all instruction sequences for class statements", "why_tests_cant": "needs a code object index > 255, i.e. an EXTENDED_ARG between LOAD_BUILD_CLASS and MAKE_FUNCTION", "anchors": ["modulegraph2/_bytecode_tools.py: _extract_single"]}
{"id": "C13", "title": "Globals written/read are exact", "statement": "For every code object the names reported as written are exactly the names stored with STORE_NAME at module level or STORE_GLOBAL outside class bodies plus the from-imported names of module-level imports; names read are exactly those loaded by LOAD_GLOBAL anywhere or LOAD_NAME outside class bodies.", "quantifier": "all instruction lists", "why_tests_cant": "data dependent filter over unbounded code", "anchors": ["modulegraph2/_bytecode_tools.py: _extract_single"]}
{"id": "C14", "title": "Callbacks run in reverse order of registration", "statement": "For every registration history a CallbackList call runs every registered callback exactly once, the most recently added first, and stops at the first exception.", "quantifier": "all registration histories, all callbacks (arbitrary effects that do not change the list itself)", "why_tests_cant": "unbounded histories and effects", "anchors": ["modulegraph2/_callback_list.py: CallbackList"]}
{"id": "C15", "title": "FirstNotNone returns the newest answer", "statement": "For every registration history FirstNotNone returns the result of the most recently added callback that gives a non-None result, calls no older callback after it, and returns None iff all callbacks return None.", "quantifier": "all registration histories and callbacks", "why_tests_cant": "unbounded histories and effects", "anchors": ["modulegraph2/_callback_list.py: FirstNotNone"]}
{"id": "C16", "title": "Registering a hook from a hook keeps 'once per node'", "statement": "Every post processing hook is run at most once per node, also when a hook registers another hook.", "quantifier": "all hook programs", "why_tests_cant": "needs a hook that mutates the list being iterated", "anchors": ["modulegraph2/_callback_list.py: CallbackList.__call__", "modulegraph2/_modulegraph.py: ModuleGraph.add_post_processing_hook"]}
{"id": "C17", "title": "Excludes take precedence over implies in any order", "statement": "For every sequence of add_excludes and add_implies calls, a name that was excluded at any point stays excluded, and a name never excluded has the implied action of the last add_implies that mentions it; '__main__' is always excluded.", "quantifier": "all interleavings of configuration calls", "why_tests_cant": "unbounded histories", "anchors": ["modulegraph2/_modulegraph.py: add_excludes, add_implies, __init__"]}
{"id": "C18", "title": "An excluded module is never scanned", "statement": "If a name is excluded before it is in the graph, then after every later sequence of successful or failing graph operations the node of that name, if any, is an ExcludedModule (or a MissingModule below a missing package) and the dependencies of the real module were not gathered.", "quantifier": "all environments, all histories", "why_tests_cant": "history dependent: aliases, implies, from-imports and hooks all reach the loader", "anchors": ["modulegraph2/_modulegraph.py: add_excludes, _implied_references, _load_module"]}
{"id": "C19", "title": "Building only adds", "statement": "No operation, whether it succeeds or raises, removes a node, changes the identity or class of a node, removes an edge or an edge attribute, removes a root or forgets a global name.", "quantifier": "all environments, all hooks, all operation histories, all crash points", "why_tests_cant": "every exception point of every run", "anchors": ["modulegraph2/_modulegraph.py: ModuleGraph"]}
{"id": "C20", "title": "The graph stays well formed", "statement": "In every reachable state, also after an exception, identifiers are unique, both ends of each edge are nodes of the graph, roots are nodes of the graph, and there is one attribute set per (source, target) pair.", "quantifier": "all environments, hooks, histories, crash points", "why_tests_cant": "invariant over all histories", "anchors": ["modulegraph2/_modulegraph.py: ModuleGraph"]}
{"id": "C21", "title": "Post processing at most once per node", "statement": "For every environment, hooks and history the post processing callback list is invoked at most once per node identifier.", "quantifier": "all environments, hooks, histories", "why_tests_cant": "re-processing by hooks, cycles and crashes", "anchors": ["modulegraph2/_modulegraph.py: _process_import_list, add_post_processing_hook"]}
{"id": "C22", "title": "Post processing happens for every node", "statement": "After every successful top level operation there is no pending work and every node that the builder added has been handed to the post processing hooks exactly once.", "quantifier": "all environments and histories", "why_tests_cant": "schedule of an explicit work stack; needs an invariant", "anchors": ["modulegraph2/_modulegraph.py: _run_stack, _process_import_list"]}
{"id": "C23", "title": "Also nodes supplied by the built-in SWIG hook are post processed", "statement": "The post processing hook is run for every node added to the graph while processing imports, including extension modules found by the SWIG support.", "quantifier": "all environments", "why_tests_cant": "needs the interplay of two hooks", "anchors": ["modulegraph2/_swig_support.py: swig_missing_hook", "modulegraph2/_modulegraph.py: _create_missing_module"]}
{"id": "C24", "title": "A node is post processed after its imports", "statement": "When the post processing hooks run for a node, every import statement (and its name list) found when the node was created has been processed.", "quantifier": "all environments without missing hooks that run the work stack; all histories", "why_tests_cant": "ordering over all interleavings of the LIFO stack with insertions in the middle", "anchors": ["modulegraph2/_modulegraph.py: _process_import_list, _process_import, _run_stack"]}
{"id": "C25", "title": "Every import statement becomes an edge", "statement": "After every successful operation, for every node of the graph and every import statement found for it there is an edge to the node of the imported name (absolute name computed from the level) with is_optional, is_global and imported_as of the statement.", "quantifier": "all environments, all import cycles, all histories", "why_tests_cant": "unbounded graphs, cycles, order of processing", "anchors": ["modulegraph2/_modulegraph.py: _process_import, _find_or_load_module"]}
{"id": "C26", "title": "No dependency is invented", "statement": "Every edge of the graph is justified by one of: an import statement or a from-list name of the source node, submodule to package, an implied/alias/virtual declaration, the hidden import of a namespace package, a distribution's import names or an explicit request.", "quantifier": "all environments and histories", "why_tests_cant": "must hold for every edge ever added", "anchors": ["modulegraph2/_modulegraph.py: ModuleGraph"]}
{"id": "C27", "title": "Graph building terminates", "statement": "For every finite module universe (with arbitrary import cycles, alias cycles and implies cycles) every add_module and add_script call ends.", "quantifier": "all finite environments", "why_tests_cant": "cycles and unbounded sizes; non-termination cannot be tested", "anchors": ["modulegraph2/_modulegraph.py: _run_stack, _find_or_load_module, _implied_references, _load_module"]}
{"id": "C28", "title": "A submodule is linked to its package", "statement": "After every successful operation each node with a dotted name (that is not a script, an invalid relative import or missing) has an edge to the node of its containing package, which is in the graph.", "quantifier": "all environments and histories", "why_tests_cant": "depends on the order in which aliases, implies and parents are loaded", "anchors": ["modulegraph2/_modulegraph.py: _find_or_load_module, _load_module"]}
{"id": "C29", "title": "add_module returns the node asked for and makes it a root", "statement": "If add_module(name) succeeds the result is the graph's node with identifier name and it is a root; a repeated call changes nothing.", "quantifier": "all environments, names and states", "why_tests_cant": "any prior state", "anchors": ["modulegraph2/_modulegraph.py: add_module, _find_or_load_module"]}
{"id": "C30", "title": "Roots are what the user added", "statement": "The roots are exactly the nodes passed to add_script, add_module, add_distribution, add_dependencies_for_source (and add_root).", "quantifier": "all environments, built-in hooks active", "why_tests_cant": "a built-in hook may call add_module", "anchors": ["modulegraph2/_modulegraph.py: add_module", "modulegraph2/_mypyc_support.py: mypyc_post_processing_hook"]}
{"id": "C31", "title": "Alias and virtual nodes lead to their target", "statement": "After every successful operation each AliasNode / VirtualNode has an edge to the node of its actual / providing module, which is in the graph.", "quantifier": "all environments, implies tables (also cyclic) and histories", "why_tests_cant": "alias cycles and load order", "anchors": ["modulegraph2/_modulegraph.py: _implied_references, _load_module"]}
{"id": "C32", "title": "add_module does not raise for non-existing modules", "statement": "For every name and every implies table, if no module of that name exists add_module returns a MissingModule node and does not raise.", "quantifier": "all names, all implies tables", "why_tests_cant": "an implied reference from a missing package to its own submodule", "anchors": ["modulegraph2/_modulegraph.py: add_module, _find_or_load_module, _create_missing_module"]}
{"id": "C33", "title": "Modules below a missing package are missing, below an excluded package excluded", "statement": "After every operation (no hooks), a node whose containing package is a MissingModule is a MissingModule, and one whose containing package is an ExcludedModule is an ExcludedModule.", "quantifier": "all environments and histories", "why_tests_cant": "load order dependent", "anchors": ["modulegraph2/_modulegraph.py: _find_or_load_module"]}
{"id": "C34", "title": "Configured implied references become edges", "statement": "If name has an implied list of references when it is first loaded successfully, the graph has an edge with the default attributes from name to each of them.", "quantifier": "all environments, all implies tables (also cyclic)", "why_tests_cant": "recursion through other implies", "anchors": ["modulegraph2/_modulegraph.py: _implied_references"]}
{"id": "C35", "title": "An exception does not corrupt later work", "statement": "After an exception at any point the graph is still well formed and work that was not started stays pending: the next successful operation completes it.", "quantifier": "all crash points", "why_tests_cant": "all crash points of all runs", "anchors": ["modulegraph2/_modulegraph.py: _run_stack, _saved_stack"]}
{"id": "C36", "title": "add_script refuses duplicates", "statement": "add_script of a path already in the graph raises ValueError and changes nothing; otherwise on success it returns a Script node with that path which is a root.", "quantifier": "all states and paths", "why_tests_cant": "any prior state", "anchors": ["modulegraph2/_modulegraph.py: add_script, _load_script"]}
{"id": "C37", "title": "add_distribution links all import names", "statement": "A successful add_distribution makes the distribution a root with an edge to the node of each of its import names; adding it again returns the same node and changes nothing.", "quantifier": "all distributions, environments, states", "why_tests_cant": "any prior state", "anchors": ["modulegraph2/_modulegraph.py: add_distribution"]}
{"id": "C38", "title": "add_distribution copes with every installed distribution", "statement": "For every RECORD file add_distribution does not raise ValueError because of a recorded file name.", "quantifier": "all RECORD files", "why_tests_cant": "needs a RECORD with a .py file outside site-packages", "anchors": ["modulegraph2/_distributions.py: create_distribution", "modulegraph2/_modulegraph.py: add_distribution"]}
{"id": "C39", "title": "add_dependencies_for_source adds the imports as roots", "statement": "For every source text without relative imports a successful call makes the module of each import statement and each from-imported name a root.", "quantifier": "all programs and states", "why_tests_cant": "any program", "anchors": ["modulegraph2/_modulegraph.py: add_dependencies_for_source"]}
{"id": "C40", "title": "add_dependencies_for_source accepts relative imports", "statement": "A relative import in the source text does not make the call raise.", "quantifier": "all programs", "why_tests_cant": "specific statement form", "anchors": ["modulegraph2/_modulegraph.py: add_dependencies_for_source"]}
{"id": "C41", "title": "import_package adds the modules of the package only", "statement": "import_package adds the package and the modules and packages in its directories, and no other name (no module 'pkg.__init__', no '__pycache__' package).", "quantifier": "all directory listings", "why_tests_cant": "depends on directory contents", "anchors": ["modulegraph2/_modulegraph.py: import_package"]}
{"id": "C42", "title": "import_package covers all submodules", "statement": "After import_package and completed pending work every .py module found in the package's directories (and recursively its sub packages) is in the graph with an edge from the package.", "quantifier": "all directory listings", "why_tests_cant": "unbounded trees", "anchors": ["modulegraph2/_modulegraph.py: import_package"]}
{"id": "C43", "title": "node_for_spec never fails on invalid syntax", "statement": "For every spec with an inspect loader, a SyntaxError in get_source, compile or get_code yields an InvalidModule (or a package with such an __init__), never an exception, and otherwise the node class is determined by the loader kind and the availability of source.", "quantifier": "all specs", "why_tests_cant": "combination of independent failures", "anchors": ["modulegraph2/_graphbuilder.py: node_for_spec"]}
{"id": "C44", "title": "The SWIG hook only answers for SWIG extensions", "statement": "swig_missing_hook returns a node only if the importer is a module or package, the missing name is '_' + the importer's last name component, the importer defines swig_import_helper, and the located node is an extension module; the node then has the missing name and is in the graph; in all other cases the graph is not changed.", "quantifier": "all states, importers and names", "why_tests_cant": "combination of conditions", "anchors": ["modulegraph2/_swig_support.py: swig_missing_hook"]}
{"id": "C45", "title": "The mypyc hook only acts on mypyc compiled distributions", "statement": "mypyc_post_processing_hook changes the graph only for extension modules (or packages with an extension __init__) of a distribution that has an import name ending in '__mypyc' and whose source file exists.", "quantifier": "all nodes, distributions, file systems", "why_tests_cant": "combination of conditions", "anchors": ["modulegraph2/_mypyc_support.py: mypyc_post_processing_hook"]}
{"id": "C46", "title": "RECORD lines round trip", "statement": "For every file name without line separators, parsing the RECORD line that a CSV writer produces for it (quoted or not) yields the file name again.", "quantifier": "all file names", "why_tests_cant": "escaping bugs need adversarial names", "anchors": ["modulegraph2/_distributions.py: create_distribution"]}
{"id": "C47", "title": "Import names of a distribution", "statement": "For every RECORD the import names are exactly the dotted names of the recorded module files (known suffix, not below __pycache__), with the package name for __init__ files.", "quantifier": "all RECORD contents", "why_tests_cant": "suffix overlap and position", "anchors": ["modulegraph2/_distributions.py: create_distribution"]}
{"id": "C48", "title": "One object per distribution", "statement": "For every sequence of all_distributions calls and every change of the file system in between, the same dist-info path yields the same PyPIDistribution object as long as the process lives.", "quantifier": "all call histories", "why_tests_cant": "cache behaviour over histories", "anchors": ["modulegraph2/_distributions.py: all_distributions"]}
{"id": "C49", "title": "Every distribution on the path is reported", "statement": "all_distributions yields every readable dist-info directory on the search path, also if another one in the same directory is broken.", "quantifier": "all directory contents and orders", "why_tests_cant": "depends on directory order", "anchors": ["modulegraph2/_distributions.py: all_distributions"]}
{"id": "C50", "title": "A file belongs to the first distribution that records it", "statement": "distribution_for_file / distribution_named return the first distribution in search path order that contains the file / has the name, and None iff there is none.", "quantifier": "all paths and distributions", "why_tests_cant": "unbounded", "anchors": ["modulegraph2/_distributions.py: distribution_for_file, distribution_named"]}
{"id": "C51", "title": "has_data_files tells whether there are data files", "statement": "For every package directory has_data_files is true iff the directory tree contains a file that is not a Python module (outside __pycache__, .hg, .svn).", "quantifier": "all directory trees and listing orders", "why_tests_cant": "depends on listing order and nesting", "anchors": ["modulegraph2/_graphbuilder.py: _contains_datafiles"]}
{"id": "C52", "title": "distributions() reports each used distribution once", "statement": "distributions(reachable) yields no identifier twice and yields exactly the distributions of the (reachable) module nodes.", "quantifier": "all graphs", "why_tests_cant": "unbounded graphs", "anchors": ["modulegraph2/_modulegraph.py: distributions"]}
{"id": "C53", "title": "The report lists each reachable module once, sorted", "statement": "report prints three header lines and then one line for each reachable module node, in order of identifier.", "quantifier": "all graphs", "why_tests_cant": "unbounded graphs", "anchors": ["modulegraph2/_modulegraph.py: report"]}
{"id": "C54", "title": "The dot output is the reachable graph", "statement": "export_to_dot prints for each reachable node one node line and for each edge of a reachable node one edge line, and nothing else outside clusters; clusters partition the module nodes that have a distribution by distribution name.", "quantifier": "all graphs", "why_tests_cant": "unbounded graphs", "anchors": ["modulegraph2/_dotbuilder.py: export_to_dot", "modulegraph2/__main__.py: group_nodes, format_edge, format_node"]}
{"id": "C55", "title": "Links in the HTML report resolve", "statement": "Every href in the HTML report refers to an anchor in the report.", "quantifier": "all graphs", "why_tests_cant": "depends on the node classes in the graph", "anchors": ["modulegraph2/_htmlbuilder.py: export_to_html"]}
{"id": "C56", "title": "sys.path is restored", "statement": "After saved_sys_path / make_graph the search path has its original contents whether or not the body raised, and inside make_graph the search path is the -p options in order followed by the original path.", "quantifier": "all bodies, all option lists, all exceptions", "why_tests_cant": "all crash points", "anchors": ["modulegraph2/_utilities.py: saved_sys_path", "modulegraph2/__main__.py: make_graph"]}
{"id": "C57", "title": "Command line excludes accumulate", "statement": "For every sequence of -x NAME and --exclude-stdlib options the excludes are the concatenation of the names in order.", "quantifier": "all option sequences", "why_tests_cant": "mutable default lists shared between options", "anchors": ["modulegraph2/__main__.py: parse_arguments, ExtendConstAction"]}
{"id": "C58", "title": "Star imports propagate names", "statement": "Processing 'from m import *' adds to the importing node's globals exactly the globals of the module or package m and changes no other node.", "quantifier": "all states", "why_tests_cant": "mutable shared sets", "anchors": ["modulegraph2/_modulegraph.py: _process_namelist"]}
{"id": "C59", "title": "from-list names become edges", "statement": "After processing 'from p import n' with p a package and n not a global of p, there is an edge from the importer to the node p.n flagged in_fromlist, with imported_as the as-name of n; for a plain module p no node p.n is created.", "quantifier": "all states and environments", "why_tests_cant": "state dependent", "anchors": ["modulegraph2/_modulegraph.py: _process_namelist"]}
{"id": "C60", "title": "The command line program reports the graph that was asked for", "statement": "For every command line, main builds the graph with the excludes in order and with each name added in order with the chosen node type, in the environment of the -p directories followed by sys.path; it writes the complete report of that graph in the chosen format to the chosen file (or stdout) and touches nothing else, exits with status 1 if that file cannot be written, and if a call raises it stops with that exception and has written nothing; sys.path is restored in all cases.", "quantifier": "all command lines, all environments, all outcomes", "why_tests_cant": "all combinations of options, failures and environments", "anchors": ["modulegraph2/__main__.py: main, parse_arguments, make_graph, format_graph, print_graph"]}
{"id": "C61", "title": "Post-processing hooks take effect on every new node", "statement": "Let h be a post-processing hook registered before a call (add_module, add_script, add_distribution, ...) that returns normally and during which nothing raises, and let F be a fact about a node that stays true while the graph grows and that h establishes whenever it completes. Then F holds for every node the builder made in that call.", "quantifier": "all environments, histories, hooks (which may register other hooks and call the API), calls and facts", "why_tests_cant": "arbitrary hooks that change the list of hooks while it is iterated over", "anchors": ["modulegraph2/_callback_list.py: CallbackList.__call__", "modulegraph2/_modulegraph.py: _run_stack, _process_import_list, add_post_processing_hook"]}
{"id": "C62", "title": "Missing hooks are asked before a missing module is recorded", "statement": "While a missing-import hook h is registered, the builder creates a MissingModule node for a name only after h was asked about that name and answered None: names that h always answers for never become MissingModule nodes.", "quantifier": "all environments, histories, hooks and outcomes, including exceptions", "why_tests_cant": "arbitrary hooks, all paths that create missing modules", "anchors": ["modulegraph2/_callback_list.py: FirstNotNone.__call__", "modulegraph2/_modulegraph.py: _create_missing_module, _load_module, _find_or_load_module", "modulegraph2/_graphbuilder.py: node_for_spec"]}
{"id": "C63", "title": "Every import statement of a module is an edge of the graph", "statement": "After a call that adds modules or scripts returns normally, without missing-import hooks, every node that no hook supplied has, for every import statement in its code (the parse tree of its source file, or the code object of a module without source, at any depth of nesting), an edge to the module that the statement mentions (relative names resolved against the module, an InvalidRelativeImport node when they leave the top level package), whose attributes say whether the statement is in a function, a conditional or a try block, whether the name is from a from list, and its alias; and for names in from lists of a package that the package does not bind itself, an edge to the submodule.", "quantifier": "all parse trees, environments, histories of calls, post-processing hooks", "why_tests_cant": "end-to-end over arbitrary parse trees, package layouts, relative levels and histories", "anchors": ["modulegraph2/_ast_tools.py: extract_ast_info", "modulegraph2/_graphbuilder.py: node_for_spec", "modulegraph2/_modulegraph.py: _process_import, _process_namelist, _load_script, _load_module"]}
{"id": "C64", "title": "Every edge of the graph is explained, and exactly the code is", "statement": "In a graph built without user hooks, for every node there is a set of import statements, those of its parse tree or code object, such that every edge of the node is an edge that one of these statements, the name of the node (parent package), a configured implied import, an alias, a namespace package, six.moves or the distribution of the node calls for, with the attributes that this origin calls for; and if no call has raised every statement has its edges. No other edges exist.", "quantifier": "all environments, parse trees, code objects, configurations and histories of calls", "why_tests_cant": "an edge that should not be there can only be ruled out for all graphs by a proof; tests list expected edges", "anchors": ["modulegraph2/_modulegraph.py: _process_import, _process_namelist, _implied_references, _load_script, _load_module, add_dependency", "modulegraph2/_graphbuilder.py: node_for_spec", "modulegraph2/_ast_tools.py: extract_ast_info", "modulegraph2/_bytecode_tools.py: _extract_single"]}
{"id": "C65", "title": "Every node of the graph can be reached from its roots", "statement": "Every node that the builder makes is reachable from the roots, so that the reports and iter_graph show everything that was found. Exceptions that the code has: the missing module that is left over when a name that a package binds itself is imported from it (and what is implied by it); with hooks also the nodes that a hook adds, or asks an import for before they exist.", "quantifier": "all environments, histories of calls, configurations and hooks", "why_tests_cant": "nodes that nothing leads to do not show up in the reports; the orders in which nodes get made and linked are unbounded", "anchors": ["modulegraph2/_modulegraph.py: _process_import, _process_namelist, _find_or_load_module, _load_module, _implied_references, add_distribution, import_module, import_package", "modulegraph2/__main__.py: report", "modulegraph2/_htmlbuilder.py", "modulegraph2/_dotbuilder.py"]}
{"id": "C66", "title": "The order in which scripts, modules and distributions are added does not matter", "statement": "Take two builders with the same settings (implied actions, exclusions) in an environment that does not change. Nodes for the same name have the same class, file, distribution and import statements in both. If both have the same roots, then the same nodes and edges, with the same attributes, can be reached from the roots in both, whatever the order of the calls; with more roots nothing is lost. Exception that the code has: a name imported from a module that imports it itself is only recognised when that module was handled before.", "quantifier": "all environments that do not change, settings without hooks, sequences of successful calls", "why_tests_cant": "the orders of calls, and the orders in which imports are worked off that follow from them, are unbounded", "anchors": ["modulegraph2/_modulegraph.py: add_script, add_module, _run_stack, _process_import, _process_namelist, _find_or_load_module, _load_module, _implied_references"]}
{"id": "C67", "title": "Building leaves no fake packages in sys.modules", "statement": "The code puts stand-ins for packages (FakePackage) into sys.modules of the running program when importlib fails to look into a package. None of them is left after the calls that build a graph. The SWIG hook takes the stand-in it made away again.", "quantifier": "all environments (importlib answering anything at any time), all histories of calls, the built-in hooks and all hooks that do not put such entries there themselves", "why_tests_cant": "which exceptions importlib raises depends on the packages that are installed and on the whole history of imports in the process", "anchors": ["modulegraph2/_modulegraph.py:608-642 _load_module", "modulegraph2/_swig_support.py:73-97 swig_missing_hook"]}
{"id": "C68", "title": "An exception of a missing hook reaches the caller", "statement": "If a missing hook raises an exception while add_module looks for a module that does not exist, then add_module raises that exception.", "quantifier": "all environments, hooks, exceptions, names and states of the graph", "why_tests_cant": "hooks are arbitrary programs that raise arbitrary exceptions, in any state of the graph", "anchors": ["modulegraph2/_modulegraph.py:383-407 _create_missing_module", "modulegraph2/_modulegraph.py:572-642 _load_module"]}
{"id": "C69", "title": "globals_read and globals_written are those of the code", "statement": "globals_read and globals_written of a node in the graph are the global names that the code of the module or script reads and binds. Names are added to globals_written only because of import statements in that code: a name in a from list, or a name that a star import brings from a module that has it.", "quantifier": "all environments with code as the compiler emits it, all histories of calls, with any hooks; nodes that hooks add themselves are excluded", "why_tests_cant": "the sets grow while other modules are processed, along chains and cycles of star imports, in an order that depends on the whole graph", "anchors": ["modulegraph2/_nodes.py:52-113", "modulegraph2/_graphbuilder.py:283-321", "modulegraph2/_modulegraph.py:681-724 _load_script", "modulegraph2/_modulegraph.py:920-1038 _process_namelist"]}
{"id": "C70", "title": "File, distribution and search path of a node are those of its module", "statement": "The class, file, distribution, search path, data file flag and namespace type of a node are what importlib's spec for a module with the name of the node, the distribution database and the file system say: builtin and frozen modules have no file and no distribution; a package has the directory of its __init__ as file; the search path is that of the spec or, for namespace packages of the old kind, what an import gives; place holders have none of this. Building the rest of the graph never changes them.", "quantifier": "all environments (answers may change at any time), all histories of calls with any hooks; nodes that hooks add themselves are excluded", "why_tests_cant": "combinations of loaders, kinds of packages and answers of importlib and the file system are unbounded, and later work on the graph could change a node", "anchors": ["modulegraph2/_graphbuilder.py:160-511 node_for_spec", "modulegraph2/_nodes.py"]}
{"id": "C71", "title": "Source and code of a module have the same imports", "statement": "The scan of the syntax tree and the scan of the code object that the compiler makes of it report the same imports (module, level, names, star), each in the same function context; so a module of which only the bytecode is installed gets the edges of its source.", "quantifier": "all syntax trees (any nesting of functions, classes, conditionals and try statements) and all code objects the compiler may emit for them: any other instructions, numbering of names and constants, repeated finally blocks, lambda expressions, type parameters", "why_tests_cant": "trees and instruction sequences are unbounded, and the two scanners share no code", "anchors": ["modulegraph2/_bytecode_tools.py: extract_bytecode_info", "modulegraph2/_ast_tools.py: extract_ast_info", "modulegraph2/_graphbuilder.py: node_for_spec"]}
{"id": "C72", "title": "The HTML report describes the reachable graph", "statement": "Read back, the HTML report has one section per reachable module, in order of identifier, with its class and name; the section lists exactly the modules it depends on and exactly the reachable modules that use it, under their names, and has no heading without entries.", "quantifier": "all graphs and all orders in which the traversals yield the nodes", "why_tests_cant": "graphs are unbounded; tests look for single lines of the output", "anchors": ["modulegraph2/_htmlbuilder.py: export_to_html"]}
{"id": "C73", "title": "Global names read and written are those of a run of the module", "statement": "globals_read and globals_written of a module are the global names that its code looks up and binds when it runs, in whatever way it runs; uses_dunder_import and uses_dunder_file are true exactly if the module can look up __import__ and __file__ in its globals.", "quantifier": "all code objects and all runs of them (any control flow, any calls)", "why_tests_cant": "runs are unbounded; the answer depends on nested functions and class bodies at any depth", "anchors": ["modulegraph2/_bytecode_tools.py: extract_bytecode_info", "modulegraph2/_nodes.py: Module.uses_dunder_import, Module.uses_dunder_file"]}
{"id": "C74", "title": "Star imports take over all global names", "statement": "A module with a star import has all global names of the module it imports from, including those that this module gets from star imports of its own, unless the two import each other.", "quantifier": "all environments, all histories of calls without hooks that do not raise, all star imports of all nodes, with chains of star imports of any length", "why_tests_cant": "depends on the order in which nested import statements are worked on; chains, packages and implied modules are unbounded", "anchors": ["modulegraph2/_modulegraph.py: _process_namelist", "modulegraph2/_modulegraph.py: _process_import", "modulegraph2/_modulegraph.py: _process_import_list", "modulegraph2/_modulegraph.py: _run_stack"]}
{"id": "C75", "title": "All modules that a program can load are in its graph", "statement": "Every module that a script or module can load through import statements, directly or through modules that it loads, at any depth and under any condition, including the packages that these are in and the submodules named in from lists, has a node of a real module class in the graph made for that script or module, and edges lead from the start of the program to that node.", "quantifier": "all environments that do not change, all sessions of calls without hooks that do not raise, all programs, all chains of import statements in source and bytecode", "why_tests_cant": "quantifies over all programs and all chains of imports; the graph depends on the order in which statements are worked on", "anchors": ["modulegraph2/_modulegraph.py: add_script", "modulegraph2/_modulegraph.py: add_module", "modulegraph2/_modulegraph.py: _find_or_load_module", "modulegraph2/_modulegraph.py: _process_import", "modulegraph2/_modulegraph.py: _process_namelist", "modulegraph2/_depinfo.py: DependencyInfo"]}
{"id": "C76", "title": "The graph has no other modules than those asked for", "statement": "Every node that edges lead to from a script or module is one that the program asks for: mentioned in an import statement of the script or of a module that is asked for and found, a submodule named in a from list of such a statement, a package of such a module, a module that the configuration names for one of them (implied modules, targets of aliases and virtual modules, the library of a namespace package), or the dotted name of a relative import that leaves the top level. Without such configuration, the real modules that edges lead to are exactly the modules that the program can load.", "quantifier": "all environments that do not change, all sessions of calls without hooks that do not raise, all programs, all paths in the graph", "why_tests_cant": "a test can show that some module is not in the graph of some program; this is about every path in every graph, and the order in which statements are worked on decides which edges there are", "anchors": ["modulegraph2/_modulegraph.py: add_script", "modulegraph2/_modulegraph.py: add_module", "modulegraph2/_modulegraph.py: _find_or_load_module", "modulegraph2/_modulegraph.py: _load_module", "modulegraph2/_modulegraph.py: _process_import", "modulegraph2/_modulegraph.py: _process_namelist", "modulegraph2/_graphbuilder.py: node_for_spec"]}
{"id": "C77", "title": "A module is reported missing only if Python does not find it", "statement": "A node of class MissingModule that the builder made stands for a module that importlib.util.find_spec does not find (None or an exception, at some time during the run), or for a module in a package that is itself missing, or for distutils when setuptools has no _distutils.", "quantifier": "all environments (also ones that change), all configurations and hooks, all histories of calls, all nodes", "why_tests_cant": "quantifies over all environments and histories; the loaders of six and setuptools redirect to modules in ways that depend on the environment", "anchors": ["modulegraph2/_modulegraph.py: _load_module, _create_missing_module", "modulegraph2/_graphbuilder.py: node_for_spec, SIX_MOVES_TO"]}
{"id": "C78", "title": "Alias nodes stand for the module that Python has under that name", "statement": "An AliasNode that the builder made is one of the configuration, or its target is another name: that of the module that an import of the alias gives, for modules of six.moves (as six defines them), of setuptools.extern and pkg_resources.extern (vendored modules first, then installed ones) and of the distutils hack, through any number of redirections.", "quantifier": "all environments, all configurations and hooks, all histories of calls, all nodes", "why_tests_cant": "redirections can be chained without bound and depend on what is installed; tests have a few literal modules", "anchors": ["modulegraph2/_modulegraph.py: _load_module", "modulegraph2/_graphbuilder.py: node_for_spec, SIX_MOVES_TO"]}
{"id": "C79", "title": "Modules that stand for others become aliases with an edge to their target", "statement": "If Python always finds a module of six.moves, setuptools.extern or pkg_resources.extern under a name, then a node that the builder made for this name, without configuration for it and in a package that is not missing, is an AliasNode for the module that an import of the name gives, and an edge leads from the alias to the node of that module.", "quantifier": "all environments, all histories of calls that do not raise, all names", "why_tests_cant": "depends on the order of requests for alias and target and on the environment", "anchors": ["modulegraph2/_modulegraph.py: _load_module, _find_or_load_module", "modulegraph2/_graphbuilder.py: node_for_spec"]}
{"id": "C80", "title": "A text gives the modules that the script with this text gives", "statement": "For the same opening state, the nodes that are reachable after add_dependencies_for_source(text) are those that are reachable after add_script of a file with that text, but for the node of the script.", "quantifier": "all environments, all texts without relative imports, all configurations, all sessions that do not raise", "why_tests_cant": "compares two calls that take different ways through the builder, for all texts and all closures of their imports", "anchors": ["modulegraph2/_modulegraph.py: add_dependencies_for_source, add_script, _process_import_list, _process_namelist"]}
{"id": "C81", "title": "No call raises when the import system works", "statement": "When Python's import system finds modules, does not find them or cannot import their package, specs are complete, files can be read and configured names are names of modules, then none of add_module, add_script (of a new file that Python can parse), add_dependencies_for_source (without relative imports), import_module (from a node of the graph), add_distribution (of a distribution that is installed), import_package (from a node of the graph, with listings that can be read), hook_context (with such calls inside), add_node (of a module with a new name), add_post_processing_hook and add_missing_hook (with hooks that make such calls), add_excludes and add_implies raises an exception, whatever was called before.", "quantifier": "all such environments and configurations, all histories of such calls, all names, files and texts", "why_tests_cant": "the exceptions that would be raised (ValueError for nodes that are there, KeyError for nodes that are not, AssertionError for nodes of the wrong class) depend on the order in which packages, implied modules and redirections get into the graph", "anchors": ["modulegraph2/_modulegraph.py: _find_or_load_module, _load_module, _create_missing_module, _implied_references, _process_import, _process_namelist", "modulegraph2/_importinfo.py", "modulegraph2/_implies.py"]}
{"id": "C82", "title": "New graphs and the command line do not raise", "statement": "A new graph has the hooks for SWIG and mypyc and the configuration for the standard library. With such a graph, too, none of these calls raises when the import system works, files can be read and the names in distributions are names of modules; and the program run from the command line for modules, for distributions or for scripts writes its report.", "quantifier": "all such environments, platforms, paths of os.path and of the sysconfig data, histories of such calls, names and files; all command lines", "why_tests_cant": "the hooks run inside of the loading of modules, for any module and missing module, and change the graph while it is made; their failures depend on files, distributions and modules together", "anchors": ["modulegraph2/_modulegraph.py: __init__, _run_missing_hooks, _run_post_processing", "modulegraph2/_swig_support.py", "modulegraph2/_mypyc_support.py", "modulegraph2/__main__.py"]}
{"id": "C83", "title": "Where the exceptions of a call come from", "statement": "An exception that gets out of a call is an AssertionError, KeyError or ValueError of the package itself, or was raised by the import system, a loader, the metadata or a file, or by a hook, or is about the argument of that call (its script, source text, distribution name or spec). In particular a module with invalid syntax never makes a call raise SyntaxError.", "quantifier": "all environments, hooks (with any set of exceptions they keep to), histories of calls whatever their outcomes, calls and fuel; for graphs with the hooks of a new graph the exceptions these can add are named", "why_tests_cant": "exceptions pass through several handlers (around find_spec, get_source, get_code, compile, the SWIG and mypyc hooks), each of which passes on what it does not know; tests only try a few faults in a few places", "anchors": ["modulegraph2/_modulegraph.py: _load_module, _find_or_load_module, _run_stack, hook_context", "modulegraph2/_graphbuilder.py: node_for_spec", "modulegraph2/_bytecode_tools.py: _extract_single", "modulegraph2/_swig_support.py", "modulegraph2/_mypyc_support.py"]}
{"id": "C84", "title": "Excluding modules only takes away", "statement": "If further modules are excluded (add_excludes) and the same scripts, modules and distributions are added, then everything that is reported apart from excluded modules was reported without that as well, with the same nodes and edges; and whatever the roots lead to without going through the excluded modules, or modules in excluded packages, is still reported, with the same nodes and edges.", "quantifier": "all environments that do not change, all tables of implied actions, all sets of further excludes, all sequences of additions (in any order) that do not raise", "why_tests_cant": "a relation between two runs: the effect of an exclude on the rest of the graph depends on every other module; tests compare a few nodes for a few names", "anchors": ["modulegraph2/_modulegraph.py: add_excludes, _implied_references, _find_or_load_module, _load_module, _process_namelist"]}
{"id": "C85", "title": "Chains of imports do not nest calls", "statement": "In a program that registers no hooks, the calls of _find_or_load_module, _load_module, _process_import and _process_namelist are nested at most as deep as the names that they are about have dots, plus a constant that depends on the table of implied actions only (number of entries, dots in the names it refers to). The number of modules, the length of chains of imports and cycles of imports do not matter, so that large programs do not run into the recursion limit of Python.", "quantifier": "all environments where modules are found under their own names, all tables, all sequences of calls (whatever their outcome) without hooks, hook_context, import_package and node_for_spec", "why_tests_cant": "a bound on the call stack for all programs: tests have small module graphs, far away from the recursion limit", "anchors": ["modulegraph2/_modulegraph.py: _run_stack, _process_import_list, _implied_references, _find_or_load_module, _load_module, _process_import, _process_namelist"]}
{"id": "C86", "title": "The graph does not depend on the hash seed", "statement": "Running the same calls in two Python processes with different hash seeds, so that sets are iterated in different orders, reports the same graph: the same reachable nodes, with the same classes and attributes, and the same edges with the same attributes.", "quantifier": "all environments that do not change, all pairs of iteration orders of sets, all sequences of calls that exclude modules and add scripts, modules, source texts and distributions", "why_tests_cant": "tests run with one or a few hash seeds; the claim is about all iteration orders for all programs", "anchors": ["modulegraph2/_ast_tools.py: visit_ImportFrom", "modulegraph2/_importinfo.py: create_importinfo", "modulegraph2/_modulegraph.py: _process_namelist"]}
{"id": "C87", "title": "Repeating a call changes nothing", "statement": "After a call of add_module, add_dependencies_for_source, add_distribution, import_module, add_edge or add_root has succeeded, making the same call again, at once or after any other calls, returns the same and changes nothing: not the graph, not the configuration, not the work that waits. A script cannot be added again: the second add_script raises ValueError and changes nothing.", "quantifier": "all environments in which the text is parsed alike and the distribution is found alike both times, all reachable states, all calls in between", "why_tests_cant": "tests repeat a call in a few graphs; the claim is about every reachable state and every sequence of calls in between", "anchors": ["modulegraph2/_modulegraph.py: add_module", "modulegraph2/_modulegraph.py: add_dependencies_for_source", "modulegraph2/_modulegraph.py: add_distribution", "modulegraph2/_modulegraph.py: import_module", "modulegraph2/_modulegraph.py: add_script"]}
{"id": "C88", "title": "A call that is refused changes nothing", "statement": "When a call of the graph (add_script, add_module, add_distribution, add_dependencies_for_source, import_module, import_package, add_node, add_edge, add_root and so on) raises an exception, the graph, the configuration and the work that waits are as they were before the call, so that the call can be made again when the cause is gone.", "quantifier": "all environments, all reachable states, all calls", "why_tests_cant": "tests check the exception of a few calls and not what is left in the graph; the claim is about every call in every reachable state", "anchors": ["modulegraph2/_modulegraph.py: add_script", "modulegraph2/_modulegraph.py: add_distribution", "modulegraph2/_modulegraph.py: add_dependencies_for_source", "modulegraph2/_modulegraph.py: import_module", "modulegraph2/_modulegraph.py: _find_module"]}
{"id": "C89", "title": "Implied references only add", "statement": "With more implied references configured (add_implies with lists of names, for names that had no entry or fewer references) and the same roots, everything that was reported is still reported: the same nodes with the same attributes and edges. What comes with it is what the further references lead to: a node that was reported before has no new edges but those of its further references, and every other node is behind such a reference.", "quantifier": "all steady environments, all pairs of configurations that differ in references only, all sequences of calls adding scripts, modules, source texts and distributions that do not raise", "why_tests_cant": "tests compare one or two configurations of one program; the claim relates the graphs of all programs under all pairs of such configurations", "anchors": ["modulegraph2/_modulegraph.py: add_implies", "modulegraph2/_modulegraph.py: _load_module", "modulegraph2/_modulegraph.py: _process_import_list"]}
{"id": "C90", "title": "A hook that does nothing changes nothing", "statement": "Registering a hook that only looks at the graph and returns None, for new nodes or for missing modules, changes nothing: whatever the other hooks are and wherever the idle hook is in the list, the same calls finish or not, have the same answers (exceptions included) and give the same graph, with its nodes, edges and roots in the same order.", "quantifier": "all environments, all lists of hooks, all positions of idle hooks in them, all histories of calls, all numbers of idle hooks registered before or in between", "why_tests_cant": "tests register one hook and look at one graph; the claim compares all runs with and without such hooks, for arbitrary other hooks and programs", "anchors": ["modulegraph2/_callback_list.py: CallbackList.__call__", "modulegraph2/_callback_list.py: FirstNotNone.__call__", "modulegraph2/_modulegraph.py: add_post_processing_hook", "modulegraph2/_modulegraph.py: add_missing_hook"]}
{"id": "C91", "title": "What is not in the graph does not matter", "statement": "The graph depends only on what is importable under the names of its own nodes, those of missing modules included: if in another environment find_spec has the same answers for these names, and the files found for them belong to the same distributions, then the same calls return there too and build the same graph, whatever else is installed, removed or changed.", "quantifier": "all environments, all pairs of answers of find_spec that agree on the nodes of the graph, all configurations and all sequences of calls that return, without hooks", "why_tests_cant": "tests run in one environment with one set of installed modules; the claim is about the difference between any two environments", "anchors": ["modulegraph2/_modulegraph.py: _load_module", "modulegraph2/_modulegraph.py: _find_or_load_module", "modulegraph2/_modulegraph.py: import_package", "modulegraph2/_graphbuilder.py: node_for_spec"]}
{"id": "C92", "title": "Building one graph does not influence the next", "statement": "The graphs that a process builds are independent of each other: whatever graphs a process built before, with calls that returned or raised, the same calls on a new graph return the same and give the same nodes, edges and roots as in a new process, although FakePackage objects of the earlier graphs are still in sys.modules.", "quantifier": "all environments in which importing some packages raises exceptions, all sequences of earlier graphs and calls, all configurations and all sequences of calls that return, without hooks", "why_tests_cant": "every test that leaves fake packages behind would have to be combined with every test that runs after it, for every package that cannot be imported", "anchors": ["modulegraph2/_modulegraph.py: _load_module", "modulegraph2/_modulegraph.py: import_package", "modulegraph2/_utilities.py: FakePackage"]}
{"id": "C93", "title": "The built-in hooks matter only for SWIG and mypyc", "statement": "If the finished graph has no SWIG wrapper (module or package that binds swig_import_helper) and no extension module of a distribution with a name that ends in __mypyc, then the graph, with or without use_builtin_hooks, is the same: a call finishes on one side exactly if it finishes on the other, with the same answer or exception, the same nodes, edges, roots and pending work, whatever hooks the user registers.", "quantifier": "all environments, all tables of implied actions, all sequences of calls (including calls that raise, hooks of the user and hooks that register hooks), all orders of sets of names", "why_tests_cant": "the hooks run for every node and for every missing module, so the tests would have to build every graph twice", "anchors": ["modulegraph2/_modulegraph.py: ModuleGraph.__init__", "modulegraph2/_swig_support.py: swig_missing_hook", "modulegraph2/_mypyc_support.py: mypyc_post_processing_hook"]}
{"id": "C94", "title": "The graph for several programs is the union of their graphs", "statement": "Take a graph whose roots are those of a family of graphs (its parts) that were built with the same settings, each in its own builder and in any order of calls. Then a name is reported for it if and only if it is reported for one of the parts, the nodes reported for a part have the same class, file, distribution and import statements in both, and they have exactly the same edges with the same attributes: no program adds, hides or changes an import of another program. Exception that the code has: a name imported from a module that imports it itself, as in C66.", "quantifier": "all environments that do not change, families of graphs (also infinite ones), settings, sequences of successful calls, with or without the built-in hooks", "why_tests_cant": "each program can be combined with all others, in all orders; the tests build one graph at a time and never compare the graph of two scripts with those of each of them", "anchors": ["modulegraph2/_modulegraph.py: add_script, add_module, add_distribution, _run_stack, _process_import, _process_namelist, _find_or_load_module, _load_module", "modulegraph2/_objectgraph.py: ObjectGraph.add_root, ObjectGraph.iter_graph"]}
{"id": "C95", "title": "More import statements only add", "statement": "Take a program, and the same program where modules and scripts have been edited so that they have more import statements (and bind other names), with the same modules found by Python. Graphs that are built for both with the same settings have nodes of the same class, file and distribution for the same names. Everything that is reported for the first program, nodes and edges with their attributes, is reported for the second one, unless the new code of a package defines a name whose import was reported missing. Exception that the code has: a package that imports something under the name of its submodule hides the submodule.", "quantifier": "all environments that do not change while a graph is built, all edits of any number of modules and scripts that keep the import statements that were there, settings, sequences of successful calls, iteration orders of sets, with or without the built-in hooks", "why_tests_cant": "it compares two programs of any size for every possible edit", "anchors": ["modulegraph2/_modulegraph.py: _run_stack, _process_import, _process_namelist, _find_or_load_module, _load_module, add_script", "modulegraph2/_graphbuilder.py: node_for_spec", "modulegraph2/_ast_tools.py: extract_ast_info"]}
{"id": "C96", "title": "Installing modules only adds", "statement": "Take a program for which some imported modules are not found, and the same program after any number of modules have been installed (and possibly edited so that they have more import statements, as in C95). Graphs that are built for both with the same settings have nodes of the same class, file and distribution for all names that were not missing in the first. Everything that is reported for the first program, nodes and edges with their attributes, is reported for the second one, where nodes that were missing may have been found. Exception that the code has: an installed module that is star imported by a package can bind a name that hides a submodule of the package.", "quantifier": "all environments that do not change while a graph is built, all sets of installed modules, settings, sequences of successful calls, iteration orders of sets, with or without the built-in hooks", "why_tests_cant": "it compares two programs of any size for every possible set of additional modules", "anchors": ["modulegraph2/_modulegraph.py: _run_stack, _process_import, _process_namelist, _find_or_load_module, _load_module, add_script", "modulegraph2/_graphbuilder.py: node_for_spec"]}
{"id": "C97", "title": "What the graph says to be needed is needed", "statement": "Take a script and what is imported from it by edges of the graph that are neither optional nor for names of from lists. Every run of the script that comes to its end has loaded all these modules; if one of them is missing no run comes to its end. Exceptions that the code has: import statements in with blocks (whose context manager can suppress the ImportError), loops, match statements and try statements with except* are not taken for optional, and a module that imports itself by a circle can fail to load although another module of the circle stays loaded.", "quantifier": "all programs, all runs of them (whatever the conditions, loops, calls and exceptions do, including imports by called functions), all modules that the interpreter had loaded before, excludes, iteration orders of sets", "why_tests_cant": "it is about all runs of all programs, compared with the graph; runs depend on values that the graph builder does not know", "anchors": ["modulegraph2/_ast_tools.py: extract_ast_info", "modulegraph2/_importinfo.py: ImportInfo", "modulegraph2/_depinfo.py: DependencyInfo, from_importinfo", "modulegraph2/_modulegraph.py: _process_import, _process_import_list, _find_or_load_module, add_script"]}
{"id": "C98", "title": "Whatever a run loads is in the graph", "statement": "Every module that a run of a script loads, or begins to load, is in the graph of that script as a module (not missing, excluded or invalid) that can be reached from the script, unless the interpreter had loaded it before. This holds whatever the run does: conditions, loops and exceptions go any way, functions are called or not, the run ends or raises; excluded modules are not there when it runs. Exception that the code has: a package that imports something under the name of its own submodule, when the statement is not executed.", "quantifier": "all programs, all runs of them in which modules are imported by import statements (of the script and of modules that have been started, in functions as well), all modules that were loaded before, settings, iteration orders of sets, with or without the built-in hooks", "why_tests_cant": "it is about all runs of all programs; a test sees one run of one program", "anchors": ["modulegraph2/_ast_tools.py: extract_ast_info", "modulegraph2/_modulegraph.py: _process_import, _process_namelist, _find_or_load_module, _load_module, add_script"]}
{"id": "C99", "title": "The modules of the graph are enough to run the program", "statement": "Take a copy of Python that has only the modules that the graph of a script has as modules (not missing, excluded or invalid) and that can be reached from the script, as tools that freeze programs make it. The script has the same runs there as in the full installation (without the excluded modules): each run of one, with its outcome (it ends, returns or raises), with the modules that it loads, and with those that fail to load, is a run of the other. The same for modules that are started with python -m. Exception that the code has: a package that imports something under the name of its own submodule, when the statement is not executed.", "quantifier": "all programs, all runs of them in which modules are imported by import statements, all modules that were loaded before, settings, iteration orders of sets, with or without the built-in hooks", "why_tests_cant": "it compares all runs of all programs in two installations; a test sees one run of one program", "anchors": ["modulegraph2/_modulegraph.py: add_script, add_module, _process_import, _process_namelist, _find_or_load_module, _load_module", "modulegraph2/_ast_tools.py: extract_ast_info"]}
{"id": "C100", "title": "What the graph says to be needed cannot be left out", "statement": "In an installation that lacks a module which the script leads to by edges that are neither optional nor inside functions, no run of the script gets to its end; and no module can be imported that leads to the lacking one in this way. This holds for every part of the installation for which the graph was made. Exceptions that the code has: statements that hold back exceptions and are not try statements (with suppress(...)), and circles of imports.", "quantifier": "all programs, all parts of their installation, all runs (calls may import anything), all modules that were loaded before, excluded modules, iteration orders of sets, with or without the built-in hooks", "why_tests_cant": "it is about all runs of all programs in all parts of an installation", "anchors": ["modulegraph2/_depinfo.py: from_importinfo", "modulegraph2/_ast_tools.py: extract_ast_info", "modulegraph2/_modulegraph.py: _process_import, _find_or_load_module, _load_module"]}
{"id": "C101", "title": "The distributions of all that a run loads are reported", "statement": "When a run of a script loads, or begins to load, a module from a file that an installed distribution has recorded, distributions() has this distribution, for the reachable nodes as well as for all nodes of the graph; unless the module had been loaded before the run. The same for modules that are started with python -m. Exception that the code has: as for C98.", "quantifier": "all programs, all runs of them in which modules are imported by import statements, all distributions and files, settings, iteration orders of sets and of the graph, with or without the built-in hooks", "why_tests_cant": "it is about all runs of all programs and all sets of installed distributions", "anchors": ["modulegraph2/_modulegraph.py: distributions, _load_module, add_script", "modulegraph2/_graphbuilder.py: node_for_spec", "modulegraph2/_distributions.py: distribution_for_file"]}
{"id": "C102", "title": "The command line program tells of all modules that a run loads", "statement": "When the command line program is called for scripts or modules and succeeds, its output, on stdout or in the file that was asked for, has a section (HTML) or a node (graphviz) for each module that a run of one of these scripts or modules loads or begins to load, in an installation without the excluded modules; unless the module had been loaded before the run. Exceptions that the code has: as for C98, and names with characters that the format does not quote (C54, C55).", "quantifier": "all command lines with valid options, all search paths, all programs and all runs of them in which modules are imported by import statements, all configurations, iteration orders of sets and of the graph", "why_tests_cant": "it is about all runs of all programs and all command lines", "anchors": ["modulegraph2/__main__.py: main, parse_arguments, make_graph, format_graph, print_graph", "modulegraph2/_htmlbuilder.py: export_to_html", "modulegraph2/_dotbuilder.py: export_to_dot", "modulegraph2/_modulegraph.py: add_script, add_module, _process_import_list"]}
{"id": "C103", "title": "At any time of a run, all that it has loaded is in the graph", "statement": "However far a run of a script gets, also when it never ends: the modules that have been loaded by then, that are being loaded and that could not be loaded are in the graph, reachable from the script; unless they had been loaded before. The same for modules that are started with python -m. A copy of Python with the modules of the graph gets exactly as far. Exception that the code has: as for C98.", "quantifier": "all programs, all states that runs of them get to (finished or not) when modules are imported by import statements, all settings, iteration orders of sets, with or without the built-in hooks", "why_tests_cant": "it is about all runs of all programs, and about runs without end", "anchors": ["modulegraph2/_modulegraph.py: add_script, add_module, _load_module, _process_import_list, _process_namelist", "modulegraph2/_ast_tools.py: extract_ast_info", "modulegraph2/_bytecode_tools.py: extract_bytecode_info"]}
{"id": "C104", "title": "Imports of modules that are not there are reported", "statement": "Whenever a run of a script gets to an import statement, the graph has an edge for it, from the node of the module or script with the statement, which is reachable from the script, to a node for what the statement imports. If Python does not find that module or one of the packages that it is in, and the settings say nothing about them, this node says that the module is missing. The same for modules that are started with python -m. Exception that the code has: as for C98.", "quantifier": "all programs, all states that runs of them get to (finished or not) when modules are imported by import statements, all settings, iteration orders of sets, with or without the built-in hooks", "why_tests_cant": "it is about all runs of all programs", "anchors": ["modulegraph2/_modulegraph.py: add_script, add_module, _load_module, _find_or_load_module, _process_import_list", "modulegraph2/_graphbuilder.py: node_for_spec", "modulegraph2/_ast_tools.py: extract_ast_info", "modulegraph2/_bytecode_tools.py: extract_bytecode_info"]}
{"id": "C105", "title": "At any time of a run, the output of the command line program has all that it has imported", "statement": "When the command line program is called for scripts or modules and succeeds, and a run of one of them gets somewhere, finished or not: the output has a section (HTML) or a node (graphviz) for each module that has been loaded by then, is being loaded or could not be loaded, unless it had been loaded before; and for the module that a statement is about to import, also when there is no such module. Exceptions that the code has: as for C102.", "quantifier": "all command lines with valid options, all search paths, all programs and all states that runs of them get to when modules are imported by import statements, all configurations, iteration orders of sets and of the graph", "why_tests_cant": "it is about all runs of all programs and all command lines", "anchors": ["modulegraph2/__main__.py: main, make_graph, format_graph, print_graph", "modulegraph2/_modulegraph.py: add_script, add_module, _load_module, _process_import_list", "modulegraph2/_htmlbuilder.py: export_to_html", "modulegraph2/_dotbuilder.py: export_to_dot"]}
{"id": "C106", "title": "Settings take effect for all that a run imports", "statement": "For a module whose packages can be imported, and which a run of a script has started to load or is about to import by a statement: if the settings exclude it, its node says so; if they replace it by another module, its node is an alias or virtual node for that one, with an edge to it; if they add imports to it, its node has an edge to each of them. The same for modules that are started with python -m. Exception that the code has: as for C98.", "quantifier": "all programs, all states that runs of them get to (finished or not) when modules are imported by import statements, all settings, iteration orders of sets, with or without the built-in hooks", "why_tests_cant": "it is about all runs of all programs and all settings", "anchors": ["modulegraph2/_modulegraph.py: add_excludes, add_implies, _implied_references, _find_or_load_module, _process_import_list", "modulegraph2/_implies.py"]}
{"id": "C107", "title": "Names that cannot be imported from a package are reported", "statement": "Whenever a run of a script gets to a statement that imports a name from a package that can be imported, and the node of the package does not have the name as one that its code binds, the graph has an edge from the node with the statement, which is reachable from the script, to a node for a submodule of this name. If Python does not find that submodule, so that the statement cannot succeed, and the settings say nothing about it and its packages, this node says that the module is missing. The same for modules that are started with python -m. Exception that the code has: as for C98.", "quantifier": "all programs, all states that runs of them get to (finished or not) when modules are imported by import statements, all settings, iteration orders of sets, with or without the built-in hooks", "why_tests_cant": "it is about all runs of all programs", "anchors": ["modulegraph2/_modulegraph.py: _process_namelist, _process_import, _find_or_load_module, _create_missing_module"]}
