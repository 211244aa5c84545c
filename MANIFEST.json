{
 "claims": [
  {
   "property": "C01",
   "status": "proved",
   "theorems": [
    "C01_split_lossless",
    "C01_split_rejects"
   ],
   "note": ""
  },
  {
   "property": "C02",
   "status": "proved",
   "theorems": [
    "C02_relative_as_cpython",
    "C02_relative_components"
   ],
   "note": "Against a transcription of importlib's _resolve_name and a component-list view."
  },
  {
   "property": "C03",
   "status": "partial",
   "theorems": [
    "C03_refuted",
    "C03_few_dots_partial",
    "C03_other_paths_misread"
   ],
   "note": "Refuted: the path of a script is read as a dotted name, so `from . import bar` in foo.py imports foo and foo.bar. Reported as invalid exactly when the path has fewer dots than the level."
  },
  {
   "property": "C04",
   "status": "proved",
   "theorems": [
    "C04_every_import_once",
    "C04_sites_are_occurrences"
   ],
   "note": "For every iteration order of Python sets."
  },
  {
   "property": "C05",
   "status": "proved",
   "theorems": [
    "C05_context_flags"
   ],
   "note": "try statement means ast.Try; for ast.TryStar see C06. The else block counts as a non-finally part, as in the code."
  },
  {
   "property": "C06",
   "status": "partial",
   "theorems": [
    "C06_try_partial",
    "C06_trystar_refuted"
   ],
   "note": "Refuted for except* blocks (ast.TryStar is not handled); holds for ordinary try statements."
  },
  {
   "property": "C07",
   "status": "proved",
   "theorems": [
    "C07_names",
    "C07_asname_kept"
   ],
   "note": ""
  },
  {
   "property": "C08",
   "status": "partial",
   "theorems": [
    "C08_asname_refuted",
    "C07_asname_kept"
   ],
   "note": "Refuted: from m import a as x, a as y keeps one as-name only; kept when the name is listed once."
  },
  {
   "property": "C09",
   "status": "proved",
   "theorems": [
    "C09_imports_decoded"
   ],
   "note": "At most one EXTENDED_ARG prefix for the from-list and the name, as the statement says; two prefixes make the code raise an assertion."
  },
  {
   "property": "C10",
   "status": "proved",
   "theorems": [
    "C10_visits_tree",
    "C10_union",
    "C10_total"
   ],
   "note": "Breadth first, level by level; the result is the union of the contributions."
  },
  {
   "property": "C100",
   "status": "partial",
   "theorems": [
    "C100_refuted",
    "C100_partial",
    "C100_import_partial",
    "C100_default_partial",
    "C100_default_import_partial"
   ],
   "note": "Refuted by with suppress(ImportError): import gone. Proved for programs that only have statements that the scan knows about (straight) and runs in which no module is taken from a circle of imports and fails later (sound_circles), as in C97, for every part of the installation."
  },
  {
   "property": "C101",
   "status": "partial",
   "theorems": [
    "C101_refuted",
    "C101_partial",
    "C101_module_partial",
    "C101_default_partial",
    "C101_default_module_partial"
   ],
   "note": "Refuted by the program of C98, where q.name is the only module of a distribution. Proved under the conditions of C98 (orderly, imports by statements), for scripts and modules that are roots of the graph."
  },
  {
   "property": "C102",
   "status": "partial",
   "theorems": [
    "C102_refuted",
    "C102_partial",
    "C102_module_partial",
    "option_conf_says"
   ],
   "note": "Refuted by the program of C98: the HTML output has no section for q.name. Proved for all successful calls of the command line program with scripts or modules and all runs of these, under the conditions of C98 (orderly, imports by statements), with names that the formats can print (C54, C55), no SWIG wrappers and no mypyc modules."
  },
  {
   "property": "C103",
   "status": "partial",
   "theorems": [
    "C103_refuted",
    "C103_partial",
    "C103_module_partial",
    "C103_default_partial",
    "C103_default_module_partial",
    "C103_bundle_partial",
    "C103_bundle_module_partial",
    "C103_bundle_default_partial",
    "C103_bundle_default_module_partial",
    "C103_ends"
   ],
   "note": "Refuted by the program of C98, after its only statement. Proved for all states that runs of any program get to, under the conditions of C98 (orderly, imports by statements); C103_bundle_partial: the copy of C99 gets as far."
  },
  {
   "property": "C104",
   "status": "partial",
   "theorems": [
    "C104_refuted",
    "C104_partial",
    "C104_module_partial",
    "C104_default_partial",
    "C104_default_module_partial"
   ],
   "note": "Refuted by a variant of the program of C98, in which the module that the graph does not have imports one that is not there. Proved for all states that runs of any program get to, under the conditions of C98 (orderly, imports by statements)."
  },
  {
   "property": "C105",
   "status": "partial",
   "theorems": [
    "C105_refuted",
    "C105_partial",
    "C105_module_partial"
   ],
   "note": "Refuted by the program of C98. Proved for all states that runs of any program get to and all valid command lines, under the conditions of C102 (orderly, imports by statements, names that the format can show)."
  },
  {
   "property": "C106",
   "status": "partial",
   "theorems": [
    "C106_refuted",
    "C106_partial",
    "C106_module_partial",
    "C106_default_partial",
    "C106_default_module_partial"
   ],
   "note": "Refuted by a variant of the program of C98, in which the module that the graph does not have imports __main__. Proved for all settings and all states that runs of any program get to, under the conditions of C98 (orderly, imports by statements)."
  },
  {
   "property": "C107",
   "status": "partial",
   "theorems": [
    "C107_refuted",
    "C107_partial",
    "C107_module_partial",
    "C107_default_partial",
    "C107_default_module_partial"
   ],
   "note": "Refuted by a variant of the program of C98, in which the module that the graph does not have imports a name that is not there. Proved for all states that runs of any program get to, under the conditions of C98 (orderly, imports by statements)."
  },
  {
   "property": "C11",
   "status": "proved",
   "theorems": [
    "C11_function_context"
   ],
   "note": "For trees of pairwise different code objects, with operands loaded before they are used (operands_first)."
  },
  {
   "property": "C12",
   "status": "partial",
   "theorems": [
    "C12_extended_arg_refuted",
    "C12_class_partial"
   ],
   "note": "Refuted for Python 3.11+ when the body constant needs an EXTENDED_ARG prefix; proved without prefix."
  },
  {
   "property": "C13",
   "status": "proved",
   "theorems": [
    "C13_written",
    "C13_read",
    "C13_tree"
   ],
   "note": "Per code object and for the whole tree."
  },
  {
   "property": "C14",
   "status": "proved",
   "theorems": [
    "C14_registered",
    "C14_callbacks_in_order",
    "C14_runs_all_or_prefix"
   ],
   "note": "For callbacks that do not change the list while it is being called; see C16 for those that do."
  },
  {
   "property": "C15",
   "status": "proved",
   "theorems": [
    "C15_first_answer",
    "C15_pure"
   ],
   "note": ""
  },
  {
   "property": "C16",
   "status": "partial",
   "theorems": [
    "C16_once_refuted",
    "C16_endless",
    "C16_once_partial"
   ],
   "note": "Refuted: a hook that registers another hook is run again (the live list shifts); proved for hooks that leave the list alone."
  },
  {
   "property": "C17",
   "status": "proved",
   "theorems": [
    "C17_configured",
    "C17_main_excluded"
   ],
   "note": "Any sequence of add_excludes and add_implies calls."
  },
  {
   "property": "C18",
   "status": "partial",
   "theorems": [
    "C18_refuted",
    "C18_excluded_partial"
   ],
   "note": "Refuted: a module loaded through an aliased spec (os.path -> posixpath) is scanned although excluded. Holds for all other nodes the builder makes by name."
  },
  {
   "property": "C19",
   "status": "proved",
   "theorems": [
    "C19_only_adds"
   ],
   "note": "Every call from every reachable state, whatever its outcome, with any environment and hooks."
  },
  {
   "property": "C20",
   "status": "proved",
   "theorems": [
    "C20_well_formed",
    "C20_edge_attributes",
    "C20_refused"
   ],
   "note": ""
  },
  {
   "property": "C21",
   "status": "proved",
   "theorems": [
    "C21_at_most_once"
   ],
   "note": ""
  },
  {
   "property": "C22",
   "status": "partial",
   "theorems": [
    "C22_refuted",
    "C22_no_work_left_partial",
    "C22_scheduled_once_partial",
    "C22_call_partial",
    "C22_post_processed_partial"
   ],
   "note": "Refuted: a package whose hidden import raises is added but never post processed. Holds for every node made by a call without exception, and for every node that reached the work stack."
  },
  {
   "property": "C23",
   "status": "partial",
   "theorems": [
    "C23_refuted",
    "C23_others_partial"
   ],
   "note": "Refuted: extension modules that the SWIG hook adds are never post processed. Proved: with the built-in hooks every other node is post processed exactly once (no exception, no nodes handed over by other hooks)."
  },
  {
   "property": "C24",
   "status": "proved",
   "theorems": [
    "C24_after_imports",
    "C24_any_hooks_refuted"
   ],
   "note": "A statement whose processing raised counts as processed. The imports found at creation are the ones handed to the work stack unless a hook called the internal _process_import_list for the node before. Refuted if missing hooks may run the work stack (outside the quantifier)."
  },
  {
   "property": "C25",
   "status": "partial",
   "theorems": [
    "C25_refuted",
    "C25_scheduled_partial",
    "C25_call_partial",
    "C25_import_edges_partial"
   ],
   "note": "Refuted after an exception; holds for all statements of nodes made by calls without exception, and for all statements whose own processing did not raise."
  },
  {
   "property": "C26",
   "status": "proved",
   "theorems": [
    "C26_edges_justified"
   ],
   "note": ""
  },
  {
   "property": "C27",
   "status": "partial",
   "theorems": [
    "C27_ends_partial",
    "C27_add_partial",
    "C27_builtin_partial",
    "C27_refuted"
   ],
   "note": "Every call ends in every universe where find_spec knows finitely many names: import, alias and implies cycles, failing and changing environments, the built-in hooks, any hooks that keep to the rules of EndSpec.v. Refuted only for loaders (six.moves, vendored packages) whose redirections go in a circle: _node_for_spec recurses without end (RecursionError in Python)."
  },
  {
   "property": "C28",
   "status": "partial",
   "theorems": [
    "C28_refuted",
    "C28_call_partial",
    "C28_package_edges_partial"
   ],
   "note": "Refuted after an exception; holds for nodes made by calls without exception."
  },
  {
   "property": "C29",
   "status": "partial",
   "theorems": [
    "C29_refuted",
    "C29_add_module_partial",
    "C29_repeated_partial"
   ],
   "note": "Refuted with a missing hook that returns a node of another name; proved without missing hooks, and for the node a hook returned. A repeated call changes nothing unless the node is a distribution."
  },
  {
   "property": "C30",
   "status": "partial",
   "theorems": [
    "C30_refuted",
    "C30_no_other_roots_partial",
    "C30_no_builtin_partial",
    "C30_asked_are_roots"
   ],
   "note": "Refuted: the mypyc hook calls add_module and so makes its helper a root. Proved: no other roots if no installed distribution is compiled by mypyc, or without that hook; everything asked for is a root."
  },
  {
   "property": "C31",
   "status": "partial",
   "theorems": [
    "C31_refuted",
    "C31_call_partial",
    "C31_target_edges_partial"
   ],
   "note": "Refuted after an exception; holds for nodes made by calls without exception."
  },
  {
   "property": "C32",
   "status": "partial",
   "theorems": [
    "C32_refuted",
    "C32_missing_partial",
    "C32_nothing_installed_partial"
   ],
   "note": "Refuted: with the implied references of turtledemo add_module('turtledemo.clock') raises ValueError when turtledemo does not exist. Proved for names that have no implied action, nor their packages."
  },
  {
   "property": "C33",
   "status": "partial",
   "theorems": [
    "C33_refuted",
    "C33_below_partial"
   ],
   "note": "Refuted by an aliased spec below an excluded package; holds for nodes that are not the target of an aliased spec, given by the user, a script or an invalid relative import."
  },
  {
   "property": "C34",
   "status": "partial",
   "theorems": [
    "C34_refuted",
    "C34_call_partial",
    "C34_implied_partial",
    "C34_platform_tables"
   ],
   "note": "Refuted by a module loaded through an aliased spec; holds for modules loaded by their own name in calls without exception."
  },
  {
   "property": "C35",
   "status": "proved",
   "theorems": [
    "C35_pending_survives"
   ],
   "note": "Counted with multiplicity; completed means ended, and ended without failure if the next call sees no exception."
  },
  {
   "property": "C36",
   "status": "partial",
   "theorems": [
    "C36_refuted",
    "C36_duplicate_partial",
    "C36_new_script"
   ],
   "note": "Refuted when the node of that path is a distribution (AssertionError); proved for every other kind of node and for new scripts."
  },
  {
   "property": "C37",
   "status": "partial",
   "theorems": [
    "C37_refuted",
    "C37_new_distribution_partial",
    "C37_unknown",
    "C37_again"
   ],
   "note": "Refuted after an exception: the second call succeeds without edges. Proved for distributions that are not in the graph yet."
  },
  {
   "property": "C38",
   "status": "partial",
   "theorems": [
    "C38_refuted",
    "C38_no_raise_partial",
    "C38_new_graph_partial"
   ],
   "note": "Refuted: ../../../bin/rst2html.py in RECORD makes the call raise ValueError. Proved for names that are in the graph or absent, and for RECORD files with usual paths in a new graph."
  },
  {
   "property": "C39",
   "status": "proved",
   "theorems": [
    "C39_source_roots",
    "C39_names"
   ],
   "note": ""
  },
  {
   "property": "C40",
   "status": "partial",
   "theorems": [
    "C40_refuted",
    "C40_never_succeeds"
   ],
   "note": "Refuted: `from . import x` raises ValueError, always (C40_never_succeeds)."
  },
  {
   "property": "C41",
   "status": "partial",
   "theorems": [
    "C41_refuted",
    "C41_listed_partial"
   ],
   "note": "Refuted: the listing of a package has __init__ (and __pycache__), import_package adds pkg.__init__ and pkg.__pycache__ nodes. Proved: every name import_package asks for is pkg.x for an identifier x that is a .py file or directory in a location of pkg."
  },
  {
   "property": "C42",
   "status": "partial",
   "theorems": [
    "C42_refuted",
    "C42_complete_partial",
    "C42_hook_context_partial"
   ],
   "note": "Refuted: modules of a sub package without __init__.py (NamespacePackage) are not imported. Proved for all histories and nesting depths: with a file system that does not change, completed work and no failed import_package work item, every .py module of each regular package below pkg has a node and an edge from its package; also for the call inside a hook context."
  },
  {
   "property": "C43",
   "status": "partial",
   "theorems": [
    "C43_class",
    "C43_refuted",
    "C43_no_exception_partial"
   ],
   "note": "Refuted: a loader with source but a spec without origin raises AssertionError. The class of the node is proved for every loader; no exception if the only failures are SyntaxErrors and specs with source have an origin."
  },
  {
   "property": "C44",
   "status": "proved",
   "theorems": [
    "C44_swig",
    "C44_complete",
    "C44_other_errors"
   ],
   "note": "Both directions: it answers for SWIG extensions only, and for all of them; other exceptions than ImportErrors of the lookup reach the caller."
  },
  {
   "property": "C45",
   "status": "proved",
   "theorems": [
    "C45_mypyc",
    "C45_effect",
    "C45_source"
   ],
   "note": "C45_effect: what the hook has done when it acts."
  },
  {
   "property": "C46",
   "status": "proved",
   "theorems": [
    "C46_quoted",
    "C46_unquoted",
    "C46_csv_round_trip"
   ],
   "note": ""
  },
  {
   "property": "C47",
   "status": "proved",
   "theorems": [
    "C47_components",
    "C47_import_name",
    "C47_import_names"
   ],
   "note": ""
  },
  {
   "property": "C48",
   "status": "proved",
   "theorems": [
    "C48_same_object",
    "C48_identifier"
   ],
   "note": "Any number of interleaved generators, file system answers depend on time."
  },
  {
   "property": "C49",
   "status": "partial",
   "theorems": [
    "C49_broken_hides_refuted",
    "C49_reported_partial",
    "C49_exact_when_healthy",
    "C49_generator_ends"
   ],
   "note": "Refuted: a broken dist-info directory hides those listed after it."
  },
  {
   "property": "C50",
   "status": "proved",
   "theorems": [
    "C50_first_for_file",
    "C50_first_named",
    "C50_search_path_order"
   ],
   "note": ""
  },
  {
   "property": "C51",
   "status": "partial",
   "theorems": [
    "C51_first_directory_refuted",
    "C51_order_dependent",
    "C51_sound_partial",
    "C51_flat_partial",
    "C51_zip"
   ],
   "note": "Refuted on disk: the first subdirectory decides; exact for flat directories and for zip files. (The code names .hg twice and not .git, so .git counts as data.)"
  },
  {
   "property": "C52",
   "status": "proved",
   "theorems": [
    "C52_distributions",
    "C52_exactly"
   ],
   "note": ""
  },
  {
   "property": "C53",
   "status": "proved",
   "theorems": [
    "C53_report",
    "C53_text"
   ],
   "note": "C53_text: the printed text, split into lines, for identifiers and file names without newline."
  },
  {
   "property": "C54",
   "status": "partial",
   "theorems": [
    "C54_refuted",
    "C54_dot_partial",
    "C54_attributes"
   ],
   "note": "Refuted: a double quote in an identifier is not escaped. Proved: without newlines and double quotes, reading the text back gives exactly the reachable nodes, edges, attributes and clusters."
  },
  {
   "property": "C55",
   "status": "partial",
   "theorems": [
    "C55_refuted",
    "C55_anchors",
    "C55_hrefs",
    "C55_links_partial"
   ],
   "note": "Refuted: links to PyPIDistribution nodes have no anchor. Proved: all other links resolve, for identifiers that need no escaping in HTML."
  },
  {
   "property": "C56",
   "status": "proved",
   "theorems": [
    "C56_saved",
    "C56_make_graph"
   ],
   "note": "For every block: it may change the list, bind sys.path to another list, or raise."
  },
  {
   "property": "C57",
   "status": "proved",
   "theorems": [
    "C57_options",
    "C57_usage"
   ],
   "note": "Lists are cells of a store, as the default lists are shared between options; a wrong command line exits with status 2."
  },
  {
   "property": "C58",
   "status": "proved",
   "theorems": [
    "C58_star",
    "C58_star_other"
   ],
   "note": ""
  },
  {
   "property": "C59",
   "status": "partial",
   "theorems": [
    "C59_refuted",
    "C59_from_edges_partial",
    "C59_plain_module"
   ],
   "note": "Refuted for six.moves, whose names are implied; proved for all other packages. The edges of a plain module are shown not to exist."
  },
  {
   "property": "C60",
   "status": "proved",
   "theorems": [
    "C60_main",
    "C60_roots",
    "C60_dot_partial",
    "C60_html_partial"
   ],
   "note": "C60_html_partial: the same for the anchors and links of the HTML output (names without < and double quote). C60_dot_partial: with -f dot the output, read back, is the graph (names without newline and double quote, as in C54)."
  },
  {
   "property": "C61",
   "status": "proved",
   "theorems": [
    "C61_hooks_have_effect",
    "C61_from_start"
   ],
   "note": "For every fact that lasts when the graph grows; the example is a hook that makes every node a root."
  },
  {
   "property": "C62",
   "status": "partial",
   "theorems": [
    "C62_refuted",
    "C62_call_partial",
    "C62_asked_partial",
    "C62_answered_partial"
   ],
   "note": "Refuted: node_for_spec makes missing modules for names of six.moves (and vendored packages, distutils) without asking. Proved for all other nodes, whatever the hooks do and raise."
  },
  {
   "property": "C63",
   "status": "partial",
   "theorems": [
    "C63_refuted",
    "C63_call_partial",
    "C63_all_partial"
   ],
   "note": "Refuted after an exception in an earlier call: a node may have been added whose statements are never processed (as C22). Proved for the nodes a call adds when it does not raise, and for all nodes as long as no call and no hook has raised. Names of six.moves and names bound in a package are excluded from the from list part. Code objects are assumed to have the shape that the compiler gives them (compiled_env)."
  },
  {
   "property": "C64",
   "status": "proved",
   "theorems": [
    "C64_exact",
    "C64_source"
   ],
   "note": "Both directions for every node of a graph built without user hooks (plain_history); the direction from the code to the graph needs that no call raised (fine). Code objects are assumed to have the shape that the compiler gives them (compiled_env)."
  },
  {
   "property": "C65",
   "status": "partial",
   "theorems": [
    "C65_refuted",
    "C65_any_partial",
    "C65_plain_partial",
    "C65_present_partial",
    "C65_tidy_partial"
   ],
   "note": "Refuted: from q import name, where q binds name, leaves the missing module q.name that nothing leads to. Proved without hooks: every node that is not such a missing module is reachable (unless references are configured as implied by one); with any hooks as long as nothing raised: every node is such a module or is led to from a loose node (root, node given by a hook, asked for before it existed)."
  },
  {
   "property": "C66",
   "status": "partial",
   "theorems": [
    "C66_refuted",
    "C66_nodes_partial",
    "C66_more_partial",
    "C66_same_partial",
    "C66_default_nodes_partial",
    "C66_default_more_partial"
   ],
   "note": "Refuted: import json in pkg/__init__, from pkg import json in pkg.sub; the edge pkg.sub -> json is only there when pkg was added first. Proved: nodes for the same name agree, always; the reported parts of both graphs agree if no name is imported from a module that imports it itself (settled: such names are found by position in the work list), package globals come from the code of the package and not from star imports, and missing modules left over for package globals are not imported in another way. Scripts, modules, source texts and distributions (one per identifier), without hooks, six.moves or vendored aliases; no call raises. The default theorems have the built-in hooks, for graphs without SWIG wrappers and mypyc modules (C93)."
  },
  {
   "property": "C67",
   "status": "partial",
   "theorems": [
    "C67_refuted",
    "C67_blamed_partial",
    "C67_builtin_partial",
    "C67_quiet_partial",
    "C67_swig_partial"
   ],
   "note": "Refuted: _load_module leaves the fake package of a package whose import fails in sys.modules. Proved for all histories: every fake package that is left has an exception to blame (importlib, or a missing hook, failed for a module of a package that importlib knows); none without missing hooks as long as importlib finds modules or says that there are none; the SWIG hook removes its own entry unless the second lookup raises. Real modules that the code deletes from sys.modules are not tracked."
  },
  {
   "property": "C68",
   "status": "partial",
   "theorems": [
    "C68_refuted",
    "C68_top_level_partial",
    "C68_below_missing_partial",
    "C68_in_package_partial"
   ],
   "note": "Refuted: the except Exception clause around find_spec also covers the missing hooks. Exact answer for top level names (in CPython, where looking for the empty name is a ValueError): KeyboardInterrupt and the like, and a ModuleNotFoundError without the usual text, get through, everything else becomes a ValueError; below a missing package every exception gets through. In a package that is in the graph and exists, everything else becomes an AssertionError, also after the second try with a fake package."
  },
  {
   "property": "C69",
   "status": "partial",
   "theorems": [
    "C69_refuted",
    "C69_not_bound",
    "C69_code_partial",
    "C69_stores_partial",
    "C69_reasons_partial",
    "C69_plain_partial"
   ],
   "note": "Refuted: the sets of a script are never filled from its code; from b import c as d adds c, and imports in functions add names that are local. Proved: globals_read is exact for every node but scripts (C69_code_partial; for scripts it is empty); names that the code binds are there, unless only bound by a global statement in a class body; every name that is there is written by the code, in the from list of an import statement of the node, or brought by a chain of star imports from such a module (inductive, so no name justifies itself)."
  },
  {
   "property": "C70",
   "status": "proved",
   "theorems": [
    "C70_attributes"
   ],
   "note": "All nodes but those hooks add themselves. That the namespace type is guessed from the text of the source, and that has_data_files of PEP 420 namespace packages is always False, is part of what is stated."
  },
  {
   "property": "C71",
   "status": "partial",
   "theorems": [
    "C71_same_imports",
    "C71_context_partial",
    "C71_edges",
    "C71_refuted"
   ],
   "note": "Refuted: the body of a class with type parameters (class C[T]) is compiled in a function of its own, so its imports are said to be in a function. Proved against a relation between trees and code objects that stands for the compiler (CompileSpec.v): the imports are the same, the scan never fails; the context is the same without such classes and, for imports in functions, always. Code the compiler leaves out (if False) is found in the source only. Class bodies with an EXTENDED_ARG prefix are C12."
  },
  {
   "property": "C72",
   "status": "partial",
   "theorems": [
    "C72_refuted",
    "C72_html_partial"
   ],
   "note": "Refuted: the heading Used by is printed although all users are unreachable, with nothing below it. Everything else is proved for identifiers and names without <, double quotes and newlines."
  },
  {
   "property": "C73",
   "status": "partial",
   "theorems": [
    "C73_refuted",
    "C73_runs_partial",
    "C73_known_partial",
    "C73_nodes_partial"
   ],
   "note": "Refuted: names that the body of a class looks up (class C: p = __file__) are not in globals_read, so uses_dunder_file is false; globals bound in a class body with a global statement are not in globals_written; from b import c as d puts c there although nothing binds it. Everything outside of class bodies is proved for all runs, and every name in globals_read is looked up by some run. Names bound by star imports are C58."
  },
  {
   "property": "C74",
   "status": "partial",
   "theorems": [
    "C74_refuted",
    "C74_alias_refuted",
    "C74_partial",
    "C74_later_partial"
   ],
   "note": "Refuted: import statements of a module inside a package are worked on before those of the package, so from a import * in a.b misses names that a has from a star import (and from a.b import foo then reports a missing module a.b.foo); a star import from an alias (os.path) adds nothing. Proved: all names are taken over when no work on the imported module can be left while the importing one is worked on (relation waits of StarSpec.v, on the final graph), in particular when the imported module was added to the graph later. Only histories without hooks and exceptions."
  },
  {
   "property": "C75",
   "status": "partial",
   "theorems": [
    "C75_refuted",
    "C75_partial",
    "C75_reported_partial",
    "C75_default_partial"
   ],
   "note": "Refuted: when package q does import json as name under a condition and there is a module q.name, from q import name gives an edge to json only, and q.name is not in the graph. Proved for all programs where no package imports something else under the name of its submodule, no import names a script or distribution, and the missing modules that are left over from globals of packages are not imported by other statements. Excluded and replaced modules are not loaded. Not part of it: __all__ of star imports, importlib, hooks. The default theorems have the built-in hooks, for graphs without SWIG wrappers and mypyc modules (C93)."
  },
  {
   "property": "C76",
   "status": "partial",
   "theorems": [
    "C76_refuted",
    "C76_unreadable_refuted",
    "C76_partial",
    "C76_exact_partial",
    "C76_default_partial",
    "C76_default_exact_partial"
   ],
   "note": "Refuted: from . import x in script main.py leads to nodes main and main.x, as if the script were a module of package main; and the submodules of a package whose source cannot be decoded are in the graph with all they import. Proved for all programs where relative imports of the script leave the top level (no dots in its name), packages can be decoded, from lists have plain names, and scripts and distributions do not have the names of modules. C76_exact_partial: with only exclusions configured, and under the conditions of C75, edges lead to a real module if and only if the program can load it. The default theorems have the built-in hooks, for graphs without SWIG wrappers and mypyc modules (C93)."
  },
  {
   "property": "C77",
   "status": "partial",
   "theorems": [
    "C77_refuted",
    "C77_partial"
   ],
   "note": "Refuted: six.moves.collections_abc is reported missing although Python finds it (as are dbm_ndbm, email_mime_image, urllib_parse, urllib_error, urllib_request and urllib_response: SIX_MOVES_TO lacks them). Proved for all histories with any hooks: every missing node is absent in the sense of the statement, or is a name that the loader of six has but the table does not, or a copy of six below a package named moves."
  },
  {
   "property": "C78",
   "status": "partial",
   "theorems": [
    "C78_refuted",
    "C78_vendor_refuted",
    "C78_partial"
   ],
   "note": "Refuted: six.moves.tkinter_filedialog becomes an alias of tkinter.FileDialog instead of tkinter.filedialog; setuptools.extern.x with x installed but not in setuptools._vendor becomes an alias of a missing setuptools._vendor.x instead of x. Proved for all histories in environments where names of six.moves are in the table with the right module, and where a module that the vendor package lacks is not installed."
  },
  {
   "property": "C79",
   "status": "partial",
   "theorems": [
    "C79_refuted",
    "C79_partial"
   ],
   "note": "Refuted by six.moves.collections_abc (missing instead of an alias). Proved under the same conditions on the environment as C78."
  },
  {
   "property": "C80",
   "status": "partial",
   "theorems": [
    "C80_refuted",
    "C80_partial",
    "C80_script_partial",
    "C80_default_partial"
   ],
   "note": "Refuted: for from os import getcwd the text makes a root of a missing module os.getcwd, which the script does not. Proved for the real modules: those that one is led to from the names of the text are exactly those that the script can load, hence (C80_script_partial) those of any graph with the script; with only exclusions configured, names as in Python, submodules in packages only and under the conditions of C75 and C76. Nothing is proved about missing and excluded modules. The default theorems have the built-in hooks, for graphs without SWIG wrappers and mypyc modules (C93)."
  },
  {
   "property": "C81",
   "status": "partial",
   "theorems": [
    "C81_refuted",
    "C81_unconfigured_refuted",
    "C81_partial",
    "C81_answer_partial",
    "C81_unconfigured_partial",
    "C81_stdlib_partial",
    "C81_hooks_partial"
   ],
   "note": "Refuted twice: a missing package whose configuration refers to one of its own modules (ValueError), and, without configuration, a script ./main.py with a relative import (AssertionError). Proved for graphs without hooks when names can be ranked: a module comes after its package (or not before it, for packages that are certain to be found), what a name is configured or redirected to does not come after it; a script has a name like that of a module, or one that could not be that of a module (such as a path with a slash) and no relative imports. Distributions have paths as identifiers that are not scripts. C81_stdlib_partial has a rank for the default configuration, C81_unconfigured_partial needs none, C81_answer_partial also says that the calls end. C81_hooks_partial allows hooks for new nodes that make such calls only, hooks for missing modules that do not answer, and those of the package. import_package is covered when directories can be listed and what is importable is found again by its own name; hook_context when the program in it makes such calls only. Hooks may be added at any time, and nodes for modules by hand under new names. C81_answer_partial asks that hooks added in such a program only name finitely many modules."
  },
  {
   "property": "C82",
   "status": "partial",
   "theorems": [
    "C82_refuted",
    "C82_partial",
    "C82_answer_partial",
    "C82_main_partial"
   ],
   "note": "Refuted: a wrapper made by SWIG outside of any package, whose extension module is not installed, makes add_module raise AssertionError (the hook looks for the spec of the package with the empty name). Proved without SWIG wrappers (no code binds swig_import_helper, nothing imports it): calls do not raise, with finitely many modules they answer, and the program run for modules, for distributions or for scripts writes its report unless invalidating caches or writing fails. Several scripts are covered when they are different and are paths except for the first one. Wrappers in packages are not covered."
  },
  {
   "property": "C83",
   "status": "proved",
   "theorems": [
    "C83_call",
    "C83_new",
    "C83_builtin",
    "C83_syntax",
    "C83_module"
   ],
   "note": "For any hooks that keep to a set of exceptions, for no hooks, and for the hooks of a new graph. The exceptions of the environment are those that its oracles return; which of them can happen is not part of the model."
  },
  {
   "property": "C84",
   "status": "partial",
   "theorems": [
    "C84_refuted",
    "C84_less_partial",
    "C84_rest_partial",
    "C84_default_less_partial",
    "C84_default_rest_partial"
   ],
   "note": "Refuted: p has from q import *, q binds z, and a script has from p import z; with q excluded a missing module p.z is reported. Proved in both directions for graphs that are settled (as in C66: no name is imported from a module that imports it itself, package globals come from the code of the package, modules left over for them are not imported in another way), even with more roots on the side that may have more; for the second direction none of the further excluded modules is an alias. Scripts, modules, source texts and distributions (one per identifier), without hooks, six.moves or vendored aliases; no call raises. The default theorems have the built-in hooks, for graphs without SWIG wrappers and mypyc modules (C93)."
  },
  {
   "property": "C85",
   "status": "proved",
   "theorems": [
    "C85_shallow"
   ],
   "note": "The bound is that of depth in DepthSpec.v: parts of the names involved + 6 + (D + 4)(2L + 3), with L entries in the table and names of at most D parts in it. Hooks that call add_module do nest _run_stack; they, import_package and redirecting loaders (six.moves, vendored packages) are not covered."
  },
  {
   "property": "C86",
   "status": "partial",
   "theorems": [
    "C86_refuted",
    "C86_roots_partial",
    "C86_nodes_partial",
    "C86_partial",
    "C86_default_roots_partial",
    "C86_default_partial"
   ],
   "note": "Refuted: from . import a as b, b in a package loads pkg.b only if the set iterates b before a. The partial theorems: the roots are always the same; with from lists that have no name twice, nodes have the same class, attributes and statements; and the reported parts are the same if no name is imported from a module that imports it itself (settled, as for C66). Scripts, modules, source texts and distributions (found in the same way every time, with names of their own), without hooks. The default theorems have the built-in hooks, for graphs without SWIG wrappers and mypyc modules (C93)."
  },
  {
   "property": "C87",
   "status": "partial",
   "theorems": [
    "C87_refuted",
    "C87_partial",
    "C87_unhooked_partial",
    "C87_script"
   ],
   "note": "Refuted: a call that failed left work, which the repeated add_module does. Proved when no work waits and nodes have the names that were asked for (always without hooks for missing modules); the answer may also be the AssertionError of find_module, only if the graph has distributions. For scripts without conditions."
  },
  {
   "property": "C88",
   "status": "partial",
   "theorems": [
    "C88_refuted",
    "C88_refused",
    "C88_one_step",
    "C88_script",
    "C88_no_retry",
    "C88_dist",
    "C88_taken_for_done"
   ],
   "note": "Refuted: import_module looks the module up before it finds that the importing node is not in the graph; and a call whose work raises leaves what was done until then. Proved: every call that is turned down for what is asked or for what the graph has (list in refusal) raises the exception given there and changes nothing; calls of one step raise only then. For add_script and add_distribution: if anything has changed, the script or distribution is in the graph; then add_script of it is refused for ever, and add_distribution of it returns and does nothing."
  },
  {
   "property": "C89",
   "status": "partial",
   "theorems": [
    "C89_refuted",
    "C89_kept_partial",
    "C89_added_partial",
    "C89_default_kept_partial",
    "C89_default_added_partial"
   ],
   "note": "Refuted: a reference to pkg.sub has its imports handled before those of pkg, and from pkg import json in it then does not lead to json, which pkg imports. Proved in both directions for graphs that are settled (as in C66 and C84), without hooks. The default theorems have the built-in hooks, for graphs without SWIG wrappers and mypyc modules (C93)."
  },
  {
   "property": "C90",
   "status": "partial",
   "theorems": [
    "C90_refuted",
    "C90_steady_partial",
    "C90_oldest_partial"
   ],
   "note": "Refuted: the lists are iterated while hooks can register hooks at their front; if one registers two hooks, the one before it is called again for the same node, but not if an idle hook is in between. Proved if no hook registers hooks while it is called (the user may register hooks at any time), and, whatever hooks do, if the idle hooks are older than all others."
  },
  {
   "property": "C91",
   "status": "partial",
   "theorems": [
    "C91_refuted",
    "C91_partial",
    "C91_install_partial",
    "C91_default_partial"
   ],
   "note": "Refuted: setuptools.extern.x is an alias of x if the vendor package has no x, and the graph has no node for the vendored name that was looked for. Proved for environments whose loaders do not redirect (no six.moves, vendored modules or _distutils_hack); the whole state is the same, the order of nodes and edges included. import_package and nodes, edges and roots added by hand are covered. The default theorems have the built-in hooks, for graphs without SWIG wrappers and mypyc modules (C93)."
  },
  {
   "property": "C92",
   "status": "partial",
   "theorems": [
    "C92_refuted",
    "C92_partial",
    "C92_same_partial",
    "C92_default_partial"
   ],
   "note": "Refuted: after a graph for which p was faked, import_package of p on another graph raises ValueError. Proved for all calls but import_package that return in a new process, after any graphs without hooks, for environments that do not change, where find_spec is a function of the name and of the packages that cannot be imported, and loaders do not redirect; graph, work stack, implied actions and answers are the same. The default theorems have the built-in hooks, for graphs without SWIG wrappers and mypyc modules (C93)."
  },
  {
   "property": "C93",
   "status": "proved",
   "theorems": [
    "C93_same",
    "C93_next",
    "C93_back",
    "C93_session",
    "C93_session_back"
   ],
   "note": "Whatever the user calls and whatever hooks the user registers. Sets of import names may be iterated over in any order. Only for use_builtin_hooks; the table of implied actions is the same on both sides. C93_session carries the theorems about graphs without hooks over to default graphs (PropsDefault)."
  },
  {
   "property": "C94",
   "status": "partial",
   "theorems": [
    "C94_refuted",
    "C94_partial",
    "C94_default_partial"
   ],
   "note": "Refuted: pkg imports json, pkg.sub has from pkg import json; the edge pkg.sub -> json is in the graph for pkg and pkg.sub, but not in that for pkg.sub. Proved for all families of graphs that are settled (as in C66). Scripts, modules, source texts and distributions (one per identifier), without hooks (or, C94_default_partial, with the built-in hooks and no SWIG wrappers or mypyc modules), six.moves or vendored aliases; no call raises."
  },
  {
   "property": "C95",
   "status": "partial",
   "theorems": [
    "C95_refuted",
    "C95_nodes_partial",
    "C95_partial",
    "C95_default_partial"
   ],
   "note": "Refuted: package q gets import json as name, and there is a module q.name; from q import name then leads to json only. Proved for all edits if both graphs are settled (as in C66) and from lists have no name under two names; modules remain what they are (valid source, the same kind of namespace package), none is added or removed (nothing_new; see C96). Names that were missing and are defined by the new code are excepted (no_repair). Scripts, modules, source texts and distributions (one per identifier), without hooks (or, C95_default_partial, with the built-in hooks and no SWIG wrappers or mypyc modules), six.moves or vendored aliases; no call raises."
  },
  {
   "property": "C96",
   "status": "partial",
   "theorems": [
    "C96_refuted",
    "C96_nodes_partial",
    "C96_edited_partial",
    "C96_partial",
    "C96_default_edited_partial",
    "C96_default_partial"
   ],
   "note": "Refuted: package q has from lib import * (lib is missing), a function with import name and a module q.name; once lib, which binds name, is installed from q import name leads to the module name and q.name is not in the graph. Proved for all sets of installed modules if both graphs are settled (as in C66) and from lists have no name under two names; in the _edited_ theorems modules may be edited as in C95 as well, under no_repair. Scripts, modules, source texts and distributions (one per identifier), without hooks (or, C96_default_*, with the built-in hooks and no SWIG wrappers or mypyc modules), six.moves or vendored aliases; no call raises."
  },
  {
   "property": "C97",
   "status": "partial",
   "theorems": [
    "C97_refuted",
    "C97_straight_refuted",
    "C97_loaded_partial",
    "C97_partial",
    "C97_modules_partial",
    "C97_import_partial",
    "C97_default_loaded_partial",
    "C97_default_partial",
    "C97_default_modules_partial",
    "C97_default_import_partial"
   ],
   "note": "Refuted: with suppress(ImportError): import gone (the edge is not optional, the run goes on); and without such statements: c imports m and then gone, m imports c, the script has try: import c except ImportError: pass and then import m (m stays loaded). Proved for all runs of all programs whose imports in loops, with and match statements and except* blocks are in functions or if statements, for runs where no module fails that others imported while it was being loaded. C97_modules_partial: no run, of whatever script and outcome, has a module loaded without what it needs; C97_import_partial: the same for importing a module. Excludes are the only configuration; modules have source or are not Python code; no package uses pkgutil or pkg_resources namespaces; from lists have no name with a dot; nothing imports a script; without hooks (or, C97_default_*, with the built-in hooks and no SWIG wrappers or mypyc modules), six.moves or vendored aliases."
  },
  {
   "property": "C98",
   "status": "partial",
   "theorems": [
    "C98_refuted",
    "C98_partial",
    "C98_module_partial",
    "C98_default_partial",
    "C98_default_module_partial"
   ],
   "note": "Refuted: package q has if ...: import json as name and a module q.name; from q import name in the script loads q.name when the condition does not hold, and the graph has json only. Proved for all runs of all programs under the conditions of C75 (orderly: no package imports something else under the name of its submodule, no import names a script or distribution, left over missing modules are not imported). Modules have source, have a code object only (compiled from what runs execute, see C71), or are not Python code. Modules are imported by import statements and from lists only (no importlib, no __all__); excluded and replaced modules are not there."
  },
  {
   "property": "C99",
   "status": "partial",
   "theorems": [
    "C99_refuted",
    "C99_partial",
    "C99_module_partial",
    "C99_default_partial",
    "C99_default_module_partial",
    "C99_more_partial",
    "C99_module_more_partial",
    "C99_default_more_partial",
    "C99_default_module_more_partial"
   ],
   "note": "Refuted by the program of C98: the full installation has a run that loads q.name, the copy has no module of that name. Proved for all runs of all programs, scripts and python -m, under the conditions of C75 (orderly) and with imports by statements as in C98. The _more_ theorems are for any part of the installation that has at least the modules of the graph."
  }
 ]
}