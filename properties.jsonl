{"id": "C01", "title": "Path strings survive the round trip through the path parser", "statement": "For every absolute path made of non-empty, slash-free components, turning it into the internal path form and printing it again gives the same path; a single trailing slash is ignored; two different such paths never become the same internal path.", "quantifier": "all absolute paths with any number of non-empty slash-free components", "why_tests_cant": "paths are an infinite set of strings; tests only try a handful of literals and cannot show injectivity", "anchors": ["conda_recipe_manager/parser/_utils.py:str_to_stack_path", "conda_recipe_manager/parser/_utils.py:stack_path_to_str"]}
{"id": "C02", "title": "append_to_path joins two paths with exactly one slash", "statement": "append_to_path(base, ext) addresses the components of base followed by the components of ext whatever combination of leading/trailing slashes is used, and an empty base means the document root.", "quantifier": "all base and extension strings", "why_tests_cant": "every combination of slash placement and component content matters", "anchors": ["conda_recipe_manager/parser/recipe_reader.py:RecipeReader.append_to_path"]}
{"id": "C03", "title": "Every listed value path can be looked up", "statement": "For every recipe whose keys are plain strings (non-empty, no slash, not numeric, unique among siblings) and which is not empty, each path returned by list_value_paths is accepted by contains_value and get_value; one path is listed per terminal value, in document order.", "quantifier": "all recipe trees of any shape and depth that satisfy the key conditions", "why_tests_cant": "tree shapes, depths and comment placements are unbounded", "anchors": ["conda_recipe_manager/parser/recipe_reader.py:RecipeReader.list_value_paths", "conda_recipe_manager/parser/recipe_reader.py:RecipeReader.contains_value", "conda_recipe_manager/parser/_traverse.py:traverse", "conda_recipe_manager/parser/_traverse.py:traverse_all"]}
{"id": "C04", "title": "Comment-only lines never influence addressing", "statement": "Removing (or adding) comment-only lines anywhere in a recipe changes neither which paths exist nor which element each path addresses, and does not change the list of value paths.", "quantifier": "all recipes, all placements of comment lines, all paths", "why_tests_cant": "the number of placements of comment lines is unbounded", "anchors": ["conda_recipe_manager/parser/_traverse.py:remap_child_indices_virt_to_phys", "conda_recipe_manager/parser/_traverse.py:traverse", "conda_recipe_manager/parser/_traverse.py:traverse_all"]}
{"id": "C05", "title": "A list index addresses exactly the i-th non-comment element", "statement": "Path /.../i finds the i-th element of a list counting only non-comment lines, finds nothing when i is out of range or the parent is not a list, and never addresses a comment; translating element positions to line positions and back is the identity.", "quantifier": "all child lists, all indices", "why_tests_cant": "off-by-one errors appear only for particular interleavings of comments and elements", "anchors": ["conda_recipe_manager/parser/_traverse.py:remap_child_indices_virt_to_phys", "conda_recipe_manager/parser/_traverse.py:remap_child_indices_phys_to_virt", "conda_recipe_manager/parser/_traverse.py:_traverse_recurse"]}
{"id": "C06", "title": "get_value agrees with contains_value", "statement": "get_value without a default reports a missing key exactly when contains_value is false; with a default it returns that very default in exactly those cases and never otherwise consults it.", "quantifier": "all recipes, all non-empty paths, all defaults, all behaviours of the YAML library", "why_tests_cant": "agreement of two lookups over every path and tree", "anchors": ["conda_recipe_manager/parser/recipe_reader.py:RecipeReader.get_value", "conda_recipe_manager/parser/recipe_reader.py:RecipeReader.contains_value"]}
{"id": "C07", "title": "find_value returns exactly the matching terminal values", "statement": "find_value(v) lists, in document order, exactly the terminal values that have the same type as v and are equal to v (booleans are never confused with integers); for v = null it also lists exactly the empty keys.", "quantifier": "all recipes, all primitive values", "why_tests_cant": "soundness and completeness over every tree", "anchors": ["conda_recipe_manager/parser/recipe_reader.py:RecipeReader.find_value", "conda_recipe_manager/parser/_traverse.py:traverse_all"]}
{"id": "C08", "title": "De-duplicated path lists keep first appearances", "statement": "The lists returned by get_selector_paths and get_variable_references contain no duplicates, contain exactly the collected paths, and keep the order of first appearance.", "quantifier": "all lists", "why_tests_cant": "a permutation/duplication bug shows only on particular inputs", "anchors": ["conda_recipe_manager/parser/_utils.py:dedupe_and_preserve_order", "conda_recipe_manager/parser/recipe_reader.py:RecipeReader.get_variable_references", "conda_recipe_manager/parser/recipe_reader.py:RecipeReader.get_selector_paths"]}
{"id": "C09", "title": "A JSON-patch test operation never changes the recipe", "statement": "Running patch with op test never changes the tree, variables, selector table or the modified flag, and returns True exactly when the value read at the path equals the given value.", "quantifier": "all recipes, paths, values", "why_tests_cant": "purity over all states", "anchors": ["conda_recipe_manager/parser/recipe_parser.py:RecipeParser.patch", "conda_recipe_manager/parser/recipe_parser.py:RecipeParser._patch_test"]}
{"id": "C10", "title": "A failed add, remove, replace, copy or test leaves the recipe exactly as it was", "statement": "If patch returns False, or fails with an exception, for op add, remove, replace, copy or test, then the whole recipe state (text, variables, selectors, modified flag) is unchanged.", "quantifier": "all recipes, all patches with those operations", "why_tests_cant": "every failing path through the code for every tree", "anchors": ["conda_recipe_manager/parser/recipe_parser.py:RecipeParser.patch", "conda_recipe_manager/parser/recipe_parser.py:RecipeParser._patch_add", "conda_recipe_manager/parser/recipe_parser.py:RecipeParser._patch_remove", "conda_recipe_manager/parser/recipe_parser.py:RecipeParser._patch_replace", "conda_recipe_manager/parser/recipe_parser.py:RecipeParser._patch_copy"]}
{"id": "C11", "title": "A failed move loses nothing", "statement": "If patch with op move returns False or raises, the recipe is unchanged.", "quantifier": "all recipes, all move patches", "why_tests_cant": "needs every pair of source and destination paths on every tree", "anchors": ["conda_recipe_manager/parser/recipe_parser.py:RecipeParser._patch_move"]}
{"id": "C12", "title": "remove deletes exactly the addressed element", "statement": "A successful remove deletes exactly the element addressed by the path and nothing else: its siblings, including comment lines, keep their order and content, everything outside its parent is identical, and (with unique sibling keys) a removed key is afterwards not found.", "quantifier": "all recipes, all paths for which remove succeeds", "why_tests_cant": "frame conditions quantify over the whole rest of the tree", "anchors": ["conda_recipe_manager/parser/recipe_parser.py:RecipeParser._patch_remove"]}
{"id": "C13", "title": "replace substitutes exactly the addressed element", "statement": "A successful replace keeps every other element: a replaced key keeps its name, comment and position and gets the new content; a replaced list element is substituted in place, all other elements keep position and content, and the tree outside the target is identical.", "quantifier": "all recipes, paths and values for which replace succeeds", "why_tests_cant": "frame conditions quantify over the whole rest of the tree", "anchors": ["conda_recipe_manager/parser/recipe_parser.py:RecipeParser._patch_replace", "conda_recipe_manager/parser/_traverse.py:traverse_with_index"]}
{"id": "C14", "title": "add follows the JSON-patch rules for keys, indices and the dash", "statement": "A successful add to a missing key of an existing object appends exactly one new key; to an existing key overwrites its content; with a list index of a plain element inserts before that element and shifts the rest by one; with '-' appends at the end; nothing else changes.", "quantifier": "all recipes, paths and values for which add succeeds", "why_tests_cant": "case analysis over path shape times all trees; frame conditions", "anchors": ["conda_recipe_manager/parser/recipe_parser.py:RecipeParser._patch_add", "conda_recipe_manager/parser/recipe_parser.py:RecipeParser._patch_add_find_target"]}
{"id": "C15", "title": "copy never alters its source and equals adding the value read there", "statement": "copy behaves exactly like reading the source value and adding it at the destination; if the source is missing it returns False without change.", "quantifier": "all recipes and pairs of paths", "why_tests_cant": "equivalence of two operations on all states", "anchors": ["conda_recipe_manager/parser/recipe_parser.py:RecipeParser._patch_copy"]}
{"id": "C16", "title": "move is remove followed by add of the value read before; a move onto itself is a no-op", "statement": "A successful move yields exactly the state obtained by reading the source, removing it, then adding the value; when source and destination are the same string nothing changes and the modified flag is not set.", "quantifier": "all recipes and pairs of paths", "why_tests_cant": "equivalence on all states", "anchors": ["conda_recipe_manager/parser/recipe_parser.py:RecipeParser._patch_move", "conda_recipe_manager/parser/recipe_parser.py:RecipeParser.patch"]}
{"id": "C17", "title": "patch answers with a boolean for every valid patch", "statement": "For every patch that conforms to the JSON-patch schema, patch returns True or False rather than failing with an unrelated exception such as an index error.", "quantifier": "all recipes, all schema-conforming patches", "why_tests_cant": "absence of exceptions over all inputs", "anchors": ["conda_recipe_manager/parser/recipe_parser.py:RecipeParser.patch", "conda_recipe_manager/parser/_traverse.py:traverse_with_index", "conda_recipe_manager/parser/_utils.py:str_to_stack_path"]}
{"id": "C18", "title": "The modified flag and diff tell the truth over any history", "statement": "After any sequence of editing calls (other than move): if is_modified is false then the recipe text, variables and tree are identical to the freshly parsed ones and diff is empty; the flag is set exactly when some edit succeeded and never returns to false.", "quantifier": "all recipes, all finite sequences of edits", "why_tests_cant": "quantifies over all histories", "anchors": ["conda_recipe_manager/parser/recipe_parser.py:RecipeParser.patch", "conda_recipe_manager/parser/recipe_parser.py:RecipeParser.set_variable", "conda_recipe_manager/parser/recipe_parser.py:RecipeParser.del_variable", "conda_recipe_manager/parser/recipe_parser.py:RecipeParser.add_selector", "conda_recipe_manager/parser/recipe_parser.py:RecipeParser.remove_selector", "conda_recipe_manager/parser/recipe_parser.py:RecipeParser.add_comment", "conda_recipe_manager/parser/recipe_parser.py:RecipeParser.diff"]}
{"id": "C19", "title": "Selector queries reflect the current document after any history", "statement": "After any sequence of patches and selector edits, list_selectors, contains_selector and get_selector_paths agree with the selectors actually present in the comments of the current document, in document order.", "quantifier": "all recipes, all finite sequences of edits", "why_tests_cant": "quantifies over all histories", "anchors": ["conda_recipe_manager/parser/recipe_reader.py:RecipeReader._rebuild_selectors", "conda_recipe_manager/parser/recipe_parser.py:RecipeParser.patch", "conda_recipe_manager/parser/recipe_parser.py:RecipeParser.add_selector", "conda_recipe_manager/parser/recipe_parser.py:RecipeParser.remove_selector"]}
{"id": "C20", "title": "Malformed patches are rejected before anything happens", "statement": "A payload that is not a valid JSON patch (unknown op, missing or extra fields, wrong types, empty path) is rejected with JsonPatchValidationException and the recipe is unchanged; a valid payload is never rejected that way.", "quantifier": "all JSON payloads and recipes", "why_tests_cant": "the payload space is infinite", "anchors": ["conda_recipe_manager/parser/recipe_parser.py:RecipeParser.patch", "conda_recipe_manager/parser/types.py:JSON_PATCH_SCHEMA"]}
{"id": "C21", "title": "search_and_patch applies the patch to the hits in order and stops at the first failure", "statement": "search_and_patch behaves like applying the patch to each found path in document order until one application fails; it returns True exactly when all applications succeeded; with no hit it returns True and changes nothing.", "quantifier": "all recipes, regular expressions and patches", "why_tests_cant": "sequences of hits are unbounded", "anchors": ["conda_recipe_manager/parser/recipe_parser.py:RecipeParser.search_and_patch"]}
{"id": "C22", "title": "Adding at the index of any list element inserts before it", "statement": "add with an in-range list index inserts the value before the element at that index and keeps all existing elements (RFC 6902).", "quantifier": "all recipes, lists, indices, values", "why_tests_cant": "depends on the kind of the element currently at the index", "anchors": ["conda_recipe_manager/parser/recipe_parser.py:RecipeParser._patch_add", "conda_recipe_manager/parser/_traverse.py:traverse_with_index"]}
{"id": "C23", "title": "A selector that was just set is the one reported", "statement": "After add_selector(path, s) in replace mode with s of the form [..] (no brackets or newlines inside), get_selector_at_path(path) returns s and contains_selector(s) holds; other lines keep their comments.", "quantifier": "all recipes, existing paths, well-formed selectors", "why_tests_cant": "read-after-write on all states", "anchors": ["conda_recipe_manager/parser/recipe_parser.py:RecipeParser.add_selector", "conda_recipe_manager/parser/recipe_reader.py:RecipeReader.get_selector_at_path"]}
{"id": "C24", "title": "Conflicting selectors are combined as text '[old op new]'", "statement": "In and/or mode an existing selector [a] and a new selector [b] become exactly [a and b] / [a or b]; an existing plain comment is kept after the new selector.", "quantifier": "all comments containing a selector, all new selectors", "why_tests_cant": "string manipulation over all comments", "anchors": ["conda_recipe_manager/parser/recipe_parser.py:RecipeParser.add_selector"]}
{"id": "C25", "title": "remove_selector removes the selector and only the selector", "statement": "remove_selector returns the selector that get_selector_at_path reported, afterwards no such selector is reported for the path, other lines and all values are unchanged; when there is none it returns None and changes nothing; a missing path raises KeyError without change.", "quantifier": "all recipes and paths", "why_tests_cant": "read-after-write and frame over all states", "anchors": ["conda_recipe_manager/parser/recipe_parser.py:RecipeParser.remove_selector"]}
{"id": "C26", "title": "add_comment never loses a selector", "statement": "If a line has a selector, then after add_comment (with a bracket-free comment) the line still reports the same selector and the new comment text follows it; blank comments and selectors-as-comments are rejected and change nothing.", "quantifier": "all recipes, paths, comments", "why_tests_cant": "all strings and trees", "anchors": ["conda_recipe_manager/parser/recipe_parser.py:RecipeParser.add_comment"]}
{"id": "C27", "title": "Selector and comment edits never touch values", "statement": "add_selector, remove_selector and add_comment never change any value, key, or path of the recipe: with comments erased the tree is identical before and after.", "quantifier": "all recipes, paths, arguments", "why_tests_cant": "frame over the whole tree", "anchors": ["conda_recipe_manager/parser/recipe_parser.py:RecipeParser.add_selector", "conda_recipe_manager/parser/recipe_parser.py:RecipeParser.remove_selector", "conda_recipe_manager/parser/recipe_parser.py:RecipeParser.add_comment"]}
{"id": "C28", "title": "Selector path queries are repeatable", "statement": "Calling get_selector_paths twice in a row gives the same answer; it is a read-only operation.", "quantifier": "all recipes and selectors", "why_tests_cant": "purity over all states; the tests never ask twice without an edit in between", "anchors": ["conda_recipe_manager/parser/recipe_reader.py:RecipeReader.get_selector_paths", "conda_recipe_manager/parser/_utils.py:stack_path_to_str"]}
{"id": "C29", "title": "Selector listing is complete and ordered", "statement": "On a freshly parsed or patched recipe, list_selectors lists without duplicates, in order of first appearance, exactly the selectors occurring in comments; contains_selector(s) is true exactly for those; get_selector_paths(s) is non-empty exactly for those.", "quantifier": "all recipes", "why_tests_cant": "soundness and completeness over all trees", "anchors": ["conda_recipe_manager/parser/recipe_reader.py:RecipeReader.list_selectors", "conda_recipe_manager/parser/recipe_reader.py:RecipeReader.contains_selector", "conda_recipe_manager/parser/recipe_reader.py:RecipeReader.get_selector_paths"]}
{"id": "C30", "title": "The comments table reports comments without selectors", "statement": "get_comments_table never reports a comment that still contains a selector bracket pair, never reports an empty comment, every reported comment starts with '#', and only lines with a comment are reported.", "quantifier": "all recipes", "why_tests_cant": "all comment strings", "anchors": ["conda_recipe_manager/parser/recipe_reader.py:RecipeReader.get_comments_table"]}
{"id": "C31", "title": "Selector evaluation is set algebra over the known platforms", "statement": "For every well-formed selector (operands joined by and/or, each optionally negated) the selected platforms are computed by intersection/union/complement with right grouping; the result is always a subset of all platforms and unknown words select nothing.", "quantifier": "all well-formed selector token sequences of any length", "why_tests_cant": "expressions are unbounded", "anchors": ["conda_recipe_manager/parser/selector_parser.py:SelectorParser"]}
{"id": "C32", "title": "Selector evaluation respects the usual precedence of and over or", "statement": "The platforms selected by an expression are those for which the expression is true under Python precedence (and binds tighter than or).", "quantifier": "all well-formed selectors", "why_tests_cant": "needs a semantic comparison on all expressions; existing tests fix only a few", "anchors": ["conda_recipe_manager/parser/selector_parser.py:SelectorParser._parse_selector_tree"]}
{"id": "C33", "title": "Combining selectors with and/or combines their meaning", "statement": "After add_selector in and/or mode, the combined selector selects the intersection/union of what the old and the new one select.", "quantifier": "all pairs of well-formed selectors", "why_tests_cant": "semantic statement about all expressions", "anchors": ["conda_recipe_manager/parser/recipe_parser.py:RecipeParser.add_selector", "conda_recipe_manager/parser/selector_parser.py:SelectorParser.get_selected_platforms"]}
{"id": "C34", "title": "Platform tables are consistent", "statement": "linux, osx and win partition the set of all platforms; unix is exactly linux plus osx; every platform name selects exactly itself; every architecture selects a subset of all platforms.", "quantifier": "all platforms, operating systems and architectures", "why_tests_cant": "cross-table consistency of every entry", "anchors": ["conda_recipe_manager/parser/platform_types.py:get_platforms_by_os", "conda_recipe_manager/parser/platform_types.py:get_platforms_by_arch"]}
{"id": "C35", "title": "does_selector_apply is membership of the query platform", "statement": "does_selector_apply(q) is true exactly when q has no platform or q's platform is among the selected platforms; negation flips the answer for every platform.", "quantifier": "all selectors and queries", "why_tests_cant": "all expressions", "anchors": ["conda_recipe_manager/parser/selector_parser.py:SelectorParser.does_selector_apply"]}
{"id": "C36", "title": "Rendering a selector and parsing it back preserves equality", "statement": "SelectorParser(sp.render(), V0) equals sp and selects the same platforms, whatever the original whitespace.", "quantifier": "all bracketed selector texts", "why_tests_cant": "all strings", "anchors": ["conda_recipe_manager/parser/selector_parser.py:SelectorParser.render", "conda_recipe_manager/parser/selector_parser.py:SelectorParser.__init__"]}
{"id": "C37", "title": "Jinja variables behave as an insertion-ordered map", "statement": "set_variable/del_variable/get_variable/contains_variable/list_variables behave as a map keyed by name over any history: last write wins, deletion forgets, other variables are unaffected, list order is order of first set.", "quantifier": "all histories of variable edits", "why_tests_cant": "quantifies over all histories", "anchors": ["conda_recipe_manager/parser/recipe_parser.py:RecipeParser.set_variable", "conda_recipe_manager/parser/recipe_parser.py:RecipeParser.del_variable", "conda_recipe_manager/parser/recipe_reader.py:RecipeReader.get_variable", "conda_recipe_manager/parser/recipe_reader.py:RecipeReader.list_variables", "conda_recipe_manager/parser/recipe_reader.py:RecipeReader.contains_variable"]}
{"id": "C38", "title": "Setting a variable is visible in the rendered recipe", "statement": "After set_variable(v, x) the rendered recipe text defines v as x (one definition line per variable, in table order).", "quantifier": "all recipes, variables, values", "why_tests_cant": "all recipes of both schema versions", "anchors": ["conda_recipe_manager/parser/recipe_parser.py:RecipeParser.set_variable", "conda_recipe_manager/parser/recipe_reader.py:RecipeReader.render"]}
{"id": "C39", "title": "Rendering and re-parsing a recipe reproduces its tree", "statement": "For every recipe tree in the canonical form produced by the parser, splitting the rendered text into lines and parsing it again yields the same tree: nesting, order, comments and list structure are preserved.", "quantifier": "all canonical trees of any size and depth, all line contents, any YAML library that parses each rendered line back to its own content", "why_tests_cant": "all trees", "anchors": ["conda_recipe_manager/parser/recipe_reader.py:RecipeReader.__init__", "conda_recipe_manager/parser/recipe_reader.py:RecipeReader._render_tree"]}
{"id": "C40", "title": "A recipe may end with a multiline value", "statement": "Any recipe text whose last value is a multiline block can be parsed.", "quantifier": "all recipe texts", "why_tests_cant": "boundary condition at end of file", "anchors": ["conda_recipe_manager/parser/recipe_reader.py:RecipeReader.__init__"]}
{"id": "C41", "title": "Rendering is stable", "statement": "Parsing the rendered text and rendering again gives the identical text (formatting reaches a fixed point after one pass).", "quantifier": "all recipe texts that parse", "why_tests_cant": "fixed-point property on all documents", "anchors": ["conda_recipe_manager/parser/recipe_reader.py:RecipeReader.render", "conda_recipe_manager/parser/recipe_reader.py:RecipeReader.__init__"]}
{"id": "C42", "title": "Quoted strings are decoded back to the original", "statement": "Whenever rendering quotes a string, the quoted form is one line, starts and ends with a double quote, and decodes (as JSON) to exactly the original string; strings that are not quoted are printed verbatim.", "quantifier": "all strings", "why_tests_cant": "escaping over all character sequences", "anchors": ["conda_recipe_manager/parser/_utils.py:quote_special_strings", "conda_recipe_manager/parser/_utils.py:stringify_yaml"]}
{"id": "C43", "title": "Jinja markers are re-injected in order", "statement": "Substituting n markers in a text with n original Jinja expressions puts the i-th expression at the i-th marker and leaves the rest of the text alone, provided the expressions contain no marker; the loop always terminates.", "quantifier": "all strings and substitution lists", "why_tests_cant": "all strings; termination", "anchors": ["conda_recipe_manager/parser/_utils.py:substitute_markers"]}
{"id": "C44", "title": "Canonical key sorting is a stable permutation", "statement": "Sorting a section keeps exactly the same lines (no key or comment lost or duplicated), puts comments first, known keys in canonical order, unknown keys last, preserves relative order of equal-priority lines, and sorting twice changes nothing.", "quantifier": "all sections and priority tables", "why_tests_cant": "all permutations", "anchors": ["conda_recipe_manager/parser/recipe_parser.py:RecipeParser._sort_subtree_keys", "conda_recipe_manager/parser/recipe_reader.py:RecipeReader._canonical_sort_keys_comparison"]}
{"id": "C45", "title": "Recipe equality and hash are determined by the rendered text", "statement": "Two recipes compare equal exactly when they have the same schema version and render to the same text; equal recipes of equal schema have the same SHA-256; equality is an equivalence relation.", "quantifier": "all pairs of recipes", "why_tests_cant": "relational property over all pairs", "anchors": ["conda_recipe_manager/parser/recipe_reader.py:RecipeReader.__eq__", "conda_recipe_manager/parser/recipe_reader.py:RecipeReader.calc_sha256"]}
{"id": "C46", "title": "render_to_object agrees with the document", "statement": "render_to_object returns, for every recipe, the mapping/list/scalar structure the document denotes (empty keys are null, lists stay lists, comments vanish).", "quantifier": "all recipe trees", "why_tests_cant": "all shapes of trees", "anchors": ["conda_recipe_manager/parser/recipe_reader.py:RecipeReader.render_to_object", "conda_recipe_manager/parser/recipe_reader.py:RecipeReader._render_object_tree"]}
{"id": "C47", "title": "Dependency section names convert both ways", "statement": "For both schema versions every dependency section converts to a name and back to the same section; distinct sections never share a name, unless the schema has no name for it.", "quantifier": "all sections and schema versions", "why_tests_cant": "cross-table consistency", "anchors": ["conda_recipe_manager/parser/dependency.py:dependency_section_to_str", "conda_recipe_manager/parser/dependency.py:str_to_dependency_section"]}
{"id": "C48", "title": "add_dependency honours its conflict mode", "statement": "With conflict mode ignore, an existing dependency with the same package name makes add_dependency return False and leave the recipe unchanged; replace overwrites the line of the first such dependency and keeps the list length; use-both always appends; other dependencies keep value and order.", "quantifier": "all recipes, dependencies and modes", "why_tests_cant": "all section contents and orders", "anchors": ["conda_recipe_manager/parser/recipe_parser_deps.py:RecipeParserDeps.add_dependency"]}
{"id": "C49", "title": "Only dependency paths are accepted for dependency edits", "statement": "add_dependency and remove_dependency change nothing and return False unless the path is a requirements path of the top level or of an existing-style output.", "quantifier": "all paths", "why_tests_cant": "all strings", "anchors": ["conda_recipe_manager/parser/recipe_parser_deps.py:RecipeParserDeps._is_valid_dependency_path", "conda_recipe_manager/parser/recipe_parser_deps.py:RecipeParserDeps.remove_dependency"]}
{"id": "C50", "title": "Top-level requirements reach every output", "statement": "In a multi-output recipe, each output's dependency list contains all of the output's own dependencies and every top-level dependency, nothing else; the root package is listed with its own dependencies.", "quantifier": "all dependency tables", "why_tests_cant": "all combinations of outputs and dependencies", "anchors": ["conda_recipe_manager/parser/recipe_reader_deps.py:RecipeReaderDeps._add_top_level_dependencies", "conda_recipe_manager/parser/recipe_reader_deps.py:RecipeReaderDeps.get_all_dependencies"]}
{"id": "C51", "title": "A build-config lookup returns the first applicable entry", "statement": "get_cbc_variable_value returns the value of the first entry, in file order, whose selector applies to the query (entries without selector always apply); it fails if the variable is unknown or nothing applies; with a default it never fails.", "quantifier": "all config tables and queries", "why_tests_cant": "all tables and platforms", "anchors": ["conda_recipe_manager/parser/cbc_parser.py:CbcParser.get_cbc_variable_value"]}
{"id": "C52", "title": "The dependency graph covers exactly the known packages", "statement": "After building the recipe graph each package name maps to the first recipe that defines it; later definitions are recorded as duplicates and contribute no edges; an edge means that the owning recipe lists that dependency in the right section and both ends carry package names.", "quantifier": "all sets and orders of recipes", "why_tests_cant": "all collections of recipes", "anchors": ["conda_recipe_manager/grapher/recipe_graph.py:RecipeGraph.__init__"]}
{"id": "C53", "title": "Recipe graph statistics add up", "statement": "The number of packages equals the number of distinct package names; recipes counted as total are parsed recipes plus failed ones; every failed recipe is counted once.", "quantifier": "all sets and orders of recipes", "why_tests_cant": "counting over all collections", "anchors": ["conda_recipe_manager/grapher/recipe_graph.py:RecipeGraph.__init__", "conda_recipe_manager/grapher/types.py:PackageStats", "conda_recipe_manager/grapher/recipe_graph_from_disk.py:RecipeGraphFromDisk.__init__"]}
{"id": "C54", "title": "Fetcher accessors are unusable before a successful fetch", "statement": "For any sequence of fetch attempts and accessor calls, accessors raise FetchRequiredError until some fetch succeeded and never afterwards.", "quantifier": "all histories of fetch outcomes and calls", "why_tests_cant": "all histories", "anchors": ["conda_recipe_manager/fetcher/base_artifact_fetcher.py:BaseArtifactFetcher._fetch_guard", "conda_recipe_manager/fetcher/http_artifact_fetcher.py:HttpArtifactFetcher", "conda_recipe_manager/fetcher/git_artifact_fetcher.py:GitArtifactFetcher"]}
{"id": "C55", "title": "A git fetch checks out the requested tag or revision", "statement": "After a successful fetch of a git source with a tag (or else a revision, or else a branch), the working copy is at that tag (or revision, or branch).", "quantifier": "all git targets and repositories", "why_tests_cant": "depends on which optional targets are present", "anchors": ["conda_recipe_manager/fetcher/git_artifact_fetcher.py:GitArtifactFetcher.fetch", "conda_recipe_manager/fetcher/git_artifact_fetcher.py:GitArtifactFetcher._resolve_checkout_target"]}
{"id": "C56", "title": "SHA-256 retrieval retries a bounded number of times", "statement": "Fetching a checksum makes at most five attempts, stops at the first success and returns that checksum, waits only between/after failures for a total bounded by 15 intervals, and otherwise reports a fetch error.", "quantifier": "all sequences of network outcomes", "why_tests_cant": "all failure schedules", "anchors": ["conda_recipe_manager/commands/bump_recipe.py:_get_sha256"]}
{"id": "C57", "title": "bump-recipe writes the file only on full success and never in dry-run", "statement": "bump-recipe writes the recipe file at most once, only after every step succeeded and only when not in dry-run; any failing step exits with an error code and leaves the file untouched.", "quantifier": "all recipes, flag combinations, step outcomes", "why_tests_cant": "all failure points", "anchors": ["conda_recipe_manager/commands/bump_recipe.py:bump_recipe"]}
{"id": "C58", "title": "Bumping the version resets the build number", "statement": "When a new target version is given, the resulting build number is 0; otherwise it is the previous number plus one.", "quantifier": "all recipes and flag combinations", "why_tests_cant": "combinations of flags and recipe contents", "anchors": ["conda_recipe_manager/commands/bump_recipe.py:_update_build_num", "conda_recipe_manager/commands/bump_recipe.py:bump_recipe"]}
{"id": "C59", "title": "The patch command applies all patches or none", "statement": "If any patch in the patch file fails, the recipe file on disk is unchanged and the exit code is an error.", "quantifier": "all recipes and patch lists", "why_tests_cant": "all failing positions in all lists", "anchors": ["conda_recipe_manager/commands/patch.py:patch"]}
{"id": "C60", "title": "Bulk conversion return codes keep the most severe outcome", "statement": "The final return code of a conversion is determined by severity: an exception code is never overwritten by a message code, errors outrank warnings, and no messages means success.", "quantifier": "all message tables and prior codes", "why_tests_cant": "all combinations", "anchors": ["conda_recipe_manager/commands/convert.py:ConversionResult.set_return_code"]}
{"id": "C61", "title": "Bulk conversion statistics add up", "statement": "In the bulk conversion report every file is counted in exactly one return-code bucket, and the totals (success, errors, warnings) equal the bucket sums.", "quantifier": "all lists of conversion results", "why_tests_cant": "counting over all lists", "anchors": ["conda_recipe_manager/commands/convert.py:convert"]}
{"id": "C62", "title": "License correction never invents identifiers", "statement": "find_closest_license_match returns None, a known SPDX identifier, or one of the fixed override values; an exact identifier is returned unchanged; compound expressions are never replaced by a single identifier.", "quantifier": "all license strings, all behaviours of the fuzzy matcher that picks from the offered candidates", "why_tests_cant": "all strings", "anchors": ["conda_recipe_manager/licenses/spdx_utils.py:SpdxUtils.find_closest_license_match"]}
{"id": "C63", "title": "Message tables count and keep messages in order", "statement": "For any sequence of additions, the messages of a category are exactly those added, in order; the count equals their number; other categories are unaffected; clearing empties all.", "quantifier": "all histories of additions and clears", "why_tests_cant": "all histories", "anchors": ["conda_recipe_manager/types.py:MessageTable"]}
{"id": "C64", "title": "Python dependency scan results are minimal", "statement": "A scan never reports standard-library or project-own modules, always reports python for host and run, reports nothing for tests that is already reported for run, and does not depend on the order in which files are visited.", "quantifier": "all collections of files and imports, all visiting orders", "why_tests_cant": "orders and sets are unbounded", "anchors": ["conda_recipe_manager/scanner/dependency/py_dep_scanner.py:PythonDependencyScanner"]}
{"id": "C65", "title": "V0 to V1 conversion of Python-version selectors", "statement": "Python version comparisons in selectors (py<37, py>=38, py==39 ...) are rewritten to match(python, ...) with the same operator and the version split after the major digit, and py2k/py3k to the documented ranges.", "quantifier": "all versions and operators", "why_tests_cant": "all digit strings", "anchors": ["conda_recipe_manager/parser/recipe_parser_convert.py:RecipeParserConvert._upgrade_selectors_to_conditionals", "conda_recipe_manager/parser/_types.py:Regex"]}
{"id": "C66", "title": "Selectors that compare equal are interchangeable", "statement": "Two selector parsers that compare equal select exactly the same platforms; equality is an equivalence relation, and texts that differ only in white space or in the case of operators and known platform names compare equal.", "quantifier": "all pairs of selector texts, well-formed or not", "why_tests_cant": "equality is decided on a debug string; whether that string determines the tree is a statement about all trees", "anchors": ["conda_recipe_manager/parser/selector_parser.py:SelectorParser.__eq__", "conda_recipe_manager/parser/selector_parser.py:_SelectorNode.__str__"]}
{"id": "C67", "title": "Totals message states the exact counts", "statement": "After any sequence of additions and clears the totals message names the exact numbers of errors and warnings, in the singular exactly for one, and it is empty exactly when nothing was logged since the last clear.", "quantifier": "all histories of additions and clears", "why_tests_cant": "all histories", "anchors": ["conda_recipe_manager/types.py:MessageTable.get_totals_message"]}
{"id": "C68", "title": "The full name of a license is recognised", "statement": "If the text is the full name of a license of the SPDX list (the last one with that name), find_closest_license_match returns its identifier.", "quantifier": "all license lists, all names, all fuzzy matchers that find an equal candidate", "why_tests_cant": "all names and lists", "anchors": ["conda_recipe_manager/licenses/spdx_utils.py:SpdxUtils.find_closest_license_match"]}
{"id": "C69", "title": "Checksum and archive type describe the fetched archive", "statement": "After a successful HTTP fetch the checksum is that of the downloaded file and the archive type is that of the downloaded file, until the next successful fetch.", "quantifier": "all fetch histories and outcomes of the outside world", "why_tests_cant": "histories and failures are unbounded", "anchors": ["conda_recipe_manager/fetcher/http_artifact_fetcher.py:HttpArtifactFetcher"]}
{"id": "C70", "title": "pyproject scan reports exactly the declared dependencies", "statement": "A scan of a project file reports each name in project.dependencies as a run dependency and each name in any optional group as a run constraint, each once, and nothing else; a missing or unreadable file and a missing project section give no dependencies and exactly one message.", "quantifier": "all project files, all equalities of match specifications that are equivalences", "why_tests_cant": "all project files", "anchors": ["conda_recipe_manager/scanner/dependency/pyproject_dep_scanner.py:PyProjectDependencyScanner.scan"]}
{"id": "C71", "title": "One fetcher per supported source", "statement": "from_recipe returns, in order, one fetcher per supported source of the recipe under the path of that source, an archive fetcher for a url and otherwise a git fetcher with its branch, tag and revision; an unsupported source is an error unless they are ignored.", "quantifier": "all recipes, both schema versions, single sources and lists", "why_tests_cant": "all recipes and source lists", "anchors": ["conda_recipe_manager/fetcher/artifact_fetcher.py:from_recipe", "conda_recipe_manager/fetcher/artifact_fetcher.py:_render_git_key"]}
{"id": "C72", "title": "A value that a patch sets is read back", "statement": "After a successful add or replace of a scalar at a key (existing, or added to a mapping), reading that path returns the value that the YAML reader gives for the written text.", "quantifier": "all recipes, paths and scalars that are written on one line", "why_tests_cant": "all recipes, paths and values", "anchors": ["conda_recipe_manager/parser/recipe_parser.py:RecipeParser.patch", "conda_recipe_manager/parser/recipe_reader.py:RecipeReader.get_value"]}
{"id": "C73", "title": "A patch leaves other places alone", "statement": "Whatever a patch does, succeeding or failing, every path that branches off from the patched paths at a different key, above their last component, leads to the same content as before.", "quantifier": "all patches, all recipes, all paths", "why_tests_cant": "all recipes and all pairs of paths", "anchors": ["conda_recipe_manager/parser/recipe_parser.py:RecipeParser.patch"]}
{"id": "C74", "title": "bump-recipe sets the version", "statement": "After a successful bump to a new version, the version variable, or the version of the package if there is no such variable, is read as the new version.", "quantifier": "all recipes and target versions", "why_tests_cant": "all recipes and versions", "anchors": ["conda_recipe_manager/commands/bump_recipe.py:_update_version"]}
{"id": "C75", "title": "bump-recipe sets the checksum of every archive", "statement": "After a successful update of the checksums, the checksum of every archive source is the one computed from that archive, in whichever order the downloads finish.", "quantifier": "all recipes, numbers of sources and orders of completion", "why_tests_cant": "completion orders and source lists", "anchors": ["conda_recipe_manager/commands/bump_recipe.py:_update_sha256", "conda_recipe_manager/commands/bump_recipe.py:_update_sha256_check_hash_var"]}
{"id": "C76", "title": "The success threshold decides the exit code of bulk commands", "statement": "The bulk commands exit with success if and only if the ratio of successes to files is at least the requested minimum.", "quantifier": "all numbers of files and successes, all thresholds", "why_tests_cant": "all numbers", "anchors": ["conda_recipe_manager/commands/convert.py:convert", "conda_recipe_manager/commands/rattler_bulk_build.py:rattler_bulk_build"]}
{"id": "C77", "title": "Bulk build statistics add up", "statement": "In the report of rattler-bulk-build every recipe counts as success or as error, as its exit code says; the error list names exactly the failing recipes and the histogram counts every error message; without files the command says so.", "quantifier": "all lists of recipes and outcomes of their builds", "why_tests_cant": "counting over all lists", "anchors": ["conda_recipe_manager/commands/rattler_bulk_build.py:rattler_bulk_build", "conda_recipe_manager/commands/rattler_bulk_build.py:build_recipe"]}
{"id": "C78", "title": "Conversion proceeds by patches, and refused patches are reported", "statement": "Converting a recipe changes it only by patches, removal of selectors and sorting; every patch that is refused is reported as an error, in order, and no message is lost, whether the conversion succeeds or raises.", "quantifier": "all recipes, message tables and external tools", "why_tests_cant": "all recipes and all of the many branches of the converter", "anchors": ["conda_recipe_manager/parser/recipe_parser_convert.py:RecipeParserConvert.render_to_v1_recipe_format", "conda_recipe_manager/parser/recipe_parser_convert.py:RecipeParserConvert._patch_and_log"]}
{"id": "C79", "title": "The converted recipe is a V1 recipe in canonical order", "statement": "After conversion the recipe has the new schema version, the text is its rendering, the top-level sections are in canonical order, and its variables are the entries of its context section.", "quantifier": "all recipes", "why_tests_cant": "all recipes", "anchors": ["conda_recipe_manager/parser/recipe_parser_convert.py:RecipeParserConvert.render_to_v1_recipe_format"]}
{"id": "C80", "title": "Variables become entries of the context section", "statement": "Every variable with a supported type gets a context entry of the same name and value, computed values marked as expressions; the others are reported, and so is a context section that cannot be added.", "quantifier": "all recipes and variable tables", "why_tests_cant": "all values, including all texts that look like computations", "anchors": ["conda_recipe_manager/parser/recipe_parser_convert.py:RecipeParserConvert._upgrade_jinja_to_context_obj"]}
{"id": "C81", "title": "Tests are split without losing any", "statement": "Splitting a test section gives a python test, a downstream test and one for the rest, each only if there is something to test; together they hold exactly the entries of the section.", "quantifier": "all test sections", "why_tests_cant": "all mappings", "anchors": ["conda_recipe_manager/parser/recipe_parser_convert.py:RecipeParserConvert._upgrade_test_section"]}
{"id": "C82", "title": "The environment of build scripts is converted entry by entry", "statement": "Entries NAME=VALUE become settings, the last one for a name counting; entries without value become secrets, in order, also if they are conditional; every other entry is reported as an error.", "quantifier": "all lists of texts and conditionals", "why_tests_cant": "all texts", "anchors": ["conda_recipe_manager/parser/recipe_parser_convert.py:RecipeParserConvert._upgrade_build_script_section"]}
{"id": "C83", "title": "Lost comments are reported", "statement": "A comment of the old recipe whose place does not exist in the new one is reported, once and in order, and nothing else is; no comment is lost silently.", "quantifier": "all comment tables and recipes", "why_tests_cant": "all recipes", "anchors": ["conda_recipe_manager/parser/recipe_parser_convert.py:RecipeParserConvert.render_to_v1_recipe_format"]}
{"id": "C84", "title": "Expression markers are converted once", "statement": "Every opening marker of an expression becomes the marker of the new format, those that already are stay, and converting again changes nothing.", "quantifier": "all texts with any number of markers", "why_tests_cant": "all texts", "anchors": ["conda_recipe_manager/parser/recipe_parser_convert.py:RecipeParserConvert._upgrade_jinja_to_context_obj", "conda_recipe_manager/parser/_types.py:Regex.JINJA_REPLACE_V0_STARTING_MARKER"]}
{"id": "C85", "title": "Pin arguments are renamed", "statement": "Every min_pin= becomes lower_bound= and every max_pin= becomes upper_bound=; the text between them is kept.", "quantifier": "all texts", "why_tests_cant": "all texts", "anchors": ["conda_recipe_manager/parser/recipe_parser_convert.py:RecipeParserConvert.pre_process_recipe_text"]}
{"id": "C86", "title": "Pre-processing leaves other texts alone", "statement": "A text without any of the idioms that are rewritten (calls after a dot, empty parentheses after a filter, line breaks in quotes, pins, environ lookups, hash type variables) is returned unchanged.", "quantifier": "all texts", "why_tests_cant": "all texts", "anchors": ["conda_recipe_manager/parser/recipe_parser_convert.py:RecipeParserConvert.pre_process_recipe_text", "conda_recipe_manager/parser/recipe_parser.py:RecipeParser.pre_process_remove_hash_type"]}
{"id": "C87", "title": "Environment lookups are converted", "statement": "Every environ lookup in an expression becomes a call of env.get with the same quotes and name, and the text between them is kept.", "quantifier": "all texts with any number of lookups", "why_tests_cant": "all texts", "anchors": ["conda_recipe_manager/parser/recipe_parser_convert.py:RecipeParserConvert.pre_process_recipe_text", "conda_recipe_manager/parser/_types.py:Regex.PRE_PROCESS_ENVIRON"]}
{"id": "C88", "title": "Parsed documents are well formed", "statement": "In every document the parser builds, keys are scalars, a line without value and without lines below it is a comment and no list element, list elements without value begin with a line that is no comment, comments start with a hash sign and have one line, and no mapping has a key twice.", "quantifier": "all texts, all YAML libraries (for the last part: those that return dictionaries)", "why_tests_cant": "parser bugs show up for particular interleavings of indentation, comments and list elements; tests parse a fixed set of recipes", "anchors": ["conda_recipe_manager/parser/recipe_reader.py:RecipeReader.__init__", "conda_recipe_manager/parser/recipe_reader.py:RecipeReader._parse_line_node"]}
{"id": "C89", "title": "Edits keep documents well formed", "statement": "After any sequence of edits of a parsed recipe no mapping has a key twice, so removing never raises and removes exactly the addressed line; and if no edit empties a list element or writes a value as nothing or as a comment, the document stays well formed.", "quantifier": "all texts, all finite sequences of patches, variable, selector and comment edits", "why_tests_cant": "quantifies over all histories of edits; a test replays a few", "anchors": ["conda_recipe_manager/parser/recipe_parser.py:RecipeParser.patch", "conda_recipe_manager/parser/recipe_parser.py:RecipeParser.add_selector", "conda_recipe_manager/parser/recipe_parser.py:RecipeParser.remove_selector", "conda_recipe_manager/parser/recipe_parser.py:RecipeParser.add_comment"]}
{"id": "C90", "title": "The dependency paths are those of the members of the requirement sections", "statement": "When get_dependency_paths answers, its list holds exactly the paths `<scope>/requirements/<section>/<i>` where the scope is the top level or a member of /outputs, the section is build, host, run or the constraints section under the name of the recipe's schema, and i is the index of a member of the value read there; no path occurs twice and every one has the form that add_dependency accepts.  (That every path leads to a line is false: a section that is one text or empty is counted by characters.)", "quantifier": "all recipes (arbitrary trees) and all behaviours of the YAML library, for which the function does not raise", "why_tests_cant": "tests look at a few recipes with well-formed lists; missing outputs, sections of other shapes and repeated paths need arbitrary trees", "anchors": ["conda_recipe_manager/parser/recipe_reader.py:RecipeReader.get_dependency_paths"]}
{"id": "C91", "title": "The selector step turns exactly the conditional lines into conditions", "statement": "For every document whose keys can be addressed and whose replacement values can be written, the selector step of the V0-to-V1 conversion succeeds and: every list element that carries a selector becomes, at its place, an if/then element with the translated condition and its old value (a truth value becomes a conditional text instead); every key whose only value is a truth value with a selector gets the translated condition (the bare expression for build/skip, a conditional text elsewhere), and its comment keeps everything but the selector; every other line keeps its value, comment, kind and number of lines below; variables and schema stay; and the only messages added are one warning per remaining value with a selector, in the order of the selector table.", "quantifier": "for all documents (any size, any number of selectors, any sharing of selectors between lines), all library behaviours that can write the replacement values, and all earlier messages", "why_tests_cant": "The step edits the tree while it walks through a table of paths that was built before the first edit; that no edit invalidates a later path, hits the wrong line or touches a third line depends on every combination of selectors, comments and list positions.", "anchors": ["conda_recipe_manager/parser/recipe_parser_convert.py:RecipeParserConvert._upgrade_selectors_to_conditionals", "conda_recipe_manager/parser/recipe_parser.py:RecipeParser.remove_selector", "conda_recipe_manager/parser/recipe_parser.py:RecipeParser.patch", "conda_recipe_manager/parser/_traverse.py:traverse"]}
{"id": "C92", "title": "Misspelled names of common fields are corrected and nothing else changes", "statement": "If the step that corrects common misspellings reports no error, then for the recipe and each given output in turn exactly these keys are renamed if they are present: skipt, skips and Skip in the build section to skip, and extras to extra; a rename takes out the first line of that name and puts its value under the new name (replacing the line of that name or as last key of the same mapping); all else stays.", "quantifier": "for all documents, all lists of base paths, all library behaviours that read texts as proper values, and all earlier messages", "why_tests_cant": "The section is edited by a chain of patches, each of which finds its place by a path in the tree left by the patches before; whether no patch hits a wrong place depends on the shape of the document (lists, comments, empty keys, keys already present) and on every combination of fields present.", "anchors": ["conda_recipe_manager/parser/recipe_parser_convert.py:RecipeParserConvert._correct_common_misspellings", "conda_recipe_manager/parser/recipe_parser_convert.py:RecipeParserConvert._patch_move_base_path", "conda_recipe_manager/parser/recipe_parser_convert.py:RecipeParserConvert._patch_and_log"]}
{"id": "C93", "title": "Source fields get their new names, in each source of a list", "statement": "If the source step reports no error then for each base path that has a source section, for each source (the mapping itself, or each element of the list in order), a warning is added if it is a subversion or mercurial source, the old field names (fn, folder, git_url, git_tag, git_rev, git_depth) are renamed to the new ones in this order, and the fields are put in the order of the new format; all else stays.", "quantifier": "for all documents, all lists of base paths, all library behaviours that read texts as proper values, and all earlier messages", "why_tests_cant": "The section is edited by a chain of patches, each of which finds its place by a path in the tree left by the patches before; whether no patch hits a wrong place depends on the shape of the document (lists, comments, empty keys, keys already present) and on every combination of fields present.", "anchors": ["conda_recipe_manager/parser/recipe_parser_convert.py:RecipeParserConvert._upgrade_source_section", "conda_recipe_manager/parser/recipe_parser_convert.py:RecipeParserConvert._patch_move_base_path"]}
{"id": "C94", "title": "The build and requirements sections are upgraded field by field", "statement": "If the build step reports no error then at each base path with a build section, in this order: run_exports and ignore_run_exports move to requirements, two fields are renamed, seven fields move into the sub-sections python, prefix_detection and dynamic_linking, script and script_env become a script with env, secrets and content (each entry NAME=VALUE an env key, each bare NAME a secret), the fields that are no longer supported are removed with a warning each, and the fields are put in the order of the new format; all else stays. The requirements step renames run_constrained to run_constraints.", "quantifier": "for all documents, all lists of base paths, all library behaviours that read texts as proper values, and all earlier messages", "why_tests_cant": "The section is edited by a chain of patches, each of which finds its place by a path in the tree left by the patches before; whether no patch hits a wrong place depends on the shape of the document (lists, comments, empty keys, keys already present) and on every combination of fields present.", "anchors": ["conda_recipe_manager/parser/recipe_parser_convert.py:RecipeParserConvert._upgrade_build_section", "conda_recipe_manager/parser/recipe_parser_convert.py:RecipeParserConvert._upgrade_build_script_section", "conda_recipe_manager/parser/recipe_parser_convert.py:RecipeParserConvert._upgrade_requirements_section", "conda_recipe_manager/parser/recipe_parser_convert.py:RecipeParserConvert._patch_move_new_path", "conda_recipe_manager/parser/recipe_parser_convert.py:RecipeParserConvert._patch_deprecated_fields", "conda_recipe_manager/parser/recipe_parser_convert.py:RecipeParserConvert._patch_add_missing_path"]}
{"id": "C95", "title": "The about section is upgraded, with the license checked and a list summary joined", "statement": "If the about step reports no error then at each base path with an about section home, dev_url and doc_url are renamed; the license is replaced by its SPDX identifier with a warning that names both, or reported as missing or unrecognised, or left; a summary given as a list becomes one text of several lines; unsupported fields are removed with a warning; all else stays.", "quantifier": "for all documents, all lists of base paths, all library behaviours that read texts as proper values, and all earlier messages", "why_tests_cant": "The section is edited by a chain of patches, each of which finds its place by a path in the tree left by the patches before; whether no patch hits a wrong place depends on the shape of the document (lists, comments, empty keys, keys already present) and on every combination of fields present.", "anchors": ["conda_recipe_manager/parser/recipe_parser_convert.py:RecipeParserConvert._upgrade_about_section", "conda_recipe_manager/parser/recipe_parser_convert.py:RecipeParserConvert._fix_bad_licenses"]}
{"id": "C96", "title": "The test section becomes the list of tests of the new format", "statement": "If the test step reports no error then at each base path with a test section: files and source_files are nested, requires become run requirements, commands become script, a pip check command is taken out and noted if python is among the host requirements, python and downstream tests become elements of their own, and the result is the list `tests`; all else stays.", "quantifier": "for all documents, all lists of base paths, all library behaviours that read texts as proper values, and all earlier messages", "why_tests_cant": "The section is edited by a chain of patches, each of which finds its place by a path in the tree left by the patches before; whether no patch hits a wrong place depends on the shape of the document (lists, comments, empty keys, keys already present) and on every combination of fields present.", "anchors": ["conda_recipe_manager/parser/recipe_parser_convert.py:RecipeParserConvert._upgrade_test_section", "conda_recipe_manager/parser/recipe_parser_convert.py:RecipeParserConvert._upgrade_test_pip_check"]}
{"id": "C97", "title": "With several outputs the package section becomes recipe and each output names its package", "statement": "If the outputs step reports no error then, if there are outputs, package is renamed to recipe at the top, in each output name and version move to package/name and package/version, and the keys of each output are put in the order of the new format; without outputs nothing changes.", "quantifier": "for all documents, all lists of base paths, all library behaviours that read texts as proper values, and all earlier messages", "why_tests_cant": "The section is edited by a chain of patches, each of which finds its place by a path in the tree left by the patches before; whether no patch hits a wrong place depends on the shape of the document (lists, comments, empty keys, keys already present) and on every combination of fields present.", "anchors": ["conda_recipe_manager/parser/recipe_parser_convert.py:RecipeParserConvert._upgrade_multi_output"]}
{"id": "C98", "title": "The context step moves the variables to a context section and rewrites every reference", "statement": "If the context step reports no error then the context section is written with one key for each variable of a supported type, in the order of the table, with its value (expressions over variables are wrapped as substitutions); variables of other types and joins of texts are reported; the schema version is set to 1; and every value that holds an expression, wherever it stands, gets the new opening marker, or a warning if it is no text; all else stays.", "quantifier": "for all documents, all variable tables without repeated names, all library behaviours that read texts as proper values", "why_tests_cant": "The step searches for references first and then patches along the found paths, for any number of references anywhere in the document; that each path still leads to its line when its turn comes is a property of all documents.", "anchors": ["conda_recipe_manager/parser/recipe_parser_convert.py:RecipeParserConvert._upgrade_jinja_to_context_obj", "conda_recipe_manager/parser/recipe_reader.py:RecipeReader.search"]}
{"id": "C99", "title": "A search returns exactly the paths of the values that match, in document order", "statement": "search(regex, include_comment) returns, in document order, the paths of exactly those terminal values whose text (with the comment if asked for) matches the pattern; in a document whose keys can be addressed each of them leads back to its value.", "quantifier": "for all documents, all patterns (any predicate on texts), both settings of the comment option", "why_tests_cant": "The result is collected by a traversal with a mutable path stack; that no match is missed, repeated or given a wrong path is a statement about all trees.", "anchors": ["conda_recipe_manager/parser/recipe_reader.py:RecipeReader.search", "conda_recipe_manager/parser/_traverse.py:traverse_all"]}
{"id": "C100", "title": "A conversion without errors is the composition of its steps and nothing else", "statement": "If a conversion reports no error, then the final document is reached from the parsed one by: the selector step, the context step as in C98, the section steps of C92 to C97 for the recipe and each output, and the sorting of the sections; the returned text is the rendering of that document; no other part of the document is touched.", "quantifier": "for all documents whose variables have distinct names, all library behaviours that read texts as proper values", "why_tests_cant": "The converter runs about a hundred patches one after the other; a test compares a few recipes with stored results.", "anchors": ["conda_recipe_manager/parser/recipe_parser_convert.py:RecipeParserConvert.render_to_v1_recipe_format"]}
{"id": "C101", "title": "Sections the converter has no rule for are carried over unchanged", "statement": "If a conversion reports no error, then every top-level section whose name is not one of the names the converter knows, and that holds neither selectors nor expressions, is in the converted recipe exactly as it was: same keys, values, comments, order and list structure.", "quantifier": "for all documents whose keys can be addressed and whose top level is a mapping, all section names, all contents, all library behaviours that read texts as proper values and write a key as lines of that key, all orders of the set of paths", "why_tests_cant": "The conversion applies dozens of patches, each addressed by a path text resolved in the current tree; an example-based test only sees the sections it contains, and a patch that strays into another section needs a particular mix of keys, comments and list elements.", "anchors": ["conda_recipe_manager/parser/recipe_parser_convert.py:RecipeParserConvert.render_to_v1_recipe_format", "conda_recipe_manager/parser/recipe_parser_convert.py:RecipeParserConvert._upgrade_selectors_to_conditionals", "conda_recipe_manager/parser/recipe_parser_convert.py:RecipeParserConvert._upgrade_jinja_to_context_obj"]}
{"id": "C102", "title": "A plot shows a package and everything that can be reached from it", "statement": "The plot of a package in a direction shows exactly the package itself and every package reachable from it by dependencies of the chosen kind (build and host, or run and test), followed forwards or backwards; the plot of everything shows exactly the packages that need something or are needed, each once. Every known package can be plotted.", "quantifier": "for all caches of parsed recipes, all failed paths, all packages, both kinds, both directions, all search libraries that find what can be reached", "why_tests_cant": "Reachability is transitive over an unbounded graph that may have cycles, and the edges depend on which of several recipes owns a name; tests use graphs of a handful of recipes and do not plot.", "anchors": ["conda_recipe_manager/grapher/recipe_graph.py:RecipeGraph.plot", "conda_recipe_manager/grapher/recipe_graph.py:RecipeGraph._get_graph", "conda_recipe_manager/grapher/recipe_graph.py:RecipeGraph._reverse_flag"]}
{"id": "C103", "title": "Every line typed at the graph menu is answered", "statement": "In the graph command every line of the user, whatever it is, gets the answer that its words call for (help, statistics, a plot, or a message that names what is wrong), lines are answered in order, and the program ends with success at the first line that quits and in no other way as long as there are lines. Without any recipe it ends with the usage exit code.", "quantifier": "for all recipes, all sequences of lines (any characters, letters in any case, any spacing)", "why_tests_cant": "The space of sessions is unbounded and the answers depend on case folding, word splitting, graph membership and the version of Python; the command has no tests.", "anchors": ["conda_recipe_manager/commands/graph.py:graph", "conda_recipe_manager/grapher/types.py:GraphType", "conda_recipe_manager/grapher/types.py:PackageStatsEncoder.default"]}
{"id": "C104", "title": "An edit of a comment or selector changes the end of one line of the text", "statement": "When add_selector, remove_selector or add_comment succeeds, the rendered text before and after differ in exactly one line, and of that line only in the comment at its end; for a key with a list of a single plain element it is that line and the next. All other lines, before and after, are the same.", "quantifier": "for all documents in the form that parsing leaves (also after any considerate history of edits), all paths to written lines, all selectors, comments and modes", "why_tests_cant": "The renderer decides by comparing whole sub-trees whether a line starts an element, and a comment is part of that comparison, so an edit could disturb lines far away; tests compare a few fixed files.", "anchors": ["conda_recipe_manager/parser/recipe_parser.py:RecipeParser.add_selector", "conda_recipe_manager/parser/recipe_parser.py:RecipeParser.remove_selector", "conda_recipe_manager/parser/recipe_parser.py:RecipeParser.add_comment", "conda_recipe_manager/parser/recipe_reader.py:RecipeReader._render_tree", "conda_recipe_manager/parser/recipe_reader.py:RecipeReader.render"]}
{"id": "C105", "title": "Replacing a plain value changes that value in the text and nothing else", "statement": "When a replace patch puts a plain value in place of the plain value of a key or list element, the rendered texts differ in exactly one line; the part of that line before the value stays, the value is the new one, and the comment of the line is gone.", "quantifier": "for all documents in the form that parsing leaves, all paths, all old and new plain values", "why_tests_cant": "That no other line moves or changes needs an argument over all trees and all depths; tests replace values in fixed files.", "anchors": ["conda_recipe_manager/parser/recipe_parser.py:RecipeParser._patch_replace", "conda_recipe_manager/parser/recipe_parser.py:RecipeParser.patch", "conda_recipe_manager/parser/recipe_reader.py:RecipeReader._render_tree", "conda_recipe_manager/parser/recipe_reader.py:RecipeReader.render"]}
{"id": "C106", "title": "A patch inside one section leaves the text of every other section as it is", "statement": "The text of a recipe is the variables followed by the texts of its top-level lines. A patch (successful or not) whose paths lie inside sections of given names leaves the variables and the text of every top-level line of another name as they are, at the same place.", "quantifier": "for all recipes (parsed, then edited in any way), all patches, all section names, all libraries", "why_tests_cant": "Patches are located by a search through the tree and written by re-parsing; tests look at the patched place.", "anchors": ["conda_recipe_manager/parser/recipe_parser.py:RecipeParser.patch", "conda_recipe_manager/parser/recipe_parser.py:RecipeParser._patch_add", "conda_recipe_manager/parser/recipe_parser.py:RecipeParser._patch_remove", "conda_recipe_manager/parser/recipe_parser.py:RecipeParser._patch_replace", "conda_recipe_manager/parser/recipe_parser.py:RecipeParser._patch_move", "conda_recipe_manager/parser/recipe_parser.py:RecipeParser._patch_copy", "conda_recipe_manager/parser/recipe_reader.py:RecipeReader.render"]}
{"id": "C107", "title": "The hash-type variable is taken out of a recipe text exactly where it is used", "statement": "pre_process_remove_hash_type removes every line that sets hash_type, hashtype or hash to \"sha256\", turns every use of such a variable as a key (with or without quotes) into `sha256:`, and leaves every other character of the text as it is, in whatever order the set of variants is walked through.", "quantifier": "for all texts made of any number of such lines (each at the start of a line) and uses with arbitrary other text between them, and all orders of the three variants", "why_tests_cant": "Three successive text removals and a substitution could interact (one variant is a prefix of another; a removal could create a new match); tests run two fixed files, and the order of a Python set is not under their control.", "anchors": ["conda_recipe_manager/parser/recipe_parser.py:RecipeParser.pre_process_remove_hash_type", "conda_recipe_manager/parser/_types.py:Regex.PRE_PROCESS_JINJA_HASH_TYPE_KEY"]}
{"id": "C108", "title": "The errors of a build are the lines that start with the word Error", "statement": "The errors recorded for a finished build are, in order and complete, the texts of its error output that begin with `Error:` followed by space, each up to the end of the line on which the first non-space character stands.", "quantifier": "for all error outputs made of any number of messages with arbitrary other text between them", "why_tests_cant": "The set of outputs of an external program is unbounded; tests of the command do not run rattler-build.", "anchors": ["conda_recipe_manager/commands/rattler_bulk_build.py:build_recipe"]}
{"id": "C109", "title": "The debug file lists every message once with exactly the recipes that have it, most frequent first", "statement": "The debug file of a bulk build has one group for every different error message, holding exactly the recipes that reported it (sorted); the groups are ordered by falling number of recipes, and groups of the same size by first appearance.", "quantifier": "for all results of a bulk build (distinct file names), all error outputs, all sorting functions that permute", "why_tests_cant": "Quantifies over all result tables; the function is not tested.", "anchors": ["conda_recipe_manager/commands/rattler_bulk_build.py:create_debug_file", "conda_recipe_manager/commands/rattler_bulk_build.py:rattler_bulk_build"]}
{"id": "C110", "title": "A build configuration lists and contains exactly its variables with values", "statement": "The variables listed for a build configuration file are exactly those of the file whose value is a non-empty list, except zip_keys, in file order; `in` answers exactly for those; and a lookup without default raises KeyError exactly for the others.", "quantifier": "for all files, all variables, all queries", "why_tests_cant": "Ties three methods to the file for every content; tests check one file.", "anchors": ["conda_recipe_manager/parser/cbc_parser.py:CbcParser.__init__", "conda_recipe_manager/parser/cbc_parser.py:CbcParser.__contains__", "conda_recipe_manager/parser/cbc_parser.py:CbcParser.list_cbc_variables", "conda_recipe_manager/parser/cbc_parser.py:CbcParser.get_cbc_variable_value"]}
{"id": "C111", "title": "Statistics of CI runs are added up, and percentages divided by the number of runs", "statement": "aggregate_stats succeeds exactly when every table has statistics (under stats, or else under statistics); its keys are the keys with numeric values in order of first appearance; each holds the sum of all those values in order, and for the keys that start with percent_ this sum divided by the number of tables.", "quantifier": "for all lists of tables, all keys and values, all arithmetic of Python numbers", "why_tests_cant": "The script has no tests; quantifies over all sequences of tables.", "anchors": ["scripts/parse_ci_output.py:aggregate_stats"]}
{"id": "C112", "title": "The log reader finds exactly the objects written between braces on lines of their own", "statement": "From log files whose lines may each begin with a time stamp, read_logs returns, in order, every parsable object that stands between a line `{` and the next line `}` and names its command, separated into conversions and other commands; unparsable and unrecognised objects and all other lines have no effect on the others; directories and .DS_Store files are skipped.", "quantifier": "for all sets of log files, all noise, all stamped and unstamped lines, all JSON parsers", "why_tests_cant": "Log files are unbounded and the start index survives from one object to the next; the script has no tests.", "anchors": ["scripts/parse_ci_output.py:read_logs", "scripts/parse_ci_output.py:ISO_8601_REGEX"]}
{"id": "C113", "title": "The CI summary counts every result of a test and keeps the last value of each pulled field", "statement": "generate_summary lists every test name once, sorted; its count is the number of conversion and dry-run results whose directory has that name; each pulled field is the one of the last result of that phase that has it, and no other field appears; the overall statistics are those of C111. It fails exactly when some result has no directory or no statistics.", "quantifier": "for all lists of results, all path-name functions, all sorting functions that permute", "why_tests_cant": "Quantifies over all sequences of results with repeated tests; the script has no tests.", "anchors": ["scripts/parse_ci_output.py:generate_summary"]}
{"id": "C114", "title": "Excluded repositories are never selected and a recipe comes from the first branch that answers", "statement": "The selection holds no repository twice, only listed ones that are not excluded, never more than requested, and all of the allowed ones when fewer than requested; a repository is fetched from main if that answers with status 200, else from master, else nothing is written; those counted as fetched are exactly those for which a file was written.", "quantifier": "for all lists, exclusions and numbers, all random choices, all answers of the web server", "why_tests_cant": "Randomness and network answers are not under control of a test; the script has no tests.", "anchors": ["scripts/randomly_select_recipes.py:main", "scripts/randomly_select_recipes.py:fetch_repo"]}
{"id": "C115", "title": "A successful conversion of a file writes exactly the result of an error-free upgrade of the text that was read", "statement": "When crm convert on one file exits with success or render warnings, the file was read, its pre-processed text is a V0 recipe, every step of the upgrade ran without errors on the re-read copy, and exactly one output (written, or printed when none is given) holds the rendered result; the exit code is success exactly when there are no warnings. Recipes that are not V0 are exactly those refused as illegal.", "quantifier": "for all file contents, output options, YAML readers and license tools", "why_tests_cant": "Ties the exit code to the whole chain of pre-processing, parsing, upgrading and rendering; tests look at single recipes and never at all of the steps.", "anchors": ["conda_recipe_manager/commands/convert.py:convert_file", "conda_recipe_manager/commands/convert.py:convert"]}
{"id": "C116", "title": "A bulk conversion treats every recipe as if alone and writes distinct files beside the recipes", "statement": "For a directory with at least two recipes and an output that is a plain file name: exactly the meta.yaml files below it are converted, each with the effects it has when converted alone; the written paths are distinct, lie beside their recipes and (unless the output is called meta.yaml) are none of the recipes; the exit code follows from the number of files that succeed alone. One recipe is treated like the file itself, none is a usage error.", "quantifier": "for all directory trees, file contents, success rates, all conversions", "why_tests_cant": "Quantifies over all directory trees; the tests have no bulk run with an output.", "anchors": ["conda_recipe_manager/commands/convert.py:convert", "conda_recipe_manager/commands/convert.py:process_recipe", "conda_recipe_manager/commands/convert.py:_get_files_list"]}
{"id": "C117", "title": "A recipe that uses nothing the new format renamed or dropped keeps every line", "statement": "If a recipe has no top-level test, outputs or extras section, no renamed or dropped field in its build, requirements, about and source sections, a known license and a text as summary, then once selectors and variables are converted the rest of an error-free conversion only changes the order of lines below some line. If it also has no selectors, variables and expressions, the new document is the old one plus the line schema_version: 1, up to such reorderings; comments, values, list elements and unknown sections all stay.", "quantifier": "for all recipe trees, YAML readers and writers, license tools and set orders", "why_tests_cant": "Says what the upgrade must not do; the tests compare whole converted files and all of their recipes use old fields.", "anchors": ["conda_recipe_manager/parser/recipe_parser_convert.py:render_to_v1_recipe_format", "conda_recipe_manager/parser/recipe_parser_convert.py:_upgrade_source_section", "conda_recipe_manager/parser/recipe_parser_convert.py:_upgrade_build_section", "conda_recipe_manager/parser/recipe_parser_convert.py:_upgrade_about_section"]}
{"id": "C118", "title": "Pre-processing takes out exactly the empty parentheses of the case functions", "statement": "From left to right, every text | lower() or | upper(), with any white space after the bar, loses its parentheses; every other character of the recipe is kept. This determines the result.", "quantifier": "for all recipe texts", "why_tests_cant": "Says that nothing else in any text changes; the tests have three recipes.", "anchors": ["conda_recipe_manager/parser/recipe_parser_convert.py:pre_process_recipe_text", "conda_recipe_manager/parser/_types.py:Regex"]}
{"id": "C119", "title": "Pre-processing turns the last dot before a call into a bar", "statement": "First in each assignment {% set .. = .. %}, then in each substitution {{ .. }} whose expression ends with a call: the last dot of the line that is followed by such a call is replaced by a bar with blanks around it. All other text is kept.", "quantifier": "for all recipe texts", "why_tests_cant": "Which dot is taken follows from the greediness of the expressions; it is only visible on lines with several dots or calls.", "anchors": ["conda_recipe_manager/parser/recipe_parser_convert.py:pre_process_recipe_text", "conda_recipe_manager/parser/_types.py:Regex"]}
{"id": "C120", "title": "Pre-processing turns a quoted value with an escaped end of line into a block", "statement": "From left to right, a key with a quoted value that has an escaped end of line becomes the key, a bar and two lines with the parts before and after the last escape; the white space before the key, with the end of the line before, is the indentation. All other text is kept.", "quantifier": "for all recipe texts", "why_tests_cant": "The expression has eight greedy parts; the tests have one such value.", "anchors": ["conda_recipe_manager/parser/recipe_parser_convert.py:pre_process_recipe_text", "conda_recipe_manager/parser/_types.py:Regex"]}
{"id": "C121", "title": "Pre-processing is nine replacements in a fixed order and nothing else", "statement": "For every text the result is obtained by: dots in assignments, dots in substitutions, empty parentheses, quoted lines, min_pin, max_pin, environment lookups, the lines that set the hash type (in any order of the set), the hash type as a key. Each is a replacement from left to right of the texts of one form; all other characters are kept.", "quantifier": "for all recipe texts and all orders of the set of lines", "why_tests_cant": "Order and exact extent of each replacement for arbitrary text; the tests compare four files.", "anchors": ["conda_recipe_manager/parser/recipe_parser_convert.py:pre_process_recipe_text", "conda_recipe_manager/parser/recipe_parser.py:pre_process_remove_hash_type"]}
{"id": "C122", "title": "The references of a variable are the texts that mention it inside an expression", "statement": "For a variable of the recipe, get_variable_references lists, in document order and without repetition, the paths of exactly those lines whose text (as key or as value) contains on one line an opening of an expression in the format of the recipe, later the name of the variable, later the end of an expression. For any other name the list is empty.", "quantifier": "for all recipes, in both formats, and all names", "why_tests_cant": "The form of the expression around the name is arbitrary text; the tests list the references of a few variables of three files.", "anchors": ["conda_recipe_manager/parser/recipe_reader.py:get_variable_references"]}
{"id": "C123", "title": "The value read at a path is what YAML reads from the text written there", "statement": "get_value returns: for a key or element with a value that is no text, that value; for a text, what the YAML library reads from the text; for a block, what it reads from the normalised block; for a section or the whole recipe, what it reads from the lines below, written as a page of their own; a list with one text stays a list. If variables are to be replaced, every text in the result is filled in and read once more, and a block is filled in before it is read.", "quantifier": "for all canonical entries of all recipes, all environments (YAML libraries)", "why_tests_cant": "Every shape of nested document; the tests read about forty fixed paths.", "anchors": ["conda_recipe_manager/parser/recipe_reader.py:get_value"]}
{"id": "C124", "title": "Variables in a text are replaced by their values", "statement": "When variables are replaced, each expression of a text that is a variable (with an optional element access and the filters lower and/or upper in this order) or a sum of two operands becomes the value: the text of the variable, changed by the filters, then the element; the sum of two numbers; or two texts put together between double quotes. Other expressions stay, and a text of the old format that still starts with an expression gets a dollar sign. The rest of the text stays. The value read is what YAML reads from the result.", "quantifier": "for all texts made of pieces without opening brace and expressions of the supported forms, both formats, all tables of variables (values without opening brace), all environments (YAML library, float conversion)", "why_tests_cant": "Every text and every table; the tests use fixed recipes with about ten expressions.", "anchors": ["conda_recipe_manager/parser/recipe_reader.py:_set_on_schema_version", "conda_recipe_manager/parser/recipe_reader.py:_set_key_and_matches", "conda_recipe_manager/parser/recipe_reader.py:_eval_jinja_token", "conda_recipe_manager/parser/recipe_reader.py:_render_jinja_vars"]}
{"id": "C125", "title": "The variables of an old-format recipe are those that its statements set", "statement": "For a recipe of the old format, the table of variables holds exactly the names of the statements {% set name = value %} that end a line of the text, in the order of their first statements; the value of a name is that of its last statement, as a Python literal or else as the text without the white space around it. Spacing within and behind a statement and empty lines do not matter, nor does the rest of the text.", "quantifier": "for all texts made of such statements (any spacing, any names of word characters, dashes and dots, any values on one line without the closing sign) with any other text before, between and after them, and all environments (literal_eval)", "why_tests_cant": "Every text, number and order of statements; the tests look at the variables of a few fixed recipes.", "anchors": ["conda_recipe_manager/parser/recipe_reader.py:_init_vars_tbl", "conda_recipe_manager/parser/_types.py:JINJA_V0_SET_LINE"]}
{"id": "C126", "title": "The lines of Jinja are taken out before a text is read", "statement": "Before a text is read, each line that ends with a Jinja statement or comment loses the longest such end together with its line break; every other line and the last line stay as they are. So a line that is a statement or a comment, wherever it stands, makes no difference to the tree, and two texts that leave the same rest have the same tree.", "quantifier": "for all texts, all positions of the line, all environments", "why_tests_cant": "Every text; the tests read a few fixed recipes with statements on lines of their own.", "anchors": ["conda_recipe_manager/parser/recipe_reader.py:__init__", "conda_recipe_manager/parser/_types.py:JINJA_V0_LINE"]}
{"id": "C127", "title": "A converted recipe is read again as a recipe of the new format", "statement": "When a recipe without a line `schema_version` is converted without an error, the result has the line `schema_version: 1`. If the lines of the result are in canonical layout, the file that is written is read again: as the same tree, of the new format, with the same variables, and it is printed again without a change.", "quantifier": "for all recipes, tools, environments that read a written mapping as one expects, all orders of the sets of paths", "why_tests_cant": "The tests compare the text of converted recipes with fixed files; they never read the result again. All recipes and all results of the conversion.", "anchors": ["conda_recipe_manager/parser/recipe_parser_convert.py:render_to_v1_recipe_format", "conda_recipe_manager/parser/recipe_reader.py:__init__"]}
{"id": "C128", "title": "The converted file has the same entries as the file that was read", "statement": "A file in canonical layout, without variables, selectors, expressions, mappings in lists, blocks of text and fields the new format has renamed or dropped, is converted (if no error is reported) to the canonical text of the same entries and `schema_version: 1` in another order; that file is read again as exactly these entries, in the new format.", "quantifier": "for all lists of entries in canonical layout, all environments and tools", "why_tests_cant": "Files of any length and nesting; the tests compare a few pairs of files.", "anchors": ["conda_recipe_manager/parser/recipe_parser_convert.py:render_to_v1_recipe_format", "conda_recipe_manager/parser/recipe_reader.py:render", "conda_recipe_manager/parser/recipe_reader.py:__init__"]}
{"id": "C129", "title": "A recipe that needs no change is converted, without errors", "statement": "A recipe without variables, selectors, expressions, a `context` section and fields the new format has renamed or dropped, with a known license and with sources and a summary that can be read, is converted: no exception is raised and no error is reported. Together with C128: the file of such a recipe in canonical layout is always turned into the file of the same entries in another order. (A license that is a list or outputs that are a number do stop a conversion with an exception.)", "quantifier": "for all recipes with these properties, all environments and tools", "why_tests_cant": "Recipes of any size; the tests convert a few files and none of them shows that there is no recipe for which the conversion stops.", "anchors": ["conda_recipe_manager/parser/recipe_parser_convert.py:render_to_v1_recipe_format", "conda_recipe_manager/parser/recipe_parser_convert.py:_upgrade_source_section", "conda_recipe_manager/parser/recipe_parser_convert.py:_upgrade_about_section"]}
{"id": "C130", "title": "The text for debugging shows every line of the tree, in order", "statement": "The text of a recipe for debugging lists every line of the tree exactly once, in the order of the tree, indented by two spaces for every line above it and called by its value, its comment or as a collection. Two trees are listed with the same lines exactly when they have the same shape and the same names. The table of the variables is written with one entry in a line. The whole text gives, line by line, the version, the variables, every selector with the lines that have it, whether the recipe was changed, and the tree. The text of one node gives its name, comment, number of children and marks; nodes with the same text agree in all of these, whatever their values contain.", "quantifier": "for all trees, all variables and all environments", "why_tests_cant": "Trees of any shape and any names (also names that look like the marks of the listing); a test compares one listing.", "anchors": ["conda_recipe_manager/parser/_node.py:short_str", "conda_recipe_manager/parser/_node.py:__str__", "conda_recipe_manager/parser/recipe_reader.py:_str_tree_recurse", "conda_recipe_manager/parser/recipe_reader.py:__str__", "conda_recipe_manager/parser/_selector_info.py:__str__"]}
{"id": "C131", "title": "A text of several lines is written as a block of these lines", "statement": "A patch writes a text with a newline as one block of the lines of the text and any other value as the recipe its YAML text is. Replacing the value of a key by a text of several lines puts `key: |` and its lines, indented by two more spaces, in the place of the line of the key and changes no other line of the text; the value read at the path is then the value of that block. (Exceptions: the first key of a list element and a plain list element are not written as a block but as Python shows a list, `['one', 'two']`, which is read as a list.)", "quantifier": "for all texts with a newline, all recipes with well-formed lines, all keys with a value and all environments", "why_tests_cant": "Any text (any mixture of line ends, empty lines) at any place of any tree; the tests write one such text.", "anchors": ["conda_recipe_manager/parser/recipe_reader.py:_generate_subtree", "conda_recipe_manager/parser/recipe_reader.py:_render_tree", "conda_recipe_manager/parser/_utils.py:normalize_multiline_strings"]}
{"id": "C132", "title": "A recipe with variables and expressions is converted", "statement": "A recipe without selectors and without old fields, whose values with expressions are plain texts beside a key or in a list, is converted without an error. The new recipe has the same lines, in another order at most, except that every `{{` that begins an expression is `${{`, that there is a section `context` with one entry for each variable of a supported type (with the value of the variable, or the expression if the value is computed) and a line `schema_version: 1`. Its variables are the entries of the section. There is exactly one such recipe. The text of a recipe in the canonical layout is converted into the text with these lines, which is read as the new recipe again. (Exception: the comment beside a value with an expression is dropped, and nothing reports it.)", "quantifier": "for all recipes with unambiguous paths, all variables, any number and order of the expressions, and all environments that write the new lines as one expects", "why_tests_cant": "Any number of variables and expressions anywhere in any tree, handled in the arbitrary order of a set; the tests convert a fixed set of recipes.", "anchors": ["conda_recipe_manager/parser/recipe_parser_convert.py:_upgrade_jinja_to_context_obj", "conda_recipe_manager/parser/recipe_parser_convert.py:render_to_v1_recipe_format", "conda_recipe_manager/parser/recipe_reader.py:_init_vars_tbl"]}
{"id": "C133", "title": "A recipe with old names in the section about is converted", "statement": "A recipe as in C132, except that its section `about` uses names that the new format renamed or dropped, is converted without an error. The new recipe is the one of C132 (up to the order of lines) with another section `about`: the lines with other names stay, in their order, `home`, `dev_url` and `doc_url` come after them as `homepage`, `repository` and `documentation` with the same values, and the six dropped names are gone. For each dropped field there is one warning, in the order of the list of dropped names; these warnings stand together. There is exactly one such section. (Exception: of two fields with the same old name only the first one is renamed or dropped.)", "quantifier": "for all recipes with unambiguous paths in which each old name of the section is used at most once and no new name is used, all variables and expressions, and all environments that write the new lines as one expects", "why_tests_cant": "Any combination of nine names with any values between any other lines, together with any variables and expressions; the tests convert a fixed set of recipes.", "anchors": ["conda_recipe_manager/parser/recipe_parser_convert.py:_upgrade_about_section", "conda_recipe_manager/parser/recipe_parser_convert.py:_patch_move_base_path", "conda_recipe_manager/parser/recipe_parser_convert.py:_patch_deprecated_fields", "conda_recipe_manager/parser/recipe_parser_convert.py:render_to_v1_recipe_format"]}
{"id": "C134", "title": "A recipe with old names in source, build, requirements and about is converted", "statement": "A recipe as in C132, except that its sections `source` (one source), `build`, `requirements` and `about` use names that the new format renamed or dropped, is converted without an error. Up to the order of lines the new recipe is the one of C132 in which, in each of these sections, the twelve renamed names have their new names with the same values, after the lines that stay, and the twenty dropped names are gone; all other lines of all sections stay. The warnings are, in this order: those about variables, one for each dropped field of `build`, at most one about the license (none given, or unknown), one for each dropped field of `about`, and the comments that were lost. There is exactly one such recipe. For recipes in the canonical layout this holds from file to file: the new file has the canonical layout, and reading it gives that recipe and the variables. (Exceptions: a value that is already there under the new name is lost without a message; a list of sources.)", "quantifier": "for all recipes with unambiguous paths whose four sections and their old names are each used at most once and do not use the new names, without the fields that move into another section or to a nested place and without the sections extras, test and outputs; all variables, expressions and values; all environments that write the new lines as one expects", "why_tests_cant": "Any combination of 32 names in four sections with any values between any other lines, together with any variables and expressions; the tests convert a fixed set of recipes.", "anchors": ["conda_recipe_manager/parser/recipe_parser_convert.py:_upgrade_source_section", "conda_recipe_manager/parser/recipe_parser_convert.py:_upgrade_build_section", "conda_recipe_manager/parser/recipe_parser_convert.py:_upgrade_requirements_section", "conda_recipe_manager/parser/recipe_parser_convert.py:_upgrade_about_section", "conda_recipe_manager/parser/recipe_parser_convert.py:_fix_bad_licenses", "conda_recipe_manager/parser/recipe_parser_convert.py:render_to_v1_recipe_format"]}
{"id": "C135", "title": "The section upgrades do exactly what is described, and nothing else is possible", "statement": "For each section upgrade of the conversion (misspellings, sources, build, requirements, about, tests, outputs) and for all of them one after the other: the upgrade of a recipe ends without an error and with given lines and given warnings if and only if these lines and warnings are an outcome that the description of C92 to C97 allows. So whenever the description allows an outcome the upgrade succeeds with it, the description allows at most one, and where it allows none the upgrade reports an error or fails.", "quantifier": "for all recipes, packages, outputs, environments and tools; all outcomes", "why_tests_cant": "The tests compare the outcome for some recipes; that no other outcome is allowed, and that the upgrade succeeds on every recipe for which an outcome exists, are statements about all recipes and all outcomes.", "anchors": ["conda_recipe_manager/parser/recipe_parser_convert.py:_correct_common_misspellings", "conda_recipe_manager/parser/recipe_parser_convert.py:_upgrade_source_section", "conda_recipe_manager/parser/recipe_parser_convert.py:_upgrade_build_section", "conda_recipe_manager/parser/recipe_parser_convert.py:_upgrade_requirements_section", "conda_recipe_manager/parser/recipe_parser_convert.py:_upgrade_about_section", "conda_recipe_manager/parser/recipe_parser_convert.py:_upgrade_test_section", "conda_recipe_manager/parser/recipe_parser_convert.py:_upgrade_multi_output"]}
{"id": "C136", "title": "The context step and the whole conversion do exactly what is described", "statement": "The context step ends without an error and with given lines and warnings if and only if the description of C98 allows them. A conversion ends without an error, with a given tree, given warnings and a given text, if and only if the selectors step ends without an error (C91) and, from there, the description allows this tree and these warnings and the text is the tree written as lines: context (C98), sections of the recipe and of each of its outputs (C92 to C97), the comments that lost their place reported (C83), top level in the order of the new format (C79), and a context that is a mapping. For a recipe without selectors the right-hand side is the description alone; for a recipe read from a text whose selectors can become conditions (C91), the selectors step always succeeds and does what C91 describes. The description allows at most one outcome.", "quantifier": "for all recipes, environments and tools; all outcomes", "why_tests_cant": "The tests compare the converted text of some recipes; that conversion succeeds on every recipe for which an outcome is described, and with no other outcome, is a statement about all recipes and all outcomes.", "anchors": ["conda_recipe_manager/parser/recipe_parser_convert.py:render_to_v1_recipe_format", "conda_recipe_manager/parser/recipe_parser_convert.py:_upgrade_jinja_to_context_obj"]}
{"id": "C137", "title": "bump-recipe writes the same page with the new build number, version and checksums in their places", "statement": "For a file in the canonical layout whose changed lines carry no comment, bump-recipe ends with success and writes (or prints, in a dry run) exactly the page of the recipe in which the build number is the old one plus one (0 if it is not to be incremented), the version is the target (in the variable \"version\" if that has a value, at /package/version otherwise), and the checksum of each archive is the computed one (in the only checksum variable if the only source uses it, at the sha256 line beside each archive otherwise). A build number (then 0), a version or a checksum that is missing is added on a new line at the end of its section. Each new value at a path changes one line of the page, behind the colon; each new value of a variable changes its statement line; every other line, comment and blank line of the file is as before.", "quantifier": "for all recipes in canonical layout, all options, all networks and orders of arrival, all environments", "why_tests_cant": "The tests compare the files written for a few recipes; that nothing else in any file changes is a statement about all files.", "anchors": ["conda_recipe_manager/commands/bump_recipe.py:bump_recipe", "conda_recipe_manager/commands/bump_recipe.py:_update_build_num", "conda_recipe_manager/commands/bump_recipe.py:_update_version", "conda_recipe_manager/commands/bump_recipe.py:_update_sha256"]}
{"id": "C138", "title": "the patch command writes the page of the edited entries", "statement": "For a file in the canonical layout and a list of patches each of which asks for an edit of its entries (remove or replace the entry that a path names; add a key, an element at the end or in front of a numbered one; write over an entry; test; copy; move), the command ends with success and writes exactly the page of the entries after all edits in turn. An edit inside a section changes only the lines of the entries concerned: all lines before and after them stay, character for character.", "quantifier": "for all recipes in canonical layout, all lists of such patches (all values, paths through names and numbered elements), all environments", "why_tests_cant": "Tests apply single patches to a few files and compare the files; that a list of arbitrary patches leaves all other lines of every file alone is not something examples can show.", "anchors": ["conda_recipe_manager/commands/patch.py:patch", "conda_recipe_manager/parser/recipe_parser.py:patch"]}
{"id": "C139", "title": "adding and removing a dependency changes one line of the file", "statement": "For a recipe read from a file in the canonical layout: adding a dependency, and writing the recipe, gives the same file with exactly one change. The line of the dependency is added at the end of its section (no entry of the same name, or both are wanted), or stands in place of the first line of the same name, or of the line with the given number; in a section that is missing, the section is opened behind the others with this one line. The comment of the line is the selector, joined with the old selector as asked for. Removing takes exactly the addressed line away, and a dependency that is ignored leaves the file as it is.", "quantifier": "for all recipes in canonical layout, all dependencies, all modes for conflicts and for selectors, all environments and readers of match specifications", "why_tests_cant": "Tests compare a few files before and after adding a dependency; that every other line of every file stays, for all modes and any number of dependencies, is not something examples can show.", "anchors": ["conda_recipe_manager/parser/recipe_parser_deps.py:add_dependency", "conda_recipe_manager/parser/recipe_parser_deps.py:remove_dependency"]}
{"id": "C140", "title": "the commands on files of the new format", "statement": "A file of the new recipe format in the canonical layout is read with the entries of its section \"context\" as variables and is written back as it is. The patch command writes the page of the edited entries, adding a dependency gives the file with that one line, and bump-recipe writes the page with the new build number, version and checksums at their places. After a bump, the file that is written has the new version.", "quantifier": "for all files of the new format in canonical layout, all lists of patches, all dependencies and modes, all options of bump-recipe, all environments and networks", "why_tests_cant": "The tests of the commands use a handful of files, nearly all of the old format; that the commands change exactly the asked lines of every file of the new format needs a statement about all of them.", "anchors": ["conda_recipe_manager/parser/recipe_reader.py:_init_vars_tbl", "conda_recipe_manager/parser/recipe_reader.py:render", "conda_recipe_manager/parser/recipe_parser.py:set_variable", "conda_recipe_manager/commands/bump_recipe.py:_update_version", "conda_recipe_manager/commands/patch.py:patch"]}
{"id": "C141", "title": "an edit of a file can be undone, to the last character", "statement": "For a file in the canonical layout, of the old or the new format: a key that the patch command added, an element that it added at the end of a list or in front of another one, a plain value that it put in place of one without a comment, and the last key of a section (written as the YAML writer writes it, without a comment) that it removed, can be undone by one more patch (remove, remove by number, replace by the old value, add), and the file that is then written is the first one, character for character. The same holds for a dependency added at the end of its section and removed by its number. A value with a comment beside it and a key in front of others do not come back as they were.", "quantifier": "for all files in canonical layout, all paths and values, all environments", "why_tests_cant": "A test shows this for one edit of one file; that no edit leaves a trace anywhere in the file (other lines, blank lines, comments, quoting) after it is undone is a statement about all files.", "anchors": ["conda_recipe_manager/parser/recipe_parser.py:patch", "conda_recipe_manager/parser/recipe_parser.py:_patch_add", "conda_recipe_manager/parser/recipe_parser.py:_patch_remove", "conda_recipe_manager/parser/recipe_parser.py:_patch_replace", "conda_recipe_manager/parser/recipe_parser_deps.py:add_dependency", "conda_recipe_manager/commands/patch.py:patch"]}
{"id": "C142", "title": "bump-recipe to the same version twice writes the same file as once", "statement": "For a file in the canonical layout: when bump-recipe with a target version (and without incrementing the build number) has written a file, running it again with the same target on that file, with the same archives behind the same addresses, ends in the same way and writes exactly the same file: the build number stays 0, the version and every checksum are replaced by themselves, wherever they are (in the tree or in variables), and no other line changes.", "quantifier": "for all files in canonical layout, all targets, all answers of the network, all orders in which the archives arrive, all environments", "why_tests_cant": "A test compares two runs on one recipe; that none of the edits of the first run disturbs what the second run finds (the other checksums, the build number, the version, the variables) is a statement about all recipes and all orders of arrival.", "anchors": ["conda_recipe_manager/commands/bump_recipe.py:bump_recipe", "conda_recipe_manager/commands/bump_recipe.py:_update_build_num", "conda_recipe_manager/commands/bump_recipe.py:_update_version", "conda_recipe_manager/commands/bump_recipe.py:_update_sha256", "conda_recipe_manager/parser/recipe_parser.py:patch"]}
{"id": "C143", "title": "Selector and comment edits of a file change the comments of the addressed lines and nothing else", "statement": "For a file in the canonical layout of either format: reading it, making any number of add_selector, remove_selector and add_comment calls on its lines and writing it gives exactly the file in which each addressed line carries the new comment: a selector is written, joined to the one already there with \"and\" or \"or\", put before a note, or taken out while the note stays; a note replaces a note and is put behind a selector. Every call succeeds. Each call changes only the addressed line (and the element of a list of one element, which shares the comment of its key). A selector put on a line without a comment and taken off again gives back the same file, and the call returns that selector.", "quantifier": "for all files in canonical layout, all sequences of such calls, all selectors and notes, all environments", "why_tests_cant": "Unit tests compare a few recipes before and after one call; which line is found by a path, that joining and cutting of texts compose over any number of calls, and that no other line moves, is about all files and all sequences.", "anchors": ["conda_recipe_manager/parser/recipe_parser.py:add_selector", "conda_recipe_manager/parser/recipe_parser.py:remove_selector", "conda_recipe_manager/parser/recipe_parser.py:add_comment", "conda_recipe_manager/parser/recipe_reader.py:render"]}
{"id": "C144", "title": "A session of any calls on a file writes the page of the entries and variables that the calls describe", "statement": "For a file in the canonical layout: reading it, making any sequence of changing calls - patches of all kinds, setting and deleting variables, selector and comment edits, adding and removing dependencies, in any order - and writing it gives exactly the page of the entries and variables obtained by carrying out the calls on them one after the other, and every call reports success. Reading the written file again gives a recipe with the same tree and the same variables as the one that was written, so saving and reading again between the calls makes no difference. Setting a variable changes the statement of that variable in its place and no other line.", "quantifier": "for all files in canonical layout of either format, all sequences of calls of all kinds, all environments", "why_tests_cant": "Tests make one or two calls of one kind on a fixture; that the state between calls carries nothing that the file does not show (tree, variables, schema), so that calls of different kinds compose in every order, is a statement about all sequences.", "anchors": ["conda_recipe_manager/parser/recipe_parser.py:patch", "conda_recipe_manager/parser/recipe_parser.py:set_variable", "conda_recipe_manager/parser/recipe_parser.py:del_variable", "conda_recipe_manager/parser/recipe_parser.py:add_selector", "conda_recipe_manager/parser/recipe_parser.py:remove_selector", "conda_recipe_manager/parser/recipe_parser.py:add_comment", "conda_recipe_manager/parser/recipe_parser_deps.py:add_dependency", "conda_recipe_manager/parser/recipe_parser_deps.py:remove_dependency", "conda_recipe_manager/parser/recipe_reader.py:render"]}
{"id": "C145", "title": "The queries on a file report exactly what its lines say, in the order of the lines", "statement": "For a file in the canonical layout: after reading it, list_value_paths lists the paths of the lines with a value (keys without value included) in the order of the lines; find_value of a primitive lists the lines with exactly that value, of the same type; list_selectors lists the selectors of the lines in order of first appearance; get_selector_paths lists the paths of the lines with that selector; and get_comments_table lists, for the lines whose comment says more than a selector, the path and the comment without the selector, in the order of the lines. List elements are numbered from 0 without counting comment lines. After any session of changing calls, the listing of values, the search and the comments table answer as they would for the file that would be written; so do the two queries on selectors if the session has no add_comment call.", "quantifier": "for all files in canonical layout of either format, all values and selectors, all sequences of calls, all environments", "why_tests_cant": "Tests compare the queries with hand-written lists for a few fixtures; that they agree with the text for every nesting of sections, lists and mappings, with comment lines anywhere, is a statement about all files.", "anchors": ["conda_recipe_manager/parser/recipe_reader.py:list_value_paths", "conda_recipe_manager/parser/recipe_reader.py:find_value", "conda_recipe_manager/parser/recipe_reader.py:list_selectors", "conda_recipe_manager/parser/recipe_reader.py:get_selector_paths", "conda_recipe_manager/parser/recipe_reader.py:get_comments_table", "conda_recipe_manager/parser/_traverse.py:traverse_all"]}
{"id": "C146", "title": "What is found at the path of a line of a file is what the line says", "statement": "For a file in the canonical layout whose keys are texts without slash, not numbers, and different within a section: at the path of every line that is not a comment there is a value (contains_value); get_selector_at_path and contains_selector_at_path report exactly the selector written in the comment of that line; and if the line holds a single value, get_value returns it (for a text, what YAML reads from the text), whatever the default. The same holds after any session of changing calls, for the lines of the file that would be written.", "quantifier": "for all files in canonical layout of either format, all their lines, all sequences of calls, all environments", "why_tests_cant": "Tests look up a handful of paths in fixtures; that every line of every file is found at its own path, with its own selector, is a statement about all files.", "anchors": ["conda_recipe_manager/parser/recipe_reader.py:contains_value", "conda_recipe_manager/parser/recipe_reader.py:get_value", "conda_recipe_manager/parser/recipe_reader.py:get_selector_at_path", "conda_recipe_manager/parser/recipe_reader.py:contains_selector_at_path", "conda_recipe_manager/parser/_traverse.py:traverse"]}
{"id": "C147", "title": "The dependencies of a file are the lines of its requirement sections", "statement": "For a file of one package (no outputs) in the canonical layout whose keys are texts without slash, not numbers, and different within a section: get_all_dependencies returns one entry, under the name of the package with its variables filled in; the dependencies in it are, in the order of the file, the lines of the sections of requirements that are known (build, host, run, ...), each with the path of the line (comment lines do not count), the section, the text of the line with variables filled in and without blanks around it, as conda parses it, and exactly the selector in the comment of that line. Lines without text and sections under other names are left out. The same holds after any session of changing calls, for the lines of the file that would be written.", "quantifier": "for all files of one package in canonical layout of either format, all sequences of calls, all environments, all behaviours of the parser of match specs", "why_tests_cant": "Tests compare the dependency tables of a few fixtures; that every line of every file is listed once, in order, with the selector of its own line and not of a neighbour, a comment line or the section, is a statement about all files.", "anchors": ["conda_recipe_manager/parser/recipe_reader_deps.py:get_all_dependencies", "conda_recipe_manager/parser/recipe_reader_deps.py:get_package_names_to_path", "conda_recipe_manager/parser/recipe_reader.py:get_value", "conda_recipe_manager/parser/recipe_reader.py:get_selector_at_path", "conda_recipe_manager/parser/recipe_reader.py:__init__"]}
{"id": "C148", "title": "The value at the path of every entry of a file", "statement": "For a file in the canonical layout whose keys are texts without slash, not numbers, and different within a section: at the path of every entry (key with a value, block, section, list element, mapping in a list, and every entry in these, also the first one behind the hyphen) get_value returns what the entry is read as, whatever the default: a single value itself, of a text what YAML reads, of a section what YAML reads from the lines of the section on their own; with variables, the same with the variables of the file filled in. The paths of entries are exactly the paths of the lines that are not comments. The same holds after any session of changing calls, for the entries of the file that would be written.", "quantifier": "for all files in canonical layout of either format, all their entries at any depth, all sequences of calls, all environments", "why_tests_cant": "Tests read a handful of paths of fixtures; that no entry at any depth is read as another one, or with the value of a neighbour, is a statement about all files and all paths.", "anchors": ["conda_recipe_manager/parser/recipe_reader.py:get_value", "conda_recipe_manager/parser/recipe_reader.py:__init__", "conda_recipe_manager/parser/_traverse.py:traverse", "conda_recipe_manager/parser/recipe_parser.py:patch"]}
{"id": "C149", "title": "The dependencies of a file with outputs are the lines of its requirement sections", "statement": "For a file with outputs in the canonical layout whose keys are texts without slash, not numbers, and different within a section, and whose packages have different names: get_all_dependencies returns first the package of the file with the dependencies in the lines of its own requirements, then every output, in order and under its name with variables filled in, with the dependencies in the lines of its own requirements followed by those of the file, as required by the output. Every dependency has the path, section, text and selector of its own line, as in C147; a package without requirements has no own dependencies. The same holds after any session of changing calls, for the lines of the file that would be written.", "quantifier": "for all files with any number of outputs in canonical layout of either format, all sequences of calls, all environments, all behaviours of the parser of match specs", "why_tests_cant": "Tests compare the dependency tables of a few multi-output fixtures; that the lines of one output never appear at another, for every number of outputs and comments between them, is a statement about all files.", "anchors": ["conda_recipe_manager/parser/recipe_reader_deps.py:get_all_dependencies", "conda_recipe_manager/parser/recipe_reader_deps.py:get_package_names_to_path", "conda_recipe_manager/parser/recipe_reader_deps.py:_add_top_level_dependencies", "conda_recipe_manager/parser/recipe_reader.py:get_package_paths", "conda_recipe_manager/parser/recipe_reader.py:get_value"]}
{"id": "C150", "title": "The paths of the dependencies of a file are the paths of the lines of its requirement sections", "statement": "For a file in the canonical layout whose keys are texts without slash, not numbers, and different within a section: get_dependency_paths returns, for the sections build, host, run and run_constrained (run_constraints in the new format) of the file and then of every output in order, the path of the section with the numbers of its lines from zero; comment lines do not count and a section that is not there contributes nothing. Every path returned is the path of an element line of the file. The same holds after any session of changing calls, for the lines of the file that would be written.", "quantifier": "for all files with any number of outputs and lines in canonical layout of either format, all sequences of calls, all environments", "why_tests_cant": "Tests compare the list of paths of a few fixtures; that no path leads to a comment or beyond the end of a section, for every number of comments and lines in any order, is a statement about all files.", "anchors": ["conda_recipe_manager/parser/recipe_reader.py:get_dependency_paths", "conda_recipe_manager/parser/recipe_reader.py:get_value", "conda_recipe_manager/parser/dependency.py:dependency_section_to_str"]}
{"id": "C151", "title": "The table of dependencies of a file and its list of dependency paths agree", "statement": "For a file in the canonical layout, with or without outputs, whose keys are texts without slash, not numbers, and different within a section, and whose requirement sections are called build, host, run or by the name of the constraints in its format: the path of every dependency that get_all_dependencies reports is one of the paths that get_dependency_paths lists. In the other direction, whatever the sections are called, every path in the list is the path of a reported dependency, unless its line is read as nothing or as a blank text. The same holds after any session of changing calls. Without the condition on the names the first direction is false: the lines below run_exports, a section of requirements in the new format, are in the table and not in the list; and if run_exports is a mapping, its keys are reported as dependencies, at paths where there is nothing.", "quantifier": "for all files with any number of outputs and lines in canonical layout of either format, all sequences of calls, all environments, all behaviours of the parser of match specs", "why_tests_cant": "Tests compare each of the two functions with expected values for a few fixtures; that they agree on the lines of every file is a relation between two functions over all files.", "anchors": ["conda_recipe_manager/parser/recipe_reader_deps.py:get_all_dependencies", "conda_recipe_manager/parser/recipe_reader.py:get_dependency_paths", "conda_recipe_manager/parser/dependency.py:str_to_dependency_section", "conda_recipe_manager/parser/dependency.py:dependency_section_to_str"]}
{"id": "C152", "title": "The packages of a file are the file and its outputs, under the names in their lines", "statement": "For a file in the canonical layout whose keys are texts without slash, not numbers, and different within a section: is_multi_output tells whether there is a section outputs; get_package_paths lists the root and the path of every output in order; get_package_names_to_path gives the same paths with the names written in the lines, variables filled in (package/name for the file and name for an output; in a file of the new format with outputs recipe/name and package/name), if the names are different; and get_recipe_name gives the name of the file itself as a text, or nothing if it is read as nothing. The same holds after any session of changing calls.", "quantifier": "for all files with any number of outputs in canonical layout of either format, all sequences of calls, all environments", "why_tests_cant": "Tests ask these questions of a few fixtures; that four functions answer from the same lines of every file, with the right place of the name for each format, is a statement about all files.", "anchors": ["conda_recipe_manager/parser/recipe_reader.py:is_multi_output", "conda_recipe_manager/parser/recipe_reader.py:get_package_paths", "conda_recipe_manager/parser/recipe_reader.py:get_recipe_name", "conda_recipe_manager/parser/recipe_reader_deps.py:get_package_names_to_path"]}
{"id": "C153", "title": "The sources of a file are the mappings in its section source", "statement": "For a file in the canonical layout whose keys are texts without slash, not numbers, and different within a section: the artifact fetcher finds, for the mappings read in the section source (variables filled in), in order, an archive for every mapping with a url and a repository for every other one with a git address, with branch, tag and revision; each under the path of its own element (or of the section, if it is one mapping), and with the name of the recipe, numbered if there are several. Every path is the path of an entry of the file. Other sources are passed over if asked to, and an error otherwise. A file without the section has no sources. The same holds after any session of changing calls.", "quantifier": "for all files with any number of sources in canonical layout of either format, all sequences of calls, all environments", "why_tests_cant": "Tests build fetchers for a few fixtures; that the paths lead to the elements the sources were read from, with comments and other kinds of sources between them, is a statement about all files.", "anchors": ["conda_recipe_manager/fetcher/artifact_fetcher.py:from_recipe", "conda_recipe_manager/parser/recipe_reader.py:get_value", "conda_recipe_manager/parser/recipe_reader.py:get_recipe_name"]}
{"id": "C154", "title": "Searching a file finds the matching lines, in order", "statement": "For a file in the canonical layout without a key that is a single slash: search returns the paths of exactly those lines whose value, as written (for a key without value the key itself), matches; in the order of the file, and with the comment two blanks behind the value if comments are asked for (unless a line with a list as value has one). For every variable of the file that no key mentions, the references are the paths of exactly those lines whose value is a text that mentions it. The same holds after any session of changing calls.", "quantifier": "for all files in canonical layout of either format, all regular expressions (any predicate on texts), all variables, all sequences of calls, all environments", "why_tests_cant": "Tests search a few fixtures for a few words; that no matching line is missed and no other reported, also after changes, is a statement about all files and all expressions.", "anchors": ["conda_recipe_manager/parser/recipe_reader.py:search", "conda_recipe_manager/parser/recipe_reader.py:get_variable_references", "conda_recipe_manager/parser/_traverse.py:traverse_all"]}
{"id": "C155", "title": "A patch on a search result changes the matching lines of the file, in order", "statement": "For a file in the canonical layout without a key that is a single slash: if the patch, with the paths of the matching lines (C154) filled in one after the other, is an edit of the entries of the file (C138) each time, then search_and_patch on the file reports success, and the text written is that of the file with all these edits made, comments and all other lines as they were. If no line matches it reports success and the recipe is the same, whatever the patch is.", "quantifier": "for all files in canonical layout of either format, all regular expressions (any predicate on texts), all patches, all environments", "why_tests_cant": "Tests patch a few values of a fixture; that each matching line is patched once, at the path it had before the first patch, is a statement about all files, expressions and patches.", "anchors": ["conda_recipe_manager/parser/recipe_parser.py:search_and_patch", "conda_recipe_manager/parser/recipe_reader.py:search", "conda_recipe_manager/parser/recipe_parser.py:patch"]}
{"id": "C156", "title": "The differences shown for a file are those between the file read and the file written", "statement": "For a file in the canonical layout and any sequence of patches, variable, selector, comment and dependency calls that the file and its entries admit (C144): if one of them asks for a change, the recipe counts as modified and diff compares exactly the lines of the text read with the lines of the text that would be written. If all of them only test values or move something to where it is, the two texts are the same, the recipe does not count as modified and diff is empty.", "quantifier": "for all files in canonical layout of either format, all sequences of such calls, all environments, all functions in the place of difflib", "why_tests_cant": "Tests compare one diff of one fixture; that nothing that would be written is left out of the comparison, whatever the calls, is a statement about all files and histories.", "anchors": ["conda_recipe_manager/parser/recipe_parser.py:diff", "conda_recipe_manager/parser/recipe_reader.py:is_modified", "conda_recipe_manager/parser/recipe_parser.py:patch"]}
{"id": "C157", "title": "Calls that are refused leave no trace in a file", "statement": "For a file in the canonical layout and any sequence of calls that the file and its entries admit (C144), with any calls in between that do not report success when their turn comes (patches other than moves, selector, comment and variable calls, removals of dependencies): the text that would be written, the modified flag and the differences shown are those of the sequence without the refused calls. Failed moves are left out, because they can lose their source (refuted in C11).", "quantifier": "for all files in canonical layout of either format, all sequences of such calls, all refused calls at any places between them, all environments, all functions in the place of difflib", "why_tests_cant": "Tests make one failing call and look at the recipe; that failing calls anywhere in a longer sequence never influence the later ones is a statement about all sequences.", "anchors": ["conda_recipe_manager/parser/recipe_parser.py:patch", "conda_recipe_manager/parser/recipe_parser.py:add_selector", "conda_recipe_manager/parser/recipe_parser.py:remove_selector", "conda_recipe_manager/parser/recipe_parser.py:add_comment", "conda_recipe_manager/parser/recipe_parser.py:del_variable", "conda_recipe_manager/parser/recipe_parser_deps.py:remove_dependency"]}
