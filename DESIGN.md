# Design

Formal model of conda-recipe-manager (source in /repo, read as text, never run) in Rocq (Coq 8.16.1), standard library
only.  Build: `cd rocq && coq_makefile -f _CoqProject -o Makefile && make -j4`.

## Approach

* Python functions are mirrored branch by branch as total Gallina functions.  Exceptions are values (`res`), in-place
  mutation becomes returning the new state, node references become positions (lists of child indices).  Loops that are not
  structural run on fuel that provably or obviously suffices; running out gives an error value or an empty result, never a
  silent success.
* External libraries (PyYAML, `ast.literal_eval`, `float`, hashing, networking, fuzzy matching, clocks) are *oracles*:
  parameters of the model over which theorems quantify universally, with explicit hypotheses where behaviour is needed.
  `MiniYaml.v` is a small concrete oracle used only in Examples and in refutation witnesses.
* Strings are lists of characters read as 7-bit text; characters >= 128 are inert (no white space, no digits, no letters).
* Regular expressions are ASTs transcribed from the source, run by a backtracking matcher with Python's priority order.
* Layers: model files (no proofs), `*Spec.v` (specification vocabulary, not used by the model), `*Proofs*.v`, and
  `Prop*.v` (the theorems, their `Print Assumptions`, Examples, refutations).
* `*_refuted` theorems: the property as a user would expect it is false of the faithful model; a concrete witness is given.
  `*_partial` theorems: the part of a property that does hold; the comment above says what is missing.

## Trusted base

* Coq's kernel, including `vm_compute`.
* `Print Assumptions` is run for every theorem in the `Prop*.v` files.  Every one of them prints
  "Closed under the global context": no axiom is used, not even one of the standard library.
* The reading of the Python source: every model definition cites file and lines.  The simplifications are listed below.
* For refutations and Examples stated with `mini_env`: that the small YAML reader of `MiniYaml.v` agrees with PyYAML on
  the few lines of text used in that statement.

## What is modelled

| Model file | Source |
|---|---|
| `PyStr.v`, `Json.v`, `Regex.v` | Python strings, dictionaries, JSON values, `re` |
| `Node.v` | `parser/_node.py`, `MultilineVariant` |
| `Utils.v` | `parser/_utils.py`, `types.py` |
| `Traverse.v` | `parser/_traverse.py` |
| `Reader.v` | `parser/recipe_reader.py`: line parsing, tree construction, variables, rendering, value access |
| `Access.v` | `parser/recipe_reader.py`: `render_to_object`, names and paths, search, comments table, equality, `calc_sha256`; sort tables of `parser/_types.py` |
| `Edit.v` | `parser/recipe_parser.py`; selector table |
| `Selector.v` | `parser/selector_parser.py`, `parser/platform_types.py`, `parser/selector_query.py` |
| `Deps.v` | `parser/dependency.py`, `parser/recipe_reader_deps.py`, `parser/recipe_parser_deps.py`, `get_dependency_paths` of `parser/recipe_reader.py`; the conda package's `MatchSpec` is an oracle |
| `Messages.v` | `types.py`: `MessageTable` |
| `ConvertCmd.v` | `commands/convert.py` (`_get_files_list`, `process_recipe`, `convert`): files below a directory, output paths, exit code; reading and writing of files are parameters |
| `Scripts.v` | `scripts/parse_ci_output.py` (`aggregate_stats`, `generate_summary`, `read_logs`), `scripts/randomly_select_recipes.py` (`fetch_repo` and the selection in `main`); JSON parsing, number arithmetic, random sampling, web requests and path names are parameters |
| `Commands.v` | `commands/bump_recipe.py`, `patch.py`, `convert.py`, `rattler_bulk_build.py`, `RecipeParser.pre_process_remove_hash_type`; files, network, processes and the order in which downloads finish are parameters; the conversion proper is a parameter of `convert_file` |
| `Spdx.v` | `licenses/spdx_utils.py`; the license list and `difflib.get_close_matches` are parameters |
| `Fetch.v` | `fetcher/*.py`, `_get_sha256` of `commands/bump_recipe.py`; network, file system and git are oracles |
| `Scan.v` | `scanner/dependency/*.py`; `ast`, `tomllib` and equality of match specifications are parameters |
| `Graph.v` | `grapher/recipe_graph.py`, `grapher/recipe_graph_from_disk.py`; networkx graphs are lists of edges |
| `GraphCmd.v` | `commands/graph.py`, `plot` of `grapher/recipe_graph.py`, `grapher/types.py`; `networkx.bfs_tree` and the Python version are parameters, a drawing is known by the nodes it shows |
| `Convert.v` | `parser/recipe_parser_convert.py` with the pre-processing of texts and the regular expressions of `parser/_types.py` it uses; the license matcher, the license list and the order in which Python walks through a set of texts are parameters |
| `Cbc.v` | `parser/cbc_parser.py` |

## Simplifications (also marked in the source)

* `Access.v`: other special characters are taken literally (names from statements are usually made of word characters, dashes and dots.
* `Access.v`: the sentinel object as a key (top level lists) is reported as an error here, Python would use the object itself as a key.
* `Commands.v`: the retry interval is counted in some fixed unit of time.
* `Commands.v`: the debugging output, which can be switched on and then also runs inside the guarded part, is not modelled.
* `Commands.v`: Python rounds the floating point number next to a/b, which may decide a half the other way.
* `Commands.v`: the option may have more than two decimals.
* `Convert.v`: the node is taken as it was when the table was built.
* `Convert.v`: [stack_path_to_str] empties the path lists of the old table, which nothing reads afterwards.
* `ConvertCmd.v`: paths are texts without "." and without repeated slashes.
* `ConvertCmd.v`: after an exception in one of them the others are still run.
* `Deps.v`: [str.isdigit] also accepts some characters outside ASCII; here only the ten decimal digits are digits.
* `Json.v`: a float is represented by its [repr] text.
* `Json.v`: a float equals an integer iff its repr is that integer followed by ".0"; NaN is not modelled.
* `Json.v`: only backslash, quote, newline, tab and carriage return are escaped.
* `Messages.v`: [get_messages] hands out a copy here (the Python code returns the stored list itself.
* `PyStr.v`: Python strings are sequences of Unicode code points.
* `Reader.v`: if /context is not a mapping the constructor fails here (Python fails on first use.
* `Scripts.v`: in [_summarize_tests] a value that is no object raises another exception or none; [aggregate_stats] then fails as here.
* `Selector.v`: the interpreter's recursion limit is not modelled.
* `Utils.v`: characters >= 128 are escaped as \u00XX (exact for Latin-1.

## Not modelled

* Logging, click argument parsing, file-system and network access (effects appear as oracle outcomes or traces).

## Tests of the model against the project's own test data

These are tests, not proofs: they check the reading of the source.  With `mini_env` as YAML reader, the recipe files under
/repo/tests/test_aux_files that the project's converter test lists were run through `render_to_v1` by `vm_compute`, and the
result compared with the expected file in `v1_format/` and the expected messages in the test.  All give the same text and
the same messages, except `cctools-ld64.yaml`, which needs difflib's fuzzy license match (an oracle here).  The same was
done for the pairs of the pre-processing test.  Many Examples in the `Prop*.v` files repeat cases of the project's tests.

## Properties: how they are modelled and what was proved

* **C01** Path strings survive the round trip through the path parser -- `str_to_stack_path`/`stack_path_to_str` as total functions on strings; round trip and injectivity by induction on components.  **partial.** Full claim for one or more components. The zero-component path "/" is refuted: it prints as "".  Theorems: `C01_path_round_trip`, `C01_paths_stay_distinct`, `C01_root_refuted`.
* **C02** append_to_path joins two paths with exactly one slash -- `append_to_path` modelled; compared with component concatenation.  **proved.** Both the component form and the exact result for arbitrary strings.  Theorems: `C02_append_components`, `C02_append_any_text`.
* **C03** Every listed value path can be looked up -- `traverse_all` as a function returning the (path,node) visit list; induction over the tree; conditions on keys as a boolean predicate.  **proved.** Full claim for addressable documents (non-empty recipe, addressable keys). Outside that condition: refuted for the empty recipe and for numeric keys. (The statement excludes both.)  Theorems: `C03_listed_paths_resolve`, `C03_listed_paths`, `C03_empty_recipe_refuted`, `C03_numeric_key_refuted`.
* **C04** Comment-only lines never influence addressing -- comment erasure function as the specification; commutation of `traverse` with erasure.  **partial.** Lookup part under "every list element has a non-comment line" and listing part under "every section has a non-comment line"; without it the listing part is refuted.  Theorems: `C04_comments_do_not_influence_lookup`, `C04_comments_do_not_influence_listing`, `C04_listing_refuted`.
* **C05** A list index addresses exactly the i-th non-comment element -- index tables modelled as lists; inverse and characterisation lemmas.  **proved.** Full claim.  Theorems: `C05_index_addresses_ith_element`, `C05_never_a_comment`, `C05_index_tables`, `C05_index_tables_inverse`, `C05_number_text`.
* **C06** get_value agrees with contains_value -- `get_value` with YAML oracle; case analysis on lookup.  **proved.** Full claim; every behaviour of the YAML library.  Theorems: `C06_missing_key`, `C06_default`.
* **C07** find_value returns exactly the matching terminal values -- visit list filtered by an independent predicate.  **proved.** Full claim.  Theorems: `C07_find_value_exact`, `C07_collections_are_rejected`.
* **C08** De-duplicated path lists keep first appearances -- `dict.fromkeys` modelled; NoDup, membership and order specified independently.  **proved.** Full claim.  Theorems: `C08_selector_paths`, `C08_variable_references`, `C08_no_duplicates`.
* **C09** A JSON-patch test operation never changes the recipe -- `patch` state machine; purity of the test branch.  **proved.** Full claim; equality is Python equality of the value read.  Theorems: `C09_test_changes_nothing`.
* **C10** A failed add, remove, replace, copy or test leaves the recipe exactly as it was -- every failing/raising branch returns the incoming state.  **proved.** Full claim for add, remove, replace, copy, test and every behaviour of the YAML library.  Theorems: `C10_failure_changes_nothing`.
* **C11** A failed move loses nothing -- expected to be refuted: witness `move /foo -> /foo/bar` and `move /l/0 -> /l/2`.  **partial.** Refuted twice (move below itself; move to the last index). Proved: the exact outcome in terms of the addition and the removal, for values that can be written (C11_outcome); for every value, the recipe is unchanged or differs exactly by the removal of the source; unchanged when the source cannot be read.  Theorems: `C11_move_into_itself_refuted`, `C11_move_to_last_refuted`, `C11_failed_move_partial`, `C11_outcome`, `C11_unreadable_source_partial`.
* **C12** remove deletes exactly the addressed element -- position-based tree edit specification, proved equal to the code's search-and-pop.  **partial.** Full claim for documents whose stored values have no duplicate mapping keys; "not found afterwards" needs unique sibling names and that the parent element does not degenerate to a comment line (that case is refuted).  Theorems: `C12_remove_deletes_exactly`, `C12_when_remove_succeeds`, `C12_removed_key_is_gone`, `C12_emptied_element_refuted`.
* **C13** replace substitutes exactly the addressed element -- position-based edit specification; frame lemma for all other positions.  **proved.** Full claim; the new lines are those produced for the value by generate_subtree.  Theorems: `C13_replace_substitutes_exactly`, `C13_when_replace_succeeds`.
* **C14** add follows the JSON-patch rules for keys, indices and the dash -- position-based edit specification per path shape.  **proved.** Full claim per kind of target, plus locality for every successful add.  Theorems: `C14_add_new_key`, `C14_add_existing_key`, `C14_add_at_index`, `C14_add_at_end`, `C14_add_is_local`.
* **C15** copy never alters its source and equals adding the value read there -- equational.  **proved.** Full claim.  Theorems: `C15_copy_is_add_of_the_read_value`, `C15_missing_source`, `C15_unreadable_source`.
* **C16** move is remove followed by add of the value read before; a move onto itself is a no-op -- equational.  **proved.** Full claim.  Theorems: `C16_move_is_remove_then_add`, `C16_move_onto_itself`.
* **C17** patch answers with a boolean for every valid patch -- expected to be refuted (index error); then the exact condition for the exception.  **partial.** Refuted (index out of range, empty source). Proved: remove always answers; for values that can be written, add, replace and copy raise exactly when the path ends in a number beyond the lines that are there (also below mappings; for add and copy also the path above the last component), a move also when the path is beyond the lines left after the removal.  Theorems: `C17_index_out_of_range_refuted`, `C17_empty_source_refuted`, `C17_remove_answers_partial`, `C17_named_replace_answers_partial`, `C17_named_add_answers_partial`, `C17_replace_answers`, `C17_add_answers`, `C17_copy_answers`, `C17_move_answers`.
* **C18** The modified flag and diff tell the truth over any history -- invariant over `fold_left` of operations.  **proved.** Full claim as stated (histories without failed moves; successful moves are allowed; the flag part holds for all histories). The refutation shows why failed moves are excluded.  Theorems: `C18_flag_set_by_success_only`, `C18_flag_never_returns`, `C18_unmodified_means_identical`, `C18_diff_compares_with_the_original`, `C18_failed_move_refuted`.
* **C19** Selector queries reflect the current document after any history -- invariant over `fold_left` of operations; refuted for add_comment.  **partial.** Full claim for histories of patches (no failed move), variable edits and selector edits. Refuted for add_comment and for failed moves.  Theorems: `C19_selector_queries_are_current`, `C19_add_comment_refuted`, `C19_failed_move_refuted`.
* **C20** Malformed patches are rejected before anything happens -- JSON schema modelled as a boolean function with an independent grammar.  **proved.** Full claim.  Theorems: `C20_schema_gate`.
* **C21** search_and_patch applies the patch to the hits in order and stops at the first failure -- loop modelled; refinement to a simple spec.  **proved.** Full claim; the regular expression is any predicate on text.  Theorems: `C21_search_and_patch`, `C21_true_means_all_applied`.
* **C22** Adding at the index of any list element inserts before it -- expected to be refuted for dictionary elements.  **partial.** Refuted for elements that are mappings; proved for plain elements. For every other existing target, add equals replace (C22_add_over_existing).  Theorems: `C22_insert_before_mapping_refuted`, `C22_add_over_existing`, `C22_insert_before_plain_partial`.
* **C23** A selector that was just set is the one reported -- selector regex modelled with a backtracking regex engine; read-after-write.  **partial.** Full claim for the addressed line (documents without emptied elements). "Other lines keep their comments" is refuted for a key with a single list element.  Theorems: `C23_selector_just_set_is_reported`, `C23_malformed_selector_rejected`, `C23_missing_path`, `C23_other_lines_refuted`.
* **C24** Conflicting selectors are combined as text '[old op new]' -- string lemma on bracket extraction.  **proved.** Full claim; the refutation documents that a note beside the old selector is dropped.  Theorems: `C24_selectors_are_joined`, `C24_plain_comment_is_kept`, `C24_note_beside_selector_refuted`.
* **C25** remove_selector removes the selector and only the selector -- read-after-write and frame.  **partial.** Full claim for one-line comments; "only the addressed line" is refuted for a key with a single list element.  Theorems: `C25_remove_selector`, `C25_nothing_to_remove`, `C25_missing_path`, `C25_other_lines_refuted`.
* **C26** add_comment never loses a selector -- string lemmas.  **proved.** Full claim.  Theorems: `C26_comment_keeps_selector`, `C26_comment_without_selector`, `C26_rejected`.
* **C27** Selector and comment edits never touch values -- comment-erasure function as observer.  **partial.** Full claim for documents without emptied elements; refuted for an emptied element.  Theorems: `C27_line_edits_keep_the_document`, `C27_same_document_same_answers`, `C27_emptied_element_refuted`.
* **C28** Selector path queries are repeatable -- mutable path lists modelled; expected to be refuted.  **partial.** Refuted: the second query in a row answers with one empty path, for every recipe. Proved: nothing but the stored paths of the queried selector changes; queries among edits change nothing of the document, its variables, the flag and the text; a successful patch or selector edit mends the table.  Theorems: `C28_second_query_is_empty`, `C28_mended_by_an_edit`, `C28_queries_change_no_document`, `C28_second_query_refuted`, `C28_other_answers_unchanged_partial`.
* **C29** Selector listing is complete and ordered -- collected table versus visit list.  **proved.** Full claim.  Theorems: `C29_selector_meaning`, `C29_no_selector_meaning`, `C29_listing_complete_and_ordered`, `C29_contains_exactly_those`, `C29_paths`, `C29_paths_nonempty`, `C29_table_is_current`.
* **C30** The comments table reports comments without selectors -- string lemmas.  **proved.** Full claim for documents whose comments are one line and start with a hash sign.  Theorems: `C30_comments_table`, `C30_paths_in_order`, `C30_which_lines`.
* **C31** Selector evaluation is set algebra over the known platforms -- shunting-yard parser modelled; compared with a recursive-descent semantics.  **proved.** Full claim: any white space, any case, V0 and V1.  Theorems: `C31_selected_platforms`, `C31_words`, `C31_unknown_words_select_nothing`.
* **C32** Selector evaluation respects the usual precedence of and over or -- expected to be refuted; positive for expressions with one kind of binary operator.  **partial.** Refuted (and before or is grouped to the right). Proved when no or stands to the right of an and; for every selector, nothing is selected that the usual reading does not select.  Theorems: `C32_precedence_refuted`, `C32_precedence_partial`, `C32_never_selects_more`, `C32_readings_exist`.
* **C33** Combining selectors with and/or combines their meaning -- expected to be refuted; positive when the old selector has no binary operator.  **partial.** Refuted. Exact meaning of the combined selector for every old and new selector (only the last operand of the old one is joined with the new one); the intended meaning follows when the old selector contains only the joining operator.  Theorems: `C33_combined_meaning_partial`, `C33_joined_with_the_last_operand`, `C33_last_operand_exists`, `C33_combined_meaning_refuted`.
* **C34** Platform tables are consistent -- finite tables; exhaustive proof over the finite enumerations.  **proved.** Full claim. The additional refutation records that linux-aarch64 and linux-riscv64 belong to no architecture.  Theorems: `C34_systems_partition`, `C34_unix_is_linux_and_osx`, `C34_platform_selects_itself`, `C34_tables`, `C34_enumerations_complete`, `C34_every_platform_has_an_arch_refuted`.
* **C35** does_selector_apply is membership of the query platform -- direct.  **partial.** Membership: full claim. Negation: proved for an operand; refuted in front of a whole expression, where it only negates the first operand.  Theorems: `C35_applies`, `C35_negation`, `C35_negation_of_expression_refuted`.
* **C36** Rendering a selector and parsing it back preserves equality -- token/whitespace lemmas.  **proved.** Full claim, for every text and both schema versions.  Theorems: `C36_render_and_reparse`.
* **C37** Jinja variables behave as an insertion-ordered map -- ordered association list; refinement to a map by induction over operations.  **proved.** Full claim, over histories mixing variable edits with all other edits.  Theorems: `C37_last_write_wins`, `C37_order_of_first_set`, `C37_distinct_names_initially`.
* **C38** Setting a variable is visible in the rendered recipe -- definition line for every V0 recipe, value read back for canonical recipes; refuted for V1.  **partial.** Old format: proved (definition line for every recipe; value read back for canonical recipes). New format: refuted, the rendered text ignores the variables.  Theorems: `C38_definition_line`, `C38_new_value_is_read_back`, `C38_new_format_refuted`.
* **C39** Rendering and re-parsing a recipe reproduces its tree -- line-level renderer and indentation-stack parser; YAML library as oracle with a line contract; induction over trees.  **proved.** Full claim for canonical documents (LayoutSpec.v): every nesting of keys, lists, mappings in lists, comments and text blocks whose lines the YAML library reads as themselves, including lines with Jinja expressions; text level, both formats.  Theorems: `C39_recipe_is_read_back`, `C39_tree_is_read_back`, `C39_rendered_layout`.
* **C40** A recipe may end with a multiline value -- refuted for every canonical page followed by a block.  **partial.** Refuted: for every canonical page followed by a text block, and for a nested block.  Theorems: `C40_final_block_refuted`, `C40_final_nested_block_refuted`.
* **C41** Rendering is stable -- stable for canonical recipes; refuted in general.  **partial.** Proved for canonical recipes; refuted in general (growing blank lines, lone empty key, quotes lost around numbers, oscillating quotes).  Theorems: `C41_canonical_text_is_stable_partial`, `C41_growing_text_refuted`, `C41_lone_key_refuted`, `C41_quoted_number_refuted`, `C41_oscillating_quotes_refuted`.
* **C42** Quoted strings are decoded back to the original -- json.dumps modelled on 7-bit strings with an independent decoder.  **proved.** Full claim, decoder stated after RFC 8259; also exactly which strings are quoted.  Theorems: `C42_quoted_form`, `C42_decoding_is_unique`, `C42_when_quoted`, `C42_when_verbatim`.
* **C43** Jinja markers are re-injected in order -- loop on fuel-free recursion over the substitution list.  **proved.** Full claim; also surplus expressions, and that the parser replaces Jinja expressions and undoes it.  Theorems: `C43_every_text_has_pieces`, `C43_expressions_in_order`, `C43_surplus_is_kept`, `C43_replaced_expressions`, `C43_replacement_is_undone`.
* **C44** Canonical key sorting is a stable permutation -- stable insertion sort versus Python's stable sort specification.  **proved.** Full claim, with the tables of the source as example.  Theorems: `C44_sorted_section`, `C44_sorting_never_fails`, `C44_sorting_is_determined`, `C44_sorting_twice`.
* **C45** Recipe equality and hash are determined by the rendered text -- equational, hash as an oracle.  **proved.** Full claim; hash as a parameter; additionally equal canonical recipes have equal trees and variables.  Theorems: `C45_equal_iff_same_text`, `C45_equality_is_an_equivalence`, `C45_equal_recipes_have_equal_hashes`, `C45_hash_decides_equality`, `C45_equal_canonical_recipes`.
* **C46** render_to_object agrees with the document -- denotation function as specification, for regular documents; refuted for five shapes outside.  **partial.** Proved for regular documents; refuted for top-level empty keys, top-level lists of values, nested lists of mappings, sections that start with an empty key, and empty keys inside list elements.  Theorems: `C46_object_of_regular_documents_partial`, `C46_empty_key_refuted`, `C46_list_of_values_refuted`, `C46_nested_mappings_refuted`, `C46_nested_empty_key_refuted`, `C46_lost_key_refuted`.
* **C47** Dependency section names convert both ways -- finite tables.  **proved.** Full claim, and exactly which spellings are accepted.  Theorems: `C47_section_names_round_trip`, `C47_distinct_sections_distinct_names`, `C47_accepted_spellings`.
* **C48** add_dependency honours its conflict mode -- state machine on top of the patch model.  **partial.** Proved for sections made of plain entries and comment lines; with a selector, appending assumes that the list is read with one entry more. Refuted for a section without entries, whose name is taken for its entries.  Theorems: `C48_ignore_keeps_the_recipe`, `C48_replace_overwrites_the_first`, `C48_exact_overwrites_the_position`, `C48_otherwise_appends`, `C48_missing_section_is_opened`, `C48_missing_requirements`, `C48_empty_section_refuted`.
* **C49** Only dependency paths are accepted for dependency edits -- grammar of paths.  **partial.** add: full claim. remove: refuted (the path is not looked at); proved that exactly the addressed line goes.  Theorems: `C49_add_needs_a_requirements_path`, `C49_accepted_paths`, `C49_remove_deletes_one_line`, `C49_failed_remove_keeps_the_recipe`, `C49_remove_any_path_refuted`.
* **C50** Top-level requirements reach every output -- dependency tables as association lists.  **partial.** C50_table_in_order: the table, with the order of the dependencies, and exactly when it can be made. Full claim about tables and about the whole of get_all_dependencies. Refuted for a section given as a text (taken letter by letter) and for an empty section (the call fails).  Theorems: `C50_top_level_reaches_every_package`, `C50_no_top_level_package`, `C50_dependency_table`, `C50_table_in_order`, `C50_package_names`, `C50_text_section_refuted`, `C50_empty_section_refuted`.
* **C51** A build-config lookup returns the first applicable entry -- list scan; first-match specification.  **partial.** Full claim, including how the table is read from the file. Refuted only for a file that writes a variable twice (values of the second list, selectors of the first).  Theorems: `C51_first_applicable_value`, `C51_unknown_variable`, `C51_default_never_fails`, `C51_table_of_the_file`, `C51_repeated_variable_refuted`.
* **C52** The dependency graph covers exactly the known packages -- fold over recipes; invariant.  **partial.** Full claim about owners, duplicates and edges, for every cache of recipes; names are compared as Python does. Refuted only that edge ends are package names: an unresolved template is a node of its own.  Theorems: `C52_first_definition_owns_the_name`, `C52_known_packages`, `C52_duplicates`, `C52_build_edges`, `C52_test_edges`, `C52_template_as_node_refuted`.
* **C53** Recipe graph statistics add up -- counting invariants.  **proved.** Full claim; C53_exactly: the recipes of the graph for every set of files (one for each digest). A further reading, that every file is counted, is refuted: identical files share a digest and count once; proved when digests and paths differ.  Theorems: `C53_packages`, `C53_recipes`, `C53_from_disk`, `C53_every_distinct_file`, `C53_identical_files_refuted`, `C53_exactly`.
* **C54** Fetcher accessors are unusable before a successful fetch -- state machine over histories.  **proved.** Full claim, over all sessions of fetches and accesses, for archives and repositories.  Theorems: `C54_http_fetch_required`, `C54_git_fetch_required`.
* **C55** A git fetch checks out the requested tag or revision -- expected to be refuted.  **partial.** Refuted: tags and revisions are ignored, local repositories cannot be fetched. Proved for sources with a branch only or with nothing requested, and what is checked out in general (C55_outcome, C55_one_outcome: every outcome).  Theorems: `C55_branch_partial`, `C55_unknown_branch_partial`, `C55_nothing_requested_partial`, `C55_only_the_branch_counts`, `C55_outcome`, `C55_one_outcome`, `C55_tag_refuted`, `C55_tag_with_branch_refuted`, `C55_unknown_revision_refuted`, `C55_local_repository_refuted`.
* **C56** SHA-256 retrieval retries a bounded number of times -- retry loop with an outcome script.  **proved.** Full claim: the waits are multiples of the retry interval; other exceptions are not retried.  Theorems: `C56_first_success`, `C56_five_failures`, `C56_other_exceptions`, `C56_waiting_is_bounded`.
* **C57** bump-recipe writes the file only on full success and never in dry-run -- CLI as a function from oracles to a trace of effects.  **proved.** Full claim for every outcome of the steps, and the exit codes of the failures.  Theorems: `C57_written_only_after_full_success`, `C57_exit_codes`, `C57_failed_download`.
* **C58** Bumping the version resets the build number -- expected to be refuted when both flags are given.  **partial.** Proved: the old number plus one exactly with --build-num, 0 otherwise or when missing. Refuted with both options. Assumes that the YAML library reads the written number back and that the number is a key of a mapping.  Theorems: `C58_build_number_partial`, `C58_both_options_refuted`.
* **C59** The patch command applies all patches or none -- expected to be refuted.  **partial.** Refuted: the file is written although a patch failed. Proved: what is written, when the exit code is success, and that unreadable input writes nothing.  Theorems: `C59_success_means_all_patches_partial`, `C59_unreadable_input_writes_nothing`, `C59_what_is_written`, `C59_failed_patch_refuted`.
* **C60** Bulk conversion return codes keep the most severe outcome -- decision table.  **partial.** Proved for the results of convert_file. Refuted for set_return_code on its own, which replaces an exception code when there are errors.  Theorems: `C60_errors_outrank_warnings`, `C60_results_of_a_conversion`, `C60_exception_code_refuted`, `C60_exit_codes`.
* **C61** Bulk conversion statistics add up -- counting over lists.  **partial.** C61_exceptions: the recipes with exceptions and their histogram. Proved with two codes that are in no bucket; refuted without them, and for directories of the same name, where the last result of a name counts (C61_repeated_names, C61_kept_once).  Theorems: `C61_statistics_partial`, `C61_exceptions`, `C61_buckets_refuted`, `C61_same_name_refuted`, `C61_kept_once`, `C61_repeated_names`.
* **C62** License correction never invents identifiers -- matcher as oracle constrained to candidates.  **proved.** C62_chosen, C62_one_choice: every case, for an arbitrary fuzzy matcher, with the list it is asked to choose from. The additional refutation records that an override value is no identifier.  Theorems: `C62_known_identifier_is_kept`, `C62_result_is_known`, `C62_compound_expressions_are_left_alone`, `C62_fixed_corrections`, `C62_chosen`, `C62_one_choice`, `C62_override_refuted`.
* **C63** Message tables count and keep messages in order -- histories.  **proved.** Full claim.  Theorems: `C63_messages_in_order`, `C63_counts`.
* **C64** Python dependency scan results are minimal -- sets as duplicate-free lists.  **partial.** The result is characterised exactly (for any equality that is an equivalence). Refuted: python imported by a test is reported twice; relative imports are reported. Proved otherwise.  Theorems: `C64_reported_dependencies`, `C64_reported_once`, `C64_order_of_files`, `C64_tests_not_in_run_partial`, `C64_unreadable_files`, `C64_python_in_tests_refuted`, `C64_relative_import_refuted`.
* **C65** V0 to V1 conversion of Python-version selectors -- regex engine and substitution.  **proved.** C65_python_versions: token by token. C65_every_expression: exact for every expression; C65_negated_versions_are_left: the substitution for `not py36` never matches, because the one before it has replaced py36 already. C65_only_words_refuted: the texts are also replaced inside of words (pypy36).  Theorems: `C65_python_versions`, `C65_every_expression`, `C65_negated_versions_are_left`, `C65_only_words_refuted`.
* **C66** Selectors that compare equal are interchangeable -- see note.  **proved.** Full claim.  Theorems: `C66_equal_selectors_select_the_same`, `C66_equality_is_an_equivalence`, `C66_same_words_are_equal`.
* **C67** Totals message states the exact counts -- histories of the message table.  **proved.** Full claim. The additional refutation records that the documentation promises an empty text without errors and warnings, but exceptions alone give a text.  Theorems: `C67_totals_message`, `C67_empty_when_nothing_was_logged`, `C67_exceptions_only_refuted`.
* **C68** The full name of a license is recognised -- matcher as oracle; last entry of the name wins.  **partial.** Refuted for names that contain "or", "and", "with" or a comma; proved for the others.  Theorems: `C68_full_name_is_recognised_partial`, `C68_name_with_or_refuted`.
* **C69** Checksum and archive type describe the fetched archive -- state machine over histories with failing steps.  **partial.** C69_any_session, C69_one_answer: what is reported after any calls (the last file written, the last kind recognised). The archive of the successful fetch as long as no later fetch is tried; refuted after a later fetch that fails half way.  Theorems: `C69_checksum_of_the_fetched_archive_partial`, `C69_any_session`, `C69_one_answer`, `C69_after_failed_refetch_refuted`.
* **C70** pyproject scan reports exactly the declared dependencies -- value of the project file as a parameter; sets as duplicate-free lists.  **partial.** Full claim. The refutations record how files with another layout behave.  Theorems: `C70_project_file_dependencies`, `C70_unusable_project_files`, `C70_text_instead_of_list_refuted`, `C70_wrong_layout_refuted`.
* **C71** One fetcher per supported source -- source section as a value; specification by cases on the source.  **partial.** Full claim. Refuted for mirrors (a list of urls becomes one text) and for an empty source section (AttributeError).  Theorems: `C71_list_of_sources`, `C71_single_source`, `C71_every_list_is_collected`, `C71_recipe_name`, `C71_mirrors_refuted`, `C71_empty_section_refuted`.
* **C72** A value that a patch sets is read back -- the subtree generated for a scalar is computed from a contract on one line of text; then the reader on the updated tree.  **proved.** Full claim for keys; the YAML library is a parameter.  Theorems: `C72_set_key_is_read_back`, `C72_added_key_is_read_back`.
* **C73** A patch leaves other places alone -- all edits are local updates at or below the patched key; induction along the common prefix.  **proved.** Full claim for paths that part at keys (not at list indices, where patches shift elements).  Theorems: `C73_other_keys_are_left_alone`, `C73_other_values_are_left_alone`.
* **C74** bump-recipe sets the version -- C72 and C73 along the steps of the command.  **partial.** Proved if the target is a text for YAML. Refuted for versions that look like a number.  Theorems: `C74_version_is_set_partial`, `C74_number_like_version_refuted`.
* **C75** bump-recipe sets the checksum of every archive -- C72 for each source, and a frame lemma for different list indices whose elements keep their appearance.  **proved.** Full claim; hypothesis: each checksum can be set as a text below its source.  Theorems: `C75_checksums_are_set`.
* **C76** The success threshold decides the exit code of bulk commands -- integer arithmetic; the ratio in hundredths.  **partial.** C76_decided: exactly when, except for halves. Proved up to half a percent; refuted because the ratio is rounded first.  Theorems: `C76_enough_successes`, `C76_too_few_successes_partial`, `C76_decided`, `C76_rounding_refuted`.
* **C77** Bulk build statistics add up -- fold over the table of results.  **proved.** Full claim for recipes with different names; C77_repeated_names: the last result of each name counts, compared with the number of all files.  Theorems: `C77_build_statistics`, `C77_messages`, `C77_no_files`, `C77_repeated_names`.
* **C78** Conversion proceeds by patches, and refused patches are reported -- the converter is a state monad over recipe and messages (Convert.v); `steps` in ConvertSpec.v; closed under all combinators.  **proved.** Full claim. The additional refutation records that a second call on the same object may give another text.  Theorems: `C78_every_step_is_a_patch_and_failures_are_reported`, `C78_messages_are_kept`, `C78_second_call_agrees_refuted`.
* **C79** The converted recipe is a V1 recipe in canonical order -- last lines of `render_to_v1_recipe_format`; order of C44.  **proved.** Full claim.  Theorems: `C79_result`.
* **C80** Variables become entries of the context section -- `_upgrade_jinja_to_context_obj`; which texts are computed is stated without regular expressions.  **partial.** Proved, except that values are kept: refuted, a text that looks like a number is read as the number afterwards.  Theorems: `C80_variables_become_the_context`, `C80_values_are_kept_refuted`.
* **C81** Tests are split without losing any -- `split_tests`, part of `_upgrade_test_section`; permutation.  **proved.** Full claim.  Theorems: `C81_tests_are_split`.
* **C82** The environment of build scripts is converted entry by entry -- `env_entries`; relation `env_reads` between entries and their meaning.  **proved.** Full claim for texts and conditionals. The additional refutation records that other entries raise AttributeError.  Theorems: `C82_script_environment`, `C82_every_entry_is_read_refuted`.
* **C83** Lost comments are reported -- `report_lost_comments`.  **partial.** Proved which comments are reported; refuted that no comment is lost silently (a note beside a selector).  Theorems: `C83_lost_comments_are_reported`, `C83_no_comment_is_lost_silently_refuted`.
* **C84** Expression markers are converted once -- `to_v1_marker`; text as pieces between markers.  **partial.** C84_every_marker: exact for every text, and the only such text (C84_only_one_result). C84_markers, C84_twice: converted once, for texts whose pieces do not touch the markers with braces; converting twice is refuted in general for three braces.  Theorems: `C84_markers`, `C84_twice`, `C84_twice_in_general_refuted`, `C84_every_marker`, `C84_only_one_result`.
* **C85** Pin arguments are renamed -- `pre_pins`; text as pieces between pins.  **proved.** Full claim, for every text (C85_every_pin, C85_only_one_result).  Theorems: `C85_pins`, `C85_every_pin`, `C85_only_one_result`.
* **C86** Pre-processing leaves other texts alone -- `pre_process_recipe_text`; every match of one of its patterns contains one of the idioms.  **proved.** Full claim.  Theorems: `C86_other_texts_are_left_alone`.
* **C87** Environment lookups are converted -- `pre_environ`; text as pieces between lookups; scan, then one replacement per match.  **partial.** C87_every_lookup: exact for every text. C87_environment_variables: every lookup is converted, if there is at most one per line, preceded by white space; refuted for two on a line, and if the same lookup occurs before without white space.  Theorems: `C87_environment_variables`, `C87_two_on_a_line_refuted`, `C87_other_use_is_replaced_refuted`, `C87_every_lookup`.
* **C88** Parsed documents are well formed -- invariant of `parse_loop` over all lines (WellProofs*.v); the small YAML reader of the examples is shown to satisfy the assumption.  **proved.** Proved: every parsed document is well formed, which gives the assumptions other theorems make about documents. Refuted: that comment lines stay comments (a comment indented less than the lines after it takes them for its own; a comment with a colon and > is taken for a block header). (The refutations are about more than the statement claims.)  Theorems: `C88_parsed_lines`, `C88_parsed_values`, `C88_consequences`, `C88_comment_captures_refuted`, `C88_comment_as_header_refuted`.
* **C89** Edits keep documents well formed -- every edit is an in-place change of the tree (`update_at`); the invariant of C88 is kept by each; then induction over the history.  **proved.** Proved as stated. Refuted without the condition: removing the only key of an element leaves an element without lines; texts that are empty, start with # or contain a colon are not written as elements, although the patch answers true.  Theorems: `C89_values_stay_proper`, `C89_lines_stay_well_formed`, `C89_remove_after_any_history`, `C89_line_edits_after_history`, `C89_emptied_element_refuted`, `C89_text_values_refuted`.
* **C90** The dependency paths are those of the members of the requirement sections -- Deps.v models get_dependency_paths; DepsSpec.v describes the paths independently (requirements_scope, dependency_line_path); DepsProofs2.v proves membership both ways and NoDup by injectivity of path texts.  **proved.** C90_in_order: the exact list and when it can be made. Membership in both directions, no duplicates, form of the paths; two refutations for texts and empty sections. (The statement excludes what is refuted.)  Theorems: `C90_dependency_paths`, `C90_in_order`, `C90_paths_lead_somewhere_refuted`, `C90_empty_section_refuted`.
* **C91** The selector step turns exactly the conditional lines into conditions -- PhaseProofs.v shows that a path keeps leading to its line while other lines are replaced (only the list flag, the comment flag and, for names, the value matter). PhaseProofs3.v keeps an invariant over the set of lines already converted: those are as specified, all lines not below them are unchanged, and the remaining paths still resolve. The table is shown to list each line with a selector exactly once (PhaseProofs5.v).  **proved.** The whole selector step, in its full length: the theorem fixes the resulting tree line by line. Hypotheses: addressable document, the selector table of the document, and `ready` (the new values can be written; a conditional text is one plain line that is not called like a key; a truth value with a selector is all there is below its key). C91_example_ready shows that `ready` holds for a recipe with all the cases.  Theorems: `C91_selectors_become_conditions`.
* **C92** Misspelled names of common fields are corrected and nothing else changes -- SectionSpec.v `misspellings_corrected`; theorem C92_misspellings via the `does` calculus of SectionProofs.v.  **partial.** Spec SectionSpec.v describes the step as a relation between trees (and message lists) in terms of lines removed, inserted, replaced; it does not call the converter. Hypothesis `without_errors`: the step reports no ERROR (a failed patch is reported so, C78). Refuted: a value already standing under the new name is lost silently; an empty key becomes a key whose value is its own old name.  Theorems: `C92_misspellings`, `C92_other_values_stay_refuted`, `C92_empty_key_refuted`.
* **C93** Source fields get their new names, in each source of a list -- SectionSpec.v `sources_upgraded`; theorem C93_sources.  **partial.** Spec SectionSpec.v describes the step as a relation between trees (and message lists) in terms of lines removed, inserted, replaced; it does not call the converter. Hypothesis `without_errors`: the step reports no ERROR (a failed patch is reported so, C78). Refuted: the claim that a renamed key stays alone in its list element: an element with one key leaves an empty element behind, and with a comment its key moves into the next source.  Theorems: `C93_sources`, `C93_elements_stay_refuted`, `C93_keys_stay_in_their_element_refuted`.
* **C94** The build and requirements sections are upgraded field by field -- SectionSpec.v `build_upgraded`, `script_upgraded`, `requirements_upgraded`; theorems C94_build, C94_requirements.  **proved.** Spec SectionSpec.v describes the step as a relation between trees (and message lists) in terms of lines removed, inserted, replaced; it does not call the converter. Hypothesis `without_errors`: the step reports no ERROR (a failed patch is reported so, C78).   Theorems: `C94_build`, `C94_requirements`.
* **C95** The about section is upgraded, with the license checked and a list summary joined -- SectionSpec.v `about_upgraded`; theorem C95_about.  **proved.** Spec SectionSpec.v describes the step as a relation between trees (and message lists) in terms of lines removed, inserted, replaced; it does not call the converter. Hypothesis `without_errors`: the step reports no ERROR (a failed patch is reported so, C78). The closest license is the function modelled and proved about in C62.  Theorems: `C95_about`.
* **C96** The test section becomes the list of tests of the new format -- SectionSpec.v `tests_upgraded`; theorem C96_tests.  **partial.** Spec SectionSpec.v describes the step as a relation between trees (and message lists) in terms of lines removed, inserted, replaced; it does not call the converter. Hypothesis `without_errors`: the step reports no ERROR (a failed patch is reported so, C78). Refuted: python with a version constraint is not recognised, an empty test section becomes a test named `test`.  Theorems: `C96_tests`, `C96_versioned_python_refuted`, `C96_empty_section_refuted`.
* **C97** With several outputs the package section becomes recipe and each output names its package -- SectionSpec.v `outputs_upgraded`; theorem C97_outputs.  **proved.** Spec SectionSpec.v describes the step as a relation between trees (and message lists) in terms of lines removed, inserted, replaced; it does not call the converter. Hypothesis `without_errors`: the step reports no ERROR (a failed patch is reported so, C78).   Theorems: `C97_outputs`.
* **C98** The context step moves the variables to a context section and rewrites every reference -- ContextSpec.v `context_upgraded`; theorem C98_context.  **proved.** Spec ContextSpec.v. Strengthens C80 (first occurrence and order of the context section). Hypothesis: no error reported; no variable twice in the table.  Theorems: `C98_context`.
* **C99** A search returns exactly the paths of the values that match, in document order -- ContextSpec.v `searched_text`, PathSpec.v `positions_where`; theorems C99_search_exact, C99_search_results_resolve.  **proved.** The regular expression is an arbitrary predicate on texts (re is not modelled).  Theorems: `C99_search_exact`, `C99_search_results_resolve`.
* **C100** A conversion without errors is the composition of its steps and nothing else -- ContextProofs.v `whole_conversion` combines all the step theorems; theorem C100_whole_conversion.  **proved.** The selector step is given by the model function here; C91 says what it does under its own conditions.  Theorems: `C100_whole_conversion`.
* **C101** Sections the converter has no rule for are carried over unchanged -- KeepSpec.v; proofs walk the relational description of all steps (C91, C98, C92 to C97, C44): every path used starts with a known name or with the first key of a line outside the section.  **proved.** C101_unknown_sections_stay: the node found at /<name> before is the node found after (Leibniz equality of the whole subtree). The names excluded are listed in KeepSpec.v `known_sections`. Hypotheses on the libraries: texts are read as proper values, and the keys context and schema_version are written as lines of that name.  Theorems: `C101_unknown_sections_stay`.
* **C102** A plot shows a package and everything that can be reached from it -- GraphCmd.v models _reverse_flag, _get_graph, plot; GraphCmdSpec.v states needs/toward/connected by the definitions of the recipes; the edge sets come from C52.  **partial.** Proved relative to `searches` (networkx.bfs_tree finds what can be reached and refuses a start that is no node; shown satisfiable by a verified search). Refuted: a known package without such dependencies is no node, so plotting it fails.  Theorems: `C102_plot_of_a_package`, `C102_plot_of_everything`, `C102_searches_exist`, `C102_known_package_without_plot_refuted`.
* **C103** Every line typed at the graph menu is answered -- GraphCmd.v menu_command/menu/graph_command; GraphCmdSpec.v `reply`, `session`; induction on the lines.  **partial.** C103_session: a session is the sequence of answers given by the relation `reply`; the only unanswered line is a plot of a package without such dependencies, which ends the program (refuted). Also refuted: names with capital letters are never found; with Python 3.11 every plot command ends the program; recipes that all fail to parse are reported as missing; statistics with duplicate names of different kinds. Timing, memory usage (pickle) and drawing are not modelled.  Theorems: `C103_session`, `C103_no_recipes`, `C103_sessions_end_alike`, `C103_plot_ends_the_program_refuted`, `C103_capital_letters_refuted`, `C103_python_3_11_refuted`, `C103_unparsable_recipes_refuted`, `C103_statistics_refuted`, `C103_statistics`.
* **C104** An edit of a comment or selector changes the end of one line of the text -- TextSpec.v states texts as lists of lines that differ in one place; TextProofs.v proves a general lemma (`context`): a change at one position of the tree changes the text there only, provided no line becomes or stops being the first of its element; instance for comments.  **partial.** C104_comment_edits_in_the_text, C104_in_parsed_recipes (after any considerate history). Needs begins_once: no mapping element repeats its first key. Refuted without it (an extra "- " appears), and for list elements that are mappings: a selector set there is reported by the getters but never appears in the text.  Theorems: `C104_comment_edits_in_the_text`, `C104_in_parsed_recipes`, `C104_lost_selector_refuted`, `C104_repeated_first_key_refuted`.
* **C105** Replacing a plain value changes that value in the text and nothing else -- Second instance of the lemma `context` of TextProofs.v, with the tree-level account of C13.  **partial.** The new value must be read back as one plain line (`written_as E v [plain_line w]`, about the YAML library). Refuted: the selector of the line is lost from the text although get_selector_at_path still reports it.  Theorems: `C105_replaced_value_in_the_text`, `C105_selector_is_lost_refuted`.
* **C106** A patch inside one section leaves the text of every other section as it is -- Confinement lemmas of FrameProofs.v applied to the first path component, plus a decomposition of the rendered text into sections.  **proved.** C106_other_sections_in_the_text for every operation, C106_every_edited_recipe discharges its assumption for all histories of parsed recipes.  Theorems: `C106_other_sections_in_the_text`, `C106_every_edited_recipe`.
* **C107** The hash-type variable is taken out of a recipe text exactly where it is used -- HashSpec.v: a text is pieces and marks, with what each mark becomes. HashProofs.v: no variant can straddle two pieces, each removal takes out exactly the lines of its variant, then the substitution is followed match by match.  **proved.** C107_hash_type_is_taken_out, C107_other_text_is_kept. Refuted claims: that a key only becomes sha256 when the variable is sha256 (an MD5 sum is then declared as SHA-256), and that the variable is only removed when it is not used elsewhere. C107_every_text: exact for every text.  Theorems: `C107_every_text`, `C107_hash_type_is_taken_out`, `C107_other_text_is_kept`, `C107_other_hash_refuted`, `C107_still_used_refuted`.
* **C108** The errors of a build are the lines that start with the word Error -- ReportSpec.v describes outputs as messages and other text; ReportProofs.v follows the regular expression match by match.  **proved.** C108_error_messages, C108_every_output (every output has that form). Refuted: that a message is recorded as a whole; further lines of a message are dropped.  Theorems: `C108_error_messages`, `C108_every_output`, `C108_cut_message_refuted`.
* **C109** The debug file lists every message once with exactly the recipes that have it, most frequent first -- ReportProofs.v: the keys of the histogram are the first appearances; stable sorting lemmas of C44 reused for the reversed order.  **proved.** C109_debug_file: the conjuncts determine the groups and their order completely.  Theorems: `C109_debug_file`.
* **C110** A build configuration lists and contains exactly its variables with values -- Corollary of the table of C51, with the lookup of names.  **proved.** C110_listed_variables. Refuted: that every variable of the file is known; a variable with a single value instead of a list is not.  Theorems: `C110_listed_variables`, `C110_single_value_refuted`.
* **C111** Statistics of CI runs are added up, and percentages divided by the number of runs -- ScriptsProofs.v: invariant of the accumulation over all entries of all tables.  **proved.** C111_statistics (an equivalence that determines the result). Refuted: that a percentage is the average over the runs that report it.  Theorems: `C111_statistics`, `C111_average_of_reports_refuted`.
* **C112** The log reader finds exactly the objects written between braces on lines of their own -- ScriptsSpec.v describes logs as parts; ScriptsProofs2.v: the stamp pattern matches exactly the stamps, no match goes over a line end, and the index arithmetic selects exactly the lines of each object. LogSpec.v / LogProofs.v: for arbitrary lines, where the text of each closing brace begins, proved unique, and the exact outcome (if and only if).  **proved.** C112_logs; C112_any_lines is the exact outcome, with every exception, for arbitrary lines. Refuted: that every JSON object in a log is found.  Theorems: `C112_logs`, `C112_any_lines`, `C112_every_object_refuted`.
* **C113** The CI summary counts every result of a test and keeps the last value of each pulled field -- ScriptsProofs3.v: invariant of the table of tests over both phases.  **proved.** C113_summary, C113_summary_exists. Refuted: that test_count is the number of conversions run.  Theorems: `C113_summary`, `C113_summary_exists`, `C113_count_of_conversions_refuted`.
* **C114** Excluded repositories are never selected and a recipe comes from the first branch that answers -- ScriptsProofs3.v, with random.sample and sets described by their specifications.  **proved.** C114_picked, C114_fetched, C114_no_organisation, C114_counted. Refuted: that a list of bare repository names excludes anything; that two fetched repositories give two files.  Theorems: `C114_picked`, `C114_fetched`, `C114_no_organisation`, `C114_counted`, `C114_bare_names_excluded_refuted`, `C114_one_file_each_refuted`.
* **C115** A successful conversion of a file writes exactly the result of an error-free upgrade of the text that was read -- ConvertCmdProofs.v: case analysis of convert_file and the whole-conversion theorem applied to the copy read back from the rendered recipe.  **proved.** C115_converted_file (uses the chain of C100), C115_only_old_recipes.  Theorems: `C115_converted_file`, `C115_only_old_recipes`.
* **C116** A bulk conversion treats every recipe as if alone and writes distinct files beside the recipes -- ConvertCmdProofs.v: paths are an injective rendering of components; the report counts come from C61.  **partial.** C116_directory, C116_directory_with_one_recipe, C116_directory_without_recipes. Refuted: distinct outputs for an absolute output path; output beside the only recipe; recipes kept when the output is called meta.yaml.  Theorems: `C116_directory`, `C116_directory_with_one_recipe`, `C116_directory_without_recipes`, `C116_absolute_output`, `C116_distinct_outputs_refuted`, `C116_one_recipe_beside_refuted`, `C116_recipes_kept_refuted`.
* **C117** A recipe that uses nothing the new format renamed or dropped keeps every line -- PlainProofs.v: every section step of C92 to C97 is shown harmless when the paths it looks for are absent; rearrangements keep that absence and the about section; the last sort is C44.  **proved.** C117_nothing_left_to_upgrade, C117_all_lines_stay. Assumed about the YAML writer: {schema_version: 1} is written as one key with the value 1.  Theorems: `C117_nothing_left_to_upgrade`, `C117_all_lines_stay`.
* **C118** Pre-processing takes out exactly the empty parentheses of the case functions -- PreProofs.v: a general lemma about substitutions whose matches are characterised by a form (sub_all_of), instantiated; the forms are prefix-free.  **proved.** C118_empty_parentheses, C118_only_one_result. C118_other_functions_refuted: the parentheses of any other function without arguments stay.  Theorems: `C118_empty_parentheses`, `C118_only_one_result`, `C118_other_functions_refuted`.
* **C119** Pre-processing turns the last dot before a call into a bar -- PreProofs.v: soundness gives the parts of a match, completeness of the matcher with the greedy star (star_max) shows that no later dot would do.  **proved.** C119_functions_after_a_dot. Refuted: all calls of a line or chain are converted (C119_every_call_refuted); text literals are kept (C119_texts_are_kept_refuted: the dot of a web address becomes a bar).  Theorems: `C119_functions_after_a_dot`, `C119_every_call_refuted`, `C119_texts_are_kept_refuted`.
* **C120** Pre-processing turns a quoted value with an escaped end of line into a block -- PreProofs.v: as for C119, with four greedy parts.  **proved.** C120_quoted_lines. Refuted: the result is a block (first line of the text), the block has two lines (empty line before the key), all escapes become ends of lines.  Theorems: `C120_quoted_lines`, `C120_block_on_the_first_line_refuted`, `C120_two_lines_refuted`, `C120_every_line_refuted`.
* **C121** Pre-processing is nine replacements in a fixed order and nothing else -- PreProofs2.v: composition of C84/C85/C87/C107/C118/C119/C120 in their unconditional form.  **proved.** C121_pre_processing. C121_lookup_by_method_refuted: a lookup environ.get(..) becomes a filter `environ | get(..)`.  Theorems: `C121_pre_processing`, `C121_lookup_by_method_refuted`.
* **C122** The references of a variable are the texts that mention it inside an expression -- RefSpec.v states what a mention is; RefProofs.v: language of the regular expression, then C08.  **partial.** C122_references, C122_decided, C122_unknown_variable: exact. Two readings of the documentation ("a list of paths that use particular variables") are refuted: names that contain the name, and the name between two expressions, are listed (C122_only_references_refuted); references inside a multiline text are not (C122_every_reference_refuted). The dot of a name stands for any character (C122_plain_name, C122_dot_refuted); other special characters of regular expressions in a name are taken literally in the model.  Theorems: `C122_references`, `C122_decided`, `C122_unknown_variable`, `C122_plain_name`, `C122_only_references_refuted`, `C122_every_reference_refuted`, `C122_dot_refuted`.
* **C123** The value read at a path is what YAML reads from the text written there -- ValueSpec.v gives the value by the form of the entry (relation value_read over items of LayoutSpec.v); ValueProofs.v shows that the lines rendered for a key are the page of its entries.  **partial.** C123_value_read, C123_whole_recipe: exact for every form of entry; C123_value_filled, C123_whole_recipe_filled: with variables (filled_in; the depth is bounded by the recursion limit, a parameter of the environment). The natural reading (the value denoted by the document) is refuted for list elements that are mappings (unreadable, or a list if there is one key), lists with one number (read as the number), keys without value (read as their name) and quoted numbers.  Theorems: `C123_value_read`, `C123_whole_recipe`, `C123_value_filled`, `C123_whole_recipe_filled`, `C123_mapping_element_refuted`, `C123_other_values_refuted`.
* **C124** Variables in a text are replaced by their values -- SubstSpec.v says what each form of expression becomes (evaluates, becomes) without the patterns of the program; SubstProofs*.v show what the four searches find in each form and that replacing one after the other replaces exactly the expressions.  **partial.** C124_replaced, C124_read: exact result for every such text. Not covered: several sums in one expression, filters or elements within a sum, repeated filters. Refuted for: sums of three operands (the third is dropped), filters behind a sum (ignored), upper before lower (the result is upper case), values that hold expressions (replaced or not depending on the order), texts with a double quote in a sum (the result is not YAML).  Theorems: `C124_replaced`, `C124_read`, `C124_sums_refuted`, `C124_filter_order_refuted`, `C124_values_kept_refuted`, `C124_quotes_refuted`.
* **C125** The variables of an old-format recipe are those that its statements set -- SetSpec.v describes the text as statements with other text around them, and the table by names and last statements, without the pattern of the program; SetProofs*.v show what the pattern matches at each position (including the empty lines it swallows) and what the slices of the match are.  **partial.** C125_table, C125_recipe: exact table. Refuted: a statement in a comment counts; of two statements on one line only the first counts; a statement on a last line without line break does not count; {%- set … is not found and … -%} puts a dash into the value; a value with the closing sign is cut; {% settle = 1 %} is taken for a statement.  Theorems: `C125_table`, `C125_recipe`, `C125_comment_refuted`, `C125_same_line_refuted`, `C125_last_line_refuted`, `C125_dash_refuted`, `C125_closing_refuted`, `C125_word_refuted`.
* **C126** The lines of Jinja are taken out before a text is read -- CutSpec.v says line by line what remains, without the pattern; CutProofs.v shows that the substitution gives it and that it is the only such text.  **partial.** C126_taken_out, C126_one_result: exact result for every text; C126_same_tree, C126_first_line, C126_line: consequences for the tree. Refuted: the line after a commented-out statement is swallowed by the comment (its field is lost); a statement followed by a space or on a last line without line break stays in the text.  Theorems: `C126_taken_out`, `C126_one_result`, `C126_same_tree`, `C126_first_line`, `C126_line`, `C126_next_line_refuted`, `C126_kept_refuted`.
* **C127** A converted recipe is read again as a recipe of the new format -- The steps of C91, C98 and C93-C97 are followed for the key schema_version (absent before, version_line afterwards; KeepProofs2.good with a flag), then the round trip of C39 is applied to the result.  **partial.** C127_version_line: no later step touches the line. C127_read_again_partial: results in canonical layout (C39) are read back. Refuted: if the section that comes last ends with a block of text, the converted file cannot be read at all (C40); after the keys of a source have been put in order the comment of the former first key stays with the element, so the tree read differs.  Theorems: `C127_version_line`, `C127_read_again_partial`, `C127_last_block_refuted`, `C127_element_comment_refuted`.
* **C128** The converted file has the same entries as the file that was read -- C117 gives a rearranged tree; SimpleProofs.v shows that rearranging the tree of canonical entries gives the tree of reordered canonical entries; then C39 and C127.  **proved.** From text to text, through reading, converting, writing and reading again. SimpleSpec.v: what entries in another order are.  Theorems: `C128_same_entries_in_the_new_file`.
* **C129** A recipe that needs no change is converted, without errors -- GoesProofs.v: every step of the conversion is shown to succeed in a state where nothing old is left and to lead to such a state again (with PlainProofs.v).  **proved.** GoesSpec.v: what has to be readable. The theorem is about recipes with the named properties; the two refutations show what happens with other ones.  Theorems: `C129_converted`, `C129_file_to_file`, `C129_list_of_licenses_refuted`, `C129_outputs_refuted`.
* **C130** The text for debugging shows every line of the tree, in order -- DebugProofs.v: preorder of positions and a parser-like argument about the indentation of the following lines (forest_same). DebugProofs2.v: the whole text and the text of one node; equal texts of nodes are split at their last line ends, quoting of comments is undone by a small decoder (unescape_repr).  **proved.** Debug.v: the listing is a list of lines (joined with line ends in `__str__`); names may contain line ends, so the statement about equal listings is about the list of lines. The name of the class is a parameter of recipe_str. C130_text and C130_node give the complete texts line by line; repr of comments escapes only backslash, quote, newline, tab and carriage return.  Theorems: `C130_lines`, `C130_one_name`, `C130_same_outline`, `C130_table`, `C130_text`, `C130_node`, `C130_node_same`.
* **C131** A text of several lines is written as a block of these lines -- BlockProofs.v: as for C105, with what is known of the line above the changed line (context_above).  **proved.** BlockSpec.v defines the lines of a text without the model (text_lines), what is written for a value (value_lines) and the change of the text. The refutations show the two places where a list of Python is written instead.  Theorems: `C131_written`, `C131_lines`, `C131_text`, `C131_read_back`, `C131_first_key_refuted`, `C131_element_refuted`.
* **C132** A recipe with variables and expressions is converted -- VarsProofs.v: renew is a function with a set of places; replacing one value adds one place, and paths do not change. VarsProofs2.v: all places, in any order. VarsProofs3.v: the variables, the sections (as in C129) and the end of the conversion. VarsProofs5.v: the same for texts, with the results about the canonical layout (C41) and reading again (C127).  **proved.** VarsSpec.v defines the new tree as a relation between trees without the model (renewed, with_context, with_version); markers_changed is the relation of C84. Conditions: the section for the variables, the version line and the new values are written as one expects (writes_context, writes_version, expressions_fit), license and summary are as in C129, and the new section is read as a mapping. VarsSpec2.v says the same about the lines of a text (new_markers, context_items); C132_file_to_file asks that the new lines are canonical.  Theorems: `C132_converted`, `C132_one_result`, `C132_a_result`, `C132_comment_refuted`, `C132_file_to_file`.
* **C133** A recipe with old names in the section about is converted -- AboutProofs.v, AboutProofs2.v: one move and one removal as operations on the list of lines, then the three moves and the six removals. AboutProofs3.v: the steps before and after `about` neither depend on the old names there nor change the section (late = false in PlainProofs.v and GoesProofs.v).  **proved.** AboutSpec.v defines the new section as a relation between trees without the model (kept_lines, new_line, about_renewed) and the warnings (told_of_dropped). Conditions as in C132, and about_in_order; the values of the renamed fields can be read (get_value) and are written as one line with the new name (written_as). The warnings of the dropped fields are a contiguous part of all new warnings. Refuted without about_in_order: repeated names.  Theorems: `C133_converted`, `C133_one_result`, `C133_repeated_refuted`.
* **C134** A recipe with old names in source, build, requirements and about is converted -- RenameProofs.v: a section as a list of lines, one move and one removal (any section). RenameProofs2.v: all moves, removals and the sort of a section given by a table of names. RenameProofs3.v: an invariant over the sections (done, or still to do). RenameProofs4.v: the steps of the conversion in turn. RenameProofs5.v: the result is unique, and checks that compute the hypotheses. RenameProofs6.v: from file to file, with C132 and C127.  **proved.** RenameSpec.v lists the names and defines the new tree as a relation between trees without the model (other_lines, renamed_line, section_renewed, names_renewed) and the warnings (told_dropped, license_told). Conditions as in C132 (variables, expressions, comments with paths), only_renamed (not covered: fields of build that move elsewhere, svn_url, hg_url, sections extras, test, outputs), values_fine (the source is no list, the license is not corrected, the summary is no list), section_in_order. Refuted outside these: a value under the new name is overwritten, and a list of sources.  Theorems: `C134_converted`, `C134_one_result`, `C134_file_to_file`, `C134_both_names_refuted`, `C134_source_list_refuted`.
* **C135** The section upgrades do exactly what is described, and nothing else is possible -- CanProofs.v: the converse of the facts about single patches. CanProofs2.v to CanProofs4.v: a converse of the Hoare-style triples of SectionProofs.v (can: what the change says can be done is done), section by section.  **proved.** SectionSpec.v (the relations of C92 to C97, between the tree and warnings before and after; not in terms of the upgrade functions). For this the relations were made precise: a value can only be taken away or replaced where a line or list element stands (own_line), a key can only move where there is a place for it before the move (place_for), a text is only looked for in what Python can search (searchable). Hypotheses: the YAML reader returns mappings with distinct keys (reads_proper) and so does the tree (proper_tree), which reading a recipe guarantees (C88).  Theorems: `C135_misspellings`, `C135_sources`, `C135_build`, `C135_requirements`, `C135_about`, `C135_tests`, `C135_outputs`, `C135_sections`, `C135_one_outcome`.
* **C136** The context step and the whole conversion do exactly what is described -- CanProofs5.v: replacing at any absolute path has one outcome, and succeeds when one is described (this needed a sharper C13: the plain element is replaced only when the path ends in a number); every path that a search returns is absolute or empty; then the converse triples of C135 for the context, and the steps put together.  **proved.** CanSpec.v (conversion, top_in_order, lost_comments), ContextSpec.v (context_upgraded), SectionSpec.v. Hypotheses: the YAML reader returns mappings with distinct keys (reads_proper) and so does the tree (proper_tree); variables have distinct names, as reading them guarantees; each comment after a line has a path (comments_have_paths; otherwise looking up the comment fails; proved for a recipe that was read from a text and whose keys can be addressed); the order in which Python walks through a set of paths adds none.  Theorems: `C136_context`, `C136_conversion`, `C136_no_selectors`, `C136_from_a_text`, `C136_one_outcome`.
* **C137** bump-recipe writes the same page with the new build number, version and checksums in their places -- BumpProofs.v: the position of a path in the tree of a document (named entries and numbered elements), the edits of C22 at that position, one step of the command after the other, then C39 for reading and writing the page.  **proved.** BumpSpec.v (value_set, variable_set, file_bumped, value_line_differs), on top of the page of LayoutSpec.v. Conditions: old and new recipe are canonical, the file holds none of the hash-type marks of C107, and the new values are written as one plain line. C137_file_to_file is for values that are there already; C137_missing_values_are_added (BumpSpec2.v: written_at, number_put, version_put, sums_put, file_put) also for values that are missing and for values that are the first of their mapping. C137_comment_is_lost_refuted shows that the condition on comments is needed.  Theorems: `C137_file_to_file`, `C137_one_line`, `C137_comment_is_lost_refuted`, `C137_missing_values_are_added`.
* **C138** the patch command writes the page of the edited entries -- EditProofs.v: the position of a path in the tree of a document, the uniqueness of the changes of C12-C16 and C22 at that position, one patch after the other, then C39 for reading and writing the page.  **proved.** EditSpec.v (inside, file_edited, edited_in_turn, block_differs), on top of the page of LayoutSpec.v. Conditions: the old and the new recipe are canonical; a replaced plain value has no comment on its line (C137_comment_is_lost_refuted shows why), and a replaced mapping of a list has none. The lines a value is written as come from the generated subtree (written_as, C13); the value that copy and move read comes from get_value (C06-C08). Patches that fail are C10, C17 and C108.  Theorems: `C138_file_to_file`, `C138_one_block`, `C138_one_patch`.
* **C139** adding and removing a dependency changes one line of the file -- DepFileProofs.v: C48 at the position of the section (EditProofs.v), uniqueness of the changed tree, then C39 for reading and writing the page.  **proved.** DepFileSpec.v (dependency_added, section_changed, line_at_end, line_instead, section_opened). The values that the section is read as come from get_value (C06-C08, C123); the text of the dependency is written as one line (plain_dependency); for a selector on a line at the end the section with the new line must be read as a list of that many values. The selector of a dependency that opens a section stands on the line of the section too (C48). The old and the new recipe are canonical.  Theorems: `C139_file_to_file`, `C139_one_dependency`, `C139_removed`, `C139_ignored`.
* **C140** the commands on files of the new format -- NewFileProofs.v: detection of the format and reading of the variables, then the lemmas of C137-C139, which hold for both formats, and the rendering of the new format (C39).  **partial.** NewFileSpec.v (new_file: marked_new, context_read), with the relations of C137, C138 and C139 for the new format. Proved except for the last sentence, which is refuted: where the version (or a checksum) is in a variable of the section "context", bump-recipe changes the table of variables, which is never written for the new format; it ends with success and the file has the old version. C140_bumped says exactly that: the new variables do not occur in the text.  Theorems: `C140_read_and_written`, `C140_patched`, `C140_dependency_added`, `C140_bumped`, `C140_version_in_context_refuted`.
* **C141** an edit of a file can be undone, to the last character -- UndoProofs.v: the relation `inside` can be turned round, so each edit of C138 has an inverse edit; then C138, C139 and C140 for the files.  **proved.** UndoSpec.v (undone_by: six pairs of requests; dependency_at_end). The entries before and after the edit are canonical. C141_comment_refuted and C141_removed_first_key_refuted show that the conditions on comments and on the place of a removed key are needed.  Theorems: `C141_undone`, `C141_undone_in_new_format`, `C141_dependency_undone`, `C141_comment_refuted`, `C141_removed_first_key_refuted`.
* **C142** bump-recipe to the same version twice writes the same file as once -- TwiceProofs.v: a value that is set stays set while values at other places are set (`stays`), so after the run all the values are in their places, and the second run is C137 from the file to itself.  **proved.** TwiceSpec.v (bumped_to: the three steps of C137, plus: the written file can be read, lists the same archives and keeps checksums in the same places). Old format only; the network gives the same answers in both runs.  Theorems: `C142_twice`.
* **C143** Selector and comment edits of a file change the comments of the addressed lines and nothing else -- CommentFileProofs.v: the positions of C138 (inside_at), the equations of C23-C26 for the new comment, exact results of cutting out a selector, and the round trip of C39.  **proved.** CommentFileSpec.v (commented, comment_becomes, line_edited). Lines that are not covered: the first key of a mapping in a list, the mapping itself (refuted in C104: its selector is not written) and keys with a block of text. Notes have no hash sign and no closing bracket.  Theorems: `C143_file_to_file`, `C143_in_new_format`, `C143_undone`, `C143_one_line`.
* **C144** A session of any calls on a file writes the page of the entries and variables that the calls describe -- SessionProofs.v: each call maps the tree of the entries and the table of variables to those described (C138 edit_once, C139 add_once, C143 edit_done, dset/ddel on unique keys); induction on the sequence; round trip of C39 at both ends.  **proved.** SessionSpec.v (action, acted_in_turn). Each single call must be one of those described in C138, C139 and C143 (file_edited, dependency_added, line_edited); the first and the last page, but not those in between, must be canonical. In the new format the table of variables is not written (C38), so there only the tree is compared.  Theorems: `C144_session`, `C144_session_in_new_format`, `C144_variable_line`.
* **C145** The queries on a file report exactly what its lines say, in the order of the lines -- QueryProofs.v: the sequence of nodes visited by traverse_all on the tree of the entries is matched row by row (induction on the entries, numbering via the index tables of C05); each query is then a fold over the rows; round trip of C39 at the beginning. Selectors after a session: every accepted call other than add_comment leaves the table equal to the one collected from the tree (HistProofs.v step).  **proved.** QuerySpec.v (rows of a file, answers). The file has an entry and no key that is a single slash (paths do not show it). get_selector_paths is described for selectors that no comment line contains: a comment line is listed under the name of an internal object. The comments table is described for comments of the usual forms (plain, selector, selector and note) on lines with distinct paths. add_comment is left out for the selector queries after a session, since it can leave the selector table behind (C145_selectors_after_comment_refuted).  Theorems: `C145_answers`, `C145_answers_in_new_format`, `C145_answers_after_session`, `C145_selectors_after_session`, `C145_selectors_after_comment_refuted`.
* **C146** What is found at the path of a line of a file is what the line says -- LineProofs.v: the nodes shown by the rows (C145) are at positions of the tree; path resolution of C03 extended from values to all lines; then the lookups by computation.  **proved.** LineSpec.v (line_found; the lines are those of C145). Without different keys it is false: of two lines "number: 3  # [linux]" and "number: 103  # [win]" only the first is found (C146_same_key_refuted). The values of sections, mappings and blocks are described by C123.  Theorems: `C146_found`, `C146_found_in_new_format`, `C146_found_after_session`, `C146_same_key_refuted`.
* **C147** The dependencies of a file are the lines of its requirement sections -- DepListProofs.v: the table of C50 (c50_in_order, c50_names), the values at /package/name and /requirements, and the selector of every line, by the entries of C148.  **proved.** DepListSpec.v (section_lists, requirement_lines, file_dependencies). What YAML and Jinja read from the texts is a premise (value_filled, C123). A section must be read as a list: with "run: pip" every letter of the text is a dependency (C147_one_text_refuted). Files with outputs: C149.  Theorems: `C147_dependencies`, `C147_dependencies_in_new_format`, `C147_dependencies_after_session`, `C147_one_text_refuted`.
* **C148** The value at the path of every entry of a file -- EntryProofs.v: the position of an entry in the tree and its path by induction on entry_at; path resolution as in C146; the value by C123, for first entries of mappings under weaker conditions (readable).  **proved.** EntrySpec.v (entry_at, entries_read). What an entry is read as is said by ValueSpec.v (value_read, value_filled), including the unexpected cases recorded at C123 (mappings in lists, lists with one number, keys without value); here it is carried from a given node to every entry of every file.  Theorems: `C148_values`, `C148_values_in_new_format`, `C148_values_after_session`, `C148_entries_are_lines`.
* **C149** The dependencies of a file with outputs are the lines of its requirement sections -- DepListProofs.v: the table of C50 (c50_in_order, c50_names); the values and selectors at the paths of the entries by C148; requirements that are not there by path resolution (missing_at_top, missing_in).  **proved.** DepListSpec.v (packages_of_file, scope_dependencies, named). What YAML and Jinja read from the texts is a premise (value_read, value_filled: C123); also that the section outputs is read as a list with one value per output. With an output that has the name of the file the call fails (C149_same_name_refuted).  Theorems: `C149_dependencies`, `C149_dependencies_in_new_format`, `C149_dependencies_after_session`, `C149_same_name_refuted`.
* **C150** The paths of the dependencies of a file are the paths of the lines of its requirement sections -- DepPathProofs.v: the list of C90 (c90_in_order) with the sizes of the sections from C148; sections that are not there by path resolution (nothing_found); every number below the size is the number of a line (line_number).  **proved.** DepPathSpec.v (dependency_paths, lines_at, nothing_at, leads_to_line). That YAML reads a section as a list with one value per line, and the outputs as a list, is a premise (value_read: C123).  Theorems: `C150_paths`, `C150_paths_in_new_format`, `C150_paths_after_session`.
* **C151** The table of dependencies of a file and its list of dependency paths agree -- AgreeProofs.v: a reported path is that of a line of a section (required_numbers); the section at a place and its number of lines are unique (entry_lookup, section_size); so the number is below the size that C150 lists.  **proved.** AgreeSpec.v (usual_sections, dependencies_in_file, reported_paths_in) with the vocabulary of C147, C149 and C150. What YAML and Jinja read from the texts is a premise, as there. The two refutations show why the names of the sections matter.  Theorems: `C151_agree`, `C151_agree_in_new_format`, `C151_agree_after_session`, `C151_all_reported`, `C151_all_reported_in_new_format`, `C151_all_reported_after_session`, `C151_run_exports_refuted`, `C151_kinds_of_exports_refuted`.
* **C152** The packages of a file are the file and its outputs, under the names in their lines -- PackageProofs.v: the values of the names by C148, a missing section outputs by missing_at_top; the table by c50_names of C50 and the name by c71_name of C71.  **proved.** PackageSpec.v (packages_listed, packages_answered). What YAML and Jinja read from the texts is a premise (value_read, value_filled: C123), also that the section outputs is read as a list with one value per output.  Theorems: `C152_packages`, `C152_packages_in_new_format`, `C152_packages_after_session`.
* **C153** The sources of a file are the mappings in its section source -- SourceProofs.v: the value of the section by C148, the name by C152, the sources by c71_list and c71_single of C71; every number below the length is the number of an element (mapping_number).  **proved.** SourceSpec.v (recipe_called, sources_listed, sources_found) with the vocabulary of C71 and C152; the file has a name. What YAML and Jinja read from the section is a premise (value_filled: C123), also that a list has one mapping per element.  Theorems: `C153_sources`, `C153_sources_in_new_format`, `C153_sources_after_session`.
* **C154** Searching a file finds the matching lines, in order -- MentionProofs.v: the nodes of the tree are those of the lines of the file (walk_file of C145), keys are known (known_item), then line by line.  **partial.** MentionSpec.v (searched, references_found) with the lines of a file of C145 and `mentions` of C122. Not so: comments on the first line of a block are not searched (C154_block_comment_refuted), and variables in the lines of a block are not reported (C154_block_references_refuted).  Theorems: `C154_searched`, `C154_searched_in_new_format`, `C154_searched_after_session`, `C154_block_comment_refuted`, `C154_block_references_refuted`.
* **C155** A patch on a search result changes the matching lines of the file, in order -- SweepProofs.v: the paths are those of C154, each patch succeeds by edit_once of C138, the loop by c21.  **partial.** SweepSpec.v (lines_found, swept) with the edits of C138 and the lines of C154. A patch that fails is the subject of C21. That the edits are made on the lines that matched is false for remove: the numbers of later elements change (C155_removed_lines_refuted), which is why the theorem speaks of the edits at the paths before the first patch.  Theorems: `C155_all_lines`, `C155_all_lines_in_new_format`, `C155_no_line`, `C155_removed_lines_refuted`.
* **C156** The differences shown for a file are those between the file read and the file written -- FileDiffProofs.v: the text written by C144, the flag and the original text call by call (made_flag; dependency_flag for added dependencies); idle calls leave entries and variables as they are (idle_same).  **proved.** FileDiffSpec.v (idle, differences). difflib is any function of the two lists of lines.  Theorems: `C156_differences`, `C156_differences_in_new_format`.
* **C157** Calls that are refused leave no trace in a file -- RefusalProofs.v: a refused call leaves the recipe as it is (refused_same, from the steps of C18), so both sequences end in the same recipe (refusals_same); then C156.  **proved.** RefusalSpec.v (refused, with_refusals). remove_selector that finds no selector counts as refused. Refused calls of add_dependency and failed moves are not covered.  Theorems: `C157_refusals`, `C157_refusals_in_new_format`.

## Findings

Behaviour of the source found while modelling; (R) marks those with a `_refuted` theorem.

* `contains_value("")` raises IndexError.  The path of the root prints as "" (R, C01).  The first path component is never compared with the root.
* JSON patch: `from=""` passes the schema but raises IndexError (R, C17); an index out of range raises instead of answering false (R, C17); `move` with `from == path` answers true even if nothing is there; a failing `move` has already removed the source, without setting the modified flag and without refreshing the selector table (R, C11, C18, C19).
* `get_selector_paths` is destructive: the second query answers [""] (R, C28).
* Comment lines that contain brackets yield selector entries; `add_comment("see [1]")` is accepted and creates a selector that the table does not know (R, C19).
* `add_selector`/`remove_selector` on a key with a single list element overwrite that element's comment (R, C23, C25); a note beside a selector is lost when selectors are combined (R, C24); commenting an emptied element makes its path disappear (R, C27).
* Selectors: `and`/`or` have equal precedence and group to the right (R, C32, C33); `not` negates only the first operand of an expression (R, C35); of adjacent operands only the last counts; unknown words select nothing; linux-aarch64 and linux-riscv64 belong to no architecture (R, C34); `[None]` equals `[]`.
* `get_value`: an empty key returns its own name; a single-element non-string list returns the bare value.
* `render_to_object`: top-level scalar lists raise AttributeError, nested empty keys KeyError; an empty key inside a collection element is dropped; a top-level empty key gives {}; nested lists of mappings raise KeyError (R, C46); with replaced variables, key names are rendered (and read as YAML) too.
* Formatting changes data: quotes around numbers and Booleans are lost, so `version: "1.10"` becomes `version: 1.10` and then `version: 1.1` (R, C41); a section whose only line is a key without value is printed as `foo: bar` (R, C41); a value with a Jinja expression and an apostrophe gains and loses quotes in turn (R, C41); lines of text blocks lose their inner indentation; a text block as first key of a list element is not printed as a block.
* Parser: a file ending in a multiline block raises IndexError (R, C40); a multiline block at a section end grows by one blank line each time it is rendered and parsed; `- key: |` drops the key; comments containing `: >` or `: |` are taken for multiline headers; a quoted string containing ` #` loses data; 4-space indentation and zero-indented lists are misparented; variable strings with quotes are not escaped when rendered.
* Sorting a collection element with a comment puts the comment first, so its dash is lost; a collection element whose first key is empty loses its dash; `is_first_collection_child` uses structural equality.
* `set_variable` on a V1 recipe is not reflected in the rendered text (R, C38).
* `search_and_patch` mutates the patch, short-circuits, and removing several hits of one list shifts the indices.
* Commands: the patch command writes the file even when a patch failed (R, C59); bump with both --build-num and --target-version increments (R, C58); a boolean build number is accepted; a target version such as 1.10 is read back as the number 1.1 (R, C74); the success rate is rounded to two places before it is compared with the threshold (R, C76); rattler-bulk-build passes paths with blanks unquoted.
* Fetchers: the git fetcher checks out `branch` instead of the resolved target; a local git path is copied into an existing directory, which always fails; the fetched flag survives a later failed fetch.
* SPDX: the override value "NOASSERTION" is not an SPDX identifier; the compound check is a substring check.
* Bulk conversion statistics do not count PRE_PROCESS_EXCEPTION and ILLEGAL_OPERATION in the totals, so the two success counts, which a comment expects to be equal, differ; directories of the same name count once (R, C61); `set_return_code` replaces an exception code if there are errors (R, C60).
* Dependencies: an empty requirements section makes `get_value` return the section name, whose characters are then treated as dependencies: with mode ignore, package `r` is not added to an empty `run` section, and mode replace raises IndexError (R, C48); `get_all_dependencies` raises TypeError for an empty section and takes a section given as a text letter by letter (R, C50); `remove_dependency` accepts any path (R, C49); replacing a dependency drops the note beside its selector; the selector of a dependency that opens a section is also set on the section.
* Build configuration files: a variable that is written twice gets the values of the second list with the selectors of the first (R, C51).
* Graph: unresolved templates such as `${{ compiler('c') }}` become nodes (R, C52); identical recipe files are counted once (R, C53); the graph command lowercases the package name, so packages with upper-case names cannot be plotted.
* Fetchers: a tag or revision is ignored and an unknown one is not noticed (R, C55); after a failed second fetch the checksum is that of the incomplete file (R, C69); several mirrors become one text (R, C71); an empty source section raises AttributeError (R, C71).
* Licenses: full names that contain "or" are taken for expressions and not recognised (R, C68).
* Scanners: a test that imports python reports it for tests too, and relative imports are reported as dependencies (R, C64); a dependency text instead of a list is read letter by letter and a project entry that is no table raises AttributeError (R, C70).
* Messages: with exceptions only, the totals message is not empty (R, C67).
* Converter: selectors on two lines of the same key are both applied to the first one, and of duplicate deprecated fields only the first is removed, so a second call removes the other one (R, C78); `not py27` becomes `not match(python, "==2.7")` because the pattern for negation never applies, and `py>=3` is not upgraded; a note beside a selector is lost without a report (R, C83); a context variable `"1.2"` becomes the number 1.2 (R, C80); script_env entries that are no texts raise AttributeError (R, C82) and `NAME=a=b` is dropped with an error; `{{{` is converted again and again (R, C84); two environ lookups on one line are taken for one, and `os.environ['A']` is replaced instead of a later `environ['A']` (R, C87); of several dots in an expression only one is converted; an empty recipe gets no schema version (reported as an error).
* Parser: a comment indented less than the following lines takes them for its own and is rendered as the internal marker object (R, C88); `- numpy  # NOTE: >=1.17` is taken for a block header (R, C88).  Patches: replacing a list element by an empty text deletes it, by a text starting with # turns it into a comment, and a text `a: b` is added as a key among list elements; the patch answers true each time (R, C89).
* `get_dependency_paths`: a section written as one text (`host: python`) gives one path per character (`/requirements/host/0` ... `/5`), an empty section (`host:`) one per character of its own name; none of these paths leads to a line.
* Converter, sections: renaming a key of a list element that has no other key leaves an empty element `-` behind, and with a comment the key moves into the next element (R, C93); a value already present under a new name is lost silently, for instance `home` next to `homepage` or `test` next to `tests` (R, C92); an empty key gets its own old name as value (`home:` becomes `homepage: home`; an empty test section becomes `tests: - test`) (R, C92, C96); `pip check` is only recognised if python has no version constraint (R, C96); comment lines in a test section vanish without a warning.
* C102/C103: `plot <type> <direction> <package>` checks that the package is known to the recipes, not that it is a node of the chosen graph. A package without dependencies of that kind that nothing depends on (very common in the test graph) makes networkx raise, and the whole interactive program ends.
* C103: the input line is lower-cased before the package is looked up, so packages whose names have capital letters can never be plotted.
* C103: `user_input[1] not in GraphType` raises TypeError up to Python 3.11 for anything that is no member, although the project declares requires-python >= 3.11: every plot command ends the program there.
* C103: if all recipes fail to parse, the command reports that the path contains no recipe files.
* C104: add_selector on a list element that is a mapping (e.g. `/outputs/0`, `/source/0`) succeeds and is reported by the getters, but the selector is never written to the text.
* C104: an element whose later key equals its first key in name, value and comment (possible after a selector edit on duplicate keys) is rendered as two elements.
* C105: replacing the value of a key or list element drops the comment, and with it the selector, from the text of the line; for a key get_selector_at_path still reports the selector.
* C107: `{{ hash_type }}:` becomes `sha256:` whatever the variable holds, so with `{% set hash_type = "md5" %}` an MD5 sum is declared as SHA-256.
* C107: the line that sets hash_type is removed even when the variable is used elsewhere; the use is then undefined.
* C108: only the first line of a multi-line `Error:` message is recorded.
* C110: a variable of a build configuration file given as a plain value (`c_version: 3`) or as an empty list is unknown to list_cbc_variables, `in` and get_cbc_variable_value.
* C111: a percentage that only some of the CI runs report is still divided by the number of all runs.
* C113: test_count adds conversions and dry-runs of a test together, so a test that ran once counts two.
* C114: an exclusion list of bare repository names (the usual case, says a comment in the script) excludes nothing, since names are compared with `org/repo`.
* C114: repositories of the same name in two organisations are written to the same file; the one written last wins, both are counted.
* C116: with an absolute --output every recipe of a bulk conversion is written to the same file; the run still reports success.
* C116: a directory that holds exactly one recipe writes the output relative to the working directory, not beside the recipe as for two or more.
* C119: the pre-processing replaces a dot inside a text literal if a call follows on the line: {% set url = 'https://example.com/' + last(name) %} becomes 'https://example | com/'; of chained calls or two calls on a line only the last is converted.
* C120: a quoted value with an escaped end of line on the first line of a recipe becomes `summary: |  one  two`, which is not a block; with an empty line before the key the block gets additional empty lines; of several escapes only the last is converted (noted as a TODO in the code).
* C121: `{{ environ.get('X') }}` in an old recipe becomes `{{ environ | get('X') }}` (the dot replacement runs first), which is not the intended `env.get('X')`.
* C65: the substitution for `not py36` (recipe_parser_convert.py 203-205) never has an effect: the substitution before it has replaced every py36 (C65_negated_versions_are_left). Versions are also found inside of words: `pypy36` becomes `pymatch(python, "==3.6")`.
* C122: get_variable_references('foo') lists values that only mention foobar, and values with the name as plain text between two expressions; it misses references inside multiline texts (script blocks), because their node value is a list of lines.
* C123: get_value('/outputs/0') (a list element that is a mapping) raises a YAML error, because the first key is rendered with `- ` at the same column as the other keys; with only one key it returns a list with the mapping. copy, move and test patches of such elements fail for the same reason.
* C123: get_value of a list whose only element is a number returns the number, not a list (the re-wrapping only applies to texts); get_value of a key without value returns the name of the key.
* C124: `{{ 1 + 2 + 3 }}` is read as 3: only the first two operands are added. `{{ name + "x" | upper }}` ignores the filter, `{{ name | upper | lower }}` gives upper case.
* C124: `{{ a + "s" }}` with a double quote in the value of a gives a text that YAML cannot read, so get_value(sub_vars=True) raises or falls back; a value that itself holds an expression is replaced in turn only if that expression also stands further right in the same text.
* C125: `_init_vars_tbl` sets variables from commented-out statements (`# {% set x = 1 %}`), drops the second of two statements on a line and a statement on a last line without newline, does not know `{%- set`, and reads `{% set a = 1 -%}` as the text `1 -`; `{% settle = 1 %}` sets a variable `tle`.
* C126: `# {% set x = 1 %}` followed by `name: foo` is read as one comment: the statement is removed together with its line break, so the field `name` is lost from the recipe without a warning.
* C127: a recipe whose `about` section ends with `description: |` and stands before other sections is converted without an error into a file that cannot be read (IndexError), because `about` is moved to the end.
* C131: a text of several lines that is written (patch add/replace) as the first key of a list element or as a list element is rendered as `- note: ['one', 'two']`: the text becomes a list.
* C132: the comment beside a value with an expression (`name: {{ name|lower }}  # the name`, `- python {{ version }}  # newest`) is dropped in the conversion, and no message says so, because the path still exists.
* C133: of two fields of `about` with the same old name (`tags` twice, `home` twice) only the first one is dropped or renamed; the second one stays under its old name (R).
* C134: a field under the old name overwrites a field that is already there under the new name (`no_link` and `always_copy_files`): its value is lost and nothing is reported (R).
* C137: bump-recipe drops the comment of each line it changes. With the common form "number: 3  # [linux]" followed by "number: 103  # [win]" the first line becomes "number: 4" without its selector (C137_comment_is_lost_refuted).
* C140: bump-recipe on a recipe of the new format with the version in `context` (the usual place) ends with success but writes the old version: only the table of variables changes, and that table is never rendered for the new format (R). The same holds for a checksum in a context variable. Only the build number changes.
* C145: add_comment on a key with a single list element replaces the comment of that element too: a selector there is lost from the file, while list_selectors still reports it (R).
* C146: of two lines with the same key, which recipes use with different selectors, only the first can be looked up: value and selector of the second cannot be reached by its path (R).
* C147: a requirements section that holds one text instead of a list ("run: pip") is reported as one dependency per letter (R).
* C149: an output with the same name as the recipe, which is common, makes get_all_dependencies raise ValueError, so no dependency of the recipe is reported (R).
* C151: in the new format, lines below `requirements/run_exports` are reported by get_all_dependencies but not listed by get_dependency_paths; if run_exports is a mapping (`weak: [...]`), the key `weak` is reported as a dependency at a path that does not exist.
* C154: `search` with comments does not see the comment on the first line of a block (`description: |  # note`); `get_variable_references` does not see variables in the lines of a block. Both look only at the value of a node, and the block has its comment on the key and a list as value.
* C155: `search_and_patch` with `remove` on a list with two adjacent hits reports success, keeps the second hit and removes an element that did not match (`foo-a`, `foo-b`, `bar` becomes `foo-b`): all paths are computed before the first patch. Witness: C155_removed_lines_refuted.
