{
 "claims": [
  {
   "property": "C01",
   "status": "partial",
   "theorems": [
    "C01_path_round_trip",
    "C01_paths_stay_distinct",
    "C01_root_refuted"
   ],
   "note": "Full claim for one or more components. The zero-component path \"/\" is refuted: it prints as \"\"."
  },
  {
   "property": "C02",
   "status": "proved",
   "theorems": [
    "C02_append_components",
    "C02_append_any_text"
   ],
   "note": "Both the component form and the exact result for arbitrary strings."
  },
  {
   "property": "C03",
   "status": "proved",
   "theorems": [
    "C03_listed_paths_resolve",
    "C03_listed_paths",
    "C03_empty_recipe_refuted",
    "C03_numeric_key_refuted"
   ],
   "note": "Full claim for addressable documents (non-empty recipe, addressable keys). Outside that condition: refuted for the empty recipe and for numeric keys. (The statement excludes both.)"
  },
  {
   "property": "C04",
   "status": "partial",
   "theorems": [
    "C04_comments_do_not_influence_lookup",
    "C04_comments_do_not_influence_listing",
    "C04_listing_refuted"
   ],
   "note": "Lookup part under \"every list element has a non-comment line\" and listing part under \"every section has a non-comment line\"; without it the listing part is refuted."
  },
  {
   "property": "C05",
   "status": "proved",
   "theorems": [
    "C05_index_addresses_ith_element",
    "C05_never_a_comment",
    "C05_index_tables",
    "C05_index_tables_inverse",
    "C05_number_text"
   ],
   "note": "Full claim."
  },
  {
   "property": "C06",
   "status": "proved",
   "theorems": [
    "C06_missing_key",
    "C06_default"
   ],
   "note": "Full claim; every behaviour of the YAML library."
  },
  {
   "property": "C07",
   "status": "proved",
   "theorems": [
    "C07_find_value_exact",
    "C07_collections_are_rejected"
   ],
   "note": "Full claim."
  },
  {
   "property": "C08",
   "status": "proved",
   "theorems": [
    "C08_selector_paths",
    "C08_variable_references",
    "C08_no_duplicates"
   ],
   "note": "Full claim."
  },
  {
   "property": "C09",
   "status": "proved",
   "theorems": [
    "C09_test_changes_nothing"
   ],
   "note": "Full claim; equality is Python equality of the value read."
  },
  {
   "property": "C10",
   "status": "proved",
   "theorems": [
    "C10_failure_changes_nothing"
   ],
   "note": "Full claim for add, remove, replace, copy, test and every behaviour of the YAML library."
  },
  {
   "property": "C11",
   "status": "partial",
   "theorems": [
    "C11_move_into_itself_refuted",
    "C11_move_to_last_refuted",
    "C11_failed_move_partial",
    "C11_outcome",
    "C11_unreadable_source_partial"
   ],
   "note": "Refuted twice (move below itself; move to the last index). Proved: the exact outcome in terms of the addition and the removal, for values that can be written (C11_outcome); for every value, the recipe is unchanged or differs exactly by the removal of the source; unchanged when the source cannot be read."
  },
  {
   "property": "C12",
   "status": "partial",
   "theorems": [
    "C12_remove_deletes_exactly",
    "C12_when_remove_succeeds",
    "C12_removed_key_is_gone",
    "C12_emptied_element_refuted"
   ],
   "note": "Full claim for documents whose stored values have no duplicate mapping keys; \"not found afterwards\" needs unique sibling names and that the parent element does not degenerate to a comment line (that case is refuted)."
  },
  {
   "property": "C13",
   "status": "proved",
   "theorems": [
    "C13_replace_substitutes_exactly",
    "C13_when_replace_succeeds"
   ],
   "note": "Full claim; the new lines are those produced for the value by generate_subtree."
  },
  {
   "property": "C14",
   "status": "proved",
   "theorems": [
    "C14_add_new_key",
    "C14_add_existing_key",
    "C14_add_at_index",
    "C14_add_at_end",
    "C14_add_is_local"
   ],
   "note": "Full claim per kind of target, plus locality for every successful add."
  },
  {
   "property": "C15",
   "status": "proved",
   "theorems": [
    "C15_copy_is_add_of_the_read_value",
    "C15_missing_source",
    "C15_unreadable_source"
   ],
   "note": "Full claim."
  },
  {
   "property": "C16",
   "status": "proved",
   "theorems": [
    "C16_move_is_remove_then_add",
    "C16_move_onto_itself"
   ],
   "note": "Full claim."
  },
  {
   "property": "C17",
   "status": "partial",
   "theorems": [
    "C17_index_out_of_range_refuted",
    "C17_empty_source_refuted",
    "C17_remove_answers_partial",
    "C17_named_replace_answers_partial",
    "C17_named_add_answers_partial",
    "C17_replace_answers",
    "C17_add_answers",
    "C17_copy_answers",
    "C17_move_answers"
   ],
   "note": "Refuted (index out of range, empty source). Proved: remove always answers; for values that can be written, add, replace and copy raise exactly when the path ends in a number beyond the lines that are there (also below mappings; for add and copy also the path above the last component), a move also when the path is beyond the lines left after the removal."
  },
  {
   "property": "C18",
   "status": "proved",
   "theorems": [
    "C18_flag_set_by_success_only",
    "C18_flag_never_returns",
    "C18_unmodified_means_identical",
    "C18_diff_compares_with_the_original",
    "C18_failed_move_refuted"
   ],
   "note": "Full claim as stated (histories without failed moves; successful moves are allowed; the flag part holds for all histories). The refutation shows why failed moves are excluded."
  },
  {
   "property": "C19",
   "status": "partial",
   "theorems": [
    "C19_selector_queries_are_current",
    "C19_add_comment_refuted",
    "C19_failed_move_refuted"
   ],
   "note": "Full claim for histories of patches (no failed move), variable edits and selector edits. Refuted for add_comment and for failed moves."
  },
  {
   "property": "C20",
   "status": "proved",
   "theorems": [
    "C20_schema_gate"
   ],
   "note": "Full claim."
  },
  {
   "property": "C21",
   "status": "proved",
   "theorems": [
    "C21_search_and_patch",
    "C21_true_means_all_applied"
   ],
   "note": "Full claim; the regular expression is any predicate on text."
  },
  {
   "property": "C22",
   "status": "partial",
   "theorems": [
    "C22_insert_before_mapping_refuted",
    "C22_add_over_existing",
    "C22_insert_before_plain_partial"
   ],
   "note": "Refuted for elements that are mappings; proved for plain elements. For every other existing target, add equals replace (C22_add_over_existing)."
  },
  {
   "property": "C23",
   "status": "partial",
   "theorems": [
    "C23_selector_just_set_is_reported",
    "C23_malformed_selector_rejected",
    "C23_missing_path",
    "C23_other_lines_refuted"
   ],
   "note": "Full claim for the addressed line (documents without emptied elements). \"Other lines keep their comments\" is refuted for a key with a single list element."
  },
  {
   "property": "C24",
   "status": "proved",
   "theorems": [
    "C24_selectors_are_joined",
    "C24_plain_comment_is_kept",
    "C24_note_beside_selector_refuted"
   ],
   "note": "Full claim; the refutation documents that a note beside the old selector is dropped."
  },
  {
   "property": "C25",
   "status": "partial",
   "theorems": [
    "C25_remove_selector",
    "C25_nothing_to_remove",
    "C25_missing_path",
    "C25_other_lines_refuted"
   ],
   "note": "Full claim for one-line comments; \"only the addressed line\" is refuted for a key with a single list element."
  },
  {
   "property": "C26",
   "status": "proved",
   "theorems": [
    "C26_comment_keeps_selector",
    "C26_comment_without_selector",
    "C26_rejected"
   ],
   "note": "Full claim."
  },
  {
   "property": "C27",
   "status": "partial",
   "theorems": [
    "C27_line_edits_keep_the_document",
    "C27_same_document_same_answers",
    "C27_emptied_element_refuted"
   ],
   "note": "Full claim for documents without emptied elements; refuted for an emptied element."
  },
  {
   "property": "C28",
   "status": "partial",
   "theorems": [
    "C28_second_query_is_empty",
    "C28_mended_by_an_edit",
    "C28_queries_change_no_document",
    "C28_second_query_refuted",
    "C28_other_answers_unchanged_partial"
   ],
   "note": "Refuted: the second query in a row answers with one empty path, for every recipe. Proved: nothing but the stored paths of the queried selector changes; queries among edits change nothing of the document, its variables, the flag and the text; a successful patch or selector edit mends the table."
  },
  {
   "property": "C29",
   "status": "proved",
   "theorems": [
    "C29_selector_meaning",
    "C29_no_selector_meaning",
    "C29_listing_complete_and_ordered",
    "C29_contains_exactly_those",
    "C29_paths",
    "C29_paths_nonempty",
    "C29_table_is_current"
   ],
   "note": "Full claim."
  },
  {
   "property": "C30",
   "status": "proved",
   "theorems": [
    "C30_comments_table",
    "C30_paths_in_order",
    "C30_which_lines"
   ],
   "note": "Full claim for documents whose comments are one line and start with a hash sign."
  },
  {
   "property": "C31",
   "status": "proved",
   "theorems": [
    "C31_selected_platforms",
    "C31_words",
    "C31_unknown_words_select_nothing"
   ],
   "note": "Full claim: any white space, any case, V0 and V1."
  },
  {
   "property": "C32",
   "status": "partial",
   "theorems": [
    "C32_precedence_refuted",
    "C32_precedence_partial",
    "C32_never_selects_more",
    "C32_readings_exist"
   ],
   "note": "Refuted (and before or is grouped to the right). Proved when no or stands to the right of an and; for every selector, nothing is selected that the usual reading does not select."
  },
  {
   "property": "C33",
   "status": "partial",
   "theorems": [
    "C33_combined_meaning_partial",
    "C33_joined_with_the_last_operand",
    "C33_last_operand_exists",
    "C33_combined_meaning_refuted"
   ],
   "note": "Refuted. Exact meaning of the combined selector for every old and new selector (only the last operand of the old one is joined with the new one); the intended meaning follows when the old selector contains only the joining operator."
  },
  {
   "property": "C34",
   "status": "proved",
   "theorems": [
    "C34_systems_partition",
    "C34_unix_is_linux_and_osx",
    "C34_platform_selects_itself",
    "C34_tables",
    "C34_enumerations_complete",
    "C34_every_platform_has_an_arch_refuted"
   ],
   "note": "Full claim. The additional refutation records that linux-aarch64 and linux-riscv64 belong to no architecture."
  },
  {
   "property": "C35",
   "status": "partial",
   "theorems": [
    "C35_applies",
    "C35_negation",
    "C35_negation_of_expression_refuted"
   ],
   "note": "Membership: full claim. Negation: proved for an operand; refuted in front of a whole expression, where it only negates the first operand."
  },
  {
   "property": "C36",
   "status": "proved",
   "theorems": [
    "C36_render_and_reparse"
   ],
   "note": "Full claim, for every text and both schema versions."
  },
  {
   "property": "C37",
   "status": "proved",
   "theorems": [
    "C37_last_write_wins",
    "C37_order_of_first_set",
    "C37_distinct_names_initially"
   ],
   "note": "Full claim, over histories mixing variable edits with all other edits."
  },
  {
   "property": "C38",
   "status": "partial",
   "theorems": [
    "C38_definition_line",
    "C38_new_value_is_read_back",
    "C38_new_format_refuted"
   ],
   "note": "Old format: proved (definition line for every recipe; value read back for canonical recipes). New format: refuted, the rendered text ignores the variables."
  },
  {
   "property": "C39",
   "status": "proved",
   "theorems": [
    "C39_recipe_is_read_back",
    "C39_tree_is_read_back",
    "C39_rendered_layout"
   ],
   "note": "Full claim for canonical documents (LayoutSpec.v): every nesting of keys, lists, mappings in lists, comments and text blocks whose lines the YAML library reads as themselves, including lines with Jinja expressions; text level, both formats."
  },
  {
   "property": "C40",
   "status": "partial",
   "theorems": [
    "C40_final_block_refuted",
    "C40_final_nested_block_refuted"
   ],
   "note": "Refuted: for every canonical page followed by a text block, and for a nested block."
  },
  {
   "property": "C41",
   "status": "partial",
   "theorems": [
    "C41_canonical_text_is_stable_partial",
    "C41_growing_text_refuted",
    "C41_lone_key_refuted",
    "C41_quoted_number_refuted",
    "C41_oscillating_quotes_refuted"
   ],
   "note": "Proved for canonical recipes; refuted in general (growing blank lines, lone empty key, quotes lost around numbers, oscillating quotes)."
  },
  {
   "property": "C42",
   "status": "proved",
   "theorems": [
    "C42_quoted_form",
    "C42_decoding_is_unique",
    "C42_when_quoted",
    "C42_when_verbatim"
   ],
   "note": "Full claim, decoder stated after RFC 8259; also exactly which strings are quoted."
  },
  {
   "property": "C43",
   "status": "proved",
   "theorems": [
    "C43_every_text_has_pieces",
    "C43_expressions_in_order",
    "C43_surplus_is_kept",
    "C43_replaced_expressions",
    "C43_replacement_is_undone"
   ],
   "note": "Full claim; also surplus expressions, and that the parser replaces Jinja expressions and undoes it."
  },
  {
   "property": "C44",
   "status": "proved",
   "theorems": [
    "C44_sorted_section",
    "C44_sorting_never_fails",
    "C44_sorting_is_determined",
    "C44_sorting_twice"
   ],
   "note": "Full claim, with the tables of the source as example."
  },
  {
   "property": "C45",
   "status": "proved",
   "theorems": [
    "C45_equal_iff_same_text",
    "C45_equality_is_an_equivalence",
    "C45_equal_recipes_have_equal_hashes",
    "C45_hash_decides_equality",
    "C45_equal_canonical_recipes"
   ],
   "note": "Full claim; hash as a parameter; additionally equal canonical recipes have equal trees and variables."
  },
  {
   "property": "C46",
   "status": "partial",
   "theorems": [
    "C46_object_of_regular_documents_partial",
    "C46_empty_key_refuted",
    "C46_list_of_values_refuted",
    "C46_nested_mappings_refuted",
    "C46_nested_empty_key_refuted",
    "C46_lost_key_refuted"
   ],
   "note": "Proved for regular documents; refuted for top-level empty keys, top-level lists of values, nested lists of mappings, sections that start with an empty key, and empty keys inside list elements."
  },
  {
   "property": "C47",
   "status": "proved",
   "theorems": [
    "C47_section_names_round_trip",
    "C47_distinct_sections_distinct_names",
    "C47_accepted_spellings"
   ],
   "note": "Full claim, and exactly which spellings are accepted."
  },
  {
   "property": "C48",
   "status": "partial",
   "theorems": [
    "C48_ignore_keeps_the_recipe",
    "C48_replace_overwrites_the_first",
    "C48_exact_overwrites_the_position",
    "C48_otherwise_appends",
    "C48_missing_section_is_opened",
    "C48_missing_requirements",
    "C48_empty_section_refuted"
   ],
   "note": "Proved for sections made of plain entries and comment lines; with a selector, appending assumes that the list is read with one entry more. Refuted for a section without entries, whose name is taken for its entries."
  },
  {
   "property": "C49",
   "status": "partial",
   "theorems": [
    "C49_add_needs_a_requirements_path",
    "C49_accepted_paths",
    "C49_remove_deletes_one_line",
    "C49_failed_remove_keeps_the_recipe",
    "C49_remove_any_path_refuted"
   ],
   "note": "add: full claim. remove: refuted (the path is not looked at); proved that exactly the addressed line goes."
  },
  {
   "property": "C50",
   "status": "partial",
   "theorems": [
    "C50_top_level_reaches_every_package",
    "C50_no_top_level_package",
    "C50_dependency_table",
    "C50_table_in_order",
    "C50_package_names",
    "C50_text_section_refuted",
    "C50_empty_section_refuted"
   ],
   "note": "C50_table_in_order: the table, with the order of the dependencies, and exactly when it can be made. Full claim about tables and about the whole of get_all_dependencies. Refuted for a section given as a text (taken letter by letter) and for an empty section (the call fails)."
  },
  {
   "property": "C51",
   "status": "partial",
   "theorems": [
    "C51_first_applicable_value",
    "C51_unknown_variable",
    "C51_default_never_fails",
    "C51_table_of_the_file",
    "C51_repeated_variable_refuted"
   ],
   "note": "Full claim, including how the table is read from the file. Refuted only for a file that writes a variable twice (values of the second list, selectors of the first)."
  },
  {
   "property": "C52",
   "status": "partial",
   "theorems": [
    "C52_first_definition_owns_the_name",
    "C52_known_packages",
    "C52_duplicates",
    "C52_build_edges",
    "C52_test_edges",
    "C52_template_as_node_refuted"
   ],
   "note": "Full claim about owners, duplicates and edges, for every cache of recipes; names are compared as Python does. Refuted only that edge ends are package names: an unresolved template is a node of its own."
  },
  {
   "property": "C53",
   "status": "proved",
   "theorems": [
    "C53_packages",
    "C53_recipes",
    "C53_from_disk",
    "C53_every_distinct_file",
    "C53_identical_files_refuted",
    "C53_exactly"
   ],
   "note": "Full claim; C53_exactly: the recipes of the graph for every set of files (one for each digest). A further reading, that every file is counted, is refuted: identical files share a digest and count once; proved when digests and paths differ."
  },
  {
   "property": "C54",
   "status": "proved",
   "theorems": [
    "C54_http_fetch_required",
    "C54_git_fetch_required"
   ],
   "note": "Full claim, over all sessions of fetches and accesses, for archives and repositories."
  },
  {
   "property": "C55",
   "status": "partial",
   "theorems": [
    "C55_branch_partial",
    "C55_unknown_branch_partial",
    "C55_nothing_requested_partial",
    "C55_only_the_branch_counts",
    "C55_outcome",
    "C55_one_outcome",
    "C55_tag_refuted",
    "C55_tag_with_branch_refuted",
    "C55_unknown_revision_refuted",
    "C55_local_repository_refuted"
   ],
   "note": "Refuted: tags and revisions are ignored, local repositories cannot be fetched. Proved for sources with a branch only or with nothing requested, and what is checked out in general (C55_outcome, C55_one_outcome: every outcome)."
  },
  {
   "property": "C56",
   "status": "proved",
   "theorems": [
    "C56_first_success",
    "C56_five_failures",
    "C56_other_exceptions",
    "C56_waiting_is_bounded"
   ],
   "note": "Full claim: the waits are multiples of the retry interval; other exceptions are not retried."
  },
  {
   "property": "C57",
   "status": "proved",
   "theorems": [
    "C57_written_only_after_full_success",
    "C57_exit_codes",
    "C57_failed_download"
   ],
   "note": "Full claim for every outcome of the steps, and the exit codes of the failures."
  },
  {
   "property": "C58",
   "status": "partial",
   "theorems": [
    "C58_build_number_partial",
    "C58_both_options_refuted"
   ],
   "note": "Proved: the old number plus one exactly with --build-num, 0 otherwise or when missing. Refuted with both options. Assumes that the YAML library reads the written number back and that the number is a key of a mapping."
  },
  {
   "property": "C59",
   "status": "partial",
   "theorems": [
    "C59_success_means_all_patches_partial",
    "C59_unreadable_input_writes_nothing",
    "C59_what_is_written",
    "C59_failed_patch_refuted"
   ],
   "note": "Refuted: the file is written although a patch failed. Proved: what is written, when the exit code is success, and that unreadable input writes nothing."
  },
  {
   "property": "C60",
   "status": "partial",
   "theorems": [
    "C60_errors_outrank_warnings",
    "C60_results_of_a_conversion",
    "C60_exception_code_refuted",
    "C60_exit_codes"
   ],
   "note": "Proved for the results of convert_file. Refuted for set_return_code on its own, which replaces an exception code when there are errors."
  },
  {
   "property": "C61",
   "status": "partial",
   "theorems": [
    "C61_statistics_partial",
    "C61_exceptions",
    "C61_buckets_refuted",
    "C61_same_name_refuted",
    "C61_kept_once",
    "C61_repeated_names"
   ],
   "note": "C61_exceptions: the recipes with exceptions and their histogram. Proved with two codes that are in no bucket; refuted without them, and for directories of the same name, where the last result of a name counts (C61_repeated_names, C61_kept_once)."
  },
  {
   "property": "C62",
   "status": "proved",
   "theorems": [
    "C62_known_identifier_is_kept",
    "C62_result_is_known",
    "C62_compound_expressions_are_left_alone",
    "C62_fixed_corrections",
    "C62_chosen",
    "C62_one_choice",
    "C62_override_refuted"
   ],
   "note": "C62_chosen, C62_one_choice: every case, for an arbitrary fuzzy matcher, with the list it is asked to choose from. The additional refutation records that an override value is no identifier."
  },
  {
   "property": "C63",
   "status": "proved",
   "theorems": [
    "C63_messages_in_order",
    "C63_counts"
   ],
   "note": "Full claim."
  },
  {
   "property": "C64",
   "status": "partial",
   "theorems": [
    "C64_reported_dependencies",
    "C64_reported_once",
    "C64_order_of_files",
    "C64_tests_not_in_run_partial",
    "C64_unreadable_files",
    "C64_python_in_tests_refuted",
    "C64_relative_import_refuted"
   ],
   "note": "The result is characterised exactly (for any equality that is an equivalence). Refuted: python imported by a test is reported twice; relative imports are reported. Proved otherwise."
  },
  {
   "property": "C65",
   "status": "proved",
   "theorems": [
    "C65_python_versions",
    "C65_every_expression",
    "C65_negated_versions_are_left",
    "C65_only_words_refuted"
   ],
   "note": "C65_python_versions: token by token. C65_every_expression: exact for every expression; C65_negated_versions_are_left: the substitution for `not py36` never matches, because the one before it has replaced py36 already. C65_only_words_refuted: the texts are also replaced inside of words (pypy36)."
  },
  {
   "property": "C66",
   "status": "proved",
   "theorems": [
    "C66_equal_selectors_select_the_same",
    "C66_equality_is_an_equivalence",
    "C66_same_words_are_equal"
   ],
   "note": "Full claim."
  },
  {
   "property": "C67",
   "status": "proved",
   "theorems": [
    "C67_totals_message",
    "C67_empty_when_nothing_was_logged",
    "C67_exceptions_only_refuted"
   ],
   "note": "Full claim. The additional refutation records that the documentation promises an empty text without errors and warnings, but exceptions alone give a text."
  },
  {
   "property": "C68",
   "status": "partial",
   "theorems": [
    "C68_full_name_is_recognised_partial",
    "C68_name_with_or_refuted"
   ],
   "note": "Refuted for names that contain \"or\", \"and\", \"with\" or a comma; proved for the others."
  },
  {
   "property": "C69",
   "status": "partial",
   "theorems": [
    "C69_checksum_of_the_fetched_archive_partial",
    "C69_any_session",
    "C69_one_answer",
    "C69_after_failed_refetch_refuted"
   ],
   "note": "C69_any_session, C69_one_answer: what is reported after any calls (the last file written, the last kind recognised). The archive of the successful fetch as long as no later fetch is tried; refuted after a later fetch that fails half way."
  },
  {
   "property": "C70",
   "status": "partial",
   "theorems": [
    "C70_project_file_dependencies",
    "C70_unusable_project_files",
    "C70_text_instead_of_list_refuted",
    "C70_wrong_layout_refuted"
   ],
   "note": "Full claim. The refutations record how files with another layout behave."
  },
  {
   "property": "C71",
   "status": "partial",
   "theorems": [
    "C71_list_of_sources",
    "C71_single_source",
    "C71_every_list_is_collected",
    "C71_recipe_name",
    "C71_mirrors_refuted",
    "C71_empty_section_refuted"
   ],
   "note": "Full claim. Refuted for mirrors (a list of urls becomes one text) and for an empty source section (AttributeError)."
  },
  {
   "property": "C72",
   "status": "proved",
   "theorems": [
    "C72_set_key_is_read_back",
    "C72_added_key_is_read_back"
   ],
   "note": "Full claim for keys; the YAML library is a parameter."
  },
  {
   "property": "C73",
   "status": "proved",
   "theorems": [
    "C73_other_keys_are_left_alone",
    "C73_other_values_are_left_alone"
   ],
   "note": "Full claim for paths that part at keys (not at list indices, where patches shift elements)."
  },
  {
   "property": "C74",
   "status": "partial",
   "theorems": [
    "C74_version_is_set_partial",
    "C74_number_like_version_refuted"
   ],
   "note": "Proved if the target is a text for YAML. Refuted for versions that look like a number."
  },
  {
   "property": "C75",
   "status": "proved",
   "theorems": [
    "C75_checksums_are_set"
   ],
   "note": "Full claim; hypothesis: each checksum can be set as a text below its source."
  },
  {
   "property": "C76",
   "status": "partial",
   "theorems": [
    "C76_enough_successes",
    "C76_too_few_successes_partial",
    "C76_decided",
    "C76_rounding_refuted"
   ],
   "note": "C76_decided: exactly when, except for halves. Proved up to half a percent; refuted because the ratio is rounded first."
  },
  {
   "property": "C77",
   "status": "proved",
   "theorems": [
    "C77_build_statistics",
    "C77_messages",
    "C77_no_files",
    "C77_repeated_names"
   ],
   "note": "Full claim for recipes with different names; C77_repeated_names: the last result of each name counts, compared with the number of all files."
  },
  {
   "property": "C78",
   "status": "proved",
   "theorems": [
    "C78_every_step_is_a_patch_and_failures_are_reported",
    "C78_messages_are_kept",
    "C78_second_call_agrees_refuted"
   ],
   "note": "Full claim. The additional refutation records that a second call on the same object may give another text."
  },
  {
   "property": "C79",
   "status": "proved",
   "theorems": [
    "C79_result"
   ],
   "note": "Full claim."
  },
  {
   "property": "C80",
   "status": "partial",
   "theorems": [
    "C80_variables_become_the_context",
    "C80_values_are_kept_refuted"
   ],
   "note": "Proved, except that values are kept: refuted, a text that looks like a number is read as the number afterwards."
  },
  {
   "property": "C81",
   "status": "proved",
   "theorems": [
    "C81_tests_are_split"
   ],
   "note": "Full claim."
  },
  {
   "property": "C82",
   "status": "proved",
   "theorems": [
    "C82_script_environment",
    "C82_every_entry_is_read_refuted"
   ],
   "note": "Full claim for texts and conditionals. The additional refutation records that other entries raise AttributeError."
  },
  {
   "property": "C83",
   "status": "partial",
   "theorems": [
    "C83_lost_comments_are_reported",
    "C83_no_comment_is_lost_silently_refuted"
   ],
   "note": "Proved which comments are reported; refuted that no comment is lost silently (a note beside a selector)."
  },
  {
   "property": "C84",
   "status": "partial",
   "theorems": [
    "C84_markers",
    "C84_twice",
    "C84_twice_in_general_refuted",
    "C84_every_marker",
    "C84_only_one_result"
   ],
   "note": "C84_every_marker: exact for every text, and the only such text (C84_only_one_result). C84_markers, C84_twice: converted once, for texts whose pieces do not touch the markers with braces; converting twice is refuted in general for three braces."
  },
  {
   "property": "C85",
   "status": "proved",
   "theorems": [
    "C85_pins",
    "C85_every_pin",
    "C85_only_one_result"
   ],
   "note": "Full claim, for every text (C85_every_pin, C85_only_one_result)."
  },
  {
   "property": "C86",
   "status": "proved",
   "theorems": [
    "C86_other_texts_are_left_alone"
   ],
   "note": "Full claim."
  },
  {
   "property": "C87",
   "status": "partial",
   "theorems": [
    "C87_environment_variables",
    "C87_two_on_a_line_refuted",
    "C87_other_use_is_replaced_refuted",
    "C87_every_lookup"
   ],
   "note": "C87_every_lookup: exact for every text. C87_environment_variables: every lookup is converted, if there is at most one per line, preceded by white space; refuted for two on a line, and if the same lookup occurs before without white space."
  },
  {
   "property": "C88",
   "status": "proved",
   "theorems": [
    "C88_parsed_lines",
    "C88_parsed_values",
    "C88_consequences",
    "C88_comment_captures_refuted",
    "C88_comment_as_header_refuted"
   ],
   "note": "Proved: every parsed document is well formed, which gives the assumptions other theorems make about documents. Refuted: that comment lines stay comments (a comment indented less than the lines after it takes them for its own; a comment with a colon and > is taken for a block header). (The refutations are about more than the statement claims.)"
  },
  {
   "property": "C89",
   "status": "proved",
   "theorems": [
    "C89_values_stay_proper",
    "C89_lines_stay_well_formed",
    "C89_remove_after_any_history",
    "C89_line_edits_after_history",
    "C89_emptied_element_refuted",
    "C89_text_values_refuted"
   ],
   "note": "Proved as stated. Refuted without the condition: removing the only key of an element leaves an element without lines; texts that are empty, start with # or contain a colon are not written as elements, although the patch answers true."
  },
  {
   "property": "C90",
   "status": "proved",
   "theorems": [
    "C90_dependency_paths",
    "C90_in_order",
    "C90_paths_lead_somewhere_refuted",
    "C90_empty_section_refuted"
   ],
   "note": "C90_in_order: the exact list and when it can be made. Membership in both directions, no duplicates, form of the paths; two refutations for texts and empty sections. (The statement excludes what is refuted.)"
  },
  {
   "property": "C91",
   "status": "proved",
   "theorems": [
    "C91_selectors_become_conditions"
   ],
   "note": "The whole selector step, in its full length: the theorem fixes the resulting tree line by line. Hypotheses: addressable document, the selector table of the document, and `ready` (the new values can be written; a conditional text is one plain line that is not called like a key; a truth value with a selector is all there is below its key). C91_example_ready shows that `ready` holds for a recipe with all the cases."
  },
  {
   "property": "C92",
   "status": "partial",
   "theorems": [
    "C92_misspellings",
    "C92_other_values_stay_refuted",
    "C92_empty_key_refuted"
   ],
   "note": "Spec SectionSpec.v describes the step as a relation between trees (and message lists) in terms of lines removed, inserted, replaced; it does not call the converter. Hypothesis `without_errors`: the step reports no ERROR (a failed patch is reported so, C78). Refuted: a value already standing under the new name is lost silently; an empty key becomes a key whose value is its own old name."
  },
  {
   "property": "C93",
   "status": "partial",
   "theorems": [
    "C93_sources",
    "C93_elements_stay_refuted",
    "C93_keys_stay_in_their_element_refuted"
   ],
   "note": "Spec SectionSpec.v describes the step as a relation between trees (and message lists) in terms of lines removed, inserted, replaced; it does not call the converter. Hypothesis `without_errors`: the step reports no ERROR (a failed patch is reported so, C78). Refuted: the claim that a renamed key stays alone in its list element: an element with one key leaves an empty element behind, and with a comment its key moves into the next source."
  },
  {
   "property": "C94",
   "status": "proved",
   "theorems": [
    "C94_build",
    "C94_requirements"
   ],
   "note": "Spec SectionSpec.v describes the step as a relation between trees (and message lists) in terms of lines removed, inserted, replaced; it does not call the converter. Hypothesis `without_errors`: the step reports no ERROR (a failed patch is reported so, C78). "
  },
  {
   "property": "C95",
   "status": "proved",
   "theorems": [
    "C95_about"
   ],
   "note": "Spec SectionSpec.v describes the step as a relation between trees (and message lists) in terms of lines removed, inserted, replaced; it does not call the converter. Hypothesis `without_errors`: the step reports no ERROR (a failed patch is reported so, C78). The closest license is the function modelled and proved about in C62."
  },
  {
   "property": "C96",
   "status": "partial",
   "theorems": [
    "C96_tests",
    "C96_versioned_python_refuted",
    "C96_empty_section_refuted"
   ],
   "note": "Spec SectionSpec.v describes the step as a relation between trees (and message lists) in terms of lines removed, inserted, replaced; it does not call the converter. Hypothesis `without_errors`: the step reports no ERROR (a failed patch is reported so, C78). Refuted: python with a version constraint is not recognised, an empty test section becomes a test named `test`."
  },
  {
   "property": "C97",
   "status": "proved",
   "theorems": [
    "C97_outputs"
   ],
   "note": "Spec SectionSpec.v describes the step as a relation between trees (and message lists) in terms of lines removed, inserted, replaced; it does not call the converter. Hypothesis `without_errors`: the step reports no ERROR (a failed patch is reported so, C78). "
  },
  {
   "property": "C98",
   "status": "proved",
   "theorems": [
    "C98_context"
   ],
   "note": "Spec ContextSpec.v. Strengthens C80 (first occurrence and order of the context section). Hypothesis: no error reported; no variable twice in the table."
  },
  {
   "property": "C99",
   "status": "proved",
   "theorems": [
    "C99_search_exact",
    "C99_search_results_resolve"
   ],
   "note": "The regular expression is an arbitrary predicate on texts (re is not modelled)."
  },
  {
   "property": "C100",
   "status": "proved",
   "theorems": [
    "C100_whole_conversion"
   ],
   "note": "The selector step is given by the model function here; C91 says what it does under its own conditions."
  },
  {
   "property": "C101",
   "status": "proved",
   "theorems": [
    "C101_unknown_sections_stay"
   ],
   "note": "C101_unknown_sections_stay: the node found at /<name> before is the node found after (Leibniz equality of the whole subtree). The names excluded are listed in KeepSpec.v `known_sections`. Hypotheses on the libraries: texts are read as proper values, and the keys context and schema_version are written as lines of that name."
  },
  {
   "property": "C102",
   "status": "partial",
   "theorems": [
    "C102_plot_of_a_package",
    "C102_plot_of_everything",
    "C102_searches_exist",
    "C102_known_package_without_plot_refuted"
   ],
   "note": "Proved relative to `searches` (networkx.bfs_tree finds what can be reached and refuses a start that is no node; shown satisfiable by a verified search). Refuted: a known package without such dependencies is no node, so plotting it fails."
  },
  {
   "property": "C103",
   "status": "partial",
   "theorems": [
    "C103_session",
    "C103_no_recipes",
    "C103_sessions_end_alike",
    "C103_plot_ends_the_program_refuted",
    "C103_capital_letters_refuted",
    "C103_python_3_11_refuted",
    "C103_unparsable_recipes_refuted",
    "C103_statistics_refuted",
    "C103_statistics"
   ],
   "note": "C103_session: a session is the sequence of answers given by the relation `reply`; the only unanswered line is a plot of a package without such dependencies, which ends the program (refuted). Also refuted: names with capital letters are never found; with Python 3.11 every plot command ends the program; recipes that all fail to parse are reported as missing; statistics with duplicate names of different kinds. Timing, memory usage (pickle) and drawing are not modelled."
  },
  {
   "property": "C104",
   "status": "partial",
   "theorems": [
    "C104_comment_edits_in_the_text",
    "C104_in_parsed_recipes",
    "C104_lost_selector_refuted",
    "C104_repeated_first_key_refuted"
   ],
   "note": "C104_comment_edits_in_the_text, C104_in_parsed_recipes (after any considerate history). Needs begins_once: no mapping element repeats its first key. Refuted without it (an extra \"- \" appears), and for list elements that are mappings: a selector set there is reported by the getters but never appears in the text."
  },
  {
   "property": "C105",
   "status": "partial",
   "theorems": [
    "C105_replaced_value_in_the_text",
    "C105_selector_is_lost_refuted"
   ],
   "note": "The new value must be read back as one plain line (`written_as E v [plain_line w]`, about the YAML library). Refuted: the selector of the line is lost from the text although get_selector_at_path still reports it."
  },
  {
   "property": "C106",
   "status": "proved",
   "theorems": [
    "C106_other_sections_in_the_text",
    "C106_every_edited_recipe"
   ],
   "note": "C106_other_sections_in_the_text for every operation, C106_every_edited_recipe discharges its assumption for all histories of parsed recipes."
  },
  {
   "property": "C107",
   "status": "proved",
   "theorems": [
    "C107_every_text",
    "C107_hash_type_is_taken_out",
    "C107_other_text_is_kept",
    "C107_other_hash_refuted",
    "C107_still_used_refuted"
   ],
   "note": "C107_hash_type_is_taken_out, C107_other_text_is_kept. Refuted claims: that a key only becomes sha256 when the variable is sha256 (an MD5 sum is then declared as SHA-256), and that the variable is only removed when it is not used elsewhere. C107_every_text: exact for every text."
  },
  {
   "property": "C108",
   "status": "proved",
   "theorems": [
    "C108_error_messages",
    "C108_every_output",
    "C108_cut_message_refuted"
   ],
   "note": "C108_error_messages, C108_every_output (every output has that form). Refuted: that a message is recorded as a whole; further lines of a message are dropped."
  },
  {
   "property": "C109",
   "status": "proved",
   "theorems": [
    "C109_debug_file"
   ],
   "note": "C109_debug_file: the conjuncts determine the groups and their order completely."
  },
  {
   "property": "C110",
   "status": "proved",
   "theorems": [
    "C110_listed_variables",
    "C110_single_value_refuted"
   ],
   "note": "C110_listed_variables. Refuted: that every variable of the file is known; a variable with a single value instead of a list is not."
  },
  {
   "property": "C111",
   "status": "proved",
   "theorems": [
    "C111_statistics",
    "C111_average_of_reports_refuted"
   ],
   "note": "C111_statistics (an equivalence that determines the result). Refuted: that a percentage is the average over the runs that report it."
  },
  {
   "property": "C112",
   "status": "proved",
   "theorems": [
    "C112_logs",
    "C112_any_lines",
    "C112_every_object_refuted"
   ],
   "note": "C112_logs; C112_any_lines is the exact outcome, with every exception, for arbitrary lines. Refuted: that every JSON object in a log is found."
  },
  {
   "property": "C113",
   "status": "proved",
   "theorems": [
    "C113_summary",
    "C113_summary_exists",
    "C113_count_of_conversions_refuted"
   ],
   "note": "C113_summary, C113_summary_exists. Refuted: that test_count is the number of conversions run."
  },
  {
   "property": "C114",
   "status": "proved",
   "theorems": [
    "C114_picked",
    "C114_fetched",
    "C114_no_organisation",
    "C114_counted",
    "C114_bare_names_excluded_refuted",
    "C114_one_file_each_refuted"
   ],
   "note": "C114_picked, C114_fetched, C114_no_organisation, C114_counted. Refuted: that a list of bare repository names excludes anything; that two fetched repositories give two files."
  },
  {
   "property": "C115",
   "status": "proved",
   "theorems": [
    "C115_converted_file",
    "C115_only_old_recipes"
   ],
   "note": "C115_converted_file (uses the chain of C100), C115_only_old_recipes."
  },
  {
   "property": "C116",
   "status": "partial",
   "theorems": [
    "C116_directory",
    "C116_directory_with_one_recipe",
    "C116_directory_without_recipes",
    "C116_absolute_output",
    "C116_distinct_outputs_refuted",
    "C116_one_recipe_beside_refuted",
    "C116_recipes_kept_refuted"
   ],
   "note": "C116_directory, C116_directory_with_one_recipe, C116_directory_without_recipes. Refuted: distinct outputs for an absolute output path; output beside the only recipe; recipes kept when the output is called meta.yaml."
  },
  {
   "property": "C117",
   "status": "proved",
   "theorems": [
    "C117_nothing_left_to_upgrade",
    "C117_all_lines_stay"
   ],
   "note": "C117_nothing_left_to_upgrade, C117_all_lines_stay. Assumed about the YAML writer: {schema_version: 1} is written as one key with the value 1."
  },
  {
   "property": "C118",
   "status": "proved",
   "theorems": [
    "C118_empty_parentheses",
    "C118_only_one_result",
    "C118_other_functions_refuted"
   ],
   "note": "C118_empty_parentheses, C118_only_one_result. C118_other_functions_refuted: the parentheses of any other function without arguments stay."
  },
  {
   "property": "C119",
   "status": "proved",
   "theorems": [
    "C119_functions_after_a_dot",
    "C119_every_call_refuted",
    "C119_texts_are_kept_refuted"
   ],
   "note": "C119_functions_after_a_dot. Refuted: all calls of a line or chain are converted (C119_every_call_refuted); text literals are kept (C119_texts_are_kept_refuted: the dot of a web address becomes a bar)."
  },
  {
   "property": "C120",
   "status": "proved",
   "theorems": [
    "C120_quoted_lines",
    "C120_block_on_the_first_line_refuted",
    "C120_two_lines_refuted",
    "C120_every_line_refuted"
   ],
   "note": "C120_quoted_lines. Refuted: the result is a block (first line of the text), the block has two lines (empty line before the key), all escapes become ends of lines."
  },
  {
   "property": "C121",
   "status": "proved",
   "theorems": [
    "C121_pre_processing",
    "C121_lookup_by_method_refuted"
   ],
   "note": "C121_pre_processing. C121_lookup_by_method_refuted: a lookup environ.get(..) becomes a filter `environ | get(..)`."
  },
  {
   "property": "C122",
   "status": "partial",
   "theorems": [
    "C122_references",
    "C122_decided",
    "C122_unknown_variable",
    "C122_plain_name",
    "C122_only_references_refuted",
    "C122_every_reference_refuted",
    "C122_dot_refuted"
   ],
   "note": "C122_references, C122_decided, C122_unknown_variable: exact. Two readings of the documentation (\"a list of paths that use particular variables\") are refuted: names that contain the name, and the name between two expressions, are listed (C122_only_references_refuted); references inside a multiline text are not (C122_every_reference_refuted). The dot of a name stands for any character (C122_plain_name, C122_dot_refuted); other special characters of regular expressions in a name are taken literally in the model."
  },
  {
   "property": "C123",
   "status": "partial",
   "theorems": [
    "C123_value_read",
    "C123_whole_recipe",
    "C123_value_filled",
    "C123_whole_recipe_filled",
    "C123_mapping_element_refuted",
    "C123_other_values_refuted"
   ],
   "note": "C123_value_read, C123_whole_recipe: exact for every form of entry; C123_value_filled, C123_whole_recipe_filled: with variables (filled_in; the depth is bounded by the recursion limit, a parameter of the environment). The natural reading (the value denoted by the document) is refuted for list elements that are mappings (unreadable, or a list if there is one key), lists with one number (read as the number), keys without value (read as their name) and quoted numbers."
  },
  {
   "property": "C124",
   "status": "partial",
   "theorems": [
    "C124_replaced",
    "C124_read",
    "C124_sums_refuted",
    "C124_filter_order_refuted",
    "C124_values_kept_refuted",
    "C124_quotes_refuted"
   ],
   "note": "C124_replaced, C124_read: exact result for every such text. Not covered: several sums in one expression, filters or elements within a sum, repeated filters. Refuted for: sums of three operands (the third is dropped), filters behind a sum (ignored), upper before lower (the result is upper case), values that hold expressions (replaced or not depending on the order), texts with a double quote in a sum (the result is not YAML)."
  },
  {
   "property": "C125",
   "status": "partial",
   "theorems": [
    "C125_table",
    "C125_recipe",
    "C125_comment_refuted",
    "C125_same_line_refuted",
    "C125_last_line_refuted",
    "C125_dash_refuted",
    "C125_closing_refuted",
    "C125_word_refuted"
   ],
   "note": "C125_table, C125_recipe: exact table. Refuted: a statement in a comment counts; of two statements on one line only the first counts; a statement on a last line without line break does not count; {%- set \u2026 is not found and \u2026 -%} puts a dash into the value; a value with the closing sign is cut; {% settle = 1 %} is taken for a statement."
  },
  {
   "property": "C126",
   "status": "partial",
   "theorems": [
    "C126_taken_out",
    "C126_one_result",
    "C126_same_tree",
    "C126_first_line",
    "C126_line",
    "C126_next_line_refuted",
    "C126_kept_refuted"
   ],
   "note": "C126_taken_out, C126_one_result: exact result for every text; C126_same_tree, C126_first_line, C126_line: consequences for the tree. Refuted: the line after a commented-out statement is swallowed by the comment (its field is lost); a statement followed by a space or on a last line without line break stays in the text."
  },
  {
   "property": "C127",
   "status": "partial",
   "theorems": [
    "C127_version_line",
    "C127_read_again_partial",
    "C127_last_block_refuted",
    "C127_element_comment_refuted"
   ],
   "note": "C127_version_line: no later step touches the line. C127_read_again_partial: results in canonical layout (C39) are read back. Refuted: if the section that comes last ends with a block of text, the converted file cannot be read at all (C40); after the keys of a source have been put in order the comment of the former first key stays with the element, so the tree read differs."
  },
  {
   "property": "C128",
   "status": "proved",
   "theorems": [
    "C128_same_entries_in_the_new_file"
   ],
   "note": "From text to text, through reading, converting, writing and reading again. SimpleSpec.v: what entries in another order are."
  },
  {
   "property": "C129",
   "status": "proved",
   "theorems": [
    "C129_converted",
    "C129_file_to_file",
    "C129_list_of_licenses_refuted",
    "C129_outputs_refuted"
   ],
   "note": "GoesSpec.v: what has to be readable. The theorem is about recipes with the named properties; the two refutations show what happens with other ones."
  },
  {
   "property": "C130",
   "status": "proved",
   "theorems": [
    "C130_lines",
    "C130_one_name",
    "C130_same_outline",
    "C130_table",
    "C130_text",
    "C130_node",
    "C130_node_same"
   ],
   "note": "Debug.v: the listing is a list of lines (joined with line ends in `__str__`); names may contain line ends, so the statement about equal listings is about the list of lines. The name of the class is a parameter of recipe_str. C130_text and C130_node give the complete texts line by line; repr of comments escapes only backslash, quote, newline, tab and carriage return."
  },
  {
   "property": "C131",
   "status": "proved",
   "theorems": [
    "C131_written",
    "C131_lines",
    "C131_text",
    "C131_read_back",
    "C131_first_key_refuted",
    "C131_element_refuted"
   ],
   "note": "BlockSpec.v defines the lines of a text without the model (text_lines), what is written for a value (value_lines) and the change of the text. The refutations show the two places where a list of Python is written instead."
  },
  {
   "property": "C132",
   "status": "proved",
   "theorems": [
    "C132_converted",
    "C132_one_result",
    "C132_a_result",
    "C132_comment_refuted",
    "C132_file_to_file"
   ],
   "note": "VarsSpec.v defines the new tree as a relation between trees without the model (renewed, with_context, with_version); markers_changed is the relation of C84. Conditions: the section for the variables, the version line and the new values are written as one expects (writes_context, writes_version, expressions_fit), license and summary are as in C129, and the new section is read as a mapping. VarsSpec2.v says the same about the lines of a text (new_markers, context_items); C132_file_to_file asks that the new lines are canonical."
  },
  {
   "property": "C133",
   "status": "proved",
   "theorems": [
    "C133_converted",
    "C133_one_result",
    "C133_repeated_refuted"
   ],
   "note": "AboutSpec.v defines the new section as a relation between trees without the model (kept_lines, new_line, about_renewed) and the warnings (told_of_dropped). Conditions as in C132, and about_in_order; the values of the renamed fields can be read (get_value) and are written as one line with the new name (written_as). The warnings of the dropped fields are a contiguous part of all new warnings. Refuted without about_in_order: repeated names."
  },
  {
   "property": "C134",
   "status": "proved",
   "theorems": [
    "C134_converted",
    "C134_one_result",
    "C134_file_to_file",
    "C134_both_names_refuted",
    "C134_source_list_refuted"
   ],
   "note": "RenameSpec.v lists the names and defines the new tree as a relation between trees without the model (other_lines, renamed_line, section_renewed, names_renewed) and the warnings (told_dropped, license_told). Conditions as in C132 (variables, expressions, comments with paths), only_renamed (not covered: fields of build that move elsewhere, svn_url, hg_url, sections extras, test, outputs), values_fine (the source is no list, the license is not corrected, the summary is no list), section_in_order. Refuted outside these: a value under the new name is overwritten, and a list of sources."
  },
  {
   "property": "C135",
   "status": "proved",
   "theorems": [
    "C135_misspellings",
    "C135_sources",
    "C135_build",
    "C135_requirements",
    "C135_about",
    "C135_tests",
    "C135_outputs",
    "C135_sections",
    "C135_one_outcome"
   ],
   "note": "SectionSpec.v (the relations of C92 to C97, between the tree and warnings before and after; not in terms of the upgrade functions). For this the relations were made precise: a value can only be taken away or replaced where a line or list element stands (own_line), a key can only move where there is a place for it before the move (place_for), a text is only looked for in what Python can search (searchable). Hypotheses: the YAML reader returns mappings with distinct keys (reads_proper) and so does the tree (proper_tree), which reading a recipe guarantees (C88)."
  },
  {
   "property": "C136",
   "status": "proved",
   "theorems": [
    "C136_context",
    "C136_conversion",
    "C136_no_selectors",
    "C136_from_a_text",
    "C136_one_outcome"
   ],
   "note": "CanSpec.v (conversion, top_in_order, lost_comments), ContextSpec.v (context_upgraded), SectionSpec.v. Hypotheses: the YAML reader returns mappings with distinct keys (reads_proper) and so does the tree (proper_tree); variables have distinct names, as reading them guarantees; each comment after a line has a path (comments_have_paths; otherwise looking up the comment fails; proved for a recipe that was read from a text and whose keys can be addressed); the order in which Python walks through a set of paths adds none."
  },
  {
   "property": "C137",
   "status": "proved",
   "theorems": [
    "C137_file_to_file",
    "C137_one_line",
    "C137_comment_is_lost_refuted",
    "C137_missing_values_are_added"
   ],
   "note": "BumpSpec.v (value_set, variable_set, file_bumped, value_line_differs), on top of the page of LayoutSpec.v. Conditions: old and new recipe are canonical, the file holds none of the hash-type marks of C107, and the new values are written as one plain line. C137_file_to_file is for values that are there already; C137_missing_values_are_added (BumpSpec2.v: written_at, number_put, version_put, sums_put, file_put) also for values that are missing and for values that are the first of their mapping. C137_comment_is_lost_refuted shows that the condition on comments is needed."
  },
  {
   "property": "C138",
   "status": "proved",
   "theorems": [
    "C138_file_to_file",
    "C138_one_block",
    "C138_one_patch"
   ],
   "note": "EditSpec.v (inside, file_edited, edited_in_turn, block_differs), on top of the page of LayoutSpec.v. Conditions: the old and the new recipe are canonical; a replaced plain value has no comment on its line (C137_comment_is_lost_refuted shows why), and a replaced mapping of a list has none. The lines a value is written as come from the generated subtree (written_as, C13); the value that copy and move read comes from get_value (C06-C08). Patches that fail are C10, C17 and C108."
  },
  {
   "property": "C139",
   "status": "proved",
   "theorems": [
    "C139_file_to_file",
    "C139_one_dependency",
    "C139_removed",
    "C139_ignored"
   ],
   "note": "DepFileSpec.v (dependency_added, section_changed, line_at_end, line_instead, section_opened). The values that the section is read as come from get_value (C06-C08, C123); the text of the dependency is written as one line (plain_dependency); for a selector on a line at the end the section with the new line must be read as a list of that many values. The selector of a dependency that opens a section stands on the line of the section too (C48). The old and the new recipe are canonical."
  },
  {
   "property": "C140",
   "status": "partial",
   "theorems": [
    "C140_read_and_written",
    "C140_patched",
    "C140_dependency_added",
    "C140_bumped",
    "C140_version_in_context_refuted"
   ],
   "note": "NewFileSpec.v (new_file: marked_new, context_read), with the relations of C137, C138 and C139 for the new format. Proved except for the last sentence, which is refuted: where the version (or a checksum) is in a variable of the section \"context\", bump-recipe changes the table of variables, which is never written for the new format; it ends with success and the file has the old version. C140_bumped says exactly that: the new variables do not occur in the text."
  },
  {
   "property": "C141",
   "status": "proved",
   "theorems": [
    "C141_undone",
    "C141_undone_in_new_format",
    "C141_dependency_undone",
    "C141_comment_refuted",
    "C141_removed_first_key_refuted"
   ],
   "note": "UndoSpec.v (undone_by: six pairs of requests; dependency_at_end). The entries before and after the edit are canonical. C141_comment_refuted and C141_removed_first_key_refuted show that the conditions on comments and on the place of a removed key are needed."
  },
  {
   "property": "C142",
   "status": "proved",
   "theorems": [
    "C142_twice"
   ],
   "note": "TwiceSpec.v (bumped_to: the three steps of C137, plus: the written file can be read, lists the same archives and keeps checksums in the same places). Old format only; the network gives the same answers in both runs."
  },
  {
   "property": "C143",
   "status": "proved",
   "theorems": [
    "C143_file_to_file",
    "C143_in_new_format",
    "C143_undone",
    "C143_one_line"
   ],
   "note": "CommentFileSpec.v (commented, comment_becomes, line_edited). Lines that are not covered: the first key of a mapping in a list, the mapping itself (refuted in C104: its selector is not written) and keys with a block of text. Notes have no hash sign and no closing bracket."
  },
  {
   "property": "C144",
   "status": "proved",
   "theorems": [
    "C144_session",
    "C144_session_in_new_format",
    "C144_variable_line"
   ],
   "note": "SessionSpec.v (action, acted_in_turn). Each single call must be one of those described in C138, C139 and C143 (file_edited, dependency_added, line_edited); the first and the last page, but not those in between, must be canonical. In the new format the table of variables is not written (C38), so there only the tree is compared."
  },
  {
   "property": "C145",
   "status": "proved",
   "theorems": [
    "C145_answers",
    "C145_answers_in_new_format",
    "C145_answers_after_session",
    "C145_selectors_after_session",
    "C145_selectors_after_comment_refuted"
   ],
   "note": "QuerySpec.v (rows of a file, answers). The file has an entry and no key that is a single slash (paths do not show it). get_selector_paths is described for selectors that no comment line contains: a comment line is listed under the name of an internal object. The comments table is described for comments of the usual forms (plain, selector, selector and note) on lines with distinct paths. add_comment is left out for the selector queries after a session, since it can leave the selector table behind (C145_selectors_after_comment_refuted)."
  },
  {
   "property": "C146",
   "status": "proved",
   "theorems": [
    "C146_found",
    "C146_found_in_new_format",
    "C146_found_after_session",
    "C146_same_key_refuted"
   ],
   "note": "LineSpec.v (line_found; the lines are those of C145). Without different keys it is false: of two lines \"number: 3  # [linux]\" and \"number: 103  # [win]\" only the first is found (C146_same_key_refuted). The values of sections, mappings and blocks are described by C123."
  },
  {
   "property": "C147",
   "status": "proved",
   "theorems": [
    "C147_dependencies",
    "C147_dependencies_in_new_format",
    "C147_dependencies_after_session",
    "C147_one_text_refuted"
   ],
   "note": "DepListSpec.v (section_lists, requirement_lines, file_dependencies). What YAML and Jinja read from the texts is a premise (value_filled, C123). A section must be read as a list: with \"run: pip\" every letter of the text is a dependency (C147_one_text_refuted). Files with outputs: C149."
  },
  {
   "property": "C148",
   "status": "proved",
   "theorems": [
    "C148_values",
    "C148_values_in_new_format",
    "C148_values_after_session",
    "C148_entries_are_lines"
   ],
   "note": "EntrySpec.v (entry_at, entries_read). What an entry is read as is said by ValueSpec.v (value_read, value_filled), including the unexpected cases recorded at C123 (mappings in lists, lists with one number, keys without value); here it is carried from a given node to every entry of every file."
  },
  {
   "property": "C149",
   "status": "proved",
   "theorems": [
    "C149_dependencies",
    "C149_dependencies_in_new_format",
    "C149_dependencies_after_session",
    "C149_same_name_refuted"
   ],
   "note": "DepListSpec.v (packages_of_file, scope_dependencies, named). What YAML and Jinja read from the texts is a premise (value_read, value_filled: C123); also that the section outputs is read as a list with one value per output. With an output that has the name of the file the call fails (C149_same_name_refuted)."
  },
  {
   "property": "C150",
   "status": "proved",
   "theorems": [
    "C150_paths",
    "C150_paths_in_new_format",
    "C150_paths_after_session"
   ],
   "note": "DepPathSpec.v (dependency_paths, lines_at, nothing_at, leads_to_line). That YAML reads a section as a list with one value per line, and the outputs as a list, is a premise (value_read: C123)."
  },
  {
   "property": "C151",
   "status": "proved",
   "theorems": [
    "C151_agree",
    "C151_agree_in_new_format",
    "C151_agree_after_session",
    "C151_all_reported",
    "C151_all_reported_in_new_format",
    "C151_all_reported_after_session",
    "C151_run_exports_refuted",
    "C151_kinds_of_exports_refuted"
   ],
   "note": "AgreeSpec.v (usual_sections, dependencies_in_file, reported_paths_in) with the vocabulary of C147, C149 and C150. What YAML and Jinja read from the texts is a premise, as there. The two refutations show why the names of the sections matter."
  },
  {
   "property": "C152",
   "status": "proved",
   "theorems": [
    "C152_packages",
    "C152_packages_in_new_format",
    "C152_packages_after_session"
   ],
   "note": "PackageSpec.v (packages_listed, packages_answered). What YAML and Jinja read from the texts is a premise (value_read, value_filled: C123), also that the section outputs is read as a list with one value per output."
  },
  {
   "property": "C153",
   "status": "proved",
   "theorems": [
    "C153_sources",
    "C153_sources_in_new_format",
    "C153_sources_after_session"
   ],
   "note": "SourceSpec.v (recipe_called, sources_listed, sources_found) with the vocabulary of C71 and C152; the file has a name. What YAML and Jinja read from the section is a premise (value_filled: C123), also that a list has one mapping per element."
  },
  {
   "property": "C154",
   "status": "partial",
   "theorems": [
    "C154_searched",
    "C154_searched_in_new_format",
    "C154_searched_after_session",
    "C154_block_comment_refuted",
    "C154_block_references_refuted"
   ],
   "note": "MentionSpec.v (searched, references_found) with the lines of a file of C145 and `mentions` of C122. Not so: comments on the first line of a block are not searched (C154_block_comment_refuted), and variables in the lines of a block are not reported (C154_block_references_refuted)."
  },
  {
   "property": "C155",
   "status": "partial",
   "theorems": [
    "C155_all_lines",
    "C155_all_lines_in_new_format",
    "C155_no_line",
    "C155_removed_lines_refuted"
   ],
   "note": "SweepSpec.v (lines_found, swept) with the edits of C138 and the lines of C154. A patch that fails is the subject of C21. That the edits are made on the lines that matched is false for remove: the numbers of later elements change (C155_removed_lines_refuted), which is why the theorem speaks of the edits at the paths before the first patch."
  },
  {
   "property": "C156",
   "status": "proved",
   "theorems": [
    "C156_differences",
    "C156_differences_in_new_format"
   ],
   "note": "FileDiffSpec.v (idle, differences). difflib is any function of the two lists of lines."
  },
  {
   "property": "C157",
   "status": "proved",
   "theorems": [
    "C157_refusals",
    "C157_refusals_in_new_format"
   ],
   "note": "RefusalSpec.v (refused, with_refusals). remove_selector that finds no selector counts as refused. Refused calls of add_dependency and failed moves are not covered."
  }
 ]
}