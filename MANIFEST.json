{
 "claims": [
  {
   "property": "C01",
   "status": "proved",
   "theorems": [
    "C01_edge_text_round_trip"
   ],
   "note": ""
  },
  {
   "property": "C02",
   "status": "proved",
   "theorems": [
    "C02_vertex_ids_unique"
   ],
   "note": ""
  },
  {
   "property": "C03",
   "status": "proved",
   "theorems": [
    "C03_parser_terminates",
    "C03_recursion_depth"
   ],
   "note": "C03_recursion_depth: the recursion of str2edge is never deeper than the number of opening brackets."
  },
  {
   "property": "C04",
   "status": "proved",
   "theorems": [
    "C04_token_classification"
   ],
   "note": ""
  },
  {
   "property": "C05",
   "status": "proved",
   "theorems": [
    "C05_split_recovers_elements",
    "C05_bare_split_of_nested_head_refuted",
    "C05_white_space"
   ],
   "note": "Proved as stated; the companion _refuted theorem shows the bare form fails when the first element is an edge."
  },
  {
   "property": "C06",
   "status": "proved",
   "theorems": [
    "C06_nthperm_enumerates"
   ],
   "note": ""
  },
  {
   "property": "C07",
   "status": "proved",
   "theorems": [
    "C07_unpermutate_inverts_nthperm"
   ],
   "note": ""
  },
  {
   "property": "C08",
   "status": "proved",
   "theorems": [
    "C08_index_rows_decode",
    "C08_rows_of_nested_heads_refuted"
   ],
   "note": "Proved as stated (rows starting with an atom); the companion _refuted theorem shows rows starting with a nested edge raise ValueError."
  },
  {
   "property": "C09",
   "status": "proved",
   "theorems": [
    "C09_range_is_prefix",
    "C09_str_plus_1_domain",
    "C09_order_of_the_scan",
    "C09_characters"
   ],
   "note": ""
  },
  {
   "property": "C10",
   "status": "proved",
   "theorems": [
    "C10_pattern_matching"
   ],
   "note": ""
  },
  {
   "property": "C11",
   "status": "proved",
   "theorems": [
    "C11_exists_answers_membership"
   ],
   "note": ""
  },
  {
   "property": "C12",
   "status": "proved",
   "theorems": [
    "C12_add_idempotent"
   ],
   "note": ""
  },
  {
   "property": "C13",
   "status": "proved",
   "theorems": [
    "C13_remove_removes_exactly_that_edge"
   ],
   "note": ""
  },
  {
   "property": "C14",
   "status": "proved",
   "theorems": [
    "C14_pattern2edges_exact"
   ],
   "note": ""
  },
  {
   "property": "C15",
   "status": "proved",
   "theorems": [
    "C15_star_of_atom_exact"
   ],
   "note": ""
  },
  {
   "property": "C16",
   "status": "proved",
   "theorems": [
    "C16_star_of_edge_refuted",
    "C16_star_of_edge",
    "C16_pattern_with_edge"
   ],
   "note": "Exact description of a defect: rows of the index are cut at the spaces between tokens without regard to parentheses. C16_star_of_edge_refuted is the concrete witness against the docstring."
  },
  {
   "property": "C17",
   "status": "proved",
   "theorems": [
    "C17_symbols_with_root_exact"
   ],
   "note": ""
  },
  {
   "property": "C18",
   "status": "proved",
   "theorems": [
    "C18_degree_of_atom"
   ],
   "note": ""
  },
  {
   "property": "C19",
   "status": "proved",
   "theorems": [
    "C19_degree_of_edge_refuted",
    "C19_degree_of_any_vertex",
    "C19_born_meaning"
   ],
   "note": "Exact for every vertex and history (born, explained by C19_born_meaning); C19_degree_of_edge_refuted shows that it is not simply the number of occurrences."
  },
  {
   "property": "C20",
   "status": "proved",
   "theorems": [
    "C20_timestamps",
    "C20_first_seen_meaning",
    "C20_inserted_meaning"
   ],
   "note": ""
  },
  {
   "property": "C21",
   "status": "proved",
   "theorems": [
    "C21_destroy_empties"
   ],
   "note": ""
  },
  {
   "property": "C22",
   "status": "proved",
   "theorems": [
    "C22_multi_equals_singles"
   ],
   "note": ""
  },
  {
   "property": "C23",
   "status": "proved",
   "theorems": [
    "C23_multi_add_any_arguments",
    "C23_multi_add_atomic"
   ],
   "note": "Proved on SQLite commit mode, for arbitrary arguments (incl. failing calls) and on reachable states."
  },
  {
   "property": "C24",
   "status": "proved",
   "theorems": [
    "C24_single_not_atomic_refuted",
    "C24_repair",
    "C24_degrees_after_crash"
   ],
   "note": "C24_single_not_atomic_refuted is the witness against atomicity (both commit modes); C24_repair and C24_degrees_after_crash are what holds at every crash point, with the row counts of SQLite (the repair on MySQL: C89); C24_degree_not_repaired shows that repair does not restore degrees."
  },
  {
   "property": "C25",
   "status": "proved",
   "theorems": [
    "C25_crash_keeps_other_edges"
   ],
   "note": ""
  },
  {
   "property": "C26",
   "status": "proved",
   "theorems": [
    "C26_completed_calls_are_durable"
   ],
   "note": ""
  },
  {
   "property": "C27",
   "status": "proved",
   "theorems": [
    "C27_durable_after_failure_refuted",
    "C27_durable_after_failure",
    "C27_lost_after_failure",
    "C27_mysql_keeps_everything",
    "C27_mysql_not_all_or_nothing_refuted"
   ],
   "note": "Both directions, for arbitrary arguments; C27_durable_after_failure_refuted is the witness that a successful call after a failed batch can be lost; C27_mysql_keeps_everything is about MySQL's engine."
  },
  {
   "property": "C28",
   "status": "proved",
   "theorems": [
    "C28_degree_in_batch_refuted",
    "C28_queries_in_batch",
    "C28_closed_cursor"
   ],
   "note": "Every query, for arbitrary arguments; C28_degree_in_batch_refuted is the witness that a batch that asks for a degree fails although the same calls outside succeed."
  },
  {
   "property": "C29",
   "status": "proved",
   "theorems": [
    "C29_add_belief"
   ],
   "note": ""
  },
  {
   "property": "C30",
   "status": "proved",
   "theorems": [
    "C30_sources_exact"
   ],
   "note": ""
  },
  {
   "property": "C31",
   "status": "proved",
   "theorems": [
    "C31_remove_belief",
    "C31_link_as_fact_refuted"
   ],
   "note": "Proved; the companion _refuted theorem shows why the case of a fact that is itself a source link is excluded."
  },
  {
   "property": "C32",
   "status": "proved",
   "theorems": [
    "C32_remove_by_pattern"
   ],
   "note": ""
  },
  {
   "property": "C33",
   "status": "proved",
   "theorems": [
    "C33_f_all",
    "C33_f_all_nested_refuted"
   ],
   "note": "Exact set of visited vertices; C33_f_all_nested_refuted shows a nested edge that is not visited."
  },
  {
   "property": "C34",
   "status": "proved",
   "theorems": [
    "C34_batch_writer"
   ],
   "note": ""
  },
  {
   "property": "C35",
   "status": "proved",
   "theorems": [
    "C35_batch_writer",
    "C35_batch_writer_refuted",
    "C35_flush"
   ],
   "note": "Refinement of the whole class to delayed multi-edge adds; C35_batch_writer_refuted shows the consequences a user would not expect (timestamps, visibility, removal, empty flush)."
  },
  {
   "property": "C36",
   "status": "proved",
   "theorems": [
    "C36_null_backend"
   ],
   "note": ""
  },
  {
   "property": "C37",
   "status": "proved",
   "theorems": [
    "C37_symbol_parts_round_trip"
   ],
   "note": ""
  },
  {
   "property": "C38",
   "status": "proved",
   "theorems": [
    "C38_roots_and_namespaces"
   ],
   "note": ""
  },
  {
   "property": "C39",
   "status": "proved",
   "theorems": [
    "C39_new_meaning",
    "C39_new_meaning_url_refuted"
   ],
   "note": "Exact for every kind of symbol; C39_new_meaning_url_refuted shows the naive expectation (root kept, idempotent) failing on URLs."
  },
  {
   "property": "C40",
   "status": "proved",
   "theorems": [
    "C40_negative",
    "C40_negative_involution_refuted"
   ],
   "note": "Exact (iff) characterisation; C40_negative_involution_refuted is the witness that it is not an involution on all texts."
  },
  {
   "property": "C41",
   "status": "proved",
   "theorems": [
    "C41_hashed"
   ],
   "note": ""
  },
  {
   "property": "C42",
   "status": "proved",
   "theorems": [
    "C42_hashed_collisions",
    "C42_hashed_collision_free_refuted"
   ],
   "note": "Collision freedom proved for short equal-length texts over 31 consecutive code points; the unrestricted claim is refuted (\"Aa\",\"BB\") and the collision family is proved."
  },
  {
   "property": "C43",
   "status": "proved",
   "theorems": [
    "C43_str2symbol_delimiter_free"
   ],
   "note": ""
  },
  {
   "property": "C44",
   "status": "proved",
   "theorems": [
    "C44_str2symbol_valid",
    "C44_str2symbol_valid_refuted"
   ],
   "note": "Exact (iff) characterisation; C44_str2symbol_valid_refuted gives the witnesses outside it."
  },
  {
   "property": "C45",
   "status": "proved",
   "theorems": [
    "C45_symbol2str_inverts"
   ],
   "note": ""
  },
  {
   "property": "C46",
   "status": "proved",
   "theorems": [
    "C46_float_text",
    "C46_float_round_trip_refuted",
    "C46_numeral_is_rounded",
    "C46_floats_read",
    "C46_fifteen_digits",
    "C46_fewest_digits"
   ],
   "note": "Exact: which floats survive and what the others become (C46_float_text); which float a numeral becomes (C46_numeral_is_rounded, with binary64 and rounding specified over the rationals); what is written is the shortest and nearest numeral (C46_fewest_digits; nearness stated for positional texts); C46_floats_read and C46_fifteen_digits say which decimals the first theorem covers."
  },
  {
   "property": "C47",
   "status": "proved",
   "theorems": [
    "C47_numerically_equal_edges",
    "C47_numeric_aliasing_refuted",
    "C47_equality_is_numeric",
    "C47_equality_otherwise"
   ],
   "note": "Exact for every storable query against every alias-free history; C47_numeric_aliasing_refuted shows that equal values are not treated alike. Histories that store both 7 and 7.0: C94."
  },
  {
   "property": "C48",
   "status": "proved",
   "theorems": [
    "C48_shortest_walk_map"
   ],
   "note": ""
  },
  {
   "property": "C49",
   "status": "proved",
   "theorems": [
    "C49_ego_intersect_never_answer"
   ],
   "note": ""
  },
  {
   "property": "C50",
   "status": "proved",
   "theorems": [
    "C50_opening"
   ],
   "note": ""
  },
  {
   "property": "C51",
   "status": "proved",
   "theorems": [
    "C51_wiki_filter",
    "C51_nothing_invented"
   ],
   "note": ""
  },
  {
   "property": "C52",
   "status": "proved",
   "theorems": [
    "C52_linearisation",
    "C52_parser_tree"
   ],
   "note": ""
  },
  {
   "property": "C53",
   "status": "proved",
   "theorems": [
    "C53_wordnet_reader",
    "C53_lemma_symbol",
    "C53_lemma_symbol_refuted"
   ],
   "note": ""
  },
  {
   "property": "C54",
   "status": "proved",
   "theorems": [
    "C54_alpha_keeps_every_word",
    "C54_alpha_flat_leafs"
   ],
   "note": ""
  },
  {
   "property": "C55",
   "status": "proved",
   "theorems": [
    "C55_beta_only_marks"
   ],
   "note": ""
  },
  {
   "property": "C56",
   "status": "proved",
   "theorems": [
    "C56_gamma_keeps_words",
    "C56_gamma_is_a_function"
   ],
   "note": ""
  },
  {
   "property": "C57",
   "status": "proved",
   "theorems": [
    "C57_epsilon_output",
    "C57_epsilon_unique"
   ],
   "note": ""
  },
  {
   "property": "C58",
   "status": "proved",
   "theorems": [
    "C58_walk_search",
    "C58_walk_search_from_nothing"
   ],
   "note": ""
  },
  {
   "property": "C59",
   "status": "proved",
   "theorems": [
    "C59_include_edge"
   ],
   "note": ""
  },
  {
   "property": "C60",
   "status": "proved",
   "theorems": [
    "C60_delta_keeps_words",
    "C60_delta_fuel",
    "C60_delta_idle"
   ],
   "note": ""
  },
  {
   "property": "C61",
   "status": "proved",
   "theorems": [
    "C61_extractor",
    "C61_stage_lists",
    "C61_first_stage"
   ],
   "note": ""
  },
  {
   "property": "C62",
   "status": "proved",
   "theorems": [
    "C62_printing"
   ],
   "note": ""
  },
  {
   "property": "C63",
   "status": "proved",
   "theorems": [
    "C63_neighbour_map",
    "C63_interedge"
   ],
   "note": ""
  },
  {
   "property": "C64",
   "status": "proved",
   "theorems": [
    "C64_alpha_tree"
   ],
   "note": ""
  },
  {
   "property": "C65",
   "status": "proved",
   "theorems": [
    "C65_untouched_edges_under_any_schedule"
   ],
   "note": ""
  },
  {
   "property": "C66",
   "status": "proved",
   "theorems": [
    "C66_own_edges_follow_own_calls",
    "C66_shared_edge_refuted"
   ],
   "note": "C66_shared_edge_refuted is the witness that the hypothesis is needed."
  },
  {
   "property": "C67",
   "status": "proved",
   "theorems": [
    "C67_no_call_raises",
    "C67_mysql_call_raises_refuted"
   ],
   "note": "C67_mysql_call_raises_refuted is the witness for MySQL."
  },
  {
   "property": "C68",
   "status": "proved",
   "theorems": [
    "C68_every_run_ends",
    "C68_sequential_runs_are_runs"
   ],
   "note": "C68_sequential_runs_are_runs ties the step model to the sequential one."
  },
  {
   "property": "C69",
   "status": "proved",
   "theorems": [
    "C69_mysql_runs_as_modelled",
    "C69_queries_do_not_depend_on_the_engine",
    "C69_sequential_runs_are_runs",
    "C69_repeated_record_is_lost",
    "C69_default_timestamp_refuted",
    "C69_long_text_refuted",
    "C69_different_times_are_fine"
   ],
   "note": "C69_default_timestamp_refuted and C69_long_text_refuted are the witnesses that both conditions are needed."
  },
  {
   "property": "C70",
   "status": "proved",
   "theorems": [
    "C70_equality",
    "C70_equality_equivalence",
    "C70_delta_takes_the_first_best",
    "C70_fit_is_a_function"
   ],
   "note": "The list of candidates is what find_candidates returns; which candidates these are: C92."
  },
  {
   "property": "C71",
   "status": "proved",
   "theorems": [
    "C71_extracted_can_be_stored",
    "C71_refuted_any_first_element",
    "C71_refuted_any_words"
   ],
   "note": "The extractor never calls add itself in the repository; the property composes C61 with C11. Graphs are histories of the calls of C11 over values where == is equality."
  },
  {
   "property": "C72",
   "status": "proved",
   "theorems": [
    "C72_kept_edges_are_found_at_every_moment",
    "C72_concurrent_adds_of_an_edge",
    "C72_stopped_add_refuted"
   ],
   "note": "Calls are those of C65-C68. C72_stopped_add_refuted: an add that dies half-way makes another process's add of the same edge return without completing it, so the clause about returned adds needs that nobody was stopped. Degrees can be counted twice (C72_nonvacuous shows 2)."
  },
  {
   "property": "C73",
   "status": "proved",
   "theorems": [
    "C73_earlier_tokens_stay",
    "C73_one_object_per_token"
   ],
   "note": "spaCy is the input (documents are tokens with lists of left and right children and sentence spans; a token is found again by document and position). The recursion limit is a number; a deeper tree raises RecursionError in the middle of the descent. The parent clause records what parser.py does (self.parent instead of token.parent)."
  },
  {
   "property": "C74",
   "status": "proved",
   "theorems": [
    "C74_reading_a_text",
    "C74_history_does_not_matter",
    "C74_outputs_after_an_empty_text_refuted"
   ],
   "note": "C74_outputs_after_an_empty_text_refuted: the kept outputs are those of an earlier text if the text has no sentence."
  },
  {
   "property": "C75",
   "status": "proved",
   "theorems": [
    "C75_label_tree",
    "C75_label_tree_with_distinct_labels",
    "C75_label_tree_loses_tokens_refuted",
    "C75_sentence_text"
   ],
   "note": "C75_label_tree_loses_tokens_refuted: with equal labels tokens are lost."
  },
  {
   "property": "C76",
   "status": "proved",
   "theorems": [
    "C76_hypergraph_of_parameters",
    "C76_command_line",
    "C76_wordnet_command"
   ],
   "note": "gbrain wordnet is stated on a file that holds a hypergraph reached by storable calls (or a new file) and synsets as in C53. The mysql clause records a defect: the command line stores dbuser/dbpass and no host, the constructor reads user/password/host."
  },
  {
   "property": "C77",
   "status": "proved",
   "theorems": [
    "C77_degree_adds_up",
    "C77_degree_keeps_up_with_star",
    "C77_new_vertex_refuted",
    "C77_shared_edge_refuted"
   ],
   "note": "Both backends. C77_new_vertex_refuted and C77_shared_edge_refuted (SQLite): without the hypotheses a count is lost or doubled although all calls return normally."
  },
  {
   "property": "C78",
   "status": "proved",
   "theorems": [
    "C78_queries_change_nothing"
   ],
   "note": "Needs no hypothesis on the state."
  },
  {
   "property": "C79",
   "status": "proved",
   "theorems": [
    "C79_answers_depend_on_the_edges_only",
    "C79_degree_of_edge_refuted"
   ],
   "note": "C79_degree_of_edge_refuted: why timestamps and degrees of edges are left out."
  },
  {
   "property": "C80",
   "status": "proved",
   "theorems": [
    "C80_adding_then_removing",
    "C80_removing_then_adding"
   ],
   "note": "Both directions, C80_adding_then_removing and C80_removing_then_adding."
  },
  {
   "property": "C81",
   "status": "proved",
   "theorems": [
    "C81_batch_atomic",
    "C81_remove_in_batch_refuted"
   ],
   "note": "C81_remove_in_batch_refuted: with a removal it is not atomic."
  },
  {
   "property": "C82",
   "status": "proved",
   "theorems": [
    "C82_list_of_edges_in_a_batch"
   ],
   "note": "A defect of the code: the inner add resets the cursor of the batch, and the closing call of the batch fails on None."
  },
  {
   "property": "C83",
   "status": "proved",
   "theorems": [
    "C83_one_writer",
    "C83_readers_see_whole_calls",
    "C83_single_add_seen_by_half_refuted"
   ],
   "note": "C83_single_add_seen_by_half_refuted: a single-edge add commits statement by statement."
  },
  {
   "property": "C84",
   "status": "proved",
   "theorems": [
    "C84_texts_are_spelled",
    "C84_degree_is_reset"
   ],
   "note": "A defect of the code."
  },
  {
   "property": "C85",
   "status": "proved",
   "theorems": [
    "C85_nothing_bound"
   ],
   "note": ""
  },
  {
   "property": "C86",
   "status": "proved",
   "theorems": [
    "C86_index_is_exact"
   ],
   "note": ""
  },
  {
   "property": "C87",
   "status": "proved",
   "theorems": [
    "C87_time_out_of_range"
   ],
   "note": "A defect of the code: the failing call is not undone."
  },
  {
   "property": "C88",
   "status": "proved",
   "theorems": [
    "C88_texts_that_stay_apart",
    "C88_uncased_texts_stay_apart",
    "C88_case_and_accents_weigh_nothing",
    "C88_equal_weights_are_confused",
    "C88_last_character_refuted",
    "C88_case_refuted",
    "C88_accent_refuted"
   ],
   "note": "The positive theorem is for every weighting that keeps the characters apart, and utf8_general_ci is shown to be one for uncased ASCII. What holds otherwise (defects of the code: no COLLATE utf8_bin) is proved as the _confused and _refuted theorems."
  },
  {
   "property": "C89",
   "status": "proved",
   "theorems": [
    "C89_same_crash_states",
    "C89_repair",
    "C89_same_time_never_succeeds",
    "C89_remove_crash_refuted"
   ],
   "note": "C89_same_time_never_succeeds and C89_remove_crash_refuted are what fails (a defect of the code: update_or_insert relies on matched rows being counted); C89_same_crash_states and C89_repair are what holds at every crash point."
  },
  {
   "property": "C90",
   "status": "proved",
   "theorems": [
    "C90_private_calls_never_raise",
    "C90_private_answers_as_if_alone",
    "C90_all_private_runs_finish"
   ],
   "note": "C67_mysql_call_raises_refuted is the witness that the condition is needed on MySQL."
  },
  {
   "property": "C91",
   "status": "proved",
   "theorems": [
    "C91_questions_between_steps",
    "C91_mysql_keeps_the_first_view",
    "C91_batch_ends_the_steps",
    "C91_batch_misses_the_rest"
   ],
   "note": "Changes on SQLite between the steps outside a batch: SQLite leaves open which rows the SELECT still gives, so the model allows anything there (GUnsure) and no theorem speaks of it."
  },
  {
   "property": "C92",
   "status": "proved",
   "theorems": [
    "C92_candidates",
    "C92_delta_rebuilds",
    "C92_stages_unshared"
   ],
   "note": "How the words of the relation of a candidate are nested (which of them form compounds) and the order of the candidates are not specified."
  },
  {
   "property": "C93",
   "status": "proved",
   "theorems": [
    "C93_outer_list_is_a_tuple",
    "C93_any_mixture",
    "C93_a_list_inside_is_not_found",
    "C93_adds_pile_up",
    "C93_beliefs",
    "C93_negative_of_a_list"
   ],
   "note": "Exact. C93_outer_list_is_a_tuple (any connection), C93_any_mixture (any history; the specification, with its ledger of degrees, is S_lists.v), C93_a_list_inside_is_not_found, C93_adds_pile_up, C93_beliefs, C93_negative_of_a_list. Histories are of add, remove, destroy and batches of add (one edge), remove and destroy (add_belief is an add, C93_beliefs; adding a collection inside a batch fails, C82)."
  },
  {
   "property": "C94",
   "status": "proved",
   "theorems": [
    "C94_held_in_words",
    "C94_any_numbers",
    "C94_one_history",
    "C94_removed_by_pattern",
    "C94_agrees",
    "C94_remove_of_an_equal_edge"
   ],
   "note": "Exact. C94_any_numbers (exists, pattern, star, degree, timestamp, sources -- empty or not --, symbols_with_root, all), C94_one_history (adds, removes, batches: the history is determined), C94_removed_by_pattern, C94_held_in_words, C94_remove_of_an_equal_edge; C94_agrees: with no two different equal numbers this is the account of C09-C15. Batches are of adds, removes and destroys. Specification: S_equal.v."
  },
  {
   "property": "C95",
   "status": "proved",
   "theorems": [
    "C95_any_history",
    "C95_a_spelled_number_is_not_found",
    "C95_adds_pile_up",
    "C95_beliefs"
   ],
   "note": "Exact for histories of add, add many, add_belief, remove, remove many, destroy and batches of add, remove, remove many and destroy on an alias-free set of elements. Strings that read as a number or an edge but are not the text written for it (\"07\", \"(is  sky)\") are not covered. C95_any_history, C95_a_spelled_number_is_not_found, C95_adds_pile_up, C95_beliefs. Specification: S_numtext.v."
  },
  {
   "property": "C96",
   "status": "proved",
   "theorems": [
    "C96_patterns",
    "C96_star",
    "C96_sources",
    "C96_numbers",
    "C96_remove_by_pattern"
   ],
   "note": "States reached by calls on storable edges over an alias-free set of numbers; the argument is any value of the model (None, int, float, str, tuple). When the text begins with a parenthesis, whether there is an answer is not stated (it can raise: C96_nonvacuous), only what an answer can hold. C96_patterns, C96_star, C96_sources, C96_numbers, C96_remove_by_pattern. Specification: S_anyask.v."
  }
 ]
}