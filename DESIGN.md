# Formal model of 52nlp/graphbrain (Python part: /repo/gb, /repo/python)

The model and all proofs are in `rocq/theories` (Coq 8.16.1, standard library only):

| files | contents |
|---|---|
| `Double.v` | binary64: which double a numeral is read as, which numeral a double is printed as (P_double proves both) |
| `Py.v` | the part of Python the code uses: values, `==`, str/int/float text, split/join, UTF-8 |
| `M_*.v` | the model, function by function, each definition with the file and lines it models |
| `Spec.v`, `S_history.v`, `S_steps.v`, `S_tree.v`, `S_delta.v`, `S_parser.v` | the independent vocabulary of the theorem statements |
| `P_*.v` | lemmas |
| `C_*.v` | the property theorems `CNN_...`, a non-vacuity example beside each, `Print Assumptions` after each |

## How it is modelled

* Python values are `value` (None, str = list of code points, int = Z, float = the
  decimal its repr prints, or nan/inf, tuple). Exceptions are values (`Err exn`). Loops are structural recursion,
  or recursion with fuel whose exhaustion is a separate result that a theorem shows
  unreachable (C03, C58, C60).
* The SQL tables are lists of rows and each SQL statement is a function on them. A
  connection is: contents of the disk, working copy, commit mode (SQLite: explicit
  commits; MySQL: autocommit), shared cursor `self.cur` (none, open, closed). Every
  method is a function from a connection to result, connection, and the list of disk
  contents after each statement and commit; "crash at any point" is "any of these".
* For several processes on one database (M_steps) the same methods are written once
  more as programs whose single database actions are visible; running such a program
  alone is proved equal to the sequential method (P_steps `run_p_op`,
  C68_sequential_runs_are_runs). A world is the disk, at most one open write
  transaction, and the processes; `step` lets any process do its next action, and (with
  `flt`) lets the engine refuse it or the process die and start again.
* The specification of the store is the history alone (`S_history.v`): `present h e`,
  `occurrences`, `born`, `first_seen`. The central theorem (P_hist) is a refinement:
  after any history of calls the tables are exactly the encoding of the history.
* The extractor works on a heap of tree objects with identity (M_tree), because the
  stages mutate and share subtrees; the theorems relate the heap to functional trees.

## Scope of the quantifiers

`reached V ops c`: c is the state after the history ops (any length, any mix of add,
multi-add, remove, belief, remove_by_pattern, destroy, batch, reopen, queries, both
commit modes) whose edges are storable (`edge_in V`: wf tuple text, at least two
elements, no surrogates) and taken from a set V of values without numeric aliases
(`noalias`: not both 7 and 7.0), with timestamps that fit the 64 bits of the database's
integers (`int64`; C87 says what happens otherwise). What happens outside is covered by separate theorems:
arbitrary arguments (C03, C23, C26-C28), equal numbers (C47, C94), strings that write a number or an edge (C95), texts that are not storable
(C44, C46).

## Per property

| property | modelled | proof | theorems |
|---|---|---|---|
| C01 Edge text round trip | `edge.py` (M_edge), values, str()/repr of ints and floats (Py) | induction on nested values; balance of parentheses in the word list (P_edge) | `C01_edge_text_round_trip` |
| C02 Vertex ids are unique | `edge.py` (M_edge) | from C01 (the text determines the value) | `C02_vertex_ids_unique` |
| C03 The edge parser always terminates | `edge.py` (M_edge), `str2edge` with fuel | strong induction on the length of the text; fuel = length is never used up | `C03_parser_terminates`, `C03_recursion_depth` |
| C04 Token classification | `token_type`, `parsed_token` | grammar as an independent predicate; induction on texts | `C04_token_classification` |
| C05 Shallow split recovers the elements | `split_edge_str`, `open_pars`, `close_pars` | induction with the depth invariant; the failing case as a witness | `C05_split_recovers_elements`, `C05_bare_split_of_nested_head_refuted`, `C05_white_space` |
| C06 nthperm enumerates the permutations | `itertools.permutations`, `nthperm` | induction on length; counting (NoDup, n! results) | `C06_nthperm_enumerates` |
| C07 unpermutate inverts nthperm | `nthperm`, `unpermutate` | induction over the loop, position bookkeeping | `C07_unpermutate_inverts_nthperm` |
| C08 Index rows decode to the edge that wrote them | `do_with_edge_permutations`, `cur2edges` | C05+C07 on the row text | `C08_index_rows_decode`, `C08_rows_of_nested_heads_refuted` |
| C09 Range scan = prefix scan | `str_plus_1`, range SELECT on UTF-8 bytes | UTF-8 is monotone and prefix-free; list order lemmas (P_range); the order in words (C_values.v) | `C09_range_is_prefix`, `C09_str_plus_1_domain`, `C09_order_of_the_scan`, `C09_characters` |
| C10 Pattern matching | `edge_matches_pattern` | induction against the independent `matches` | `C10_pattern_matching` |
| C11 exists answers membership after any history | `sql.py` (M_sql), `hypergraph.py` (M_hypergraph), M_driver | refinement: the tables encode the history (`Inv`, P_hist), by induction over operations; then P_answers | `C11_exists_answers_membership` |
| C12 add is idempotent | as C11 | the run with the edge present makes no update | `C12_add_idempotent` |
| C13 remove removes exactly that edge | as C11 | refinement: the tables encode the history (`Inv`, P_hist), by induction over operations; then P_answers | `C13_remove_removes_exactly_that_edge` |
| C14 pattern2edges is exact | as C11 | refinement: the tables encode the history (`Inv`, P_hist), by induction over operations; then P_answers; C08, C09 | `C14_pattern2edges_exact` |
| C15 star of an atom is exact | as C14 | as C14 | `C15_star_of_atom_exact` |
| C16 star and patterns centred on an edge | as C14 | number of atoms: a row starting with a nested edge decodes to something smaller or raises (P_nested) | `C16_star_of_edge_refuted`, `C16_star_of_edge`, `C16_pattern_with_edge` |
| C17 symbols_with_root is exact | `symbols_with_root` | as C14 | `C17_symbols_with_root_exact` |
| C18 degree of an atom counts its incidences | vertex table, `degree` | vertex row as a function of the history (P_graph, P_rows) | `C18_degree_of_atom` |
| C19 degree of any vertex | as C18 | `born`: start of the current record; induction over histories | `C19_degree_of_edge_refuted`, `C19_degree_of_any_vertex`, `C19_born_meaning` |
| C20 timestamps | `timestamp` | as C19 | `C20_timestamps`, `C20_first_seen_meaning`, `C20_inserted_meaning` |
| C21 destroy empties the hypergraph | `destroy` | as C11 | `C21_destroy_empties` |
| C22 Multi-edge operations equal single operations in order | multi-edge `add`/`remove`, `batch_exec` | shared cursor and local cursor do the same updates (P_ops) | `C22_multi_equals_singles` |
| C23 Multi-edge add is all-or-nothing across crashes | trace of disk contents, commits, shared cursor | invariant over all statements, arbitrary arguments (P_crash) | `C23_multi_add_any_arguments`, `C23_multi_add_atomic` |
| C24 Crash during a single add or a remove | as C23 | states along the update list; records move one way only (`states_between`) | `C24_single_not_atomic_refuted`, `C24_repair`, `C24_degrees_after_crash` |
| C25 Crash never damages other edges | as C23 | updates of one edge leave rows of others alone | `C25_crash_keeps_other_edges` |
| C26 Completed operations are durable | as C23 | every call outside a batch ends with working copy = disk | `C26_completed_calls_are_durable` |
| C27 Durability after a failed batch | as C23, histories with failing calls | `attempts`; relation kept by every call with a stuck cursor (P_stuck) | `C27_durable_after_failure_refuted`, `C27_durable_after_failure`, `C27_lost_after_failure`, `C27_mysql_keeps_everything`, `C27_mysql_not_all_or_nothing_refuted` |
| C28 Queries inside a batch | as C23 | two runs of each query, with and without batch, side by side | `C28_degree_in_batch_refuted`, `C28_queries_in_batch`, `C28_closed_cursor` |
| C29 add_belief | `add_belief` | refinement: the tables encode the history (`Inv`, P_hist), by induction over operations; then P_answers | `C29_add_belief` |
| C30 sources is exact | `sources` | refinement: the tables encode the history (`Inv`, P_hist), by induction over operations; then P_answers | `C30_sources_exact` |
| C31 remove_belief | `remove_belief` | refinement: the tables encode the history (`Inv`, P_hist), by induction over operations; then P_answers | `C31_remove_belief`, `C31_link_as_fact_refuted` |
| C32 remove_by_pattern | `remove_by_pattern`; iteration order of the set is an oracle | refinement: the tables encode the history (`Inv`, P_hist), by induction over operations; then P_answers | `C32_remove_by_pattern` |
| C33 f_all visits every known vertex once | `f_all`, generator consumed at once | P_rows: which vertices have a row | `C33_f_all`, `C33_f_all_nested_refuted` |
| C34 Batch writer: bounded buffer, nothing lost | `batch_hypergraph.py` (M_batch) | induction over calls | `C34_batch_writer` |
| C35 Batch writer: exactly a delayed multi-edge add | as C34 | refinement to delayed multi-edge adds | `C35_batch_writer`, `C35_batch_writer_refuted`, `C35_flush` |
| C36 Null backend | `null.py` (M_batch) | case analysis over calls | `C36_null_backend` |
| C37 Symbol parts round trip | `symbol.py` (M_symbol) | split/join induction | `C37_symbol_parts_round_trip` |
| C38 Roots and namespaces | as C37 | as C37 | `C38_roots_and_namespaces` |
| C39 new_meaning | `new_meaning`, random draw as argument | as C37 | `C39_new_meaning`, `C39_new_meaning_url_refuted` |
| C40 negative is an involution | `negative` | exact case analysis (P_exact) | `C40_negative`, `C40_negative_involution_refuted` |
| C41 hashed | `hashed`, 64-bit wrap-around | arithmetic mod 2^64; 31 is invertible | `C41_hashed` |
| C42 hashed collisions | as C41 | polynomial bound below 2^64 for 12 characters; collision family | `C42_hashed_collisions`, `C42_hashed_collision_free_refuted` |
| C43 str2symbol produces delimiter-free symbols | `str2symbol`; str.lower is an argument | induction on texts | `C43_str2symbol_delimiter_free` |
| C44 str2symbol gives a valid symbol | as C43, with the edge codec | exact characterisation via C01/C04 | `C44_str2symbol_valid`, `C44_str2symbol_valid_refuted` |
| C45 symbol2str inverts str2symbol | `symbol2str` | induction | `C45_symbol2str_inverts` |
| C46 Float text round trip | repr of floats, codec, binary64 reading and shortest printing (Double) | exact read-back function; rounding and shortest search in integers on the scale 2^-1074 and 10^-330 (P_double), what is read as one double is an interval, so the search finds the least number of digits (P_shortest), carried to the rationals (C_numerals, C_shortest) | `C46_float_text`, `C46_float_round_trip_refuted`, `C46_numeral_is_rounded`, `C46_floats_read`, `C46_fifteen_digits`, `C46_fewest_digits` |
| C47 Numerically equal values | Python `==` between 7 and 7.0, index scan | exact row analysis (P_alias); == against the rationals of the standard library (C_values.v) | `C47_numerically_equal_edges`, `C47_numeric_aliasing_refuted`, `C47_equality_is_numeric`, `C47_equality_otherwise` |
| C48 Shortest-walk map | `queries.py` (M_queries) | induction over walks | `C48_shortest_walk_map` |
| C49 ego and intersect never give a wrong answer | as C48 | the raising line is always reached | `C49_ego_intersect_never_answer` |
| C50 Opening a database | DDL statements (M_schema) | all crash points and refused statements | `C50_opening` |
| C51 Wiki dump filter | `filter_wikidump.py` line machine (M_wikidump) | induction over lines against a page grammar | `C51_wiki_filter`, `C51_nothing_invented` |
| C52 Dependency tree linearisation | `nlp_token.py`, `sentence.py`, `parser.py` (M_token) | tree induction; projectivity as hypothesis only where the order is claimed | `C52_linearisation`, `C52_parser_tree` |
| C53 WordNet reader stores exactly the sourced relation edges | `readers/wordnet.py` over an abstract WordNet (M_wordnet) | induction with the batch writer of C34 | `C53_wordnet_reader`, `C53_lemma_symbol`, `C53_lemma_symbol_refuted` |
| C54 Alpha stage keeps every word | `alpha.py`, `semantic_tree.py` on a heap (M_tree, M_stages) | representation predicate, frame lemmas (P_tree, P_treeops, P_alpha) | `C54_alpha_keeps_every_word`, `C54_alpha_flat_leafs` |
| C55 Beta stage only marks | `beta.py` | heap frame: only fields change (P_beta) | `C55_beta_only_marks` |
| C56 Gamma stage keeps words except articles | `gamma.py` | as C54 (P_gamma) | `C56_gamma_keeps_words`, `C56_gamma_is_a_function` |
| C57 Epsilon stage output | `epsilon.py` | functional spec of the hyperedge (S_tree) | `C57_epsilon_output`, `C57_epsilon_unique` |
| C58 The walk search terminates and misses nothing | `walks` recursion | measure: number of unused neighbours | `C58_walk_search`, `C58_walk_search_from_nothing` |
| C59 Hub filter | `include_edge` | with C18/C19 | `C59_include_edge` |
| C60 Delta stage keeps every word | `delta.py` with sharing of subtrees | DAG readings (P_dag, P_delta), fuel shown sufficient | `C60_delta_keeps_words`, `C60_delta_fuel`, `C60_delta_idle` |
| C61 From sentence to hyperedge | `extractor.py` | composition of C54-C60 | `C61_extractor`, `C61_stage_lists`, `C61_first_stage` |
| C62 Printing a semantic tree | `__str__` of the tree | fuel-free on trees | `C62_printing` |
| C63 Neighbour map and connecting edges | `edges2vemap`, `interedge` | case analysis | `C63_neighbour_map`, `C63_interedge` |
| C64 The alpha tree is a function of the parse | `alpha.py` | heap program = functional spec (S_tree) | `C64_alpha_tree` |
| C65 What nobody works on stays exact under any schedule | sql.py and hypergraph.py as programs over single database actions (M_steps), run by several processes with refusals and deaths | every statement a call can issue only touches rows of the edges it is about (P_steps `on_op`); invariant over all steps | `C65_untouched_edges_under_any_schedule` |
| C66 A process's own edges follow its own calls | the same | weakest preconditions stable under what other processes do (P_owned), for each method | `C66_own_edges_follow_own_calls`, `C66_shared_edge_refuted` |
| C67 Concurrent calls do not raise on SQLite | the same | the same weakest preconditions in strict mode (no exception); concrete schedule for MySQL | `C67_no_call_raises`, `C67_mysql_call_raises_refuted` |
| C68 Every run ends; no deadlock | the same | well-founded order on the remaining programs and calls; the lock holder is always in a call | `C68_every_run_ends`, `C68_sequential_runs_are_runs` |
| C69 On MySQL the calls do what they do on SQLite, under two conditions | `mysql.py` engine (M_mysql), all methods of `sql.py`/`hypergraph.py` run on it | the two engines agree statement by statement on every program run from an encoded history; adds by the invariant of P_hist | `C69_mysql_runs_as_modelled`, `C69_queries_do_not_depend_on_the_engine`, `C69_sequential_runs_are_runs`, `C69_repeated_record_is_lost`, `C69_default_timestamp_refuted`, `C69_long_text_refuted`, `C69_different_times_are_fine` |
| C70 The delta stage makes the tree the first of its candidates that fit best | `delta.py` (candidate search, `node_fit`, choice), `__eq__` of leaves, nodes and tokens | exact value of every reading of the heap (comparison, shared words, directly under, fit) against the relations of S_tree; the loop keeps the first maximum | `C70_equality`, `C70_equality_equivalence`, `C70_delta_takes_the_first_best`, `C70_fit_is_a_function` |
| C71 What the extractor returns can be stored and read back | the composition of the extractor (C61) with edge2str/str2edge (C01) and add/exists (C11); `wide` (every node has two children or more) as the invariant of trees | P_wide.v: alpha, beta, gamma and delta only make trees all of whose nodes have two children or more -- for delta a partial-correctness invariant over every object of the tree, shared or not; then induction on the tree for the symbols, C01's round trip and the history invariant of C11; the exceptions (first element an edge, a lone symbol, a word starting with a bracket) are refuted by witnesses | `C71_extracted_can_be_stored`, `C71_refuted_any_first_element`, `C71_refuted_any_words` |
| C72 Edges that are only added are never lost, however many processes add them | the concurrent model of C65-C68 (M_steps), calls that do not take x out | P_added.v: a program logic for one process among others that can only add index rows of x (`wp` with the relation Rm); every call is shown to first change no row of x and then, if at all, to be committed to writing all of them (`tidy`); world invariant: a row of x on the disk means all of them are there or some process is in that second phase; the other direction by following each process | `C72_kept_edges_are_found_at_every_moment`, `C72_concurrent_adds_of_an_edge`, `C72_stopped_add_refuted` |
| C73 Parsing a text makes one token object per token and touches no earlier text | `parser.py` with its memo table, token objects with identity, RecursionError by fuel | P_parser.v: invariants of the table (what it has for this document is right and complete below; other documents' entries and older objects unchanged) by induction on the recursion fuel; positions to objects injective | `C73_earlier_tokens_stay`, `C73_one_object_per_token` |
| C74 What is read from a text does not depend on the texts read before | `extractor.py` read_text over M_parser, stages of M_stages | what spaCy says of a position determines its token value (induction on depth); read_sentences by induction on the list | `C74_reading_a_text`, `C74_history_does_not_matter`, `C74_outputs_after_an_empty_text_refuted` |
| C75 The printed dependency tree and text of a sentence | `sentence.py` label tree (OrderedDict), `__str__`, `node_label` | induction on the tree; OrderedDict keeps the first place and the last value of a key | `C75_label_tree`, `C75_label_tree_with_distinct_labels`, `C75_label_tree_loses_tokens_refuted`, `C75_sentence_text` |
| C76 Choosing a backend, and what a command does to the files | `HyperGraph.__init__`, `gbrain.py`, file contents of M_schema | case analysis on the keys; C50 for opening, C53 for the reader, everything committed at the end | `C76_hypergraph_of_parameters`, `C76_command_line`, `C76_wordnet_command` |
| C77 Degrees under concurrency add up | the steps of M_steps | ghost per-process contributions: invariant degree = start + sum of contributions, weakest preconditions of every call (P_degree) | `C77_degree_adds_up`, `C77_degree_keeps_up_with_star`, `C77_new_vertex_refuted`, `C77_shared_edge_refuted` |
| C78 Queries change nothing | `sql.py`, `hypergraph.py`: the queries | unfolding, no invariant needed; two connections that agree on the tables run in lock step | `C78_queries_change_nothing` |
| C79 What is asked about edges depends on the edges alone | all of `sql.py` | both states encode their histories (P_hist), the answers are functions of the set of present edges | `C79_answers_depend_on_the_edges_only`, `C79_degree_of_edge_refuted` |
| C80 Taking an add or a removal back | `add`, `remove` of `sql.py` | the row of every vertex after the two extra events (vrow), then C79 | `C80_adding_then_removing`, `C80_removing_then_adding` |
| C81 A batch of adds is all-or-nothing across crashes | `batch_exec` and all it calls | the relation 'with a shared cursor nothing reaches the disk' is closed under composition and holds of every statement but those of a removal | `C81_batch_atomic`, `C81_remove_in_batch_refuted` |
| C82 Adding a list of edges within a batch | `batch_exec`, `add` | simulation between the run in the batch and the run outside, step by step; after a list add both connections are equal | `C82_list_of_edges_in_a_batch` |
| C83 One process writes, others read | the calls as programs of database actions, processes sharing a disk and a write lock (M_steps) | invariant of all runs: the writer's connection is that of a solitary run, and readers touch neither disk nor lock | `C83_one_writer`, `C83_readers_see_whole_calls`, `C83_single_add_seen_by_half_refuted` |
| C84 A text where an edge is expected | `add`, `add_raw` and all they call | relational: the two runs proceed in step on connections with the same index; vertex statements have an outcome that depends on text and cursor only | `C84_texts_are_spelled`, `C84_degree_is_reset` |
| C85 Nothing bound, nothing done | `pattern2edges`, `add`, `remove`, `remove_by_pattern`, `add_belief` | computation | `C85_nothing_bound` |
| C86 The index holds n! rows per edge and nothing else | the index table | the invariant of histories (index rows of an edge are there iff it is stored), disjointness of the rows of different edges, counting | `C86_index_is_exact` |
| C87 A time the database cannot hold | binding of statement parameters; add | the loop over the elements, stopped at the first unknown one, as a list of table updates; the index is untouched, so C24's repair lemma applies | `C87_time_out_of_range` |
| C88 MySQL compares texts without case and accents; only texts it tells apart are kept apart | `mysql.py` engine with collation (M_collate), all methods of `sql.py`/`hypergraph.py` run on it | P_collate.v: on tables whose texts are written in the set, each statement does what it does in M_mysql (equal weights: equal texts; nothing ends in a space); a range finds all rows with the prefix and, since nothing before a parenthesis is in it, only rows that decode, whose extra edges the Python filter drops; then call by call; the answer of a pattern may come in another order, which a call that removes by pattern is shown not to depend on | `C88_texts_that_stay_apart`, `C88_uncased_texts_stay_apart`, `C88_case_and_accents_weigh_nothing`, `C88_equal_weights_are_confused`, `C88_last_character_refuted`, `C88_case_refuted`, `C88_accent_refuted` |
| C89 Crashes on MySQL: adding the edge again may never succeed; how to repair it | single add and remove on MySQL's engine (`run_op_on`), every crash point | P_mycrash.v: at a crash point of add a first part of the edge's rows is there, of remove a last part; an add that exists does not stop runs as in M_sql up to the first row that is there, and raises at it, the index then being complete | `C89_same_crash_states`, `C89_repair`, `C89_same_time_never_succeeds`, `C89_remove_crash_refuted` |
| C90 Calls that nobody gets in the way of | the programs of M_steps, both engines; a process and an environment that leaves certain rows alone (P_private.v) | weakest preconditions of every method under that environment, with the records of the vertices as a function; the environment's guarantee from `keeps` (P_steps.v) | `C90_private_calls_never_raise`, `C90_private_answers_as_if_alone`, `C90_all_private_runs_finish` |
| C91 Going through the vertices step by step | `f_all` as a generator (M_lazy): its position, the cursor it reads from, what every database action of another call does to it | C_lazy.v: a call beside the generator runs as alone (induction on the program); outside a batch questions only act on cursors of their own; in a batch the first statement of every call replaces the result the generator reads from, and nothing brings it back | `C91_questions_between_steps`, `C91_mysql_keeps_the_first_view`, `C91_batch_ends_the_steps`, `C91_batch_misses_the_rest` |
| C92 What delta can make of a relation | `delta.py` find_candidates, find_candidates_r, build_candidate; `semantic_tree.py` clone, flatten, set_compound, add_to_first_child | the search invariant of C60 (every tree keeps its words) strengthened: the nodes at argument positions are never written, because everything written is new or below a relation; induction on the budget, with the candidates of a child as the labels of the loop; the spec (`apart`, `adding`) is in S_delta.v | `C92_candidates`, `C92_delta_rebuilds`, `C92_stages_unshared` |
| C93 Edges given as lists | `sql.py` and `hypergraph.py` methods that take edges, once more on values with lists (M_lists.v) | a value with a list inside equals no tuple, one without equals what its tuple equals (induction on the value), so `exists` is False or as before; an invariant like that of C11 with its own ledger of vertex rows (P_lists2), because an add with a list inside is never skipped | `C93_outer_list_is_a_tuple`, `C93_any_mixture`, `C93_a_list_inside_is_not_found`, `C93_adds_pile_up`, `C93_beliefs`, `C93_negative_of_a_list` |
| C94 Histories that mix equal numbers | the methods of `sql.py`, without the assumption that no two different numbers are equal | == is an equivalence on storable values (by C47: rational comparison), so a set built from rows keeps one edge of each class; a row has the text of a query as a prefix exactly when its elements are spelled as the query (P_equal2); an invariant like that of C11 over the account of S_equal | `C94_held_in_words`, `C94_any_numbers`, `C94_one_history`, `C94_removed_by_pattern`, `C94_agrees`, `C94_remove_of_an_equal_edge` |
| C95 Numbers and edges given as their texts | the methods of `sql.py` and `hypergraph.py` on edges with elements given as strings that write them | such an edge has the texts of the edge meant, so the rows written and looked up are the same; but it equals no stored edge: what equals a storable value is storable, and texts determine storable values (C01); so the filter of `pattern2edges` drops every row; the invariant of C93 with this ledger (P_numtext) | `C95_any_history`, `C95_a_spelled_number_is_not_found`, `C95_adds_pile_up`, `C95_beliefs` |
| C96 Questions with any argument at all | `pattern2edges`, `exists`, `str2perms`, `sources`, `degree` and `timestamp` on any value | each query is shown equal to a pure function of the text looked for; the rows that start with a text that is no parenthesis decode to stored edges (P_query), so the answers are those rows filtered; the rest is rewriting. Rows that start with a parenthesis decode, if at all, to pieces of stored edges (P_nested) | `C96_patterns`, `C96_star`, `C96_sources`, `C96_numbers`, `C96_remove_by_pattern` |

Theorems named `_refuted` are proofs, with a concrete witness, that a stronger claim a
user may expect (usually from a docstring) is false of this commit; the property text says
so, and the other theorems of the same property say exactly what holds instead.

## Trusted base

* Coq's kernel (8.16.1) and its virtual machine (`vm_compute` is used in examples and in
  some finite side conditions).
* `Print Assumptions` of every property theorem prints "Closed under the global
  context": no axioms at all. (vcheck lists seven constants of `Coq.ssr.ssrunder` that
  are opaque in a library that is loaded; no theorem uses them.)
* That the model says what the code does. The places where this rests on knowledge of
  Python, SQLite or MySQL and not on text of /repo:
  - `Double.v`: `float(s)` is IEEE round-half-even to binary64 and `repr` is the shortest
    numeral that is read back (C46 proves nearest/even/overflow over the rationals, and that the
    printed numeral has the fewest digits and is the nearest of those).
  - `Py.v`: `==`, hash-consistent sets and dicts, `int()`, `float()`, `repr`, `str.split`,
    `str.lower` (an argument, with the facts used as hypotheses), `itertools.permutations`.
  - The SQL engine: primary keys, rowcount = matched rows (SQLite; MySQL's rowcount =
    changed rows and 250-character keys are in M_mysql, used by M_steps and C69), range
    scans in the order of the UTF-8 bytes (SQLite BINARY collation); a statement is atomic; a commit is atomic and durable; uncommitted
    work is lost by a crash; DDL is atomic and durable; rows come in insertion order (no
    theorem depends on it, results are sets).
  - Concurrency (M_steps): on SQLite a changing statement takes the write lock, which is
    held until commit; others wait for it; readers see the last commit (readers never
    make a commit wait: WAL, or short SELECTs). A lock timeout or any other refusal is
    a "refused" fault. On MySQL every statement is atomic and committed at once.
  - sqlite3/MySQLdb: `execute` on a closed cursor raises ProgrammingError, text with lone
    surrogates cannot be bound (UnicodeEncodeError), nor an int outside 64 bits
    (OverflowError; with MySQL the server refuses it and the exception is called DataError).
  - Reading from a cursor whose result is not used up (M_lazy): `execute` on the same
    cursor drops it, closing the cursor ends it, MySQLdb holds it in the client; on SQLite
    a change on the connection makes the further rows unspecified.

## Not modelled, or simplified

* Lists and tuples are identified (both are `VTup`) everywhere but in M_lists.v: the
  other properties are about edges given as tuples, and C93 says what is different for
  lists (nothing for a list in place of an edge or of a collection of edges; an edge with a
  list inside is stored but never found).
* `int()` of texts with `_`, surrounding white space or non-ASCII digits: the code only
  calls it on texts `token_type` accepted or on row numbers it wrote itself.
* Memory and recursion limits, time; a degree beyond 64 bits (2^63 edges with one vertex).
* MySQL: the collation of its tables is in M_collate (C88), with the weights of ASCII and
  Latin-1 only; elsewhere (C65-C69, C72, C83, C85) texts are compared exactly, which C88
  justifies for uncased ASCII texts and calls made one after the other. Not modelled: ids of more than
  10000 characters, degrees beyond 32 bits, characters beyond the BMP (3-byte utf8), the
  connection's character set (MySQLdb's default cannot send all texts). Theorems about `reached` states with `c_auto c = true` are about
  autocommit on the tables of M_sql; C69 proves that MySQL's own engine reaches the same
  states under the two conditions it states, and what happens when they fail.
* `f_all` is consumed at once except in C91 (M_lazy), where its steps alternate with other
  calls of the same process; the iteration order of sets is an
  oracle argument (any permutation); `x in list` uses `==` only (the identity shortcut
  for nan is not modelled).
* `parser.py`: spaCy itself is the input (a document is a list of tokens with left and
  right children and sentence spans).
* `extractor.py`: debug output. `wordnet.py`: progress messages; NLTK's data is the input.
* `sentence.py`: asciitree's drawing of the label tree. `tools/shell.py` (prints only),
  `backend.py` (abstract methods only), `setup.py`: no logic of their own.
* `gamma.py`: process_entity2 and add_to_relationships, `token.py`: has_dep: never called. The Clojure/Java sources under /repo/src are another program
  and are not modelled.

## Checking the theorems against wrong programs

`seeded/LOG.jsonl` has one line per edit of the model (a wrong boundary, a dropped update,
swapped arguments, a missing commit ...): the definition, the edit, the claim it breaks,
the theorems that failed to prove, and the theorems tightened when one survived.

## Checking the model against the project's own tests

`X_project.v`, `X_extractor.v` (and the end of `C_stages.v`) evaluate every
assertion of the project's test-suite in the model: the SQL, MySQL and Null backends, edges,
symbols, permutations, beliefs, and the eight sentences of the extractor tests, whose four
stage texts come out letter by letter (the spaCy parse of each sentence is written down; for
the four longest the text of delta was computed once and is not in the build: minutes).
They prove no property; they are evidence that the definitions are the program's.
