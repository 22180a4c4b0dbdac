-Q theories Verif
theories/Double.v
theories/P_double.v
theories/P_shortest.v
theories/Py.v
theories/M_symbol.v
theories/M_edge.v
theories/P_py.v
theories/Spec.v
theories/P_edge.v
theories/P_symbol.v
theories/P_exact.v
theories/M_sql.v
theories/M_mysql.v
theories/P_perm.v
theories/C_edge.v
theories/C_symbol.v
theories/P_range.v
theories/P_query.v
theories/C_index.v
theories/M_hypergraph.v
theories/S_history.v
theories/M_driver.v
theories/P_ops.v
theories/P_hist.v
theories/P_graph.v
theories/P_answers.v
theories/P_rows.v
theories/P_alias.v
theories/P_nested.v
theories/C_graph.v
theories/P_crash.v
theories/P_stuck.v
theories/C_crash.v
theories/S_steps.v
theories/M_steps.v
theories/M_lazy.v
theories/P_steps.v
theories/P_owned.v
theories/P_added.v
theories/C_steps.v
theories/C_added.v
theories/P_mysql.v
theories/C_mysql.v
theories/M_batch.v
theories/C_batch.v
theories/M_queries.v
theories/C_queries.v
theories/M_schema.v
theories/C_schema.v
theories/M_wikidump.v
theories/C_wikidump.v
theories/M_token.v
theories/C_token.v
theories/M_wordnet.v
theories/M_cli.v
theories/M_parser.v
theories/S_parser.v
theories/P_parser.v
theories/C_parser.v
theories/C_wordnet.v
theories/C_cli.v
theories/M_tree.v
theories/M_stages.v
theories/S_tree.v
theories/P_tree.v
theories/P_treeops.v
theories/P_alpha.v
theories/C_alpha.v
theories/P_beta.v
theories/P_gamma.v
theories/P_stages.v
theories/P_dag.v
theories/C_stages.v
theories/P_wide.v
theories/S_delta.v
theories/P_delta.v
theories/P_cands.v
theories/C_delta.v
theories/P_degree.v
theories/C_degree.v
theories/C_same.v
theories/C_within.v
theories/C_lazy.v
theories/C_isolate.v
theories/C_spelled.v
theories/C_indexed.v
theories/C_when.v
theories/M_collate.v
theories/S_collate.v
theories/P_collate.v
theories/C_store.v
theories/C_collate.v
theories/X_project.v
theories/X_extractor.v
theories/P_mycrash.v
theories/C_mycrash.v
theories/C_values.v
theories/P_private.v
theories/C_private.v
theories/C_numerals.v
theories/C_shortest.v
theories/M_lists.v
theories/S_lists.v
theories/P_lists.v
theories/P_lists2.v
theories/C_lists.v
theories/S_numtext.v
theories/P_numtext.v
theories/C_numtext.v
theories/S_anyask.v
theories/C_anyask.v
theories/S_equal.v
theories/P_equal.v
theories/P_equal2.v
theories/C_equal.v
