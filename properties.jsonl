{"id": "C01", "title": "Edge text round trip", "statement": "For every well-formed vertex v (atom or arbitrarily nested edge), str2edge(edge2str(v)) returns exactly v (same structure, same types, same values), without raising.", "quantifier": "all well-formed vertices: symbols that are non-empty, contain no white space, do not start with '(' or end with ')' and do not look like a number; any int; any finite float printed in positional notation; tuples of at least two such vertices, nested to any depth", "why_tests_cant": "The domain of nested edges, symbols and numbers is infinite; the tests try six literals.", "anchors": ["gb/hypergraph/edge.py:str2edge", "gb/hypergraph/edge.py:edge2str", "gb/hypergraph/edge.py:split_edge_str", "gb/hypergraph/edge.py:parsed_token"]}
{"id": "C02", "title": "Vertex ids are unique", "statement": "edge2str maps different well-formed vertices to different strings, so two different vertices never share a database row.", "quantifier": "all pairs of well-formed vertices", "why_tests_cant": "Pairs of arbitrary nested values cannot be enumerated.", "anchors": ["gb/hypergraph/edge.py:edge2str", "gb/hypergraph/edge.py:nodes2str"]}
{"id": "C03", "title": "The edge parser always terminates", "statement": "str2edge, applied to any string whatsoever (malformed included), terminates: it returns a value or raises IndexError/ValueError; recursion depth is bounded by the length of the string.", "quantifier": "every Unicode string", "why_tests_cant": "Termination on all strings is not observable by finitely many runs.", "anchors": ["gb/hypergraph/edge.py:str2edge", "gb/hypergraph/edge.py:parsed_token"]}
{"id": "C04", "title": "Token classification", "statement": "token_type(t) is INTEGER exactly for an optional '-' followed by decimal digits, DOUBLE exactly for that shape with one decimal point somewhere after the sign, and STRING for everything else; the decimal text of every int is classified INTEGER and read back as that int.", "quantifier": "every string; every int", "why_tests_cant": "All strings.", "anchors": ["gb/hypergraph/edge.py:token_type", "gb/hypergraph/edge.py:parsed_token"]}
{"id": "C05", "title": "Shallow split recovers the elements", "statement": "split_edge_str applied to the text of an edge returns exactly the texts of its elements in order, with outer parentheses always, and without outer parentheses whenever the first element is not itself an edge.", "quantifier": "all sequences of well-formed vertices", "why_tests_cant": "Arbitrary nesting, arity and element text.", "anchors": ["gb/hypergraph/edge.py:split_edge_str", "gb/hypergraph/edge.py:open_pars", "gb/hypergraph/edge.py:close_pars"]}
{"id": "C06", "title": "nthperm enumerates the permutations", "statement": "For every collection of n elements, nthperm(li, k) for k = 0..n!-1 lists every reordering of the positions exactly once (k = 0 is the original order), each result is a rearrangement of li, and k >= n! raises (n > 0).", "quantifier": "all collections, all k", "why_tests_cant": "n! cases for each n, all n.", "anchors": ["gb/hypergraph/sql.py:nthperm", "gb/hypergraph/sql.py:do_with_edge_permutations"]}
{"id": "C07", "title": "unpermutate inverts nthperm", "statement": "unpermutate(nthperm(li, k), k) = li for every collection li and every k < len(li)!.", "quantifier": "all collections, all valid permutation numbers", "why_tests_cant": "tests only cover 3 elements.", "anchors": ["gb/hypergraph/sql.py:unpermutate", "gb/hypergraph/sql.py:nthperm"]}
{"id": "C08", "title": "Index rows decode to the edge that wrote them", "statement": "Every index row that storing an edge writes and that starts with an atom is decoded by the query code back to exactly that edge.", "quantifier": "all storable edges, all permutation numbers", "why_tests_cant": "all arities, all permutations.", "anchors": ["gb/hypergraph/sql.py:do_with_edge_permutations", "gb/hypergraph/sql.py:cur2edges"]}
{"id": "C09", "title": "Range scan = prefix scan", "statement": "For every non-empty string s for which str_plus_1(s) is defined, the rows id >= s AND id < str_plus_1(s) are exactly the rows that start with s, in SQLite's byte-wise order of the UTF-8 encodings; that order is the dictionary order of the texts by code point.", "quantifier": "all strings s, all stored ids", "why_tests_cant": "Order properties over all Unicode strings.", "anchors": ["gb/hypergraph/sql.py:str_plus_1", "gb/hypergraph/sql.py:str2perms", "gb/hypergraph/sql.py:pattern2edges", "gb/hypergraph/sql.py:symbols_with_root"]}
{"id": "C10", "title": "Pattern matching", "statement": "edge_matches_pattern(e, p) holds exactly when e and p have the same length and at every position p has the wildcard None or a value equal to the element of e.", "quantifier": "all edges, all patterns", "why_tests_cant": "unbounded arity.", "anchors": ["gb/hypergraph/sql.py:edge_matches_pattern"]}
{"id": "C11", "title": "exists answers membership after any history", "statement": "After any sequence of add, multi-edge add, remove, destroy, belief, remove_by_pattern and batch operations on storable edges, exists(e) is True exactly when e was added and not removed (or wiped) since.", "quantifier": "all operation histories over storable edges no two of which are numerically equal but print differently", "why_tests_cant": "Histories are unbounded.", "anchors": ["gb/hypergraph/sql.py:SQL.add", "gb/hypergraph/sql.py:SQL.remove", "gb/hypergraph/sql.py:SQL.exists", "gb/hypergraph/hypergraph.py:HyperGraph"]}
{"id": "C12", "title": "add is idempotent", "statement": "Adding an edge that is already in the hypergraph changes nothing observable or stored: no index row, degree or timestamp changes.", "quantifier": "all reachable states, all stored edges, all timestamps", "why_tests_cant": "all histories.", "anchors": ["gb/hypergraph/sql.py:SQL.add_raw"]}
{"id": "C13", "title": "remove removes exactly that edge", "statement": "remove(e) makes exists(e) False and leaves every other edge, and the results of all queries about other edges, unchanged; removing an absent edge changes nothing.", "quantifier": "all reachable states, all edges", "why_tests_cant": "all histories.", "anchors": ["gb/hypergraph/sql.py:SQL.remove_raw", "gb/hypergraph/sql.py:SQL.remove_edge_permutations"]}
{"id": "C14", "title": "pattern2edges is exact", "statement": "In every reachable state, pattern2edges(p) returns exactly the stored edges that match p, for every pattern whose first non-wildcard item is an atom; wildcards may occur anywhere.", "quantifier": "all histories, all patterns with an atomic first non-wildcard item", "why_tests_cant": "all histories and patterns.", "anchors": ["gb/hypergraph/sql.py:SQL.pattern2edges"]}
{"id": "C15", "title": "star of an atom is exact", "statement": "In every reachable state, star(a) returns exactly the stored edges that have a among their top-level elements, for every atom a.", "quantifier": "all histories, all atoms", "why_tests_cant": "all histories.", "anchors": ["gb/hypergraph/sql.py:SQL.star", "gb/hypergraph/sql.py:SQL.str2perms"]}
{"id": "C16", "title": "star and patterns centred on an edge", "statement": "star(f) of an edge f is right (empty) when no stored edge contains f, and never right otherwise: it raises, or its answer misses a stored edge that contains f (so the docstring 'Entity can be atomic or an edge' does not hold). Likewise pattern2edges, when its first non-wildcard item is an edge, raises or misses every stored edge that is at least as large (in atoms) as all stored edges containing an edge; it is right (empty) when no stored edge contains an edge.", "quantifier": "all histories, all edges used as vertices, all patterns starting with an edge", "why_tests_cant": "all histories.", "anchors": ["gb/hypergraph/sql.py:SQL.star", "gb/hypergraph/sql.py:cur2edges", "gb/hypergraph/edge.py:split_edge_str"]}
{"id": "C17", "title": "symbols_with_root is exact", "statement": "In every reachable state, symbols_with_root(r) returns exactly the symbols occurring in stored edges (at top level) of the form r/..., for every root text r free of white space and not starting with '('.", "quantifier": "all histories, all roots", "why_tests_cant": "all histories.", "anchors": ["gb/hypergraph/sql.py:SQL.symbols_with_root"]}
{"id": "C18", "title": "degree of an atom counts its incidences", "statement": "In every reachable state the degree of an atom is the total number of its occurrences as a top-level element of stored edges, 0 if there are none.", "quantifier": "all histories, all atoms", "why_tests_cant": "all histories.", "anchors": ["gb/hypergraph/sql.py:SQL.degree", "gb/hypergraph/sql.py:SQL.inc_degree", "gb/hypergraph/sql.py:SQL.dec_degree", "gb/hypergraph/sql.py:SQL.add_raw"]}
{"id": "C19", "title": "degree of any vertex", "statement": "In every reachable state the degree of a vertex is the number of its occurrences as an element of stored edges now, minus the number at the moment the hypergraph's current record of the vertex started (0 when there is no record). The record starts when the vertex itself is stored as an edge, or when an edge containing it is stored while there is no record, and ends when the vertex is removed as an edge or with destroy. So it is never more than the number of occurrences, it is exactly that for atoms and for edges stored and removed only while not nested, and it can be less (even negative) for other nested edges.", "quantifier": "all histories, all vertices", "why_tests_cant": "all histories.", "anchors": ["gb/hypergraph/sql.py:SQL.degree", "gb/hypergraph/sql.py:SQL.add_str", "gb/hypergraph/sql.py:SQL.add_raw", "gb/hypergraph/sql.py:SQL.remove_raw"]}
{"id": "C20", "title": "timestamps", "statement": "timestamp(a) of an atom is the timestamp of the add that first introduced it since the last destroy (whatever is removed later), timestamp(e) of a stored edge is the timestamp of the add that inserted it, vertices never seen (or edges removed and not nested elsewhere since) have timestamp -1, and in general timestamp(v) is that of the add that started the current record of v (see C19), -1 without one.", "quantifier": "all histories, all vertices", "why_tests_cant": "all histories.", "anchors": ["gb/hypergraph/sql.py:SQL.timestamp", "gb/hypergraph/sql.py:SQL.add_raw", "gb/hypergraph/sql.py:SQL.inc_degree"]}
{"id": "C21", "title": "destroy empties the hypergraph", "statement": "After destroy, in any reachable state, no edge exists, every query is empty, every degree is 0 and every timestamp -1, exactly as in a fresh database.", "quantifier": "all histories", "why_tests_cant": "all histories.", "anchors": ["gb/hypergraph/sql.py:SQL.destroy"]}
{"id": "C22", "title": "Multi-edge operations equal single operations in order", "statement": "add([e1..en], t) leaves the same tables as add(e1,t); ...; add(en,t), and remove([e1..en]) the same as removing one by one; batch_exec(fs) the same as running the functions outside a batch.", "quantifier": "all lists of edges, all states", "why_tests_cant": "unbounded lists and states.", "anchors": ["gb/hypergraph/sql.py:SQL.add", "gb/hypergraph/sql.py:SQL.remove", "gb/hypergraph/sql.py:SQL.batch_exec"]}
{"id": "C23", "title": "Multi-edge add is all-or-nothing across crashes", "statement": "If the process dies at any moment during a multi-edge add (or add_belief) on SQLite, reopening the database shows either none of the edges' effects or all of them; the same if an exception stops the add half-way (before any later commit).", "quantifier": "all databases, all lists of edges (well-formed or not), all crash points", "why_tests_cant": "crash points cannot be enumerated by tests.", "anchors": ["gb/hypergraph/sql.py:SQL.add", "gb/hypergraph/sql.py:SQL.open_cursor", "gb/hypergraph/sql.py:SQL.close_cursor"]}
{"id": "C24", "title": "Crash during a single add or a remove", "statement": "A single-edge add or remove interrupted by a crash is not atomic (the edge may be found by exists and not by star, or the reverse), but the damage is confined to that edge and, on SQLite, repairable: whatever the crash point, removing and re-adding the edge gives an exact index with it, adding and removing it gives an exact index without it; and the degree of every vertex lies between its values before and after the completed call, its timestamp being one of these two. Degrees are not repaired. (The repair on MySQL: C89.)", "quantifier": "all databases, edges, vertices, crash points", "why_tests_cant": "crash points.", "anchors": ["gb/hypergraph/sql.py:SQL.add_raw", "gb/hypergraph/sql.py:SQL.remove_raw", "gb/hypergraph/sql.py:SQL.remove_edge_permutation"]}
{"id": "C25", "title": "Crash never damages other edges", "statement": "If the process dies at any moment during add or remove of one or several edges, after reopening every other edge is found or not found by exists/pattern2edges/star exactly as before, and every vertex that is neither one of these edges nor an element of one has its degree and timestamp unchanged.", "quantifier": "all reachable databases, edges, vertices, crash points", "why_tests_cant": "crash points.", "anchors": ["gb/hypergraph/sql.py:SQL.add_raw", "gb/hypergraph/sql.py:SQL.remove_raw", "gb/hypergraph/sql.py:SQL.update_or_insert"]}
{"id": "C26", "title": "Completed operations are durable", "statement": "When an API call outside a batch returns normally, its effects are committed: dying right after it loses nothing.", "quantifier": "all histories of calls that return normally", "why_tests_cant": "all histories.", "anchors": ["gb/hypergraph/sql.py:SQL.close_cursor", "gb/hypergraph/sql.py:SQL.update_or_insert"]}
{"id": "C27", "title": "Durability after a failed batch", "statement": "Whatever calls raise: if after every multi-edge add, add_belief or batch_exec that raised a later such call (or a reopening) returned normally, then nothing is lost: reopening the file gives exactly the state the process sees. Until then, on SQLite, nothing that single-edge adds, destroy and queries do reaches the disk, although those calls return normally and their effects are seen by the process. On MySQL nothing is ever lost, whatever raises: the disk always holds what the process sees (and a multi-edge add that raises half-way leaves its first edges).", "quantifier": "all histories of calls, with failures anywhere", "why_tests_cant": "needs failure injection at every point.", "anchors": ["gb/hypergraph/sql.py:SQL.open_cursor", "gb/hypergraph/sql.py:SQL.close_cursor", "gb/hypergraph/sql.py:SQL.batch_exec"]}
{"id": "C28", "title": "Queries inside a batch", "statement": "Functions run by batch_exec get from every query (exists, pattern2edges, star, symbols_with_root, sources, f_all, degree, timestamp) the answer they would get outside, whatever the batch wrote so far; all but degree and timestamp of a known vertex leave the batch as it was; these two close the batch's cursor, after which every call of the batch raises and changes nothing.", "quantifier": "all batches, all arguments", "why_tests_cant": "all batches.", "anchors": ["gb/hypergraph/sql.py:SQL.batch_exec", "gb/hypergraph/sql.py:SQL.degree", "gb/hypergraph/sql.py:SQL.timestamp"]}
{"id": "C29", "title": "add_belief", "statement": "add_belief(s, e) makes e exist and s one of its sources, and changes nothing else: no other edge appears or disappears; with several edges the same for each of them.", "quantifier": "all reachable states, edges, sources", "why_tests_cant": "all histories.", "anchors": ["gb/hypergraph/hypergraph.py:HyperGraph.add_belief"]}
{"id": "C30", "title": "sources is exact", "statement": "sources(e) is exactly the set of s for which the link edge (src/1, e, s) is stored.", "quantifier": "all reachable states, all edges", "why_tests_cant": "all histories.", "anchors": ["gb/hypergraph/hypergraph.py:HyperGraph.sources"]}
{"id": "C31", "title": "remove_belief", "statement": "remove_belief(s, e) removes s from the sources of e and, unless e is itself a source link, nothing from the sources of other facts; no edge but e and the link disappears; the fact e itself disappears exactly when no source is left.", "quantifier": "all reachable states, facts and sources", "why_tests_cant": "all histories.", "anchors": ["gb/hypergraph/hypergraph.py:HyperGraph.remove_belief"]}
{"id": "C32", "title": "remove_by_pattern", "statement": "remove_by_pattern(p) removes exactly the stored edges that match p and keeps all others.", "quantifier": "all reachable states, all patterns with atomic first non-wildcard item", "why_tests_cant": "all histories.", "anchors": ["gb/hypergraph/hypergraph.py:HyperGraph.remove_by_pattern"]}
{"id": "C33", "title": "f_all visits every known vertex once", "statement": "f_all(f) applies f exactly once to every vertex of which the hypergraph has a record (see C19) and to nothing else, passing the vertex value itself and the degree that degree() reports; this includes every stored edge, every atom of a stored edge, and every nested edge stored and removed only while not nested (a nested edge that was removed as an edge is not visited).", "quantifier": "all reachable states, all f", "why_tests_cant": "all histories.", "anchors": ["gb/hypergraph/sql.py:SQL.f_all"]}
{"id": "C34", "title": "Batch writer: bounded buffer, nothing lost", "statement": "With BatchHyperGraph, after each add the buffer holds at most buffer_max edges, and after any sequence of adds followed by flush the hypergraph contains exactly the edges it had plus all the added ones; degrees are as if the edges had been added directly.", "quantifier": "all sequences of adds, all buffer sizes", "why_tests_cant": "all histories.", "anchors": ["gb/hypergraph/batch_hypergraph.py:BatchHyperGraph"]}
{"id": "C35", "title": "Batch writer: exactly a delayed multi-edge add", "statement": "A BatchHyperGraph behaves exactly as the wrapped hypergraph with delayed adds: an added edge waits, unseen by queries and removals, until an add leaves more than the maximum waiting or flush is called; then all waiting edges are added in order by one multi-edge add with the timestamp of that last call; a flush with nothing waiting raises IndexError and changes nothing; every other call acts on the wrapped hypergraph as it is.", "quantifier": "all sequences of operations on a batch writer", "why_tests_cant": "all histories.", "anchors": ["gb/hypergraph/batch_hypergraph.py:BatchHyperGraph.flush", "gb/hypergraph/batch_hypergraph.py:BatchHyperGraph.add", "gb/readers/wordnet.py:read"]}
{"id": "C36", "title": "Null backend", "statement": "With the null backend, after any history every query about whatever value answers exists False, empty sets, degree 0, timestamp -1, and add returns its argument; these, and the answer of ego, are the answers of an empty hypergraph on another backend.", "quantifier": "all histories, all values", "why_tests_cant": "all histories.", "anchors": ["gb/hypergraph/null.py:Null"]}
{"id": "C37", "title": "Symbol parts round trip", "statement": "build(parts(s)) = s for every string symbol, and parts(build(ps)) = ps for every non-empty list of '/'-free parts unless the built text is a URL.", "quantifier": "all strings, all lists of strings", "why_tests_cant": "all strings.", "anchors": ["gb/hypergraph/symbol.py:parts", "gb/hypergraph/symbol.py:build"]}
{"id": "C38", "title": "Roots and namespaces", "statement": "root is idempotent; is_root(s) holds exactly when nspace(s) is None; for a concept s, is_root(s) holds exactly when s contains no '/'; root/nspace of 'r/n' are r and n; anything that is not a text is its own root and has no namespace.", "quantifier": "all symbols", "why_tests_cant": "all strings.", "anchors": ["gb/hypergraph/symbol.py:root", "gb/hypergraph/symbol.py:nspace", "gb/hypergraph/symbol.py:is_root"]}
{"id": "C39", "title": "new_meaning", "statement": "new_meaning(r, prefix) of a symbol without '/' gives a symbol with root r and namespace prefix + hash of the random draw, and giving that again to new_meaning changes nothing; of any symbol with a namespace it is the symbol unchanged; of a URL it is the URL with '/' + prefix + hash appended, which is again a URL and so has neither the given root nor a fixed point (the expectation that the root is kept fails exactly there); of any value that is not a text it raises TypeError, except that NaN, which is not equal to its own root, is returned as it is.", "quantifier": "all symbols, all prefixes without '/', all random draws", "why_tests_cant": "all strings and random values.", "anchors": ["gb/hypergraph/symbol.py:new_meaning"]}
{"id": "C40", "title": "negative is an involution", "statement": "negative(s) drops a leading '~' or adds one (IndexError on the empty text); negative(negative(s)) = s holds exactly for the texts that are not empty, not '~' and do not start with '~~', and is_negative(negative(s)) = not is_negative(s) holds exactly for the same texts; on an edge only the first element changes; on numbers and None it raises TypeError; called on a tuple, the symbol function drops a first element '~', puts '~' before the text of an only element, and raises otherwise (IndexError on the empty tuple, else TypeError).", "quantifier": "all symbols and edges", "why_tests_cant": "all strings and tuples.", "anchors": ["gb/hypergraph/symbol.py:negative", "gb/hypergraph/edge.py:negative"]}
{"id": "C41", "title": "hashed", "statement": "hashed(s) is a fixed function of the text giving 1 to 16 lower-case hex digits without a leading zero; read as a number they are the 64-bit polynomial hash (31-multiplier, wrap-around); changing exactly one character always changes the hash.", "quantifier": "all strings", "why_tests_cant": "all strings, wrap-around arithmetic.", "anchors": ["gb/hypergraph/symbol.py:hashed"]}
{"id": "C42", "title": "hashed collisions", "statement": "Two different strings of the same length, at most 12 characters, over one window of 31 consecutive code points (all of lower-case ASCII, say) never have the same hash; without such a restriction collisions exist ('Aa' and 'BB'), and every collision of equal-length texts survives any common context a..b, so hashes do not identify arbitrary texts.", "quantifier": "all pairs of strings", "why_tests_cant": "pairs of strings.", "anchors": ["gb/hypergraph/symbol.py:hashed"]}
{"id": "C43", "title": "str2symbol produces delimiter-free symbols", "statement": "str2symbol(s) contains no '/', ' ', '(' or ')', has the same length as the lower-cased s, keeps every other character of it, and is idempotent.", "quantifier": "all strings", "why_tests_cant": "all strings.", "anchors": ["gb/hypergraph/symbol.py:str2symbol"]}
{"id": "C44", "title": "str2symbol gives a valid symbol", "statement": "str2symbol(s) can be written in an edge and read back unchanged exactly when the lower-cased s is not empty, its only white space is ' ', and the symbol does not look like a number ('1984', '-', '1.5' do not survive: they come back as numbers or raise ValueError).", "quantifier": "all strings, all lower-casing functions", "why_tests_cant": "all strings.", "anchors": ["gb/hypergraph/symbol.py:str2symbol", "gb/hypergraph/edge.py:str2edge"]}
{"id": "C45", "title": "symbol2str inverts str2symbol", "statement": "symbol2str(str2symbol(s)) = s.lower() for every string without '_', '/', '(' and ')' that is not a URL; symbol2str of a URL is the URL; of any other text it is what stands before the first '/', with a space for every '_'; of an integer or a float its text.", "quantifier": "all strings and numbers", "why_tests_cant": "all strings.", "anchors": ["gb/hypergraph/symbol.py:symbol2str"]}
{"id": "C46", "title": "Float text round trip", "statement": "Writing any edge with floats and reading it back gives the same edge with each float whose repr is in exponent notation (and nan, inf) replaced by the string of its repr and nothing else changed; hence a float is read back as itself exactly when its repr is positional. A word that is a decimal numeral (sign, digits, point, digits) is read as the 64-bit float nearest to it, of two equally near ones as the one with last bit zero, and as inf from half a unit beyond the largest float on; a float read from a numeral is written with no more significant digits than the numeral had, and if with as many, at least as near to the float; a decimal of at most fifteen significant digits is itself the repr of a float, so it comes back unchanged; the floats in whatever is read are covered by the first sentence.", "quantifier": "all edges with floats; all decimal numerals", "why_tests_cant": "all floats, numerals of any length.", "anchors": ["gb/hypergraph/edge.py:token_type", "gb/hypergraph/edge.py:parsed_token", "gb/hypergraph/edge.py:edge2str"]}
{"id": "C47", "title": "Numerically equal values", "statement": "Values are compared as Python does: two numbers are equal when they are the same rational number, whatever their types (a float counts with its exact binary value: 1e23 is not 10**23); a number equals nothing else; tuples are equal element by element. Asking for an edge with a number equal to a stored one but of another type (7 and 7.0): exists(q) is True exactly when a stored edge equals q as a Python value and the stored elements, in some order, are literally those of q except that the text of the last may be longer; add(q) then changes nothing. So equal values are not treated alike: (x 7) is found when (x 7.0) is stored, (7 x) is not found when (7.0 x) is.", "quantifier": "all histories, all storable query edges", "why_tests_cant": "all positions.", "anchors": ["gb/hypergraph/sql.py:SQL.exists", "gb/hypergraph/sql.py:SQL.pattern2edges"]}
{"id": "C48", "title": "Shortest-walk map", "statement": "walks2wmap maps every node on some walk to the length of the shortest walk through it and nothing else; the walks kept are exactly those where every non-seed step lies on a shortest walk for that step; a step that is neither a seed nor on any of the walks raises KeyError.", "quantifier": "all sets of walks", "why_tests_cant": "unbounded sets of walks.", "anchors": ["gb/hypergraph/queries.py:walks2wmap", "gb/hypergraph/queries.py:valid_walk"]}
{"id": "C49", "title": "ego and intersect never give a wrong answer", "statement": "Callers of ego(center, depth) and intersect(seeds) never get a wrong neighbourhood and never change the hypergraph: in this commit both fail, ego with depth > 0 raises in every state (TypeError when center is an atom), intersect raises for every list of seeds, ego with depth <= 0 returns None, and no table changes.", "quantifier": "all hypergraph states, all centers, depths and seeds", "why_tests_cant": "a test shows one failing call; that no call on any hypergraph answers (and none damages data) needs all states.", "anchors": ["gb/hypergraph/hypergraph.py:HyperGraph.ego", "gb/hypergraph/queries.py:intersect", "gb/hypergraph/queries.py:vemap_assoc_id_edge"]}
{"id": "C50", "title": "Opening a database", "statement": "Opening an existing database never loses rows; opening after a crash at any point of table creation completes the schema; opening twice is the same as once.", "quantifier": "all databases, all crash points in table creation", "why_tests_cant": "crash points.", "anchors": ["gb/hypergraph/sqlite.py:SQLite.create_tables", "gb/hypergraph/sqlite.py:exec_or_ignore"]}
{"id": "C51", "title": "Wiki dump filter", "statement": "The filter outputs, in order and unchanged, all lines outside pages and all lines of pages whose title has no ':', and drops exactly the pages whose title has a ':'.", "quantifier": "all dumps made of pages with a title line", "why_tests_cant": "all inputs.", "anchors": ["python/filter_wikidump.py:main", "python/filter_wikidump.py:check_title"]}
{"id": "C52", "title": "Dependency tree linearisation", "statement": "Token.to_list returns every token of the dependency tree exactly once in left-to-right order; to_word_token_list is that list without separators, punctuation and spaces.", "quantifier": "all dependency trees", "why_tests_cant": "all trees.", "anchors": ["gb/nlp/nlp_token.py:Token.to_list", "gb/nlp/nlp_token.py:Token.to_word_token_list"]}
{"id": "C53", "title": "WordNet reader stores exactly the sourced relation edges", "statement": "Reading a WordNet into a hypergraph adds exactly, for each relation edge (rel, lemma, lemma) of the WordNet, that edge and its link from wordnet/gb; it returns normally, except that when the number of relation edges is a multiple of 501 everything is stored and the last flush raises IndexError. A lemma symbol has the lemma name as root and wn.<synset> as namespace when neither name contains '/'.", "quantifier": "all reachable hypergraphs, all WordNets whose synsets have a lemma, a known part of speech and storable names", "why_tests_cant": "all inputs and histories.", "anchors": ["gb/readers/wordnet.py:process_synset", "gb/readers/wordnet.py:lemma2symbol", "gb/hypergraph/batch_hypergraph.py:BatchHyperGraph.flush"]}
{"id": "C54", "title": "Alpha stage keeps every word", "statement": "The tree the alpha stage builds from a dependency parse contains every token that is not skipped (empty or punct dependency, with its subtree) exactly once.", "quantifier": "all dependency trees", "why_tests_cant": "all trees.", "anchors": ["gb/knowledge/stages/alpha.py:AlphaStage", "gb/knowledge/semantic_tree.py:Tree"]}
{"id": "C55", "title": "Beta stage only marks", "statement": "The beta stage changes neither the shape nor the words of the tree, only namespaces and compound marks.", "quantifier": "all trees", "why_tests_cant": "all trees.", "anchors": ["gb/knowledge/stages/beta.py:BetaStage"]}
{"id": "C56", "title": "Gamma stage keeps words except articles", "statement": "The gamma stage keeps every word of the tree except articles (the, an, a) it removes.", "quantifier": "all trees", "why_tests_cant": "all trees.", "anchors": ["gb/knowledge/stages/gamma.py:GammaStage"]}
{"id": "C57", "title": "Epsilon stage output", "statement": "The epsilon stage turns a tree into a hyperedge of the same shape whose atoms are the words with their namespace, and each compound into a single symbol joining its words with '_'.", "quantifier": "all trees", "why_tests_cant": "all trees.", "anchors": ["gb/knowledge/stages/epsilon.py:EpsilonStage"]}
{"id": "C58", "title": "The walk search terminates and misses nothing", "statement": "The search for walks that connect the seeds (walks) always terminates; it raises exactly when it meets a walk covering the seeds (a list cannot be put in a set: TypeError) or a vertex without entry (KeyError), and returns normally only when there is no covering walk among all the simple paths it can reach.", "quantifier": "all neighbour maps, seeds, starting vertices and set iteration orders", "why_tests_cant": "graphs of any size and iteration orders.", "anchors": ["gb/hypergraph/queries.py:walks"]}
{"id": "C59", "title": "Hub filter", "statement": "include_edge(e) is False exactly when some element of e after the first occurs more than 250 times in stored edges.", "quantifier": "all reachable hypergraphs, all edges with atomic elements", "why_tests_cant": "all histories.", "anchors": ["gb/hypergraph/queries.py:include_edge", "gb/hypergraph/queries.py:exclude_edge"]}
{"id": "C60", "title": "Delta stage keeps every word", "statement": "The delta stage, which searches for the best way to merge the relations of a sentence, never fails, whatever sharing of subtrees its search creates, and returns a tree with exactly the words (and namespaces) of the tree it was given, each as often as before; it leaves a tree alone whose root is a word or compound or whose first child is no relation.", "quantifier": "all trees of objects whose nodes have children, shared or not", "why_tests_cant": "an exponential search over shared mutable objects: trees of any size and shape.", "anchors": ["gb/knowledge/stages/delta.py:DeltaStage", "gb/knowledge/semantic_tree.py:Tree.flatten"]}
{"id": "C61", "title": "From sentence to hyperedge", "statement": "With its default stages, the extractor turns every sentence whose parse has a root into a hyperedge whose words are the words alpha keeps, each exactly once, except some articles, all with namespace 1 or inside a compound; the trees behind it are the tree alpha builds, the same with marks, the tree gamma makes of that, and one of the trees delta can make of that (C92); it records the text of the tree after each stage; without a root it raises AttributeError. A list of stages can only succeed when alpha comes first and epsilon at most once, at the end; then it records one output per stage.", "quantifier": "all parses, all lists of stages", "why_tests_cant": "all sentences and stage lists.", "anchors": ["gb/knowledge/extractor.py:Extractor.read_sentence", "gb/knowledge/extractor.py:Extractor.create_stage"]}
{"id": "C62", "title": "Printing a semantic tree", "statement": "str(tree) never fails on a tree a stage returned: it is the word of a leaf, the elements joined with '_' for a compound and the elements in parentheses separated by spaces otherwise; printing changes nothing.", "quantifier": "all trees, also with shared subtrees", "why_tests_cant": "trees of any size and shape.", "anchors": ["gb/knowledge/semantic_tree.py:Tree.__str__", "gb/knowledge/semantic_tree.py:Node.__str__"]}
{"id": "C63", "title": "Neighbour map and connecting edges", "statement": "edges2vemap raises KeyError whenever one of the edges has an element (it looks the neighbours up under the built-in function id) and returns its map otherwise; interedge(e, S) is True exactly when every element of e after the first is in S.", "quantifier": "all maps, edges and sets of names", "why_tests_cant": "all inputs.", "anchors": ["gb/hypergraph/queries.py:edges2vemap", "gb/hypergraph/queries.py:vemap_assoc_id_edge", "gb/hypergraph/queries.py:interedge"]}
{"id": "C64", "title": "The alpha tree is a function of the parse", "statement": "Whatever objects, layers and in-place insertions it goes through, the tree alpha returns is determined by the parse alone: each token becomes a leaf, children with labels aux, auxpass, cc, agent, det, advmod, amod, poss, nummod (and prepositions of a tree without a verb) go around the tree they belong to, the later the closer; pcomp and compound children are joined to the first element on their side; the others are appended; a node with only a node inside is replaced by it.", "quantifier": "all parses", "why_tests_cant": "all dependency trees, labels and parts of speech.", "anchors": ["gb/knowledge/stages/alpha.py:AlphaStage", "gb/knowledge/semantic_tree.py:Node.apply_layers", "gb/knowledge/semantic_tree.py:Tree.enclose"]}
{"id": "C65", "title": "What nobody works on stays exact under any schedule", "statement": "Several processes may use one database at the same time, the engine may refuse any statement (lock timeouts, full disk), and any process may die at any moment and be started again. Whatever happens, and at every moment, exists, pattern2edges, star, degree and timestamp give every client, for every edge that none of the calls is about (and every vertex that is neither such an edge nor in one), the same answer as before the processes started.", "quantifier": "all reachable databases, all numbers of processes, all calls they make, all interleavings of their database actions, all refused statements and deaths, both commit modes", "why_tests_cant": "schedules, faults.", "anchors": ["gb/hypergraph/sql.py:SQL.add_raw", "gb/hypergraph/sql.py:SQL.remove_raw", "gb/hypergraph/sql.py:SQL.open_cursor", "gb/hypergraph/sql.py:SQL.close_cursor", "gb/hypergraph/hypergraph.py:HyperGraph"]}
{"id": "C66", "title": "A process's own edges follow its own calls", "statement": "If certain edges are worked on by only one of several concurrent processes, then each time that process is between two calls (all so far having returned normally) every client finds exactly those of these edges by exists, pattern2edges and star that the process's own history of calls says are there. For an edge that two processes work on this fails: after add/remove in one and add in the other, all returning normally, exists may find an edge that star does not.", "quantifier": "all reachable databases, all processes and calls, all interleavings, refused statements and deaths of the other processes", "why_tests_cant": "schedules.", "anchors": ["gb/hypergraph/sql.py:SQL.add_raw", "gb/hypergraph/sql.py:SQL.remove_raw", "gb/hypergraph/hypergraph.py:HyperGraph.remove_by_pattern", "gb/hypergraph/hypergraph.py:HyperGraph.remove_belief"]}
{"id": "C67", "title": "Concurrent calls do not raise on SQLite", "statement": "On SQLite, if the engine itself refuses nothing (no lock timeout) and no process dies, no call of any process ever raises, whatever the other processes do in between. On MySQL (autocommit) two adds of different edges that share a new atom may collide, and one of the two raises with its edge not stored.", "quantifier": "all reachable databases, processes, calls, interleavings", "why_tests_cant": "schedules.", "anchors": ["gb/hypergraph/sql.py:SQL.update_or_insert", "gb/hypergraph/sql.py:SQL.add_str", "gb/hypergraph/sql.py:SQL.inc_degree"]}
{"id": "C68", "title": "Every run ends; no deadlock", "statement": "Finitely many processes, each with finitely many calls, always finish: no interleaving goes on for ever, and when no process can go on, every process has made all its calls (on SQLite all of them normally): nobody waits for a write lock that is never given back, because no call returns while still holding it.", "quantifier": "all reachable databases, processes, calls, interleavings (SQLite and MySQL commit modes)", "why_tests_cant": "schedules, liveness.", "anchors": ["gb/hypergraph/sql.py:SQL.close_cursor", "gb/hypergraph/sql.py:SQL.update_or_insert", "gb/hypergraph/sql.py:SQL.batch_exec"]}
{"id": "C69", "title": "On MySQL the calls do what they do on SQLite, under two conditions", "statement": "MySQL's engine counts only the rows an UPDATE changed, and its primary keys cover the first 250 characters. As long as no indexed text (elements of an edge in some order, with the number of the order) has 250 characters or more, and no add writes a vertex record that is there already (same timestamp, degree 0, of an edge that is not in the hypergraph), every history of calls returns normally and leaves the same tables as on the engine the other properties are about; queries are then answered alike (here texts are compared exactly; what the collation of the tables changes is C88). Histories whose adds carry different timestamps satisfy the second condition. An add that violates it raises IntegrityError, the edge is not stored, but its elements have been counted; with the default timestamp -1 three calls suffice. An edge with an element of 250 characters and two others cannot be added at all.", "quantifier": "all histories of calls, all edges, timestamps", "why_tests_cant": "all histories and texts; needs a MySQL server.", "anchors": ["gb/hypergraph/mysql.py:MySQL", "gb/hypergraph/sql.py:SQL.update_or_insert", "gb/hypergraph/sql.py:SQL.add_str", "gb/hypergraph/sql.py:SQL.write_edge_permutation"]}
{"id": "C70", "title": "The delta stage makes the tree the first of its candidates that fit best", "statement": "When the first child of the root is made of relation words (VERB, ADV, ADP, PART) and the root is no compound, delta builds at least one candidate, each with exactly the words of the tree, and the root becomes the first candidate of highest fit. The fit of a candidate to the original tree, as the tree is when the candidates are built: 0 if its first element has a word that is no relation word; otherwise 1000 if the number of parts of the relation is one for one argument or one less than the number of arguments, plus 100 for each pair (first part, first argument), (first part, second argument), (k-th part, k+1-st argument) such that somewhere in the original tree, outside compounds and first elements, the argument is an argument of a relation sharing a word with the part. Two elements of a tree are equal exactly when they have the same shape and, word for word, the same text, part of speech and dependency label; equality is an equivalence and comparing changes nothing.", "quantifier": "all trees all of whose nodes have children, shared objects or not", "why_tests_cant": "all parse trees, of any size and sharing; the search is exponential.", "anchors": ["gb/knowledge/stages/delta.py:DeltaStage.node_fit", "gb/knowledge/stages/delta.py:DeltaStage.process_entity", "gb/knowledge/stages/delta.py:DeltaStage.is_directly_under", "gb/knowledge/semantic_tree.py:Node.__eq__", "gb/nlp/nlp_token.py:Token.__eq__"]}
{"id": "C71", "title": "What the extractor returns can be stored and read back", "statement": "For every parsed sentence with a root whose words hold no white space, do not start with an opening bracket and are Unicode scalar values, the default extractor returns a well-formed vertex: every edge in it has at least two elements and every symbol is one, so its text reads back to it; and if it is an edge with a symbol in front, add stores it in any reachable graph, after which exists is true for it and unchanged for every other edge. If instead it starts with an edge, or is a single symbol, add also answers with it but it is not in the graph: edges made of its characters are.", "quantifier": "all sentences (dependency trees) with such words, all histories of the graph", "why_tests_cant": "all dependency parses of any size through a search stage, and all graph histories.", "anchors": ["gb/knowledge/extractor.py:Extractor.read_sentence", "gb/knowledge/stages/epsilon.py:EpsilonStage.process", "gb/knowledge/stages/epsilon.py:EpsilonStage.build_hyperedges", "gb/hypergraph/sql.py:SQL.add", "gb/hypergraph/edge.py:str2edge"]}
{"id": "C72", "title": "Edges that are only added are never lost, however many processes add them", "statement": "Several processes use the same database. Take an edge x that no process takes out (no remove, destroy, remove_belief or remove_by_pattern that is about x). If x is in the graph at the start, then at every moment of every run - also while others add it again, are refused in the middle of that, or die - exists, every pattern that x matches and star of each of its atoms find x. If x is added by several processes, maybe at the same time, then whenever every process whose calls are about x is between two calls that all returned normally, x is found by all of these queries if it was there at the start or some process added it, and by none of them otherwise.", "quantifier": "all databases reached by storable calls, all lists of calls per process, all schedules, refusals and deaths, SQLite and MySQL, all askers", "why_tests_cant": "the number of interleavings of the database actions of several processes, each with a check followed by many separately committed writes, is unbounded.", "anchors": ["gb/hypergraph/sql.py:SQL.add_raw", "gb/hypergraph/sql.py:SQL.update_or_insert", "gb/hypergraph/sql.py:SQL.add", "gb/hypergraph/sqlite.py:SQLite", "gb/hypergraph/mysql.py:MySQL"]}
{"id": "C73", "title": "Parsing a text makes one token object per token and touches no earlier text", "statement": "A Parser that has parsed any texts (also ones where it raised) parses another one. The Token objects of the earlier texts do not change. If the dependency trees are not deeper than Python's recursion allows, parse_text returns for each sentence one Token object per position; a position has exactly one object, wherever it occurs (in its sentence, among the left or right children of its head), distinct positions have distinct objects, none is an object of an earlier text, and each has the word (lower case, stripped), lemma, part of speech, dependency and entity that spaCy gave and as children the objects of spaCy's children. The parent of a token that is a child is the Parser object itself, never a token; that of the others is unset.", "quantifier": "all histories of texts, all documents (tokens, heads, sentence spans), all recursion limits", "why_tests_cant": "the memo table is shared by all texts ever parsed and filled in the order of a recursive descent that can be aborted anywhere.", "anchors": ["gb/nlp/parser.py:Parser.__spacy2token", "gb/nlp/parser.py:Parser.parse_text", "gb/nlp/nlp_token.py:Token"]}
{"id": "C74", "title": "What is read from a text does not depend on the texts read before", "statement": "An Extractor that has read any texts reads another one: the result is, for each sentence in order, what the stages make of the tokens that spaCy found in that sentence alone; the outputs of the stages that it keeps are those of the last sentence. If a sentence raises, the call raises the exception of the first one that does. The result is the same whatever was read before. (Only the kept outputs are not: after a text without sentences they are still those of the text before.)", "quantifier": "all histories of texts, all documents, all lists of stages, all recursion limits", "why_tests_cant": "a history is unbounded, and Parser and Extractor keep state between calls.", "anchors": ["gb/knowledge/extractor.py:Extractor.read_text", "gb/nlp/parser.py:Parser.parse_text", "gb/nlp/sentence.py:Sentence"]}
{"id": "C75", "title": "The printed dependency tree and text of a sentence", "statement": "The label tree of a sentence has the label of its root on top and under each token every label of a child once, in the order in which the labels first occur among the children (left ones before right ones), with the tree of the last child that has it. If no two children of a token have the same label, it mirrors the dependency tree: every token once, children in order left then right. Otherwise tokens are lost (witness). The text of a sentence is its words separated by single blanks: splitting it at blanks gives the words back when no word contains one.", "quantifier": "all sentences and dependency trees", "why_tests_cant": "trees of unbounded depth and width, with equal labels anywhere.", "anchors": ["gb/nlp/sentence.py:Sentence.label_tree", "gb/nlp/sentence.py:token2label_tree", "gb/nlp/sentence.py:Sentence.__str__", "gb/nlp/sentence.py:node_label"]}
{"id": "C76", "title": "Choosing a backend, and what a command does to the files", "statement": "HyperGraph(params) has the backend that params['backend'] names, built from the keys that this backend needs; it raises RuntimeError exactly for an unknown name and KeyError exactly when a needed key is missing. On the command line: with the sqlite backend (the default) every command opens the file given by --db (default gb.db), which then has all tables and all the rows it had, and changes no other file; gbrain wordnet leaves in that file what was there and exactly the relation edges of WordNet with their links, for whoever opens it afterwards, also when it raised; with null nothing is written; with mysql every command raises KeyError whatever the other options are; with any other name RuntimeError.", "quantifier": "all parameter dictionaries, all command lines, all file systems and file contents, all lists of synsets", "why_tests_cant": "dictionaries, file contents and word lists are unbounded.", "anchors": ["gb/hypergraph/hypergraph.py:HyperGraph.__init__", "gb/gbrain.py:cli", "gb/gbrain.py:create", "gb/gbrain.py:wordnet", "gb/gbrain.py:shell"]}
{"id": "C77", "title": "Degrees under concurrency add up", "statement": "Several processes call the operations of C66 on one database, interleaved in any way, some of them dying or being refused by the database. Take a vertex that the database knew at the start, that no call adds or removes itself, and around which no two processes work on the same edge (and a process that removes a belief in an edge is the only one that works on its sources). When each process that works around it has returned normally from the calls it made so far, degree of that vertex is what it was plus, for each process, the change in the number of its occurrences that this process's own calls make; its timestamp is unchanged. For an atom: the difference between degree and the number of its occurrences in the answer of star is what it was. Without these conditions it fails: two processes whose edges share a new atom, or that add the same edge, leave a wrong degree (witnesses).", "quantifier": "all databases reached, all calls, any number of processes, all interleavings, deaths and refusals", "why_tests_cant": "the number of interleavings is unbounded and lost updates show up only in some of them.", "anchors": ["gb/hypergraph/sql.py:SQL.add_raw", "gb/hypergraph/sql.py:SQL.inc_degree", "gb/hypergraph/sql.py:SQL.dec_degree", "gb/hypergraph/sql.py:SQL.remove_raw", "gb/hypergraph/sql.py:SQL.degree"]}
{"id": "C78", "title": "Queries change nothing", "statement": "In every state of a hypergraph, reached or not, in a batch or not, exists, pattern2edges, star, symbols_with_root, sources, all and all_attributes leave the whole connection as it is and write nothing, whether they answer or raise; what they answer depends only on the tables. degree, timestamp and include_edge write nothing either, and outside a batch they leave the connection as it is and their answer depends only on the tables.", "quantifier": "all states, all arguments (well formed or not), both backends", "why_tests_cant": "all arguments include ill-formed ones and all states include those inside a batch; a test can only try some.", "anchors": ["gb/hypergraph/sql.py:SQL.exists", "gb/hypergraph/sql.py:SQL.pattern2edges", "gb/hypergraph/sql.py:SQL.star", "gb/hypergraph/sql.py:SQL.symbols_with_root", "gb/hypergraph/sql.py:SQL.degree", "gb/hypergraph/sql.py:SQL.timestamp", "gb/hypergraph/sql.py:SQL.f_all", "gb/hypergraph/hypergraph.py:HyperGraph.sources"]}
{"id": "C79", "title": "What is asked about edges depends on the edges alone", "statement": "Take two hypergraphs, on the same or on different backends, each after any history of calls. If exists answers alike on both for every edge, then pattern2edges, star of an atom, symbols_with_root and sources answer the same edges or symbols on both (possibly in another order), and degree of an atom and include_edge of an edge whose arguments are atoms answer the same. It does not hold for timestamps, nor for the degree of an edge (witness).", "quantifier": "all pairs of histories, both backends, all queries", "why_tests_cant": "two histories can be arbitrarily different and still end with the same edges.", "anchors": ["gb/hypergraph/sql.py:SQL.pattern2edges", "gb/hypergraph/sql.py:SQL.star", "gb/hypergraph/sql.py:SQL.symbols_with_root", "gb/hypergraph/sql.py:SQL.degree", "gb/hypergraph/hypergraph.py:HyperGraph.sources"]}
{"id": "C80", "title": "Taking an add or a removal back", "statement": "After any history, adding an edge that is not there and removing it again, or removing an edge that is there and adding it again: every question about edges (C79) is answered as before. After add and remove, degree of every other vertex is as before, timestamp too unless the vertex was first seen in that edge (then it is the time of the add); the edge itself has degree 0 and timestamp -1 afterwards, even if it had been known as an element of other edges. After remove and add, degree and timestamp of every other vertex that had a record are as before; the edge itself has degree 0 and the new timestamp.", "quantifier": "all histories, all edges, all timestamps, both backends", "why_tests_cant": "the effect depends on the whole history of every vertex of the edge.", "anchors": ["gb/hypergraph/sql.py:SQL.add_raw", "gb/hypergraph/sql.py:SQL.remove_raw", "gb/hypergraph/sql.py:SQL.inc_degree", "gb/hypergraph/sql.py:SQL.dec_degree", "gb/hypergraph/sql.py:SQL.degree", "gb/hypergraph/sql.py:SQL.timestamp"]}
{"id": "C81", "title": "A batch of adds is all-or-nothing across crashes", "statement": "On SQLite, take batch_exec with any functions that make only adds of single edges, destroy and queries, with any arguments, also such that make a call raise. If the process dies at any moment during the batch, or a function raises, the file holds exactly what it held before the call; after the batch returned normally it holds all of it. A batch that also removes edges is not atomic: the process may die when an edge that the batch added is on the disk and a removal has happened by half (witness).", "quantifier": "all functions made of such calls, all arguments, all crash points, all connections outside a batch (also not reachable ones)", "why_tests_cant": "every crash point of every batch.", "anchors": ["gb/hypergraph/sql.py:SQL.batch_exec", "gb/hypergraph/sql.py:SQL.open_cursor", "gb/hypergraph/sql.py:SQL.close_cursor", "gb/hypergraph/sql.py:SQL.update_or_insert", "gb/hypergraph/sql.py:SQL.remove_edge_permutation"]}
{"id": "C82", "title": "Adding a list of edges within a batch", "statement": "After any history, batch_exec with functions that add and remove edges, ask, and also add lists of edges: if at least one list of edges is added, batch_exec raises AttributeError after all functions have run, although the hypergraph then holds exactly what running the functions outside a batch leaves, all of it is on the disk, and the connection is as after a call that returned normally; if none is, it returns normally.", "quantifier": "all histories, all lists of functions made of such calls, both backends", "why_tests_cant": "any number of functions and any mixture of calls.", "anchors": ["gb/hypergraph/sql.py:SQL.batch_exec", "gb/hypergraph/sql.py:SQL.add", "gb/hypergraph/sql.py:SQL.open_cursor", "gb/hypergraph/sql.py:SQL.close_cursor"]}
{"id": "C83", "title": "One process writes, others read", "statement": "Several processes have the same database open; one makes arbitrary calls, all others only ask questions. At every point of every interleaving of their database actions, what the others see is what is on the disk, and that is the state left by the writer's finished calls or, within a call, a state that a crash of that call could leave. On SQLite, when the writer only adds lists of edges or beliefs, destroys, and runs batches without removals, every reader always sees the database exactly as it is between two of the writer's calls, never a call by half. With a single-edge add it can: exists finds the edge and star does not (witness).", "quantifier": "any number of processes and calls, all interleavings, both backends", "why_tests_cant": "unboundedly many schedules.", "anchors": ["gb/hypergraph/sql.py:SQL.add", "gb/hypergraph/sql.py:SQL.batch_exec", "gb/hypergraph/sql.py:SQL.close_cursor", "gb/hypergraph/sql.py:SQL.update_or_insert", "gb/hypergraph/sql.py:SQL.pattern2edges"]}
{"id": "C84", "title": "A text where an edge is expected", "statement": "add cannot tell an edge whose first element is an edge from a list of edges, and a text from an edge of letters. In every state, in a batch or not: add of such a value or of a text has the same outcome, and leaves the same answers to every question about edges, as the add in which each text of the list (or the text) is replaced by the edge of its letters. In particular, after any history, add('mary'), when (m a r y) is not stored, returns normally, stores (m a r y), and sets the degree of mary to 0 and its timestamp to the new one, however many edges mary occurs in, all of which stay.", "quantifier": "all states and arguments (first part), all histories and texts (second part), both backends", "why_tests_cant": "all arguments and all database contents.", "anchors": ["gb/hypergraph/sql.py:SQL.add", "gb/hypergraph/sql.py:SQL.add_raw", "gb/hypergraph/sql.py:SQL.pattern2edges"]}
{"id": "C85", "title": "Nothing bound, nothing done", "statement": "A pattern whose items are all wildcards, and the edge without elements, raise IndexError in pattern2edges, exists, remove_by_pattern, add, remove and add_belief, in every state whatsoever, and change nothing: remove_by_pattern with wildcards only can never empty the hypergraph.", "quantifier": "all states, all lengths of pattern", "why_tests_cant": "all states, also corrupt ones.", "anchors": ["gb/hypergraph/sql.py:SQL.pattern2edges", "gb/hypergraph/sql.py:str_plus_1", "gb/hypergraph/hypergraph.py:HyperGraph.remove_by_pattern", "gb/hypergraph/sql.py:SQL.add", "gb/hypergraph/sql.py:SQL.remove"]}
{"id": "C86", "title": "The index holds n! rows per edge and nothing else", "statement": "After any history the index table holds exactly one row for each order of the elements of each stored edge (the elements in the k-th order and the number k) and nothing else: n! rows for an edge of n elements, no row twice, and no row left behind by what was removed.", "quantifier": "all histories", "why_tests_cant": "unboundedly many histories and edges.", "anchors": ["gb/hypergraph/sql.py:SQL.write_edge_permutations", "gb/hypergraph/sql.py:SQL.remove_edge_permutations", "gb/hypergraph/sql.py:do_with_edge_permutations", "gb/hypergraph/sql.py:nthperm"]}
{"id": "C87", "title": "A time the database cannot hold", "statement": "After any history, add(e, t) with a time outside the 64 bits of the database's integers: if e is stored, nothing happens; if not, OverflowError is raised, every question about edges and every timestamp is answered as before, and a later add of e with a good time works; but the elements of e up to the first one without a record have been counted, on disk: their degrees are too high from then on.", "quantifier": "all histories, all edges, all times outside 64 bits, both backends (MySQL names the exception DataError)", "why_tests_cant": "unboundedly many histories, edges and times.", "anchors": ["gb/hypergraph/sql.py:SQL.add", "gb/hypergraph/sql.py:SQL.add_raw", "gb/hypergraph/sql.py:SQL.add_str", "gb/hypergraph/sql.py:SQL.inc_degree"]}
{"id": "C88", "title": "MySQL compares texts without case and accents; only texts it tells apart are kept apart", "statement": "The tables of the MySQL backend compare texts by the weights of their characters (utf8_general_ci), the shorter one padded with spaces. If all vertices are written with characters that the collation tells apart and whose successor comes later (for utf8_general_ci: printable ASCII without capital letters and backquote), every history of calls that satisfies the two conditions of C69 returns normally, is durable, and afterwards exists, patterns, star, symbols_with_root, sources, f_all, degree and timestamp answer exactly what the history says, as on SQLite. Otherwise not: in every state, degree, timestamp and star are the same for two vertices whose texts have the same weights; adding (is paris city) takes (is Paris city) away and counts its elements twice; an edge whose last element ends in a character whose successor does not come later (a with an accent, backquote) is never found, whatever was added, and adding it a second time raises IntegrityError.", "quantifier": "all histories of calls, all edges, timestamps, all texts; all weightings of characters", "why_tests_cant": "all histories and texts; needs a MySQL server.", "anchors": ["gb/hypergraph/mysql.py:MySQL", "gb/hypergraph/sql.py:SQL.update_or_insert", "gb/hypergraph/sql.py:SQL.write_edge_permutation", "gb/hypergraph/sql.py:str_plus_1", "gb/hypergraph/sql.py:SQL.pattern2edges", "gb/hypergraph/sql.py:SQL.str2perms"]}
{"id": "C89", "title": "Crashes on MySQL: adding the edge again may never succeed; how to repair it", "statement": "On MySQL, with histories that satisfy the conditions of C69, a crash during a call leaves on disk what C24 and C25 describe. But repairing is harder: for every edge that is not in the hypergraph there is a crash point of its add after which adding it again with the same timestamp raises IntegrityError for ever, exists never finds it, and every attempt counts its elements once more. The repair that works whatever the crash point of an add or remove of an edge: remove it, then add it with a timestamp other than the one timestamp() reports (any timestamp if exists finds the edge); the add returns normally after a crash in an add, and may raise IntegrityError after a crash in a remove, and in all cases the index is then exact, with the edge. Adding it with another timestamp, ignoring an IntegrityError, and then removing it gives an exact index without it.", "quantifier": "all histories, edges, timestamps, crash points, numbers of attempts", "why_tests_cant": "crash points; needs a MySQL server.", "anchors": ["gb/hypergraph/sql.py:SQL.add_raw", "gb/hypergraph/sql.py:SQL.remove_raw", "gb/hypergraph/sql.py:SQL.update_or_insert", "gb/hypergraph/mysql.py:MySQL"]}
{"id": "C90", "title": "Calls that nobody gets in the way of", "statement": "Several processes on one database, SQLite or MySQL, no crash, the engine refuses nothing. If every edge that the calls of one process are about, and every element of such an edge, is used by no other process's calls - except elements that were already known to the hypergraph before and that nobody adds or removes as an edge (they may be shared) - then no call of that process raises, whatever the others do and however the actions interleave (on MySQL: if its own calls satisfy the conditions of C69). Between its calls, exists, degree and timestamp answer about the edges and vertices only it uses exactly as if it had made its calls alone. If that is true of all processes, all calls of all of them return. Without it an add on MySQL can raise (C67).", "quantifier": "all reachable databases, numbers of processes, calls, interleavings", "why_tests_cant": "schedules; needs a MySQL server.", "anchors": ["gb/hypergraph/sql.py:SQL.update_or_insert", "gb/hypergraph/sql.py:SQL.add_str", "gb/hypergraph/sql.py:SQL.inc_degree", "gb/hypergraph/sql.py:SQL.add_raw", "gb/hypergraph/sql.py:SQL.remove_raw", "gb/hypergraph/mysql.py:MySQL"]}
{"id": "C91", "title": "Going through the vertices step by step", "statement": "f_all returns a generator, whose steps can alternate with other calls on the same hypergraph. Outside a batch, if only questions (exists, pattern2edges, star, sources, symbols_with_root, f_all, degree, timestamp, with any arguments) are asked between the steps, the steps give exactly what f_all gives at once, in that order, and then stop; the questions are answered as without the generator; the hypergraph is unchanged, however far the generator was taken. On MySQL, whatever is called after the first step, the steps give what f_all gave at the first step, and the calls do what they do alone. In a batch not: once a question, add, remove or destroy has been called between the steps of a generator started in the batch, it gives nothing more: it stops or raises, and the remaining vertices are never visited.", "quantifier": "all histories, all sequences of steps and calls, both backends", "why_tests_cant": "sequences of arbitrary length; a test that consumes the generator at once sees none of this.", "anchors": ["gb/hypergraph/sql.py:SQL.f_all", "gb/hypergraph/hypergraph.py:HyperGraph.f_all", "gb/hypergraph/sql.py:SQL.open_cursor", "gb/hypergraph/sql.py:SQL.close_cursor"]}
{"id": "C92", "title": "What delta can make of a relation", "statement": "On every tree that does not use a node object twice - all trees alpha, beta and gamma build are such - delta's candidates are exactly these relations with arguments, at the level of the words of the relation and of each argument, each built at least once: start with the words of the first child and no argument, and take the other children in order. Each child either becomes one more argument as it is; or, if it can itself be made (in the same way) a relation of relation words only (VERB, ADV, ADP, PART) with arguments, it is taken apart: its relation is put after the relation so far, or - only while there is no argument yet - before it, and its arguments are appended. The tree after delta is one of these; if the root is a word or a compound, or its first child has a word that is no relation word, it is the tree before.", "quantifier": "all trees without shared nodes, of any depth and width", "why_tests_cant": "all trees; the number of candidates is exponential, and the search works on shared and rewritten objects.", "anchors": ["gb/knowledge/stages/delta.py:DeltaStage.find_candidates", "gb/knowledge/stages/delta.py:DeltaStage.find_candidates_r", "gb/knowledge/stages/delta.py:DeltaStage.build_candidate", "gb/knowledge/stages/delta.py:DeltaStage.process", "gb/knowledge/semantic_tree.py:Node.clone", "gb/knowledge/semantic_tree.py:Node.flatten", "gb/knowledge/semantic_tree.py:Node.compound"]}
{"id": "C93", "title": "Edges given as lists", "statement": "An edge, or a collection of edges, may be given as a list instead of a tuple: with no list inside an edge, exists, patterns, add, remove and remove_by_pattern do exactly what they do with the tuple (sources and the belief methods only for a fact that is no list itself). With a list inside (at any depth) an edge is stored like the tuple and found like it by tuple queries, but exists answers False for it, remove does nothing, it matches no pattern and has no sources; adding it n times leaves it there once but raises the degree of each other vertex by n times its number of occurrences and resets the edge's own degree to 0 and its timestamp; remove_belief of a fact given as a list removes the fact whoever else believes it and leaves the links; negative of a list raises TypeError. remove_by_pattern of a pattern with a list inside does nothing. After any calls of add, remove, destroy and batches of these with lists and tuples in any mixture nothing has raised, all is on the disk, and exists, pattern, star, degree and timestamp answer as the specification says.", "quantifier": "all edges and collections with lists and tuples in any mixture, all histories of add, remove, destroy and batches of add (one edge), remove and destroy, both commit modes", "why_tests_cant": "the difference depends on the shape of the argument and on the history; the tests use tuples only.", "anchors": ["gb/hypergraph/sql.py:edge_matches_pattern", "gb/hypergraph/sql.py:add_raw", "gb/hypergraph/sql.py:remove_raw", "gb/hypergraph/hypergraph.py:remove_belief", "gb/hypergraph/edge.py:negative"]}
{"id": "C94", "title": "Histories that mix equal numbers", "statement": "With the same number allowed as an int and as a float (7 and 7.0), calls that add, remove, wipe, reopen or ask never raise. What they find is decided edge by edge: asking for q finds the stored edge e when they are equal as Python values and the elements of e are, in some order, literally those of q except that the text of the last may be longer. An edge is in the hypergraph when it was added while nothing that the call finds was there, and since then it was not itself removed and nothing was wiped. exists answers by that; a pattern or star answer holds only such edges that match (a pattern item matches what is equal to it, and the bound items must also be, in some order, literally elements of the edge but for the last, whose text may be longer), holds an edge equal to every such edge, and no two equal edges. Removing by a pattern removes the edges of one such answer, so an equal one stays. Removing an edge that is found only as an equal one removes no edge, but lowers the degree of everything in it and drops its own record, so degrees can become negative: with (x 7.0) stored, removing (x 7) twice leaves it there and the degree of x at -1.", "quantifier": "all histories of adds (single, many, beliefs), removes (single, many, by pattern, beliefs), batches of adds, removes and destroys, destroys, reopens and queries on storable edges, whatever their numbers; all orders in which a set is met; all queries", "why_tests_cant": "the outcome depends on the order of the adds and on the texts of the numbers in every position; the tests store integers or none.", "anchors": ["gb/hypergraph/sql.py:exists", "gb/hypergraph/sql.py:add_raw", "gb/hypergraph/sql.py:remove_raw", "gb/hypergraph/sql.py:pattern2edges", "gb/hypergraph/sql.py:star", "gb/hypergraph/hypergraph.py:remove_by_pattern", "gb/hypergraph/hypergraph.py:remove_belief"]}
{"id": "C95", "title": "Numbers and edges given as their texts", "statement": "An element of an edge may be given as the string that writes it: \"7\" for the number 7, \"(is sky blue)\" for the edge (is sky blue). What is stored is the element meant, and the edge as it was given is found nowhere. After any calls of add, add many, add_belief, remove, destroy and batches of these whose edges have some of their parts, at any depth, given so, nothing raises, all is on the disk, and the hypergraph holds the edges meant. exists answers False for an edge with a part given as a string, right after it was added too; a pattern with one finds nothing, so remove_by_pattern of it does nothing; remove of such an edge does nothing; it has no sources, and remove_belief on it does nothing. A source given as such a string is a source all the same, but remove_belief does not remove it: it removes the fact if nobody believes it, and else nothing. Because an edge given so is never found, every add of it counts its elements anew and resets its own timestamp. star, degree and timestamp take only the text of their argument: they answer the same for \"7\" and 7. So degrees and timestamps are those of a ledger in which an add counts when the edge is not there or has a part given as a string, and a remove when the edge is there and has none.", "quantifier": "all such histories of calls on storable edges, and for each edge every choice of which parts, at any depth, are given as strings", "why_tests_cant": "it depends on the whole history and on where in the edge the string is; the tests never store a symbol that reads as a number or an edge.", "anchors": ["gb/hypergraph/sql.py:exists", "gb/hypergraph/sql.py:add_raw", "gb/hypergraph/sql.py:remove_raw", "gb/hypergraph/sql.py:edge_matches_pattern", "gb/hypergraph/edge.py:str2edge", "gb/hypergraph/edge.py:edge2str", "gb/hypergraph/hypergraph.py:remove_belief"]}
{"id": "C96", "title": "Questions with any argument at all", "statement": "After any calls on storable edges, exists, pattern2edges, star, sources, degree and timestamp may be given any value: a string, a number, None, tuples of anything. They change nothing. pattern2edges (and exists, which says whether its answer is not empty) raises TypeError for what cannot be iterated and IndexError when there are no texts to look for; otherwise, if the text of the items that are not None does not begin with a parenthesis and SQLite can take it, there is an answer, and every answer is exactly the set of the edges in the hypergraph whose elements equal the items as Python values, position by position, and that can be ordered so that their texts begin with that of the items; among them all whose elements are literally the items. star(v) answers exactly the edges that can be ordered so that their texts begin with the text of v and a space (so a text of several words asks for the edges with all of them). If the text begins with a parenthesis, an answer consists of pieces of stored edges only. sources(v) answers exactly the sources of the stored beliefs in an edge equal to v that can be ordered so; of None those of all beliefs. degree and timestamp are those of the vertex that has the text of v; 0 and -1 if there is none. remove_by_pattern of any value whose text does not begin with a parenthesis removes exactly the edges found, in any order, or raises what the query raises and changes nothing.", "quantifier": "all reached states and every Python value as argument", "why_tests_cant": "a test can give only some arguments; the tests give well-formed ones. That nothing else is found is a claim about every text and every state.", "anchors": ["gb/hypergraph/sql.py:pattern2edges", "gb/hypergraph/sql.py:exists", "gb/hypergraph/sql.py:str2perms", "gb/hypergraph/sql.py:cur2edges", "gb/hypergraph/sql.py:edge_matches_pattern", "gb/hypergraph/sql.py:degree", "gb/hypergraph/sql.py:timestamp", "gb/hypergraph/hypergraph.py:sources"]}
