{"id": "C01", "title": "Item frequencies are exact", "statement": "The vocabulary returned by ItemFreqHandler.build_item_freq maps every type to exactly the number of corpus lines, over all files, that match the line format and yield that type; types that never occur are not in the vocabulary.", "quantifier": "every list of files, every file content, every line matcher / type extractor, every number of workers", "why_tests_cant": "Exactness for all corpora and all ways the files are spread over worker processes is an infinite family; a test fixes one corpus and sees one schedule.", "anchors": ["nephosem/models/typetoken.py:ItemFreqHandler.update_one_file", "nephosem/models/typetoken.py:ItemFreqHandler._do_process_job", "nephosem/models/typetoken.py:ItemFreqHandler._process_results"]}
{"id": "C02", "title": "Item frequency counting is schedule independent and always finishes", "statement": "Whatever order worker processes take jobs and publish results in, a run of build_item_freq with at least one worker always reaches completion, never blocks on the result queue, and every completed run returns the same counts.", "quantifier": "every number of workers >= 1, every list of files, every interleaving of worker steps", "why_tests_cant": "The interleavings are unbounded; a test observes only the one the OS scheduler happened to choose.", "anchors": ["nephosem/core/handler.py:Paralleler.process", "nephosem/core/handler.py:Paralleler._job_producer", "nephosem/models/typetoken.py:ItemFreqHandler._worker_loop", "nephosem/models/typetoken.py:ItemFreqHandler._process_results"]}
{"id": "C03", "title": "The sliding window always holds exactly the neighbours of the focus", "statement": "After feeding any sequence of tokens to a Window with left span l and right span r, the focus is the token r positions back, the left context is exactly the l positions before it and the right context exactly the r positions after it, with empty slots for positions outside the segment.", "quantifier": "every left/right span >= 0, every sequence of updates of every length", "why_tests_cant": "The invariant is about all update histories and all span sizes.", "anchors": ["nephosem/core/terms.py:Window.update", "nephosem/core/terms.py:Window.init_span"]}
{"id": "C04", "title": "Co-occurrence counts equal the number of in-window pairs", "statement": "For every target type t and context type c, the count produced by ColFreqHandler for one segment equals the number of position pairs (i,j), i<>j, in the same segment with token i of type t, token j of collocate type c, and -left_span <= j-i <= right_span.", "quantifier": "every segment of every length, every left/right span, every pair of types", "why_tests_cant": "A universally quantified counting identity; the failing cases are short segments at boundaries, which depend on span and length jointly.", "anchors": ["nephosem/models/typetoken.py:ColFreqHandler.update_one_match", "nephosem/models/typetoken.py:ColFreqHandler.process_right_window", "nephosem/core/handler.py:BaseHandler.update_one_file"]}
{"id": "C05", "title": "Exactly which tokens are counted as targets", "statement": "In a segment of n tokens with right span r: if n > r or n <= 1 or r = 0 every token contributes all its in-window context pairs (none when n<=1 by lack of contexts); if 2 <= n <= r exactly the first n-1 tokens contribute and the last token contributes none.", "quantifier": "every segment, every left/right span", "why_tests_cant": "An exact characterisation of the deviation from the intended counts over all lengths and spans.", "anchors": ["nephosem/models/typetoken.py:ColFreqHandler.process_right_window", "nephosem/models/typetoken.py:ColFreqHandler.update_one_match"]}
{"id": "C06", "title": "Co-occurrence counting is symmetric for symmetric windows", "statement": "With equal left and right span, the same type format for targets and collocates, and every segment longer than the right span, the count of (t,c) equals the count of (c,t).", "quantifier": "every corpus segment longer than the span, every span, every pair of types", "why_tests_cant": "Symmetry of an aggregate over all positions cannot be enumerated.", "anchors": ["nephosem/models/typetoken.py:ColFreqHandler.update_one_match", "nephosem/models/typetoken.py:ColFreqHandler.process_right_window"]}
{"id": "C07", "title": "Separators isolate segments", "statement": "The counts collected from a file are the sum of the counts collected from its separator-delimited segments taken separately; no pair ever crosses a separator; lines that neither match nor separate do not change any count.", "quantifier": "every file content, every matcher and separator predicate", "why_tests_cant": "Quantifies over arbitrary placements of separators and junk lines.", "anchors": ["nephosem/core/handler.py:BaseHandler.update_one_file"]}
{"id": "C08", "title": "Vocabulary filtering is restriction", "statement": "Counting with a (non-empty) row vocabulary and/or column vocabulary gives exactly the counts of the unfiltered run restricted to row types in the row vocabulary and column types in the column vocabulary.", "quantifier": "every segment, spans, and pair of vocabularies", "why_tests_cant": "A commuting law between filtering and counting over all inputs.", "anchors": ["nephosem/models/typetoken.py:ColFreqHandler.update_one_match", "nephosem/core/vocab.py:Vocab.__init__"]}
{"id": "C09", "title": "Row totals are bounded by window capacity", "statement": "In the co-occurrence counts of any corpus, the row total of a type never exceeds (left_span+right_span) times its number of occurrences.", "quantifier": "every corpus, spans, type", "why_tests_cant": "A bound over all corpora.", "anchors": ["nephosem/models/typetoken.py:ColFreqHandler.update_one_match", "nephosem/models/typetoken.py:ColFreqHandler.process_right_window"]}
{"id": "C10", "title": "Co-occurrence matrix is schedule independent", "statement": "For every interleaving of any number (>=1) of workers over the files, every completed run of build_col_freq merges partial matrices to the same cell counts: the sum over files of that file's counts.", "quantifier": "every number of workers, files, interleavings, order of the partial matrices in the result queue", "why_tests_cant": "Unbounded set of schedules.", "anchors": ["nephosem/models/typetoken.py:ColFreqHandler._worker_loop_with_colvocab", "nephosem/models/typetoken.py:ColFreqHandler._process_results", "nephosem/specutils/mxutils.py:merge_two_matrices"]}
{"id": "C11", "title": "Token retrieval finds each query occurrence exactly once with its exact context", "statement": "For each query type, TokenHandler records one token per occurrence of the type in a segment, in corpus order, whose left and right context are exactly the in-window neighbours (restricted to the collocate vocabulary when given).", "quantifier": "every segment, spans with right_span >= 1, query sets, collocate vocabularies", "why_tests_cant": "Universally quantified over segment lengths shorter and longer than the window.", "anchors": ["nephosem/models/typetoken.py:TokenHandler.update_one_match", "nephosem/models/typetoken.py:TokenHandler.process_right_window"]}
{"id": "C12", "title": "Token retrieval does not lose results under any schedule", "statement": "For every interleaving of the workers, the tokens returned by retrieve_tokens are the tokens of all files.", "quantifier": "every number of workers, files, interleavings", "why_tests_cant": "Depends on which worker gets which job and the order of queue insertions.", "anchors": ["nephosem/models/typetoken.py:TokenHandler._worker_loop", "nephosem/models/typetoken.py:TokenHandler._process_results", "nephosem/core/handler.py:Paralleler.process"]}
{"id": "C13", "title": "Exactly when token retrieval is complete", "statement": "In a completed run the result queue holds one item per file plus one item per worker that processed no file, and retrieve_tokens reads the first #files of them. Hence every token of every file is returned, exactly once, whenever every worker processed at least one file, and in general the number of queue items left unread equals the number of workers that processed no file.", "quantifier": "every number of workers, files, interleavings", "why_tests_cant": "Unbounded set of schedules.", "anchors": ["nephosem/models/typetoken.py:TokenHandler._worker_loop", "nephosem/models/typetoken.py:TokenHandler._process_results"]}
{"id": "C14", "title": "Token retrieval never fails on a corpus", "statement": "Collecting tokens from any file (any number of matching lines, any separators) with any spans terminates without raising.", "quantifier": "every file content and span pair", "why_tests_cant": "Failure depends on boundary combinations (empty segments, zero right span).", "anchors": ["nephosem/models/typetoken.py:TokenHandler.process_right_window", "nephosem/core/terms.py:Window.update"]}
{"id": "C15", "title": "Merging type nodes preserves all tokens", "statement": "TypeNode.merge of a list of nodes for one type yields a node for the same type whose tokens are the concatenation of the nodes' tokens in order, whose frequency is the number of those tokens, and raises when types differ.", "quantifier": "every non-empty list of type nodes built from type strings (as TokenHandler builds them)", "why_tests_cant": "Quantifies over all lists.", "anchors": ["nephosem/core/terms.py:TypeNode.merge", "nephosem/core/terms.py:TypeNode.append_token", "nephosem/core/terms.py:TypeNode.freq"]}
{"id": "C16", "title": "Parse/format round trip for type and token strings", "statement": "Formatting a TypeNode or TokenNode built from a string and a format gives back the string whenever the number of '/'-separated fields matches the format; conversely parsing the formatted string restores the attributes whenever no attribute contains '/'.", "quantifier": "every format with distinct fields, every attribute strings", "why_tests_cant": "Quantifies over all strings including ones containing the separator.", "anchors": ["nephosem/core/terms.py:ItemNode.to_type", "nephosem/core/terms.py:TypeNode.__init__", "nephosem/core/terms.py:TokenNode.__init__"]}
{"id": "C17", "title": "Vocab behaves as a finite map over any history", "statement": "After any sequence of __setitem__ and increment operations, lookup, membership, length, key set and sum of frequencies agree with the finite map defined by the same history (increment on an absent item starting from zero).", "quantifier": "every finite history of operations from any initial dictionary", "why_tests_cant": "State-machine refinement over unbounded histories.", "anchors": ["nephosem/core/vocab.py:Vocab.__setitem__", "nephosem/core/vocab.py:Vocab.increment", "nephosem/core/vocab.py:Vocab.__getitem__", "nephosem/core/vocab.py:Vocab.__contains__", "nephosem/core/vocab.py:Vocab.__len__", "nephosem/core/vocab.py:Vocab.sum_freq"]}
{"id": "C18", "title": "Frequency-sorted view is a canonical total order", "statement": "Vocab.dataframe lists exactly the vocabulary's items once each, ordered by descending frequency and ascending item among ties, and depends only on the mapping, not on insertion order.", "quantifier": "every vocabulary and every insertion order of it", "why_tests_cant": "Quantifies over permutations of arbitrary dictionaries.", "anchors": ["nephosem/core/vocab.py:Vocab.dataframe", "nephosem/core/vocab.py:Vocab.get_item_list"]}
{"id": "C19", "title": "Slicing a Vocab returns the most frequent items", "statement": "vocab[:n] contains min(n,len) items with their frequencies, and no item left out has a higher frequency than an item kept (ties resolved alphabetically).", "quantifier": "every vocabulary, every n", "why_tests_cant": "Extremality over all vocabularies.", "anchors": ["nephosem/core/vocab.py:Vocab.__getitem__", "nephosem/core/vocab.py:Vocab.dataframe"]}
{"id": "C20", "title": "Comparison selection partitions the vocabulary", "statement": "vocab[vocab.freq >= k] contains exactly the items with frequency >= k with unchanged frequencies; selections by complementary comparisons partition the vocabulary; a tuple of conditions selects the items satisfying all of them.", "quantifier": "every vocabulary, every threshold, every tuple of conditions", "why_tests_cant": "Universally quantified set identities.", "anchors": ["nephosem/core/vocab.py:Vocab.__getitem__", "nephosem/core/vocab.py:Vocab.__lt__", "nephosem/core/vocab.py:Vocab.__ge__", "nephosem/core/vocab.py:Vocab._select_by_items"]}
{"id": "C21", "title": "subvocab returns the asked items with their true frequencies", "statement": "vocab.subvocab(items) contains exactly the given items, with their frequency or 0 when unknown, and does not modify the original vocabulary.", "quantifier": "every vocabulary, every item list", "why_tests_cant": "Quantifies over vocabularies and lists incl. unknown items and repetitions.", "anchors": ["nephosem/core/vocab.py:Vocab.subvocab"]}
{"id": "C22", "title": "Plain-text save/load of a Vocab is lossless", "statement": "Loading a frequency list written by Vocab.save(fmt='plain') gives an equal vocabulary.", "quantifier": "every vocabulary with integer frequencies, all item strings", "why_tests_cant": "Failing items are those containing particular characters; the passing class has to be characterised over all strings.", "anchors": ["nephosem/utils.py:save_dict_plain", "nephosem/utils.py:load_dict_plain", "nephosem/core/vocab.py:Vocab.save", "nephosem/core/vocab.py:Vocab.load"]}
{"id": "C23", "title": "Vocab.equal is map equality", "statement": "v1.equal(v2) holds iff the two vocabularies have the same items with the same frequencies; in particular it is an equivalence relation independent of insertion order.", "quantifier": "every pair of vocabularies", "why_tests_cant": "Iff over all pairs.", "anchors": ["nephosem/core/vocab.py:Vocab.equal"]}
{"id": "C24", "title": "Dict to sparse matrix and back is the identity on cells", "statement": "Building a matrix from a nested dict of counts with given row and column items, then converting it back, gives for every (row item, column item) the count of the original (0 where absent).", "quantifier": "every nested dict with at least one entry, every duplicate-free row and column item lists covering it", "why_tests_cant": "Index arithmetic over arbitrary item lists.", "anchors": ["nephosem/specutils/mxutils.py:transform_dict_to_spmatrix", "nephosem/specutils/mxutils.py:transform_spmatrix_to_dict"]}
{"id": "C25", "title": "submatrix selects the right cells", "statement": "m.submatrix(row, col) has the requested items in the requested order and, for every retained pair of items, the value m had for that pair.", "quantifier": "every matrix and row/column item lists present in it", "why_tests_cant": "Item/index bookkeeping over arbitrary permutations/subsets.", "anchors": ["nephosem/core/matrix.py:TypeTokenMatrix.submatrix", "nephosem/core/matrix.py:SparseMatrix.submatrix"]}
{"id": "C26", "title": "Reordering and transposing only rename", "statement": "reorder(item_list, axis) keeps the value of every pair of items; transpose swaps the roles of rows and columns for every pair of items and is an involution.", "quantifier": "every matrix, every permutation of its items", "why_tests_cant": "All permutations.", "anchors": ["nephosem/core/matrix.py:TypeTokenMatrix.reorder", "nephosem/core/matrix.py:reorder_matrix", "nephosem/core/matrix.py:TypeTokenMatrix.transpose"]}
{"id": "C27", "title": "Merging two matrices adds cells", "statement": "merge_two_matrices(a,b) has the rows of a and b, as columns the union of their column items, each once (sorted, or in the common order when they coincide), and for every pair of items the value a+b (absent = 0); hence merging is commutative and associative on cells.", "quantifier": "every two row-major (csr) matrices with duplicate-free items and the same row items", "why_tests_cant": "CSR index re-mapping over arbitrary item orders.", "anchors": ["nephosem/specutils/mxutils.py:merge_two_matrices", "nephosem/specutils/mxutils.py:transform_indices"]}
{"id": "C28", "title": "Merging several matrices adds cells whatever the layout branch", "statement": "merge_matrices(list) yields for every pair of items the sum over the list of the cell values, both when all items coincide (direct sum) and when they differ (dictionary merge).", "quantifier": "every non-empty list of matrices that has a stored cell or all of whose items coincide", "why_tests_cant": "All lists and item layouts, two code paths that must agree.", "anchors": ["nephosem/specutils/mxutils.py:merge_matrices", "nephosem/specutils/mxutils.py:merge_matrix_dict", "nephosem/core/matrix.py:TypeTokenMatrix.merge"]}
{"id": "C29", "title": "drop keeps exactly the rows or columns with enough non-zero cells", "statement": "m.drop(axis, n_nonzero) removes exactly the rows (columns) with at most n_nonzero non-zero cells and keeps the others in order with unchanged cells; nothing is returned when none is left.", "quantifier": "every matrix that does not have exactly one row (column), every threshold", "why_tests_cant": "All matrices/thresholds.", "anchors": ["nephosem/core/matrix.py:TypeTokenMatrix.drop", "nephosem/core/matrix.py:TypeTokenMatrix.drop_empty", "nephosem/core/matrix.py:TypeTokenMatrix.count_nonzero"]}
{"id": "C30", "title": "Element-wise multiplication and comparison masks", "statement": "m.multiply(m2) multiplies cell by cell; m > k as a mask followed by multiply keeps exactly the cells > k; sparse comparisons agree with the dense comparison on every cell.", "quantifier": "every sparse matrix including explicitly stored zeros, every threshold incl. negative", "why_tests_cant": "Stored vs non-stored zeros and sign of the threshold multiply the cases.", "anchors": ["nephosem/core/matrix.py:SparseMatrix.multiply", "nephosem/core/matrix.py:SparseMatrix.__gt__", "nephosem/core/matrix.py:SparseMatrix._operator_positive"]}
{"id": "C31", "title": "Marginal sums are consistent", "statement": "The sum over row sums equals the sum over column sums equals the sum of all cells, and each reported marginal is the sum of that row's/column's cells, keyed by its item.", "quantifier": "every matrix; the reported marginals: every matrix that does not have exactly one row (column)", "why_tests_cant": "Universally quantified double-sum identity.", "anchors": ["nephosem/core/matrix.py:TypeTokenMatrix.sum"]}
{"id": "C32", "title": "Matrix save/load is lossless", "statement": "load(save(m)) returns a matrix with the same row items, column items and cells as m, for every matrix m however it was produced (including by transpose).", "quantifier": "every sparse matrix, every previous content of the directory", "why_tests_cant": "Depends on storage layout (csr/csc) and the stale files around.", "anchors": ["nephosem/core/matrix.py:TypeTokenMatrix.save", "nephosem/core/matrix.py:TypeTokenMatrix.load"]}
{"id": "C33", "title": "A crash while saving never yields a wrong matrix", "statement": "If saving is interrupted at any point, a later load of the same path returns either an error, the previously saved matrix or the new one; never a mixture of metadata of one and data of another.", "quantifier": "every crash point between file system operations, every previous content", "why_tests_cant": "Crash points must be enumerated over all prior states.", "anchors": ["nephosem/core/matrix.py:TypeTokenMatrix.save", "nephosem/core/matrix.py:TypeTokenMatrix.load"]}
{"id": "C34", "title": "most_similar returns nearest neighbours", "statement": "most_similar(item, k) never contains the item itself, and no item left out (other than the item itself) has a strictly smaller distance than a returned one.", "quantifier": "every square matrix, item and k, every tie-breaking of the partial sort", "why_tests_cant": "All matrices and tie patterns.", "anchors": ["nephosem/core/matrix.py:SquareMatrix.most_similar", "nephosem/specutils/mxutils.py:get_smallest_k", "nephosem/specutils/mxutils.py:get_largest_k"]}
{"id": "C35", "title": "Contingency table is consistent", "statement": "For each stored cell the four counts used for association scores add up to N, have the row and column marginals as sums, and are all non-negative whenever the matrix is part of marginals that bound it (cell <= row, cell <= col, row+col-cell <= N).", "quantifier": "every matrix, marginals and N", "why_tests_cant": "Arithmetic identity over all inputs.", "anchors": ["nephosem/specutils/mxcalc.py:calc_association", "nephosem/specutils/mxcalc.py:compute_association"]}
{"id": "C36", "title": "Association scores are attached to the right cells", "statement": "compute_association returns, for every pair of items with a stored count, the measure applied to that pair's contingency table, and zero cells elsewhere, whatever the order of items in the marginal vocabularies.", "quantifier": "every matrix, marginals given in any order", "why_tests_cant": "Permutation of marginals over all matrices.", "anchors": ["nephosem/specutils/mxcalc.py:compute_association", "nephosem/specutils/mxcalc.py:calc_association"]}
{"id": "C37", "title": "PPMI is non-negative and equals positive part of PMI", "statement": "compute_ppmi stores max(0, ln(c*N/(R*C))) for each stored cell, so a cell is positive iff the observed count exceeds the expected count, and all values are >= 0.", "quantifier": "every positive counts and marginals", "why_tests_cant": "Real-valued identity over all counts.", "anchors": ["nephosem/specutils/mxcalc.py:compute_ppmi", "nephosem/specutils/mxcalc.py:calc_ppmi"]}
{"id": "C38", "title": "The two PPMI implementations agree", "statement": "compute_ppmi and compute_association(meas='ppmi') differ by at most 1e-9 on every cell when given the same total.", "quantifier": "all positive counts and marginals", "why_tests_cant": "Universally quantified real inequality about the adjustment constant.", "anchors": ["nephosem/specutils/mxcalc.py:compute_ppmi", "nephosem/specutils/mxcalc.py:calc_pmi", "nephosem/specutils/mxcalc.py:adjust_val"]}
{"id": "C39", "title": "Association measures are bounded", "statement": "Dice lies in [0,1], Delta-P in [-1,1], chi-square is non-negative and zero iff observed equals expected, and log-likelihood is non-negative, for every valid contingency table.", "quantifier": "every contingency table with non-negative entries and positive margins", "why_tests_cant": "Real inequalities over all tables.", "anchors": ["nephosem/specutils/mxcalc.py:calc_dice", "nephosem/specutils/mxcalc.py:calc_deltap", "nephosem/specutils/mxcalc.py:calc_chisq", "nephosem/specutils/mxcalc.py:calc_lik"]}
{"id": "C40", "title": "PMI ranks cells of a row by conditional probability", "statement": "PMI is symmetric in target and context, and for fixed marginals strictly increasing in the count.", "quantifier": "all tables", "why_tests_cant": "Real inequalities over all tables.", "anchors": ["nephosem/specutils/mxcalc.py:calc_pmi"]}
{"id": "C41", "title": "Similarity ranks are permutations consistent with similarity", "statement": "In every row of compute_simrank the ranks are a permutation of 1..n and a strictly more similar item has a strictly smaller rank.", "quantifier": "every similarity matrix, every tie-breaking of the sort", "why_tests_cant": "All matrices and tie-breaks.", "anchors": ["nephosem/specutils/mxcalc.py:compute_simrank"]}
{"id": "C42", "title": "Cosine similarity is symmetric, bounded, with unit diagonal", "statement": "compute_cosine returns a symmetric matrix with entries in [-1,1], diagonal 1, and invariant under positive scaling of rows; a matrix without rows or columns raises ValueError.", "quantifier": "every real matrix with non-zero rows", "why_tests_cant": "Cauchy-Schwarz over all vectors and dimensions.", "anchors": ["nephosem/specutils/mxcalc.py:compute_cosine"]}
{"id": "C43", "title": "Token weights are the weights of the token's own type, masked", "statement": "compute_token_weights gives token i and context c the weight of (type of token i, c) if c occurs in the token's context and 0 otherwise; tokens of unknown types get zero rows.", "quantifier": "every token matrix and weight matrix with the same columns, every set of tokens", "why_tests_cant": "Item lookup over all item lists.", "anchors": ["nephosem/specutils/mxcalc.py:compute_token_weights"]}
{"id": "C44", "title": "Token vectors by addition are weighted sums", "statement": "compute_token_vectors(operation='addition') gives for token i and feature f the sum over context words c of weight(i,c)*soc(c,f), regardless of the order in which the second matrix lists its rows; mismatching item sets raise, and so does normalisation without tokens or features.", "quantifier": "every two matrices whose items are permutations of each other", "why_tests_cant": "All permutations and sizes.", "anchors": ["nephosem/specutils/mxcalc.py:compute_token_vectors", "nephosem/specutils/mxcalc.py:dot_addition"]}
{"id": "C45", "title": "Token vectors by multiplication are weighted products", "statement": "compute_token_vectors(operation='multiplication') gives for token i and feature f the product of weight(i,c)*soc(c,f) over context words c with both non-zero.", "quantifier": "every two matrices", "why_tests_cant": "All matrices.", "anchors": ["nephosem/specutils/mxcalc.py:dot_multiplication"]}
{"id": "C46", "title": "Dependency matches are sound", "statement": "Every match recorded by matching a sentence tree with a pattern tree maps every pattern node to a sentence node satisfying the node's constraints and every pattern edge to a sentence edge satisfying the edge's constraints, injectively.", "quantifier": "every sentence tree, every pattern tree, every node and edge predicate", "why_tests_cant": "All trees.", "anchors": ["nephosem/specutils/deputils.py:tree_match", "nephosem/specutils/deputils.py:subtree_match", "nephosem/specutils/deputils.py:match_level", "nephosem/specutils/deputils.py:match_successors"]}
{"id": "C47", "title": "Dependency matches are complete", "statement": "Every such embedding of the pattern tree into the sentence tree is recorded.", "quantifier": "every sentence tree, every pattern tree, every node and edge predicate", "why_tests_cant": "All trees.", "anchors": ["nephosem/specutils/deputils.py:tree_match", "nephosem/specutils/deputils.py:subtree_match", "nephosem/specutils/deputils.py:match_level", "nephosem/specutils/deputils.py:match_successors"]}
{"id": "C48", "title": "Each dependency match is recorded once", "statement": "No embedding is recorded twice.", "quantifier": "every sentence tree, every pattern tree", "why_tests_cant": "All trees.", "anchors": ["nephosem/specutils/deputils.py:subtree_match", "nephosem/specutils/deputils.py:match_successors"]}
{"id": "C49", "title": "Target-feature counts equal the number of matches", "statement": "In the matrix built from matches the cell (target, feature) is exactly the number of recorded matches with that target and feature, over all macros, and the result does not depend on how files are spread over workers.", "quantifier": "every set of macros with matches, every schedule", "why_tests_cant": "All match lists / schedules.", "anchors": ["nephosem/models/deprel.py:DepRelHandler.build_matrix_by_matches", "nephosem/models/deprel.py:DepRelHandler._process_results"]}
{"id": "C50", "title": "No target list means all targets", "statement": "With targets=None every match is counted; with a target list exactly the matches whose target is in the list are.", "quantifier": "every sentence and macro", "why_tests_cant": "All matches.", "anchors": ["nephosem/models/deprel.py:DepRelHandler.__init__", "nephosem/models/deprel.py:DepRelHandler._do_process_job", "nephosem/specutils/deputils.py:add_match"]}
{"id": "C51", "title": "Sentence segmentation loses no line", "statement": "Reading sentences from a file yields, in order and with their line numbers, exactly the matching lines grouped by separators.", "quantifier": "every file content and separator/matcher", "why_tests_cant": "All files.", "anchors": ["nephosem/models/deprel.py:read_sentence"]}
{"id": "C52", "title": "Linear patterns are recognised exactly", "statement": "islinear answers True exactly for tree patterns that are simple paths.", "quantifier": "every tree pattern", "why_tests_cant": "All trees.", "anchors": ["nephosem/core/graph.py:PatternGraph.islinear"]}
{"id": "C53", "title": "Condensed distance indexing is a bijection", "statement": "For n items the condensed index of pairs i>j is a bijection onto 0..n(n-1)/2-1 and the item count recovered from the length is n.", "quantifier": "every n and pair", "why_tests_cant": "All n.", "anchors": ["nephosem/models/cbc.py:square_to_condensed", "nephosem/models/cbc.py:average_similarity"]}
{"id": "C54", "title": "Merged committees partition the input", "statement": "Merging similar committees never loses or invents elements: the union of merged committees equals the union of the input committees.", "quantifier": "every committee list and similarity matrix", "why_tests_cant": "All inputs.", "anchors": ["nephosem/models/cbc.py:get_merged_committee"]}
{"id": "C55", "title": "Cleaning clusters keeps minimal clusters only", "statement": "After cleaning no kept cluster strictly contains another kept cluster, no cluster is kept twice, and every removed non-singleton cluster contains a kept one.", "quantifier": "every list of scored clusters", "why_tests_cant": "All families of sets.", "anchors": ["nephosem/models/cbc.py:clean_clusters", "nephosem/models/cbc.py:remove_duplicate", "nephosem/models/cbc.py:remove_superset", "nephosem/models/cbc.py:remove_singleton"]}
{"id": "C56", "title": "The clustering loop terminates with nested residues", "statement": "CBC.cluster terminates for every step function, and the residue lists strictly shrink at each iteration.", "quantifier": "every major-step function returning a subset of residues, every limit", "why_tests_cant": "Termination for all behaviours.", "anchors": ["nephosem/models/cbc.py:CBC.cluster"]}
{"id": "C57", "title": "Residues are exactly the elements far from every committee", "statement": "An element is a residue of an iteration iff its similarity to every committee is below the threshold; otherwise it is assigned to a committee.", "quantifier": "all similarity values and thresholds", "why_tests_cant": "All inputs.", "anchors": ["nephosem/models/cbc.py:cbc_step3"]}
{"id": "C58", "title": "Parallel first clustering step equals the sequential one", "statement": "The clusters found by the multi-core first step are, as a collection, those found by the single core step, for any assignment of tasks to pool processes.", "quantifier": "every number of cores, assignment of tasks to processes", "why_tests_cant": "All schedules.", "anchors": ["nephosem/models/cbc.py:cbc_step1_multicore", "nephosem/models/cbc.py:cbc_step1_call", "nephosem/models/cbc.py:cbc_step1_single"]}
{"id": "C59", "title": "Configuration override", "statement": "update_config(file) returns for every option the file's value if the file sets it (the last section setting it wins) and the default otherwise, and does not modify the defaults.", "quantifier": "every default settings and every file", "why_tests_cant": "All configurations.", "anchors": ["nephosem/conf.py:ConfigLoader.update_config", "nephosem/conf.py:ConfigLoader.load_config", "nephosem/conf.py:ConfigLoader.settings"]}
{"id": "C60", "title": "File name lists are read faithfully", "statement": "Reading a list of file names returns the lines stripped, joined to the directory, in file order, skipping those filtered out, none twice or lost.", "quantifier": "every file list", "why_tests_cant": "All contents.", "anchors": ["nephosem/utils.py:read_fnames", "nephosem/utils.py:read_fnames_of_corpus", "nephosem/core/handler.py:BaseHandler.prepare_fnames"]}
{"id": "C61", "title": "Reading a vocabulary never changes it", "statement": "Looking up an item of a Vocab (vocab[item]) leaves its length, its items and all its frequencies unchanged, whether or not the item is present.", "quantifier": "every vocabulary, every item", "why_tests_cant": "Must hold for every way of building the vocabulary and every absent item; a test on one kind of dict misses the others.", "anchors": ["nephosem/core/vocab.py:Vocab.__getitem__", "nephosem/core/vocab.py:Vocab._construct"]}
{"id": "C62", "title": "select_items(word) returns exactly the items of that word", "statement": "vocab.select_items(word) contains an item iff the vocabulary contains it and the part of the item before its last '/' (the whole item when it has none) is word; frequencies are kept.", "quantifier": "every vocabulary, every word, every item string", "why_tests_cant": "Ranges over all strings, including words that contain '/' themselves.", "anchors": ["nephosem/core/vocab.py:Vocab.select_items"]}
{"id": "C63", "title": "Retrieving tokens twice with the same handler gives the same tokens", "statement": "Calling retrieve_tokens a second time on the same TokenHandler with the same files returns, for every query type, the same tokens as the first call.", "quantifier": "every corpus, every set of queries, every number of workers that process at least one file each", "why_tests_cant": "Depends on state kept in the handler between calls for every corpus and every distribution of files over workers.", "anchors": ["nephosem/models/typetoken.py:TokenHandler.retrieve_tokens", "nephosem/models/typetoken.py:TokenHandler._do_process_job"]}
{"id": "C64", "title": "A failing file never yields an incomplete result", "statement": "When some corpus file cannot be opened or decoded, build_item_freq and retrieve_tokens never return counts or tokens that silently leave that file out: a call that returns has processed every file.", "quantifier": "every number of workers, list of files of which any may fail, interleavings", "why_tests_cant": "Which results reach the reader depends on the schedule and on where the failing worker stood.", "anchors": ["nephosem/core/handler.py:Paralleler.process", "nephosem/models/typetoken.py:ItemFreqHandler._worker_loop", "nephosem/models/typetoken.py:TokenHandler._worker_loop", "nephosem/models/typetoken.py:TokenHandler._process_results"]}
{"id": "C65", "title": "A handler has at least one worker and its calls return", "statement": "Whatever number of workers is requested, on every machine the handler starts at least one worker (and fewer than the number of processors), so build_item_freq on readable files returns.", "quantifier": "every processor count, requested number of workers, list of readable files, interleavings", "why_tests_cant": "A test runs on one machine with one processor count.", "anchors": ["nephosem/core/handler.py:Paralleler.__init__", "nephosem/core/handler.py:Paralleler.process"]}
{"id": "C66", "title": "Matrices without counts can be built and merged", "statement": "Building a matrix from a dict that holds no count gives a matrix of zeros, and merging matrices never fails whatever their cells.", "quantifier": "every dict without counts, every list of matrices", "why_tests_cant": "Needs the empty corner of each operation.", "anchors": ["nephosem/specutils/mxutils.py:transform_dict_to_spmatrix", "nephosem/specutils/mxutils.py:merge_matrices"]}
{"id": "C67", "title": "Merging two matrices works for all rows and storage orders", "statement": "merge_two_matrices(a,b) adds the values of every pair of items also when the row items differ or a matrix was obtained by transposing.", "quantifier": "every two matrices with duplicate-free items", "why_tests_cant": "The failing inputs depend on the storage order, which is invisible in the printed matrix.", "anchors": ["nephosem/specutils/mxutils.py:merge_two_matrices", "nephosem/specutils/mxutils.py:transform_indices"]}
{"id": "C68", "title": "equal decides equality of items and cells", "statement": "a.equal(b) is True exactly when both have the same row items, column items and values.", "quantifier": "every two sparse matrices, including explicitly stored zeros", "why_tests_cant": "All pairs of matrices and storage layouts.", "anchors": ["nephosem/core/matrix.py:TypeTokenMatrix.equal", "nephosem/core/matrix.py:SparseMatrix.equal"]}
{"id": "C69", "title": "drop_empty removes exactly the empty rows or columns", "statement": "drop_empty(axis, explicit) returns the matrix without its empty rows (columns), in order and with unchanged cells; with explicit=True rows holding only explicit zeros count as empty, otherwise only rows with nothing stored.", "quantifier": "every sparse matrix, both axes, both values of explicit", "why_tests_cant": "All patterns of stored and unstored zeros.", "anchors": ["nephosem/core/matrix.py:TypeTokenMatrix.drop_empty", "nephosem/core/matrix.py:TypeTokenMatrix.drop_empty_rows", "nephosem/core/matrix.py:SparseMatrix.empty_rows"]}
{"id": "C70", "title": "most_similar returns exactly k items", "statement": "most_similar(item, k) returns k items whenever the matrix has more than k.", "quantifier": "every square matrix, item, k and every tie-breaking of the partial sort", "why_tests_cant": "Which of the tied elements a partial sort selects is not specified.", "anchors": ["nephosem/core/matrix.py:TypeTokenMatrix.most_similar", "nephosem/core/matrix.py:SquareMatrix.most_similar"]}
{"id": "C71", "title": "concatenate stacks rows", "statement": "a.concatenate(b) has the rows of a followed by those of b, the same columns, and the value of every pair of items. (Cells and items; what can be done with the result is C167.)", "quantifier": "every two matrices with equal column lists and disjoint duplicate-free rows, both storage orders", "why_tests_cant": "All matrices and storage orders.", "anchors": ["nephosem/core/matrix.py:TypeTokenMatrix.concatenate", "nephosem/core/matrix.py:SparseMatrix.concatenate"]}
{"id": "C72", "title": "Number types in a count dict do not matter", "statement": "Building a matrix from a nested dict keeps every value, whatever mixture of bool, int and float it holds.", "quantifier": "every nested dict of numbers", "why_tests_cant": "The result depends on the type of the first value in sorted order.", "anchors": ["nephosem/specutils/mxutils.py:transform_dict_to_spmatrix"]}
{"id": "C73", "title": "Saving and loading leave other files alone", "statement": "save(name, pack=True) writes only name.pac and load(name) changes no file: files that were in the directory before are still there with the same content.", "quantifier": "every matrix, every previous content of the directory", "why_tests_cant": "Depends on which other files happen to be in the directory.", "anchors": ["nephosem/core/matrix.py:TypeTokenMatrix.save", "nephosem/core/matrix.py:TypeTokenMatrix.load"]}
{"id": "C74", "title": "A packed matrix can be renamed", "statement": "After renaming or moving a .pac file, loading the new path gives the matrix saved, and never another one.", "quantifier": "every matrix, old and new name, content of the directory", "why_tests_cant": "Depends on names inside the archive and on other files around.", "anchors": ["nephosem/core/matrix.py:TypeTokenMatrix.save", "nephosem/core/matrix.py:TypeTokenMatrix.load"]}
{"id": "C75", "title": "Unreadable file during co-occurrence counting", "statement": "If a corpus file cannot be opened or decoded while build_col_freq runs, the call still returns a matrix without any error: it holds exactly the counts of the files taken by workers that did not die; everything a dead worker had counted before is lost. In particular the counts of readable files are not always included.", "quantifier": "every list of files with any subset failing, number of workers, interleaving, vocabularies made from dicts", "why_tests_cant": "needs a failing file and control over which worker takes which file; the result looks like a normal matrix", "anchors": ["nephosem/models/typetoken.py:ColFreqHandler._worker_loop_with_colvocab", "nephosem/models/typetoken.py:ColFreqHandler._worker_loop_without_colvocab", "nephosem/models/typetoken.py:ColFreqHandler._process_results"]}
{"id": "C76", "title": "Vocabularies filled with increment() are not filters", "statement": "build_col_freq called with a row (or column) vocabulary that was filled by increment() counts exactly the wanted items. (False: the vocabulary does not filter; a worker that meets a pair of items which is not in the vocabularies raises KeyError when it makes its matrix, and all counts of that worker are silently lost.) For vocabularies of any kind and files that can all be read: a worker dies if and only if such a pair occurs in the files it took, the result holds exactly the counts of the files of the other workers, and without such a pair it holds the counts of the whole corpus.", "quantifier": "every vocabulary, corpus, number of workers, interleaving", "why_tests_cant": "vocabularies in tests are always made from dicts or files", "anchors": ["nephosem/core/vocab.py:Vocab.increment", "nephosem/models/typetoken.py:ColFreqHandler.update_one_match", "nephosem/models/typetoken.py:ColFreqHandler.dict2matrix"]}
{"id": "C77", "title": "compute_ppmi works with its documented defaults", "statement": "compute_ppmi(freq, nfreq=None, cfreq=None) gives the PPMI matrix computed from the marginals of freq itself. (False: without nfreq it raises AttributeError, and without cfreq it raises IndexError on a matrix with a single column.)", "quantifier": "every frequency matrix, with or without each marginal vocabulary", "why_tests_cant": "Existing calls always pass both vocabularies, so the default path is never run; whether it can ever succeed is a statement about all matrices.", "anchors": ["nephosem/specutils/mxcalc.py:compute_ppmi"]}
{"id": "C78", "title": "The sign of the z-score tells attraction from repulsion", "statement": "The z-score is positive exactly when the observed count exceeds the expected count and zero exactly when they are equal.", "quantifier": "every contingency table of non-negative reals with positive marginals", "why_tests_cant": "A sign statement over all real tables; tests compare a few values only.", "anchors": ["nephosem/specutils/mxcalc.py:calc_zscore"]}
{"id": "C79", "title": "The sign of the log ratio tells attraction from repulsion", "statement": "The log ratio is positive exactly when the target's relative frequency among the collocate's contexts exceeds the one elsewhere. (False for collocates seen with the target only, which always score just below zero, whatever their count.)", "quantifier": "every contingency table of non-negative reals with positive marginals", "why_tests_cant": "Needs an infinite family of tables, and the failing ones need a zero count where the smoothing of one ratio dominates.", "anchors": ["nephosem/specutils/mxcalc.py:calc_log_ratio", "nephosem/specutils/mxcalc.py:adjust_val"]}
{"id": "C80", "title": "Entropy bounds", "statement": "The entropy of a probability distribution is positive and at most the logarithm of the number of values plus 1.1e-10 (from smoothing).", "quantifier": "every list of non-negative reals with sum 1", "why_tests_cant": "An inequality over all distributions of all lengths (Gibbs' inequality).", "anchors": ["nephosem/specutils/mxcalc.py:entropy"]}
{"id": "C81", "title": "compute_simrank follows the documentation of reverse", "statement": "With reverse=True rank 1 is given to the most similar item of each row. (False: it goes to a least similar item; with reverse=False to a most similar one.)", "quantifier": "every array of similarities, any order of ties", "why_tests_cant": "Needs the relation between ranks and values for every array; tests use the default only.", "anchors": ["nephosem/specutils/mxcalc.py:compute_simrank"]}
{"id": "C82", "title": "Weighted means are means", "statement": "compute_token_vectors(operation='weightedmean') gives for each token and feature a value between the smallest and largest values of the token's context words. (False with weights of both signs: weights that cancel give plus or minus 1.8e308.)", "quantifier": "every pair of matrices with the same intermediate items, every token and feature", "why_tests_cant": "The failing inputs need weights that cancel; the bound is a statement over all reals.", "anchors": ["nephosem/specutils/mxcalc.py:compute_token_vectors"]}
{"id": "C83", "title": "Cosine distance is one minus cosine similarity", "statement": "compute_distance(metric='cosine') gives 1 - compute_cosine for every pair of items, values in [0,2], symmetric, zero diagonal; a metric that is not in the list raises NotImplementedError, a matrix without rows or columns ValueError.", "quantifier": "every matrix, both axes, every metric name", "why_tests_cant": "Relates two public functions on all matrices.", "anchors": ["nephosem/specutils/mxcalc.py:compute_distance", "nephosem/specutils/mxcalc.py:compute_cosine"]}
{"id": "C84", "title": "A file with an empty sentence does not stop a corpus from being counted", "statement": "Whatever the text of the corpus files, build_dependency returns: two sentence separators in a row, or lines between separators that do not match the line pattern, add nothing to the counts and the other sentences are counted.", "quantifier": "all corpora, patterns, target lists, worker counts and interleavings", "why_tests_cant": "blank sentences depend on the corpus layout; the failure is a dead worker process and a call that never returns, which only shows for particular line sequences", "anchors": ["nephosem/models/deprel.py:read_sentence", "nephosem/models/deprel.py:DepRelHandler._do_process_job", "nephosem/core/graph.py:SentenceGraph.__init__"]}
{"id": "C85", "title": "Building dependencies twice counts every match once", "statement": "Calling build_dependency a second time on the same handler gives the counts of the matches of the second call (or of both calls together), never a multiple of the earlier matches depending on the number of files.", "quantifier": "all corpora, patterns, file numbers and interleavings of both calls", "why_tests_cant": "the multiple depends on the number of files and only shows on a second call; one-file, one-call tests see correct counts", "anchors": ["nephosem/models/deprel.py:DepRelHandler.build_dependency", "nephosem/models/deprel.py:DepRelHandler._process_results"]}
{"id": "C86", "title": "Full-path features tell different contexts apart", "statement": "With the whole pattern as feature (feature_idx = -1), two matches of a pattern whose non-target nodes have different attribute values get different features.", "quantifier": "all patterns, sentences and matches", "why_tests_cant": "which pattern node has id 1 depends on how the template was written; the loss only shows for patterns with the target at node 1", "anchors": ["nephosem/core/graph.py:MacroGraph.feature_full", "nephosem/core/graph.py:MacroGraph.preorder_recur"]}
{"id": "C87", "title": "Exactly the sentences that form a tree are searched", "statement": "A sentence whose lines have distinct ids is searched for matches exactly if all its words hang, through their heads, below one root; the others are skipped.", "quantifier": "all sentences, with any ids and heads, including cycles, several roots and heads that are not in the sentence", "why_tests_cant": "cyclic or disconnected head structures are rare parser errors, and there are unboundedly many shapes of them", "anchors": ["nephosem/core/graph.py:SentenceGraph.build_graph", "nephosem/core/graph.py:DiGraph.istree", "nephosem/specutils/deputils.py:tree_match"]}
{"id": "C88", "title": "Clusters of an element partition its neighbours", "statement": "cluster_similar_elements returns non-empty clusters in which every one of the element's k nearest neighbours occurs exactly once.", "quantifier": "every distance matrix, element, k, threshold and score metric", "why_tests_cant": "No test covers all distance matrices and cluster labels.", "anchors": ["nephosem/models/cbc.py:cluster_similar_elements", "nephosem/models/cbc.py:hierarchical_cluster", "nephosem/models/cbc.py:sub2glb"]}
{"id": "C89", "title": "The highest scoring cluster", "statement": "With highest_score the result is one of the clusters returned without it, with the highest score.", "quantifier": "every distance matrix, element, threshold and score metric", "why_tests_cant": "The failing case needs neighbours that do not cluster at all.", "anchors": ["nephosem/models/cbc.py:score_cluster"]}
{"id": "C90", "title": "Committees are merged with the most similar one", "statement": "Each committee is merged with the most similar committee not merged yet if their similarity is at least theta1, and left alone only if there is none.", "quantifier": "every similarity matrix and threshold", "why_tests_cant": "The fault shows only with the right number of committees and similarities.", "anchors": ["nephosem/models/cbc.py:get_merged_committee"]}
{"id": "C91", "title": "No element disappears from the clustering", "statement": "Every element is in a committee of some recursion or among the last residues.", "quantifier": "all matrices, elements and thresholds", "why_tests_cant": "A failing recursion is only logged, and nothing compares input and output.", "anchors": ["nephosem/models/cbc.py:CBC.cluster", "nephosem/models/cbc.py:major_steps"]}
{"id": "C92", "title": "Committees and residues consist of given elements", "statement": "The committees and residues of a recursion contain only elements of that recursion, and the residues keep their order.", "quantifier": "all matrices, elements, thresholds and clusters", "why_tests_cant": "No test covers all clusters found by step 1.", "anchors": ["nephosem/models/cbc.py:major_steps", "nephosem/models/cbc.py:cbc_step2"]}
{"id": "C93", "title": "Cleaning keeps every element", "statement": "Every element of a cluster is in a cluster or among the singletons after cleaning.", "quantifier": "every list of scored clusters", "why_tests_cant": "The loss needs three clusters of a particular shape.", "anchors": ["nephosem/models/cbc.py:clean_clusters", "nephosem/models/cbc.py:remove_singleton", "nephosem/models/cbc.py:remove_superset"]}
{"id": "C94", "title": "Elements are judged by their own vectors", "statement": "The similarity of an element to a committee is computed from the element's row of the matrix, whatever the order of the elements given.", "quantifier": "every order of elements and rows", "why_tests_cant": "Tests use the row items themselves as elements.", "anchors": ["nephosem/models/cbc.py:CBC.__init__", "nephosem/models/cbc.py:major_steps", "nephosem/models/cbc.py:cbc_step3"]}
{"id": "C95", "title": "Both pruning methods work with the default threshold", "statement": "CBC with prune_method minsize and otherwise default parameters finds the clusters. Refuted: comparing the number of elements with the string 'median' is a TypeError for every element, and step 1 returns no clusters. With a number, minsize cuts at the distance of the first merge that gives a cluster of at least that size; with a string, distance cuts at the mean, the median or a percentile of the merge distances.", "quantifier": "every distance matrix and element", "why_tests_cant": "The exception is caught and logged for every element.", "anchors": ["nephosem/models/cbc.py:flat_cluster", "nephosem/models/cbc.py:cbc_step1_single"]}
{"id": "C96", "title": "Scores of clusters", "statement": "The score of a cluster of several elements is the mean similarity over its pairs, multiplied by its size or its root as the metric says; for one element it is -1.", "quantifier": "every distance matrix, cluster and metric", "why_tests_cant": "The positions of pairs in condensed distances depend on the number of neighbours.", "anchors": ["nephosem/models/cbc.py:score_cluster", "nephosem/models/cbc.py:cluster_avgsim", "nephosem/models/cbc.py:average_similarity"]}
{"id": "C97", "title": "A missing configuration file is an error", "statement": "update_config(file) of a file that cannot be opened raises an error instead of returning the defaults.", "quantifier": "every default settings and every file name", "why_tests_cant": "A test with existing files cannot show it.", "anchors": ["nephosem/conf.py:ConfigLoader.load_config", "nephosem/conf.py:ConfigLoader.update_config"]}
{"id": "C98", "title": "The separator expression set by the user is the one used", "statement": "With boundary-detection-mechanism 'single', exactly the lines matching the expression under single-boundary-machine (or, if it is absent, under separator-line-machine) are separators.", "quantifier": "all settings and lines", "why_tests_cant": "Default settings give both keys the same value, so tests with them pass.", "anchors": ["nephosem/core/terms.py:CorpusFormatter.__init__", "nephosem/core/terms.py:CorpusFormatter.separator_line_machine"]}
{"id": "C99", "title": "Columns of a line", "statement": "Types, collocates and tokens are the slash-joined contents of the columns named in their formats, tokens followed by file and line; get(column) is the content of the column, and naming an unknown column is an error.", "quantifier": "all settings, formats and lines", "why_tests_cant": "All formats and column orders.", "anchors": ["nephosem/core/terms.py:CorpusFormatter.get", "nephosem/core/terms.py:CorpusFormatter.get_type", "nephosem/core/terms.py:CorpusFormatter.get_colloc", "nephosem/core/terms.py:CorpusFormatter.get_token"]}
{"id": "C100", "title": "Every accepted formatter can read every file", "statement": "If a formatter is constructed, then each line of any file is classified as a match, a separator or neither, without an error.", "quantifier": "all settings, files and regular expressions", "why_tests_cant": "All settings; tests only use one mechanism.", "anchors": ["nephosem/core/terms.py:CorpusFormatter.match_line", "nephosem/core/terms.py:CorpusFormatter.separator_line_machine", "nephosem/core/handler.py:BaseHandler.update_one_file"]}
{"id": "C101", "title": "Constructing a formatter leaves the settings alone", "statement": "CorpusFormatter(settings) does not change settings.", "quantifier": "all settings", "why_tests_cant": "Aliasing shows only in later calls.", "anchors": ["nephosem/core/terms.py:CorpusFormatter.__init__"]}
{"id": "C102", "title": "Temporary directory", "statement": "A handler can be constructed from settings without paths; its temporary directory is under tmp-path if set, else under output-path/tmp if output-path is set, else under ~/tmp.", "quantifier": "all settings", "why_tests_cant": "Combinations of settings.", "anchors": ["nephosem/core/handler.py:BaseHandler.__init__"]}
{"id": "C103", "title": "Constructing a handler removes no files of the user", "statement": "Constructing a handler removes only files that the library created.", "quantifier": "all settings and file systems", "why_tests_cant": "Depends on the state of the file system.", "anchors": ["nephosem/core/handler.py:Paralleler.__init__", "nephosem/utils.py:clean_dir"]}
{"id": "C104", "title": "The files of a corpus directory", "statement": "read_fnames_of_corpus(path) lists each file below path exactly once, directories in alphabetical order, in an order that does not depend on the listing order of the system; a path that does not exist is an error.", "quantifier": "all directory trees and listing orders", "why_tests_cant": "Listing orders differ between machines.", "anchors": ["nephosem/utils.py:read_fnames_of_corpus", "nephosem/core/handler.py:BaseHandler.prepare_fnames"]}
{"id": "C105", "title": "File identifiers in tokens are unique", "statement": "Different files of a corpus give different file identifiers in token strings.", "quantifier": "all pairs of file names", "why_tests_cant": "All pairs of names.", "anchors": ["nephosem/core/handler.py:BaseHandler.update_one_file"]}
{"id": "C106", "title": "A dense array can be wrapped", "statement": "TypeTokenMatrix(array, row_items, col_items) succeeds exactly when the lengths of the item lists are the shape of the array, and holds its cells under these items.", "quantifier": "all arrays of finite numbers and all item lists", "why_tests_cant": "Whether it fails depends on the cell values: only an array that is symmetric within a tolerance fails.", "anchors": ["nephosem/core/matrix.py:TypeTokenMatrix.__init__", "nephosem/core/matrix.py:check_symmetric"]}
{"id": "C107", "title": "submatrix of a dense matrix selects the right cells", "statement": "On a dense matrix, submatrix(row, col) with at least one list naming existing items returns the matrix of those items, in the given order, with their cells.", "quantifier": "all dense matrices with distinct items and all request lists", "why_tests_cant": "Failures depend on the values of the selected cells.", "anchors": ["nephosem/core/matrix.py:TypeTokenMatrix.submatrix", "nephosem/core/matrix.py:NormalMatrix.submatrix", "nephosem/core/matrix.py:SquareMatrix.submatrix"]}
{"id": "C108", "title": "Dense and sparse form give the same results", "statement": "For a sparse matrix and the dense matrix todense() of it, submatrix, transpose, reorder, sum, indexing, equal, multiply and comparison give matrices with the same items and cells.", "quantifier": "all sparse matrices with distinct items and all arguments", "why_tests_cant": "Pairs of implementations over all inputs.", "anchors": ["nephosem/core/matrix.py:TypeTokenMatrix.todense", "nephosem/core/matrix.py:NormalMatrix.multiply", "nephosem/core/matrix.py:NormalMatrix.__lt__", "nephosem/core/matrix.py:SparseMatrix.multiply", "nephosem/core/matrix.py:SparseMatrix.__lt__"]}
{"id": "C109", "title": "A dense matrix can be transposed", "statement": "transpose() of a dense matrix swaps rows and columns, and twice gives the matrix back.", "quantifier": "all dense matrices", "why_tests_cant": "Near-symmetric values are needed to see the failure.", "anchors": ["nephosem/core/matrix.py:TypeTokenMatrix.transpose", "nephosem/core/matrix.py:NormalMatrix.transpose", "nephosem/core/matrix.py:SquareMatrix.transpose"]}
{"id": "C110", "title": "equal of dense matrices decides equality", "statement": "a.equal(b) of dense matrices is true exactly when the items and all cells are the same; it is reflexive and symmetric.", "quantifier": "all pairs of dense matrices", "why_tests_cant": "The tolerance is relative to one of the two.", "anchors": ["nephosem/core/matrix.py:TypeTokenMatrix.equal", "nephosem/core/matrix.py:NormalMatrix.equal", "nephosem/core/matrix.py:SquareMatrix.equal"]}
{"id": "C111", "title": "Masks of dense matrices", "statement": "m < k, m <= k, m > k and m >= k on a dense matrix return a matrix over the same items whose cells say which cells satisfy the comparison, zero cells and k = 0 included.", "quantifier": "all dense matrices and thresholds", "why_tests_cant": "The mask of a matrix that is not symmetric may be symmetric.", "anchors": ["nephosem/core/matrix.py:TypeTokenMatrix.__lt__", "nephosem/core/matrix.py:TypeTokenMatrix.__gt__", "nephosem/core/matrix.py:NormalMatrix.__lt__", "nephosem/core/matrix.py:SquareMatrix.__lt__"]}
{"id": "C112", "title": "Samples have the requested number of rows", "statement": "sample(p) returns p rows for a whole number p, or the fraction p of the rows (at least one), for 0 < p <= 1: rows of the matrix in their order with all their cells, distinct unless replace=True; other arguments are an error.", "quantifier": "all matrices, arguments and random draws", "why_tests_cant": "All random draws.", "anchors": ["nephosem/core/matrix.py:TypeTokenMatrix.sample"]}
{"id": "C113", "title": "Contexts of an item", "statement": "get_colloc_contexts(item) lists once each the columns with a non-zero value in the row of item, in any storage format; an unknown item is a KeyError.", "quantifier": "all sparse matrices with distinct items", "why_tests_cant": "Stored zeros and column formats.", "anchors": ["nephosem/core/matrix.py:TypeTokenMatrix.get_colloc_contexts", "nephosem/core/matrix.py:SparseMatrix.get_colloc_contexts"]}
{"id": "C114", "title": "Indexing by name and by number agree", "statement": "m[a, b] with names or ints gives the cell of the named row and column, ints counting from zero or backwards from the end; an unknown name is a KeyError, a number out of range or another key an error.", "quantifier": "all matrices with distinct items and all keys", "why_tests_cant": "All keys.", "anchors": ["nephosem/core/matrix.py:TypeTokenMatrix.__getitem__", "nephosem/core/matrix.py:TypeTokenMatrix._get_value"]}
{"id": "C115", "title": "Token matrix cells are positions", "statement": "transform_nodes_to_matrix gives one row per distinct token string and one column per collocate; the cell of a token and a collocate is the position of the collocate nearest to the target (negative on the left, positive on the right, counting from 1), and 0 if the collocate is not in its context.", "quantifier": "all dicts of type nodes and any order of the collocate set", "why_tests_cant": "Repeated collocates on both sides and any set order.", "anchors": ["nephosem/specutils/mxutils.py:transform_nodes_to_matrix", "nephosem/core/terms.py:ItemNode.to_colloc"]}
{"id": "C116", "title": "One row per occurrence", "statement": "retrieve_tokens returns a matrix with exactly one row for each occurrence of a query in the files.", "quantifier": "all corpora, queries, spans and vocabularies", "why_tests_cant": "Any number of files and occurrences; equal token strings.", "anchors": ["nephosem/models/typetoken.py:TokenHandler.retrieve_tokens", "nephosem/core/terms.py:TokenNode.__init__"]}
{"id": "C117", "title": "Cells are text distances", "statement": "The cell of an occurrence at place i of its segment and a collocate is j - i for the rightmost place j of the collocate within the spans, 0 when there is none.", "quantifier": "all corpora, queries, spans and vocabularies", "why_tests_cant": "All corpora and repetitions.", "anchors": ["nephosem/models/typetoken.py:TokenHandler.retrieve_tokens", "nephosem/models/typetoken.py:TokenHandler.update_one_match", "nephosem/specutils/mxutils.py:transform_nodes_to_matrix"]}
{"id": "C118", "title": "Token matrices can always be made", "statement": "transform_nodes_to_matrix succeeds for all printable tokens, with a matrix without columns when there is no collocate and without rows when there is no token.", "quantifier": "all dicts of type nodes", "why_tests_cant": "The failing inputs are empty results of queries, rarely tried.", "anchors": ["nephosem/specutils/mxutils.py:transform_nodes_to_matrix", "nephosem/specutils/mxutils.py:transform_dict_to_spmatrix"]}
{"id": "C119", "title": "Sampling tokens of a type", "statement": "TypeNode.sample(n) returns a node of the same type with n of its tokens (all of them if there are fewer), without repetition and in their order.", "quantifier": "all type nodes, n, methods and random choices", "why_tests_cant": "All random choices.", "anchors": ["nephosem/core/terms.py:TypeNode.sample"]}
{"id": "C120", "title": "Type nodes survive saving", "statement": "TypeNode.load after save returns a node with the same type and tokens.", "quantifier": "all type nodes", "why_tests_cant": "All nodes.", "anchors": ["nephosem/core/terms.py:TypeNode.save", "nephosem/core/terms.py:TypeNode.load", "nephosem/core/terms.py:TokenNode.json_data", "nephosem/core/terms.py:TokenNode.gen_token_from_json_data"]}
{"id": "C121", "title": "Tokens of concepts", "statement": "TokenVectorizer.retrieve_tokens returns for every concept the tokens of its variants.", "quantifier": "all corpora and concepts", "why_tests_cant": "It fails on every corpus in which the variants are found.", "anchors": ["nephosem/models/typetoken.py:TokenVectorizer.retrieve_tokens"]}
{"id": "C122", "title": "Two ways to a token matrix agree", "statement": "make_token_colloc and transform_nodes_to_matrix store the same position for each token and collocate when the spans cover the contexts.", "quantifier": "all type nodes, spans and vocabularies", "why_tests_cant": "Repeated collocates.", "anchors": ["nephosem/models/typetoken.py:read_token_colloc", "nephosem/models/typetoken.py:make_token_colloc", "nephosem/specutils/mxutils.py:transform_nodes_to_matrix"]}
{"id": "C123", "title": "fit counts every co-occurrence", "statement": "TypeVectorizer.fit without vocabularies yields the number of co-occurrences of each type and collocate of the files within the spans.", "quantifier": "all file contents, spans, formats, worker numbers and schedules of both pools", "why_tests_cant": "All interleavings of two pools.", "anchors": ["nephosem/models/typetoken.py:TypeVectorizer.fit", "nephosem/models/typetoken.py:ColFreqHandler.build_col_freq", "nephosem/models/typetoken.py:ItemFreqHandler.build_item_freq"]}
{"id": "C124", "title": "Reading word queries", "statement": "read_word_queries returns one query per line that is neither empty nor a comment: the word itself, or for a line with tabs the word of every corpus named and a default, the first word unless one is given.", "quantifier": "all texts and default keys", "why_tests_cant": "All texts.", "anchors": ["nephosem/utils.py:read_word_queries"]}
{"id": "C125", "title": "The word of a query", "statement": "get_word_str returns the word for the corpus, if a specific one is wanted and given, and the default word otherwise.", "quantifier": "all queries read from a file, corpora and keys", "why_tests_cant": "All texts and keys.", "anchors": ["nephosem/utils.py:get_word_str", "nephosem/utils.py:read_word_queries"]}
{"id": "C126", "title": "Matching items", "statement": "Vocab.match lists exactly the items (or frequencies) that match the pattern, once each, by falling frequency and then by name.", "quantifier": "all vocabularies and patterns", "why_tests_cant": "All vocabularies.", "anchors": ["nephosem/core/vocab.py:Vocab.match", "nephosem/core/vocab.py:Vocab.regex_item"]}
{"id": "C127", "title": "Type selection file", "statement": "Loading the file that make_type_file writes gives exactly the types of the list, each with its frequency, 0 for one that is not in the vocabulary.", "quantifier": "all vocabularies and lists of types", "why_tests_cant": "All strings, with quotes and control characters.", "anchors": ["nephosem/core/vocab.py:Vocab.make_type_file", "nephosem/utils.py:save_dict_json"]}
{"id": "C128", "title": "JSON frequency lists", "statement": "Vocab.load after Vocab.save in format json gives the same items, frequencies and order; a format that is not known is an error and changes no file.", "quantifier": "all vocabularies", "why_tests_cant": "All strings, with quotes and control characters.", "anchors": ["nephosem/core/vocab.py:Vocab.save", "nephosem/core/vocab.py:Vocab.load", "nephosem/utils.py:save_dict_json", "nephosem/utils.py:load_dict_json"]}
{"id": "C129", "title": "A cut-off file is noticed", "statement": "Loading a frequency list file of which the end is missing raises an error, in either format.", "quantifier": "all vocabularies and all places of the cut", "why_tests_cant": "All places of the cut.", "anchors": ["nephosem/core/vocab.py:Vocab.load", "nephosem/utils.py:load_dict_json", "nephosem/utils.py:load_dict_plain"]}
{"id": "C130", "title": "Concordances show the contexts", "statement": "save_concordance writes one line per token, from which the token, its collocates and the target can be read back.", "quantifier": "all type nodes and formats", "why_tests_cant": "All strings.", "anchors": ["nephosem/utils.py:save_concordance"]}
{"id": "C131", "title": "Selecting occurrences", "statement": "select_subsets selects for every word n different occurrences, numbered from 1, or all if there are not as many.", "quantifier": "all vocabularies, words, n, methods and random choices", "why_tests_cant": "It fails for every word.", "anchors": ["nephosem/core/vocab.py:Vocab.select_subsets"]}
{"id": "C132", "title": "Vocabularies compare equal", "statement": "A vocabulary == itself, != is the opposite of ==, and an attribute that does not exist is an AttributeError.", "quantifier": "all vocabularies and names", "why_tests_cant": "All vocabularies.", "anchors": ["nephosem/core/vocab.py:Vocab.__eq__", "nephosem/core/vocab.py:Vocab.__getattr__"]}
{"id": "C133", "title": "Parsing a pattern", "statement": "parse_pattern gives the target number 1 and every further label of the text the next number, in order, with an edge between it and the node before the arrow, directed by the arrow; every branch in brackets starts from that node.", "quantifier": "all pattern texts", "why_tests_cant": "All texts: labels, lengths and nestings without a limit.", "anchors": ["nephosem/specutils/deputils.py:parse_pattern", "nephosem/specutils/deputils.py:parse_sub", "nephosem/specutils/deputils.py:find_arrow"]}
{"id": "C134", "title": "Attributes of a pattern's nodes", "statement": "PatternGraph turns every part A?P<name>B of a label into the attribute name with the regular expression AB.", "quantifier": "all labels", "why_tests_cant": "All texts.", "anchors": ["nephosem/core/graph.py:PatternGraph.__init__"]}
{"id": "C135", "title": "Reading patterns from a table", "statement": "PatternGraph.read_csv returns for every row the graph that the row describes, with its attributes; MacroGraph.read_csv does the same for macros with target 1.", "quantifier": "all tables", "why_tests_cant": "All tables of any length.", "anchors": ["nephosem/core/graph.py:PatternGraph.read_csv", "nephosem/core/graph.py:MacroGraph.read_csv"]}
{"id": "C136", "title": "Reading macros", "statement": "MacroGraph.read_xml returns the macros of the document in order, each with its id, pattern, target and feature nodes and descriptions, and the groups of the attributes in the order of the format string.", "quantifier": "all documents of the documented form", "why_tests_cant": "All documents.", "anchors": ["nephosem/core/graph.py:MacroGraph.read_xml", "nephosem/core/graph.py:MacroGraph.parse_macro_xml"]}
{"id": "C137", "title": "Reading patterns from GraphML", "statement": "PatternGraph.read_graphml returns every graph of the file under its id; nodes and edges without a value for a key have the key's default.", "quantifier": "all files", "why_tests_cant": "All files with any number of graphs.", "anchors": ["nephosem/core/graph.py:PatternGraph.read_graphml"]}
{"id": "C138", "title": "Graph of a sentence", "statement": "Graph.build_graph_raw makes one node per token and one edge per dependency relation.", "quantifier": "all sentences", "why_tests_cant": "All sentences.", "anchors": ["nephosem/core/graph.py:Graph.build_graph_raw"]}
{"id": "C139", "title": "Matching paths", "statement": "Graph.match lists the node sequences of the graph that match the path; SentenceGraph.match_target_feature records the matches of the feature.", "quantifier": "all graphs and paths", "why_tests_cant": "It fails for every path with an edge.", "anchors": ["nephosem/core/graph.py:Graph.match", "nephosem/core/graph.py:SentenceGraph.match_target_feature", "nephosem/specutils/deputils.py:match_graph", "nephosem/specutils/deputils.py:match_path"]}
{"id": "C140", "title": "Token vectors of concepts", "statement": "TokenVectorizer.generate_vectors gives for every concept a matrix whose rows are exactly the tokens that have a collocate with a weight for their own variant (count, PPMI and log likelihood ratio above the cutoffs), whose columns are those of the frequency matrix, and whose rows are the l1-normalised sums of the PPMI rows of the token's collocates times their weights, with marginals of the whole frequency matrix.", "quantifier": "all frequency matrices with at least two rows and columns and no column with all counts, all non-negative frequency cutoffs and real PPMI and LLR cutoffs, all lists of concepts with distinct lemma/pos variants, all set orders", "why_tests_cant": "Every intermediate matrix depends on the data; sets are iterated in an order that differs between runs.", "anchors": ["nephosem/models/typetoken.py:TokenVectorizer.generate_vectors"]}
{"id": "C141", "title": "When token vectors exist", "statement": "For a table as in C140, generate_vectors succeeds if and only if for every concept some token has a weighted collocate of its own and every weighted collocate seen near a token is a row of the frequency matrix; otherwise the first concept that violates this stops the run with an error determined by the reason (AttributeError, ValueError or AssertionError).", "quantifier": "all tables, cutoffs, concepts and set orders as in C140", "why_tests_cant": "Six different failures at different points of a pipeline, for arbitrary data before and after the failing concept.", "anchors": ["nephosem/models/typetoken.py:TokenVectorizer.generate_vectors"]}
{"id": "C142", "title": "Frequency matrices that cannot be used", "statement": "With a frequency matrix of one row or one column generate_vectors raises TypeError; with a column that contains all counts it raises ZeroDivisionError, provided some count of a variant is above the cutoff.", "quantifier": "all such matrices, cutoffs, concepts and set orders", "why_tests_cant": "Degenerate tables of any size.", "anchors": ["nephosem/models/typetoken.py:TokenVectorizer.generate_vectors"]}
{"id": "C143", "title": "Weights of tokens", "statement": "build_tc_weight_matrix gives for every token the weights of its type for the contexts of the token, under the right labels, whatever the order of the columns; tokens without contexts get a row of zeros.", "quantifier": "all pairs of a position matrix and a weight matrix", "why_tests_cant": "All matrices, all type names with any number of slashes.", "anchors": ["nephosem/models/typetoken.py:build_tc_weight_matrix"]}
{"id": "C144", "title": "What a TypeToken model can do", "statement": "After any sequence of method calls a TypeToken object keeps the similarities it computed; of all its methods only compute_similarity, compute_distance and compute_simrank with a matrix passed to them return, all others raise whatever was called before; vocabulary, frequency, association, distance, token and weight attributes are never set.", "quantifier": "all sequences of method calls with all arguments", "why_tests_cant": "Sequences of calls of any length.", "anchors": ["nephosem/models/typetoken.py:TypeToken"]}
{"id": "C145", "title": "Name of the corpus", "statement": "A corpus name passed to TypeVectorizer, TokenVectorizer or TypeToken is used; without one the last part of the corpus path is used.", "quantifier": "all names and paths", "why_tests_cant": "All strings.", "anchors": ["nephosem/models/typetoken.py:TypeVectorizer.__init__", "nephosem/models/typetoken.py:TokenVectorizer.__init__", "nephosem/models/typetoken.py:TypeToken.__init__"]}
{"id": "C146", "title": "PPMI of one row against the rest", "statement": "calc_meas_vec(t, r, 'ppmi') returns, cell by cell, the positive pointwise mutual information of the two-row table with rows t and r; a table without counts gives NaN in every cell; every other value of meas gives zeros.", "quantifier": "all pairs of non-negative vectors of one length and all measure names", "why_tests_cant": "Real-valued vectors of any length; all names of measures.", "anchors": ["nephosem/models/cbc.py:calc_meas_vec"]}
{"id": "C147", "title": "Rows of the committee matrix", "statement": "Each row of calc_committee_vectors is the PPMI of the committee's mean row against the sum of the rows outside it; for a committee of one word it is the ordinary PPMI of that word; the order of the members does not matter; an empty committee or a number that is no row is an IndexError.", "quantifier": "all frequency tables and all lists of committees", "why_tests_cant": "Tables and committees of any size.", "anchors": ["nephosem/models/cbc.py:calc_committee_vectors", "nephosem/specutils/mxutils.py:centroid_of_cluster", "nephosem/specutils/mxutils.py:sum_of_cluster"]}
{"id": "C148", "title": "Committees kept by cbc_step3_old", "statement": "cbc_step3_old keeps exactly the committees whose cosine with every kept earlier committee is below theta, in order and with their vectors; an empty list of committees is a ValueError.", "quantifier": "all lists of committees, tables and thresholds", "why_tests_cant": "The greedy choice depends on all earlier choices; lists of any length.", "anchors": ["nephosem/models/cbc.py:cbc_step3_old"]}
{"id": "C149", "title": "Clusters of one level", "statement": "reverse(fcids, lid) maps (lid, c) to exactly the positions whose cluster number is c and has no other key: every position is in exactly one cluster.", "quantifier": "all lists of cluster numbers and levels", "why_tests_cant": "Lists of any length.", "anchors": ["nephosem/models/cbc.py:reverse"]}
{"id": "C150", "title": "The printed matrix", "statement": "print_matrix shows the shape, the first n_cols column items and the first n_rows rows with their items and the values of their cells (NaN where a sparse matrix stores nothing), and marks rows and columns that are left out with '...'; None stands for the standard amount of 7.", "quantifier": "all sparse and dense matrices and all limits that are not negative", "why_tests_cant": "Matrices and limits of any size; stored zeros against unstored cells.", "anchors": ["nephosem/core/matrix.py:TypeTokenMatrix.print_matrix", "nephosem/core/matrix.py:TypeTokenMatrix.__repr__"]}
{"id": "C151", "title": "The text of a Vocab", "statement": "repr of a Vocab with at most seven items shows all of them in order of insertion; of a larger one it shows the three most frequent and the three least frequent, items of one frequency in order of insertion.", "quantifier": "all vocabularies", "why_tests_cant": "Vocabularies of any size with any ties.", "anchors": ["nephosem/core/vocab.py:Vocab.__repr__"]}
{"id": "C152", "title": "Matrix written to CSV and read back", "statement": "read_csv of the file that to_csv wrote returns a matrix with the same items and cells.", "quantifier": "all matrices, texts of numbers and readers of numbers that undo each other", "why_tests_cant": "Matrices of any size; items of any text.", "anchors": ["nephosem/core/matrix.py:TypeTokenMatrix.to_csv", "nephosem/core/matrix.py:TypeTokenMatrix.read_csv", "nephosem/core/matrix.py:TypeTokenMatrix.from_dataframe"]}
{"id": "C153", "title": "Numbers of items", "statement": "item2rowid and item2colid contain exactly the items; the number of an item is its last position, and for distinct items the two maps between items and positions undo each other.", "quantifier": "all lists of items", "why_tests_cant": "Lists of any length with any repetitions.", "anchors": ["nephosem/core/matrix.py:TypeTokenMatrix.item2rowid", "nephosem/core/matrix.py:TypeTokenMatrix.item2colid"]}
{"id": "C154", "title": "Dropping zero rows and columns", "statement": "drop_zero_rows and drop_zero_cols remove exactly the rows and columns whose cells are all zero and keep the others in order with their cells.", "quantifier": "all sparse matrices", "why_tests_cant": "Matrices of any size; stored zeros; every storage format.", "anchors": ["nephosem/core/matrix.py:SparseMatrix.drop_zero_rows", "nephosem/core/matrix.py:SparseMatrix.drop_zero_cols", "nephosem/core/matrix.py:TypeTokenMatrix.drop_zero_rows", "nephosem/core/matrix.py:TypeTokenMatrix.describe", "nephosem/core/matrix.py:TypeTokenMatrix.spmatrix_to_dict"]}
{"id": "C155", "title": "Saved objects come back", "statement": "Loading what save wrote to a file name returns an object whose attributes, and those of the SaveLoad objects below it, are the ones that were saved, except that ignored attributes are None; large or listed arrays and sparse matrices are in files named after the attribute, and no other file changes.", "quantifier": "all trees of objects, limits, lists and file names (compressed or not)", "why_tests_cant": "Trees of any depth with any attributes; every combination of limits, lists and names.", "anchors": ["nephosem/utils.py:SaveLoad.save", "nephosem/utils.py:SaveLoad.load", "nephosem/utils.py:SaveLoad._save_specials", "nephosem/utils.py:SaveLoad._load_specials", "nephosem/utils.py:SaveLoad._adapt_by_suffix"]}
{"id": "C156", "title": "Saving keeps the object's attributes", "statement": "After save the object and all objects below it have the attributes they had before, whether or not saving succeeded.", "quantifier": "all heaps of objects (shared ones too), all failures of writing and pickling", "why_tests_cant": "Every point at which a write can fail in every nesting of objects.", "anchors": ["nephosem/utils.py:SaveLoad._smart_save", "nephosem/utils.py:SaveLoad._save_specials", "nephosem/utils.py:pickle"]}
{"id": "C157", "title": "Saving to an open file", "statement": "An object saved to an open file handle is loaded again with all its attributes from that one file.", "quantifier": "all heaps of objects", "why_tests_cant": "Heaps of any shape and any earlier calls.", "anchors": ["nephosem/utils.py:SaveLoad.save", "nephosem/utils.py:unpickle"]}
{"id": "C158", "title": "match_sub_template finds the occurrences of a feature from the target", "statement": "Called with a sentence node paired with the target node of a feature graph, match_sub_template records, for every occurrence of the feature in the sentence that maps the target to this node, the label of every image and the relation of every edge, once each.", "quantifier": "all sentence graphs, feature graphs and regular expressions, all starting pairs", "why_tests_cant": "Trees of any size; every way in which a feature can lie in a sentence.", "anchors": ["nephosem/core/graph.py:match_sub_template", "nephosem/core/graph.py:MacroGraph.add_match"]}
{"id": "C159", "title": "Printed graphs show their nodes and edges", "statement": "repr of a sentence graph is the words of its nodes in order, separated by blanks; repr of other graphs has one line for every node and one for every edge.", "quantifier": "all graphs with any attributes", "why_tests_cant": "Any numbering of the nodes and any attributes.", "anchors": ["nephosem/core/graph.py:SentenceGraph.__repr__", "nephosem/core/graph.py:DiGraph.__repr__"]}
{"id": "C160", "title": "Setting target and features of a macro, and old features", "statement": "set_feature marks all nodes but the target (as the filter says) and all edges as features, and set_target sets the target; the macro matches and reports its target as before. feature_old returns the string of a recorded match, as often as it is called.", "quantifier": "all macros, filters, sentences and recorded matches", "why_tests_cant": "Every pattern with every filter; matching on every sentence.", "anchors": ["nephosem/core/graph.py:MacroGraph.set_feature", "nephosem/core/graph.py:MacroGraph.set_target", "nephosem/core/graph.py:MacroGraph.feature_old"]}
{"id": "C161", "title": "Console and log file", "statement": "After nephosem has been imported and after any calls of the logging functions, setLevel, addHandler, removeHandler and change_log_file: a record is written to the console exactly when it reaches the level in force (that of its own logger, else of the logger 'nephosem', else WARNING) and DEBUG, with the prefix of its level; and a line with time, level and message is added to the log file in use exactly when it also reaches WARNING. Setting the level of the logger makes no difference to the log file.", "quantifier": "all histories of operations, records, levels, arguments, files that can or cannot be opened", "why_tests_cant": "the formatter keeps state between records and the level in force depends on the whole history; tests look at single messages", "anchors": ["nephosem/logging.py:DefaultFormatter", "nephosem/logging.py:DefaultFormatter.format", "nephosem/logging.py:init_logging"]}
{"id": "C162", "title": "Changing the log file", "statement": "change_log_file moves the log to the new file: from then on no other file grows, the console and the handlers added by users get what they got before, and a file that cannot be opened leaves the logger as it was.", "quantifier": "all histories of operations, all handlers attached at that time, files that can or cannot be opened", "why_tests_cant": "needs handlers added by the user, failing calls, and calls after failing calls", "anchors": ["nephosem/logging.py:change_log_file", "nephosem/logging.py:create_file_handler"]}
{"id": "C163", "title": "Vocabularies a ColFreqHandler works with", "statement": "A call of build_col_freq on a ColFreqHandler counts for the row and column vocabularies it is given, and for all collocates if no column vocabulary is given; whatever happened before, the result is the matrix of these counts.", "quantifier": "all histories of one handler: construction with or without vocabularies, calls with or without vocabularies, calls that fail, changes of the vocabularies by their owner; all corpora, numbers of workers and schedules", "why_tests_cant": "the vocabularies of earlier calls stay in the handler and an empty vocabulary counts as none; tests make one handler per call", "anchors": ["nephosem/core/typetoken.py:ColFreqHandler.__init__", "nephosem/core/typetoken.py:ColFreqHandler.build_col_freq"]}
{"id": "C164", "title": "Getter reads corpus lines", "statement": "A Getter made from settings gives, for a matched line, the word, lemma, part of speech, type and token with the groups that the settings name, joined by slashes; its properties are those of the last line; settings without the needed entries are refused.", "quantifier": "all settings, regular expressions, lines, matches with or without missing groups", "why_tests_cant": "needs all settings and all matches; the class has no tests", "anchors": ["nephosem/core/terms.py:Getter", "nephosem/core/terms.py:Getter.get_func", "nephosem/core/terms.py:Getter.get_item"]}
{"id": "C165", "title": "Sentences and found paths", "statement": "The content of a Sentence is the list of its lines that are no tags, in order. A Path holds the matches it was made with, followed by those added, in order, and no other list changes.", "quantifier": "all texts, lists of matches, sequences of additions, lists shared with the caller", "why_tests_cant": "sharing of lists and repeated parsing are not seen in single calls", "anchors": ["nephosem/core/terms.py:Sentence", "nephosem/core/terms.py:Path"]}
{"id": "C166", "title": "Square brackets on matrices", "statement": "m[a, b] gives the cells of the rows and columns that the keys select (an item, an int counted from the end if negative, or a slice), in order; m[a] gives whole rows; a matrix and todense() of it give the same cells or raise the same exception.", "quantifier": "all matrices, sparse in both storage orders or dense, all pairs of keys including unknown items, ints out of range, slices with any bounds", "why_tests_cant": "all combinations of keys and shapes; the dimensions of the result differ between sparse and dense matrices only for special shapes", "anchors": ["nephosem/core/matrix.py:TypeTokenMatrix._get_value", "nephosem/core/matrix.py:SparseMatrix._get_value", "nephosem/core/matrix.py:BaseMatrix.__getitem__"]}
{"id": "C167", "title": "Concatenated matrices", "statement": "Matrices with equal columns (rows) concatenated along axis 0 (1), any number of them, give a matrix with the items and the cells of all of them in order, whose total is the sum of their totals, and which can be indexed, cut and reordered as they could. reorder_matrix picks rows (columns) by position, empty_row_idx lists the rows without a value.", "quantifier": "all matrices in csr, csc or coordinate format, any number of matrices, both axes, all positions", "why_tests_cant": "the storage format of the result depends on all formats and the axis; tests concatenate along one axis only and look at values", "anchors": ["nephosem/core/matrix.py:TypeTokenMatrix.concatenate", "nephosem/core/matrix.py:SparseMatrix.concatenate", "nephosem/core/matrix.py:reorder_matrix", "nephosem/core/matrix.py:empty_row_idx"]}
{"id": "C168", "title": "calc_association with arguments left out", "statement": "calc_association(freqmx, nfreq, cfreq, N, meas) with all of nfreq, cfreq and N is what compute_association computes from. With nfreq and cfreq left out and N the total of the matrix, every stored cell (i, j) of a matrix with several rows and columns becomes the measure of the table (cell, other cells of its column, other cells of its row, all other cells), no other cells are stored, and the shape is kept. A matrix of one row (one column) without given row (column) frequencies gives IndexError as soon as something is stored. Without N every matrix with something stored fails: IndexError in those shapes, TypeError otherwise. A matrix with nothing stored gives a matrix of zeros of its shape; an unknown measure gives NotImplementedError whatever the matrix.", "quantifier": "every well-formed sparse matrix of counts, every measure, every choice of left-out arguments", "why_tests_cant": "The sums over the other rows and columns have to agree with the total minus marginals for all shapes and all sparsity patterns; tests call it with the full set of arguments.", "anchors": ["nephosem/specutils/mxcalc.py:calc_association"]}
{"id": "C169", "title": "Single tables, mutual information, CBC without measures, vectorize", "statement": "pairwise_association(table, meas) is the measure that calc_association uses for that name. calc_mi is the ideal pointwise mutual information divided by ln 2, while calc_pmi is the ideal value up to 22e-11; without co-occurrence calc_mi raises ValueError, without a margin ZeroDivisionError. CBC(elements, freqmx, measmx, distmx) keeps the given matrices, computes cosine distances of measmx if none are given, and uses the given number of workers if it is positive, one less than the processors otherwise. measmx is optional, and TypeVectorizer.vectorize gives vectors.", "quantifier": "every table of real numbers, every matrix, every number of workers and processors", "why_tests_cant": "Relates two implementations over all real tables; that a default argument can never work is a statement about all matrices.", "anchors": ["nephosem/specutils/mxcalc.py:pairwise_association", "nephosem/specutils/mxcalc.py:calc_mi", "nephosem/specutils/mxcalc.py:calc_distance", "nephosem/models/cbc.py:CBC.__init__", "nephosem/models/typetoken.py:TypeVectorizer.vectorize"]}
{"id": "C170", "title": "Matching of a labelled sentence with a feature", "statement": "SentenceGraph.match_feature(feature), for a sentence that is a tree and a feature made from a template that is a tree with node 1: every placement of the template in the sentence (nodes to different nodes with matching labels, edges to edges with matching relations) is recorded in matched_nodes and matched_edges, with the labels and relations of the sentence, exactly once, and nothing else. A sentence that is no tree is skipped. No placement makes it raise.", "quantifier": "every sentence read from lines or made from nodes and edges, every template and feature, every regular expression matcher", "why_tests_cant": "Completeness and uniqueness over all pairs of trees and all matchers; the tests of the module call the matcher without checking what it records.", "anchors": ["nephosem/deprel/basic.py:SentenceGraph.match_feature", "nephosem/deprel/basic.py:tree_match", "nephosem/deprel/basic.py:subtree_match", "nephosem/deprel/basic.py:match_level", "nephosem/deprel/basic.py:match_successors"]}
{"id": "C171", "title": "Sentences, templates and features of deprel/basic.py as built", "statement": "SentenceGraph(sentence=lines) has a node for every number of a token and of a head, the label lemma/tag of the last line of a number, an edge from head to dependent with the relation of the last such line; only heads without a line have no label. Lines without six columns are skipped; six columns without numbers in the fourth and fifth raise ValueError, as does a constructor without nodes and edges or lines. SentenceGraph and TemplateGraph of nodes and edges have those, edges numbered from 1. FeatureGraph(template, target, filter) has the structure, labels and relations of the template, marks the target 0 and other nodes as the filter says (1 by default), and takes every template.", "quantifier": "every list of lines, every dictionary of nodes and of edges, every template, target and filter", "why_tests_cant": "Repeated numbers, missing heads and malformed lines in every combination; tests read one well-formed sentence.", "anchors": ["nephosem/deprel/basic.py:SentenceGraph.__init__", "nephosem/deprel/basic.py:SentenceGraph.build_graph", "nephosem/deprel/basic.py:SentenceGraph.generate_graph", "nephosem/deprel/basic.py:TemplateGraph.__init__", "nephosem/deprel/basic.py:FeatureGraph.__init__", "nephosem/deprel/basic.py:FeatureGraph.set_feature"]}
{"id": "C172", "title": "Matching from the target finds the same", "statement": "SentenceGraph.match_target_feature(feature) records the same matches as match_feature, up to their order, and does not raise.", "quantifier": "every sentence that is a tree with labels, every feature that is a tree, every target", "why_tests_cant": "Two different algorithms have to agree on all pairs of trees.", "anchors": ["nephosem/deprel/basic.py:SentenceGraph.match_target_feature", "nephosem/deprel/basic.py:match_sub_template", "nephosem/deprel/basic.py:FeatureGraph.add_match"]}
{"id": "C173", "title": "Helpers of deprel/deputils.py", "statement": "split_large_file(filename) cuts the corpus into files of 100000 sentences and loses nothing. read_nodes(file) gives the two dictionaries name-to-id and id-to-name of a two-column file: the last line of a name and of an id counts, a one-to-one list gives inverse dictionaries, a line that does not have two columns raises ValueError. cartesian_product(mapping) lists every choice of one value per key exactly once, in the order of the values with the last key changing fastest. group((node, pairs)) collects the set of sentences of each path. process_sentence, judgeOut, judgeIn, judgeIn_v1 and outMap process their argument.", "quantifier": "every corpus, every list of nodes, every mapping and every list of pairs", "why_tests_cant": "Needs a corpus of over 100000 sentences to write even one file, and no test imports the module.", "anchors": ["nephosem/deprel/deputils.py:split_large_file", "nephosem/deprel/deputils.py:read_nodes", "nephosem/deprel/deputils.py:cartesian_product", "nephosem/deprel/deputils.py:process_sentence", "nephosem/deprel/deputils.py:judgeOut", "nephosem/deprel/deputils.py:judgeIn", "nephosem/deprel/deputils.py:judgeIn_v1", "nephosem/deprel/deputils.py:group", "nephosem/deprel/deputils.py:outMap"]}
{"id": "C174", "title": "The DepRelManager of deprel/dephandler.py", "statement": "read_template(fname) gives one template per line node:edge:...:node, which prints as the line; given features are stored; with neither it raises ValueError. build_dep_rel adds the matches of the corpus to the features. update_dep_rel_caller saves what a subprocess found, and merge_results adds all of it to the features, removes the files of the subprocesses and leaves those of the main process. process(fnames, queue_factor) processes every file in threads, for every interleaving, and its threads end.", "quantifier": "every template file, every list of features, every directory listing, every number of workers and queue factor, every interleaving of the threads", "why_tests_cant": "The interleavings and the blocking on a full queue depend on scheduling; the failures of the workers are silent or only logged.", "anchors": ["nephosem/deprel/dephandler.py:DepRelManager.read_template", "nephosem/deprel/dephandler.py:DepRelManager.read_features", "nephosem/deprel/dephandler.py:DepRelManager.process", "nephosem/deprel/dephandler.py:DepRelManager._worker_loop", "nephosem/deprel/dephandler.py:DepRelManager._job_producer", "nephosem/deprel/dephandler.py:DepRelManager.build_dep_rel", "nephosem/deprel/dephandler.py:DepRelManager.do_job_single", "nephosem/deprel/dephandler.py:DepRelManager.merge_results", "nephosem/deprel/dephandler.py:update_dep_rel_caller"]}
{"id": "C175", "title": "Multiplying matrices of different shapes", "statement": "mtx.multiply(other) on matrices without stored zeros multiplies cell by cell; a matrix with one row (one column) is used for every row (column), by position and whatever its item is, and any other difference of shape raises ValueError. With a stored zero in mtx the shape of other is not looked at: the cells of mtx at the positions stored in other are returned. So different items are not rejected.", "quantifier": "every pair of well formed matrices of any shape", "why_tests_cant": "The failing shapes are those no example of the library uses, and the result looks like a normal matrix.", "anchors": ["nephosem/core/matrix.py:SparseMatrix.multiply", "nephosem/core/matrix.py:TypeTokenMatrix.multiply"]}
{"id": "C176", "title": "Clustering with and without several processes", "statement": "CBC.cluster(multicore=True) returns the same committees and residues as CBC.cluster(multicore=False). True when there are at least two CPUs, every process takes at most one task and clusters of the same score have the same elements; with fewer elements than CPUs no process is used. False otherwise: the order in which clusters of equal score are met decides which are dropped, and with one CPU the multicore version fails.", "quantifier": "every cluster finder, similarity, threshold, number of CPUs, schedule of the pool and order of result files", "why_tests_cant": "Needs ties between scores together with a particular distribution of elements over processes.", "anchors": ["nephosem/models/cbc.py:major_steps", "nephosem/models/cbc.py:CBC.cluster", "nephosem/models/cbc.py:cbc_step1_multicore", "nephosem/models/cbc.py:clean_clusters", "nephosem/models/cbc.py:remove_duplicate"]}
{"id": "C177", "title": "Settings of CBC that have an effect", "statement": "k, theta1, theta2, prune_method, t and score_metric are the only settings that change the result; k of one or more is the number of similar elements, below one it is that share of the rows rounded down. highest_score=True should keep one cluster for each element, but it is not passed on.", "quantifier": "every setting, cluster finder and element list", "why_tests_cant": "A test with one setting cannot show that another one never matters.", "anchors": ["nephosem/models/cbc.py:major_steps", "nephosem/models/cbc.py:CBC.__init__", "nephosem/models/cbc.py:cbc_step1_single"]}
{"id": "C178", "title": "Directories made by several processes at once", "statement": "Any number of simultaneous calls of make_dir end after a bounded number of steps, lose no directory, make only the wanted directories and those above them, and every call that is over leaves its directory there. None raises if no wanted directory is another one or above another one; so the workers of a handler (subtmpdir, one per process number) never disturb each other though they all may have to make the same missing parent. Two calls for the same missing directory may raise FileExistsError.", "quantifier": "every file system, every list of wanted directories, every interleaving of the system calls", "why_tests_cant": "The failure needs one particular order of the system calls of two processes.", "anchors": ["nephosem/utils.py:make_dir", "nephosem/core/handler.py:Paralleler.__init__", "nephosem/core/handler.py:Paralleler.subtmpdir"]}
{"id": "C179", "title": "Programs that use the library at the same time", "statement": "The main process reads back the file its worker saved whatever other programs that use the library do. True exactly when no handler is constructed between the making of the worker's directory and the reading of the file, or the tmp-path of the settings is not below ~/tmp: constructing any handler empties ~/tmp.", "quantifier": "every interleaving of any number of runs, every temporary directory and every file content", "why_tests_cant": "A test starts one program at a time.", "anchors": ["nephosem/core/handler.py:Paralleler.__init__", "nephosem/core/handler.py:Paralleler.subtmpdir", "nephosem/utils.py:clean_dir"]}
{"id": "C180", "title": "File sizes in words", "statement": "sizeof_fmt shows a size in the largest unit of which it is at least one (Y above that), rounded to the nearest tenth with half tenths to the even one; the text determines the number and the unit, and a larger size is never shown as a smaller one. The number shown should be below 1024, but 1048575 gives 1024.0KB.", "quantifier": "every size that is a whole number and every suffix", "why_tests_cant": "Errors sit at the borders of the units and at exact half tenths.", "anchors": ["nephosem/utils.py:sizeof_fmt", "nephosem/utils.py:sizeof"]}
{"id": "C181", "title": "The collocates of a type", "statement": "TypeNode.get_collocs returns every left and right collocate of every token and nothing else, each object once. Collocates with the same word, lemma and part of speech should be one collocate, but every appearance is counted.", "quantifier": "every list of tokens and every sharing of collocate objects between them", "why_tests_cant": "Tests with one token or with different words cannot tell objects from their content.", "anchors": ["nephosem/core/terms.py:TypeNode.get_collocs", "nephosem/core/terms.py:TypeNode.collocs"]}
{"id": "C182", "title": "The scores of a corpus", "statement": "Counting a corpus with ColFreqHandler.build_col_freq, making vocabularies from freqMTX.sum(axis=1) and freqMTX.sum(axis=0) and calling compute_ppmi (or compute_association with any measure), as in docs/tutorials/all-in-one.ipynb, gives each pair of a row item t and a column item c the textbook score of the numbers of (target, line in its window) pairs of the corpus: n(t,c), n(t,any), n(any,c), n(any,any). PPMI of compute_ppmi is exact, that of compute_association differs by at most 22e-11, and every other measure is evaluated on that 2x2 table. The program ends with AttributeError if the corpus has no such pair, and with TypeError if the matrix has a single row or a single column.", "quantifier": "for all corpora, matchers, separators, spans, row vocabularies with items, column vocabularies with items or none, numbers of workers and schedules, and all measures", "why_tests_cant": "The tests score one hand-made matrix with given marginals; they never run from text to scores, so nothing ties the numbers in a score to pairs of lines, and no test looks at a matrix with one row or one column or at a corpus without pairs.", "anchors": ["nephosem/models/typetoken.py:ColFreqHandler.build_col_freq", "nephosem/core/matrix.py:TypeTokenMatrix.sum", "nephosem/specutils/mxcalc.py:compute_ppmi", "nephosem/specutils/mxcalc.py:compute_association"]}
{"id": "C183", "title": "Copies of a corpus do not change PPMI", "statement": "Counting the files of a corpus k times over, in any order, with any number of workers and any schedule, multiplies all counts by k and leaves every PPMI value of compute_ppmi as it is, and the error the same if there is one. The values of compute_association stay within 44e-11 of each other but are not equal: the smoothing replaces an expected count of exactly 1.", "quantifier": "for all corpora, k >= 1, orders of files, vocabularies, spans, workers and schedules", "why_tests_cant": "A metamorphic relation over whole corpora: a test fixes one corpus and one number of copies, and the smoothing shows only where an expected count is exactly 1.", "anchors": ["nephosem/models/typetoken.py:ColFreqHandler.build_col_freq", "nephosem/specutils/mxcalc.py:compute_ppmi", "nephosem/specutils/mxcalc.py:adjust_val"]}
{"id": "C184", "title": "Counts of two corpora add up", "statement": "The matrix of the files of two corpora together holds in each cell the sum of the cells of the two matrices; it has the same rows, and as columns those of either; build_col_freq returns None for the two together exactly when it does for both.", "quantifier": "for all pairs of corpora, vocabularies, spans, workers and schedules of the three runs", "why_tests_cant": "Tests count one small corpus; additivity over all splits of all corpora, under three independent schedules, is not something examples can cover.", "anchors": ["nephosem/models/typetoken.py:ColFreqHandler.build_col_freq", "nephosem/core/matrix.py:TypeTokenMatrix.merge"]}
{"id": "C185", "title": "A corpus read backwards", "statement": "Reversing the lines of every file and exchanging left-span and right-span gives the same co-occurrence matrix.", "quantifier": "for all corpora, vocabularies, spans, workers and schedules", "why_tests_cant": "The relation holds for most corpora and breaks only for segments of 2 to max(left-span, right-span) tokens, in which the last token is not a target; no test has such a pair of corpora.", "anchors": ["nephosem/models/typetoken.py:ColFreqHandler.build_col_freq", "nephosem/models/typetoken.py:ColFreqHandler.update_one_file"]}
{"id": "C186", "title": "Token vectors of the tutorial: values and failures", "statement": "For any frequency matrix with at least two rows, two columns and a positive count, and any token matrix, the steps of docs/tutorials/all-in-one.ipynb (submatrix and drop, compute_association, compute_token_weights, submatrix and drop, compute_token_vectors with 'weightedmean') either give a matrix with the rows of the token matrix and the columns with information about some context word, whose cell for a token of type s is the sum of ppmi(s, c) * ppmi(c, f) over the context words c of the token divided by the sum over all f; or raise an exception, and exactly when: AttributeError if no query is a row or no context word a column, IndexError if there is one such context word only, AttributeError if no context word is counted with a query, ValueError if some are and some are not, AttributeError or ValueError if none or only some of them are rows, AssertionError if no context word has any association, ValueError if there are no tokens. The cosine distances of the vectors lie between 0 and 1.", "quantifier": "for all frequency matrices, token matrices and lists of queries", "why_tests_cant": "The notebook runs once on one corpus where all goes well; the eight ways to fail depend on how the vocabularies of three matrices overlap, and the value of a cell on five calls in a row.", "anchors": ["nephosem/specutils/mxcalc.py:compute_token_vectors", "nephosem/specutils/mxcalc.py:compute_token_weights", "nephosem/specutils/mxcalc.py:compute_association", "nephosem/core/matrix.py:TypeTokenMatrix.submatrix", "nephosem/core/matrix.py:TypeTokenMatrix.drop", "nephosem/specutils/mxcalc.py:compute_distance"]}
{"id": "C187", "title": "Token vectors of a corpus", "statement": "Counting a corpus, retrieving the tokens of some queries from the same corpus and computing vectors as in the tutorial gives one vector for each occurrence of a query: the sum of the PPMI rows of the words in its window, each times its PPMI with the query, divided by the total; PPMI is that of the numbers of pairs of lines of the corpus. This needs two different context words, vocabularies that cover the corpus, and segments longer than the right span: with a shorter one (its last line is a token but is never counted) the program can end in ValueError.", "quantifier": "for all corpora, matchers, separators, spans, vocabularies, queries, workers and schedules", "why_tests_cant": "From text to vectors there are two handlers, a pool of workers and seven matrix operations; tests look at single steps with prepared matrices, and never at two handlers reading the same segment differently.", "anchors": ["nephosem/models/typetoken.py:ColFreqHandler.build_col_freq", "nephosem/models/typetoken.py:TokenHandler.retrieve_tokens", "nephosem/specutils/mxcalc.py:compute_token_weights", "nephosem/specutils/mxcalc.py:compute_token_vectors"]}
{"id": "C188", "title": "The normalised weighted mean is the normalised sum", "statement": "compute_token_vectors with operation='weightedmean' and normalization 'l1' (the default), 'l2' or 'max' returns the same matrix as with operation='addition' whenever no weight is negative: dividing by the sum of the weights cancels out. With negative weights a row is multiplied by the sign of the sum of its weights (so vectors can point the other way); with normalization='no' it is divided by that sum.", "quantifier": "for all weight matrices, all second matrices and all three norms", "why_tests_cant": "The tests compare each operation with numbers of its own; that two options coincide for all inputs, except for negative weights, is a relation between runs.", "anchors": ["nephosem/specutils/mxcalc.py:compute_token_vectors"]}
{"id": "C189", "title": "Exchanging targets and collocates transposes the matrix", "statement": "For a row and a column vocabulary with items, exchanging the vocabularies, the formats of targets and collocates and the left and right span makes build_col_freq return the transpose of the matrix, and compute_ppmi on it the transposed scores (the same error if it fails). In particular the matrix of a vocabulary with itself, with equal spans, is symmetric, and so are its scores. This holds when no segment has 2 to max(left span, right span) tokens, and is false otherwise.", "quantifier": "for all corpora, pairs of vocabularies, formats, spans, numbers of workers and schedules", "why_tests_cant": "Relates two runs over every corpus; one segment at most as long as the span is enough to break the symmetry, and test corpora rarely have any.", "anchors": ["nephosem/models/typetoken.py:ColFreqHandler.build_col_freq", "nephosem/models/typetoken.py:ColFreqHandler.update_one_match", "nephosem/specutils/mxcalc.py:compute_ppmi"]}
{"id": "C190", "title": "A smaller vocabulary selects cells", "statement": "If every row item and every column of one run is an item of another run on the same corpus, build_col_freq gives the same counts for the items of the smaller run, and nothing else is counted. The scores of compute_ppmi with marginals from the matrices are not the same, because the counts of other items are no longer part of the totals.", "quantifier": "for all corpora, vocabularies included in each other, formats, spans, numbers of workers and schedules", "why_tests_cant": "Two runs with different vocabularies are compared cell by cell, for every corpus; a test fixes one vocabulary.", "anchors": ["nephosem/models/typetoken.py:ColFreqHandler.build_col_freq", "nephosem/models/typetoken.py:ColFreqHandler.update_one_match", "nephosem/core/matrix.py:TypeTokenMatrix.sum"]}
{"id": "C191", "title": "Names of items do not matter", "statement": "If types and collocates are written in another way, different ones differently (another separator, a part of speech written out), and the vocabularies are rewritten accordingly, build_col_freq gives the same matrix under the new names, and compute_ppmi the same scores, or the same error. The order of rows and columns follows the new names.", "quantifier": "for all corpora, vocabularies, injective renamings of types and of collocates, spans, numbers of workers and schedules", "why_tests_cant": "Equivariance under every injective renaming cannot be sampled; a dependence on particular characters would show for few names.", "anchors": ["nephosem/models/typetoken.py:ColFreqHandler.build_col_freq", "nephosem/models/typetoken.py:ColFreqHandler.update_one_match", "nephosem/specutils/mxcalc.py:compute_ppmi"]}
{"id": "C192", "title": "Left and right windows add up", "statement": "Without segments of 2 to right-span tokens, the counts with spans (l, r) are the sums of those with spans (l, 0) and (0, r). A wider left span never makes a count smaller. A wider right span does not either if it makes no segment short; in general it can, and the sum fails, because the last token of a short segment is no target.", "quantifier": "for all corpora, vocabularies, formats, spans, numbers of workers and schedules", "why_tests_cant": "A relation between runs with different settings over every corpus; the exception needs a segment not longer than the right span.", "anchors": ["nephosem/models/typetoken.py:ColFreqHandler.build_col_freq", "nephosem/models/typetoken.py:ColFreqHandler.update_one_match"]}
{"id": "C193", "title": "Copies of vocabularies", "statement": "A Vocab can be copied and pickled: Vocab.copy, Vocab.deepcopy, get_dict, copy.deepcopy and pickle give the same items and frequencies, and so do copies of objects that hold a Vocab.", "quantifier": "for all vocabularies and all objects that hold one at any depth", "why_tests_cant": "Every vocabulary and every nesting of lists, dicts and instances around it.", "anchors": ["nephosem/core/vocab.py:Vocab.__getattr__", "nephosem/core/vocab.py:Vocab.copy", "nephosem/core/vocab.py:Vocab.deepcopy", "nephosem/core/vocab.py:Vocab.get_dict", "nephosem/core/vocab.py:Vocab.isEmpty", "nephosem/core/vocab.py:Vocab.setFILTER"]}
{"id": "C194", "title": "Templates of a dependency handler", "statement": "read_templates stores copies of the given macros without their matches, whatever their target filters, or the macros of the file; ValueError if neither is given. Every job works on copies whose filter is the handler's targets, and its results reach the parent process.", "quantifier": "for all lists of macros, filters, files and targets", "why_tests_cant": "All macros and filters; the deletion of the filter before the result is sent matters only when a Vocab is inside.", "anchors": ["nephosem/models/deprel.py:DepRelHandler.read_templates", "nephosem/models/deprel.py:DepRelHandler._do_process_job", "nephosem/models/deprel.py:DepRelHandler._worker_loop"]}
