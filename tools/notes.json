{
 "C22": "Refuted in general by a witness (item with a tab); the round trip is characterised exactly: it is lossless iff every item is non-empty, does not start with white space and holds no tab or line boundary.",
 "C61": "Refuted for vocabularies built from a defaultdict (a failed lookup inserts the item with frequency 0); proved for all others, with the exact effect in the defaultdict case.",
 "not_applicable": {},
 "C04": "Refuted: in a segment of n tokens with 2 <= n <= right span, the last token is never processed as target word. Proved: counts are exact for all other segments, and never exceed the specification for any segment.",
 "C06": "Refuted for short segments (see C04); symmetric when no segment has between 2 and right-span tokens.",
 "C12": "Refuted: one file and two workers, the idle worker's empty result is the only one read. Proved complete whenever every worker takes at least one file.",
 "C14": "Refuted: right span 0 and an empty segment raise IndexError. Proved to be the only failure.",
 "C63": "Refuted: a second call returns the earlier tokens once per worker plus the tokens of the files again; this multiplicity is proved exactly.",
 "C64": "Refuted for token retrieval (idle worker's result returned in place of the failed file's). Proved for item counting: the call never returns when a file fails.",
 "C65": "Refuted: one processor gives zero workers and build_item_freq blocks for ever. Proved for two or more processors.",
 "C30": "Refuted: with an explicit zero in the left matrix multiply acts as a mask; operands are combined by position whatever their items; comparisons that zero satisfies miss unstored cells; >= 0 and <= 0 raise. Proved: multiplication without explicit zeros, the exact mask of every comparison, masks applied to any matrix.",
 "C66": "Refuted: ValueError for a dict without counts and for merging matrices of zeros with different items; both characterised exactly.",
 "C67": "Refuted: different rows raise NotImplementedError; a transposed (csc) matrix is merged with its cells misplaced.",
 "C68": "Refuted: two matrices with equal cells, one with an explicit zero, are not equal. Proved: True implies equal cells; complete without explicit zeros.",
 "C69": "Refuted: the flag works opposite to its documentation, and dropping columns raises AttributeError when all are empty. Proved: the exact set dropped for both values of the flag and both axes.",
 "C70": "Refuted: with ties k+1 items may be returned. Proved: exactly k when the item is strictly closest to itself.",
 "C72": "Refuted: later floats are truncated when the first value is an int; boolean values turn indices into 0/1. Proved for dicts of one type other than bool.",
 "C32": "Refuted: a transposed (csc) square matrix is read back with cells exchanged; a stale .npz hides a saved array; an unpacked name ending in .pac. Proved for all other saves, with the exact result for csc matrices.",
 "C33": "Refuted: unpacked saves mix new items with old cells; a packed sparse matrix replacing an array mixes old items with new cells. Proved for all other packed saves at every crash point.",
 "C73": "Refuted: the user's name.meta is deleted by saving and by loading. Proved: exactly which files a packed save touches, and that loading changes nothing when no such files exist.",
 "C74": "Refuted: a renamed file fails to load, or loads another matrix found under the new name. Proved for moving to another directory under the same name.",
 "C75": "C75_survivors characterises the result for every execution; the wish that readable files are all counted is refuted.",
 "C76": "Refuted by concrete executions for row and column vocabularies. C76_survivors and C76_exact hold for vocabularies of any kind: a worker dies if and only if it meets an unreadable file or a pair let through by the flags that is not in the vocabularies; the result holds the counts of the other workers, and of the whole corpus when there is no such pair.",
 "C38": "C38_ppmi_agree proves PPMI agreement within 2.2e-10 on all cells; plain PMI agrees for positive counts (partial), and is refuted for stored zeros where the two differ by more than 1.",
 "C39": "Dice, Delta-P, chi-square bounds proved in full. Log-likelihood: proved non-negative, zero iff independent, for positive tables (partial); refuted with zero cells at large counts because of smoothing.",
 "C40": "Symmetry proved. Strict increase proved for expected counts below 1e10; refuted at an expected count of 2e10 where the smoothing of exact ratio 1 breaks the order.",
 "C77": "Refuted: no nfreq always raises AttributeError (C77_no_row_marginals), one column and no cfreq always raises IndexError (C77_one_column).",
 "C79": "Proved when the second ratio is positive; C79_exclusive_collocate and the refutation cover collocates seen with the target only.",
 "C81": "Refuted; C81_rank_one states what rank 1 means for both values of the flag.",
 "C43": "Proved for tokens whose lemma and part of speech have no slash, and for lemma-only tokens; refuted for types with more than two slash-separated fields such as and/or/CC, whose rows become zero.",
 "C45": "Refuted: the condition is inverted. C45_all_or_nothing states the exact result: 0 or 1 before normalisation.",
 "C82": "Proved for non-negative weights that are not all zero, and zero rows; refuted for weights that cancel.",
 "C47": "Complete for patterns in which every node and every edge has at least one constraint. A pattern node or edge without constraints never matches (the empty dict of matches is false): C47_unconstrained_refuted.",
 "C50": "With a list: the matches kept are exactly those whose target's attribute values are in the list (C50_filter_partial), and the row label is that type when the representation groups are whole values (C50_label_partial). Missing/false: labels with shortened values are compared in full (C50_label_refuted); without a list the filter is an empty vocabulary and nothing is counted in any corpus (C50_none_refuted).",
 "C52": "Exact for connected patterns with two or more nodes, no loops, no node with id 0, at most three neighbours per node. For trees with any numbers of neighbours (C52_trees): the walk ends, paths are answered True, and False means a node with exactly three neighbours. Outside: a four-leaf star is answered True (C52_star_refuted), node id 0 and single nodes are answered False (C52_zero_refuted, C52_single_refuted), a circle with leaves is walked for ever (C52_circle_refuted).",
 "C84": "False: the worker that reads a file with an empty sentence dies with ValueError, and build_dependency blocks for every schedule.",
 "C85": "False: with F files the second call counts every earlier match 1+F times (C85_again_partial gives the exact counts); witness with one file and cell 1, then 3.",
 "C86": "False when the target is node 1 and a leaf: every match has the feature #T#. For patterns where no node has two dependents the feature is proved in full; for branching patterns only examples.",
 "C55": "C55_covers_partial needs different scores for different clusters; C55_covers_refuted: a cluster found twice with another of the same score in between is dropped altogether. The rest (no kept cluster contains another, none invented) is proved without conditions.",
 "C56": "The residue list of the last recursion may equal the one before (C56_shrinks_refuted), in which case the loop stops; all others are strictly shorter (C56_shrinks_partial). Termination, the bound on the number of recursions and independence of the limit are proved.",
 "C57": "Proved for step 3 when the elements are given in the order of the matrix rows (see C94); C57_assigned_refuted: the committees with the assigned elements are dropped by major_steps.",
 "C58": "Proved when no process takes two tasks; in general C58_exact states what is left and C58_same_iff when that is everything. C58_reused_refuted: a process that takes two tasks overwrites its first result file; C58_one_cpu_refuted: with one CPU the step raises ZeroDivisionError.",
 "C89": "Holds if some cluster of several elements has a positive score; C89_empty_refuted: otherwise the result is an empty cluster with score 0. major_steps never passes the option on.",
 "C90": "C90_best_partial: assuming each committee is strictly most similar to itself, the most similar free committee is taken, except that the least similar committee of all is never considered; C90_two_refuted: two committees are never merged.",
 "C91": "C91_failure_refuted: an exception in a recursion loses its elements; C91_nothing_refuted: finding no clusters is such an exception; C91_stranger_refuted: an element that is not a row of the matrices makes others be judged by no row; C57_assigned_refuted: elements assigned in step 3 are not returned. C91_accounted_partial: what a recursion returns otherwise.",
 "C93": "C93_lost_refuted and C93_second_refuted: two ways of losing an element; C93_singletons_partial characterises the singletons kept.",
 "C94": "C94_rows_partial gives the exact result for any order; C94_order_refuted: with another order elements are judged by other elements' rows. Equal order: C57.",
 "C95": "Refuted: comparing the number of elements with the string 'median' is a TypeError for every element, and step 1 returns no clusters.",
 "C59": "True with DEFAULT-section options counted as options of every section; refuted in the reading where only options written in a section count.",
 "C60": "read_fnames is faithful; prepare_fnames(str) is not: it passes the encoding as the directory.",
 "C97": "Refuted: the defaults are returned silently.",
 "C98": "Refuted: the two keys are swapped in the constructor. Proved instead which expression is used and when the constructor fails.",
 "C99": "Types, collocates and columns proved. The last two parts of the token format are dropped whatever they are (refuted), unknown columns give the whole line (refuted).",
 "C100": "Proved for a line-machine with mechanism 'single'; refuted for 'left-right' and for the type/colloc/token machines.",
 "C101": "Only the key colloc changes; refuted when it is absent.",
 "C102": "Proved with tmp-path; refuted without: KeyError with neither path, ~/tmp with output-path.",
 "C103": "Refuted: everything below ~/tmp is removed; proved that nothing else is. Failing removals are not modelled.",
 "C104": "Each file once and directory order proved; refuted that the order of files is independent of the listing, and that a missing path is an error.",
 "C105": "Partial: equal identifiers imply different extensions; refuted in general.",
 "C106": "Proved unless the array is symmetric within numpy's tolerances and the lists differ; refuted in general. Finite rational cells.",
 "C107": "Cells of a returned matrix proved in general; success proved unless the selection looks symmetric over different items or a SquareMatrix gets one list; refuted in general. SquareMatrix of one item with one list not modelled.",
 "C108": "todense, submatrix, transpose, reorder, sum, indexing and equal proved; multiply without stored zeros and comparisons that zero fails; refuted for the rest. Reordering by an empty list is an IndexError for the dense matrix only; C108_reorder_outcome says when the dense one can be reordered.",
 "C109": "Proved for every NormalMatrix; refuted for SquareMatrix, which includes tables that are only nearly symmetric.",
 "C110": "Proved for integer cells of up to five digits; refuted in general (not symmetric).",
 "C111": "Cells proved; success unless the mask looks symmetric over different items; refuted in general.",
 "C112": "Proved for whole numbers and 0 < p < 1 (exact product, no float rounding); refuted for 1.0 and for SquareMatrix.",
 "C113": "Stored columns proved; equals non-zero columns when no zero is stored; refuted with stored zeros.",
 "C115": "Cells proved to be the rightmost position; nearest refuted, and proved where the rightmost is the nearest.",
 "C116": "Proved for distinct file ids and token formats ending in fid/lid; refuted for files with the same id.",
 "C117": "Proved without column vocabulary; with one, positions among the kept collocates proved exactly and the distance refuted.",
 "C118": "Exact outcome proved: succeeds iff some remaining token has a collocate; refuted otherwise (ValueError).",
 "C119": "Proved for nodes made from a match with n not above the frequency; refuted for nodes made from strings and for larger n.",
 "C120": "Refuted for all nodes.",
 "C121": "Refuted: KeyError for every variant that is not itself a token string. Proved: the queries passed on are the variants of all concepts (C121_queries).",
 "C122": "Exact content of make_token_colloc proved; agreement proved without repeated collocates, refuted with them.",
 "C123": "Proved when types and collocates share their format, for all schedules; refuted otherwise.",
 "C124": "Refuted: a field whose word holds a colon is dropped silently, and a line with tabs but no field of the form name:word gives a query whose default is None. Proved: exactly what each line gives, for all texts.",
 "C125": "Refuted for the default value of def_key (KeyError for every dict query without the corpus). Proved for the key with which the queries were read.",
 "C126": "Refuted for column 'freq', which the documentation allows: TypeError for every vocabulary with items. Proved for column 'item'.",
 "C129": "Refuted for the plain format (cat 12 is read as cat 1 without error). Proved for json, for every cut. For the plain format it is proved that what is read is the first items of the file and at most one wrong frequency, made of the first digits of the right one; items must be savable (C22) and frequencies not negative.",
 "C130": "Refuted when a collocate holds a space. Proved when no string is empty or holds white space; the text itself is exact for all.",
 "C131": "Refuted: the class WordDict does not exist, NameError for every list that is not empty. Proved under the assumption that it does.",
 "C132": "Refuted: == with a vocabulary is None, != is always true, attributes that do not exist are None.",
 "C133": "Refuted: a blank between an arrow and a bracket, a list inside a list, the notation of the docstring. Proved for texts with any white space around labels, arrows and branches (but none between an arrow and a bracket), arrows in labels only inside brackets that are closed, and no commas inside the branches of a list.",
 "C134": "Refuted: labels without names are an error (the docstring's notation), three attributes are split wrongly. Proved for one or two parts whose name comes before every other >.",
 "C135": "Refuted for MacroGraph.read_csv, which fails for every table with a row. Proved for PatternGraph and rows of the texts of C133 with the labels of C134.",
 "C136": "Refuted: the documented attribute nodeID of a feature is not read. Proved with featureID for documents of the documented form, connectors of one character.",
 "C137": "Refuted: the defaults of edges are given to nodes and to no edge; without a line that begins with </graphml it is a TypeError. Proved for the nodes of files that put every graph's end and the end of the file on a line of their own.",
 "C138": "Refuted: tokens with the same label are one node. Proved: nodes are exactly the labels, an edge between two labels has the last relation between them.",
 "C139": "Refuted: no path with an edge is ever found, TypeError as soon as there is a neighbour; match_target_feature fails for every sentence with a label that is neither empty nor 0.",
 "C143": "Refuted: weights are put under the label with the same number, so columns in another order are mislabelled. Proved for equal columns and every token of a type with weights having a context (otherwise KeyError); also proved what happens for other columns, and ValueError when no context has a weight or the numbers of columns differ.",
 "C144": "Refuted: compute_distance overwrites the similarities. The rest is proved for all sequences of calls.",
 "C145": "Refuted: the test is the wrong way round, a given name is replaced by the last part of the path and without a name there is none. Proved exactly.",
 "C150": "Refuted only for None: None (and 0) print everything. The table is proved exactly for all limits that are not negative.",
 "C152": "Refuted: with the default arguments the row items become a column 'Unnamed: 0'; a sparse matrix read with issparse=True stores NaN in every cell that was empty (TypeError with the default index_col). Proved: index_col=0 returns all columns and cells of a dense matrix, and its row items when none reads as a missing value and not all as numbers; the exact result in all other cases.",
 "C154": "Refuted: a row of stored zeros is kept, formats other than coo are an AttributeError, TypeTokenMatrix.drop_zero_rows returns None. Proved for coo: exactly the rows (columns) without a stored cell are removed, the others renumbered in order.",
 "C155": "Refuted for a listed attribute that is not an array (it becomes None) and for an object in two attributes (it is saved twice, the second time without its large arrays, which are missing after loading). Proved for trees of objects with attribute names without dots, all files writable: every attribute, file name and content exactly; which loads fail.",
 "C156": "Refuted when a file of an object further down cannot be written (attributes that were set aside above it stay deleted), for cyclic objects (the recursion does not end), and for the file that was there before (a failed pickle leaves it cut off). Proved for all heaps: kept after success, after an object that cannot be pickled, whenever the array files are writable, and always for objects without nested ones.",
 "C157": "Refuted after an earlier save to a file name: the lists of array names it added make load look for files under the new name. Proved for objects without these attributes.",
 "C158": "Refuted: in trees nothing is recorded unless the feature is a chain that starts at the target (C158_others; C158_occurrences_refuted has an occurrence that is missed), and a head without label (node 0 of every sentence read from a corpus) is a KeyError (C158_root_refuted). Proved for all labelled graphs: the records are exactly the walks that do not step back, once each (C158_walks); in labelled trees with a chain from the target: exactly the occurrences, once each, with their labels and relations (C158_chain).",
 "C159": "Refuted for the words: without an attribute called label every node shows as ROOT (C159_words_refuted). Proved: labels in the order of the numbers when these are 0 to n-1, otherwise IndexError; one line for every node and edge of other graphs.",
 "C160": "Refuted: target is a method, so no node is excluded until set_target replaces it (C160_target_refuted), after which target() is a TypeError (C160_call_refuted); a marked macro matches nothing, since the mark is taken for a constraint (C160_match_refuted, C160_key_refuted); a second feature_old on the same match is a TypeError (C160_old_refuted). Proved: the marks, and what feature_old puts into the pattern text; how that text is put together (graph.py:817-851) is not modelled.",
 "C161": "C161_console, C161_silent, C161_file and C161_no_file say exactly what is written, for all histories (the files: when no handler of a user is attached while the log file is changed, see C162). C161_levels: levels up to WARNING make no difference to the files. Refuted: the message on the console has its arguments put in (C161_arguments_refuted); a critical record always looks the same (C161_critical_refuted: after a record whose arguments do not fit, the format of that record stays); lowering the level to NOTSET shows no less (C161_notset_refuted); setting the level never matters for the file (C161_levels_refuted).",
 "C162": "C162_moved, C162_users and C162_users_only: holds when no handler of a user is attached at the change. Refuted with such a handler: the old file keeps growing (C162_user_refuted), the handler of the user is lost (C162_sink_refuted), lines are written twice (C162_twice_refuted). C162_fails: after a file that cannot be opened no file is written any more; C162_console_lost: a further call with a good file silences the console for ever.",
 "C163": "C163_counts, C163_defined, C163_unique, C163_objects, C163_no_rows: exactly which vocabularies a call uses, for all histories. Refuted as stated: columns of an earlier call are used when none are given (C163_stateless_refuted), an empty vocabulary is taken for none (C163_empty_refuted), columns given in a call without rows are forgotten (C163_forgotten_refuted), vocabularies are shared, not copied (C163_snapshot_refuted), None also stands for missing rows (C163_none_refuted).",
 "C164": "C164_settings, C164_numbers, C164_items, C164_token, C164_missing_group, C164_line, C164_no_line. Refuted: a Getter gives items of its own form (C164_form_refuted), tokens start with the lemma (C164_token_refuted), token_line_machine matches something (C164_token_line_refuted: always TypeError). A theorem is named refuted because the documented behaviour fails.",
 "C165": "C165_content, C165_parse, C165_path, C165_owner. Refuted: parsing again changes nothing (C165_again_refuted), no text gives no lines (C165_empty_refuted), the list of the caller is never changed or always shared (C165_owner_refuted).",
 "C166": "C166_sparse, C166_dense, C166_rows, C166_slices, C166_errors, C166_todense (cells and exceptions). Refuted: the dimensions of the result do not depend on how many rows a slice selects (C166_dimensions_refuted), and are the same after todense (C166_todense_refuted).",
 "C167": "C167_rows, C167_columns, C167_total, C167_transposed, C167_errors, C167_sparse, C167_reorder, C167_empty_rows hold. What can be done with the result: C167_indexable says when, C167_unusable what fails otherwise; refuted as stated by C167_indexable_refuted (two csr matrices, axis 1) and C167_mixed_refuted; reordering does not keep the total (C167_reorder_total_refuted).",
 "C168": "C168_own_sums, C168_given, C168_no_total, C168_single_line, C168_nothing_stored, C168_unknown. Refuted as documented: nfreq, cfreq and N can be left out together (C168_defaults_refuted: TypeError for a two-by-two matrix).",
 "C169": "C169_pairwise (all names but llik), C169_mi, C169_mi_errors, C169_cbc. Refuted: llik for a single table (C169_llik_refuted: NotImplementedError), CBC without measmx (C169_cbc_refuted: fails for every matrix with something stored), vectorize (C169_vectorize_refuted: never returns).",
 "C170": "Exact when no placement puts the root of the feature on a node without label (C170_exact, C170_built from lines to matches). Refuted: such a placement is a KeyError (C170_root_refuted); a feature of one node is an AssertionError (C170_feature); a sentence that is no tree is skipped only if its nodes are numbered 0..n-1 (C170_skipped), otherwise IndexError (C170_skipped_refuted).",
 "C171": "All parts proved; a template without nodes is an AttributeError (C171_empty_refuted). Numbers are what int() accepts in ASCII.",
 "C172": "Holds for features that are chains from the target and sentences whose nodes all have labels (C172_exact, C172_same). Refuted: other features find nothing (C172_others_refuted), walking up to the artificial root is a KeyError (C172_root_refuted), so is the default target (C172_unset_refuted).",
 "C173": "Refuted: the sentences after the last full 100000 are written to no file (a smaller corpus gives none); the order and the distinctness that the comment of cartesian_product promises; process_sentence, judgeOut, judgeIn, judgeIn_v1 (NameError or ValueError) and outMap (AttributeError) return for no input.",
 "C174": "Refuted: an edge at the end of a template line is dropped; build_dep_rel and update_dep_rel_caller match nothing, because update_dep_rel and do_job_multicore do not exist (the exceptions are logged); merging the files the subprocesses write repeats every match; an unreadable file loses the results already removed; process takes as many files as it has workers and its producer blocks for ever unless the files fit into the queue. Exact outcome proved in each case.",
 "C175": "Sparse: the zeros that scipy stores in a broadcast product are not modelled, only the values. Dense matrices broadcast likewise (C175_dense_outcome). Refuted: other items raise; other shapes raise.",
 "C176": "Missing in the partial theorems: a process with several tasks (C58 states exactly what is left then), one CPU, ties between different clusters.",
 "C177": "The full statement for highest_score is refuted; the rest holds. C177_used spells out the calls.",
 "C178": "C178_same_refuted: of two calls for the same missing directory one may raise (two programs whose first handlers find ~/tmp missing). os.makedirs is modelled after os.py of CPython 3; only directories are in the file system.",
 "C179": "C179_refuted: a second program that constructs a handler while the first one's workers are busy makes the first one fail with FileNotFoundError. Emptying a directory is taken as one step.",
 "C180": "Exact division, as floats have it for sizes below 2^53. C180_1024_refuted: rounding up is not carried to the next unit.",
 "C181": "C181_once_refuted: ItemNode has no __eq__ and no __hash__.",
 "C183": "Exact for compute_ppmi; for compute_association equality is refuted (an expected count of exactly 1 is smoothed) and a bound of 44e-11 is proved.",
 "C185": "Holds when no segment has 2 to max(l, r) tokens; refuted by the sentence 'a b' with spans 2, 2, because of the lost target of C05.",
 "C186": "Total refuted: tokens with a single context word that is a column make the program end in IndexError.",
 "C187": "Partial: segments longer than the right span (or of one line), all lines in the vocabularies, at least two context words, one format for types and collocates. Refuted for short segments: ValueError.",
 "C188": "Partial: rows whose weights do not sum to 0. Refuted for negative weights: the vector changes its sign.",
 "C189": "Partial: C189_exchange_partial and C189_symmetric_partial need corpora without segments of 2 to max(l, r) tokens; C189_exchange_refuted: the segment 'a b' with spans of two.",
 "C190": "C190_restrict proves the counts in full; C190_scores_refuted shows that scores with marginals of the matrices differ.",
 "C191": "Proved in full for compute_ppmi with the marginals of the matrix.",
 "C192": "C192_left in full; C192_add_partial and C192_right_partial need corpora without segments that the right span makes short; C192_add_refuted and C192_right_refuted give the segment 'a b'.",
 "C193": "The methods of Vocab work (C193_copy_partial, C193_empty). Refuted for copy.deepcopy and pickle: __getattr__ returns None for __getstate__ and __setstate__, so both raise TypeError for every Vocab (C193_deepcopy_refuted) and for exactly the objects that hold one (C193_holders). Values without sharing and cycles.",
 "C194": "Holds for filters that hold no Vocab (C194_templates_partial, C194_job, C194_sent). Refuted: a Vocab as filter, the documented type, is a TypeError (C194_filter_refuted); no file with a row can be read and an empty list of macros counts as none (C194_file_refuted)."
}