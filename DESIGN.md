# Formal model of nephosem: design and trusted base

Source: QLVL/nephosem at the pinned commit in `/repo` (Python, read as text, never run).
Prover: Coq 8.16.1, sources in `rocq/theories`.  Properties: `properties.jsonl`; what is proved of each: `MANIFEST.json`.

## 1. Method

* Each modelled Python function becomes a total, computable Gallina function that follows the code branch by
  branch.  Every definition cites the file and lines it models.  Python exceptions are values (`Err KeyError`, ...),
  never silent defaults.  A loop that need not end returns `None` for "does not end".
* Python `dict` = insertion-ordered association list (`dict K V` in `Base.v`), updated in place or appended at the end, as CPython does.
  Python `str` = list of code points (`pystr := list N`), compared code point by code point as Python's `<` does.
  `list.sort` / `sorted` = a stable insertion sort (`isort`), proved to be a stable sorted permutation.
* Frequencies are `Z`.  Numbers that are only compared, added or averaged are `Q`/`Qc`; scores with logarithms and
  roots are `R`.  **Floating point rounding, overflow, infinities and NaN are not modelled** unless a model says otherwise.
* Calls into other libraries and regular expressions are either section variables (the theorem then holds for every function with the
  stated behaviour) or are defined by their documentation (scipy sparse matrices, numpy indexing, networkx graphs).
* Concurrency: a small-step transition system over (job queue, result queue, worker states); theorems quantify over
  every schedule.  Crashes: a save is a list of atomic steps and a crash keeps any prefix (with the last file cut off).
* Files per area: `XModel.v` (definitions only), `XSpec.v` (small specification that does not use the model's helpers),
  `XProofs.v` (lemmas), `XProps.v` (final theorems by `exact`, `Example`s of concrete cases that meet the hypotheses,
  `Print Assumptions`).  Theorem names start with the property's id.
* When a property is false of the code, its full statement stays in `properties.jsonl`, a theorem `..._refuted` gives a concrete
  witness, the part that is true is proved as `..._partial`, and where possible the exact behaviour is characterised.

Wrong programs (`seeded/LOG.jsonl`): a mutant counts as caught when the build of the edited copy fails at a named lemma, theorem or example (a
build that fails otherwise, e.g. for a missing make target, is not logged).  `theorems_failed` lists theorems that
lose their proof, by following names from the first failing lemma of each file; it is not a proof that they are false of the mutant.  See
`seeded/README.md`.

Besides the hand-written mutants, random single-token edits of the model files (comparison, constant, exception, boolean operator, projection,
order of a list) were built against the theorems of the same family only.  Of 219 different edits 166 were caught by a lemma or theorem, 4 by an
example, and 49 not by that family.  Gaps found this way led to C16_type_attributes, C16_token_attributes, C16_type_none, C16_empty_format,
C60_prepare_other, C86_full_chain, C99_unknown_name, C114_index_range and C131_negative; the edits behind them are in the log except those for
C16_type_none and C16_empty_format, which were not built again.  Others are equivalent: one-element lists reversed, `n <= 0` for `n = 0` on naturals,
0/2 for 0/1, which neighbour is listed where only emptiness is tested.  The rest were not followed up and may be gaps.  They are mostly the class of
an exception (`tree_match`, `old_repr`, `tn_sample`, `at_`, `csr_of`, `tok_flush`, `getter_init`, `read_graphml`, `mk_stm`, `read_mx`), besides
`cf_init`, `usable`, `select_types` (vocabulary of one item), `udegree` (loops), `sp_binop`, `sp_multiply` and truth values in `CpyModel`.

Modelled but in no theorem: `compute_cos`, `template_graph`, `ini_empty`, `word_line_machine`, `g_left_bound`, `g_right_bound`, `g_single_bound`,
`repr_sparse`, `repr_dense`, `tn_append`, `TokMxModel.to_type` and `nodes_of`, `v_values`, `sort_dict`.  COVERAGE.txt counts their functions as cited.

## 2. Trusted base

* Coq's kernel (8.16.1), and `vm_compute` where an `Example` or a refutation evaluates a concrete case.
* No axioms are declared.  `Print Assumptions` of every theorem is recorded in `ASSUMPTIONS.txt`
  (made by `tools/assumptions.py`): all theorems are closed under the global context except those of `CalcProps.v`
  and `CalcVecProps.v` (and later files whose values are real numbers; see the file), which depend on the axioms of the standard library's real numbers:
  `ClassicalDedekindReals.sig_forall_dec`, `ClassicalDedekindReals.sig_not_dec`,
  `FunctionalExtensionality.functional_extensionality_dep` and `Classical_Prop.classic` (the last through `ln`, `sqrt` and limits).
* That the model says what the code says.  This is by reading only.  `COVERAGE.txt` (made by `tools/coverage.py`) lists for every function
  of `/repo/nephosem` the model files that cite it; a `-` marks a function that is not modelled.
* Documented behaviour of Python 3.6+, numpy, scipy, sklearn, networkx 2.2, pandas, zipfile and json as stated in section 4.

## 3. Plan per property

| id | model | proof |
|----|-------|-------|
| C01 | item frequency handler: per-file count, merge of per-file dicts | induction on lines and on files; spec = count over all matching lines |
| C02 | small-step system of producer, workers, queues, collector | invariant: multiset of (queued + in progress + results) is constant; measure for termination; deadlock freedom |
| C03 | `Window` class (bounded deques) | invariant by induction on the update history |
| C04 | `update_one_match`, `process_right_window`, `update_one_file` of ColFreqHandler | refuted for 2 <= n <= right_span; partial otherwise |
| C05 | same | exact set of processed foci as function of n and spans |
| C06 | same | corollary of C04 partial by swapping the pair |
| C07 | same + segmentation function on lines | induction on the lines |
| C08 | same with vocabularies | induction on foci |
| C09 | same | bound per focus, induction |
| C10, C75, C76 | small-step system with per-worker accumulation + merge | invariant; merge is addition on cells (C27); runs as witnesses; C76 for vocabularies of any kind by an invariant on the nested dict of a worker (ParStrayProofs) |
| C11 | TokenHandler.update_one_match / process_right_window | window invariant |
| C12, C13, C63, C64, C65 | small-step system; reader takes only #files results | concrete runs; counting invariant on the queue |
| C14 | same as C11 with IndexError modelled | refuted for right_span = 0; partial for right_span >= 1 |
| C15, C16 | TypeNode.merge; '/'-split and join on strings | induction; round-trip lemmas |
| C17, C61, C62 | Vocab operations | refinement to a finite map by induction on the history |
| C18-C21, C23 | Vocab.dataframe, `__getitem__`, comparisons, subvocab, equal | stable sort correctness, uniqueness of sorted permutations |
| C22 | save_dict_plain / load_dict_plain on strings | refuted (tab in item); exact condition |
| C24, C66, C72 | transform_dict_to_spmatrix on stored entries | index lemmas; conversion of number types |
| C25-C31, C34, C67-C71 | TypeTokenMatrix / SparseMatrix / SquareMatrix operations on stored entries | cell function semantics |
| C32, C33, C73, C74 | file system as a map from names to contents; save as a list of steps; crash = prefix | refuted where false; exact conditions |
| C35-C40, C77-C80 | contingency tables and measures over `R` | field/lra, monotonicity of `ln`, `ln x <= x-1` |
| C41, C81 | argsort + inverse permutation | permutation lemmas |
| C42, C83 | vectors as lists of reals | Cauchy-Schwarz by induction |
| C43-C45, C82 | token weights and vectors | exact values; witnesses |
| C46-C48 | tree matching by levels | soundness, completeness, NoDup by induction on levels |
| C49, C50, C84-C87 | matrix from matches; target filter; features; pool | counting; witnesses |
| C51 | read_sentence | induction on lines |
| C52 | islinear walk | walk invariant; trees by the tree order; refuted for stars with 4 leaves, endless for circles |
| C53, C54, C88, C89, C95, C96 | condensed index, neighbours' clusters and scores | arithmetic; partition lemmas |
| C55, C93 | cleaning of clusters | sets as lists |
| C56-C58, C90-C92, C94 | CBC steps and loop | measure (residues shrink); witnesses |
| C59, C97 | ConfigLoader | induction on the sections and options |
| C98-C101 | CorpusFormatter | case analysis |
| C60, C102-C105 | file lists, handler construction | induction on directory trees |
| C115-C118, C122 | token matrices from type nodes, read from the corpus model of C11 | last occurrence of a key; order of Python's set a permutation |
| C119-C121, C123 | TypeNode.sample/save/load, vectorizers | case analysis; composition of C02 and C10 |
| C124, C125, C130, C131 | word queries, concordances, subsets | induction on the fields of a line; split/join |
| C126-C129, C132 | json text written and read by an automaton; plain text; match | run of the automaton over what was written; prefixes of a text |
| C133-C135 | pattern texts as trees; named groups | induction on the text's length with a numbering invariant |
| C136, C137 | macro XML documents, GraphML lines | document order; last default of a key |
| C138, C139 | graphs of labels, path matching | last relation of a pair; refuted |
| C140-C142 | generate_vectors composed from the matrix, measure and token models | stage by stage with stored entries; list of concepts by induction |
| C143 | build_tc_weight_matrix on dicts | dict lemmas of C24 |
| C144, C145 | TypeToken as a state machine; corpus name | invariant over call sequences; case analysis |
| C146-C149 | calc_meas_vec, committee vectors, cbc_step3_old, reverse over `R` | sums over rows; invariant of the greedy choice |
| C150, C151 | tables given to tabulate; Vocab.__repr__ | invariant of the cells filled in; stability of the sort |
| C152 | CSV files as grids of fields; pandas' reading | column by column |
| C153, C154 | item numbers; drop_zero_*; methods that always fail | last position of a key; rank of sorted distinct numbers |
| C155-C157 | class SaveLoad on a heap of objects and a map from names to files | tree invariant with frames for heap and files; relation between removed and noted attributes |
| C158-C160 | match_sub_template, printed graphs, set_feature, set_target, feature_old | list of walks by induction; in rooted trees a walk that never steps back is a simple path; marks as constraints |
| C161-C162 | DefaultFormatter, init_logging, change_log_file | invariant over histories of operations: handlers and the format the console holds as functions of the history |
| C163 | ColFreqHandler over histories of calls and of changes by the owner | invariant: kept vocabularies are the last usable ones of the history |
| C164, C165 | Getter, Sentence, Path | case analysis; induction over lines and additions |
| C166 | square brackets on sparse and dense matrices | selected positions as sorted lists; agreement by cases of shape |
| C167 | concatenation with storage formats, reorder_matrix, empty_row_idx | sums over shifted entries; induction over the list of matrices |
| C168, C169 | calc_association with defaults, single tables, CBC.__init__, vectorize | sums split over the four parts of a table; case analysis |
| C170-C172 | deprel/basic.py: tree matching, building, matching from the target | translation to the graphs of C46; level maps as chains; induction over lines |
| C173-C174 | deprel/deputils.py and the DepRelManager: splitting, node lists, products, templates, merging, threads | invariants of the loops; transition system of producer, workers and bounded queue |
| C175 | multiplication with broadcasting | cell values by position; witnesses |
| C176, C177 | wiring of one CBC recursion, order of clusters | uniqueness of sorting up to ties; relation between clusters with the same score and elements |
| C178, C179 | simultaneous make_dir calls; runs emptying ~/tmp | invariant over all interleavings with a step measure; induction over foreign events; witnesses |
| C182-C185 | the programs of docs/tutorials/all-in-one.ipynb from a corpus to scores (EndModel composes ParColModel, MxModel, CalcModel) | marginals of the matrix counted as filters of one list of (target, line in its window) pairs; scale invariance; bijection of positions for reversed files; witnesses |
| C186-C188 | the token level of docs/tutorials/all-in-one.ipynb (TutModel composes MxModel, CalcModel, CalcVecModel, TokMxModel) | case analysis on the overlap of the item lists, each failure an inductive constructor, shown to exclude each other; norms scale by the absolute value; witnesses |
| C189-C192 | pairs of runs of the same program over one corpus (no new model) | bijections and disjoint unions of pairs of positions per segment; filters of the list of pairs; PPMI as a function of the four numbers of pairs; witnesses |
| C193, C194 | copy.deepcopy and pickle of objects that hold a Vocab, read_templates, the results of the dependency workers | structural induction over nested values; witnesses |
| C180, C181 | sizeof_fmt, TypeNode.get_collocs | rounding bounds, parsing of the text; set invariant; witnesses |
| C106-C114 | dense matrices, masks, samples, contexts, indexing | cell semantics; agreement with the sparse model |

## 4. What is modelled, area by area

* **Vocab** (`Vocab*.v`): core/vocab.py and the dict helpers of utils.py.  Left out: `raw_vocab`, `encoding`, pandas frames other
  than the sorted item/frequency table.  `VocabFile*`: plain text saving and loading; the encoding is assumed able to represent the text.
* **Corpus** (`Corpus*.v`): Window, update_one_file, the per-file parts of ItemFreqHandler, ColFreqHandler and TokenHandler.  Regular
  expressions are arbitrary functions of the line.  The file id is a constant per file and left out where not observed.
* **Terms** (`Terms*.v`): ItemNode, TypeNode and TokenNode construction, printing and merging; further attributes left out.
* **Pools** (`Par*.v`, `ParCol*.v`): Paralleler and the three worker programs; queue operations are atomic, the scheduler is arbitrary, workers die
  on an exception.  Operating system failures and signals are not modelled.
* **Sparse matrices** (`Mx*.v`): scipy matrices as stored entries in lanes, explicit zeros included; csr and csc.  Values are of
  any `Num` type.  `Mul*`: broadcasting, values only.  `MxTyped*`: int/float/bool conversion.  `MxSim*`: argpartition is any function meeting its documentation.
* **Matrix files** (`MxFile*.v`): JSON, numpy and zip read back what they wrote and refuse cut-off files.  Additional meta data left out.
* **Association, similarity, tokens** (`Calc*.v`, `CalcVec*.v`): real numbers; float32 storage and rounding not modelled; sklearn's normalize,
  cosine_similarity, pairwise_distances (which refuse arrays without rows or columns) and numpy's argsort by their documentation.
* **Copies** (`Cpy*.v`): values are trees of None, numbers, strings, lists, dicts and instances; no sharing or cycles.  copy and pickle follow CPython's
  `copy.py` and `object.__reduce_ex__`, both before and since 3.11.  A macro's attributes other than the filter are copied as they are.
* **Dependencies** (`Dep*.v`): graphs are insertion-ordered nodes and edges; regular expressions arbitrary.
* **CBC** (`Cbc*.v`): scipy's linkage/fcluster, numpy's mean/median/percentile/argsort, math.sqrt and the similarities are parameters.
  Writing of temporary and result files is left out except for the names under which worker results are stored.  `CbcOrd*`: the settings
  that major_steps passes on and the choice between one and several processes.
* **Configuration and files** (`Conf*.v`): ConfigLoader, CorpusFormatter, read_fnames, prepare_fnames, handler construction.  Removing files always succeeds.
* **Simultaneous processes** (`Tmp*.v`): one step per system call, any order.  os.makedirs as in os.py of CPython 3; only directories exist in the
  first part.  In the second part emptying a directory, making a worker's directory, saving and loading are one step each, every worker saves one file.
* **Sizes and collocates** (`Utl*.v`): sizes are whole numbers, division exact (true of floats below 2^53); collocates are objects with an identity.
* **Dense matrices** (`Dense*.v`): rational cells; slices as indices and the 1-item SquareMatrix with one list left out.
* **Token matrices** (`TokMx*.v`): nodes as attributes, formats and collocates; random.sample is any function meeting its documentation; the order of a
  Python set is any permutation.  TokenHandler's files are merged in one order (the pool is C12); the type nodes' own attributes are left out there.
* **Queries and JSON lists** (`Json*.v`, `Qry*.v`): json.dump's text for a dict of strings and integers, json.load for such texts (other values are errors);
  pandas' apply on a table without rows gives nothing; an exception while a concordance is written loses the lines before it.
* **Pattern notations** (`Pat*.v`): parse_pattern, PatternGraph's and MacroGraph's readers, the class Graph.  XML documents are trees (minidom's parser, nx.parse_graphml
  and pandas.read_csv are trusted); connectors of several characters are left out; networkx stores no GraphML defaults in nodes.
* **Pipelines** (`Pipe*.v`): TokenVectorizer.generate_vectors over the models of the parts (real numbers, set orders as permutations), build_tc_weight_matrix, class TypeToken.
  The file arguments of TypeToken's methods are left out: every method that has some fails before it uses them.
* **Committees** (`Com*.v`): real numbers; a vector of NaN is `None`; members of a cluster are natural numbers.
* **Printing and CSV** (`Show*.v`): the table before tabulate lays it out; number formats are parameters; negative limits are left out.  A CSV file is the grid of its fields
  (quoting is undone by pandas); pandas' recognition of numbers and missing values and its renaming of repeated columns are parameters.
* **Saved objects** (`Sav*.v`): class SaveLoad with instance attributes only; pickling copies the heap; a sparse matrix is its three arrays and a rest; memory mapping reads the same arrays;
  an object that cannot be pickled raises AttributeError (a TypeError of pickle ends in one too); Python's recursion limit is not modelled.
* **Walking matcher** (`Grf*.v`): match_sub_template called as in match_target_feature, with valid_nodes and valid_edges kept last first; nodes and edges appended to a macro are the two
  components of one list; printed graphs; True and False as integers; feature_old up to the two lists of strings, their insertion into the pattern text is an arbitrary function.
* **Logging** (`Log*.v`): the logger 'nephosem' with handlers; Python's own `logging` package is modelled from its documented behaviour (levels, order of handlers, an exception while a
  record is formatted loses the record).  Left out: the root logger (default level, no handlers), filters, messages that are not strings, failing writes.
* **Older readers** (`Get*.v`): Getter over arbitrary regular expressions, Sentence, Path with its list as an object that may be shared.
* **Handler histories** (`Hnd*.v`): ColFreqHandler keeps references to Vocab objects; the pool is that of `ParCol*`.
* **Indexing and concatenation** (`Idx*.v`, `Cat*.v`): keys are items, ints and slices without step; scipy 1.5.4's formats of stacked matrices, coordinate matrices are not subscriptable.
* **Measures with defaults** (`Asc*.v`): calc_association with any arguments left out, over the reals; np.squeeze of a single sum is an array that cannot be indexed; CBC.__init__ without the copies of its matrices.
* **Labelled sentences** (`Bas*.v`): deprel/basic.py from line 223 on; its other classes are copies of code modelled elsewhere (listed in BasModel).  `None` and empty arguments are the same;
  islinear that never ends is `None`.
* **Older handler** (`Drl*.v`): deprel/deputils.py and deprel/dephandler.py.  Names that the files use but never define are modelled as the
  NameError/AttributeError of that call; pickled files are their contents or the exception of reading them; the directory of merge_results is a list in
  the order of os.listdir; threads take atomic queue steps, the scheduler is any list of threads; progress bars and log texts are left out.
* **Whole programs** (`End*.v`): the cells of docs/tutorials/all-in-one.ipynb that go from a corpus to scores, as compositions of the models above; only readable files (see C75 for the others).
* **Token vectors** (`Tut*.v`): sections 4 to 7 of the same notebook, from a frequency matrix and a token matrix (or the two handlers on one corpus) to vectors and distances. The distances are those of CalcVecModel; sample sizes, saving and plotting are left out.
* **Relations between runs** (`Rel*.v`): nothing new is modelled; two runs of build_col_freq with different settings, each with its own workers and schedule.

Not modelled at all: drawing (matplotlib), timing, `deprel/corpus.modifier.py` (Python 2, cannot be imported), `tmp.py`, and whatever `COVERAGE.txt` marks `-`.

## 5. Findings

Behaviour that contradicts the documentation or what a user would expect, each proved as a `..._refuted` theorem or exact characterisation of the property named.

* Corpus: the last token of a short segment is never a target (C04, C06); IndexError for right span 0 with an empty segment (C14).
* Pools: tokens lost when a worker stays idle (C12); second retrieval duplicates (C63); a failing file blocks or loses counts (C64, C75, C84); one CPU gives
  zero workers (C65); increment-built vocabularies do not filter (C76); second build_dependency multiplies counts (C85).
* Vocab: lookups insert into defaultdict vocabularies (C61); plain format loses items with tabs etc. (C22).
* Sparse matrices: multiply with explicit zeros or other items, comparisons miss unstored cells, `>=0` raises (C30); csc save/load and merge (C32, C67);
  empty dict (C66); equal with explicit zeros (C68); drop_empty flag is the opposite of its documentation (C69); most_similar k+1 on ties (C70); mixed number types (C72).
* Matrix files: stale .npz, crash mixtures, user's files deleted, renamed .pac (C32, C33, C73, C74).
* Association: log-likelihood negative through smoothing (C39), PMI not increasing at 2e10 (C40), PMI of a stored zero (C38), compute_ppmi defaults crash (C77), log ratio of
  exclusive collocates below 0 (C79).
* Vectors: simrank's reverse (C81), dot_multiplication gives only 0/1 (C45), weights of types with more than two fields (C43), cancelling weights (C82), csc operands (C44).
* Dependencies: attribute-free nodes never match (C47), targets=None counts nothing (C50), islinear (C52), empty sentence (C84), full features start at node 1 (C86).
* CBC: dropped duplicates (C55), last residues (C56), step-3 assignments discarded (C57), reused process (C58), empty best cluster (C89), merging (C90),
  lost elements (C91, C93), element order (C94), minsize with default t (C95).
* Configuration: DEFAULT section (C59), missing file (C97), swapped keys (C98), token format (C99), machines (C100), caller's settings changed (C101), tmp path (C102),
  everything under ~/tmp deleted (C103), listing order and missing directory (C104), file ids (C105), encoding passed as directory (C60).
* Dense: symmetric-looking arrays over different items rejected and treated as square (C106, C107, C109, C111), equal not symmetric (C110), agreement with
  sparse fails on stored zeros (C108), sample(1.0) (C112), stored zeros are contexts (C113).
* Token matrices: a repeated collocate gets its rightmost, not its nearest position (C115); tokens of files with the same id overwrite each other (C116); with a vocabulary
  the positions count only kept collocates (C117); no token with a collocate is a ValueError (C118); sample fails on every node TokenHandler makes (C119); load always
  fails (C120); TokenVectorizer.retrieve_tokens looks types up among tokens (C121); make_token_colloc keeps another position (C122); fit filters collocates by types (C123).
* Queries and lists: words with a colon are dropped (C124); get_word_str fails with its default key (C125); match on 'freq' (C126); a cut-off plain file is read without
  error and with a wrong frequency (C129); spaces in concordances (C130); select_subsets needs a class that does not exist (C131); vocabularies are not equal to themselves (C132).
* Patterns: blanks before brackets, lists inside lists and the documented arrows are misread (C133); three attributes or unnamed groups (C134); MacroGraph.read_csv always
  fails (C135); a feature's documented nodeID is ignored (C136); edge defaults go to nodes, files without a last line of their own fail (C137); tokens with one label share a
  node (C138); no path is ever matched (C139).
* Pipelines: a collocate that is not a row of the frequency matrix stops all concepts (C141); tables with one row, one column or one full column (C142); weights under wrong
  labels and KeyError for tokens without contexts (C143); TypeToken never builds anything, distances overwrite similarities (C144); a given corpus name is dropped (C145).
* Printing and CSV: None prints everything (C150); read_csv with default arguments does not undo to_csv, sparse matrices come back full of NaN (C152); drop_zero_rows fails
  on csr matrices, keeps stored zeros and returns None on a TypeTokenMatrix; _reorder_verbose and spmatrix_to_dict always fail; describe of an empty matrix divides by zero (C154).
* Saved objects: an object in two attributes loses its large arrays, a listed attribute that is not an array becomes None (C155); a failed write below leaves attributes deleted,
  a failed pickle destroys the earlier file, cyclic objects cannot be saved (C156); a handle saved to after a name cannot be loaded (C157).
* match_sub_template finds only chains that start at the target, and is a KeyError at the root of sentences from a corpus (C158); sentences print as ROOT ROOT ... without a label column, or raise
  IndexError when numbers have gaps (C159); set_feature does not exclude the target and makes a macro match nothing, set_target breaks target(), feature_old overwrites the match (C160).
* Messages on the console never have their arguments put in, and a message whose arguments do not fit changes how later critical messages look (C161); change_log_file removes whatever handler
  was added last, and after a file that cannot be opened the next call removes the console (C162).
* ColFreqHandler: columns of an earlier call stay, an empty vocabulary is taken for none, columns given without rows are forgotten, changes of a vocabulary by its owner are seen (C163).
* Getter cannot give items of other forms than type, word, lemma, its tokens start with the word, token_line_machine always raises TypeError (C164); parsing a sentence again doubles it,
  an empty list given to a Path is not used while any other is shared (C165).
* Sparse matrices give an array with two dimensions for a column where dense ones give one (C166); csr matrices (the default) concatenated along axis 1, or csr with csc, give a matrix that
  cannot be indexed, cut or reordered: TypeError (C167).
* calc_association needs N although it has a default (C168), therefore CBC needs measmx (C169); pairwise_association does not know llik, TypeVectorizer.vectorize always raises (C169).
* deprel/basic.py: a feature whose root matches the artificial root is a KeyError, a sentence that is no tree is an IndexError unless its nodes are numbered from 0, a feature of one node is refused (C170);
  match_target_feature finds only chains and raises KeyError when it walks up to the artificial root or no target was given (C172).
* deprel/deputils.py: split_large_file never writes the sentences after the last full 100000, so a smaller corpus gives no file; five functions use undefined names (C173);
* deprel/dephandler.py: update_dep_rel and do_job_multicore do not exist, so nothing is ever matched; merging repeats old matches; the threads of process die on
  their first file and the producer blocks when there are more files than the queue holds (C174);
* multiply broadcasts a matrix with one row or column without looking at its items, and ignores the shape when the first matrix stores a zero (C175).
* Clusters of equal score: what multicore CBC keeps, the single version may drop altogether; one CPU fails; highest_score and workers have no effect (C176, C177).
* Two first handlers at once: make_dir may raise FileExistsError (C178).  A handler constructed by another program empties ~/tmp under running workers (C179);
  multicore CBC empties ~/.cbc/<minute> likewise.
* PPMI of compute_association is not the same for a corpus and for two copies of it, although PPMI is scale free: an expected count of exactly 1 is smoothed (C183). The program of the tutorial ends with AttributeError for a corpus without pairs and with TypeError for a matrix with one row or one column (C182). Reversing all files and exchanging the spans changes the counts of short segments (C185, by C05).
* The default normalisation makes operation='weightedmean' the same as 'addition' (C188). The steps of the tutorial end in IndexError when the tokens share one context word with the matrix (C186), and in ValueError when a segment not longer than the span ends in a query whose neighbours occur nowhere else with it: TokenHandler keeps that line, ColFreqHandler loses it (C187, by C05).
* A co-occurrence matrix of items with themselves and equal spans need not be symmetric (C189), a larger right span can make counts smaller (C192), both because of C05. Scores depend on the items that were left out of the vocabularies (C190).
* copy.deepcopy and pickle raise TypeError for every Vocab, because `__getattr__` returns None for any name (C193). So read_templates raises for macros with a Vocab as
  target filter, the documented type (C194), and handlers cannot be sent to processes that are not forked.
* sizeof_fmt(1048575) is 1024.0KB (C180); get_collocs returns equal collocates several times (C181).
* PatternGraph of a circle with leaves never returns (C52).

Seen while reading, not formalised: CBC ignores `score_func`; its residues are written only when the recursion limit is reached;
`read_templates(fname)` always fails because `MacroGraph.read_csv` does; an unset `edge-attr`
raises AttributeError; `TypeTokenMatrix.from_dataframe` uses the removed `DataFrame.as_matrix`, `dataframe` the removed `SparseDataFrame`, boolean matrices the removed
`np.bool`; `read_csv` takes the row names as data by default; `drop_zero_rows` calls a method that does not exist; `meta_data` is ignored by the constructor; TokenVectorizer.generate_vectors uses the default collocate format whatever the settings; `metric='cos'` is unknown to sklearn.
