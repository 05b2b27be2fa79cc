conf.py                ConfigLoader.__init__                           50-61   ConfModel
conf.py                ConfigLoader.settings                           64-65   ConfModel
conf.py                ConfigLoader.read_params                        68-75   ConfModel
conf.py                ConfigLoader.load_config                        78-95   ConfModel
conf.py                ConfigLoader.update_config                      97-104  ConfModel
utils.py               timeit                                          52-73   -
utils.py               is_string                                       76-83   -
utils.py               make_dir                                        86-89   TmpModel
utils.py               clean_dir                                       93-105  ConfModel
utils.py               sizeof                                         108-110  -
utils.py               sizeof_fmt                                     113-118  UtlModel
utils.py               read_fnames                                    121-158  ConfModel
utils.py               read_fnames_of_corpus                          161-175  ConfModel
utils.py               count_values                                   178-183  ParColModel
utils.py               sort_dict                                      186-217  VocabModel
utils.py               save_dict_json                                 220-223  JsonModel
utils.py               save_dict_plain                                227-250  VocabFileModel
utils.py               load_dict_json                                 253-257  JsonModel
utils.py               load_dict_plain                                260-271  VocabFileModel
utils.py               save_concordance                               274-304  QryModel
utils.py               pickle                                         307-321  SavModel
utils.py               unpickle                                       324-343  SavModel
utils.py               read_word_queries                              346-439  QryModel
utils.py               get_word_str                                   442-469  QryModel
utils.py               SaveLoad.load                                  482-517  SavModel
utils.py               SaveLoad._load_specials                        519-580  SavModel
utils.py               SaveLoad._adapt_by_suffix                      583-598  SavModel
utils.py               SaveLoad._smart_save                           600-639  SavModel
utils.py               SaveLoad._save_specials                        641-742  SavModel
utils.py               SaveLoad.save                                  744-777  SavModel
logging.py             DefaultFormatter.__init__                       48-53   LogModel
logging.py             DefaultFormatter.format                         55-91   LogModel
logging.py             init_logging                                    94-139  LogModel
logging.py             create_file_handler                            142-160  LogModel
logging.py             change_log_file                                163-182  LogModel
core/vocab.py          Vocab.__init__                                  56-75   CpyModel, VocabModel
core/vocab.py          Vocab.dataframe                                 78-86   VocabModel
core/vocab.py          Vocab._construct                                89-109  VocabModel
core/vocab.py          Vocab._gen_freq_dict_by_dataframe              112-119  VocabModel
core/vocab.py          Vocab.__contains__                             122-123  VocabModel
core/vocab.py          Vocab.__getitem__                              125-174  VocabModel
core/vocab.py          Vocab.__setitem__                              176-177  VocabModel
core/vocab.py          Vocab.__getattr__                              179-184  CpyModel, QryModel
core/vocab.py          Vocab.__lt__                                   186-191  VocabModel
core/vocab.py          Vocab.__le__                                   193-197  VocabModel
core/vocab.py          Vocab.__eq__                                   199-201  VocabModel
core/vocab.py          Vocab.__gt__                                   203-207  QryModel, VocabModel
core/vocab.py          Vocab.__ge__                                   209-213  VocabModel
core/vocab.py          Vocab.__len__                                  215-216  CpyModel, HndModel, VocabModel
core/vocab.py          Vocab._select_by_items                         218-222  VocabModel
core/vocab.py          Vocab._select_by_freqs                         224-228  VocabModel
core/vocab.py          Vocab.keys                                     231-232  VocabModel
core/vocab.py          Vocab.values                                   234-235  VocabModel
core/vocab.py          Vocab.items                                    237-239  VocabModel
core/vocab.py          Vocab.get_dict                                 241-243  CpyModel
core/vocab.py          Vocab.isEmpty                                  245-246  CpyModel
core/vocab.py          Vocab.setFILTER                                248-249  CpyModel
core/vocab.py          Vocab.increment                                251-256  VocabModel
core/vocab.py          Vocab.get_item_list                            258-276  VocabModel
core/vocab.py          Vocab.select_items                             278-291  VocabModel
core/vocab.py          Vocab.make_type_file                           293-310  JsonModel
core/vocab.py          Vocab.subvocab                                 312-319  VocabModel
core/vocab.py          Vocab.regex_item                               323-326  -
core/vocab.py          Vocab.match                                    328-344  QryModel
core/vocab.py          Vocab.sum                                      346-350  VocabModel
core/vocab.py          Vocab.sum_freq                                 352-354  VocabModel
core/vocab.py          Vocab.equal                                    356-368  VocabModel
core/vocab.py          Vocab.copy                                     370-372  CpyModel, VocabModel
core/vocab.py          Vocab.deepcopy                                 374-376  CpyModel, VocabModel
core/vocab.py          Vocab.save                                     379-415  QryModel, VocabFileModel
core/vocab.py          Vocab.load                                     418-447  QryModel
core/vocab.py          Vocab.describe                                 449-455  ShowModel
core/vocab.py          Vocab.__repr__                                 457-464  ShowModel
core/vocab.py          Vocab.__str__                                  466-467  -
core/vocab.py          Vocab.select_subsets                           470-515  QryModel
core/terms.py          ItemNode.__init__                               49-90   TermsModel, TokMxModel
core/terms.py          ItemNode.to_type                                92-105  TokMxModel
core/terms.py          ItemNode.to_colloc                             107-120  TokMxModel
core/terms.py          ItemNode.__str__                               122-126  TokMxModel
core/terms.py          ItemNode.__repr__                              128-129  -
core/terms.py          TypeNode.__init__                              145-195  TermsModel
core/terms.py          TypeNode.type                                  198-200  TermsModel
core/terms.py          TypeNode.freq                                  203-205  TermsModel
core/terms.py          TypeNode.collocs                               208-209  UtlModel
core/terms.py          TypeNode.append_token                          211-212  TermsModel, UtlModel
core/terms.py          TypeNode.get_collocs                           214-220  UtlModel
core/terms.py          TypeNode.save                                  222-232  TokMxModel
core/terms.py          TypeNode.load                                  235-239  TokMxModel
core/terms.py          TypeNode.sample                                241-262  TokMxModel
core/terms.py          TypeNode.merge                                 265-284  TermsModel
core/terms.py          TypeNode.__str__                               286-287  TermsModel
core/terms.py          TypeNode.__repr__                              289-290  -
core/terms.py          TokenNode.__init__                             307-368  TermsModel, TokMxModel
core/terms.py          TokenNode.lspan                                371-372  TokMxModel
core/terms.py          TokenNode.rspan                                375-376  TokMxModel
core/terms.py          TokenNode.token                                379-381  TermsModel, TokMxModel
core/terms.py          TokenNode.json_data                            384-394  TokMxModel
core/terms.py          TokenNode.gen_token_from_json_data             397-405  TokMxModel
core/terms.py          TokenNode.__str__                              407-408  -
core/terms.py          TokenNode.__repr__                             410-411  -
core/terms.py          Window.__init__                                430-435  CorpusModel
core/terms.py          Window.init_span                               438-442  CorpusModel
core/terms.py          Window.update                                  444-465  CorpusModel
core/terms.py          Window.__repr__                                467-470  CorpusModel
core/terms.py          Window.__str__                                 472-473  CorpusModel
core/terms.py          Getter.__init__                                478-495  GetModel
core/terms.py          Getter.init_machine                            497-498  GetModel
core/terms.py          Getter.word_line_machine                       500-501  GetModel
core/terms.py          Getter.token_line_machine                      503-506  GetModel
core/terms.py          Getter.separator_line_machine                  508-509  GetModel
core/terms.py          Getter.left_bound_machine                      511-512  GetModel
core/terms.py          Getter.right_bound_machine                     514-515  GetModel
core/terms.py          Getter.single_bound_machine                    517-518  GetModel
core/terms.py          Getter.word                                    521-522  GetModel
core/terms.py          Getter.pos                                     525-526  GetModel
core/terms.py          Getter.lemma                                   529-530  GetModel
core/terms.py          Getter.get_func                                533-551  GetModel
core/terms.py          Getter.get_type                                553-554  GetModel
core/terms.py          Getter.get_token                               556-557  GetModel
core/terms.py          Getter.get_item                                559-568  GetModel
core/terms.py          CorpusFormatter.__init__                       574-638  ConfModel
core/terms.py          CorpusFormatter.match_line                     640-650  ConfModel, CorpusModel
core/terms.py          CorpusFormatter.separator_line_machine         652-653  ConfModel, CorpusModel
core/terms.py          CorpusFormatter.left_bound_machine             655-656  ConfModel
core/terms.py          CorpusFormatter.right_bound_machine            658-659  ConfModel
core/terms.py          CorpusFormatter.single_bound_machine           661-662  ConfModel
core/terms.py          CorpusFormatter.get                            664-674  ConfModel, DepModel
core/terms.py          CorpusFormatter.get_type                       676-678  ConfModel, CorpusModel
core/terms.py          CorpusFormatter.get_token                      680-683  ConfModel
core/terms.py          CorpusFormatter.get_colloc                     685-687  ConfModel, CorpusModel
core/terms.py          Sentence.__init__                              691-694  BasModel, GetModel
core/terms.py          Sentence.parse                                 696-703  BasModel, GetModel
core/terms.py          Sentence.get_content                           705-706  BasModel, GetModel
core/terms.py          PathTemplate.__init__                          711-713  BasModel, PatModel
core/terms.py          PathTemplate.len                               718-719  BasModel, PatModel
core/terms.py          PathTemplate.match_node                        721-723  BasModel, PatModel
core/terms.py          PathTemplate.match_edge                        725-727  BasModel, PatModel
core/terms.py          PathTemplate.__str__                           729-734  BasModel, PatModel
core/terms.py          Path.__init__                                  739-741  BasModel, GetModel
core/terms.py          Path.len                                       744-748  BasModel, GetModel
core/terms.py          Path.size                                      751-753  BasModel, GetModel
core/terms.py          Path.add_path                                  755-763  BasModel, GetModel
core/terms.py          Path.save                                      765-766  BasModel, GetModel
core/terms.py          Path.load                                      769-770  BasModel, GetModel
core/handler.py        Paralleler.__init__                             86-94   ConfModel, ParModel, TmpModel
core/handler.py        Paralleler.pid                                  97-98   -
core/handler.py        Paralleler.subtmpdir                           101-107  TmpModel
core/handler.py        Paralleler.process                             109-154  ParModel
core/handler.py        Paralleler._job_producer                       156-177  ParModel
core/handler.py        Paralleler._worker_loop                        179-194  -
core/handler.py        Paralleler._do_process_job                     196-198  -
core/handler.py        Paralleler._process_results                    200-202  -
core/handler.py        BaseHandler.__init__                           244-273  ConfModel
core/handler.py        BaseHandler.prepare_fnames                     275-299  ConfModel
core/handler.py        BaseHandler.process                            301-302  -
core/handler.py        BaseHandler._do_process_job                    304-305  -
core/handler.py        BaseHandler._worker_loop                       307-308  -
core/handler.py        BaseHandler._process_results                   310-311  -
core/handler.py        BaseHandler.update_one_file                    313-340  ConfModel, CorpusModel
core/handler.py        BaseHandler.process_right_window               342-343  -
core/handler.py        BaseHandler.update_one_match                   345-346  -
core/matrix.py         check_symmetric                                 66-69   DenseModel
core/matrix.py         empty_row_idx                                   72-79   CatModel
core/matrix.py         merges_matrices                                 82-83   -
core/matrix.py         BaseMatrix.get_matrix                           87-99   -
core/matrix.py         BaseMatrix.transpose                           101-110  -
core/matrix.py         BaseMatrix.svd                                 112-123  -
core/matrix.py         reorder_matrix                                 126-145  CatModel
core/matrix.py         SparseMatrix.__init__                          150-151  -
core/matrix.py         SparseMatrix.dataframe                         154-155  -
core/matrix.py         SparseMatrix.__getitem__                       157-158  IdxModel
core/matrix.py         SparseMatrix._get_value                        160-179  CatModel, IdxModel
core/matrix.py         SparseMatrix.multiply                          181-207  MxModel
core/matrix.py         SparseMatrix.__lt__                            209-214  MxModel
core/matrix.py         SparseMatrix.__le__                            216-221  MxModel
core/matrix.py         SparseMatrix.__gt__                            223-228  MxModel
core/matrix.py         SparseMatrix.__ge__                            230-235  MxModel
core/matrix.py         SparseMatrix._operator_positive                237-258  MxModel
core/matrix.py         SparseMatrix.submatrix                         260-293  CatModel, MxModel
core/matrix.py         SparseMatrix.reorder                           295-305  CatModel
core/matrix.py         SparseMatrix.controid                          307-322  -
core/matrix.py         SparseMatrix.empty_rows                        324-349  MxModel
core/matrix.py         SparseMatrix.drop_zero_rows                    351-359  MxModel, ShowModel
core/matrix.py         SparseMatrix.drop_zero_cols                    361-369  ShowModel
core/matrix.py         SparseMatrix.most_similar                      371-372  -
core/matrix.py         SparseMatrix.merge                             374-395  MxModel
core/matrix.py         SparseMatrix._merge_matrix_dict                398-416  MxModel
core/matrix.py         SparseMatrix.concatenate                       418-431  CatModel
core/matrix.py         SparseMatrix.transpose                         433-434  CatModel
core/matrix.py         SparseMatrix.equal                             436-439  MxModel
core/matrix.py         SparseMatrix.get_colloc_contexts               441-448  DenseModel
core/matrix.py         NormalMatrix.__init__                          453-454  DenseModel
core/matrix.py         NormalMatrix.dataframe                         457-458  DenseModel
core/matrix.py         NormalMatrix.__getitem__                       460-461  DenseModel, IdxModel
core/matrix.py         NormalMatrix._get_value                        463-464  DenseModel, IdxModel
core/matrix.py         NormalMatrix.multiply                          466-467  DenseModel
core/matrix.py         NormalMatrix.__lt__                            469-470  DenseModel
core/matrix.py         NormalMatrix.__le__                            472-473  DenseModel
core/matrix.py         NormalMatrix.__gt__                            475-476  DenseModel
core/matrix.py         NormalMatrix.__ge__                            478-479  DenseModel
core/matrix.py         NormalMatrix.reorder                           481-491  DenseModel
core/matrix.py         NormalMatrix.submatrix                         493-515  DenseModel
core/matrix.py         NormalMatrix.empty_rows                        517-518  DenseModel
core/matrix.py         NormalMatrix.merge                             520-521  DenseModel
core/matrix.py         NormalMatrix.concatenate                       523-534  DenseModel
core/matrix.py         NormalMatrix.transpose                         536-537  DenseModel
core/matrix.py         NormalMatrix.equal                             539-542  DenseModel
core/matrix.py         NormalMatrix.get_colloc_contexts               544-545  DenseModel
core/matrix.py         NormalMatrix.most_similar                      547-548  DenseModel
core/matrix.py         SquareMatrix.__init__                          553-554  DenseModel
core/matrix.py         SquareMatrix.dataframe                         557-558  DenseModel
core/matrix.py         SquareMatrix.__getitem__                       560-561  DenseModel, IdxModel
core/matrix.py         SquareMatrix._get_value                        563-564  DenseModel, IdxModel
core/matrix.py         SquareMatrix.multiply                          566-567  DenseModel
core/matrix.py         SquareMatrix.__lt__                            569-570  DenseModel
core/matrix.py         SquareMatrix.__le__                            572-573  DenseModel
core/matrix.py         SquareMatrix.__gt__                            575-576  DenseModel
core/matrix.py         SquareMatrix.__ge__                            578-579  DenseModel
core/matrix.py         SquareMatrix.reorder                           581-582  DenseModel
core/matrix.py         SquareMatrix.submatrix                         584-598  DenseModel
core/matrix.py         SquareMatrix.merge                             600-601  DenseModel
core/matrix.py         SquareMatrix.concatenate                       603-604  DenseModel
core/matrix.py         SquareMatrix.transpose                         606-607  DenseModel
core/matrix.py         SquareMatrix.equal                             609-612  DenseModel
core/matrix.py         SquareMatrix.get_colloc_contexts               614-615  DenseModel, MxSimModel
core/matrix.py         SquareMatrix.most_similar                      617-644  DenseModel, MxSimModel
core/matrix.py         TypeTokenMatrix.__init__                       671-700  CatModel, DenseModel, MxModel
core/matrix.py         TypeTokenMatrix.shape                          703-704  -
core/matrix.py         TypeTokenMatrix.rowid2item                     707-708  -
core/matrix.py         TypeTokenMatrix.colid2item                     711-712  -
core/matrix.py         TypeTokenMatrix.item2rowid                     715-726  ShowModel
core/matrix.py         TypeTokenMatrix.item2colid                     729-740  ShowModel
core/matrix.py         TypeTokenMatrix.meta_data                      743-750  -
core/matrix.py         TypeTokenMatrix.dataframe                      753-758  ShowModel
core/matrix.py         TypeTokenMatrix.get_matrix                     760-761  -
core/matrix.py         TypeTokenMatrix.__getitem__                    763-764  -
core/matrix.py         TypeTokenMatrix._get_value                     766-802  CatModel, DenseModel, IdxModel, MxModel
core/matrix.py         TypeTokenMatrix.multiply                       804-807  DenseModel, MxModel
core/matrix.py         TypeTokenMatrix.__lt__                         809-813  DenseModel, MxModel
core/matrix.py         TypeTokenMatrix.__le__                         815-819  DenseModel, MxModel
core/matrix.py         TypeTokenMatrix.__gt__                         821-825  DenseModel, MxModel
core/matrix.py         TypeTokenMatrix.__ge__                         827-831  DenseModel, MxModel
core/matrix.py         TypeTokenMatrix.sum                            836-870  CatModel, DenseModel, EndModel, MxModel
core/matrix.py         TypeTokenMatrix.submatrix                      872-943  CatModel, DenseModel, MxModel, TutModel
core/matrix.py         TypeTokenMatrix.most_similar                   945-970  MxSimModel
core/matrix.py         TypeTokenMatrix.sample                         972-999  DenseModel
core/matrix.py         TypeTokenMatrix.reorder                       1001-1037 CatModel, DenseModel, MxModel
core/matrix.py         TypeTokenMatrix._reorder_verbose              1039-1084 ShowModel
core/matrix.py         TypeTokenMatrix.empty_rows                    1086-1104 MxModel
core/matrix.py         TypeTokenMatrix.drop_empty                    1106-1124 MxModel
core/matrix.py         TypeTokenMatrix.count_nonzero                 1126-1130 MxModel
core/matrix.py         TypeTokenMatrix.drop                          1132-1163 MxModel, TutModel
core/matrix.py         TypeTokenMatrix.drop_empty_rows               1165-1180 MxModel
core/matrix.py         TypeTokenMatrix.drop_zero_rows                1182-1184 ShowModel
core/matrix.py         TypeTokenMatrix.merge                         1186-1197 MxModel
core/matrix.py         TypeTokenMatrix.concatenate                   1199-1223 CatModel, DenseModel, MxModel
core/matrix.py         TypeTokenMatrix.transpose                     1225-1227 CatModel, DenseModel, MxModel
core/matrix.py         TypeTokenMatrix.equal                         1229-1234 DenseModel, MxModel
core/matrix.py         TypeTokenMatrix.get_colloc_contexts           1236-1252 DenseModel
core/matrix.py         TypeTokenMatrix.todense                       1254-1255 DenseModel
core/matrix.py         TypeTokenMatrix.copy                          1257-1258 -
core/matrix.py         TypeTokenMatrix.deepcopy                      1260-1261 -
core/matrix.py         TypeTokenMatrix.to_csv                        1263-1282 ShowModel
core/matrix.py         TypeTokenMatrix.read_csv                      1285-1305 ShowModel
core/matrix.py         TypeTokenMatrix.from_dataframe                1308-1314 ShowModel
core/matrix.py         TypeTokenMatrix.save                          1316-1366 MxFileModel
core/matrix.py         TypeTokenMatrix.load                          1369-1422 MxFileModel
core/matrix.py         TypeTokenMatrix.describe                      1424-1437 ShowModel
core/matrix.py         TypeTokenMatrix.__str__                       1439-1440 ShowModel
core/matrix.py         TypeTokenMatrix.__repr__                      1442-1443 ShowModel
core/matrix.py         TypeTokenMatrix.print_matrix                  1445-1499 ShowModel
core/matrix.py         TypeTokenMatrix.spmatrix_to_dict              1501-1503 ShowModel
core/graph.py          Graph.__init__                                  39-51   BasModel, PatModel
core/graph.py          Graph.nodes                                     54-55   BasModel, PatModel
core/graph.py          Graph.edges                                     58-59   BasModel, PatModel
core/graph.py          Graph.add_node                                  61-66   BasModel, PatModel
core/graph.py          Graph.add_edge                                  68-70   BasModel, PatModel
core/graph.py          Graph.build_graph_raw                           72-97   BasModel, PatModel
core/graph.py          Graph.build_graph                               99-116  BasModel, PatModel
core/graph.py          Graph.match                                    118-130  BasModel, PatModel
core/graph.py          Graph.__repr__                                 132-140  BasModel, GrfModel
core/graph.py          DiGraph.__init__                               149-151  -
core/graph.py          DiGraph.nodes                                  154-155  -
core/graph.py          DiGraph.edges                                  158-160  -
core/graph.py          DiGraph.istree                                 163-168  DepModel
core/graph.py          DiGraph.out_degree                             170-171  -
core/graph.py          DiGraph.in_degree                              173-174  -
core/graph.py          DiGraph.successors                             176-177  -
core/graph.py          DiGraph.predecessors                           179-180  -
core/graph.py          DiGraph.add_node                               182-184  GrfModel
core/graph.py          DiGraph.add_edge                               186-188  GrfModel
core/graph.py          DiGraph.__repr__                               190-198  GrfModel
core/graph.py          SentenceGraph.__init__                         202-225  DepModel
core/graph.py          SentenceGraph.generate_graph                   227-231  DepModel
core/graph.py          SentenceGraph.build_graph                      233-266  DepModel
core/graph.py          SentenceGraph.match_pattern                    268-282  -
core/graph.py          SentenceGraph.match_target_feature             284-307  PatModel
core/graph.py          SentenceGraph.show                             309-310  -
core/graph.py          SentenceGraph.__repr__                         312-325  GrfModel
core/graph.py          match_sub_template                             328-379  BasModel, GrfModel
core/graph.py          PatternGraph.__init__                          386-426  PatModel
core/graph.py          PatternGraph.islinear                          429-456  DepModel
core/graph.py          PatternGraph.match_node                        458-480  DepModel
core/graph.py          PatternGraph.match_edge                        482-501  DepModel
core/graph.py          PatternGraph.show                              503-504  -
core/graph.py          PatternGraph.read_csv                          507-544  PatModel
core/graph.py          PatternGraph.read_graphml                      547-598  PatModel
core/graph.py          PatternGraph.__repr__                          600-601  -
core/graph.py          MacroGraph.__init__                            615-650  DepModel
core/graph.py          MacroGraph.size                                653-654  -
core/graph.py          MacroGraph.target                              656-677  DepModel
core/graph.py          MacroGraph.feature                             679-684  DepModel
core/graph.py          MacroGraph.feature_simple                      686-701  DepModel
core/graph.py          MacroGraph.feature_full                        703-718  DepModel
core/graph.py          MacroGraph.preorder_recur                      720-759  DepModel
core/graph.py          MacroGraph.get_node_repr                       761-772  DepModel
core/graph.py          MacroGraph.get_edge_repr                       774-785  DepModel
core/graph.py          MacroGraph.feature_old                         787-851  GrfModel
core/graph.py          MacroGraph.set_feature                         853-864  GrfModel
core/graph.py          MacroGraph.set_target                          866-867  GrfModel
core/graph.py          MacroGraph.add_match                           869-880  GrfModel
core/graph.py          MacroGraph.show                                882-883  -
core/graph.py          MacroGraph.show_match                          885-886  -
core/graph.py          MacroGraph.read_csv                            890-897  PatModel
core/graph.py          MacroGraph.read_xml                            900-974  PatModel
core/graph.py          MacroGraph.parse_macro_xml                     977-1025 PatModel
core/graph.py          MacroGraph.__repr__                           1027-1032 -
specutils/mxutils.py   transform_dict_to_spmatrix                      37-98   MxModel, MxTypedModel
specutils/mxutils.py   transform_spmatrix_to_dict                     101-132  MxModel
specutils/mxutils.py   transform_nodes_to_matrix                      135-167  TokMxModel
specutils/mxutils.py   merge_two_matrices                             170-209  MxModel
specutils/mxutils.py   transform_indices                              212-220  MxModel
specutils/mxutils.py   merge_matrices                                 223-270  MxModel
specutils/mxutils.py   merge_matrix_dict                              273-290  MxModel
specutils/mxutils.py   get_largest_k                                  293-302  MxSimModel
specutils/mxutils.py   get_smallest_k                                 305-312  MxSimModel
specutils/mxutils.py   centroid_of_cluster                            315-333  ComModel
specutils/mxutils.py   sum_of_cluster                                 336-342  ComModel
specutils/mxcalc.py    compute_ppmi                                    41-83   CalcModel, EndModel
specutils/mxcalc.py    compute_association                             87-123  CalcModel, EndModel, TutModel
specutils/mxcalc.py    calc_association                               126-201  AscModel, CalcModel
specutils/mxcalc.py    pairwise_association                           205-222  AscModel
specutils/mxcalc.py    calc_pmi                                       225-238  CalcModel
specutils/mxcalc.py    calc_ppmi                                      241-245  CalcModel
specutils/mxcalc.py    calc_lik                                       248-264  CalcModel
specutils/mxcalc.py    calc_chisq                                     267-274  CalcModel
specutils/mxcalc.py    calc_zscore                                    277-284  CalcModel
specutils/mxcalc.py    calc_mi                                        287-292  AscModel
specutils/mxcalc.py    calc_dice                                      295-300  CalcModel
specutils/mxcalc.py    calc_deltap                                    303-306  CalcModel
specutils/mxcalc.py    calc_deltap_coll                               309-312  CalcModel
specutils/mxcalc.py    calc_log_ratio                                 315-320  CalcModel
specutils/mxcalc.py    entropy                                        323-328  CalcModel
specutils/mxcalc.py    adjust_val                                     331-337  CalcModel
specutils/mxcalc.py    compute_distance                               341-385  CalcVecModel, TutModel
specutils/mxcalc.py    calc_distance                                  388-391  AscModel
specutils/mxcalc.py    compute_cos                                    394-395  AscModel
specutils/mxcalc.py    compute_cosine                                 399-427  CalcVecModel
specutils/mxcalc.py    compute_simrank                                431-459  CalcVecModel
specutils/mxcalc.py    compute_token_weights                          462-529  CalcVecModel, TutModel
specutils/mxcalc.py    compute_token_vectors                          532-599  CalcVecModel, TutModel
specutils/mxcalc.py    dot_addition                                   602-607  CalcVecModel
specutils/mxcalc.py    dot_multiplication                             610-621  CalcVecModel
specutils/deputils.py  find_arrow                                      41-54   PatModel
specutils/deputils.py  parse_sub                                       57-93   PatModel
specutils/deputils.py  parse_pattern                                   96-118  PatModel
specutils/deputils.py  get_root                                       121-131  DepModel
specutils/deputils.py  get_depth                                      134-143  DepModel
specutils/deputils.py  get_depth_of_node                              146-158  DepModel
specutils/deputils.py  tree_match                                     161-192  DepModel
specutils/deputils.py  subtree_match                                  195-237  DepModel
specutils/deputils.py  add_match                                      240-267  CpyModel, DepModel
specutils/deputils.py  match_level                                    270-308  DepModel
specutils/deputils.py  match_successors                               311-360  DepModel
specutils/deputils.py  match_graph                                    363-385  PatModel
specutils/deputils.py  match_path                                     388-422  PatModel
specutils/deputils.py  draw_tree                                      426-453  -
specutils/deputils.py  draw_match                                     456-473  -
specutils/deputils.py  draw_labels                                    476-497  -
models/typetoken.py    ItemFreqHandler.__init__                        78-79   -
models/typetoken.py    ItemFreqHandler.build_item_freq                 81-102  -
models/typetoken.py    ItemFreqHandler.process                        104-105  -
models/typetoken.py    ItemFreqHandler._worker_loop                   107-124  ParModel
models/typetoken.py    ItemFreqHandler._do_process_job                126-144  CorpusModel
models/typetoken.py    ItemFreqHandler.update_one_file                146-166  CorpusModel
models/typetoken.py    ItemFreqHandler._process_results               168-181  CorpusModel
models/typetoken.py    ColFreqHandler.__init__                        188-192  HndModel
models/typetoken.py    ColFreqHandler.nocolvocab                      195-196  HndModel, ParColModel
models/typetoken.py    ColFreqHandler.build_col_freq                  198-223  EndModel, HndModel
models/typetoken.py    ColFreqHandler.process                         225-226  EndModel
models/typetoken.py    ColFreqHandler._worker_loop_with_colvocab      228-287  CorpusModel, EndModel, ParColModel, TmpModel
models/typetoken.py    ColFreqHandler._worker_loop_without_colvocab   289-332  EndModel, ParColModel, TmpModel
models/typetoken.py    ColFreqHandler._worker_loop                    336-350  -
models/typetoken.py    ColFreqHandler._do_process_job                 352-356  -
models/typetoken.py    ColFreqHandler.update_one_file                 358-359  -
models/typetoken.py    ColFreqHandler.update_one_match                361-423  CorpusModel
models/typetoken.py    ColFreqHandler.process_right_window            425-446  CorpusModel
models/typetoken.py    ColFreqHandler._process_results                448-473  ParColModel, TmpModel
models/typetoken.py    ColFreqHandler.dict2matrix                     476-478  -
models/typetoken.py    TokenHandler.__init__                          486-510  CorpusModel
models/typetoken.py    TokenHandler.retrieve_tokens                   512-533  TokMxModel
models/typetoken.py    TokenHandler.process                           535-536  -
models/typetoken.py    TokenHandler._worker_loop                      538-562  ParModel
models/typetoken.py    TokenHandler._do_process_job                   564-566  -
models/typetoken.py    TokenHandler.update_one_file                   568-569  -
models/typetoken.py    TokenHandler.update_one_match                  571-616  CorpusModel, TokMxModel
models/typetoken.py    TokenHandler.process_right_window              618-641  CorpusModel
models/typetoken.py    TokenHandler._process_results                  643-658  ParModel, TokMxModel
models/typetoken.py    TypeVectorizer.__init__                        739-757  PipeModel
models/typetoken.py    TypeVectorizer.get_settings                    759-760  -
models/typetoken.py    TypeVectorizer.build_vocab                     762-777  TokMxModel
models/typetoken.py    TypeVectorizer.fit                             779-803  TokMxModel
models/typetoken.py    TypeVectorizer.vectorize                       805-818  AscModel
models/typetoken.py    TokenVectorizer.__init__                       822-838  PipeModel
models/typetoken.py    TokenVectorizer.get_settings                   840-841  -
models/typetoken.py    TokenVectorizer.retrieve_tokens                843-857  TokMxModel
models/typetoken.py    TokenVectorizer.generate_vectors               859-892  PipeModel
models/typetoken.py    TypeToken.__init__                             911-925  PipeModel
models/typetoken.py    TypeToken.get_settings                         927-928  -
models/typetoken.py    TypeToken.get_vocab                            930-931  PipeModel
models/typetoken.py    TypeToken.build_frequency_list                 933-935  PipeModel
models/typetoken.py    TypeToken.build_vocab                          937-964  PipeModel
models/typetoken.py    TypeToken.build_col_freq                       966-972  PipeModel
models/typetoken.py    TypeToken.compute_association                  974-989  PipeModel
models/typetoken.py    TypeToken.compute_similarity                   991-1011 PipeModel
models/typetoken.py    TypeToken.compute_distance                    1013-1028 PipeModel
models/typetoken.py    TypeToken.compute_simrank                     1030-1045 PipeModel
models/typetoken.py    TypeToken.select_types                        1047-1063 PipeModel
models/typetoken.py    TypeToken.retrieve_tokens                     1065-1074 PipeModel
models/typetoken.py    TypeToken.build_token_weights                 1076-1106 PipeModel
models/typetoken.py    TypeToken.build_token_vectors                 1108-1130 PipeModel
models/typetoken.py    TypeToken.read_queries                        1132-1139 -
models/typetoken.py    TypeToken.fetch_tokens                        1141-1147 PipeModel
models/typetoken.py    TypeToken.sample_tokens                       1149-1154 PipeModel
models/typetoken.py    TypeToken.make_token_colloc                   1156-1175 TokMxModel
models/typetoken.py    read_token_colloc                             1178-1209 TokMxModel
models/typetoken.py    build_tc_weight_matrix                        1213-1243 PipeModel
models/deprel.py       DepRelHandler.__init__                          46-60   DepModel
models/deprel.py       DepRelHandler.read_templates                    62-103  CpyModel, DepModel
models/deprel.py       DepRelHandler.build_dependency                 105-145  DepModel
models/deprel.py       DepRelHandler.build_matrix_by_matches          147-163  DepModel
models/deprel.py       DepRelHandler.process                          165-170  -
models/deprel.py       DepRelHandler._worker_loop                     172-192  CpyModel, DepModel
models/deprel.py       DepRelHandler._do_process_job                  194-216  CpyModel, DepModel
models/deprel.py       DepRelHandler.update_dep_rel                   218-224  -
models/deprel.py       DepRelHandler.update_dep_rel_type              226-245  DepModel
models/deprel.py       DepRelHandler.update_dep_rel_token             247-267  DepModel
models/deprel.py       DepRelHandler._process_results                 269-276  DepModel
models/deprel.py       read_sentence                                  279-307  DepModel
models/cbc.py          CBC.__init__                                    63-146  AscModel, CbcOrdModel
models/cbc.py          CBC.cluster                                    148-216  CbcModel
models/cbc.py          major_steps                                    219-287  CbcModel, CbcOrdModel
models/cbc.py          cbc_step1_multicore                            290-347  CbcModel
models/cbc.py          cbc_step1_call                                 350-387  CbcModel, CbcOrdModel
models/cbc.py          cbc_step1_single                               390-446  CbcModel, CbcOrdModel
models/cbc.py          cbc_step2                                      449-543  CbcModel
models/cbc.py          get_merged_committee                           546-590  CbcModel
models/cbc.py          clean_clusters                                 593-640  CbcModel
models/cbc.py          remove_duplicate                               643-658  CbcModel
models/cbc.py          remove_singleton                               661-669  CbcModel
models/cbc.py          remove_superset                                672-692  CbcModel
models/cbc.py          inverted_index                                 695-701  CbcModel
models/cbc.py          calc_committee_vectors                         704-738  ComModel
models/cbc.py          cbc_step3_old                                  741-795  ComModel
models/cbc.py          cbc_step3                                      798-844  CbcModel
models/cbc.py          cluster_similar_elements                       847-906  CbcModel
models/cbc.py          sub2glb                                        909-928  CbcModel
models/cbc.py          hierarchical_cluster                           931-960  CbcModel
models/cbc.py          flat_cluster                                   963-1033 CbcModel
models/cbc.py          score_cluster                                 1036-1087 CbcModel
models/cbc.py          cluster_avgsim                                1090-1118 CbcModel
models/cbc.py          average_similarity                            1121-1139 CbcModel
models/cbc.py          square_to_condensed                           1142-1147 CbcModel
models/cbc.py          calc_meas_vec                                 1150-1180 ComModel
models/cbc.py          reverse                                       1183-1202 ComModel
models/cbc.py          save_committees_json                          1205-1208 -
models/cbc.py          save_residues_json                            1211-1214 -
deprel/basic.py        Sentence.__init__                               36-39   BasModel
deprel/basic.py        Sentence.parse                                  41-48   BasModel
deprel/basic.py        Sentence.get_content                            50-51   BasModel
deprel/basic.py        Graph.__init__                                  55-67   BasModel
deprel/basic.py        Graph.nodes                                     70-71   BasModel
deprel/basic.py        Graph.edges                                     74-75   BasModel
deprel/basic.py        Graph.add_node                                  77-82   BasModel
deprel/basic.py        Graph.add_edge                                  84-86   BasModel
deprel/basic.py        Graph.build_graph_raw                           88-113  BasModel
deprel/basic.py        Graph.build_graph                              115-132  BasModel
deprel/basic.py        Graph.match                                    134-146  BasModel
deprel/basic.py        Graph.__repr__                                 148-156  BasModel
deprel/basic.py        PathTemplate.__init__                          161-163  BasModel, DrlModel
deprel/basic.py        PathTemplate.len                               168-169  BasModel, DrlModel
deprel/basic.py        PathTemplate.match_node                        171-173  BasModel, DrlModel
deprel/basic.py        PathTemplate.match_edge                        175-177  BasModel, DrlModel
deprel/basic.py        PathTemplate.__str__                           179-184  BasModel, DrlModel
deprel/basic.py        Path.__init__                                  189-191  BasModel
deprel/basic.py        Path.len                                       194-198  BasModel
deprel/basic.py        Path.size                                      201-203  BasModel
deprel/basic.py        Path.add_path                                  205-213  BasModel
deprel/basic.py        Path.save                                      215-216  BasModel
deprel/basic.py        Path.load                                      219-220  BasModel
deprel/basic.py        DiGraph.__init__                               224-226  -
deprel/basic.py        DiGraph.nodes                                  229-230  -
deprel/basic.py        DiGraph.edges                                  233-235  -
deprel/basic.py        DiGraph.istree                                 238-240  BasModel
deprel/basic.py        DiGraph.out_degree                             242-243  -
deprel/basic.py        DiGraph.in_degree                              245-246  -
deprel/basic.py        DiGraph.successors                             248-249  -
deprel/basic.py        DiGraph.predcessors                            251-252  -
deprel/basic.py        DiGraph.add_node                               254-256  BasModel
deprel/basic.py        DiGraph.add_edge                               258-260  BasModel
deprel/basic.py        DiGraph.__repr__                               262-270  BasModel
deprel/basic.py        SentenceGraph.__init__                         274-290  BasModel
deprel/basic.py        SentenceGraph.generate_graph                   292-296  BasModel
deprel/basic.py        SentenceGraph.build_graph                      298-320  BasModel
deprel/basic.py        SentenceGraph.match_feature                    322-324  BasModel
deprel/basic.py        SentenceGraph.match_target_feature             326-349  BasModel
deprel/basic.py        SentenceGraph.show                             351-352  -
deprel/basic.py        SentenceGraph.__repr__                         354-367  BasModel
deprel/basic.py        match_sub_template                             370-421  BasModel
deprel/basic.py        TemplateGraph.__init__                         426-445  BasModel
deprel/basic.py        TemplateGraph.islinear                         448-475  BasModel
deprel/basic.py        TemplateGraph.match_node                       477-479  BasModel
deprel/basic.py        TemplateGraph.match_edge                       481-483  BasModel
deprel/basic.py        TemplateGraph.show                             485-486  -
deprel/basic.py        FeatureGraph.__init__                          498-522  BasModel
deprel/basic.py        FeatureGraph.size                              525-526  BasModel
deprel/basic.py        FeatureGraph.set_feature                       528-540  BasModel
deprel/basic.py        FeatureGraph.set_target                        542-543  -
deprel/basic.py        FeatureGraph.add_match                         545-556  -
deprel/basic.py        FeatureGraph.show                              558-559  -
deprel/basic.py        FeatureGraph.show_match                        561-562  -
deprel/basic.py        get_root                                       566-576  BasModel
deprel/basic.py        get_depth                                      579-588  BasModel
deprel/basic.py        get_depth_of_node                              591-603  BasModel
deprel/basic.py        tree_match                                     606-630  BasModel
deprel/basic.py        subtree_match                                  633-679  BasModel
deprel/basic.py        match_level                                    682-717  BasModel
deprel/basic.py        match_successors                               720-766  BasModel
deprel/deputils.py     split_large_file                                34-53   DrlModel
deprel/deputils.py     read_nodes                                      87-101  DrlModel
deprel/deputils.py     process_sentence                               104-128  DrlModel
deprel/deputils.py     cartesian_product                              131-144  DrlModel
deprel/deputils.py     judgeOut                                       147-162  DrlModel
deprel/deputils.py     judgeIn                                        165-189  DrlModel
deprel/deputils.py     judgeIn_v1                                     192-207  DrlModel
deprel/deputils.py     group                                          210-215  DrlModel
deprel/deputils.py     outMap                                         218-221  DrlModel
deprel/dephandler.py   DepRelManager.__init__                          44-51   -
deprel/dephandler.py   DepRelManager.read_template                     53-72   DrlModel
deprel/dephandler.py   DepRelManager.read_features                     74-81   DrlModel
deprel/dephandler.py   DepRelManager.process                           83-111  DrlModel
deprel/dephandler.py   DepRelManager._worker_loop                     113-126  DrlModel
deprel/dephandler.py   DepRelManager._job_producer                    128-135  DrlModel
deprel/dephandler.py   DepRelManager._do_process_job                  137-138  DrlModel
deprel/dephandler.py   DepRelManager._get_thread_working_mem          140-141  -
deprel/dephandler.py   DepRelManager.build_dep_rel                    143-184  DrlModel
deprel/dephandler.py   DepRelManager.do_job_single                    186-202  DrlModel
deprel/dephandler.py   DepRelManager.merge_results                    204-232  DrlModel
deprel/dephandler.py   update_dep_rel_caller                          235-281  DrlModel
