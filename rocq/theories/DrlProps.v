(** * Claims C173-C174: deprel/deputils.py and the DepRelManager of deprel/dephandler.py. *)
From Coq Require Import String NArith ZArith Bool Arith Lia List.
From Verif Require Import Base BaseLemmas Str StrLemmas VocabModel DrlModel DrlSpec DrlProofs DrlProofs2.
Import ListNotations.
Local Open Scope string_scope.
Local Open Scope nat_scope.
Local Open Scope list_scope.

(** ** C173: helpers of deprel/deputils.py *)
(** split_large_file: the files are consecutive blocks of 100000 sentences, from the first line on; *)
Theorem C173_split : forall lines, exists blocks rest k,
  lines = concat blocks ++ rest /\ Forall (block (N.to_nat 100000)) blocks /\ n_ends rest k /\ k < N.to_nat 100000 /\
  split_large_file lines = map as_file blocks.
Proof.
  intros lines. assert (H : 0 < N.to_nat 100000) by lia.
  pose proof (split_blocks (N.to_nat 100000) lines H) as X. rewrite N2Nat.id in X. exact X.
Qed.
Print Assumptions C173_split.
(** what follows the last full block is in no file: a corpus of fewer sentences gives none at all. *)
Theorem C173_split_refuted : forall lines rest k, (exists j, n_ends lines (j * N.to_nat 100000)) -> n_ends rest k -> k < N.to_nat 100000 ->
  split_large_file (lines ++ rest) = split_large_file lines.
Proof.
  intros lines rest k Hj Hr Hk. assert (H : 0 < N.to_nat 100000) by lia.
  pose proof (split_rest_lost (N.to_nat 100000) lines rest k H Hr Hk Hj) as X. rewrite N2Nat.id in X. exact X.
Qed.
Print Assumptions C173_split_refuted.
(** The same for blocks of any size *)
Theorem C173_split_count : forall n lines k, 0 < n -> n_ends lines k -> length (split_every (N.of_nat n) lines) = k / n.
Proof. exact @split_count. Qed.
Print Assumptions C173_split_count.
Example C173_example_split :
  split_every 2 (map u ["<s id=1>"; "a"; "</s>"; "<s>"; " b "; "</s>"; "<s>"; "c"; "</s>"])%string
  = [join 10%N (map u ["<s id=1>"; "a"; "</s>"; "<s>"; "b"; "</s>"])]%string.
Proof. reflexivity. Qed.
(** A corpus of one sentence: no file *)
Example C173_example_lost : split_large_file (map u ["<s>"; "a"; "</s>"])%string = [].
Proof. reflexivity. Qed.
Example C173_hypotheses_split : n_ends (map u ["<s>"; "a"; "</s>"])%string 1 /\ n_ends [] (0 * N.to_nat 100000).
Proof.
  split; [|rewrite Nat.mul_0_l; constructor]. apply ends_other; [intros (t & E); discriminate E|]. apply ends_other; [intros (t & E); discriminate E|].
  apply ends_end; [now exists (u ">")|constructor].
Qed.

(** read_nodes: the last line of a name, and of an id, counts; one-to-one lists give inverse dictionaries; *)
Theorem C173_nodes : forall lines ps, Forall2 (fun l p => fields l [fst p; snd p]) lines ps ->
  exists n2i i2n, read_nodes lines = Ok (n2i, i2n) /\ (forall s, dget n2i s = last_fst ps s) /\ (forall i, dget i2n i = last_snd ps i).
Proof. exact @read_nodes_last. Qed.
Print Assumptions C173_nodes.
Theorem C173_nodes_inverse : forall lines ps, Forall2 (fun l p => fields l [fst p; snd p]) lines ps -> NoDup (map fst ps) -> NoDup (map snd ps) ->
  exists n2i i2n, read_nodes lines = Ok (n2i, i2n) /\ forall s i, (dget n2i s = Some i <-> In (s, i) ps) /\ (dget i2n i = Some s <-> In (s, i) ps).
Proof. exact @read_nodes_inverse. Qed.
Print Assumptions C173_nodes_inverse.
(** a line that has not two columns is a ValueError. *)
Theorem C173_nodes_bad : forall lines cs l, In l lines -> fields l cs -> cs <> [] -> length cs <> 2 -> read_nodes lines = Err ValueError.
Proof. exact @read_nodes_bad. Qed.
Print Assumptions C173_nodes_bad.
Definition two (a b : string) : pystr := u a ++ 9%N :: u b ++ [10%N].
Example C173_example_nodes : exists n2i i2n, read_nodes [two "a/DT" "4"; two "an/DT" "21"; two "a/DT" "5"] = Ok (n2i, i2n) /\
  dget n2i (u "a/DT") = Some (u "5") /\ dget i2n (u "4") = Some (u "a/DT") /\ dget i2n (u "21") = Some (u "an/DT").
Proof. eexists. eexists. split; [vm_compute; reflexivity|]. vm_compute. auto. Qed.
Example C173_hypotheses_nodes : fields (two "a/DT" "4") [u "a/DT"; u "4"] /\ fields (u "a b") [u "a b"].
Proof. split; split; try reflexivity; repeat constructor; cbn; intuition discriminate. Qed.

(** cartesian_product: all the ways of choosing one value for each key, in the order of the keys, the last key changing
    fastest *)
Theorem C173_product : forall (K V : Type) (eq_dec : EqDec K) (mapping : dict K (list V)), dwf mapping ->
  (forall d, In d (cartesian_product mapping) <-> choice mapping d) /\ ForallOrdPairs (before mapping) (cartesian_product mapping).
Proof. intros K V eq_dec m W. split; [now apply product_choices|now apply product_order]. Qed.
Print Assumptions C173_product.
(** The comment has the first key change fastest, and no value used twice. *)
Theorem C173_product_refuted :
  cartesian_product [(1, [1; 2]); (2, [3; 4])] <> [[(1, 1); (2, 3)]; [(1, 2); (2, 3)]; [(1, 1); (2, 4)]; [(1, 2); (2, 4)]] /\
  In [(1, 1); (2, 1)] (cartesian_product [(1, [1; 2]); (2, [1; 2])]).
Proof. split; [discriminate|]. vm_compute. auto. Qed.
Print Assumptions C173_product_refuted.
Example C173_example_product : cartesian_product [(1, [1; 2]); (2, [3; 4])] = [[(1, 1); (2, 3)]; [(1, 1); (2, 4)]; [(1, 2); (2, 3)]; [(1, 2); (2, 4)]].
Proof. reflexivity. Qed.
Example C173_hypotheses_product : dwf [(1, [1; 2]); (2, [3; 4])].
Proof. repeat constructor; cbn; intuition discriminate. Qed.

(** group: the sentences of every path *)
Theorem C173_group : forall (W P S : Type) (dp : EqDec P) (ds : EqDec S) (node : W) (pairs : list (P * S)), exists d, group (node, pairs) = (node, d) /\
  dwf d /\ (forall p, In p (dkeys d) <-> exists s, In (p, s) pairs) /\
  (forall p ss, dget d p = Some ss -> NoDup ss /\ forall s, In s ss <-> In (p, s) pairs).
Proof. intros W P S dp ds node pairs. eexists. split; [reflexivity|]. apply group_fold. Qed.
Print Assumptions C173_group.
Example C173_example_group : group (u "n", [(1, 7); (2, 7); (1, 8); (1, 7)]) = (u "n", [(1, [7; 8]); (2, [7])]).
Proof. reflexivity. Qed.

(** process_sentence, judgeOut, judgeIn, judgeIn_v1 and outMap return for no input: the names they use do not exist. *)
Theorem C173_sentence_refuted : forall (I : Type) line (item : I) r,
  process_sentence line <> Ok r /\ judge_out line <> Ok r /\ judge_in line <> Ok r /\ judge_in_v1 line <> Ok r /\ (forall s, out_map item <> Ok s).
Proof.
  intros I line item r. unfold process_sentence, judge_out, judge_in, judge_in_v1, on_sentence, out_map.
  destruct (split 58%N line) as [|a [|b [|c l]]]; repeat split; discriminate.
Qed.
Print Assumptions C173_sentence_refuted.
Theorem C173_sentence : forall sid edges, ~ In 58%N sid -> ~ In 58%N edges -> process_sentence (sid ++ 58%N :: edges) = Err NameError.
Proof.
  intros sid edges Hs He. unfold process_sentence, on_sentence. change (sid ++ 58%N :: edges) with (join 58%N [sid; edges]).
  now rewrite split_join by (auto; discriminate).
Qed.
Print Assumptions C173_sentence.
Example C173_example_sentence : process_sentence (u "12:1,det,2;2,nsubj,3") = Err NameError /\ process_sentence (u "12") = Err ValueError.
Proof. split; reflexivity. Qed.

(** ** C174: DepRelManager *)
(** A line node:edge:node:...:node gives the template with these nodes and edges, which prints as the line; *)
Theorem C174_template : forall line parts ns es, strip line = join 58%N parts -> Forall (fun c => ~ In 58%N c) parts -> alternates parts ns es ->
  template_of line = PT ns es /\ pt_str (template_of line) = Ok (strip line).
Proof. exact @template_line. Qed.
Print Assumptions C174_template.
(** an edge at the end is dropped. *)
Theorem C174_template_refuted : forall line parts e ns es, strip line = join 58%N (parts ++ [e]) -> Forall (fun c => ~ In 58%N c) (parts ++ [e]) -> alternates parts ns es ->
  template_of line = PT ns es /\ pt_str (template_of line) = Ok (join 58%N parts).
Proof. exact @template_dangling. Qed.
Print Assumptions C174_template_refuted.
(** read_template and read_features: what is given is stored; a file is only read by read_template. *)
Theorem C174_read : forall (MN ME : Type) (m : manager MN ME) lines fs,
  (fs <> [] -> forall o b, read_template o fs m = (Mgr (m_templates m) fs, Ok (inl fs)) /\ read_features b fs m = (Mgr (m_templates m) fs, Ok (Some fs))) /\
  (exists ts, read_template (Some lines) [] m = (Mgr ts (m_features m), Ok (inr ts)) /\ Forall2 (fun l t => t = template_of l) lines ts) /\
  read_template None [] m = (m, Err ValueError) /\ read_features false [] m = (m, Err ValueError) /\ read_features true [] m = (m, Ok None).
Proof.
  intros MN ME m lines fs. split; [intros H o b; destruct fs; [congruence|split; reflexivity]|]. split.
  - exists (map template_of lines). split; auto. induction lines; constructor; auto.
  - repeat split; reflexivity.
Qed.
Print Assumptions C174_read.
Example C174_example_template : template_of (u "\w+/NN:nsubj:\w+/V:dobj:\w+/NN") = PT (map u ["\w+/NN"; "\w+/V"; "\w+/NN"]) (map u ["nsubj"; "dobj"])%string /\
  template_of (u "\w+/NN:nsubj") = PT [u "\w+/NN"] [] /\
  alternates (map u ["\w+/NN"; "nsubj"; "\w+/V"])%string (map u ["\w+/NN"; "\w+/V"])%string [u "nsubj"].
Proof. split; [reflexivity|]. split; [reflexivity|]. repeat constructor. Qed.

(** build_dep_rel matches nothing, whatever the corpus: the features stay as they were and None is returned; the
    exceptions are in the log. *)
Theorem C174_build_refuted : forall (MN ME : Type) (m : manager MN ME) fnames,
  build_dep_rel false (Ok fnames) m = (m, None, repeat NameError (length fnames), Ok tt) /\
  build_dep_rel true (Ok fnames) m = (m, Some (m_features m), [AttributeError], Ok tt).
Proof. intros MN ME [ts fs] fnames. split; [|reflexivity]. unfold build_dep_rel. cbn [m_features m_templates]. now rewrite over_files_none. Qed.
Print Assumptions C174_build_refuted.
(** A subprocess hands back the features it was given. *)
Theorem C174_caller_refuted : forall (MN ME : Type) fnames (fs : list (feature MN ME)) e,
  update_dep_rel_caller fnames true (Ok fs) = Ok (Some fs, repeat NameError (length fnames)) /\
  update_dep_rel_caller fnames true (Err e : res (list (feature MN ME))) = Ok (None, [e]) /\
  forall s, @update_dep_rel_caller MN ME fnames false s = Err ValueError.
Proof. intros MN ME fnames fs e. split; [|split; reflexivity]. unfold update_dep_rel_caller. now rewrite over_files_none. Qed.
Print Assumptions C174_caller_refuted.

(** merge_results: every feature gets what the subprocesses found for it, in the order of the listing; files of the
    main process stay; *)
Theorem C174_merge : forall (MN ME : Type) dir kept subs (own : list (feature MN ME)), holds dir kept subs -> Forall (fun s => length s <= length own) subs ->
  exists own', merge_results dir own = (kept, own', Ok tt) /\ gathered own subs own'.
Proof. exact @merge_all. Qed.
Print Assumptions C174_merge.
(** with more features in a file than here, IndexError after all files were removed; *)
Theorem C174_merge_more_refuted : forall (MN ME : Type) dir kept subs (own : list (feature MN ME)), holds dir kept subs -> Exists (fun s => length own < length s) subs ->
  exists own', merge_results dir own = (kept, own', Err IndexError).
Proof. exact @merge_more. Qed.
Print Assumptions C174_merge_more_refuted.
(** with a file that cannot be read, the files before it are removed and what they held is in no feature; *)
Theorem C174_merge_lost_refuted : forall (MN ME : Type) a kept subs f e b (own : list (feature MN ME)), holds a kept subs -> ~ @of_super MN ME (f, Err e) ->
  merge_results (a ++ (f, Err e) :: b) own = (kept ++ (f, Err e) :: b, own, Err e).
Proof. exact @merge_unreadable. Qed.
Print Assumptions C174_merge_lost_refuted.
(** with the files that the subprocesses do write, every match that was there is repeated once for each subprocess. *)
Theorem C174_merge_repeated_refuted : forall (MN ME : Type) dir kept subs (own : list (feature MN ME)), holds dir kept subs ->
  Forall (fun s => exists fnames log, update_dep_rel_caller fnames true (Ok own) = Ok (Some s, log)) subs ->
  exists own', merge_results dir own = (kept, own', Ok tt) /\ length own' = length own /\
    forall i f, nth_error own i = Some f -> nth_error own' i =
      Some (concat (repeat (fst f) (S (length subs))), concat (repeat (snd f) (S (length subs)))).
Proof. exact @merge_callers. Qed.
Print Assumptions C174_merge_repeated_refuted.
Definition ex_own : list (feature nat nat) := [([1; 2], [5]); ([], [])].
Definition ex_dir : list (pystr * res (list (feature nat nat))) :=
  [(u "matches.sub.8", Ok [([3], [6])]); (u "path.template.super", Ok ex_own); (u "matches.sub.9", Ok [([4], []); ([7], [8])])].
Example C174_example_merge : merge_results ex_dir ex_own = ([(u "path.template.super", Ok ex_own)], [([1; 2; 3; 4], [5; 6]); ([7], [8])], Ok tt) /\
  holds ex_dir [(u "path.template.super", Ok ex_own)] [[([3], [6])]; [([4], []); ([7], [8])]].
Proof.
  assert (no : forall f c, inside (u "super") f = false -> ~ @of_super nat nat (f, c)).
  { intros f c E X. apply inside_iff in X. cbn [fst] in X. congruence. }
  split; [vm_compute; reflexivity|]. apply h_sub; [now apply no|]. apply h_super; [now exists (u "path.template."), []|].
  apply h_sub; [now apply no|constructor].
Qed.
Example C174_example_lost : merge_results (ex_dir ++ [(u "matches.sub.7", Err ValueError)]) ex_own
  = ([(u "path.template.super", Ok ex_own); (u "matches.sub.7", Err ValueError)], ex_own, Err ValueError).
Proof. vm_compute. reflexivity. Qed.
Example C174_example_repeated : merge_results [(u "matches.sub.8", Ok ex_own); (u "matches.sub.9", Ok ex_own)] ex_own
  = ([], [([1; 2; 1; 2; 1; 2], [5; 5; 5]); ([], [])], Ok tt).
Proof. vm_compute. reflexivity. Qed.

(** process, with any scheduling of the threads: no execution is longer than this; the files taken are the first ones,
    each ends the worker that took it; *)
Theorem C174_threads : forall w fnames factor sched st, thread_run (process_size w factor) (process_start w fnames) sched = Some st ->
  length sched <= length fnames + 2 * w /\ t_dead st = firstn (length (t_dead st)) fnames /\ length (t_dead st) <= w /\ t_idle st + length (t_dead st) + t_left st = w.
Proof. intros w fnames factor. apply threads_run. Qed.
Print Assumptions C174_threads.
(** at rest, no worker is left, as many files as there were workers were taken, and the producer is blocked for ever
    unless the files fit into the queue. *)
Theorem C174_threads_refuted : forall w fnames factor sched st, thread_run (process_size w factor) (process_start w fnames) sched = Some st ->
  at_rest (process_size w factor) st ->
  t_idle st = 0 /\ t_dead st = firstn w fnames /\ t_left st = w - length fnames /\
  t_queue st ++ t_todo st = skipn w (map Some fnames ++ repeat None w) /\
  (t_todo st = [] <-> (factor * Z.of_nat w <= 0)%Z \/ (Z.of_nat (length fnames) <= factor * Z.of_nat w)%Z).
Proof. intros w fnames factor. apply threads_rest. Qed.
Print Assumptions C174_threads_refuted.
(** One worker, queue of two, four files: the second file is never taken, the producer never ends. *)
Example C174_example_threads : exists st, thread_run (process_size 1 2) (process_start 1 (map u ["a"; "b"; "c"; "d"]%string)) [TProducer; TWorker; TProducer; TProducer] = Some st /\
  at_rest (process_size 1 2) st /\ t_dead st = [u "a"] /\ t_queue st = [Some (u "b"); Some (u "c")] /\ t_todo st = [Some (u "d"); None].
Proof. eexists. split; [vm_compute; reflexivity|]. split; [intros []; reflexivity|]. auto. Qed.
(** Two files fit. *)
Example C174_example_fits : exists st, thread_run (process_size 1 2) (process_start 1 (map u ["a"; "b"]%string)) [TProducer; TWorker; TProducer; TProducer] = Some st /\
  at_rest (process_size 1 2) st /\ t_dead st = [u "a"] /\ t_todo st = [].
Proof. eexists. split; [vm_compute; reflexivity|]. split; [intros []; reflexivity|]. auto. Qed.

(** ** Computed cases *)
Definition ex_mgr : manager nat nat := Mgr [PT [u "a"] []] ex_own.
Example C173_values :
  split_every 1 (map u ["<s>"; "a"; "</s>"; "<s>"; "b"; "</s>"; "<s>"; "c"])%string
    = [join 10%N (map u ["<s>"; "a"; "</s>"]); join 10%N (map u ["<s>"; "b"; "</s>"])]%string /\
  read_nodes [two "a" "1"; two "b" "1"; two "c" "2"] = Ok ([(u "a", u "1"); (u "b", u "1"); (u "c", u "2")], [(u "1", u "b"); (u "2", u "c")]) /\
  read_nodes [u "a" ++ 9%N :: two "1" "2"] = Err ValueError /\ read_nodes [u "a b"] = Err ValueError /\
  (judge_out (u "1:2"), judge_in (u "1:2:3"), judge_in_v1 (u "1")) = (Err NameError, Err ValueError, Err ValueError).
Proof. vm_compute. auto 10. Qed.
Example C174_values :
  template_of (32%N :: two "x:nsubj:y" "") = PT (map u ["x"; "y"]) [u "nsubj"] /\
  pt_str (PT (map u ["x"; "y"; "z"]) (map u ["a"; "b"])) = Ok (u "x:a:y:b:z") /\
  pt_str (PT [] []) = Err IndexError /\ pt_str (PT [u "x"] [u "a"]) = Err IndexError /\
  read_template (Some [u "x"; u "y:e:z"]) [] ex_mgr = (Mgr [PT [u "x"] []; PT (map u ["y"; "z"]) [u "e"]] ex_own, Ok (inr [PT [u "x"] []; PT (map u ["y"; "z"]) [u "e"]])) /\
  read_template (Some [u "x"]) [([9], [])] ex_mgr = (Mgr [PT [u "a"] []] [([9], [])], Ok (inl [([9], [])])) /\
  read_template None [] ex_mgr = (ex_mgr, Err ValueError) /\
  read_features true [] ex_mgr = (ex_mgr, Ok None) /\ read_features false [] ex_mgr = (ex_mgr, Err ValueError) /\
  read_features true [([9], [])] ex_mgr = (Mgr [PT [u "a"] []] [([9], [])], Ok (Some [([9], [])])) /\
  build_dep_rel false (Ok [u "f"; u "g"]) ex_mgr = (ex_mgr, None, [NameError; NameError], Ok tt) /\
  build_dep_rel true (Ok [u "f"; u "g"]) ex_mgr = (ex_mgr, Some ex_own, [AttributeError], Ok tt) /\
  build_dep_rel true (Err IOError) ex_mgr = (ex_mgr, None, [], Err IOError) /\
  update_dep_rel_caller [u "f"; u "g"] true (Ok ex_own) = Ok (Some ex_own, [NameError; NameError]) /\
  update_dep_rel_caller [u "f"] true (Err ValueError) = Ok (@None (list (feature nat nat)), [ValueError]) /\
  thread_run (process_size 2 0) (process_start 2 [u "a"]) [TProducer; TProducer; TProducer; TWorker; TWorker] = Some (TS [] [None] 0 [u "a"] 1) /\
  thread_run (process_size 1 2) (process_start 1 []) [TProducer; TWorker] = Some (TS [] [] 0 [] 1).
Proof. vm_compute. repeat split. Qed.
