(** * Claims about token matrices, sampling and saving type nodes, and the vectorizers. *)
From Coq Require Import String NArith ZArith Bool Arith Lia Permutation Sorted List.
From Verif Require Import Base BaseLemmas Str VocabModel TermsModel TermsProofs CorpusModel CorpusSpec CorpusExamples MxModel MxSpec
  ParModel ParColModel ParColSpec TokMxModel TokMxSpec TokMxProofs TokMxPipeProofs TokMxMoreProofs.
Import ListNotations.
Local Open Scope string_scope.
Local Open Scope nat_scope.
Local Open Scope list_scope.

(** An example corpus: a line is a lemma, all are nouns; lines "</s>" separate. *)
Definition lp := u "lemma/pos".
Definition kp := u "lemma/pos/fid/lid".
Definition ex_some (m : pystr) : option pystr := Some m.
Definition ex_noun (_ : pystr) : option pystr := Some (u "n").
Definition ex_ty (m : pystr) : pystr := m ++ u "/n".
Definition ex_retrieve (cv : vocab) (l r : nat) (qs : list pystr) (files : list (pystr * list pystr)) : res (ttm Z) :=
  retrieve_tokens ex_some ex_some ex_noun lp kp lp ex_match ex_is_sep ex_ty ex_ty (fun x => x) cv l r qs files.
Lemma ex_colloc m : fmt_join (item_attrs (ex_some m) (ex_some m) (ex_noun m)) lp = Ok (ex_ty m).
Proof.
  rewrite (fmt_join_ok _ _ [m; u "n"]); [reflexivity|]. change (split slash lp) with [f_lemma; f_pos]. repeat constructor.
Qed.
Lemma ex_token m c : In c [f_lemma; f_pos] -> exists v, dget (item_attrs (ex_some m) (ex_some m) (ex_noun m)) c = Some (Some v).
Proof. intros [<-|[<-|[]]]; eexists; reflexivity. Qed.
Definition ex_doc : list pystr := map u ["cat"; "dog"; "cat"; "sun"; "dog"; "</s>"; "sun"; "dog"].
(** A type node with one token: collocates to the left and to the right *)
Definition ex_item (s : string) : inode := INode (item_attrs (Some (u s)) (Some (u s)) (Some (u "n"))) None None.
Definition ex_ctok (lid : Z) (ls rs : list string) : ctok :=
  CTok (KNode (item_attrs (Some (u "dog")) (Some (u "dog")) (Some (u "n")) ++ [(f_fid, Some (u "f")); (f_lid, Some (str_of_Z lid))]) kp)
       (map ex_item ls) (map ex_item rs).
Definition ex_node (ts : list ctok) : tnode ctok := TNode (item_attrs None (Some (u "dog")) (Some (u "n"))) lp ts.
Definition ex_mx (ts : list ctok) : res (ttm Z) := nodes_to_matrix (fun x => x) (Some lp) [(u "dog/n", ex_node ts)].
Definition cell_of (r : res (ttm Z)) (s c : string) : res Z := rmap (fun m => val m (u s) (u c)) r.

(** ** C115: what a token matrix holds *)
Theorem C115_cells_are_positions : forall (order : list pystr -> list pystr), (forall l, Permutation l (order l)) ->
  forall fmt d m, nodes_to_matrix order fmt d = Ok m ->
  tgood m /\
  (forall s, In s (trows m) <-> exists t, In t (toks_of d) /\ ct_str t = Ok s) /\
  (forall c, In c (tcols m) <-> exists t ls rs, In t (toks_of d) /\ collocs_are fmt t ls rs /\ In c (ls ++ rs)) /\
  forall t s, last_with d t s ->
    exists ls rs, collocs_are fmt t ls rs /\
      forall c, (In c (ls ++ rs) -> rightmost ls rs c (val m s c)) /\ (~ In c (ls ++ rs) -> val m s c = 0%Z).
Proof. exact @token_matrix. Qed.
Print Assumptions C115_cells_are_positions.
(** The position stored is not that of the nearest occurrence. *)
Theorem C115_nearest_refuted : exists t m, ex_mx [t] = Ok m /\ exists ls rs s c, ct_str t = Ok s /\ collocs_are (Some lp) t ls rs /\ In c (ls ++ rs) /\ ~ nearest ls rs c (val m s c).
Proof.
  exists (ex_ctok 5 ["cat"] ["sun"; "sun"; "cat"]). eexists. split; [vm_compute; reflexivity|].
  exists [u "cat/n"], [u "sun/n"; u "sun/n"; u "cat/n"]. eexists. exists (u "cat/n"). split; [vm_compute; reflexivity|].
  split; [apply collocs_code; split; repeat constructor|]. split; [cbn; auto|]. intros [_ H].
  specialize (H (-1)%Z). match type of H with _ -> (Z.abs ?v <= _)%Z => let w := eval vm_compute in v in change v with w in H end.
  assert (X : (Z.abs 3 <= Z.abs (-1))%Z) by (apply H; left; exists 0; split; reflexivity). vm_compute in X. now apply X.
Qed.
Print Assumptions C115_nearest_refuted.
(** It is, if all occurrences other than the last one are to the left of it on the left side. *)
Theorem C115_nearest_partial : forall ls rs c z, rightmost ls rs c z ->
  (forall z1 z2, occurs ls rs c z1 -> occurs ls rs c z2 -> (z1 < z2)%Z -> (z2 < 0)%Z) -> nearest ls rs c z.
Proof. exact @rightmost_nearest. Qed.
Print Assumptions C115_nearest_partial.
Example C115_ex : let m := ex_mx [ex_ctok 5 ["cat"; "sun"; "cat"; "elm"] ["fir"; "sun"]] in
  (cell_of m "dog/n/f/5" "cat/n", cell_of m "dog/n/f/5" "elm/n", cell_of m "dog/n/f/5" "sun/n", cell_of m "dog/n/f/5" "oak/n") = (Ok (-2), Ok (-1), Ok 2, Ok 0)%Z.
Proof. vm_compute. reflexivity. Qed.

(** ** C116: one row for each occurrence of a query in the corpus *)
(** Two files with the same id: two occurrences, one row. *)
Theorem C116_one_row_each_refuted : exists files m, ex_retrieve no_vocab 2 2 [u "dog/n"] files = Ok m /\
  length (trows m) < sumn (map (fun f => length (filter (fun x => mem (ex_ty x) [u "dog/n"]) (matches_of ex_match (snd f)))) files).
Proof.
  exists [(u "a", map u ["dog"; "cat"]); (u "a", map u ["dog"; "sun"])]. eexists. split; [vm_compute; reflexivity|]. vm_compute. lia.
Qed.
Print Assumptions C116_one_row_each_refuted.
(** Missing: files that share their id (same name in two directories), and token formats that do not end in fid/lid. *)
Theorem C116_one_row_each_partial : forall {L M} (match_line : L -> option M) (separator : L -> bool) (get_type get_colloc : M -> pystr)
    (word lemma pos : M -> option pystr) (tfmt kfmt cfmt : pystr) (cs : list pystr) (order : list pystr -> list pystr) (cv : vocab) (l r : nat)
    (qs : list pystr) (files : list (pystr * list L)),
  (forall x, Permutation x (order x)) -> 0 < r ->
  split slash kfmt = cs ++ [f_fid; f_lid] ->
  (forall m c, In c cs -> exists v, dget (item_attrs (word m) (lemma m) (pos m)) c = Some (Some v)) ->
  NoDup (map fst files) -> (forall f, In f files -> ~ In slash (fst f)) ->
  forall m, retrieve_tokens word lemma pos tfmt kfmt cfmt match_line separator get_type get_colloc order cv l r qs files = Ok m ->
  length (trows m) = sumn (map (fun f => length (filter (fun x => mem (get_type x) qs) (matches_of match_line (snd f)))) files).
Proof. exact @one_row_each. Qed.
Print Assumptions C116_one_row_each_partial.
Example C116_ex : rmap (@trows Z) (ex_retrieve no_vocab 1 1 [u "dog/n"; u "sun/n"] [(u "f", ex_doc); (u "g", map u ["oak"; "dog"])]) =
  Ok (map u ["dog/n/f/2"; "dog/n/f/5"; "dog/n/f/8"; "dog/n/g/2"; "sun/n/f/4"; "sun/n/f/7"]).
Proof. vm_compute. reflexivity. Qed.

(** ** C117: the cells are distances in the text *)
(** With a column vocabulary the position counts only the collocates in the vocabulary. *)
Theorem C117_distance_refuted : exists cv m, ex_retrieve cv 4 4 [u "dog/n"] [(u "f", map u ["cat"; "oak"; "elm"; "dog"])] = Ok m /\
  seen_at ex_ty 4 4 [(u "cat", 1); (u "oak", 2); (u "elm", 3); (u "dog", 4)] 3 (u "cat/n") 0 /\ val m (u "dog/n/f/4") (u "cat/n") = (-1)%Z.
Proof.
  exists (vocab_init false [(u "cat/n", 1%Z)]). eexists. split; [vm_compute; reflexivity|]. split; [|vm_compute; reflexivity].
  split; [reflexivity|]. eexists. split; reflexivity.
Qed.
Print Assumptions C117_distance_refuted.
(** Missing: corpora read with a column vocabulary; see the exact value in the next theorem. *)
Theorem C117_distance_partial : forall {L M} (match_line : L -> option M) (separator : L -> bool) (get_type get_colloc : M -> pystr)
    (word lemma pos : M -> option pystr) (tfmt kfmt cfmt : pystr) (cs : list pystr) (order : list pystr -> list pystr) (cv : vocab) (l r : nat)
    (qs : list pystr) (files : list (pystr * list L)),
  (forall x, Permutation x (order x)) -> 0 < r -> cfmt <> [] ->
  (forall m, fmt_join (item_attrs (word m) (lemma m) (pos m)) cfmt = Ok (get_colloc m)) ->
  split slash kfmt = cs ++ [f_fid; f_lid] ->
  (forall m c, In c cs -> exists v, dget (item_attrs (word m) (lemma m) (pos m)) c = Some (Some v)) ->
  NoDup (map fst files) -> (forall f, In f files -> ~ In slash (fst f)) ->
  forall m f xs i x, v_len cv = 0 ->
  retrieve_tokens word lemma pos tfmt kfmt cfmt match_line separator get_type get_colloc order cv l r qs files = Ok m ->
  In f files -> In xs (segments match_line separator (snd f)) -> nth_error xs i = Some x -> In (get_type (fst x)) qs ->
  exists s, ct_str (ctok_of word lemma pos tfmt kfmt cfmt (fst f) (tok_at get_colloc cv l r xs i x)) = Ok s /\ In s (trows m) /\
    forall c, (forall j, seen_at get_colloc l r xs i c j -> (forall j', seen_at get_colloc l r xs i c j' -> j' <= j) -> val m s c = (Z.of_nat j - Z.of_nat i)%Z) /\
      ((forall j, ~ seen_at get_colloc l r xs i c j) -> val m s c = 0%Z).
Proof. exact @distance. Qed.
Print Assumptions C117_distance_partial.
Theorem C117_with_vocabulary : forall {L M} (match_line : L -> option M) (separator : L -> bool) (get_type get_colloc : M -> pystr)
    (word lemma pos : M -> option pystr) (tfmt kfmt cfmt : pystr) (cs : list pystr) (order : list pystr -> list pystr) (cv : vocab) (l r : nat)
    (qs : list pystr) (files : list (pystr * list L)),
  (forall x, Permutation x (order x)) -> 0 < r -> cfmt <> [] ->
  (forall m, fmt_join (item_attrs (word m) (lemma m) (pos m)) cfmt = Ok (get_colloc m)) ->
  split slash kfmt = cs ++ [f_fid; f_lid] ->
  (forall m c, In c cs -> exists v, dget (item_attrs (word m) (lemma m) (pos m)) c = Some (Some v)) ->
  NoDup (map fst files) -> (forall f, In f files -> ~ In slash (fst f)) ->
  forall m f xs i x,
  retrieve_tokens word lemma pos tfmt kfmt cfmt match_line separator get_type get_colloc order cv l r qs files = Ok m ->
  In f files -> In xs (segments match_line separator (snd f)) -> nth_error xs i = Some x -> In (get_type (fst x)) qs ->
  exists s, ct_str (ctok_of word lemma pos tfmt kfmt cfmt (fst f) (tok_at get_colloc cv l r xs i x)) = Ok s /\ In s (trows m) /\
    let keep := fun x : M * nat => if v_len cv =? 0 then true else v_contains cv (get_colloc (fst x)) in
    let ls := map (fun y => get_colloc (fst y)) (filter keep (left_ctx l xs i)) in
    let rs := map (fun y => get_colloc (fst y)) (filter keep (right_ctx r xs i)) in
    forall c, (In c (ls ++ rs) -> rightmost ls rs c (val m s c)) /\ (~ In c (ls ++ rs) -> val m s c = 0%Z).
Proof. exact @occurrence_row. Qed.
Print Assumptions C117_with_vocabulary.
Example C117_ex : let m := ex_retrieve no_vocab 3 2 [u "dog/n"] [(u "f", ex_doc)] in
  (cell_of m "dog/n/f/2" "cat/n", cell_of m "dog/n/f/5" "dog/n", cell_of m "dog/n/f/5" "cat/n", cell_of m "dog/n/f/8" "cat/n", cell_of m "dog/n/f/8" "sun/n")
  = (Ok 1, Ok (-3), Ok (-2), Ok 0, Ok (-1))%Z.
Proof. vm_compute. reflexivity. Qed.

(** ** C118: when a token matrix can be made *)
Theorem C118_outcome : forall (order : list pystr -> list pystr), (forall l, Permutation l (order l)) ->
  forall fmt d, (forall t, In t (toks_of d) -> printable fmt t) ->
  ((exists t s, last_with d t s /\ (ct_l t <> [] \/ ct_r t <> [])) -> exists m, nodes_to_matrix order fmt d = Ok m) /\
  ((forall t s, last_with d t s -> ct_l t = [] /\ ct_r t = []) -> nodes_to_matrix order fmt d = Err ValueError).
Proof. exact @tokens_outcome. Qed.
Print Assumptions C118_outcome.
(** Queries that never occur make the call fail instead of giving a matrix without rows. *)
Theorem C118_total_refuted : ex_retrieve no_vocab 2 2 [u "elk/n"] [(u "f", ex_doc)] = Err ValueError /\
  ex_retrieve no_vocab 2 2 [u "dog/n"] [(u "f", [u "dog"])] = Err ValueError.
Proof. split; vm_compute; reflexivity. Qed.
Print Assumptions C118_total_refuted.
Example C118_ex : exists m, ex_mx [ex_ctok 5 [] []; ex_ctok 6 ["cat"] []] = Ok m /\ trows m = map u ["dog/n/f/5"; "dog/n/f/6"].
Proof. eexists. split; [vm_compute; reflexivity|]. vm_compute. reflexivity. Qed.

(** ** C119: sampling the tokens of a type *)
(** Nodes made from a type string (all nodes of TokenHandler) have no type format to build the sample with. *)
Theorem C119_sample_refuted : forall {T} (pick : nat -> nat -> list nat) (node : tnode T) s n m, exists e, tn_sample pick node (tf_of_str s) n m = Err e.
Proof. intros. apply sample_never. intros f. now destruct s. Qed.
Print Assumptions C119_sample_refuted.
(** The default of 300 fails for every type with fewer tokens, however it was made. *)
Theorem C119_too_many_refuted : forall {T} (pick : nat -> nat -> list nat) (node : tnode T) tf n, length (tn_tokens node) < n ->
  tn_sample pick node tf n SRandom = Err ValueError.
Proof. exact @sample_too_many. Qed.
Print Assumptions C119_too_many_refuted.
(** For a node made from a match, n of its tokens in their order.  Missing: the nodes that TokenHandler makes. *)
Theorem C119_sample_partial : forall {T} (pick : nat -> nat -> list nat) (word lemma pos : option pystr) (tfmt : pystr) (tokens : list T) n m s,
  samples pick -> tfmt <> [] -> NoDup (split slash tfmt) -> (forall f, In f (split slash tfmt) -> In f type_fields) ->
  tn_type (tn_of_match word lemma pos tfmt tokens) = Ok s -> s <> [] -> length (split slash s) = length (split slash tfmt) ->
  n <= length tokens ->
  exists node, tn_sample pick (tn_of_match word lemma pos tfmt tokens) (TfIs tfmt) n m = Ok node /\ tn_type node = Ok s /\ length (tn_tokens node) = n /\
    exists idx, NoDup idx /\ length idx = n /\ (forall i x, In (i, x) (filter (fun it => mem (fst it) idx) (enum tokens)) <-> In i idx /\ nth_error tokens i = Some x) /\
      tn_tokens node = map snd (filter (fun it => mem (fst it) idx) (enum tokens)).
Proof. exact @sample_ok. Qed.
Print Assumptions C119_sample_partial.
Definition ex_pick (freq n : nat) : list nat := rev (seq (freq - n) n).
Example C119_samples : samples ex_pick.
Proof.
  intros freq n H. unfold ex_pick. split; [apply NoDup_rev, seq_NoDup|]. split; [now rewrite rev_length, seq_length|]. intros i I. apply in_rev, in_seq in I. lia.
Qed.
Example C119_ex : rmap tn_tokens (tn_sample ex_pick (tn_of_match (Some (u "dogs")) (Some (u "dog")) (Some (u "n")) lp [1; 2; 3; 4]) (TfIs lp) 2 SRandom) = Ok [3; 4].
Proof. vm_compute. reflexivity. Qed.

(** ** C120: saving and loading a type node *)
Theorem C120_save_load_refuted : forall n j, tn_save n = Ok j -> exists e, tn_load j = Err e.
Proof. intros n j _. apply load_never. Qed.
Print Assumptions C120_save_load_refuted.
Example C120_ex : exists j, tn_save (ex_node [ex_ctok 5 ["cat"] ["sun"]]) = Ok j /\ tn_load j = Err AttributeError.
Proof. eexists. split; [vm_compute; reflexivity|]. vm_compute. reflexivity. Qed.

(** ** C121: TokenVectorizer.retrieve_tokens *)
(** Whenever the tokens can be retrieved, looking up a variant that is not itself a token string fails. *)
Theorem C121_variants_refuted : forall {L M} (match_line : L -> option M) (separator : L -> bool) (get_type get_colloc : M -> pystr)
    (word lemma pos : M -> option pystr) (tfmt kfmt cfmt : pystr) (cs : list pystr) (order : list pystr -> list pystr) (cv : vocab) (l r : nat)
    (files : list (pystr * list L)) concepts m k vs v,
  (forall x, Permutation x (order x)) -> 0 < r -> split slash kfmt = cs ++ [f_fid; f_lid] ->
  retrieve_tokens word lemma pos tfmt kfmt cfmt match_line separator get_type get_colloc order cv l r (dkeys (queries_of concepts)) files = Ok m ->
  In (k, vs) concepts -> In v vs -> length (split slash v) < length cs + 2 ->
  vectorizer_tokens (fun q => retrieve_tokens word lemma pos tfmt kfmt cfmt match_line separator get_type get_colloc order cv l r (dkeys q) files) concepts = Err KeyError.
Proof.
  intros * OP R K E Ic Iv Lv. eapply vectorizer_key; [exact E| |exact Ic|exact Iv|].
  - destruct (retrieve_inv _ _ _ _ _ _ _ _ _ _ _ _ _ _ _ _ m E) as (ds & En & _). now apply token_matrix in En.
  - intros I. eapply rows_slashes in E; eauto. lia.
Qed.
Print Assumptions C121_variants_refuted.
(** The queries it passes on are the variants of all concepts, each once and with the number 0. *)
Theorem C121_queries : forall retrieve concepts e,
  (forall d, NoDup (dkeys d) -> (forall v z, dget d v = Some z <-> z = 0%Z /\ exists k vs, In (k, vs) concepts /\ In v vs) -> retrieve d = Err e) ->
  vectorizer_tokens retrieve concepts = Err e.
Proof. exact vectorizer_queries. Qed.
Print Assumptions C121_queries.
Example C121_queries_ex : vectorizer_tokens (fun d => match dget d (u "dog/n"), dget d (u "sun/n") with Some _, None => Err IOError | _, _ => Err KeyError end)
  [(u "animal", map u ["dog/n"; "cat/n"]); (u "pet", map u ["cat/n"])] = Err IOError.
Proof.
  apply C121_queries. intros d _ H. destruct (dget d (u "sun/n")) as [z|] eqn:E.
  - apply H in E as (_ & k & vs & I & J). cbn in I. destruct I as [I|[I|[]]]; injection I as <- <-; apply mem_In in J; vm_compute in J; discriminate.
  - now rewrite (proj2 (H (u "dog/n") 0%Z) (conj eq_refl (ex_intro _ _ (ex_intro _ _ (conj (or_introl eq_refl) (or_introl eq_refl)))))).
Qed.
Example C121_ex : vectorizer_tokens (fun q => ex_retrieve no_vocab 2 2 (dkeys q) [(u "f", ex_doc)]) [(u "animal", map u ["dog/n"; "cat/n"])] = Err KeyError.
Proof. vm_compute. reflexivity. Qed.

(** ** C122: make_token_colloc / read_token_colloc *)
(** For tokens with different strings, the position kept for a collocate is the farthest one on the right side within
    the span, or else the farthest one on the left side; only collocates in the vocabulary are kept. *)
Theorem C122_positions : forall v lspan rspan fmt toks ss, Forall2 (fun t s => ct_str t = Ok s) toks ss -> NoDup ss -> (forall t, In t toks -> printable fmt t) -> forall d,
  (forall s, In s ss -> dget d s = None) ->
  exists d', rfold (read_token v lspan rspan fmt) toks d = Ok d' /\ (forall s, ~ In s ss -> dget d' s = dget d s) /\
    forall t s ls rs, In t toks -> ct_str t = Ok s -> collocs_are fmt t ls rs -> forall c,
      (kept v c -> (exists z, occurs ls rs c z /\ within lspan rspan z) -> exists z, dget2 d' s c = Some z /\ farthest_right_else_left ls rs lspan rspan c z) /\
      (~ kept v c \/ (forall z, occurs ls rs c z -> ~ within lspan rspan z) -> dget2 d' s c = None).
Proof. exact @read_all_kept. Qed.
Print Assumptions C122_positions.
(** The matrix of make_token_colloc: sorted rows for the tokens with a collocate that is read, sorted columns, these cells;
    or a ValueError when nothing is read. *)
Theorem C122_matrix : forall v lspan rspan fmt n ss,
  Forall2 (fun t s => ct_str t = Ok s) (tn_tokens n) ss -> NoDup ss -> (forall t, In t (tn_tokens n) -> printable fmt t) ->
  (forall w, v = Some w -> dwf (fd w)) ->
  let reads t c z := exists ls rs, collocs_are fmt t ls rs /\ kept v c /\ occurs ls rs c z /\ within lspan rspan z in
  (forall t c z, In t (tn_tokens n) -> ~ reads t c z) /\ token_colloc_matrix v lspan rspan fmt n = Err ValueError \/
  exists m, token_colloc_matrix v lspan rspan fmt n = Ok m /\ tgood m /\
    sorted_set (trows m) (fun s => exists t c z, In t (tn_tokens n) /\ ct_str t = Ok s /\ reads t c z) /\
    sorted_set (tcols m) (fun c => (exists t z, In t (tn_tokens n) /\ reads t c z) \/ exists w, v = Some w /\ In c (dkeys (fd w))) /\
    forall t s ls rs, In t (tn_tokens n) -> ct_str t = Ok s -> collocs_are fmt t ls rs -> forall c,
      ((exists z, reads t c z) -> farthest_right_else_left ls rs lspan rspan c (val m s c)) /\ ((forall z, ~ reads t c z) -> val m s c = 0%Z).
Proof. exact @colloc_matrix. Qed.
Print Assumptions C122_matrix.
(** So the two ways to a token matrix give different cells: *)
Theorem C122_readings_agree_refuted : exists n m m', nodes_to_matrix (fun x => x) (Some lp) [(u "dog/n", n)] = Ok m /\
  token_colloc_matrix None 4 4 (Some lp) n = Ok m' /\ val m (u "dog/n/f/5") (u "cat/n") = (-1)%Z /\ val m' (u "dog/n/f/5") (u "cat/n") = (-3)%Z.
Proof.
  exists (ex_node [ex_ctok 5 ["cat"; "sun"; "cat"] []]). eexists. eexists. split; [vm_compute; reflexivity|]. split; [vm_compute; reflexivity|]. split; vm_compute; reflexivity.
Qed.
Print Assumptions C122_readings_agree_refuted.
(** Missing: contexts with a repeated collocate, and spans smaller than the contexts. *)
Theorem C122_readings_agree_partial : forall order fmt n d' m, (forall x, Permutation x (order x)) -> forall lspan rspan ss,
  Forall2 (fun t s => ct_str t = Ok s) (tn_tokens n) ss -> NoDup ss ->
  (forall t, In t (tn_tokens n) -> length (ct_l t) <= lspan /\ length (ct_r t) <= rspan) ->
  (forall t ls rs, In t (tn_tokens n) -> collocs_are fmt t ls rs -> NoDup (ls ++ rs)) ->
  forall k, nodes_to_matrix order fmt [(k, n)] = Ok m -> read_token_colloc None lspan rspan fmt n = Ok d' ->
  forall s c, val m s c = oz (dget2 d' s c).
Proof. exact @readings_agree. Qed.
Print Assumptions C122_readings_agree_partial.
Example C122_ex : read_token_colloc (Some (vocab_init false [(u "cat/n", 1%Z); (u "sun/n", 1%Z)])) 3 1 (Some lp)
    (ex_node [ex_ctok 5 ["cat"; "cat"; "oak"] ["sun"; "cat"]; ex_ctok 6 [] []]) =
  Ok [(u "dog/n/f/5", [(u "cat/n", -3); (u "sun/n", 1)])]%Z.
Proof. vm_compute. reflexivity. Qed.

(** ** C123: TypeVectorizer.fit without vocabularies *)
(** When types and collocates have the same format, fit counts every co-occurrence of the files. *)
Theorem C123_fit_counts_all_partial : forall {L M} (match_line : L -> option M) (separator : L -> bool) (g : M -> pystr) (l r : nat)
    nw contents sched st b nw' sched' st', 1 <= nw -> 1 <= nw' ->
  run (if_job match_line g) if_finish (start tt nw (map Ok contents)) sched = Some st -> joined st = true ->
  matches_of match_line (concat contents) <> [] ->
  exists v, if_result (length contents) st = Some v /\
    let rv := fit_rows b v in let cv := fit_cols rv in
    (run (cf_job match_line separator g g rv l r) (cf_finish rv cv) (cf_start cv nw' (map Ok contents)) sched' = Some st' -> joined st' = true ->
     exists o, cf_result st' = Ok o /\ holds_counts rv cv o (all_pairs match_line separator g g l r contents)).
Proof. exact @fit_counts. Qed.
Print Assumptions C123_fit_counts_all_partial.
(** When they differ, the types are used to filter the collocates and everything is lost. *)
Definition ex_one : list actor := [Producer; Producer; Worker 0; Worker 0; Worker 0; Worker 0].
Theorem C123_fit_counts_all_refuted : exists st v st' o,
  let contents := [map u ["cat"; "dog"]] in
  run (if_job ex_match ex_ty) if_finish (start tt 1 (map Ok contents)) ex_one = Some st /\ joined st = true /\
  if_result 1 st = Some v /\
  let rv := fit_rows false v in let cv := fit_cols rv in
  run (cf_job ex_match ex_is_sep ex_ty ex_id rv 1 1) (cf_finish rv cv) (cf_start cv 1 (map Ok contents)) ex_one = Some st' /\ joined st' = true /\
  cf_result st' = Ok o /\ o = None /\ all_pairs ex_match ex_is_sep ex_ty ex_id 1 1 contents (u "cat/n") (u "dog") = 1%Z.
Proof.
  eexists. eexists. eexists. eexists. cbv zeta. split; [vm_compute; reflexivity|]. split; [vm_compute; reflexivity|]. split; [vm_compute; reflexivity|].
  split; [vm_compute; reflexivity|]. split; [vm_compute; reflexivity|]. split; [vm_compute; reflexivity|]. split; vm_compute; reflexivity.
Qed.
Print Assumptions C123_fit_counts_all_refuted.
Example C123_ex : exists st v st' m,
  let contents := [map u ["cat"; "dog"; "cat"]] in
  run (if_job ex_match ex_ty) if_finish (start tt 1 (map Ok contents)) ex_one = Some st /\ joined st = true /\ if_result 1 st = Some v /\
  let rv := fit_rows false v in let cv := fit_cols rv in
  run (cf_job ex_match ex_is_sep ex_ty ex_ty rv 1 1) (cf_finish rv cv) (cf_start cv 1 (map Ok contents)) ex_one = Some st' /\ joined st' = true /\
  cf_result st' = Ok (Some m) /\ val m (u "dog/n") (u "cat/n") = 2%Z.
Proof.
  eexists. eexists. eexists. eexists. cbv zeta. split; [vm_compute; reflexivity|]. split; [vm_compute; reflexivity|]. split; [vm_compute; reflexivity|].
  split; [vm_compute; reflexivity|]. split; [vm_compute; reflexivity|]. split; vm_compute; reflexivity.
Qed.
