(** * Claims about the notations for dependency patterns and the older graphs. *)
From Coq Require Import String NArith ZArith Bool Arith Lia Sorting.Permutation List.
From Verif Require Import Base BaseLemmas Str VocabModel DepModel PatModel PatSpec PatProofs.
Import ListNotations.
Local Open Scope string_scope.
Local Open Scope nat_scope.
Local Open Scope list_scope.

(** ** C133: parsing a pattern *)
Theorem C133_parse_partial : forall target feature lf s, feature_text feature lf s ->
  parse_pattern target feature = Ok (number (strip target :: snodes s), sedges 1 lf 2 s).
Proof. intros target feature lf s H. exact (proj1 (parse_pattern_text target feature lf s H)). Qed.
Print Assumptions C133_parse_partial.
(** That is a graph with as many edges as nodes besides the target, all different and between its nodes. *)
Theorem C133_edges : forall feature lf s, feature_text feature lf s ->
  length (sedges 1 lf 2 s) = length (snodes s) /\ NoDup (map fst (sedges 1 lf 2 s)) /\
  forall e, In e (map fst (sedges 1 lf 2 s)) -> (1 <= fst e <= Z.of_nat (S (length (snodes s))))%Z /\ (1 <= snd e <= Z.of_nat (S (length (snodes s))))%Z.
Proof. intros feature lf s H. split; [apply sedges_length|]. exact (proj2 (parse_pattern_text [] feature lf s H)). Qed.
Print Assumptions C133_edges.
Definition s1 : sub := One (u "nsubj") (u "go/V") (Some (false, Many [One (u "obj") (u "c[<->]r/N") None; One (u "prep") (u "to/IN") (Some (true, One (u "pobj") (u "[st]ea/N") None))])).
Example C133_ex : feature_text (u " <- nsubj  go/V ->[obj c[<->]r/N , prep to/IN <- pobj [st]ea/N]") true s1 /\
  parse_pattern (u " dog/N ") (u " <- nsubj  go/V ->[obj c[<->]r/N , prep to/IN <- pobj [st]ea/N]")
    = Ok ([(1, u "dog/N"); (2, u "go/V"); (3, u "c[<->]r/N"); (4, u "to/IN"); (5, u "[st]ea/N")]%Z, [((2, 1), u "nsubj"); ((2, 3), u "obj"); ((2, 4), u "prep"); ((5, 4), u "pobj")]%Z).
Proof.
  split; [|vm_compute; reflexivity]. exists (u " nsubj  go/V ->[obj c[<->]r/N , prep to/IN <- pobj [st]ea/N]"). split; [vm_compute; reflexivity|].
  assert (G : good_label (u "obj") [] (u "c[<->]r/N")).
  { apply good_label_dec. vm_compute. reflexivity. }
  assert (W1 : white [32%N]) by repeat constructor.
  pose proof (writes_end _ _ _ G) as A1.
  pose proof (writes_end (u "pobj") [] (u "[st]ea/N") ltac:(apply good_label_dec; vm_compute; reflexivity)) as A2.
  pose proof (writes_step (u "prep") [] (u "to/IN") [32%N] true [32%N] _ _ ltac:(apply good_label_dec; vm_compute; reflexivity) W1 W1 (or_intror (ex_intro _ _ (ex_intro _ _ (ex_intro _ _ eq_refl)))) A2) as A3.
  assert (N1 : forall s, mem comma s = false -> ~ In comma s) by (intros s H I; apply mem_In in I; congruence).
  pose proof (parts_cons _ _ [32%N] _ [] _ A3 W1 (Forall_nil _) ltac:(apply N1; vm_compute; reflexivity) parts_nil) as A4.
  pose proof (parts_cons _ _ [] _ [32%N] _ A1 (Forall_nil _) W1 ltac:(apply N1; vm_compute; reflexivity) A4) as A5.
  exact (writes_step (u "nsubj") [32%N] (u "go/V") [32%N] false [] _ _ ltac:(apply good_label_dec; vm_compute; reflexivity) W1 (Forall_nil _) (or_introl eq_refl) (writes_list _ _ A5)).
Qed.
(** A blank between an arrow and a bracket, a list inside a list, and the arrows of the docstring: other graphs than
    those written, and no error. *)
Theorem C133_parse_refuted :
  parse_pattern (u "a/N") (u "->r b/V->[x c/N,y d/N]") = Ok ([(1, u "a/N"); (2, u "b/V"); (3, u "c/N"); (4, u "d/N")]%Z, [((1, 2), u "r"); ((2, 3), u "x"); ((2, 4), u "y")]%Z) /\
  parse_pattern (u "a/N") (u "->r b/V-> [x c/N,y d/N]") = Ok ([(1, u "a/N"); (2, u "b/V"); (3, u "c/N,y d/N]")]%Z, [((1, 2), u "r"); ((2, 3), u "[x")]%Z) /\
  parse_pattern (u "a/N") (u "->[r b/V->[x c/N,y d/N],z e/N]")
    = Ok ([(1, u "a/N"); (2, u "b/V"); (3, u "c/N"); (4, u "d/N]"); (5, u "e/N")]%Z, [((1, 2), u "r"); ((2, 3), u "[x"); ((1, 4), u "y"); ((1, 5), u "z")]%Z) /\
  parse_pattern (u "(\w+)/(N)\w*") (u "<(nsubj) \w+/(V)\w* >[(acomp) (\w+)/(JJ)]") = Ok ([(1, u "(\w+)/(N)\w*"); (2, u "\w+/(V)\w* >[(acomp) (\w+)/(JJ)]")]%Z, [((1, 2), u "nsubj)")]%Z).
Proof. repeat split; vm_compute; reflexivity. Qed.
Print Assumptions C133_parse_refuted.

(** ** C134: the attributes of a node or an edge *)
Theorem C134_attrs_partial : forall s a, label_attrs s a -> reg_attrs s = Ok a.
Proof. intros s a L. exact (proj1 (reg_attrs_label s a L)). Qed.
Print Assumptions C134_attrs_partial.
Lemma ex_lemma : names_group (u "lemma") (u "(\w+)") (u "(?P<lemma>\w+)").
Proof. apply (names_intro _ _ _ (u "(") (u "\w+)")); vm_compute; reflexivity. Qed.
Lemma ex_pos : names_group (u "pos") (u "(N)\w*") (u "(?P<pos>N)\w*").
Proof. apply (names_intro _ _ _ (u "(") (u "N)\w*")); vm_compute; reflexivity. Qed.
Lemma ex_rel : names_group (u "deprel") (u "(nsubj)") (u "(?P<deprel>nsubj)").
Proof. apply (names_intro _ _ _ (u "(") (u "nsubj)")); vm_compute; reflexivity. Qed.
Lemma ex_node : label_attrs (u "(?P<lemma>\w+)/(?P<pos>N)\w*") [(u "lemma", AStr (u "(\w+)")); (u "pos", AStr (u "(N)\w*"))].
Proof.
  right. exists (u "(?P<lemma>\w+)"), (u "(?P<pos>N)\w*"), (u "lemma"), (u "(\w+)"), (u "pos"), (u "(N)\w*").
  repeat split; [|apply ex_lemma|apply ex_pos|discriminate]. intros I. apply mem_In in I. vm_compute in I. discriminate.
Qed.
Lemma ex_edge : label_attrs (u "(?P<deprel>nsubj)") [(u "deprel", AStr (u "(nsubj)"))].
Proof. left. exists (u "deprel"), (u "(nsubj)"). repeat split; [apply ex_rel|]. intros I. apply mem_In in I. vm_compute in I. discriminate. Qed.
Example C134_ex : reg_attrs (u "(?P<lemma>\w+)/(?P<pos>N)\w*") = Ok [(u "lemma", AStr (u "(\w+)")); (u "pos", AStr (u "(N)\w*"))].
Proof. apply C134_attrs_partial, ex_node. Qed.
(** The notation of the docstring of parse_pattern has no names, which is an error; of three attributes the second is part
    of the first one's regular expression. *)
Theorem C134_attrs_refuted :
  reg_attrs (u "(\w+)/(N)\w*") = Err ValueError /\
  reg_attrs (u "(?P<form>\w+)/(?P<lemma>\w+)/(?P<pos>N)") = Ok [(u "form", AStr (u "(\w+)/(?P<lemma>\w+)")); (u "pos", AStr (u "(N)"))].
Proof. split; vm_compute; reflexivity. Qed.
Print Assumptions C134_attrs_refuted.

(** ** C135: reading patterns from a table *)
Theorem C135_csv_partial : forall rows gs,
  Forall2 (fun row gr => exists lf s, feature_text (snd row) lf s /\ pattern_of (fst row) lf s (fst gr) /\ snd gr = strip (snd row)) rows gs ->
  pattern_csv rows = Ok gs.
Proof. exact @csv_rows. Qed.
Print Assumptions C135_csv_partial.
Definition g1 : graph := Graph [(1, [(u "lemma", AStr (u "(\w+)")); (u "pos", AStr (u "(N)\w*"))]); (2, [(u "lemma", AStr (u "(\w+)")); (u "pos", AStr (u "(N)\w*"))])]%Z
                               [((2, 1), [(u "id", AInt 1); (u "deprel", AStr (u "(nsubj)"))])]%Z.
Example C135_ex : let node := u "(?P<lemma>\w+)/(?P<pos>N)\w*" in let s := One (u "(?P<deprel>nsubj)") node None in
  let f := u "<-(?P<deprel>nsubj) (?P<lemma>\w+)/(?P<pos>N)\w*" in
  feature_text f true s /\ pattern_of node true s g1 /\ pattern_csv [(node, f)] = Ok [(g1, f)].
Proof.
  cbn zeta. split; [exists (u "(?P<deprel>nsubj) (?P<lemma>\w+)/(?P<pos>N)\w*"); split; [vm_compute; reflexivity|];
    exact (writes_end (u "(?P<deprel>nsubj)") [] (u "(?P<lemma>\w+)/(?P<pos>N)\w*") ltac:(apply good_label_dec; vm_compute; reflexivity))|]. split; [|vm_compute; reflexivity].
  exists [[(u "lemma", AStr (u "(\w+)")); (u "pos", AStr (u "(N)\w*"))]; [(u "lemma", AStr (u "(\w+)")); (u "pos", AStr (u "(N)\w*"))]], [[(u "deprel", AStr (u "(nsubj)"))]].
  split; [constructor; [apply ex_node|constructor; [apply ex_node|constructor]]|]. split; [constructor; [apply ex_edge|constructor]|].
  split; [constructor; [|constructor]; intros [E|[]]; discriminate E|]. split; vm_compute; reflexivity.
Qed.
(** MacroGraph.read_csv fails whatever it reads, with a TypeError if the patterns are good. *)
Theorem C135_macro_csv_refuted : forall rows, rows <> [] ->
  (exists e, macro_csv rows = Err e) /\ forall gs, pattern_csv rows = Ok gs -> macro_csv rows = Err TypeError.
Proof. exact @macro_csv_error. Qed.
Print Assumptions C135_macro_csv_refuted.

(** ** C136: reading macros *)
Theorem C136_macros_partial : forall P root tf ff ms ta fa edge patterns (rs : list (macrox P)),
  tag_of root = u "target-feature-list" -> parts root = tf :: ff :: ms -> fmt_forms tf ff ta fa edge -> NoDup (map fst patterns) ->
  Forall2 (fun x m => exists pid feat, macro_form x (mx_id m) pid (mx_target m) (mx_tdesc m) (mx_fdesc m) feat /\
                                       feature_index feat (mx_feature m) /\ In (pid, mx_pattern m) patterns) ms rs ->
  read_xml root patterns = Ok (map (fun m => (m, ta, fa, [(edge, 1%Z)])) rs).
Proof. exact @read_doc. Qed.
Print Assumptions C136_macros_partial.
Definition ws : xml := Text [10%N; 32%N].
Definition fmt_ex : xml := Elem (u "node-fmt") [] [ws; Elem (u "POS") [(u "group", u "2")] []; ws; Elem (u "LEMMA") [(u "group", u "1")] []; ws; Elem (u "string") [(u "connector", u "/")] [Text (u "LEMMA/POS")]; ws].
Definition desc_ex (t : pystr) : xml := Elem (u "description") [] [Text t].
Definition macro_ex (id feature : pystr) : xml :=
  Elem (u "target-feature-macro") [(u "id", id)]
    [ws; Elem (u "sub-graph-pattern") [(u "id", u "1")] []; ws; Elem (u "target") [(u "nodeID", u "2")] [ws; desc_ex (u "noun")]; Elem (u "feature") [(feature, u "1")] [desc_ex (u "verb"); ws]].
Definition root_ex (feature : pystr) : xml :=
  Elem (u "target-feature-list") [] [ws; Elem (u "target-fmt") [] [ws; fmt_ex]; ws; Elem (u "feature-fmt") [] [fmt_ex; ws; Elem (u "edge-fmt") [] [Text (u "DEPREL")]]; macro_ex (u "7") feature; ws].
Lemma node_form_ex : node_form fmt_ex [(u "LEMMA", 1%Z); (u "POS", 2%Z)].
Proof.
  exists [Elem (u "POS") [(u "group", u "2")] []; Elem (u "LEMMA") [(u "group", u "1")] []], (Elem (u "string") [(u "connector", u "/")] [Text (u "LEMMA/POS")]), 47%N.
  split; [reflexivity|]. split; [reflexivity|]. split; [discriminate|]. split; [repeat constructor; [intros [E|[]]; discriminate E|intros []]|].
  split; [exists [Elem (u "LEMMA") [(u "group", u "1")] []; Elem (u "POS") [(u "group", u "2")] []]; split; [constructor|repeat constructor]|].
  split; [|repeat split].
  constructor; [|constructor; [|constructor]]; (split; [intros I; cbn in I; repeat (destruct I as [I|I]; [discriminate I|]); exact I|intros I; cbn [In reserved] in I; repeat (destruct I as [I|I]; [discriminate I|]); exact I]).
Qed.
Lemma macro_form_ex id feature : macro_form (macro_ex (str_of_Z id) feature) id 1 2 (u "noun") (u "verb") (Elem (u "feature") [(feature, u "1")] [desc_ex (u "verb"); ws]).
Proof.
  exists (Elem (u "sub-graph-pattern") [(u "id", u "1")] []), (Elem (u "target") [(u "nodeID", u "2")] [ws; desc_ex (u "noun")]).
  repeat split; try reflexivity; exists [], []; split; reflexivity.
Qed.
Example C136_ex : exists tf ff ms, parts (root_ex (u "featureID")) = tf :: ff :: ms /\ fmt_forms tf ff [(u "LEMMA", 1); (u "POS", 2)]%Z [(u "LEMMA", 1); (u "POS", 2)]%Z (u "DEPREL") /\
  Forall2 (fun x m => exists pid feat, macro_form x (mx_id m) pid (mx_target m) (mx_tdesc m) (mx_fdesc m) feat /\ feature_index feat (mx_feature m) /\ In (pid, mx_pattern m) [(1%Z, true); (2%Z, false)])
    ms [MacroX 7 true 2 1 (u "noun") (u "verb")].
Proof.
  eexists _, _, _. split; [reflexivity|]. split.
  - exists fmt_ex, fmt_ex, (Elem (u "edge-fmt") [] [Text (u "DEPREL")]). repeat split; try apply node_form_ex; try reflexivity. exists []. reflexivity.
  - constructor; [|constructor]. eexists 1%Z, _. split; [exact (macro_form_ex 7 (u "featureID"))|]. split; [left; reflexivity|now left].
Qed.
(** The docstring writes the feature's node as nodeID, which is not read: whatever it is, the feature has the index -1. *)
Theorem C136_feature_refuted :
  (forall P (id2patt : dict Z P) x mid pid tidx td fd feat p n, macro_form x mid pid tidx td fd feat -> has_attr feat (u "nodeID") (str_of_Z n) -> lacks_attr feat (u "featureID") ->
     dget id2patt pid = Some p -> parse_macro_xml x id2patt = Ok (MacroX mid p tidx (-1) td fd)) /\
  parse_macro_xml (macro_ex (u "7") (u "nodeID")) [(1%Z, true)] = Ok (MacroX 7 true 2 (-1) (u "noun") (u "verb")).
Proof.
  split; [|vm_compute; reflexivity]. intros P id2patt x mid pid tidx td fd feat p n Hm _ Hl Hp. rewrite (macro_read _ _ _ _ _ _ _ _ (-1)%Z Hm); [unfold look; now rewrite Hp|right; auto].
Qed.
Print Assumptions C136_feature_refuted.

(** ** C137: reading patterns from GraphML *)
Theorem C137_graphml_partial : forall px pg h gs e rest l b ls doc ds igs,
  Forall (fun l => opens l = false) h -> gs = (l :: b) :: ls -> opens l = true -> Forall block gs -> starts (u "</graphml") (strip e) = true ->
  let lines := h ++ concat gs ++ e :: rest in
  px (concat lines) = Ok doc -> gml_defaults doc = Ok ds ->
  Forall2 (fun g (ig : Z * graph) => let t := concat h ++ concat g ++ e in pg t = Ok (snd ig) /\ gnodes (snd ig) <> [] /\
             exists x el more, px t = Ok x /\ tagged (u "graph") x = el :: more /\ has_attr el (u "id") (str_of_Z (fst ig))) gs igs ->
  exists rs, read_graphml px pg lines = Ok rs /\ Forall2 (fun ig r => fst r = fst ig /\ filled_in doc (snd ig) (snd r)) igs rs.
Proof. exact @graphml_file. Qed.
Print Assumptions C137_graphml_partial.
Definition doc_ex : xml := Elem (u "graphml") [] [Elem (u "key") [(u "for", u "node"); (u "attr.name", u "pos")] [Elem (u "default") [] [Text (u "N")]];
  Elem (u "key") [(u "for", u "edge"); (u "attr.name", u "deprel")] [Elem (u "default") [] [Text (u "nsubj")]]; Elem (u "graph") [(u "id", u "4")] []].
Definition graph_ex : graph := Graph [(1, [(u "lemma", AStr (u "dog"))]); (2, [(u "pos", AStr (u "V"))])]%Z [((2, 1), [])]%Z.
Definition lines_ex : list pystr := [u "<graphml>"; u "<key/>"] ++ concat [[u " <graph id='4'>"; u "..."; u " </graph>"]] ++ u "</graphml>" :: [].
Example C137_ex : block [u " <graph id='4'>"; u "..."; u " </graph>"] /\ opens (u " <graph id='4'>") = true /\ opens (u "<graphml>") = false /\
  read_graphml (fun _ => Ok doc_ex) (fun _ => Ok graph_ex) lines_ex
    = Ok [(4%Z, Graph [(1, [(u "lemma", AStr (u "dog")); (u "pos", AStr (u "N")); (u "deprel", AStr (u "nsubj"))]); (2, [(u "pos", AStr (u "V")); (u "deprel", AStr (u "nsubj"))])]%Z [((2, 1), [])]%Z)].
Proof. split; [exists [u " <graph id='4'>"; u "..."], (u " </graph>"); repeat constructor|]. repeat split; vm_compute; reflexivity. Qed.
(** A file whose last line does not begin with the end of the file is a TypeError; the default of an edges' attribute is
    given to the nodes and to no edge. *)
Theorem C137_graphml_refuted :
  (forall px pg h gs rest l b ls, Forall (fun l => opens l = false) h -> gs = (l :: b) :: ls -> opens l = true -> Forall block gs ->
     Forall (fun l => starts (u "</graph") (strip l) = false) rest -> read_graphml px pg (h ++ concat gs ++ rest) = Err TypeError) /\
  block [u " <graph id='4'>"; u "</graph></graphml>"] /\
  exists k, In k (tagged (u "key") doc_ex) /\ has_attr k (u "for") (u "edge") /\ has_attr k (u "attr.name") (u "deprel") /\ key_default k (u "deprel") (u "nsubj") /\
    exists g, read_graphml (fun _ => Ok doc_ex) (fun _ => Ok graph_ex) lines_ex = Ok [(4%Z, g)] /\
      dget (gedges g) (2, 1)%Z = Some [] /\ exists a, dget (gnodes g) 1%Z = Some a /\ dget a (u "deprel") = Some (AStr (u "nsubj")).
Proof.
  split; [intros px pg h gs rest l b ls H1 H2 H3 H4 H5; unfold read_graphml; now rewrite (strings_unended h gs rest l b ls H1 H2 H3 H4 H5)|].
  split; [exists [u " <graph id='4'>"], (u "</graph></graphml>"); repeat constructor|].
  eexists. split; [right; left; reflexivity|]. split; [reflexivity|]. split; [reflexivity|]. split; [split; [reflexivity|eexists _, _, _, _; reflexivity]|].
  eexists. split; [vm_compute; reflexivity|]. split; [vm_compute; reflexivity|]. eexists. split; vm_compute; reflexivity.
Qed.
Print Assumptions C137_graphml_refuted.

(** ** C138: the graph of a sentence *)
Theorem C138_labels_partial : forall lines toks, raw_tokens lines toks -> (forall tk, In tk toks -> exists lab, label_at toks (snd (fst tk)) lab) ->
  exists g, build_graph_raw lines = Ok g /\ NoDup (unodes g) /\
    (forall v, In v (unodes g) <-> (exists tk, In tk toks /\ snd (fst (fst tk)) = v) \/ exists tk, In tk toks /\ label_at toks (snd (fst tk)) v) /\
    forall a b r, uedge g a b r <-> exists pre tk post, toks = pre ++ tk :: post /\ joins toks tk a b /\ snd tk = r /\ forall tk', In tk' post -> ~ joins toks tk' a b.
Proof. exact @raw_graph. Qed.
Print Assumptions C138_labels_partial.
Definition tabs (l : list string) : pystr := join 9%N (map u l).
Definition the_dog : list pystr :=
  [u "<s>"; tabs ["The"; "DT"; "the"; "1"; "2"; "det"]; tabs ["dog"; "NN"; "dog"; "2"; "3"; "nsubj"]; tabs ["saw"; "V"; "see"; "3"; "0"; "root"]; tabs ["the"; "DT"; "the"; "4"; "5"; "det"]; tabs ["dog"; "NN"; "dog"; "5"; "3"; "obj"]].
Example C138_tokens_ex : exists toks, raw_tokens (firstn 4 the_dog) toks /\ length toks = 3 /\ forall tk, In tk toks -> exists lab, label_at toks (snd (fst tk)) lab.
Proof.
  exists [(1, u "the/DT", 2, u "det"); (2, u "dog/NN", 3, u "nsubj"); (3, u "see/V", 0, u "root")]%Z. split; [|split; [reflexivity|]].
  { assert (N1 : forall s, mem 9%N s = false -> ~ In 9%N s) by (intros s H I; apply mem_In in I; congruence).
    cbn [firstn the_dog]. apply raw_other; [vm_compute; discriminate|].
    apply raw_token; [exists (u "The"), (u "DT"), (u "the"); repeat split; try (vm_compute; reflexivity); apply N1; reflexivity|].
    apply raw_token; [exists (u "dog"), (u "NN"), (u "dog"); repeat split; try (vm_compute; reflexivity); apply N1; reflexivity|].
    apply raw_token; [exists (u "saw"), (u "V"), (u "see"); repeat split; try (vm_compute; reflexivity); apply N1; reflexivity|]. constructor. }
  intros tk [<- |[<- |[<- |[]]]]; cbn [fst snd]; eexists; apply label_look; vm_compute; reflexivity.
Qed.
Example C138_ex : build_graph_raw (firstn 4 the_dog)
  = Ok (UGraph [u "the/DT"; u "dog/NN"; u "see/V"; u "root"] [((u "the/DT", u "dog/NN"), u "det"); ((u "dog/NN", u "see/V"), u "nsubj"); ((u "see/V", u "root"), u "root")]).
Proof. vm_compute. reflexivity. Qed.
(** Tokens of the same word and part of speech are one node, and the relation that came first is lost: five tokens with two
    relations to the verb, one of which is left. *)
Theorem C138_tokens_refuted : build_graph_raw the_dog
  = Ok (UGraph [u "the/DT"; u "dog/NN"; u "see/V"; u "root"] [((u "the/DT", u "dog/NN"), u "det"); ((u "dog/NN", u "see/V"), u "obj"); ((u "see/V", u "root"), u "root")]).
Proof. vm_compute. reflexivity. Qed.
Print Assumptions C138_tokens_refuted.

(** ** C139: matching paths *)
(** No path with edges is ever found: TypeError when a node that matches the first is an end of an edge, and nothing found otherwise. *)
Theorem C139_match_refuted : forall re g p ps pedges, pedges <> [] ->
  (forall v a b l, In v (unodes g) -> re p v = true -> In (a, b, l) (uedges g) -> v = a \/ v = b -> match_graph re g (p :: ps) pedges = Err TypeError) /\
  ((forall v a b l, In v (unodes g) -> re p v = true -> In (a, b, l) (uedges g) -> v <> a /\ v <> b) -> match_graph re g (p :: ps) pedges = Ok []).
Proof. exact match_edges'. Qed.
Print Assumptions C139_match_refuted.
Example C139_ex : let g := UGraph [u "dog/NN"; u "see/V"] [((u "dog/NN", u "see/V"), u "nsubj")] in
  match_graph eqb g [u "dog/NN"; u "see/V"] [u "nsubj"] = Err TypeError /\ match_graph eqb g [u "dog/NN"] [] = Ok [[u "dog/NN"]].
Proof. split; vm_compute; reflexivity. Qed.
(** SentenceGraph.match_target_feature fails on every sentence that has a node whose label is neither the empty string nor 0. *)
Theorem C139_target_feature_refuted : forall s v a, In (v, a) (gnodes s) -> dget a (u "label") <> Some (AStr []) -> dget a (u "label") <> Some (AInt 0) ->
  exists e, match_target_feature s = Err e.
Proof. exact @target_feature_error. Qed.
Print Assumptions C139_target_feature_refuted.
Example C139_target_ex : match_target_feature graph_ex = Err KeyError.
Proof. vm_compute. reflexivity. Qed.

(** ** Computed cases *)
(** A list in brackets with an arrow behind it is no list; blanks around everything *)
Example C133_values :
  parse_pattern (u "a") (u "->r b ->[s c, t d] -> x e") = Ok ([(1, u "a"); (2, u "b"); (3, u "c, t d]"); (4, u "e")]%Z, [((1, 2), u "r"); ((2, 3), u "[s"); ((3, 4), u "x")]%Z) /\
  parse_pattern (u "a") (u "->  r   b  <-  s  c[x]  -> t d") = Ok ([(1, u "a"); (2, u "b"); (3, u "c[x]"); (4, u "d")]%Z, [((1, 2), u "r"); ((3, 2), u "s"); ((3, 4), u "t")]%Z) /\
  parse_pattern (u "a") (u "<-  [r b , s c,t d]") = Ok ([(1, u "a"); (2, u "b"); (3, u "c"); (4, u "d")]%Z, [((2, 1), u "r"); ((3, 1), u "s"); ((4, 1), u "t")]%Z) /\
  parse_pattern (u "a") (u "->") = Ok ([(1%Z, u "a")], []) /\ parse_pattern (u "a") (u "->nsubj") = Err ValueError /\
  parse_pattern (u "a") (u "->[r b -> s c, t d]") = Ok ([(1, u "a"); (2, u "b"); (3, u "c"); (4, u "d")]%Z, [((1, 2), u "r"); ((2, 3), u "s"); ((1, 4), u "t")]%Z).
Proof. vm_compute. repeat split. Qed.
Example C135_values :
  macro_csv [] = Ok [] /\ macro_csv [(u "(?P<lemma>\w+)", u "->(?P<deprel>nsubj) (?P<lemma>x)")] = Err TypeError.
Proof. vm_compute. repeat split. Qed.
(** Formats that differ, the parts at different depths *)
Definition fmt_one : xml := Elem (u "node-fmt") [] [Elem (u "LEMMA") [(u "group", u "3")] []; Elem (u "string") [(u "connector", u "/")] [Text (u "LEMMA")]].
Definition root_two : xml :=
  Elem (u "target-feature-list") [] [Elem (u "target-fmt") [] [ws; Elem (u "deeper") [] [fmt_ex]]; Elem (u "feature-fmt") [] [fmt_one; Elem (u "edge-fmt") [] [Text (u "DEPREL")]];
    macro_ex (u "7") (u "featureID"); Elem (u "more") [] [macro_ex (u "8") (u "feature")]].
Example C136_values : read_xml root_two [(1%Z, true)] =
  Ok [(MacroX 7 true 2 1 (u "noun") (u "verb"), [(u "LEMMA", 1); (u "POS", 2)]%Z, [(u "LEMMA", 3%Z)], [(u "DEPREL", 1%Z)]);
      (MacroX 8 true 2 (-1) (u "noun") (u "verb"), [(u "LEMMA", 1); (u "POS", 2)]%Z, [(u "LEMMA", 3%Z)], [(u "DEPREL", 1%Z)])] /\
  read_xml root_two [(2%Z, true)] = Err KeyError /\ read_xml (Elem (u "target-feature-list") [] []) [(1%Z, true)] = Err IndexError.
Proof. vm_compute. repeat split. Qed.
Example C137_values :
  gml_strings (map u ["<graphml>"; "<key/>"; " <graph id='1'>"; "A"; "</graph>"; "<graph id='2'>"; "B"; "</graph>"; "</graphml>"; "after"])
    = Ok (map u ["<graphml><key/> <graph id='1'>A</graph></graphml>"; "<graphml><key/><graph id='2'>B</graph></graphml>"]) /\
  gml_strings (map u ["<graphml>"; "<graph id='1'>"; "A"; "</graph>"]) = Err TypeError /\ gml_strings (map u ["<graphml>"; "<key/>"]) = Ok [] /\
  gml_strings (map u ["<graphml>"; "<graph>"; "A"; "</graphml>"]) = Ok [] /\
  gml_defaults (Elem (u "graphml") [] [Elem (u "key") [(u "attr.name", u "pos")] [Elem (u "default") [] [Text (u "N")]];
     Elem (u "key") [(u "attr.name", u "pos")] [Elem (u "default") [] [Text (u "V")]]; Elem (u "key") [(u "attr.name", u "lemma")] []]) = Ok [(u "pos", u "V")] /\
  gml_defaults (Elem (u "graphml") [] [Elem (u "key") [] []]) = Err KeyError.
Proof. vm_compute. repeat split. Qed.
Example C138_values :
  build_graph_raw [tabs ["a"; "D"; "a"; "1"; "2"; "det"]; tabs ["x"; "N"; "x"; "2"; "0"; "root"]; tabs ["b"; "D"; "b"; "1"; "2"; "mod"]]
    = Ok (UGraph [u "a/D"; u "x/N"; u "b/D"; u "root"] [((u "b/D", u "x/N"), u "mod"); ((u "x/N", u "root"), u "root")]) /\
  build_graph_raw [tabs ["a"; "D"; "a"; "1"; "2"; "det"]] = Err KeyError.
Proof. vm_compute. repeat split. Qed.
