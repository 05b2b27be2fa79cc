(** * Model of nephosem/deprel/basic.py 223-766: sentences and features whose nodes carry one label and whose edges carry one
      relation, and their matching.

    Graphs, attributes and regular expressions are those of DepModel.  The classes and functions of basic.py whose text is that
    of other modules are modelled there: Sentence basic.py:35-51 (GetModel, terms.py:690-706), Graph basic.py:54-156 (PatModel,
    graph.py:38-140), PathTemplate basic.py:159-184 and Path 187-220 (PatModel and GetModel, terms.py:709-775),
    match_sub_template basic.py:370-421 (GrfModel, graph.py:328-379), __repr__ of graphs basic.py:262-270 and 354-367 (GrfModel),
    islinear 448-475, get_root 566-576, get_depth 579-588, get_depth_of_node 591-603 (DepModel), set_feature 525-541 (GrfModel). *)
From Coq Require Import String NArith ZArith Bool Arith List.
From Verif Require Import Base Str VocabModel CorpusModel ParModel MxModel DepModel GrfModel PatModel.
Import ListNotations.
Local Open Scope string_scope.
Local Open Scope nat_scope.
Local Open Scope list_scope.

(** ** Making graphs *)
(** DiGraph.istree, basic.py:237-240: a graph without edges is none *)
Definition is_tree (g : graph) : bool := match gedges g with [] => false | _ :: _ => istree g end.
(** DiGraph.add_node and add_edge basic.py:254-260, generate_graph 292-296 (the same loops in TemplateGraph.__init__ 437-441) *)
Definition gen_node (g : graph) (v : Z * pystr) : graph := nx_add_node g (fst v) [(u "label", AStr (snd v))].
Definition gen_edge (g : graph) (ie : nat * ((Z * Z) * pystr)) : graph :=
  let '(idx, ((a, b), lb)) := ie in nx_add_edge g a b [(u "id", AInt (Z.of_nat (idx + 1))); (u "rel", AStr lb)].
Definition gen_graph (ns : dict Z pystr) (es : dict (Z * Z) pystr) : graph :=
  fold_left gen_edge (combine (seq 0 (length es)) es) (fold_left gen_node ns empty_graph).
(** SentenceGraph.build_graph, basic.py:298-320; the columns of a line as in Graph.build_graph_raw *)
Definition read_line (st : dict Z pystr * dict (Z * Z) pystr) (line : pystr) : res (dict Z pystr * dict (Z * Z) pystr) :=
  rmap (fun r => match r with
                 | None => st
                 | Some (i, lab, h, rel) => (dset (fst st) i lab, dset (snd st) (h, i) rel)
                 end) (raw_line line).
Definition build_sentence (lines : list pystr) : res graph :=
  rmap (fun st => gen_graph (fst st) (snd st)) (rfold read_line lines ([], [])).
(** SentenceGraph.__init__, basic.py:274-290; None and empty collections are the same *)
Definition sentence_graph (ns : dict Z pystr) (es : dict (Z * Z) pystr) (lines : list pystr) : res graph :=
  match ns, es, lines with
  | _ :: _, _ :: _, _ => Ok (gen_graph ns es)
  | _, _, _ :: _ => build_sentence lines
  | _, _, [] => Err ValueError
  end.
(** TemplateGraph.__init__, basic.py:426-445, from nodes and edges: the graph; None when islinear never ends *)
Definition template_graph (ns : dict Z pystr) (es : dict (Z * Z) pystr) : option graph :=
  let g := gen_graph ns es in option_map (fun _ => g) (islinear g).
(** FeatureGraph, basic.py:489-522: the copied graph with its marks, the target and the depth.  A template without nodes is taken for
    none, and then there are no nodes to read (436-437). *)
Record featg := Feat { fgraph : graph; ftarget : Z; fdepth : nat }.
Definition feature_graph (tmpl : graph) (target : Z) (filter_ : dict Z bool) : option (res featg) :=
  match nodes tmpl with
  | [] => Some (Err AttributeError)
  | _ => match islinear tmpl with
         | None => None
         | Some _ => let g := set_feature (TNum target) filter_ tmpl in
                     option_map (fun d => Ok {| fgraph := g; ftarget := target; fdepth := d |}) (get_depth g)
         end
  end.

Section Match.
  Context {M : Type}.
  Variable re_match : pystr -> pystr -> option M.

  (** TemplateGraph.match_node basic.py:477-479 and match_edge 481-483 *)
  Definition node_matches (p : graph) (item : aval) (idx : Z) : res bool :=
    rbind (nlabel p idx) (fun r => rmap is_some (py_match re_match r item)).
  Definition edge_matches (p : graph) (rel : aval) (idx : Z * Z) : res bool :=
    rbind (erel p (fst idx) (snd idx)) (fun r => rmap is_some (py_match re_match r rel)).

  (** ** match_successors, basic.py:720-766 *)
  Definition bs_candidates (s p : graph) (scur fcur fsuc : Z) (onemap : dict Z Z) : res (list Z) :=
    rfilter (fun ssuc =>
      if dmem onemap ssuc then Ok false else
      rbind (nlabel s ssuc) (fun vitem => rbind (erel s scur ssuc) (fun rel =>
      rbind (node_matches p vitem fsuc) (fun vm => rbind (edge_matches p rel (fcur, fsuc)) (fun em =>
      Ok (vm && em)))))) (succs s scur).
  Definition bs_successors (s p : graph) (scur fcur : Z) : res (bool * list (dict Z Z)) :=
    if out_degree p fcur =? 0 then Ok (true, [[]]) else
    rmap (fun mapping => (negb (length mapping =? 0), map invert mapping))
      (rfold (fun mapping fsuc => rflat (fun onemap => rmap (map (fun ssuc => dset onemap ssuc fsuc))
                                                            (bs_candidates s p scur fcur fsuc onemap)) mapping)
             (succs p fcur) [[]]).
  (** ** match_level, basic.py:682-717 *)
  Fixpoint bs_level_from (s p : graph) (currmap : list (Z * Z)) (nextmaps : list (dict Z Z)) : res (option (list (dict Z Z))) :=
    match currmap with
    | [] => Ok (Some nextmaps)
    | (fn, sn) :: rest =>
        if out_degree p fn =? 0 then bs_level_from s p rest nextmaps else
        rbind (bs_successors s p sn fn) (fun r =>
          if fst r then bs_level_from s p rest (flat_map (fun prevone => map (fun onemap => dupdate prevone onemap) (snd r)) nextmaps)
          else Ok None)
    end.
  Definition bs_level (s p : graph) (currmap : dict Z Z) := bs_level_from s p currmap [[]].
  (** ** subtree_match, basic.py:633-679: what is appended to the matches of the feature, and how the call ends *)
  Definition bs_record (s p : graph) (lmatch : list (dict Z Z)) : wout :=
    let nodemapping := fold_left (fun d l => dupdate d l) lmatch [] in
    wget (rmapm (fun fs => rmap (pair (fst fs)) (nlabel s (snd fs))) nodemapping) (fun ns =>
    wget (rmapm (fun ht => rbind (look nodemapping (fst ht)) (fun h => rbind (look nodemapping (snd ht)) (fun t =>
                           rmap (pair ht) (erel s h t)))) (edge_list p)) (fun es =>
    ([(ns, es)], Ok tt))).
  (** One call for every level: [depth] is fuel enough *)
  Fixpoint bs_subtree (s p : graph) (depth fuel : nat) (lmatches : list (list (dict Z Z))) : wout :=
    match lmatches with
    | [] => wdone
    | lm0 :: _ =>
        if length lm0 =? depth then wfor (bs_record s p) lmatches else
        match fuel with
        | O => wdone
        | S f =>
            wget (rflat (fun lmatch => rmap (fun r => match r with
                                                       | None => []
                                                       | Some sucs => map (fun sucmap => lmatch ++ [sucmap]) sucs
                                                       end)
                                             (bs_level s p (last lmatch []))) lmatches)
                 (bs_subtree s p depth f)
        end
    end.
  (** ** tree_match, basic.py:606-630.  A sentence that is no tree is logged, and for that printed; None when get_root never ends;
      without node 1 a NetworkXError (KeyError here). *)
  Definition text_of (a : attrs) : aval := match dget a (u "label") with Some x => x | None => AStr (u "ROOT") end.
  Definition bs_tree (s p : graph) (depth : nat) : option wout :=
    if is_tree s then
      if is_tree p then
        if mem 1%Z (nodes p) then
          option_map (fun froot => wfor (fun va => wget (node_matches p (text_of (snd va)) froot) (fun b =>
                                           if b then bs_subtree s p depth depth [[[(froot, fst va)]]] else wdone)) (gnodes s))
                     (get_root p)
        else Some ([], Err KeyError)
      else Some ([], Err AssertionError)
    else Some (wget (sentence_repr s) (fun _ => wdone)).
  (** SentenceGraph.match_feature, basic.py:322-324 *)
  Definition match_feature (s : graph) (f : featg) : option wout := bs_tree s (fgraph f) (fdepth f).
  (** SentenceGraph.match_target_feature, basic.py:326-349 *)
  Definition bs_target (s p : graph) (t : Z) : wout :=
    wfor (fun va => wget (node_matches p (text_of (snd va)) t) (fun b =>
                      if b then match_sub_template re_match s p (fst va) t else wdone)) (gnodes s).
  Definition match_target_feature (s : graph) (f : featg) : wout := bs_target s (fgraph f) (ftarget f).
End Match.
