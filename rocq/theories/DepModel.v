(** * Model of dependency patterns: nephosem/specutils/deputils.py 121-360, nephosem/core/graph.py 143-1032 and
      nephosem/models/deprel.py.

    A networkx DiGraph (networkx 2.2) is modelled by its nodes with their attributes and its edges with their attributes, both in
    insertion order, which is the order in which networkx enumerates successors and predecessors.  Attribute values
    are strings, or integers (the line number lid).  Regular expressions are arbitrary functions. *)
From Coq Require Import String NArith ZArith Bool Arith List.
From Verif Require Import Base Str VocabModel CorpusModel ParModel MxModel.
Import ListNotations.

(** Filtering and flat_map with a function that may raise. *)
Fixpoint rfilter {A} (f : A -> res bool) (l : list A) : res (list A) :=
  match l with
  | [] => Ok []
  | x :: l' => rbind (f x) (fun b => rmap (fun r => if b then x :: r else r) (rfilter f l'))
  end.
Definition rflat {A B} (f : A -> res (list B)) (l : list A) : res (list B) := rmap (@concat B) (rmapm f l).
(** d[k] *)
Definition look {K V} `{EqDec K} (d : dict K V) (k : K) : res V := match dget d k with Some v => Ok v | None => Err KeyError end.

(** ** Graphs *)
Notation nid := Z (only parsing).
Inductive aval := AStr (s : pystr) | AInt (z : Z).
Definition attrs := dict pystr aval.
Record graph := Graph { gnodes : dict nid attrs; gedges : dict (nid * nid) attrs }.
Definition nodes (g : graph) : list nid := dkeys (gnodes g).
Definition succs (g : graph) (v : nid) : list nid := map snd (filter (fun e => eqb (fst e) v) (dkeys (gedges g))).
Definition preds (g : graph) (v : nid) : list nid := map fst (filter (fun e => eqb (snd e) v) (dkeys (gedges g))).
Definition out_degree (g : graph) (v : nid) : nat := length (succs g v).
(** [for u, v in g.edges]: node by node *)
Definition edge_list (g : graph) : list (nid * nid) := flat_map (fun v => map (pair v) (succs g v)) (nodes g).

Definition empty_graph : graph := Graph [] [].
(** DiGraph.add_node and add_edge of networkx *)
Definition nx_add_node (g : graph) (v : nid) (kw : attrs) : graph :=
  Graph (dset (gnodes g) v (dupdate (match dget (gnodes g) v with Some a => a | None => [] end) kw)) (gedges g).
Definition nx_add_edge (g : graph) (a b : nid) (kw : attrs) : graph :=
  let g := nx_add_node (nx_add_node g a []) b [] in
  Graph (gnodes g) (dset (gedges g) (a, b) (dupdate (match dget (gedges g) (a, b) with Some x => x | None => [] end) kw)).
(** nx.is_weakly_connected: everything is reached from the first node. *)
Definition adjacent (g : graph) (a b : nid) : bool := mem (a, b) (dkeys (gedges g)) || mem (b, a) (dkeys (gedges g)).
Definition grow (g : graph) (s : list nid) : list nid :=
  filter (fun v => mem v s || existsb (fun w => adjacent g v w) s) (nodes g).
Definition weakly_connected (g : graph) : bool :=
  match nodes g with
  | [] => false
  | v :: _ => forallb (fun w => mem w (Nat.iter (length (nodes g)) (grow g) [v])) (nodes g)
  end.
(** DiGraph.istree, graph.py:162-168: nx.is_tree is n-1 edges and weakly connected; the exception for the empty graph
    is caught. *)
Definition istree (g : graph) : bool := (S (length (gedges g)) =? length (nodes g)) && weakly_connected g.

(** ** deputils.py: get_root 121-131, get_depth 134-143, get_depth_of_node 146-158 *)
(** Following the first predecessor: end point and number of steps; [None] when there is no end (a cycle). *)
Fixpoint climb (g : graph) (fuel : nat) (v : nid) : option (nid * nat) :=
  match preds g v with
  | [] => Some (v, 0)
  | p :: _ => match fuel with
              | O => None
              | S f => option_map (fun rn => (fst rn, S (snd rn))) (climb g f p)
              end
  end.
(** A walk with more steps than nodes is in a cycle and never ends. *)
Definition get_root (g : graph) : option nid := option_map fst (climb g (length (nodes g)) 1%Z).
Definition get_depth_of_node (g : graph) (v : nid) : option nat := option_map (fun rn => S (snd rn)) (climb g (length (nodes g)) v).
Definition get_depth (g : graph) : option nat :=
  fold_left (fun acc v => match acc, get_depth_of_node g v with
                          | Some m, Some d => Some (if m <? d then d else m)
                          | _, _ => None
                          end)
            (filter (fun v => out_degree g v =? 0) (nodes g)) (Some 1).

(** ** PatternGraph.islinear, graph.py:428-456 *)
(** gx = to_undirected(): neighbours in insertion order, degree (a loop counts twice), number of edges *)
Definition neighbors (g : graph) (x : nid) : list nid :=
  dedup (flat_map (fun e => if eqb (fst e) x then [snd e] else if eqb (snd e) x then [fst e] else []) (edge_list g)).
Definition udegree (g : graph) (x : nid) : nat := length (neighbors g x) + (if mem x (neighbors g x) then 1 else 0).
Definition n_uedges (g : graph) : nat := sumn (map (udegree g) (nodes g)) / 2.
(** The while loop; [None] when [fuel] iterations are not enough.  [cur, nxt = nxt, n] for the first n other than cur;
    without one, nothing changes and the loop never ends. *)
Fixpoint il_walk (g : graph) (fuel : nat) (cur nxt : nid) : option bool :=
  let nb := neighbors g nxt in
  if length nb =? 3 then Some false else
  if length nb =? 1 then Some true else
  match fuel with
  | O => None
  | S f => match filter (fun n => negb (eqb n cur)) nb with
           | n :: _ => il_walk g f nxt n
           | [] => None
           end
  end.
Definition islinear (g : graph) : option bool :=
  if n_uedges g =? 1 then Some true else
  match filter (fun v => udegree g v =? 1) (nodes g) with
  | [] => Some false
  | cur :: _ => if (cur =? 0)%Z then Some false else
                match neighbors g cur with
                | nxt :: _ => il_walk g (length (nodes g)) cur nxt
                | [] => Some false (* never: cur has degree 1 *)
                end
  end.

Section Matching.
  (** re.match(regex, string) and match.group(i), which may raise and may be None *)
  Context {M : Type}.
  Variable re_match : pystr -> pystr -> option M.
  Variable re_group : M -> Z -> res (option pystr).

  Definition py_match (regex s : aval) : res (option M) :=
    match regex, s with AStr r, AStr s => Ok (re_match r s) | _, _ => Err TypeError end.
  (** The loop of match_node and match_edge; [None] when some attribute does not match. *)
  Fixpoint match_attrs (pattern : list (pystr * aval)) (a : attrs) : res (option (dict pystr M)) :=
    match pattern with
    | [] => Ok (Some [])
    | (attr, regex) :: l =>
        rbind (look a attr) (fun s => rbind (py_match regex s) (fun m =>
          match m with
          | None => Ok None
          | Some m => rmap (option_map (fun d => (attr, m) :: d)) (match_attrs l a)
          end))
    end.
  (** Truth value of what they return: None and the empty dict are false. *)
  Definition truthy (m : option (dict pystr M)) : bool := match m with Some (_ :: _) => true | _ => false end.
  (** PatternGraph.match_node, graph.py:458-480 *)
  Definition match_node (p : graph) (a : attrs) (idx : nid) : res (option (dict pystr M)) :=
    match a with
    | [] => Ok None
    | _ => rbind (look (gnodes p) idx) (fun pa => match_attrs pa a)
    end.
  (** PatternGraph.match_edge, graph.py:482-501 *)
  Definition match_edge (p : graph) (a : attrs) (idx : nid * nid) : res (option (dict pystr M)) :=
    rbind (look (gedges p) idx) (fun pa => match_attrs (filter (fun x => negb (eqb (fst x) (u "id"))) pa) a).

  (** ** match_successors, deputils.py:311-360 *)
  (** Lines 342-351: the successors of [scur] that [fsuc] can be mapped to *)
  Definition ms_candidates (s p : graph) (scur fcur fsuc : nid) (onemap : dict nid nid) : res (list nid) :=
    rfilter (fun ssuc =>
      if dmem onemap ssuc then Ok false else
      rbind (look (gnodes s) ssuc) (fun vitem => rbind (look (gedges s) (scur, ssuc)) (fun eitem =>
      rbind (match_node p vitem fsuc) (fun vm => rbind (match_edge p eitem (fcur, fsuc)) (fun em =>
      Ok (truthy vm && truthy em)))))) (succs s scur).
  Definition invert (m : dict nid nid) : dict nid nid := dict_of (map (fun kv => (snd kv, fst kv)) m).
  (** The deque is emptied from the left while results are appended on the right: one pass over its elements. *)
  Definition match_successors (s p : graph) (scur fcur : nid) : res (bool * list (dict nid nid)) :=
    if out_degree p fcur =? 0 then Ok (true, [[]]) else
    rmap (fun mapping => (negb (length mapping =? 0), map invert mapping))
      (rfold (fun mapping fsuc => rflat (fun onemap => rmap (map (fun ssuc => dset onemap ssuc fsuc))
                                                            (ms_candidates s p scur fcur fsuc onemap)) mapping)
             (succs p fcur) [[]]).

  (** ** match_level, deputils.py:270-308: [None] is (False, None) *)
  Fixpoint match_level_from (s p : graph) (prevmap : list (nid * nid)) (currmaps : list (dict nid nid))
    : res (option (list (dict nid nid))) :=
    match prevmap with
    | [] => Ok (Some currmaps)
    | (fn, sn) :: rest =>
        if out_degree p fn =? 0 then match_level_from s p rest currmaps else
        rbind (match_successors s p sn fn) (fun r =>
          if fst r then match_level_from s p rest (flat_map (fun prevone => map (fun onemap => dupdate prevone onemap) (snd r)) currmaps)
          else Ok None)
    end.
  Definition match_level (s p : graph) (prevmap : dict nid nid) := match_level_from s p prevmap [[]].

  (** ** Macros *)
  (** A recorded match: MacroGraph.matched_nodes[i] and matched_edges[i] *)
  Record mrec := MRec { m_nodes : dict nid attrs; m_edges : dict (nid * nid) attrs }.
  (** MacroGraph, graph.py:604-651; attribute name -> group number for the representations.  The filter is a Vocab or
      dict, of which only the keys matter. *)
  Record macro := Macro {
    mgraph : graph; mdepth : nat; target_idx : nid; feature_idx : Z;
    target_attrs : dict pystr Z; feature_nattrs : dict pystr Z; feature_eattrs : dict pystr Z;
    target_filter : option (list pystr); matched : list mrec }.
  (** A sentence: graph, whether its mode is 'token', and the file id *)
  Record sentence := Sentence { sgraph : graph; stoken : bool; sfid : pystr }.

  Definition special_attr (a : pystr) : bool := mem a [u "FID"; u "LID"; u "fid"; u "lid"].
  (** s.join(l) of attribute values: integers raise TypeError *)
  Definition as_str (a : aval) : res pystr := match a with AStr s => Ok s | AInt _ => Err TypeError end.

  (** ** add_match, deputils.py:240-267, for one match.  Simplified: the node dicts are those of the sentence, shared between
      matches; here FID and fid are set on copies.  (Setting them again has no effect, and no pattern tests them.) *)
  Definition add_one (s : sentence) (m : macro) (lmatch : list (dict nid nid)) : res (option mrec) :=
    let nodemapping := fold_left (fun d l => dupdate d l) lmatch [] in
    rbind (rmapm (fun fs => rmap (fun a => (fst fs, a)) (look (gnodes (sgraph s)) (snd fs))) nodemapping) (fun mnodes =>
    rbind (match target_filter m with
           | None => Ok true
           | Some filter_ =>
               rbind (look mnodes (target_idx m)) (fun ta =>
               rbind (rmapm (fun at_ => rbind (look ta (fst at_)) as_str)
                            (filter (fun at_ => negb (special_attr (fst at_))) (target_attrs m))) (fun vals =>
               Ok (mem (join slash vals) filter_)))
           end) (fun keep =>
    if keep then
      let mnodes := if stoken s then map (fun na => (fst na, dset (dset (snd na) (u "FID") (AStr (sfid s))) (u "fid") (AStr (sfid s)))) mnodes
                    else mnodes in
      rmap (fun medges => Some (MRec mnodes medges))
        (rmapm (fun ht => rbind (look nodemapping (fst ht)) (fun h => rbind (look nodemapping (snd ht)) (fun t =>
                          rmap (fun a => (ht, a)) (look (gedges (sgraph s)) (h, t))))) (edge_list (mgraph m)))
    else Ok None)).
  Definition add_match (s : sentence) (m : macro) (lmatches : list (list (dict nid nid))) : res (list mrec) :=
    rflat (fun lm => rmap olist (add_one s m lm)) lmatches.

  (** ** subtree_match, deputils.py:195-237; the new matches.  One recursive call per level: [mdepth] is fuel enough. *)
  Fixpoint subtree_match (s : sentence) (m : macro) (fuel : nat) (lmatches : list (list (dict nid nid))) : res (list mrec) :=
    match lmatches with
    | [] => Ok []
    | lm0 :: _ =>
        if length lm0 =? mdepth m then add_match s m lmatches else
        match fuel with
        | O => Ok []
        | S f =>
            rbind (rflat (fun lmatch => rmap (fun r => match r with
                                                       | None => []
                                                       | Some sucs => map (fun sucmap => lmatch ++ [sucmap]) sucs
                                                       end)
                                             (match_level (sgraph s) (mgraph m) (last lmatch []))) lmatches)
                  (subtree_match s m f)
        end
    end.

  (** ** tree_match, deputils.py:161-192: the matches appended to macro.matched_nodes / matched_edges, or [None] if
      get_root does not terminate.  Node 1 missing from the pattern is a NetworkXError (KeyError here). *)
  Definition tree_match (s : sentence) (m : macro) : option (res (list mrec)) :=
    if istree (sgraph s) then
      if mem 1%Z (nodes (mgraph m)) then
        option_map (fun froot =>
          rflat (fun va => rbind (match_node (mgraph m) (snd va) froot) (fun r =>
                   if truthy r then subtree_match s m (mdepth m) [[[(froot, fst va)]]] else Ok []))
                (gnodes (sgraph s)))
          (get_root (mgraph m))
      else Some (Err KeyError)
    else Some (Ok []).

  (** ** Targets and features of recorded matches *)
  (** str(x) *)
  Definition str_aval (a : aval) : pystr := match a with AStr s => s | AInt z => str_of_Z z end.
  Definition star : pystr := u "*".
  (** [re.match(regex, value)], then [.group(gid)] with any exception giving '*'; None cannot be joined. *)
  Definition repr_of (regex value : aval) (gid : Z) : res pystr :=
    rbind (py_match regex value) (fun m =>
      match m with
      | None => Ok star
      | Some m => match re_group m gid with
                  | Err _ => Ok star
                  | Ok (Some g) => Ok g
                  | Ok None => Err TypeError
                  end
      end).
  (** MacroGraph.target, graph.py:656-677; token: mode == 'token', otherwise 'type' *)
  Definition target (m : macro) (token : bool) (r : mrec) : res pystr :=
    rmap (join slash) (rmapm (fun ag =>
      if special_attr (fst ag)
      then rbind (look (m_nodes r) (target_idx m)) (fun a => rmap str_aval (look a (fst ag)))
      else rbind (look (gnodes (mgraph m)) (target_idx m)) (fun pa => rbind (look pa (fst ag)) (fun regex =>
           rbind (look (m_nodes r) (target_idx m)) (fun a => rbind (look a (fst ag)) (fun v => repr_of regex v (snd ag))))))
      (if token then target_attrs m else filter (fun ag => negb (special_attr (fst ag))) (target_attrs m))).
  (** get_node_repr, graph.py:761-772 and get_edge_repr 774-785 *)
  Definition node_repr (m : macro) (v : nid) (a : attrs) : res pystr :=
    rmap (join slash) (rmapm (fun ag => rbind (look (gnodes (mgraph m)) v) (fun pa => rbind (look pa (fst ag)) (fun regex =>
      rbind (look a (fst ag)) (fun x => repr_of regex x (snd ag))))) (feature_nattrs m)).
  Definition edge_repr (m : macro) (e : nid * nid) (a : attrs) : res pystr :=
    rmap (join slash) (rmapm (fun ag => rbind (look (gedges (mgraph m)) e) (fun pa => rbind (look pa (fst ag)) (fun regex =>
      rbind (look a (fst ag)) (fun x => repr_of regex x (snd ag))))) (feature_eattrs m)).
  (** feature_simple, graph.py:686-701 *)
  Definition feature_simple (m : macro) (r : mrec) : res pystr :=
    rmap (join slash) (rmapm (fun ag => rbind (look (gnodes (mgraph m)) (feature_idx m)) (fun pa => rbind (look pa (fst ag)) (fun regex =>
      rbind (look (m_nodes r) (feature_idx m)) (fun a => rbind (look a (fst ag)) (fun x => repr_of regex x (snd ag)))))) (feature_nattrs m)).
  Definition colon : N := 58%N.
  Definition tgt : pystr := u "#T#".
  Definition succ_repr (m : macro) (r : mrec) (curr succ : nid) : res (pystr * pystr) :=
    rbind (look (m_edges r) (curr, succ)) (fun ea => rbind (edge_repr m (curr, succ) ea) (fun er =>
    rbind (look (m_nodes r) succ) (fun na => rmap (fun nr => (er, nr)) (node_repr m succ na)))).
  (** preorder_recur, graph.py:720-759: the strings appended.  In a graph with a cycle the recursion never ends; there the
      fuel gives out (RecursionError in Python, here TypeError). *)
  Fixpoint preorder (m : macro) (r : mrec) (fuel : nat) (curr : nid) : res pystr :=
    match fuel with
    | O => Err TypeError
    | S f =>
        match succs (mgraph m) curr with
        | [] => Ok []
        | [succ] =>
            rbind (succ_repr m r curr succ) (fun en =>
            rmap (fun sub => u "->" ++ join colon [fst en; if (succ =? target_idx m)%Z then tgt else snd en] ++ sub)
                 (preorder m r f succ))
        | ss =>
            rbind (rmapm (fun succ => rmap (fun en => (succ, join colon [fst en; snd en])) (succ_repr m r curr succ)) ss) (fun reps =>
            rmap (fun parts => u "->" ++ u "[" ++ join 44%N parts ++ u "]")
              (rmapm (fun sr => rmap (app (if (fst sr =? target_idx m)%Z then join colon [hd [] (split colon (snd sr)); tgt] else snd sr))
                                     (preorder m r f (fst sr)))
                     (isort (fun a b => sleb (snd a) (snd b)) reps)))
        end
    end.
  (** feature_full, graph.py:703-718 *)
  Definition feature_full (m : macro) (r : mrec) : res pystr :=
    rbind (if (1 =? target_idx m)%Z then Ok tgt
           else rbind (look (m_nodes r) 1%Z) (node_repr m 1%Z)) (fun start =>
    rmap (app start) (preorder m r (S (length (nodes (mgraph m)))) 1%Z)).
  (** feature, graph.py:679-684 *)
  Definition feature (m : macro) (r : mrec) : res pystr :=
    if (feature_idx m =? -1)%Z then feature_full m r else feature_simple m r.

  (** ** build_matrix_by_matches, deprel.py:147-163 *)
  Definition match_pairs (macros : list macro) (token : bool) : res (list (pystr * pystr)) :=
    rflat (fun m => rmapm (fun r => rbind (target m token r) (fun t => rmap (pair t) (feature m r))) (matched m)) macros.
  Definition freq_dict (pairs : list (pystr * pystr)) : mtxdict := fold_left (fun d tf => bump d (fst tf) (snd tf)) pairs [].
  Definition build_matrix_by_matches (macros : list macro) (token : bool) : res (ttm Z) :=
    rbind (match_pairs macros token) (fun pairs =>
      let targets := isort sleb (dedup (map fst pairs)) in
      let contexts := isort sleb (dedup (map snd pairs)) in
      rbind (dict_to_sp (freq_dict pairs) targets contexts) (fun mx => mk_ttm mx targets contexts)).
End Matching.
Arguments mrec : clear implicits.

(** ** Reading sentences *)
Section Reading.
  Context {L LM : Type}.
  Variable match_line : L -> option LM.
  Variable separator : L -> bool.

  (** read_sentence, deprel.py:279-307, on the stripped lines: the sentences it yields *)
  Definition rs_step (st : nat * list (nat * L) * list (list (nat * L))) (line : L) :=
    let '(lid, sentence, out) := st in
    let lid := S lid in
    let sentence := if is_some (match_line line) then sentence ++ [(lid, line)] else sentence in
    if separator line then (lid, [], out ++ [sentence]) else (lid, sentence, out).
  Definition read_sentence (lines : list L) : list (list (nat * L)) :=
    let '(_, sentence, out) := fold_left rs_step lines (0, [], []) in
    if 0 <? length sentence then out ++ [sentence] else out.

  (** CorpusFormatter.get for a plain column, terms.py:671-674, and the settings used by build_graph *)
  Variable get_col : LM -> pystr -> pystr.
  Record fmt := Fmt { global_columns : list pystr; node_attr : list pystr; edge_attr : option (list pystr);
                      currID : pystr; headID : pystr }.
  Variable f : fmt.

  (** SentenceGraph.build_graph, graph.py:233-266: one line *)
  Definition bg_line (st : dict nid attrs * dict (nid * nid) attrs) (ll : nat * L) : res (dict nid attrs * dict (nid * nid) attrs) :=
    match match_line (snd ll) with
    | None => Ok st
    | Some m =>
        match edge_attr f with
        | None => Err AttributeError   (* None.split *)
        | Some ea =>
            rbind (int_of_str (get_col m (currID f))) (fun i =>
            rbind (int_of_str (get_col m (headID f))) (fun h =>
            let '(ns, es) :=
              fold_left (fun st col =>
                let '(ns, es) := st in
                let v := AStr (get_col m col) in
                if mem col (node_attr f) then (dset ns i (dset (match dget ns i with Some a => a | None => [] end) col v), es)
                else if mem col ea then (ns, dset es (h, i) (dset (match dget es (h, i) with Some a => a | None => [] end) col v))
                else (ns, es)) (global_columns f) st in
            Ok (dset ns i (dset (match dget ns i with Some a => a | None => [] end) (u "lid") (AInt (Z.of_nat (fst ll)))), es)))
        end
    end.
  (** generate_graph, graph.py:227-231; an edge attribute called id clashes with the keyword argument id *)
  Definition generate_graph (ns : dict nid attrs) (es : dict (nid * nid) attrs) : res graph :=
    rmap fst
      (rfold (fun (gi : graph * nat) e =>
                if dmem (snd e) (u "id") then Err TypeError
                else Ok (nx_add_edge (fst gi) (fst (fst e)) (snd (fst e)) (dupdate [(u "id", AInt (Z.of_nat (S (snd gi))))] (snd e)), S (snd gi)))
             es (fold_left (fun g na => nx_add_node g (fst na) (snd na)) ns empty_graph, 0)).
  Definition build_graph (sentence : list (nat * L)) : res graph :=
    rbind (rfold bg_line sentence ([], [])) (fun st => generate_graph (fst st) (snd st)).
  (** SentenceGraph.__init__ with a sentence, graph.py:216-225 *)
  Definition sentence_graph (token : bool) (fid : pystr) (sentence : list (nat * L)) : res DepModel.sentence :=
    match sentence with
    | [] => Err ValueError
    | _ => rmap (fun g => Sentence g token fid) (build_graph sentence)
    end.

  (** ** One file: _do_process_job, deprel.py:194-216, update_dep_rel_type / _token 226-267.  Nontermination of tree_match is
      [None]; a sentence that is not a tree is only reported. *)
  Context {M : Type}.
  Variable re_match : pystr -> pystr -> option M.
  Definition with_matched (m : macro) (l : list mrec) : macro :=
    Macro (mgraph m) (mdepth m) (target_idx m) (feature_idx m) (target_attrs m) (feature_nattrs m) (feature_eattrs m) (target_filter m) l.
  Definition with_filter (m : macro) (fl : option (list pystr)) : macro :=
    Macro (mgraph m) (mdepth m) (target_idx m) (feature_idx m) (target_attrs m) (feature_nattrs m) (feature_eattrs m) fl (matched m).
  Definition match_macro (s : DepModel.sentence) (m : macro) : option (res macro) :=
    option_map (rmap (fun new => with_matched m (matched m ++ new))) (tree_match re_match s m).
  (** Sequencing of possibly non-terminating, possibly raising steps *)
  Fixpoint omapm {A B} (g : A -> option (res B)) (l : list A) : option (res (list B)) :=
    match l with
    | [] => Some (Ok [])
    | x :: l' => match g x with
                 | None => None
                 | Some (Err e) => Some (Err e)
                 | Some (Ok y) => option_map (rmap (cons y)) (omapm g l')
                 end
    end.
  Fixpoint match_sentences (token : bool) (fid : pystr) (ss : list (list (nat * L))) (macros : list macro) : option (res (list macro)) :=
    match ss with
    | [] => Some (Ok macros)
    | s :: ss' =>
        match sentence_graph token fid s with
        | Err e => Some (Err e)
        | Ok sg =>
            if istree (sgraph sg) then
              match omapm (match_macro sg) macros with
              | None => None
              | Some (Err e) => Some (Err e)
              | Some (Ok macros') => match_sentences token fid ss' macros'
              end
            else match_sentences token fid ss' macros
        end
    end.
  (** DepRelHandler.__init__, deprel.py:49-57: targets=None becomes an empty Vocab, so a filter is always set (212-214). *)
  Definition handler_targets (targets : option (list pystr)) : list pystr := match targets with Some l => dedup l | None => [] end.
  Definition dep_job (token : bool) (targets : option (list pystr)) (macros : list macro) (fid : pystr) (lines : list L) : option (res (list macro)) :=
    match_sentences token fid (read_sentence lines) (map (fun m => with_filter m (Some (handler_targets targets))) macros).
  (** _process_results, deprel.py:269-276, on the items read from the queue *)
  Definition dep_merge (macros : list macro) (item : list (list mrec)) : list macro :=
    map (fun mi => with_matched (fst mi) (matched (fst mi) ++ snd mi)) (combine macros item).
  Definition dep_process_results (macros : list macro) (items : list (list (list mrec))) : list macro := fold_left dep_merge items macros.

  (** ** The pool: _worker_loop, deprel.py:172-190.  A job is a file, here the id made of its name (256) and its
      content, or the exception raised by opening it.  The item put is the list of macros, of which the result loop reads only the
      recorded matches.  (target_filter is always set, so [del] succeeds.)  Simplified: a job that never ends (a
      pattern with a cycle) is counted as one that raises. *)
  Definition dep_pool_job (token : bool) (targets : option (list pystr)) (macros : list macro) (_ : unit) (file : pystr * res (list L))
    : res (unit * option (list (list mrec))) :=
    rbind (snd file) (fun lines =>
      match dep_job token targets macros (fst file) lines with
      | Some r => rmap (fun ms => (tt, Some (map matched ms))) r
      | None => Err TypeError
      end).
  Definition dep_finish (_ : unit) : res (option (list (list mrec))) := Ok None.
  (** build_dependency, deprel.py:139-145, once the workers are gone; [None]: blocked. *)
  Variable re_group : M -> Z -> res (option pystr).
  Definition dep_result (token : bool) (macros : list macro) (n : nat) (st : pstate (pystr * res (list L)) unit (list (list mrec)))
    : option (res (ttm Z)) :=
    option_map (fun items => build_matrix_by_matches re_match re_group (dep_process_results macros items) token) (read_n n st).
End Reading.
(** read_templates(macros=...), deprel.py:95-99, for at least one macro and filters that can be copied; all cases are in
    CpyModel. *)
Definition read_templates (macros : list macro) : list macro := map (fun m => with_matched m []) macros.
