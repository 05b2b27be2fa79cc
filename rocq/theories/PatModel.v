(** * Model of the notations for dependency patterns: parse_pattern (nephosem/specutils/deputils.py:41-118), the construction of
      PatternGraph and its readers, MacroGraph's readers, and the older Graph class (nephosem/core/graph.py). *)
From Coq Require Import String NArith ZArith Bool Arith List.
From Verif Require Import Base Str VocabModel DepModel.
Import ListNotations.
Local Open Scope string_scope.
Local Open Scope nat_scope.
Local Open Scope list_scope.

Definition lt_ : N := 60%N.       (* < *)
Definition gt_ : N := 62%N.       (* > *)
Definition dash : N := 45%N.
Definition lbrack : N := 91%N.
Definition rbrack : N := 93%N.
Definition comma : N := 44%N.
Definition blank : N := 32%N.
Definition larrow : pystr := [lt_; dash].
Definition rarrow : pystr := [dash; gt_].

(** ** parse_pattern.  The parameters larrow and rarrow have their default values; the recursive calls use these anyway. *)
Definition at_arrow (s : pystr) : bool := eqb (firstn 2 s) larrow || eqb (firstn 2 s) rarrow.
(** find_arrow, deputils.py:41-54, with start = 0.  [op], [cl]: a bracket was opened, closed. *)
Fixpoint find_arrow (op cl : bool) (s : pystr) : nat :=
  match s with
  | [] => 0
  | c :: s' => if at_arrow s && negb (op && negb cl) then 0 else S (find_arrow (op || (c =? lbrack)%N) (cl || (c =? rbrack)%N) s')
  end.
(** [s.split(' ', 1)] unpacked into two *)
Fixpoint split_blank (s : pystr) : res (pystr * pystr) :=
  match s with
  | [] => Err ValueError
  | c :: s' => if (c =? blank)%N then Ok ([], s') else rmap (fun ab => (c :: fst ab, snd ab)) (split_blank s')
  end.
Definition pdicts : Type := dict Z pystr * dict (Z * Z) pystr.
(** parse_sub, deputils.py:57-93.  Every recursive call has a shorter text, so the length of the text is fuel enough. *)
Fixpoint parse_sub (fuel : nat) (prev : Z) (s : pystr) (arrow : pystr) (d : pdicts) : res pdicts :=
  match fuel with
  | O => Ok d
  | S f =>
      match strip s with
      | [] => Ok d
      | _ =>
          if (hd 0 s =? lbrack)%N && (last s 0 =? rbrack)%N
          then rfold (fun d node => parse_sub f prev (strip node) arrow d) (split comma (removelast (tl s))) d
          else
            let i := find_arrow false false s in
            rbind (split_blank (strip (firstn i s))) (fun rn =>
            let rel := strip (fst rn) in
            let node := strip (snd rn) in
            let next := (Z.of_nat (length (fst d)) + 1)%Z in
            let d := (dset (fst d) next node, dset (snd d) (if eqb arrow larrow then (next, prev) else (prev, next)) rel) in
            if i =? length s then Ok d
            else parse_sub f next (skipn (i + 2) s) (firstn 2 (skipn i s)) d)
      end
  end.
(** parse_pattern, deputils.py:96-118 *)
Definition parse_pattern (target feature : pystr) : res pdicts :=
  let feature := strip feature in
  let sub := strip (skipn 2 feature) in
  parse_sub (S (length sub)) 1%Z sub (firstn 2 feature) ([(1%Z, strip target)], []).

(** ** PatternGraph *)
(** [s.index(t)] *)
Fixpoint find (t s : pystr) : option nat :=
  if eqb (firstn (length t) s) t then Some 0 else match s with [] => None | _ :: s' => option_map S (find t s') end.
Definition index (t s : pystr) : res nat := match find t s with Some i => Ok i | None => Err ValueError end.
(** [s.replace(t, '')]; an empty [t] changes nothing *)
Fixpoint remove_all (fuel : nat) (t s : pystr) : pystr :=
  match fuel, t, s with
  | S f, _ :: _, c :: s' => if eqb (firstn (length t) s) t then remove_all f t (skipn (length t) s) else c :: remove_all f t s'
  | _, _, _ => s
  end.
Definition replace_empty (t s : pystr) : pystr := remove_all (length s) t s.
(** [s[a:b]] for a, b >= 0 *)
Definition slice (a b : nat) (s : pystr) : pystr := firstn (b - a) (skipn a s).
(** [s.rsplit('/', 1)]: one or two parts *)
Definition rsplit1 (s : pystr) : list pystr :=
  match rev (split slash s) with
  | last :: (_ :: _) as before => [join slash (rev before); last]
  | _ => [s]
  end.
Definition group_open : pystr := u "?P<".
(** graph.py:401-408 and 412-418: the attributes that a regular expression with named groups stands for *)
Definition reg_attr (a : attrs) (reg : pystr) : res attrs :=
  rbind (index group_open reg) (fun start => rbind (index [gt_] reg) (fun stop =>
    Ok (dset a (slice (start + 3) stop reg) (AStr (replace_empty (slice start (stop + 1) reg) reg))))).
Definition reg_attrs (s : pystr) : res attrs := rfold reg_attr (rsplit1 s) [].
(** The nodes and edges of a pattern: a string, or a dict of attributes *)
Definition spec := (pystr + attrs)%type.
Definition spec_attrs (x : spec) : res attrs := match x with inl s => reg_attrs s | inr a => Ok a end.
(** PatternGraph.__init__, graph.py:386-426, without a graph; an attribute called id clashes with the argument id.  The
    test for linearity (C52) is left out. *)
Definition pattern_init (ns : dict Z spec) (es : dict (Z * Z) spec) : res graph :=
  rbind (rfold (fun g na => rmap (nx_add_node g (fst na)) (spec_attrs (snd na))) ns empty_graph) (fun g =>
  rmap fst (rfold (fun (gi : graph * nat) e => rbind (spec_attrs (snd e)) (fun a =>
              if dmem a (u "id") then Err TypeError
              else Ok (nx_add_edge (fst gi) (fst (fst e)) (snd (fst e)) (dupdate [(u "id", AInt (Z.of_nat (S (snd gi))))] a), S (snd gi))))
            es (g, 0))).
(** PatternGraph.read_csv, graph.py:507-544, on the two columns that pandas reads: the graphs and their repr_ *)
Definition pattern_row (tf : pystr * pystr) : res (graph * pystr) :=
  let feature := strip (snd tf) in
  rbind (parse_pattern (strip (fst tf)) feature) (fun d =>
  rmap (fun g => (g, feature)) (pattern_init (map (fun kv => (fst kv, inl (snd kv))) (fst d)) (map (fun kv => (fst kv, inl (snd kv))) (snd d)))).
Definition pattern_csv (rows : list (pystr * pystr)) : res (list (graph * pystr)) := rmapm pattern_row rows.
(** MacroGraph.read_csv, graph.py:890-897: the constructor has no parameter called target *)
Definition macro_csv (rows : list (pystr * pystr)) : res (list (graph * pystr)) :=
  rbind (pattern_csv rows) (rmapm (fun _ => Err TypeError)).

(** ** XML documents as minidom shows them *)
Inductive xml := Elem (tag : pystr) (xattrs : dict pystr pystr) (kids : list xml) | Text (data : pystr).
(** The elements of a name from here on, in document order *)
Fixpoint tagged (name : pystr) (x : xml) : list xml :=
  match x with
  | Elem t _ ks => (if eqb t name then [x] else []) ++ flat_map (tagged name) ks
  | Text _ => []
  end.
(** element.getElementsByTagName(name); for the document it is [tagged name root] *)
Definition elements (name : pystr) (x : xml) : list xml := match x with Elem _ _ ks => flat_map (tagged name) ks | Text _ => [] end.
Definition first {A} (l : list A) : res A := match l with x :: _ => Ok x | [] => Err IndexError end.
(** x.attributes[k].value *)
Definition xattr (k : pystr) (x : xml) : res pystr :=
  match x with Elem _ a _ => match dget a k with Some v => Ok v | None => Err KeyError end | Text _ => Err TypeError end.
(** x.childNodes[0].data *)
Definition data0 (x : xml) : res pystr :=
  match x with Elem _ _ (Text s :: _) => Ok s | Elem _ _ (Elem _ _ _ :: _) => Err AttributeError | _ => Err IndexError end.

Section Macros.
  (** Patterns *)
  Context {P : Type}.
  Record macrox := MacroX { mx_id : Z; mx_pattern : P; mx_target : Z; mx_feature : Z; mx_tdesc : pystr; mx_fdesc : pystr }.
  Definition desc (x : xml) : res pystr :=
    match elements (u "description") x with [] => Ok (u "no description") | e :: _ => data0 e end.
  (** MacroGraph.parse_macro_xml, graph.py:977-1025; the graph is copied, get_depth (C46) left out *)
  Definition parse_macro_xml (x : xml) (id2patt : dict Z P) : res macrox :=
    rbind (rbind (xattr (u "id") x) int_of_str) (fun mid =>
    rbind (first (elements (u "sub-graph-pattern") x)) (fun patt =>
    rbind (rbind (xattr (u "id") patt) int_of_str) (fun pid =>
    rbind (first (elements (u "target") x)) (fun target =>
    rbind (rbind (xattr (u "nodeID") target) int_of_str) (fun tidx =>
    rbind (desc target) (fun td =>
    rbind (first (elements (u "feature") x)) (fun feat =>
    let fidx := match rbind (xattr (u "featureID") feat) int_of_str with Ok z => z | Err _ => (-1)%Z end in
    rbind (desc feat) (fun fd =>
    rmap (fun p => MacroX mid p tidx fidx td fd) (look id2patt pid))))))))).
  (** graph.py:938-945 and 949-956: the attributes of a node format with their groups *)
  Definition node_fmt (f : xml) : res (dict pystr Z) :=
    rbind (first (elements (u "node-fmt") f)) (fun nf =>
    rbind (first (elements (u "string") nf)) (fun str =>
    rbind (xattr (u "connector") str) (fun conn =>
    rbind (data0 str) (fun text =>
    match conn with
    | [c] => rfold (fun d a => rbind (first (elements a nf)) (fun e => rmap (dset d a) (rbind (xattr (u "group") e) int_of_str))) (split c text) []
    | _ => Err ValueError  (* simplified: a connector of several characters is not modelled; an empty one is a ValueError *)
    end)))).
  (** MacroGraph.read_xml, graph.py:900-974: the macros with target_node_attrs, feature_node_attrs and feature_edge_attrs *)
  Definition read_xml (root : xml) (patterns : list (Z * P)) : res (list (macrox * dict pystr Z * dict pystr Z * dict pystr Z)) :=
    let id2patt := dict_of patterns in
    rbind (first (tagged (u "target-fmt") root)) (fun tf => rbind (node_fmt tf) (fun tattrs =>
    rbind (first (tagged (u "feature-fmt") root)) (fun ff => rbind (node_fmt ff) (fun fattrs =>
    rbind (first (elements (u "edge-fmt") ff)) (fun ef => rbind (data0 ef) (fun edge =>
    rmapm (fun x => rmap (fun m => (m, tattrs, fattrs, [(edge, 1%Z)])) (parse_macro_xml x id2patt)) (tagged (u "target-feature-macro") root))))))).
End Macros.
Arguments macrox : clear implicits.

(** ** PatternGraph.read_graphml, graph.py:547-598 *)
Definition starts (p s : pystr) : bool := eqb (firstn (length p) s) p.
(** The first loop: the lines before the first graph *)
Fixpoint gml_header (lines : list pystr) : list pystr * list pystr :=
  match lines with
  | [] => ([], [])
  | l :: ls => if starts (u "<graph") (strip l) && negb (starts (u "<graphml") (strip l)) then ([], lines)
               else let '(h, r) := gml_header ls in (l :: h, r)
  end.
(** The second loop: the graphs, and the line that ends the file, if there is one *)
Fixpoint gml_graphs (lines cur : list pystr) : list (list pystr) * option pystr :=
  match lines with
  | [] => ([], None)
  | l :: ls =>
      if starts (u "</graphml") (strip l) then ([], Some l)
      else let cur := cur ++ [l] in
           if starts (u "</graph") (strip l) then let '(g, e) := gml_graphs ls [] in (cur :: g, e) else gml_graphs ls cur
  end.
(** Line 574; None among the strings to join is a TypeError *)
Definition gml_strings (lines : list pystr) : res (list pystr) :=
  let '(h, r) := gml_header lines in
  let '(gs, ender) := gml_graphs r [] in
  match gs, ender with
  | [], _ => Ok []
  | _, None => Err TypeError
  | _, Some e => Ok (map (fun g => concat h ++ concat g ++ e) gs)
  end.
(** Lines 576-585: every key with a default, whatever it is for *)
Definition gml_defaults (root : xml) : res (dict pystr pystr) :=
  rfold (fun d k => rmap (fun name => match rbind (first (elements (u "default") k)) data0 with Ok v => dset d name v | Err _ => d end)
                         (xattr (u "attr.name") k)) (tagged (u "key") root) [].
Definition add_defaults (ds : dict pystr pystr) (a : attrs) : attrs :=
  fold_left (fun a kv => if dmem a (fst kv) then a else dset a (fst kv) (AStr (snd kv))) ds a.
Definition with_defaults (ds : dict pystr pystr) (g : graph) : graph :=
  Graph (map (fun na => (fst na, add_defaults ds (snd na))) (gnodes g)) (gedges g).
Section Graphml.
  (** minidom's parser, and nx.parse_graphml, which stores no defaults in nodes and edges *)
  Variable parse_xml : pystr -> res xml.
  Variable parse_gml : pystr -> res graph.
  Definition read_graphml (lines : list pystr) : res (list (Z * graph)) :=
    rbind (gml_strings lines) (fun strings =>
    rbind (parse_xml (concat lines)) (fun doc => rbind (gml_defaults doc) (fun ds =>
    rmapm (fun s => rbind (parse_gml s) (fun g => rbind (parse_xml s) (fun x => rbind (first (tagged (u "graph") x)) (fun e =>
                    rbind (xattr (u "id") e) (fun gid =>
                    match gnodes g with
                    | [] => Err AttributeError  (* line 397: an empty graph counts as none *)
                    | _ => rmap (fun i => (i, with_defaults ds g)) (int_of_str gid)
                    end))))) strings))).
End Graphml.

(** ** The class Graph, graph.py:38-130: an undirected graph whose nodes are strings *)
Record ugraph := UGraph { unodes : list pystr; uedges : list ((pystr * pystr) * pystr) }.
Definition uadd_node (g : ugraph) (v : pystr) : ugraph := if mem v (unodes g) then g else UGraph (unodes g ++ [v]) (uedges g).
Definition same_edge (a b : pystr * pystr) : bool := eqb a b || (eqb (fst a) (snd b) && eqb (snd a) (fst b)).
Definition uadd_edge (g : ugraph) (a b rel : pystr) : ugraph :=
  let g := uadd_node (uadd_node g a) b in
  UGraph (unodes g)
    (if existsb (fun e => same_edge (fst e) (a, b)) (uedges g)
     then map (fun e => if same_edge (fst e) (a, b) then (fst e, rel) else e) (uedges g)
     else uedges g ++ [((a, b), rel)]).
(** The columns of a line, graph.py:83-89: tokens with their label, and the edge; other lines are skipped *)
Definition raw_line (line : pystr) : res (option (Z * pystr * Z * pystr)) :=
  match split 9%N (strip line) with
  | [word; pos; type; idx; to_idx; rel] =>
      rbind (int_of_str idx) (fun i => rmap (fun t => Some (i, type ++ slash :: pos, t, rel)) (int_of_str to_idx))
  | _ => Ok None
  end.
(** build_graph_raw, graph.py:72-97 *)
Definition build_graph_raw (lines : list pystr) : res ugraph :=
  rbind (rfold (fun (st : dict Z pystr * list (Z * Z * pystr) * ugraph) line =>
           let '(ids, es, g) := st in
           rmap (fun r => match r with
                          | None => st
                          | Some (i, lab, t, rel) => (dset ids i lab, es ++ [(i, t, rel)], uadd_node g lab)
                          end) (raw_line line)) lines ([(0%Z, u "root")], [], UGraph [] [])) (fun st =>
  let '(ids, es, g) := st in
  rfold (fun g e => let '(i, t, rel) := e in
           rbind (look ids i) (fun a => rmap (fun b => uadd_edge g a b rel) (look ids t))) es g).
Definition uneighbors (g : ugraph) (v : pystr) : list pystr :=
  flat_map (fun e => if eqb (fst (fst e)) v then [snd (fst e)] else if eqb (snd (fst e)) v then [fst (fst e)] else []) (uedges g).
Section OldMatch.
  Variable re_match : pystr -> pystr -> bool.
  (** match_graph and match_path, deputils.py:363-422, for a PathTemplate (terms.py:709-734), the class that has match_node:
      its match_edge has no parameter called idx.  A path with edges either finds no neighbour or raises. *)
  Definition match_path0 (g : ugraph) (nedges : nat) (nd : pystr) : res (list (list pystr)) :=
    match nedges with
    | O => Ok [[nd]]
    | _ => match uneighbors g nd with [] => Ok [] | _ => Err TypeError end
    end.
  Definition match_graph (g : ugraph) (pnodes pedges : list pystr) : res (list (list pystr)) :=
    rmap (@concat (list pystr)) (rmapm (fun nd => rbind (first pnodes) (fun p => if re_match p nd then match_path0 g (length pedges) nd else Ok [])) (unodes g)).
End OldMatch.
(** SentenceGraph.match_target_feature, graph.py:284-307: feature.target is the method, which is the index of no node *)
Definition match_target_feature (s : graph) : res unit :=
  rfold (fun _ na => match dget (snd na) (u "label") with Some (AStr []) | Some (AInt 0%Z) => Ok tt | Some (AInt _) => Err TypeError | _ => Err KeyError end) (gnodes s) tt.
