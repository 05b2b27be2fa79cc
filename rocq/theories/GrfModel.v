(** * Model of nephosem/core/graph.py 132-140, 182-198, 312-325, 328-379, 787-880: printing graphs, the walking matcher
      match_sub_template, and the setters of MacroGraph.

    Graphs, attributes and regular expressions are those of DepModel. *)
From Coq Require Import String NArith ZArith Bool Arith List.
From Verif Require Import Base Str VocabModel CorpusModel ParModel MxModel DepModel.
Import ListNotations.
Local Open Scope string_scope.
Local Open Scope nat_scope.
Local Open Scope list_scope.

(** ** match_sub_template, graph.py:328-379 *)
(** What was appended to matched_nodes and matched_edges, and how the call ended *)
Definition smatch := (dict Z aval * dict (Z * Z) aval)%type.
Definition wout := (list smatch * res unit)%type.
Definition wdone : wout := ([], Ok tt).
Definition wthen (a b : wout) : wout :=
  match snd a with
  | Ok _ => (fst a ++ fst b, snd b)
  | Err e => (fst a, Err e)
  end.
Fixpoint wfor {A} (f : A -> wout) (l : list A) : wout :=
  match l with
  | [] => wdone
  | x :: l' => wthen (f x) (wfor f l')
  end.
Definition wget {A} (r : res A) (f : A -> wout) : wout := match r with Ok x => f x | Err e => ([], Err e) end.

(** graph.predecessors(v), graph.successors(v): NetworkXError (here KeyError) when v is not a node *)
Definition gpreds (g : graph) (v : Z) : res (list Z) := if mem v (nodes g) then Ok (preds g v) else Err KeyError.
Definition gsuccs (g : graph) (v : Z) : res (list Z) := if mem v (nodes g) then Ok (succs g v) else Err KeyError.
(** graph.nodes[v]['label'] and graph[a][b]['rel'] *)
Definition nlabel (g : graph) (v : Z) : res aval := rbind (look (gnodes g) v) (fun a => look a (u "label")).
Definition erel (g : graph) (a b : Z) : res aval := rbind (look (gedges g) (a, b)) (fun x => look x (u "rel")).

Section Walk.
  Context {M : Type}.
  Variable re_match : pystr -> pystr -> option M.

  (** Lines 348-353 and 368-373: the relation of the sentence edge when edge and node match *)
  Definition fits (s p : graph) (es ep : Z * Z) (vs vt : Z) : res (option aval) :=
    rbind (erel s (fst es) (snd es)) (fun srel =>
    rbind (nlabel s vs) (fun sitem =>
    rbind (erel p (fst ep) (snd ep)) (fun trel =>
    rbind (nlabel p vt) (fun tpatt =>
    rbind (py_match re_match trel srel) (fun m =>
      match m with
      | None => Ok None
      | Some _ => rmap (fun m => match m with None => None | Some _ => Some srel end) (py_match re_match tpatt sitem)
      end))))).
  (** Lines 330-332 *)
  Definition record (s : graph) (vn : list (Z * Z)) (ve : list (aval * (Z * Z))) : wout :=
    wget (rmapm (fun st => rmap (pair (snd st)) (nlabel s (fst st))) vn)
         (fun ns => ([(dict_of ns, dict_of (map (fun e => (snd e, fst e)) ve))], Ok tt)).
  (** valid_nodes and valid_edges are kept with the last element first.  [k] is the number of calls below this one that are
      allowed; one for every pattern node is enough (GrfProofs). *)
  Fixpoint msub (k : nat) (s p : graph) (vn : list (Z * Z)) (ve : list (aval * (Z * Z))) : wout :=
    if length vn =? length (nodes p) then record s (rev vn) (rev ve) else
    match k, vn with
    | S k', (currs, currt) :: rest =>
        let '(prevs, prevt) := match rest with q :: _ => q | [] => (-1, -1)%Z end in
        wthen
          (wget (gpreds p currt) (wfor (fun predt =>
             if (predt =? prevt)%Z then wdone else
             wget (gpreds s currs) (wfor (fun preds_ =>
               if (preds_ =? prevs)%Z then wdone else
               wget (fits s p (preds_, currs) (predt, currt) preds_ predt) (fun m =>
                 match m with
                 | None => wdone
                 | Some srel => msub k' s p ((preds_, predt) :: vn) ((srel, (predt, currt)) :: ve)
                 end))))))
          (wget (gsuccs p currt) (wfor (fun succt =>
             if (succt =? prevt)%Z then wdone else
             wget (gsuccs s currs) (wfor (fun succs_ =>
               if (succs_ =? prevs)%Z then wdone else
               wget (fits s p (currs, succs_) (currt, succt) succs_ succt) (fun m =>
                 match m with
                 | None => wdone
                 | Some srel => msub k' s p ((succs_, succt) :: vn) ((srel, (currt, succt)) :: ve)
                 end))))))
    | _, _ => wdone
    end.
  (** The call of match_target_feature (303-306): valid_nodes = [(v, target)], valid_edges = [] *)
  Definition match_sub_template (s p : graph) (v t : Z) : wout := msub (length (nodes p)) s p [(v, t)] [].
End Walk.

(** ** SentenceGraph.__repr__, graph.py:312-325 *)
(** nodes[v] = x on a list: negative indices count from the end *)
Definition py_index (n : nat) (v : Z) : option nat :=
  if (0 <=? v)%Z then (if Z.to_nat v <? n then Some (Z.to_nat v) else None)
  else if (Z.to_nat (- v) <=? n) then Some (n - Z.to_nat (- v)) else None.
Fixpoint upd {A} (l : list A) (i : nat) (x : A) : list A :=
  match l, i with
  | [], _ => []
  | _ :: l', O => x :: l'
  | y :: l', S i' => y :: upd l' i' x
  end.
Definition put {A} (l : list A) (v : Z) (x : A) : res (list A) :=
  match py_index (length l) v with Some i => Ok (upd l i x) | None => Err IndexError end.
Definition repr_label (a : attrs) : aval := match dget a (u "label") with Some x => x | None => AStr (u "ROOT") end.
(** ' '.join(nodes): None and integers are TypeErrors *)
Definition join_cell (c : option aval) : res pystr := match c with Some (AStr s) => Ok s | _ => Err TypeError end.
Definition sentence_repr (g : graph) : res pystr :=
  rbind (rfold (fun l va => put l (fst va) (Some (repr_label (snd va)))) (gnodes g) (repeat None (length (nodes g)))) (fun l =>
  rmap (join 32%N) (rmapm join_cell l)).

(** ** DiGraph.__repr__, graph.py:190-198 (and Graph.__repr__ 132-140): one line for every node, one for every edge; an edge
      without rel shows None. *)
Definition str_val (a : aval) : pystr := match a with AStr s => s | AInt z => str_of_Z z end.
Definition nl : pystr := [10%N].
Definition digraph_repr (g : graph) : pystr :=
  concat (map (fun v => nl ++ u "v: " ++ str_of_Z v) (nodes g)) ++
  concat (map (fun e => nl ++ u "e: " ++ str_of_Z (fst e) ++ u " " ++ str_of_Z (snd e) ++ u " " ++
                 match dget (gedges g) e with
                 | Some a => match dget a (u "rel") with Some x => str_val x | None => u "None" end
                 | None => u "None"
                 end) (edge_list g)) ++ nl.

(** ** MacroGraph.set_feature and set_target, graph.py:853-867 *)
(** The attribute [target] of the macro: the method, or the number set_target has put in its place.  No node equals a
    method. *)
Inductive tattr := TMethod | TNum (z : Z).
Definition is_target (t : tattr) (v : Z) : bool := match t with TMethod => false | TNum z => (v =? z)%Z end.
(** True and False are the integers 1 and 0. *)
Definition abool (b : bool) : aval := AInt (if b then 1 else 0).
Definition set_feature (t : tattr) (filter_ : dict Z bool) (g : graph) : graph :=
  Graph (map (fun va => (fst va, dset (snd va) (u "feature")
                           (abool (if is_target t (fst va) then false
                                   else match dget filter_ (fst va) with Some b => b | None => true end)))) (gnodes g))
        (map (fun ea => (fst ea, dset (snd ea) (u "feature") (abool true))) (gedges g)).
Definition set_target (t : tattr) (z : Z) : tattr := TNum z.
(** macro.target(...): calling a number is a TypeError *)
Definition call_target {A} (t : tattr) (method : res A) : res A := match t with TMethod => method | TNum _ => Err TypeError end.

(** ** MacroGraph.feature_old, graph.py:787-851 *)
(** The values of matched_edges[index]: attributes, or the strings that line 815 writes over them (edge_dict is not a
    copy, line 804) *)
Inductive mval := MAttrs (a : attrs) | MStr (s : pystr).
Section Old.
  Context {M : Type}.
  Variable re_match : pystr -> pystr -> option M.
  Variable re_group1 : M -> res (option pystr).   (* match.group(1) *)
  (** Lines 817-851 put node and edge strings into the text of the pattern; not modelled *)
  Variable assemble : list pystr -> list pystr -> res pystr.
  (** Lines 796-801 and 809-814; None cannot be joined *)
  Definition old_repr (regex value : aval) : res pystr :=
    rbind (py_match re_match regex value) (fun m =>
      match m with
      | None => Ok []
      | Some m => match re_group1 m with Err _ => Ok [] | Ok (Some x) => Ok x | Ok None => Err TypeError end
      end).
  Definition old_node (g : graph) (va : Z * attrs) : res (Z * pystr) :=
    rmap (fun vals => (fst va, join slash vals))
      (rmapm (fun attr => rbind (look (gnodes g) (fst va)) (fun pa => rbind (look pa attr) (fun regex =>
                rbind (look (snd va) attr) (old_repr regex)))) [u "lemma"; u "pos"]).
  Definition old_edge (g : graph) (e : Z * Z) (x : mval) : res pystr :=
    rbind (look (gedges g) e) (fun pa => rbind (look pa (u "deprel")) (fun regex =>
      match x with
      | MAttrs a => rbind (look a (u "deprel")) (old_repr regex)
      | MStr _ => Err TypeError   (* a string indexed by a string *)
      end)).
  (** The loop 805-815: the edges afterwards, and whether it ended *)
  Fixpoint old_edges (g : graph) (es : dict (Z * Z) mval) : dict (Z * Z) mval * res (list pystr) :=
    match es with
    | [] => ([], Ok [])
    | (e, x) :: es' =>
        match old_edge g e x with
        | Err er => (es, Err er)
        | Ok r => let '(es'', rs) := old_edges g es' in ((e, MStr r) :: es'', rmap (cons r) rs)
        end
    end.
  Definition by_idx (l : list (Z * pystr)) : list (Z * pystr) := isort (fun a b => (fst a <=? fst b)%Z) l.
  (** One recorded match: the edges afterwards and the result *)
  Definition feature_old (g : graph) (ns : dict Z attrs) (es : dict (Z * Z) mval) : dict (Z * Z) mval * res pystr :=
    match rmapm (old_node g) (filter (fun va => negb (fst va =? 1)%Z) ns) with
    | Err er => (es, Err er)
    | Ok nodes_ => let '(es', rs) := old_edges g es in
                   (es', rbind rs (fun edges_ => assemble (map snd (by_idx nodes_)) edges_))
    end.
End Old.
