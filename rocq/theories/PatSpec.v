(** * What the claims about pattern notations mean. *)
From Coq Require Import String NArith ZArith Bool Arith List Sorting.Permutation.
From Verif Require Import Base Str VocabModel DepModel PatModel.
Import ListNotations.
Local Open Scope string_scope.
Local Open Scope nat_scope.
Local Open Scope list_scope.

(** ** Patterns as text *)
(** What follows an arrow: one relation and node, from which another arrow may go on, or several in brackets. *)
Inductive sub := One (rel node : pystr) (more : option (bool * sub)) | Many (l : list sub).
(** [true]: to the left, the next node is the head *)
Definition arrow_of (lf : bool) : pystr := if lf then larrow else rarrow.
(** The nodes in the order of the text, and the edges when the first of them gets number [next]. *)
Fixpoint snodes (s : sub) : list pystr :=
  match s with
  | One _ node more => node :: match more with None => [] | Some (_, s') => snodes s' end
  | Many l => flat_map snodes l
  end.
Fixpoint sedges (prev : Z) (lf : bool) (next : Z) (s : sub) : list ((Z * Z) * pystr) :=
  match s with
  | One rel node more =>
      (if lf then (next, prev) else (prev, next), rel) :: match more with None => [] | Some (lf', s') => sedges next lf' (next + 1) s' end
  | Many l =>
      (fix go next l := match l with [] => [] | s' :: l' => sedges prev lf next s' ++ go (next + Z.of_nat (length (snodes s')))%Z l' end) next l
  end.
(** Numbers from 1 *)
Definition number {A} (l : list A) : dict Z A := combine (map Z.of_nat (seq 1 (length l))) l.

(** No white space at either end *)
Definition trimmed (s : pystr) : Prop := strip s = s /\ s <> [].
Definition white (w : pystr) : Prop := Forall (fun c => is_ws c = true) w.
(** Arrows only where a bracket was opened and none closed yet: these are part of a regular expression. *)
Definition arrows_in_brackets (t : pystr) : Prop :=
  forall a arrow b, arrow = larrow \/ arrow = rarrow -> t = a ++ arrow ++ b -> In lbrack a /\ ~ In rbrack a.
Definition label_text (rel w node : pystr) : pystr := rel ++ blank :: w ++ node.
Definition good_label (rel w node : pystr) : Prop :=
  trimmed rel /\ ~ In blank rel /\ hd 0%N rel <> lbrack /\ white w /\ trimmed node /\
  arrows_in_brackets (label_text rel w node) /\ last node 0%N <> lt_ /\ (In lbrack (label_text rel w node) -> In rbrack (label_text rel w node)).
(** The text is a way to write the pattern: with white space around arrows and parts of a list, but none between an arrow
    and a bracket; no commas in a list other than those between the parts. *)
Inductive writes : sub -> pystr -> Prop :=
| writes_end rel w node : good_label rel w node -> writes (One rel node None) (label_text rel w node)
| writes_step rel w node w1 lf w2 s t : good_label rel w node -> white w1 -> white w2 -> (w2 = [] \/ exists r n m, s = One r n m) -> writes s t ->
    writes (One rel node (Some (lf, s))) (label_text rel w node ++ w1 ++ arrow_of lf ++ w2 ++ t)
| writes_list l ts : writes_parts l ts -> writes (Many l) (lbrack :: join comma ts ++ [rbrack])
with writes_parts : list sub -> list pystr -> Prop :=
| parts_nil : writes_parts [] []
| parts_cons s l w t w' ts : writes s t -> white w -> white w' -> ~ In comma t -> writes_parts l ts -> writes_parts (s :: l) ((w ++ t ++ w') :: ts).
(** The whole column: an arrow and what follows it *)
Definition feature_text (feature : pystr) (lf : bool) (s : sub) : Prop :=
  exists t, strip feature = arrow_of lf ++ t /\ writes s (strip t).

(** ** Regular expressions with named groups *)
Definition occurs_in (t s : pystr) : Prop := exists a b, s = a ++ t ++ b.
Definition group_tag (name : pystr) : pystr := group_open ++ name ++ [gt_].
(** [reg] is [regex] with the group's name put in. *)
Definition names_group (name regex reg : pystr) : Prop :=
  exists a b, reg = a ++ group_tag name ++ b /\ regex = a ++ b /\ ~ In gt_ name /\
    ~ In gt_ a /\ ~ occurs_in group_open a /\ ~ occurs_in (group_tag name) b.
(** The attributes of a text with one or two parts *)
Definition label_attrs (s : pystr) (a : attrs) : Prop :=
  (exists n r, names_group n r s /\ ~ In slash s /\ a = [(n, AStr r)]) \/
  (exists s1 s2 n1 r1 n2 r2, s = s1 ++ slash :: s2 /\ ~ In slash s2 /\ names_group n1 r1 s1 /\ names_group n2 r2 s2 /\ n1 <> n2 /\
     a = [(n1, AStr r1); (n2, AStr r2)]).

(** ** XML *)
Definition is_elem (x : xml) : bool := match x with Elem _ _ _ => true | Text _ => false end.
Definition kids_of (x : xml) : list xml := match x with Elem _ _ ks => ks | Text _ => [] end.
(** The elements inside, without the text between them *)
Definition parts (x : xml) : list xml := filter is_elem (kids_of x).
Definition tag_of (x : xml) : pystr := match x with Elem t _ _ => t | Text _ => [] end.
Definition has_attr (x : xml) (k v : pystr) : Prop := match x with Elem _ a _ => dget a k = Some v | Text _ => False end.
Definition lacks_attr (x : xml) (k : pystr) : Prop := match x with Elem _ a _ => dget a k = None | Text _ => True end.
(** An element with the given name that holds nothing but text *)
Definition leaf (tag : pystr) (x : xml) : Prop := tag_of x = tag /\ parts x = [].
(** <target nodeID="..."> with a description *)
Definition described (tag text : pystr) (x : xml) : Prop :=
  tag_of x = tag /\ exists a ks, parts x = [Elem (u "description") a (Text text :: ks)] /\ filter is_elem ks = [].
(** A macro of the documented form *)
Definition macro_form (x : xml) (mid pid tidx : Z) (td fd : pystr) (feat : xml) : Prop :=
  exists patt target, tag_of x = u "target-feature-macro" /\ parts x = [patt; target; feat] /\
    has_attr x (u "id") (str_of_Z mid) /\ leaf (u "sub-graph-pattern") patt /\ has_attr patt (u "id") (str_of_Z pid) /\
    described (u "target") td target /\ has_attr target (u "nodeID") (str_of_Z tidx) /\ described (u "feature") fd feat.

(** What counts as the feature's node: the attribute featureID, -1 without it *)
Definition feature_index (feat : xml) (f : Z) : Prop := has_attr feat (u "featureID") (str_of_Z f) \/ (lacks_attr feat (u "featureID") /\ f = (-1)%Z).
(** The names that mean something else in the documents *)
Definition reserved : list pystr := [u "string"; u "feature-fmt"; u "edge-fmt"; u "target-feature-macro"].
(** <node-fmt> with one element per attribute and the string that gives their order *)
Definition node_form (nf : xml) (l : list (pystr * Z)) : Prop :=
  exists gs str c, tag_of nf = u "node-fmt" /\ parts nf = gs ++ [str] /\ l <> [] /\ NoDup (map fst l) /\
    (exists gs', Permutation gs gs' /\ Forall2 (fun g na => leaf (fst na) g /\ has_attr g (u "group") (str_of_Z (snd na))) gs' l) /\
    Forall (fun na => ~ In c (fst na) /\ ~ In (fst na) reserved) l /\
    tag_of str = u "string" /\ has_attr str (u "connector") [c] /\ kids_of str = [Text (join c (map fst l))].
Definition fmt_forms (tf ff : xml) (ta fa : list (pystr * Z)) (edge : pystr) : Prop :=
  exists tnf fnf ef, tag_of tf = u "target-fmt" /\ parts tf = [tnf] /\ node_form tnf ta /\
    tag_of ff = u "feature-fmt" /\ parts ff = [fnf; ef] /\ node_form fnf fa /\ leaf (u "edge-fmt") ef /\ exists ks, kids_of ef = Text edge :: ks.

(** ** Graphs of strings *)
(** A line with a token: word, part of speech, lemma, number, number of the head and relation *)
Definition token_line (line : pystr) (tk : Z * pystr * Z * pystr) : Prop :=
  let '(i, lab, t, rel) := tk in
  exists word pos type, strip line = join 9%N [word; pos; type; str_of_Z i; str_of_Z t; rel] /\ lab = type ++ slash :: pos /\
    ~ In 9%N word /\ ~ In 9%N pos /\ ~ In 9%N type /\ ~ In 9%N rel.
(** The tokens of a sentence; lines with other numbers of columns have none. *)
Inductive raw_tokens : list pystr -> list (Z * pystr * Z * pystr) -> Prop :=
| raw_nil : raw_tokens [] []
| raw_token line ls tk toks : token_line line tk -> raw_tokens ls toks -> raw_tokens (line :: ls) (tk :: toks)
| raw_other line ls toks : count 9%N (strip line) <> 5 -> raw_tokens ls toks -> raw_tokens (line :: ls) toks.

(** ** The graph of a pattern *)
(** Edges carry their number as the attribute id. *)
Definition id_attrs (ea : list attrs) : list attrs := map (fun ia => (u "id", AInt (fst ia)) :: snd ia) (number ea).
Definition pattern_of (target : pystr) (lf : bool) (s : sub) (g : graph) : Prop :=
  exists na ea, Forall2 label_attrs (strip target :: snodes s) na /\
    Forall2 label_attrs (map snd (sedges 1 lf 2 s)) ea /\ Forall (fun a => ~ In (u "id") (dkeys a)) ea /\
    gnodes g = number na /\ gedges g = combine (map fst (sedges 1 lf 2 s)) (id_attrs ea).
Definition label_at (toks : list (Z * pystr * Z * pystr)) (i : Z) (lab : pystr) : Prop :=
  (exists pre t rel post, toks = pre ++ (i, lab, t, rel) :: post /\ forall tk, In tk post -> fst (fst (fst tk)) <> i) \/
  ((forall tk, In tk toks -> fst (fst (fst tk)) <> i) /\ i = 0%Z /\ lab = u "root").
(** The token is on an edge between the two. *)
Definition joins (toks : list (Z * pystr * Z * pystr)) (tk : Z * pystr * Z * pystr) (a b : pystr) : Prop :=
  let '(i, _, t, _) := tk in (label_at toks i a /\ label_at toks t b) \/ (label_at toks i b /\ label_at toks t a).
Definition uedge (g : ugraph) (a b r : pystr) : Prop := In ((a, b), r) (uedges g) \/ In ((b, a), r) (uedges g).

(** ** GraphML files *)
(** The lines of one graph: the last is the only one that ends one. *)
Definition block (b : list pystr) : Prop :=
  exists body end_, b = body ++ [end_] /\ Forall (fun l => starts (u "</graph") (strip l) = false) body /\
    starts (u "</graph") (strip end_) = true /\ starts (u "</graphml") (strip end_) = false.
Definition opens (l : pystr) : bool := starts (u "<graph") (strip l) && negb (starts (u "<graphml") (strip l)).
(** The first default of a key, under the name of its attribute *)
Definition key_default (k : xml) (n v : pystr) : Prop :=
  has_attr k (u "attr.name") n /\ exists t a ks more, elements (u "default") k = Elem t a (Text v :: ks) :: more.
Definition default_of (doc : xml) (n v : pystr) : Prop :=
  exists pre k post, tagged (u "key") doc = pre ++ k :: post /\ key_default k n v /\ forall k' v', In k' post -> ~ key_default k' n v'.
(** The same graph, with the nodes' missing attributes filled in *)
Definition filled_in (doc : xml) (g g' : graph) : Prop :=
  gedges g' = gedges g /\ Forall2 (fun na na' => fst na' = fst na /\
    forall k v, dget (snd na') k = Some v <-> dget (snd na) k = Some v \/ (dget (snd na) k = None /\ exists s, default_of doc k s /\ v = AStr s)) (gnodes g) (gnodes g').
