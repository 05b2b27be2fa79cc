(** * What the theorems about labelled sentences and features mean. *)
From Coq Require Import String NArith ZArith Bool Arith Permutation List.
From Verif Require Import Base Str VocabModel CorpusModel ParModel MxModel DepModel DepSpec GrfModel GrfSpec PatModel.
Import ListNotations.

(** A node without a label (the artificial root of a sentence read from lines) *)
Definition unlabelled (g : graph) (v : Z) : Prop := exists a, dget (gnodes g) v = Some a /\ dget a (u "label") = None.
(** Labels and relations are strings, every edge has a relation, and nodes without a label depend on no other node. *)
Definition worded (g : graph) : Prop :=
  (forall v a, dget (gnodes g) v = Some a ->
     match dget a (u "label") with Some (AStr _) => True | Some (AInt _) => False | None => forall h, ~ edge g h v end) /\
  (forall a b, edge g a b -> exists x, has_rel g (a, b) x).
(** What a sentence node is matched with: its label; the word ROOT without one *)
Definition reads (g : graph) (v : Z) (x : pystr) : Prop := has_label g v x \/ (unlabelled g v /\ x = u "ROOT").

Section Placing.
  Context {M : Type} (re_match : pystr -> pystr -> option M).
  Variables s p : graph.
  (** [f] maps the feature into the sentence: nodes to nodes with matching text, edges to edges with matching relations, different
      nodes to different nodes. *)
  Definition placement (f : Z -> Z) : Prop :=
    (forall w, In w (nodes p) -> exists lp x, has_label p w lp /\ reads s (f w) x /\ re_match lp x <> None) /\
    (forall a b, edge p a b -> exists rp x, has_rel p (a, b) rp /\ has_rel s (f a, f b) x /\ re_match rp x <> None) /\
    (forall a b, In a (nodes p) -> In b (nodes p) -> f a = f b -> a = b).
End Placing.

(** ** Lines *)
(** What a line says: number, lemma/tag, number of the head, relation *)
Record token := Tok { t_id : Z; t_label : pystr; t_head : Z; t_rel : pystr }.
(** The line has these columns. *)
Definition columns (line : pystr) (cs : list pystr) : Prop := strip line = join 9%N cs /\ Forall (fun c => ~ In 9%N c) cs.
(** The tokens of a sentence; lines that do not have six columns have none. *)
Inductive tokens : list pystr -> list token -> Prop :=
| toks_nil : tokens [] []
| toks_line line ls toks word pos type i h rel zi zh : columns line [word; pos; type; i; h; rel] -> int_of_str i = Ok zi -> int_of_str h = Ok zh ->
    tokens ls toks -> tokens (line :: ls) (Tok zi (type ++ slash :: pos) zh rel :: toks)
| toks_other line ls toks : count 9%N (strip line) <> 5 -> tokens ls toks -> tokens (line :: ls) toks.
(** Six columns, but the fourth or the fifth is not a number *)
Definition bad_line (line : pystr) : Prop :=
  exists word pos type i h rel e, columns line [word; pos; type; i; h; rel] /\ (int_of_str i = Err e \/ int_of_str h = Err e).
(** The label that the tokens give to a number: that of its last line; the relation between two numbers: likewise *)
Definition line_label (toks : list token) (i : Z) : option pystr := option_map t_label (List.find (fun t => (t_id t =? i)%Z) (rev toks)).
Definition line_rel (toks : list token) (h i : Z) : option pystr :=
  option_map t_rel (List.find (fun t => (t_id t =? i)%Z && (t_head t =? h)%Z) (rev toks)).
(** The graph that the tokens describe: nodes are the numbers of tokens and of heads; only the former have labels. *)
Definition describes (toks : list token) (g : graph) : Prop :=
  gwf g /\
  (forall v, In v (nodes g) <-> exists t, In t toks /\ (v = t_id t \/ v = t_head t)) /\
  (forall v x, has_label g v x <-> line_label toks v = Some x) /\
  (forall v, unlabelled g v <-> In v (nodes g) /\ line_label toks v = None) /\
  (forall a b, edge g a b <-> exists t, In t toks /\ t_head t = a /\ t_id t = b) /\
  (forall a b x, has_rel g (a, b) x <-> line_rel toks a b = Some x).
(** The graph of a dictionary of nodes and one of edges *)
Definition graph_of (ns : dict Z pystr) (es : dict (Z * Z) pystr) (g : graph) : Prop :=
  gwf g /\
  (forall v, In v (nodes g) <-> In v (dkeys ns) \/ exists a, In (v, a) (dkeys es) \/ In (a, v) (dkeys es)) /\
  (forall v x, has_label g v x <-> dget ns v = Some x) /\
  (forall v, unlabelled g v <-> In v (nodes g) /\ ~ In v (dkeys ns)) /\
  dkeys (gedges g) = dkeys es /\
  (forall e x, has_rel g e x <-> dget es e = Some x) /\
  (forall i e, nth_error (dkeys es) i = Some e -> exists a, dget (gedges g) e = Some a /\ dget a (u "id") = Some (AInt (Z.of_nat (S i)))).

(** Two records with the same content, whatever the order in which it was entered *)
Definition same_record (m m' : smatch) : Prop :=
  (forall w, dget (fst m) w = dget (fst m') w) /\ (forall e, dget (snd m) e = dget (snd m') e).
