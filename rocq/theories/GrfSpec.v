(** * What the theorems about the walking matcher, the printed graphs and the setters of macros mean. *)
From Coq Require Import String NArith ZArith Bool Arith Permutation List.
From Verif Require Import Base Str VocabModel CorpusModel ParModel MxModel DepModel DepSpec GrfModel.
Import ListNotations.
Local Open Scope string_scope.
Local Open Scope nat_scope.
Local Open Scope list_scope.

(** The label of a node and the relation of an edge, both strings *)
Definition has_label (g : graph) (v : Z) (x : pystr) : Prop :=
  exists a, dget (gnodes g) v = Some a /\ dget a (u "label") = Some (AStr x).
Definition has_rel (g : graph) (e : Z * Z) (x : pystr) : Prop :=
  exists a, dget (gedges g) e = Some a /\ dget a (u "rel") = Some (AStr x).
(** Every node has a label and every edge a relation. *)
Definition labelled (g : graph) : Prop :=
  (forall v, In v (nodes g) -> exists x, has_label g v x) /\ (forall a b, edge g a b -> exists x, has_rel g (a, b) x).

Section Walks.
  Context {M : Type} (re_match : pystr -> pystr -> option M).
  Variables s p : graph.

  (** One step from the pair [a] (sentence node, pattern node) to the pair [b]: both along an edge upwards or both along an
      edge downwards, where relation and label of the sentence match those of the pattern. *)
  Definition step (a b : Z * Z) (e : aval * (Z * Z)) : Prop :=
    exists ls lp r rp,
      has_label s (fst b) ls /\ has_label p (snd b) lp /\ re_match lp ls <> None /\ re_match rp r <> None /\
      ((has_rel s (fst b, fst a) r /\ has_rel p (snd b, snd a) rp /\ e = (AStr r, (snd b, snd a))) \/
       (has_rel s (fst a, fst b) r /\ has_rel p (snd a, snd b) rp /\ e = (AStr r, (snd a, snd b)))).
  (** A walk from [cur], which was reached from [prev]: no step leads back to either node of the pair before. *)
  Inductive walk : Z * Z -> Z * Z -> list ((Z * Z) * (aval * (Z * Z))) -> Prop :=
  | walk_nil : forall prev cur, walk prev cur []
  | walk_cons : forall prev cur nxt e w, step cur nxt e -> fst nxt <> fst prev -> snd nxt <> snd prev ->
                                         walk cur nxt w -> walk prev cur ((nxt, e) :: w).
  (** What is recorded for a walk: for every pattern node the label of the (last) sentence node it was paired with, for every
      pattern edge the relation. *)
  Definition label_of (v : Z) : aval := match nlabel s v with Ok x => x | Err _ => AInt 0 end.
  Definition walk_record (start : Z * Z) (w : list ((Z * Z) * (aval * (Z * Z)))) : smatch :=
    (dict_of (map (fun st => (snd st, label_of (fst st))) (start :: map fst w)), dict_of (map (fun x => (snd (snd x), fst (snd x))) w)).

  (** [f] maps the pattern into the sentence, [t] to [v]: edges to edges with matching relations, all nodes but [t] to nodes
      with matching labels, different nodes to different nodes. *)
  Definition occurrence (v t : Z) (f : Z -> Z) : Prop :=
    f t = v /\
    (forall w, In w (nodes p) -> w <> t -> exists lp ls, has_label p w lp /\ has_label s (f w) ls /\ re_match lp ls <> None) /\
    (forall a b, edge p a b -> exists rp r, has_rel p (a, b) rp /\ has_rel s (f a, f b) r /\ re_match rp r <> None) /\
    (forall a b, In a (nodes p) -> In b (nodes p) -> f a = f b -> a = b).
  (** The record of an occurrence *)
  Definition occ_record (f : Z -> Z) (m : smatch) : Prop :=
    dwf (fst m) /\ dwf (snd m) /\
    (forall w x, dget (fst m) w = Some x <-> In w (nodes p) /\ exists y, x = AStr y /\ has_label s (f w) y) /\
    (forall a b x, dget (snd m) (a, b) = Some x <-> edge p a b /\ exists y, x = AStr y /\ has_rel s (f a, f b) y).
  (** The pattern is a chain that starts at [t]: its nodes in a row, with edges (in either direction) exactly between
      neighbours. *)
  Definition chain_from (t : Z) : Prop :=
    exists l, Permutation (t :: l) (nodes p) /\
              forall a b, (edge p a b \/ edge p b a) <-> (consecutive (t :: l) a b \/ consecutive (t :: l) b a).
End Walks.

(** ** Printing *)
(** The nodes are numbered 0, 1, ..., n-1. *)
Definition numbered (g : graph) : Prop := forall v, In v (nodes g) <-> (0 <= v < Z.of_nat (length (nodes g)))%Z.
(** What is shown for node [i] is [x]. *)
Definition shows (g : graph) (i : nat) (x : pystr) : Prop :=
  exists a, dget (gnodes g) (Z.of_nat i) = Some a /\
            match dget a (u "label") with Some y => y = AStr x | None => x = u "ROOT" end.

(** No node of the sentence has the attribute [attr]. *)
Definition lacks (g : graph) (attr : pystr) : Prop := forall v a, dget (gnodes g) v = Some a -> dget a attr = None.

(** ** feature_old *)
Section OldSpec.
  Context {M : Type} (re_match : pystr -> pystr -> option M) (re_group1 : M -> res (option pystr)).
  (** Pattern and sentence both give [attr] as a string; what is shown is group 1 of the match, or nothing without match or
      group. *)
  Definition piece (pa a : attrs) (attr : pystr) (out : pystr) : Prop :=
    exists r x, dget pa attr = Some (AStr r) /\ dget a attr = Some (AStr x) /\
      match re_match r x with
      | None => out = []
      | Some m => match re_group1 m with Err _ => out = [] | Ok (Some y) => out = y | Ok None => False end
      end.
  Definition node_text (g : graph) (v : Z) (a : attrs) (out : pystr) : Prop :=
    exists pa x y, dget (gnodes g) v = Some pa /\ piece pa a (u "lemma") x /\ piece pa a (u "pos") y /\ out = x ++ slash :: y.
  Definition edge_text (g : graph) (e : Z * Z) (x : mval) (out : pystr) : Prop :=
    exists pa a, dget (gedges g) e = Some pa /\ x = MAttrs a /\ piece pa a (u "deprel") out.
End OldSpec.
