(** * What the theorems about dependency patterns mean: trees, constraints, embeddings, paths. *)
From Coq Require Import String NArith ZArith Bool Arith Permutation Sorted List.
From Verif Require Import Base Str VocabModel CorpusModel MxModel MxSpec DepModel.
Import ListNotations.

Definition edge (g : graph) (a b : Z) : Prop := In (a, b) (dkeys (gedges g)).
(** A possible state of a networkx graph: distinct keys, edges between nodes of the graph. *)
Definition gwf (g : graph) : Prop :=
  dwf (gnodes g) /\ dwf (gedges g) /\ forall a b, edge g a b -> In a (nodes g) /\ In b (nodes g).
(** No node depends on two heads. *)
Definition one_head (g : graph) : Prop := forall a b c, edge g a c -> edge g b c -> a = b.

(** [v] is [k] edges below [r]. *)
Inductive below (g : graph) (r : Z) : nat -> Z -> Prop :=
| below_0 : below g r 0 r
| below_S : forall k a b, below g r k a -> edge g a b -> below g r (S k) b.
(** A rooted tree: every node but the root has exactly one head, and is reached from the root. *)
Definition rooted (g : graph) (r : Z) : Prop :=
  In r (nodes g) /\ (forall a, ~ edge g a r) /\ one_head g /\ forall v, In v (nodes g) -> exists k, below g r k v.

(** Undirected paths. *)
Inductive linked (g : graph) : Z -> Z -> Prop :=
| linked_refl : forall a, linked g a a
| linked_step : forall a b c, linked g a b -> edge g b c \/ edge g c b -> linked g a c.

(** A simple path: the nodes in a row, with edges (in either direction) exactly between neighbours. *)
Definition consecutive (l : list Z) (a b : Z) : Prop := exists l1 l2, l = l1 ++ a :: b :: l2.
Definition simple_path (g : graph) : Prop :=
  exists l, Permutation l (nodes g) /\ forall a b, (edge g a b \/ edge g b a) <-> (consecutive l a b \/ consecutive l b a).

(** [v] has exactly [n] neighbours, whatever the directions of the edges. *)
Definition has_neighbours (g : graph) (v : Z) (n : nat) : Prop := exists l, NoDup l /\ length l = n /\ forall w, In w l <-> edge g v w \/ edge g w v.

Section Emb.
  Context {M : Type} (re_match : pystr -> pystr -> option M).
  (** The value of every attribute named by the pattern matches its regular expression. *)
  Definition satisfies (pattern a : attrs) : Prop :=
    forall attr regex, In (attr, regex) pattern -> exists r s, regex = AStr r /\ dget a attr = Some (AStr s) /\ re_match r s <> None.
  (** The constraints of an edge: its attributes except the edge number. *)
  Definition constraints (pa : attrs) : attrs := filter (fun x => negb (eqb (fst x) (u "id"))) pa.

  (** [f] maps the pattern into the sentence: nodes to nodes and edges to edges that satisfy the constraints, injectively. *)
  Definition embedding (p s : graph) (f : Z -> Z) : Prop :=
    (forall v pa, dget (gnodes p) v = Some pa -> exists a, dget (gnodes s) (f v) = Some a /\ satisfies pa a) /\
    (forall h t pa, dget (gedges p) (h, t) = Some pa -> exists a, dget (gedges s) (f h, f t) = Some a /\ satisfies (constraints pa) a) /\
    (forall v w, In v (nodes p) -> In w (nodes p) -> f v = f w -> v = w).
  (** Every node and edge of the pattern has some constraint. *)
  Definition constrained (p : graph) : Prop :=
    (forall v pa, dget (gnodes p) v = Some pa -> pa <> []) /\
    (forall e pa, dget (gedges p) e = Some pa -> constraints pa <> []).
  (** Same mapping on the nodes of the pattern. *)
  Definition same_on (p : graph) (f g : Z -> Z) : Prop := forall v, In v (nodes p) -> f v = g v.

  (** A sentence node with the file id, as recorded in token mode *)
  Definition stamp (s : sentence) (a : attrs) : attrs :=
    if stoken s then dset (dset a (u "FID") (AStr (sfid s))) (u "fid") (AStr (sfid s)) else a.
  (** The record of the embedding [f]: for every pattern node the attributes of its image, for every pattern edge those
      of its image, and nothing else. *)
  Definition records (p : graph) (s : sentence) (f : Z -> Z) (r : mrec) : Prop :=
    dwf (m_nodes r) /\ dwf (m_edges r) /\
    (forall v, dget (m_nodes r) v = if mem v (nodes p) then option_map (stamp s) (dget (gnodes (sgraph s)) (f v)) else None) /\
    (forall h t, dget (m_edges r) (h, t) = if mem (h, t) (dkeys (gedges p)) then dget (gedges (sgraph s)) (f h, f t) else None).

  (** The type of the target, by the sentence's attributes, as compared with the target list *)
  Definition target_type (m : macro) (s : sentence) (f : Z -> Z) : option pystr :=
    match dget (gnodes (sgraph s)) (f (target_idx m)) with
    | None => None
    | Some a => match rmapm (fun at_ => rbind (look a (fst at_)) as_str) (filter (fun at_ => negb (special_attr (fst at_))) (target_attrs m)) with
                | Ok vals => Some (join slash vals)
                | Err _ => None
                end
    end.
  Definition passes (m : macro) (s : sentence) (f : Z -> Z) : Prop :=
    match target_filter m with
    | None => True
    | Some l => match target_type m s f with Some t => In t l | None => False end
    end.
  (** What a macro is made from: a rooted pattern tree that contains node 1, its depth as computed by get_depth. *)
  Definition macro_wf (m : macro) : Prop :=
    gwf (mgraph m) /\ In 1%Z (nodes (mgraph m)) /\ (exists r, rooted (mgraph m) r) /\ get_depth (mgraph m) = Some (mdepth m).
End Emb.

(** The node or edge has a string as value of the attribute. *)
Definition gives (a : attrs) (attr : pystr) : Prop := exists s, dget a attr = Some (AStr s).
(** Every attribute that the pattern of the macro or its target filter looks at is there: on every edge of the sentence, and on
    every node that has attributes at all (the artificial root has none). *)
Definition covers (s : graph) (m : macro) : Prop :=
  (forall v pa attr x, dget (gnodes (mgraph m)) v = Some pa -> In (attr, x) pa ->
     (exists r, x = AStr r) /\ forall w a, dget (gnodes s) w = Some a -> a = [] \/ gives a attr) /\
  (forall e pa attr x, dget (gedges (mgraph m)) e = Some pa -> In (attr, x) (constraints pa) ->
     (exists r, x = AStr r) /\ forall e' a, dget (gedges s) e' = Some a -> gives a attr) /\
  (target_filter m <> None -> In (target_idx m) (nodes (mgraph m)) /\
     forall attr g, In (attr, g) (target_attrs m) -> special_attr attr = false -> forall w a, dget (gnodes s) w = Some a -> a = [] \/ gives a attr).

(** The matrix of counts of some (target, feature) pairs: rows the targets, columns the features, both in order. *)
Definition counts_of (pairs : list (pystr * pystr)) (X : ttm Z) : Prop :=
  tgood X /\ StronglySorted (fun a b => sleb a b = true) (trows X) /\ StronglySorted (fun a b => sleb a b = true) (tcols X) /\
  (forall t, In t (trows X) <-> In t (map fst pairs)) /\ (forall c, In c (tcols X) <-> In c (map snd pairs)) /\
  forall t c, val X t c = Z.of_nat (count (t, c) pairs).
(** The target and the feature of every recorded match, macro by macro *)
Definition all_matches (ms : list macro) : list (macro * mrec) := flat_map (fun m => map (pair m) (matched m)) ms.

(** The lines of a file with their numbers, from 1 *)
Definition numbered {A} (lines : list A) : list (nat * A) := combine (seq 1 (length lines)) lines.
(** The target's type in a recorded match: the values of the (non-special) target attributes *)
Definition rec_type (m : macro) (r : mrec) : option pystr :=
  match dget (m_nodes r) (target_idx m) with
  | None => None
  | Some a => match rmapm (fun at_ => rbind (look a (fst at_)) as_str) (filter (fun at_ => negb (special_attr (fst at_))) (target_attrs m)) with
              | Ok vals => Some (join slash vals)
              | Err _ => None
              end
  end.
Definition in_targets (m : macro) (l : list pystr) (r : mrec) : bool := match rec_type m r with Some t => mem t l | None => false end.
