(** * What a full feature looks like, stated without the functions of the model. *)
From Coq Require Import String NArith ZArith Bool List.
From Verif Require Import Base Str DepModel DepSpec.
Import ListNotations.
Local Open Scope string_scope.
Local Open Scope list_scope.

Section Full.
  Context {M : Type}.
  Variable re_match : pystr -> pystr -> option M.
  Variable re_group : M -> Z -> res (option pystr).
  (** The text of one attribute: the group asked for, or * without a match or without such a group *)
  Definition part_text (pa a : attrs) (ag : pystr * Z) (x : pystr) : Prop :=
    exists regex v, dget pa (fst ag) = Some (AStr regex) /\ dget a (fst ag) = Some (AStr v) /\
      ((exists mt, re_match regex v = Some mt /\ re_group mt (snd ag) = Ok (Some x)) \/
       (x = u "*" /\ (re_match regex v = None \/ exists mt e, re_match regex v = Some mt /\ re_group mt (snd ag) = Err e))).
  (** The text of a node or edge: those of its attributes, with slashes between them *)
  Definition label_text (pa a : attrs) (ags : list (pystr * Z)) (out : pystr) : Prop :=
    exists xs, Forall2 (part_text pa a) ags xs /\ out = join 47%N xs.
  Definition node_label (m : macro) (r : mrec) (v : Z) (out : pystr) : Prop :=
    exists pa a, dget (gnodes (mgraph m)) v = Some pa /\ dget (m_nodes r) v = Some a /\ label_text pa a (feature_nattrs m) out.
  Definition edge_label (m : macro) (r : mrec) (e : Z * Z) (out : pystr) : Prop :=
    exists pa a, dget (gedges (mgraph m)) e = Some pa /\ dget (m_edges r) e = Some a /\ label_text pa a (feature_eattrs m) out.
  (** The nodes below v when none has two dependents, and the text for them *)
  Inductive chain_text (m : macro) (r : mrec) : Z -> list Z -> pystr -> Prop :=
  | ct_end v : (forall b, ~ edge (mgraph m) v b) -> chain_text m r v [] []
  | ct_step v w ws et nt shown rest : (forall b, edge (mgraph m) v b <-> b = w) ->
      edge_label m r (v, w) et -> node_label m r w nt ->
      (w = target_idx m -> shown = u "#T#") -> (w <> target_idx m -> shown = nt) ->
      chain_text m r w ws rest -> chain_text m r v (w :: ws) (u "->" ++ et ++ u ":" ++ shown ++ rest).
End Full.
