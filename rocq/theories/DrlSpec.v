(** * What the theorems about deprel/deputils.py and deprel/dephandler.py mean. *)
From Coq Require Import String NArith ZArith Bool Arith List.
From Verif Require Import Base Str VocabModel DrlModel.
Import ListNotations.

(** ** Splitting a corpus file *)
Definition sentence_end (line : pystr) : Prop := exists t, line = u "</s" ++ t.
(** The lines hold this many ends of sentences. *)
Inductive n_ends : list pystr -> nat -> Prop :=
| ends_nil : n_ends [] 0
| ends_end l ls k : sentence_end l -> n_ends ls k -> n_ends (l :: ls) (S k)
| ends_other l ls k : ~ sentence_end l -> n_ends ls k -> n_ends (l :: ls) k.
(** [n] sentences and what stands before them, up to and including the last end of a sentence *)
Definition block (n : nat) (ls : list pystr) : Prop := n_ends ls n /\ exists ls' l, ls = ls' ++ [l] /\ sentence_end l.
Definition as_file (ls : list pystr) : pystr := join 10%N (map strip ls).

(** ** Columns of a line, choices *)
Definition fields (line : pystr) (cs : list pystr) : Prop := strip line = join 9%N cs /\ Forall (fun c => ~ In 9%N c) cs.
(** The last pair with this first, or this second, component *)
Definition last_fst (ps : list (pystr * pystr)) (s : pystr) : option pystr := option_map snd (List.find (fun p => eqb (fst p) s) (rev ps)).
Definition last_snd (ps : list (pystr * pystr)) (i : pystr) : option pystr := option_map fst (List.find (fun p => eqb (snd p) i) (rev ps)).

Section Choices.
  Context {K V : Type} `{EqDec K}.
  (** One of its values for every key *)
  Definition choice (mapping : dict K (list V)) (d : dict K V) : Prop :=
    dkeys d = dkeys mapping /\ forall k v, dget d k = Some v -> exists l, dget mapping k = Some l /\ In v l.
  (** Equal up to a key, and there the value of the first stands before that of the second *)
  Definition before (mapping : dict K (list V)) (d d' : dict K V) : Prop :=
    exists m1 k l m2 l1 x l2 y l3, mapping = m1 ++ (k, l) :: m2 /\ l = l1 ++ x :: l2 ++ y :: l3 /\
      (forall k', In k' (dkeys m1) -> dget d k' = dget d' k') /\ dget d k = Some x /\ dget d' k = Some y.
End Choices.

(** ** Templates, features *)
(** node, edge, node, ..., node *)
Inductive alternates : list pystr -> list pystr -> list pystr -> Prop :=
| alt_one n : alternates [n] [n] []
| alt_more n e l ns es : alternates l ns es -> alternates (n :: e :: l) (n :: ns) (e :: es).

Section Files.
  Context {MN ME : Type}.
  Definition of_super (f : pystr * res (list (feature MN ME))) : Prop := exists a b, fst f = a ++ u "super" ++ b.
  (** What the files of subprocesses hold; files of the main process are skipped. *)
  Inductive holds : list (pystr * res (list (feature MN ME))) -> list (pystr * res (list (feature MN ME))) -> list (list (feature MN ME)) -> Prop :=
  | h_nil : holds [] [] []
  | h_super f dir kept subs : of_super f -> holds dir kept subs -> holds (f :: dir) (f :: kept) subs
  | h_sub f feats dir kept subs : ~ of_super (f, Ok feats) -> holds dir kept subs -> holds ((f, Ok feats) :: dir) kept (feats :: subs).
  (** Everything that the subprocesses found for feature [i] *)
  Definition found_nodes (subs : list (list (feature MN ME))) (i : nat) : list MN :=
    flat_map (fun s => match nth_error s i with Some g => fst g | None => [] end) subs.
  Definition found_edges (subs : list (list (feature MN ME))) (i : nat) : list ME :=
    flat_map (fun s => match nth_error s i with Some g => snd g | None => [] end) subs.
  Definition gathered (own : list (feature MN ME)) (subs : list (list (feature MN ME))) (own' : list (feature MN ME)) : Prop :=
    length own' = length own /\
    forall i f, nth_error own i = Some f -> nth_error own' i = Some (fst f ++ found_nodes subs i, snd f ++ found_edges subs i).
End Files.

(** ** Threads *)
(** No thread can go on. *)
Definition at_rest (maxsize : Z) (st : tstate) : Prop := forall t, thread_step maxsize st t = None.
