(** * Statements about copying: the values inside a value. *)
From Coq Require Import String NArith ZArith Bool Arith List.
From Verif Require Import Base Str VocabModel CpyModel.
Import ListNotations.
Local Open Scope nat_scope.
Local Open Scope list_scope.

(** [inside y x]: y is x, or an element or attribute of it at any depth *)
Inductive inside : pv -> pv -> Prop :=
| in_self x : inside x x
| in_list y x l : In x l -> inside y x -> inside y (PList l)
| in_dict y k x d : In (k, x) d -> inside y x -> inside y (PDict d)
| in_attr y k x b a : In (k, x) a -> inside y x -> inside y (PObj b a).
Definition has_vocab (x : pv) : Prop := exists a, inside (PObj true a) x.
(** No instance inside has attributes that are called like the special methods of copy and pickle *)
Definition usual (x : pv) : Prop := forall b a k y, inside (PObj b a) x -> In (k, y) a -> k <> u "__deepcopy__" /\ k <> u "__getstate__".
