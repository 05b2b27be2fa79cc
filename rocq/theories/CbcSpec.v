(** * What the theorems about clustering by committee mean. *)
From Coq Require Import String NArith ZArith QArith Bool Arith Permutation Sorted List.
From Verif Require Import Base Str CbcModel.
Import ListNotations.
Local Open Scope nat_scope.

(** scipy's condensed layout of the values of M over pairs of n items: M 0 1, M 0 2, ..., M 1 2, ... *)
Definition condensed_of {A} (n : nat) (M : nat -> nat -> A) : list A := flat_map (fun j => map (M j) (seq (S j) (n - 1 - j))) (seq 0 n).
Definition qsum (l : list Q) : Q := fold_left Qplus l 0%Q.

(** Same elements *)
Definition same_set {A} (a b : list A) : Prop := forall x, In x a <-> In x b.
(** The committees a list of index pairs stands for, flattened *)
Definition indices (ps : list (nat * option nat)) : list nat := flat_map (fun ij => fst ij :: match snd ij with Some j => [j] | None => [] end) ps.
(** A subsequence *)
Inductive subseq {A} : list A -> list A -> Prop :=
| sub_nil : subseq [] []
| sub_take : forall x l l', subseq l l' -> subseq (x :: l) (x :: l')
| sub_skip : forall x l l', subseq l l' -> subseq l (x :: l').
(** Sorted positions of the rows of a matrix *)
Definition sorts_rows (argsort : list Q -> list nat) (simmx : list (list Q)) : Prop := forall row, In row simmx ->
  Permutation (argsort row) (seq 0 (length row)) /\ StronglySorted (fun i j => (nth i row 0 <= nth j row 0)%Q) (argsort row).
Definition square (simmx : list (list Q)) : Prop := forall row, In row simmx -> length row = length simmx.
