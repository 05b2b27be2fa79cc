(** * Vocabulary of the claims about the order of clusters and several processes. *)
From Coq Require Import String NArith ZArith QArith Bool Arith Permutation List.
From Verif Require Import Base Str CbcModel.
Import ListNotations.
Local Open Scope nat_scope.

(** The tasks after which their process takes no other task *)
Fixpoint last_tasks (sched : list (nat * nat)) : list nat :=
  match sched with [] => [] | (t, p) :: l => if in_dec Nat.eq_dec p (map snd l) then last_tasks l else t :: last_tasks l end.
(** Clusters of the same positive score have the same elements. *)
Definition told_by_score (L : list scored) : Prop := forall x y, In x L -> In y L -> (0 < fst x)%Q -> (fst x == fst y)%Q -> Permutation (snd x) (snd y).
