(** * What association measures of a matrix should be. *)
From Coq Require Import String NArith ZArith Bool Arith Reals List.
From Verif Require Import Base MxModel MxSpec CalcModel.
Import ListNotations.

(** The sum of the cells at the positions for which [p] holds. *)
Definition sum_where {V} `{Num V} (m : sp V) (p : nat * nat -> bool) : V :=
  sumv (map (fun ij => spget m (fst ij) (snd ij)) (filter p (list_prod (seq 0 (nrows m)) (seq 0 (ncols m))))).
(** The table of a cell: itself, the rest of its column, the rest of its row, and all other cells. *)
Definition own_table {A} (f : R -> R -> R -> R -> A) (m : sp Z) (i j : nat) : A :=
  f (IZR (spget m i j))
    (IZR (sum_where m (fun k => negb (fst k =? i) && (snd k =? j))))
    (IZR (sum_where m (fun k => (fst k =? i) && negb (snd k =? j))))
    (IZR (sum_where m (fun k => negb (fst k =? i) && negb (snd k =? j)))).
