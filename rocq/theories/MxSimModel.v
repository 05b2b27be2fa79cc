(** * Model of most_similar: nephosem/core/matrix.py SquareMatrix.most_similar and mxutils.get_smallest_k / get_largest_k. *)
From Coq Require Import NArith ZArith Bool Arith Permutation List.
From Verif Require Import Base MxModel.
Import ListNotations.

Section Sim.
  Context {V : Type} {NV : Num V}.
  Definition rowv (row : list V) (i : nat) : V := nth i row zero.

  (** numpy.argpartition(row, kth): any permutation of the positions that puts a kth smallest element at kth, no larger ones before it and no smaller ones after it. *)
  Definition argpartition (row : list V) (kth : nat) (p : list nat) : Prop :=
    Permutation p (seq 0 (length row)) /\
    (forall x y, x < kth -> nth_error p kth = Some y -> vleb (rowv row (nth x p 0)) (rowv row y) = true) /\
    (forall x y, kth < x < length row -> nth_error p kth = Some y -> vleb (rowv row y) (rowv row (nth x p 0)) = true).

  (** get_smallest_k, mxutils.py:305-312, [p] being the result of argpartition(arr, k) *)
  Definition get_smallest_k (row : list V) (k : nat) (p : list nat) : list nat :=
    if length row <=? k then seq 0 (length row) else firstn k p.
  (** get_largest_k, mxutils.py:293-302, [p] being the result of argpartition(arr, -k) *)
  Definition get_largest_k (row : list V) (k : nat) (p : list nat) : list nat :=
    if length row <=? k then seq 0 (length row) else skipn (length row - k) p.
  (** The partition requested by SquareMatrix.most_similar, matrix.py:615-644, with k+1 *)
  Definition partition_for (row : list V) (k : nat) (descending : bool) (p : list nat) : Prop :=
    S k < length row -> argpartition row (if descending then length row - S k else S k) p.
  (** TypeTokenMatrix.most_similar, matrix.py:945-970 *)
  Definition most_similar (mx : list (list V)) (items : list pystr) (item : pystr) (k : nat) (descending : bool) (p : list nat) : res (list pystr) :=
    match index_of item items with
    | None => Err ValueError
    | Some rid =>
        let row := nth rid mx [] in
        let ix := if descending then get_largest_k row (S k) p else get_smallest_k row (S k) p in
        rmap (filter (fun x => negb (eqb x item))) (rmapm (at_ items) ix)
    end.
End Sim.
