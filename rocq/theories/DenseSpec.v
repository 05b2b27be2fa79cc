(** * Vocabulary of the claims about dense matrices, indexing, contexts and samples. *)
From Coq Require Import NArith ZArith Bool Arith QArith Qcanon Qabs Qround List Sorted.
From Verif Require Import Base MxModel MxTypedModel MxSpec DenseModel.
Import ListNotations.
Local Open Scope nat_scope.

(** x and y agree within numpy's default tolerances, as seen from y. *)
Definition near (x y : Qc) : Prop := (Qabs (this x - this y) <= (1 # 100000000) + (1 # 100000) * Qabs (this y))%Q.
(** A table of numbers over a list of row items and a list of column items that a symmetry test with these tolerances accepts. *)
Definition looks_symmetric (f : pystr -> pystr -> Qc) (R C : list pystr) : Prop :=
  length R = length C /\
  forall i j r c r' c', nth_error R i = Some r -> nth_error C j = Some c -> nth_error R j = Some r' -> nth_error C i = Some c' ->
    near (f r c) (f r' c').
(** The same for an array. *)
Definition near_symmetric (a : arr) : Prop := ar a = ac a /\ forall i j, i < ar a -> j < ar a -> near (cell a i j) (cell a j i).
(** A number is an integer of at most five digits. *)
Definition small_int (x : Qc) : Prop := exists z, x = Q2Qc (inject_Z z) /\ (Z.abs z <= 99999)%Z.

(** A dense matrix as the constructor makes it, with distinct items. *)
Record dgood (m : dtm) : Prop := {
  dg_made : mk_dense (dmx m) (drows m) (dcols m) = Ok m;
  dg_nr : NoDup (drows m);
  dg_nc : NoDup (dcols m)
}.
(** The value for a pair of items; zero when an item is absent. *)
Definition dval (m : dtm) (r c : pystr) : Qc :=
  match index_of r (drows m), index_of c (dcols m) with Some i, Some j => cell (dmx m) i j | _, _ => zero end.

(** The dense matrix d and the sparse matrix s are the same table, item for item and cell for cell. *)
Definition same_table (d : dtm) (s : ttm Qc) : Prop :=
  drows d = trows s /\ dcols d = tcols s /\ ar (dmx d) = nrows (tmx s) /\ ac (dmx d) = ncols (tmx s) /\
  forall i j, i < ar (dmx d) -> j < ac (dmx d) -> cell (dmx d) i j = spget (tmx s) i j.

(** A key of m[a, b] denotes a position: a name its own, a non-negative int itself, a negative int from the end. *)
Definition denotes (items : list pystr) (n : nat) (a : ix) (i : nat) : Prop :=
  i < n /\
  match a with
  | IName s => nth_error items i = Some s
  | IInt z => z = Z.of_nat i \/ z = (Z.of_nat i - Z.of_nat n)%Z
  | IOther => False
  end.

(** l is a subsequence of l'. *)
Inductive subseq {A} : list A -> list A -> Prop :=
| sub_nil : forall l, subseq [] l
| sub_skip : forall x l l', subseq l l' -> subseq l (x :: l')
| sub_take : forall x l l', subseq l l' -> subseq (x :: l) (x :: l').

(** The number of rows that an argument of [sample] asks for: a whole number of rows between 1 and all of them, or the part of
    the rows given by a float strictly between 0 and 1, rounded down but at least one row. *)
Definition wanted (size : nat) (p : pct) : option nat :=
  match p with
  | PInt z => if (1 <=? z)%Z && (z <=? Z.of_nat size)%Z then Some (Z.to_nat z) else None
  | PFloat q => if Qle_bool q 0 || Qle_bool 1 q || (size =? 0) then None else Some (Nat.max 1 (Z.to_nat (Qfloor (inject_Z (Z.of_nat size) * q))))
  end.
