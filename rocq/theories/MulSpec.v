(** * Vocabulary of the claims about multiplying matrices of different shapes. *)
From Coq Require Import Arith List.
From Verif Require Import Base MxModel MxSpec DenseModel.
Import ListNotations.

(** [o] covers the table of [m]: in each direction it has as many items as [m], or a single one. *)
Definition covers {V} (m o : ttm V) : Prop :=
  (length (trows o) = length (trows m) \/ length (trows o) = 1) /\ (length (tcols o) = length (tcols m) \/ length (tcols o) = 1).
(** The item of [other] that is paired with the item at position [i]: the only one, or the one at the same position. *)
Definition partner (others : list pystr) (i : nat) (p : pystr) : Prop :=
  others = [p] \/ (length others <> 1 /\ nth_error others i = Some p).
(** The same for dense matrices. *)
Definition dcovers (m o : dtm) : Prop :=
  (length (drows o) = length (drows m) \/ length (drows o) = 1) /\ (length (dcols o) = length (dcols m) \/ length (dcols o) = 1).
