(** * What square brackets should select. *)
From Coq Require Import String NArith ZArith Bool Arith Sorted List.
From Verif Require Import Base IdxModel.
Import ListNotations.
Local Open Scope nat_scope.

(** The position that an int stands for among n. *)
Definition from_end (n : nat) (z : Z) : Z := if (z <? 0)%Z then (z + Z.of_nat n)%Z else z.
(** The key [a] selects the positions [ks] of [items]: those of the item, the int or the slice. *)
Inductive selects (items : list pystr) : sel -> list nat -> Prop :=
| sel_item s k : nth_error items k = Some s -> selects items (SItem s) [k]
| sel_int z k : from_end (length items) z = Z.of_nat k -> k < length items -> selects items (SInt z) [k]
| sel_slice x y ks : StronglySorted lt ks ->
    (forall k, In k ks <-> k < length items /\
       (match x with Some z => from_end (length items) z <= Z.of_nat k | None => True end)%Z /\
       (match y with Some z => Z.of_nat k < from_end (length items) z | None => True end)%Z) ->
    selects items (SSlice x y) ks.
Definition single (a : sel) : bool := match a with SItem _ | SInt _ => true | _ => false end.
(** The cells of a result, row by row, whatever its dimensions. *)
Definition flat {V} (g : gval V) : list V := match g with GScalar v => [v] | GVec l => l | GArr l _ => concat l end.
(** The shape, as numpy gives it. *)
Definition shape {V} (g : gval V) : list nat := match g with GScalar _ => [] | GVec l => [length l] | GArr l nc => [length l; nc] end.
(** The rows [rs] and columns [cs] of a matrix. *)
Definition block {V} (get : nat -> nat -> V) (rs cs : list nat) : list (list V) := map (fun i => map (get i) cs) rs.
