(** * Vocabulary of the claims about similarities and token vectors. *)
From Coq Require Import String NArith ZArith Bool Arith Reals List.
From Verif Require Import Base Str VocabModel MxModel MxSpec CalcModel CalcVecModel.
Import ListNotations.
Local Open Scope R_scope.

(** The cosine of two rows: 0 when one of them is zero. *)
Definition cos_of (a b : list R) : R := if Req_EM_T (norm2 a) 0 then 0 else if Req_EM_T (norm2 b) 0 then 0 else dot a b / (norm2 a * norm2 b).
(** The vector of a row, of a column *)
Definition row_vec (m : ttm R) (r : pystr) : list R := map (val m r) (tcols m).
Definition col_vec (m : ttm R) (c : pystr) : list R := map (fun r => val m r c) (trows m).
(** The weight w behind the mask value x *)
Definition masked (booleanize : bool) (x w : R) : R := if booleanize then (if Req_EM_T x 0 then 0 else w) else x * w.
(** Norm of a vector, as sklearn's normalize *)
Definition vec_norm (norm : pystr) (row : list R) : R :=
  if eqb norm (u "l1") then sumr (map Rabs row) else if eqb norm (u "l2") then norm2 row else fold_right Rmax 0 (map Rabs row).
(** x, a component of row, after the normalisation of the given name *)
Definition norm_by (normalization : pystr) (row : list R) (x : R) : R :=
  if eqb normalization (u "no") then x else let n := vec_norm normalization row in if Req_EM_T n 0 then x else x / n.
(** sum over context words of weight * vector *)
Definition weighted_sum (w soc : ttm R) (t f : pystr) : R := sumr (map (fun c => val w t c * val soc c f) (tcols w)).
(** nr rows of length nc *)
Definition shape (nr nc : nat) (a : dense) : Prop := length a = nr /\ Forall (fun row => length row = nc) a.
(** The value for a pair of items in an array with the same items on rows and columns *)
Definition sim_of (ai : dense * list pystr) (x y : pystr) : R :=
  match index_of x (snd ai), index_of y (snd ai) with Some i, Some j => cell (fst ai) i j | _, _ => 0 end.
(** Items and vectors of an axis: 0 for rows, 1 for columns *)
Definition axis_items (m : ttm R) (axis : Z) : list pystr := if (axis =? 0)%Z then trows m else tcols m.
Definition axis_vec (m : ttm R) (axis : Z) : pystr -> list R := if (axis =? 0)%Z then row_vec m else col_vec m.
