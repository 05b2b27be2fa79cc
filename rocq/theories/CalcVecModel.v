(** * Similarities, ranks, token weights and token vectors: nephosem/specutils/mxcalc.py:340-621.

    Values are real numbers: rounding, overflow and NaN are not modelled except for nan_to_num below.
    sklearn's normalize, cosine_similarity, pairwise_distances and numpy's argsort are modelled by their documentation. *)
From Coq Require Import String NArith ZArith Bool Arith Reals Permutation List.
From Verif Require Import Base Str VocabModel MxModel CalcModel.
Import ListNotations.
Local Open Scope R_scope.

(** ** Dense arrays: a list of rows *)
Definition dense := list (list R).
Definition cell (a : dense) (i j : nat) : R := nth j (nth i a []) 0.
(** m.toarray() *)
Definition toarray (m : sp R) : dense := map (fun i => map (spget m i) (seq 0 (ncols m))) (seq 0 (nrows m)).
(** csr_matrix(array): only the non-zero cells are stored *)
Definition of_dense (nc : nat) (a : dense) : sp R :=
  Sp Csr (map (fun row => filter (fun e => negb (isz (snd e))) (combine (seq 0 nc) row)) a) nc.
Definition sumr (l : list R) : R := fold_right Rplus 0 l.
Definition dot (a b : list R) : R := sumr (map (fun xy => fst xy * snd xy) (combine a b)).

(** ** compute_cosine, mxcalc.py:398-427, for a dense array *)
Definition norm2 (row : list R) : R := sqrt (dot row row).
(** sklearn: normalize divides each row by its norm, a zero norm being replaced by 1 *)
Definition unit_row (row : list R) : list R := map (fun x => x / (if Req_EM_T (norm2 row) 0 then 1 else norm2 row)) row.
Definition cosine_similarity (a : dense) : dense := let n := map unit_row a in map (fun r => map (dot r) n) n.
Definition set_diag (v : R) (a : dense) : dense :=
  map (fun ir => map (fun jx => if (fst ir =? fst jx)%nat then v else snd jx) (combine (seq 0 (length (snd ir))) (snd ir))) (combine (seq 0 (length a)) a).
Definition calc_cosine (a : dense) : dense := set_diag 1 (cosine_similarity a).
(** sklearn: cosine_distances is 1 - similarity, clipped to [0, 2], with a zero diagonal *)
Definition calc_cosine_distance (a : dense) : dense := set_diag 0 (map (map (fun s => Rmax 0 (Rmin 2 (1 - s)))) (cosine_similarity a)).
(** The array and items for an axis, mxcalc.py:400-411 and 358-371 *)
Definition by_axis (m : ttm R) (axis : Z) : res (dense * list pystr) :=
  if (axis =? 0)%Z then Ok (toarray (tmx m), trows m)
  else if (axis =? 1)%Z then Ok (toarray (sp_transpose (tmx m)), tcols m)
  else Err ValueError.
(** sklearn's check_array refuses arrays without rows or without columns. *)
Definition has_cells (m : sp R) : bool := (0 <? nrows m)%nat && (0 <? ncols m)%nat.
Definition compute_cosine (m : ttm R) (axis : Z) : res (dense * list pystr) :=
  rbind (by_axis m axis) (fun ai => if has_cells (tmx m) then Ok (calc_cosine (fst ai), snd ai) else Err ValueError).
(** compute_distance, mxcalc.py:340-385, with pairwise_distances for the other metrics left open *)
Definition metrics : list pystr := [u "cosine"; u "cos"; u "euclidean"; u "cityblock"; u "manhattan"; u "l1"; u "l2"].
Definition compute_distance (other : pystr -> dense -> res dense) (m : ttm R) (axis : Z) (metric : pystr) : res (dense * list pystr) :=
  rbind (by_axis m axis) (fun ai =>
    if mem metric metrics
    then if has_cells (tmx m)
         then rmap (fun d => (d, snd ai)) (if eqb metric (u "cosine") then Ok (calc_cosine_distance (fst ai)) else other metric (fst ai))
         else Err ValueError
    else Err NotImplementedError).

(** ** compute_simrank, mxcalc.py:430-459 *)
(** numpy.argsort(row): some permutation of the positions that sorts the row *)
Definition argsort (row : list R) (p : list nat) : Prop :=
  Permutation p (seq 0 (length row)) /\ forall x y, (x < y < length row)%nat -> nth (nth x p 0%nat) row 0 <= nth (nth y p 0%nat) row 0.
Fixpoint set_nth (l : list nat) (i v : nat) : list nat :=
  match l, i with [], _ => [] | _ :: t, 0%nat => v :: t | x :: t, S i => x :: set_nth t i v end.
(** simrank[row, p[k]] = k + 1 for all k, in order *)
Definition rank_row (n : nat) (p : list nat) : list nat :=
  fold_left (fun r kp => set_nth r (snd kp) (S (fst kp))) (combine (seq 0 (length p)) p) (repeat 0%nat n).
Definition simrank (ps : list (list nat)) (n : nat) : list (list nat) := map (rank_row n) ps.
(** The rows whose argsort is taken, mxcalc.py:444-447 *)
Definition simrank_keys (reverse : bool) (a : dense) : dense := if reverse then a else map (map Ropp) a.

(** ** compute_token_weights, mxcalc.py:462-529 *)
Definition type_of (tokenFormat tok : pystr) : pystr :=
  if eqb tokenFormat (u "lemma/pos") then join slash (firstn 2 (split slash tok)) else nth 0 (split slash tok) [].
(** bool_tcmx[i] * twmx[idx]; a boolean mask counts as 0 / 1 *)
Definition mask_val (booleanize : bool) (x : R) : R := if booleanize then (if isz x then 0 else 1) else x.
Definition compute_token_weights (pos tw : ttm R) (booleanize : bool) (tokenFormat : pystr) : res (ttm R) :=
  if negb (eqb (tcols pos) (tcols tw)) then Err ValueError
  else
    let bool_tcmx := map (map (mask_val booleanize)) (toarray (tmx pos)) in
    let twmx := toarray (tmx tw) in
    let row (it : nat * pystr) :=
      match index_of (type_of tokenFormat (snd it)) (trows tw) with
      | None => repeat 0 (ncols (tmx pos))
      | Some k => map (fun xy => fst xy * snd xy) (combine (nth (fst it) bool_tcmx []) (nth k twmx []))
      end in
    mk_ttm (of_dense (ncols (tmx pos)) (map row (combine (seq 0 (length (trows pos))) (trows pos)))) (trows pos) (tcols pos).

(** ** compute_token_vectors, mxcalc.py:532-599 *)
(** sparse matrix product *)
Definition sp_dot (l r : sp R) (i k : nat) : R := sumr (map (fun j => spget l i j * spget r j k) (seq 0 (ncols l))).
(** dot_addition, mxcalc.py:602-607 *)
Definition dot_addition (l r : sp R) : res dense :=
  match sfmt l, sfmt r with
  | Csr, Csr => Ok (map (fun i => map (sp_dot l r i) (seq 0 (ncols r))) (seq 0 (nrows l)))
  | _, _ => Err AssertionError
  end.
(** The largest double, which nan_to_num puts for infinity *)
Definition dbl_max : R := (2 - / 2 ^ 52) * 2 ^ 1023.
Definition nan_div (a b : R) : R := if Req_EM_T b 0 then (if Req_EM_T a 0 then 0 else if Rlt_dec 0 a then dbl_max else - dbl_max) else a / b.
(** mxcalc.py:578-582 *)
Definition weighted_mean (l r : sp R) : dense :=
  map (fun i => map (fun k => nan_div (sp_dot l r i k) (row_sum l i)) (seq 0 (ncols r))) (seq 0 (nrows l)).
(** dot_multiplication, mxcalc.py:610-621 *)
Definition dot_mult_cell (l r : sp R) (i k : nat) : R :=
  fold_left (fun acc j => if isz (spget l i j) || negb (isz (spget r j k)) then acc else acc * (spget l i j * spget r j k)) (seq 0 (ncols l)) 1.
Definition dot_multiplication (l r : sp R) : dense := map (fun i => map (dot_mult_cell l r i) (seq 0 (ncols r))) (seq 0 (nrows l)).
(** sklearn.preprocessing.normalize on a csr matrix: each row divided by its norm; rows with norm 0 are left as they are *)
Definition row_norm (norm : pystr) (row : list R) : res R :=
  if eqb norm (u "l1") then Ok (sumr (map Rabs row)) else if eqb norm (u "l2") then Ok (norm2 row)
  else if eqb norm (u "max") then Ok (fold_right Rmax 0 (map Rabs row)) else Err ValueError.
Definition div_by (n x : R) : R := if Req_EM_T n 0 then x else x / n.
Definition normalize (norm : pystr) (m : sp R) : res (sp R) :=
  if mem norm [u "l1"; u "l2"; u "max"] && has_cells m
  then rmap (fun ls => Sp Csr ls (nminor m)) (rmapm (fun ln => rmap (fun n => map (fun e => (fst e, div_by n (snd e))) ln) (row_norm norm (map snd ln))) (lanes m))
  else Err ValueError.
Definition same_set (a b : list pystr) : bool := forallb (fun x => mem x b) a && forallb (fun x => mem x a) b.
Definition compute_token_vectors (w soc : ttm R) (operation normalization : pystr) : res (ttm R) :=
  if same_set (tcols w) (trows soc)
  then
    rbind (if eqb (tcols w) (trows soc) then Ok (tmx soc) else rmap tmx (tt_reorder soc (tcols w) false)) (fun right =>
    let left := tmx w in
    rbind (if eqb operation (u "addition") then dot_addition left right
           else if eqb operation (u "weightedmean") then Ok (weighted_mean left right)
           else if eqb operation (u "multiplication") then Ok (dot_multiplication left right)
           else Err ValueError) (fun product =>
    rbind (if eqb normalization (u "no") then Ok (of_dense (ncols right) product) else normalize normalization (of_dense (ncols right) product)) (fun res =>
    mk_ttm res (trows w) (tcols soc))))
  else Err ValueError.
(** compute_simrank on the array of similarities: a relation, since argsort may order equal values either way *)
Definition compute_simrank (reverse : bool) (a : dense) (n : nat) (ranks : list (list nat)) : Prop :=
  exists ps, Forall2 argsort (simrank_keys reverse a) ps /\ ranks = simrank ps n.
