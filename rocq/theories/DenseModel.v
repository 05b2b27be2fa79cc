(** * Dense matrices, sampling, indexing and contexts of TypeTokenMatrix: nephosem/core/matrix.py.

    A numpy array is its shape and its cells; cells are rational numbers (Qc), so that infinities, nan and rounding are left out.
    A boolean array holds 0 and 1.  [meta_data] is ignored by the constructor (it is passed as **kwargs and never read). *)
From Coq Require Import NArith ZArith Bool Arith QArith Qcanon Qabs Qround List.
From Verif Require Import Base MxModel MxTypedModel.
Import ListNotations.
Local Open Scope nat_scope.

Record arr := Arr { ar : nat; ac : nat; cell : nat -> nat -> Qc }.
Definition atrans (a : arr) : arr := Arr (ac a) (ar a) (fun i j => cell a j i).
(** a[idx] and a[:, idx] *)
Definition a_rows (a : arr) (idx : list nat) : arr := Arr (length idx) (ac a) (fun i j => cell a (nth i idx 0) j).
Definition a_cols (a : arr) (idx : list nat) : arr := Arr (ar a) (length idx) (fun i j => cell a i (nth j idx 0)).
Definition a_map (f : Qc -> Qc) (a : arr) : arr := Arr (ar a) (ac a) (fun i j => f (cell a i j)).
(** a * b with numpy's broadcasting: each dimension is equal or 1 on one side *)
Definition a_mul (a b : arr) : res arr :=
  match bdim (ar a) (ar b), bdim (ac a) (ac b) with
  | Some nr, Some nc => Ok (Arr nr nc (fun i j => (cell a (bidx (ar a) i) (bidx (ac a) j) * cell b (bidx (ar b) i) (bidx (ac b) j))%Qc))
  | _, _ => Err ValueError
  end.
(** np.concatenate((a, b), axis) *)
Definition a_vstack (a b : arr) : res arr :=
  if ac a =? ac b then Ok (Arr (ar a + ar b) (ac a) (fun i j => if i <? ar a then cell a i j else cell b (i - ar a) j)) else Err ValueError.
Definition a_hstack (a b : arr) : res arr :=
  if ar a =? ar b then Ok (Arr (ar a) (ac a + ac b) (fun i j => if j <? ac a then cell a i j else cell b i (j - ac a))) else Err ValueError.

(** np.allclose(a, b): |x - y| <= atol + rtol * |y| in every cell; atol = 1e-8 and rtol = 1e-5, both here and in check_symmetric *)
Definition close (x y : Qc) : bool := Qle_bool (Qabs (this x - this y)) ((1 # 100000000) + (1 # 100000) * Qabs (this y)).
Definition allcells (f : nat -> nat -> bool) (n m : nat) : bool := forallb (fun i => forallb (f i) (seq 0 m)) (seq 0 n).
Definition allclose (a b : arr) : bool := allcells (fun i j => close (cell a i j) (cell b i j)) (ar a) (ac a).
(** check_symmetric, matrix.py:66-69 *)
Definition check_symmetric (a : arr) : bool := if negb (ar a =? ac a) then false else allclose a (atrans a).

(** ** TypeTokenMatrix over a numpy array: NormalMatrix (matrix.py:451-548) or SquareMatrix (551-644) *)
Inductive behaviour := Normal | Square.
Record dtm := Dtm { dmx : arr; drows : list pystr; dcols : list pystr; dbeh : behaviour }.
(** __init__, matrix.py:671-700 *)
Definition mk_dense (a : arr) (rows cols : list pystr) : res dtm :=
  if negb (ar a =? length rows) then Err ValueError
  else if negb (ac a =? length cols) then Err ValueError
  else if check_symmetric a
       then if negb (eqb rows cols) then Err ValueError else Ok (Dtm a rows cols Square)
       else Ok (Dtm a rows cols Normal).

(** multiply, matrix.py:804-807 with 466-467 and 566-567 *)
Definition d_multiply (m o : dtm) : res dtm :=
  match dbeh m with
  | Square => Err NotImplementedError
  | Normal => rbind (a_mul (dmx m) (dmx o)) (fun a => mk_dense a (drows m) (dcols m))
  end.
(** __lt__ .. __ge__, matrix.py:809-831 with 469-479 and 569-579 *)
Definition d_cmp (op : cmpop) (m : dtm) (k : Qc) : res dtm :=
  match dbeh m with
  | Square => Err NotImplementedError
  | Normal => mk_dense (a_map (fun v => if cmpb op v k then one else zero) (dmx m)) (drows m) (dcols m)
  end.
(** NormalMatrix.submatrix matrix.py:493-515, SquareMatrix.submatrix 584-598.
    SquareMatrix indexes with None where an index list is missing, which adds an axis: self.matrix[None] has shape (1, n, n) and
    submx[:, None] shape (k, 1, n), and the constructor rejects both unless n = 1; that last case (a three-dimensional array
    wrapped as a 1 x 1 matrix) is left out. *)
Definition d_sub (m : dtm) (row col : option (list nat)) : res arr :=
  match dbeh m, row, col with
  | _, Some r, Some c => Ok (a_cols (a_rows (dmx m) r) c)
  | Normal, Some r, None => Ok (a_rows (dmx m) r)
  | Normal, None, Some c => Ok (a_cols (dmx m) c)
  | _, _, _ => Err ValueError
  end.
(** submatrix, matrix.py:872-943 *)
Definition d_submatrix (m : dtm) (row col : option (list pystr)) : res (option dtm) :=
  match select (drows m) row with
  | None => Ok None
  | Some r =>
      match select (dcols m) col with
      | None => Ok None
      | Some c =>
          rbind (d_sub m (option_map snd r) (option_map snd c)) (fun a =>
            rmap Some (mk_dense a (match r with Some x => fst x | None => drows m end) (match c with Some x => fst x | None => dcols m end)))
      end
  end.
(** reorder, matrix.py:1001-1037 with 481-491 and 581-582; np.array([]) is an array of floats, by which numpy does not index *)
Definition d_reorder (m : dtm) (items : list pystr) (axis1 : bool) : res dtm :=
  rbind (rmapm (lookup (item2id (if axis1 then dcols m else drows m))) items) (fun idx =>
    match dbeh m with
    | Square => Err NotImplementedError
    | Normal =>
        match idx with
        | [] => Err IndexError
        | _ => if axis1 then mk_dense (a_cols (dmx m) idx) (drows m) items else mk_dense (a_rows (dmx m) idx) items (dcols m)
        end
    end).
(** transpose, matrix.py:1225-1227 with 536-537 and 606-607 *)
Definition d_transpose (m : dtm) : res dtm :=
  match dbeh m with Square => Err NotImplementedError | Normal => mk_dense (atrans (dmx m)) (dcols m) (drows m) end.
(** concatenate, matrix.py:1199-1223 with 523-534 and 603-604 *)
Definition d_concat (m o : dtm) (axis1 : bool) : res dtm :=
  match dbeh m with
  | Square => Err NotImplementedError
  | Normal =>
      if axis1
      then rbind (a_hstack (dmx m) (dmx o)) (fun a =>
             if eqb (drows m) (drows o) then mk_dense a (drows m) (dcols m ++ dcols o) else Err AssertionError)
      else rbind (a_vstack (dmx m) (dmx o)) (fun a =>
             if eqb (dcols m) (dcols o) then mk_dense a (drows m ++ drows o) (dcols m) else Err AssertionError)
  end.
(** equal, matrix.py:1229-1234 with 539-542 and 609-612 *)
Definition d_equal (m o : dtm) : bool :=
  if negb (eqb (drows m) (drows o)) then false
  else if negb (eqb (dcols m) (dcols o)) then false
  else if negb ((ar (dmx m) =? ar (dmx o)) && (ac (dmx m) =? ac (dmx o))) then false
  else allclose (dmx m) (dmx o).
(** sum, matrix.py:836-870; see [tt_sum] for the single row or column *)
Definition d_sum (m : dtm) (axis1 : bool) : res (dict pystr Qc) :=
  let n := if axis1 then ar (dmx m) else ac (dmx m) in
  let sums := map (fun x => sumv (map (fun y => if axis1 then cell (dmx m) x y else cell (dmx m) y x)
                                      (seq 0 (if axis1 then ac (dmx m) else ar (dmx m))))) (seq 0 n) in
  if n =? 1 then Err TypeError else Ok (dict_of (combine (if axis1 then drows m else dcols m) sums)).
Definition d_total (m : dtm) : Qc := sumv (map (fun i => sumv (map (cell (dmx m) i) (seq 0 (ac (dmx m))))) (seq 0 (ar (dmx m)))).
(** todense, matrix.py:1254-1255 *)
Definition todense (m : ttm Qc) : res dtm :=
  mk_dense (Arr (nrows (tmx m)) (ncols (tmx m)) (spget (tmx m))) (trows m) (tcols m).

(** ** Indexing with two keys, _get_value matrix.py:766-802: strings and ints; slices are left out, any other key is [IOther] (a numpy
    integer is not an int and belongs here).  A negative int counts from the end, as numpy and scipy have it. *)
Inductive ix := IName (s : pystr) | IInt (z : Z) | IOther.
Definition resolve (items : list pystr) (a : ix) : res Z :=
  match a with IName s => rmap Z.of_nat (lookup (item2id items) s) | IInt z => Ok z | IOther => Err ValueError end.
Definition norm_index (n : nat) (z : Z) : res nat :=
  if (0 <=? z)%Z then if (z <? Z.of_nat n)%Z then Ok (Z.to_nat z) else Err IndexError
  else if (- Z.of_nat n <=? z)%Z then Ok (Z.to_nat (z + Z.of_nat n)) else Err IndexError.
Definition index2 {V} (rows cols : list pystr) (nr nc : nat) (get : nat -> nat -> V) (a b : ix) : res V :=
  rbind (resolve rows a) (fun x => rbind (resolve cols b) (fun y =>
  rbind (norm_index nr x) (fun i => rbind (norm_index nc y) (fun j => Ok (get i j))))).
Definition tt_index {V} `{Num V} (m : ttm V) (a b : ix) : res V :=
  index2 (trows m) (tcols m) (nrows (tmx m)) (ncols (tmx m)) (spget (tmx m)) a b.
Definition d_index (m : dtm) (a b : ix) : res Qc := index2 (drows m) (dcols m) (ar (dmx m)) (ac (dmx m)) (cell (dmx m)) a b.

(** ** get_colloc_contexts, matrix.py:1236-1252 with 441-448 (sparse matrices; NotImplementedError on the others) *)
Definition tt_contexts {V} `{Num V} (m : ttm V) (item : pystr) : res (list pystr) :=
  match index_of item (trows m) with
  | None => Err KeyError
  | Some i => rmapm (at_ (tcols m)) (map fst (nth i (lanes (tocsr (tmx m))) []))
  end.

(** ** sample, matrix.py:972-999 *)
(** An int or a float argument *)
Inductive pct := PInt (z : Z) | PFloat (q : Q).
Definition pq (p : pct) : Q := match p with PInt z => inject_Z z | PFloat q => q end.
(** The size that is passed to np.random.choice: a float of 1 or more reaches it as a float *)
Definition sample_size (size : nat) (p : pct) : res pct :=
  if Qle_bool 1 (pq p) then (if Qle_bool (pq p) (inject_Z (Z.of_nat size)) then Ok p else Err ValueError)
  else if Qle_bool (pq p) 0 then Err ValueError
  else Ok (PInt (Z.max 1 (Qfloor (inject_Z (Z.of_nat size) * pq p)))).
(** np.random.choice(range(size), size=k, replace): the possible results, and when it raises *)
Inductive choice (size : nat) (replace : bool) : pct -> res (list nat) -> Prop :=
| ch_float : forall q, choice size replace (PFloat q) (Err TypeError)
| ch_empty : forall z, size = 0 -> (0 < z)%Z -> choice size replace (PInt z) (Err ValueError)
| ch_large : forall z, replace = false -> (Z.of_nat size < z)%Z -> choice size replace (PInt z) (Err ValueError)
| ch_draw : forall z draw, Z.of_nat (length draw) = z -> Forall (fun i => i < size) draw ->
    (replace = false -> NoDup draw) -> choice size replace (PInt z) (Ok draw).
(** The items of the sample; the seed only determines which draw it is. *)
Inductive sampled (items : list pystr) (p : pct) (replace : bool) : res (list pystr) -> Prop :=
| sm_bad : forall e, sample_size (length items) p = Err e -> sampled items p replace (Err e)
| sm_raise : forall k e, sample_size (length items) p = Ok k -> choice (length items) replace k (Err e) -> sampled items p replace (Err e)
| sm_ok : forall k draw, sample_size (length items) p = Ok k -> choice (length items) replace k (Ok draw) ->
    sampled items p replace (rmapm (at_ items) (isort Nat.leb draw)).
Inductive tt_sample {V} `{Num V} (m : ttm V) (p : pct) (replace : bool) : res (option (ttm V)) -> Prop :=
| tts : forall r, sampled (trows m) p replace r -> tt_sample m p replace (rbind r (fun items => tt_submatrix m (Some items) None)).
Inductive d_sample (m : dtm) (p : pct) (replace : bool) : res (option dtm) -> Prop :=
| ds : forall r, sampled (drows m) p replace r -> d_sample m p replace (rbind r (fun items => d_submatrix m (Some items) None)).
