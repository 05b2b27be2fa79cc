(** * Model of sparse matrices and TypeTokenMatrix: nephosem/core/matrix.py and nephosem/specutils/mxutils.py.

    scipy's compressed sparse matrix is modelled by its stored entries: one lane of (minor index, value) pairs per
    major index (rows for csr, columns for csc), in storage order, explicit zeros included.  The three arrays
    indptr / indices / data are the same information ([sp_indptr], [sp_indices], [sp_data] in MxFileModel.v).
    Values are of any type with the structure [Num]; floating point rounding is not modelled. *)
From Coq Require Import String NArith ZArith Bool Arith List.
From Verif Require Import Base.
Import ListNotations.

Class Num (V : Type) := {
  zero : V; one : V; add : V -> V -> V; mul : V -> V -> V; vleb : V -> V -> bool;
  add_comm : forall a b, add a b = add b a;
  add_assoc : forall a b c, add a (add b c) = add (add a b) c;
  add_0 : forall a, add zero a = a;
  mul_1 : forall a, mul a one = a;
  mul_0l : forall a, mul zero a = zero;
  mul_0r : forall a, mul a zero = zero;
  one_nz : one <> zero;
  vleb_total : forall a b, vleb a b = true \/ vleb b a = true;
  vleb_antisym : forall a b, vleb a b = true -> vleb b a = true -> a = b;
  vleb_trans : forall a b c, vleb a b = true -> vleb b c = true -> vleb a c = true
}.
#[export] Instance Num_Z : Num Z.
Proof.
  refine {| zero := 0%Z; one := 1%Z; add := Z.add; mul := Z.mul; vleb := Z.leb |}; intros.
  - apply Z.add_comm. - apply Z.add_assoc. - apply Z.add_0_l. - apply Z.mul_1_r. - apply Z.mul_0_l. - apply Z.mul_0_r.
  - discriminate.
  - destruct (Z.leb_spec a b); [now left|right]. apply Z.leb_le, Z.lt_le_incl; assumption.
  - apply Z.leb_le in H, H0. apply Z.le_antisymm; assumption.
  - apply Z.leb_le in H, H0. apply Z.leb_le. eapply Z.le_trans; eassumption.
Defined.
(** Python's == and < on these values. *)
Definition veqb {V} `{Num V} (a b : V) : bool := vleb a b && vleb b a.
Definition vltb {V} `{Num V} (a b : V) : bool := negb (vleb b a).
Definition isz {V} `{Num V} (a : V) : bool := veqb a zero.

Inductive sformat := Csr | Csc.
Inductive cmpop := CLt | CLe | CGt | CGe.

(** ** scipy.sparse (documented behaviour of the operations that nephosem uses) *)
Section Sp.
  Context {V : Type} `{Num V}.

  Record sp := Sp { sfmt : sformat; lanes : list (list (nat * V)); nminor : nat }.
  Definition nmajor (m : sp) : nat := length (lanes m).
  Definition nrows (m : sp) : nat := match sfmt m with Csr => nmajor m | Csc => nminor m end.
  Definition ncols (m : sp) : nat := match sfmt m with Csr => nminor m | Csc => nmajor m end.
  Definition sumv (l : list V) : V := fold_right add zero l.
  (** Value at a minor index of a lane: duplicates add up. *)
  Definition lane_get (ln : list (nat * V)) (b : nat) : V := sumv (map snd (filter (fun e => fst e =? b) ln)).
  Definition mget (m : sp) (a b : nat) : V := lane_get (nth a (lanes m) []) b.
  (** m[i, j] *)
  Definition spget (m : sp) (i j : nat) : V := match sfmt m with Csr => mget m i j | Csc => mget m j i end.
  (** Number of stored entries, m.nnz *)
  Definition nnz (m : sp) : nat := length (concat (lanes m)).
  (** Stored entries as (row, column, value), in storage order: m.tocoo() *)
  Definition entries (m : sp) : list (nat * nat * V) :=
    flat_map (fun al => map (fun e => match sfmt m with Csr => (fst al, fst e, snd e) | Csc => (fst e, fst al, snd e) end) (snd al))
             (combine (seq 0 (nmajor m)) (lanes m)).
  (** Indices sorted, duplicates summed: sum_duplicates() on one lane. *)
  Definition canon (ln : list (nat * V)) : list (nat * V) :=
    map (fun j => (j, lane_get ln j)) (isort Nat.leb (dedup (map fst ln))).
  (** csr_matrix((data, (row, col)), shape=(nr, nc)) *)
  Definition of_coo (nr nc : nat) (es : list (nat * nat * V)) : sp :=
    Sp Csr (map (fun i => canon (map (fun e => (snd (fst e), snd e)) (filter (fun e => fst (fst e) =? i) es))) (seq 0 nr)) nc.
  (** csr_matrix(m): conversion to csr *)
  Definition tocsr (m : sp) : sp := match sfmt m with Csr => m | Csc => of_coo (nrows m) (ncols m) (entries m) end.
  Definition tocsc (m : sp) : sp :=
    match sfmt m with
    | Csc => m
    | Csr => let t := of_coo (ncols m) (nrows m) (map (fun e => (snd (fst e), fst (fst e), snd e)) (entries m)) in
             Sp Csc (lanes t) (nminor t)
    end.
  Definition as_format (f : sformat) (m : sp) : sp := match f with Csr => tocsr m | Csc => tocsc m end.
  (** Fancy indexing along the major / minor axis. *)
  Definition positions (j : nat) (idx : list nat) : list nat :=
    filter (fun k => match nth_error idx k with Some x => x =? j | None => false end) (seq 0 (length idx)).
  Definition index_major (m : sp) (idx : list nat) : sp := Sp (sfmt m) (map (fun a => nth a (lanes m) []) idx) (nminor m).
  Definition index_minor (m : sp) (idx : list nat) : sp :=
    Sp (sfmt m) (map (fun ln => flat_map (fun e => map (fun k => (k, snd e)) (positions (fst e) idx)) ln) (lanes m)) (length idx).
  (** m[idx, :] and m[:, idx] *)
  Definition take_rows (m : sp) (idx : list nat) : sp := match sfmt m with Csr => index_major m idx | Csc => index_minor m idx end.
  Definition take_cols (m : sp) (idx : list nat) : sp := match sfmt m with Csr => index_minor m idx | Csc => index_major m idx end.
  (** m.transpose(): csr becomes csc and vice versa, arrays shared *)
  Definition sp_transpose (m : sp) : sp := Sp (match sfmt m with Csr => Csc | Csc => Csr end) (lanes m) (nminor m).
  (** Element-wise operations on two matrices of the same shape; only non-zero results are stored and the result has
      the format of the first. *)
  Definition lane_op (op : V -> V -> V) (a b : list (nat * V)) : list (nat * V) :=
    filter (fun e => negb (isz (snd e)))
           (map (fun j => (j, op (lane_get a j) (lane_get b j))) (isort Nat.leb (dedup (map fst a ++ map fst b)))).
  Definition sp_binop (op : V -> V -> V) (m1 m2 : sp) : res sp :=
    if (nrows m1 =? nrows m2) && (ncols m1 =? ncols m2)
    then let m2 := as_format (sfmt m1) m2 in
         Ok (Sp (sfmt m1) (map (fun ab => lane_op op (fst ab) (snd ab)) (combine (lanes m1) (lanes m2))) (nminor m1))
    else Err ValueError.
  Definition sp_add := sp_binop add.
  Definition sp_mul := sp_binop mul.
  (** m.multiply(other): matrices of different shapes are broadcast, as arrays are, when each dimension is equal or 1 on one
      side.  Which zeros such a product stores depends on the case in scipy; none here. *)
  Definition bdim (a b : nat) : option nat := if a =? b then Some a else if b =? 1 then Some a else if a =? 1 then Some b else None.
  Definition bidx (n i : nat) : nat := if n =? 1 then 0 else i.
  Definition sp_multiply (m1 m2 : sp) : res sp :=
    if (nrows m1 =? nrows m2) && (ncols m1 =? ncols m2) then sp_mul m1 m2
    else match bdim (nrows m1) (nrows m2), bdim (ncols m1) (ncols m2) with
         | Some nr, Some nc =>
           Ok (of_coo nr nc (filter (fun e => negb (isz (snd e)))
             (map (fun ij => (ij, mul (spget m1 (bidx (nrows m1) (fst ij)) (bidx (ncols m1) (snd ij)))
                                      (spget m2 (bidx (nrows m2) (fst ij)) (bidx (ncols m2) (snd ij)))))
                  (list_prod (seq 0 nr) (seq 0 nc)))))
         | _, _ => Err ValueError
         end.
  (** m > k etc. as scipy computes it: stored values compared after summing duplicates, true ones kept. *)
  Definition sp_cmp (p : V -> bool) (m : sp) : sp :=
    Sp (sfmt m) (map (fun ln => map (fun e => (fst e, one)) (filter (fun e => p (snd e)) (canon ln))) (lanes m)) (nminor m).
  (** m.sum(axis=1)[i], m.sum(axis=0)[j], m.sum() *)
  Definition row_sum (m : sp) (i : nat) : V := sumv (map snd (filter (fun e => fst (fst e) =? i) (entries m))).
  Definition col_sum (m : sp) (j : nat) : V := sumv (map snd (filter (fun e => snd (fst e) =? j) (entries m))).
  Definition sp_sum (m : sp) : V := sumv (map snd (entries m)).
  (** m != 0 *)
  Definition sp_nz (m : sp) : sp := sp_cmp (fun v => negb (isz v)) m.
  (** (m1 != m2).nnz == 0 for matrices of the same shape *)
  Definition sp_same (m1 m2 : sp) : bool :=
    forallb (fun i => forallb (fun j => veqb (spget m1 i j) (spget m2 i j)) (seq 0 (ncols m1))) (seq 0 (nrows m1)).
  (** sp.vstack([m1, m2]) *)
  Definition sp_vstack (m1 m2 : sp) : res sp :=
    if ncols m1 =? ncols m2 then Ok (Sp Csr (lanes (tocsr m1) ++ lanes (tocsr m2)) (ncols m1)) else Err ValueError.

  (** ** SparseMatrix, matrix.py:148-448 *)
  (** SparseMatrix.multiply, matrix.py:181-207 *)
  Definition sm_multiply (m other : sp) : res sp :=
    if existsb (fun e => isz (snd e)) (concat (lanes m))
    then let mask := map fst (entries other) in
         Ok (of_coo (nrows m) (ncols m) (filter (fun e => mem (fst e) mask) (entries m)))
    else sp_multiply m other.
  (** The comparison operators, applied to a value *)
  Definition cmpb (op : cmpop) (v k : V) : bool :=
    match op with CLt => vltb v k | CLe => vleb v k | CGt => vltb k v | CGe => vleb k v end.
  (** _operator_positive, matrix.py:237-262: only the stored values are compared. *)
  Definition sm_operator_positive (op : cmpop) (k : V) (m : sp) : sp :=
    of_coo (nrows m) (ncols m) (map (fun e => (fst e, one)) (filter (fun e => cmpb op (snd e) k) (entries m))).
  (** SparseMatrix.__lt__, __le__, __gt__, __ge__, matrix.py:209-235; scipy raises for <= 0 and >= 0. *)
  Definition sm_cmp (op : cmpop) (m : sp) (k : V) : res sp :=
    match op with
    | CLt => if vleb k zero then Ok (sp_cmp (fun v => vltb v k) m) else Ok (sm_operator_positive op k m)
    | CLe => if vleb k zero then (if isz k then Err NotImplementedError else Ok (sp_cmp (fun v => vleb v k) m))
             else Ok (sm_operator_positive op k m)
    | CGt => if vleb zero k then Ok (sp_cmp (fun v => vltb k v) m) else Ok (sm_operator_positive op k m)
    | CGe => if vleb zero k then (if isz k then Err NotImplementedError else Ok (sp_cmp (fun v => vleb k v) m))
             else Ok (sm_operator_positive op k m)
    end.
  (** SparseMatrix.submatrix, matrix.py:264-293 *)
  Definition sm_submatrix (m : sp) (row col : option (list nat)) : sp :=
    match row, col with
    | Some r, Some c => take_cols (take_rows m r) c
    | Some r, None => take_rows m r
    | None, Some c => take_cols m c
    | None, None => m
    end.
  (** SparseMatrix.empty_rows, matrix.py:329-355 *)
  Definition sm_empty_rows (explicit : bool) (m : sp) : list nat :=
    if explicit
    then filter (fun i => negb (existsb (fun e => fst (fst e) =? i) (entries m))) (seq 0 (nrows m))
    else filter (fun i => forallb (fun j => isz (spget m i j)) (seq 0 (ncols m))) (seq 0 (nrows m)).
  (** SparseMatrix.equal, matrix.py:435-438 *)
  Definition sm_equal (a b : sp) : bool :=
    if negb ((nrows a =? nrows b) && (ncols a =? ncols b)) || negb (nnz a =? nnz b) then false else sp_same a b.
End Sp.
Arguments sp : clear implicits.

(** ** Nested dicts, specutils/mxutils.py *)
Definition item2id (items : list pystr) : dict pystr nat := dict_of (combine items (seq 0 (length items))).
Definition kleb {B} (a b : pystr * B) : bool := sleb (fst a) (fst b).
Definition lookup (d : dict pystr nat) (k : pystr) : res nat := match dget d k with Some i => Ok i | None => Err KeyError end.
Definition at_ {A} (l : list A) (i : nat) : res A := match nth_error l i with Some x => Ok x | None => Err IndexError end.

Section Dicts.
  Context {V : Type} `{Num V}.
  Notation mxdict := (dict pystr (dict pystr V)).

  (** transform_dict_to_spmatrix, mxutils.py:37-98, when all values have the same number type (see [d2s_typed] for mixed types) *)
  Definition dict_to_coo (d : mxdict) (rows cols : list pystr) : res (list (nat * nat * V)) :=
    let r2i := item2id rows in
    let c2i := item2id cols in
    rmap (@concat _) (rmapm (fun rv => rmapm (fun cv =>
      rbind (lookup r2i (fst rv)) (fun i => rbind (lookup c2i (fst cv)) (fun j => Ok (i, j, snd cv))))
      (isort kleb (snd rv))) (isort kleb d)).
  Definition checked_of_coo (nr nc : nat) (es : list (nat * nat * V)) : res (sp V) :=
    if forallb (fun e => (fst (fst e) <? nr) && (snd (fst e) <? nc)) es then Ok (of_coo nr nc es) else Err ValueError.
  Definition dict_to_sp (d : mxdict) (rows cols : list pystr) : res (sp V) :=
    rbind (dict_to_coo d rows cols) (fun es =>
      match es with
      | [] => Err ValueError
      | _ => checked_of_coo (length (item2id rows)) (length (item2id cols)) es
      end).
  (** transform_spmatrix_to_dict, mxutils.py:101-132 *)
  Definition dput (d : mxdict) (r c : pystr) (v : V) : mxdict :=
    dset d r (dset (match dget d r with Some row => row | None => [] end) c v).
  Definition sp_to_dict (m : sp V) (rows cols : list pystr) : res mxdict :=
    rfold (fun d e => rbind (at_ rows (fst (fst e))) (fun r => rbind (at_ cols (snd (fst e))) (fun c => Ok (dput d r c (snd e)))))
          (entries m) [].
  (** One entry of merge_matrix_dict, mxutils.py:282-290, and _merge_matrix_dict, matrix.py:399-417 *)
  Definition dadd_row (row : dict pystr V) (cv : pystr * V) : dict pystr V :=
    dset row (fst cv) (add (match dget row (fst cv) with Some x => x | None => zero end) (snd cv)).
  Definition dadd (d : mxdict) (rv : pystr * dict pystr V) : mxdict :=
    dset d (fst rv) (fold_left dadd_row (snd rv) (match dget d (fst rv) with Some row => row | None => [] end)).
  Definition merge_matrix_dict (l : list mxdict) : mxdict := fold_left (fun d m => fold_left dadd m d) l [].
  Definition merge_dict2 (d1 d2 : mxdict) : mxdict := fold_left dadd d2 (dupdate [] d1).
End Dicts.

(** ** TypeTokenMatrix with a sparse matrix, matrix.py:647-1240 *)
Section TTM.
  Context {V : Type} `{Num V}.
  Record ttm := Ttm { tmx : sp V; trows : list pystr; tcols : list pystr }.
  (** __init__, matrix.py:671-700 *)
  Definition mk_ttm (m : sp V) (rows cols : list pystr) : res ttm :=
    if negb (nrows m =? length rows) then Err ValueError
    else if negb (ncols m =? length cols) then Err ValueError
    else Ok (Ttm m rows cols).
  (** m[r, c] with strings, _get_value matrix.py:766-802 *)
  Definition tt_get (m : ttm) (r c : pystr) : res V :=
    rbind (lookup (item2id (trows m)) r) (fun i => rbind (lookup (item2id (tcols m)) c) (fun j => Ok (spget (tmx m) i j))).
  (** multiply matrix.py:804-807 *)
  Definition tt_multiply (m other : ttm) : res ttm :=
    rbind (sm_multiply (tmx m) (tmx other)) (fun r => mk_ttm r (trows m) (tcols m)).
  (** __lt__ .. __ge__ matrix.py:809-831 *)
  Definition tt_cmp (op : cmpop) (m : ttm) (k : V) : res ttm := rbind (sm_cmp op (tmx m) k) (fun r => mk_ttm r (trows m) (tcols m)).
  (** sum matrix.py:836-870; a single row (axis 1) or column (axis 0) makes np.squeeze give a scalar, which zip rejects *)
  Definition tt_sum (m : ttm) (axis1 : bool) : res (dict pystr V) :=
    let items := if axis1 then trows m else tcols m in
    let n := if axis1 then nrows (tmx m) else ncols (tmx m) in
    let sums := map (if axis1 then row_sum (tmx m) else col_sum (tmx m)) (seq 0 n) in
    if n =? 1 then Err TypeError else Ok (dict_of (combine items sums)).
  Definition tt_total (m : ttm) : V := sp_sum (tmx m).
  (** submatrix matrix.py:872-943; Ok None is the return without value *)
  Definition select (items : list pystr) (req : option (list pystr)) : option (option (list pystr * list nat)) :=
    match req with
    | None => Some None
    | Some l =>
        let d := item2id items in
        let found := filter (dmem d) l in
        match found with
        | [] => None
        | _ => Some (Some (found, map (fun e => match dget d e with Some i => i | None => 0 end) found))
        end
    end.
  Definition tt_submatrix (m : ttm) (row col : option (list pystr)) : res (option ttm) :=
    match select (trows m) row with
    | None => Ok None
    | Some r =>
        match select (tcols m) col with
        | None => Ok None
        | Some c =>
            rmap Some (mk_ttm (sm_submatrix (tmx m) (option_map snd r) (option_map snd c))
                              (match r with Some x => fst x | None => trows m end)
                              (match c with Some x => fst x | None => tcols m end))
        end
    end.
  (** reorder matrix.py:1001-1037 *)
  Definition tt_reorder (m : ttm) (items : list pystr) (axis1 : bool) : res ttm :=
    rbind (rmapm (lookup (item2id (if axis1 then tcols m else trows m))) items) (fun idx =>
      if axis1 then mk_ttm (take_cols (tmx m) idx) (trows m) items else mk_ttm (take_rows (tmx m) idx) items (tcols m)).
  (** transpose matrix.py:1225-1227 *)
  Definition tt_transpose (m : ttm) : res ttm := mk_ttm (sp_transpose (tmx m)) (tcols m) (trows m).
  (** empty_rows matrix.py:1086-1104 *)
  Definition tt_empty_rows (m : ttm) (explicit : bool) : res (list pystr) := rmapm (at_ (trows m)) (sm_empty_rows explicit (tmx m)).
  (** drop_empty_rows matrix.py:1165-1180 *)
  Definition tt_drop_empty_rows (m : ttm) (explicit : bool) : res (option ttm) :=
    rbind (tt_empty_rows m explicit) (fun em =>
      match em with [] => Ok (Some m) | _ => tt_submatrix m (Some (filter (fun e => negb (mem e em)) (trows m))) None end).
  (** drop_empty matrix.py:1106-1124 *)
  Definition tt_drop_empty (m : ttm) (axis1 explicit : bool) : res (option ttm) :=
    if axis1
    then rbind (tt_transpose m) (fun t => rbind (tt_drop_empty_rows t explicit) (fun r =>
           match r with None => Err AttributeError | Some x => rmap Some (tt_transpose x) end))
    else tt_drop_empty_rows m explicit.
  (** count_nonzero matrix.py:1126-1130 (before np.squeeze): number of stored true cells of matrix != 0 *)
  Definition nonzeros (m : sp V) (axis1 : bool) : list nat :=
    map (fun i => length (filter (fun e => (if axis1 then snd (fst e) else fst (fst e)) =? i) (entries (sp_nz m))))
        (seq 0 (if axis1 then ncols m else nrows m)).
  (** drop matrix.py:1132-1163; with one row (column) the squeezed array is a scalar and cannot be indexed *)
  Definition tt_drop (m : ttm) (axis1 : bool) (n : nat) : res (option ttm) :=
    let nz := nonzeros (tmx m) axis1 in
    let items := if axis1 then tcols m else trows m in
    if length nz =? 1 then Err IndexError
    else let rest := map fst (filter (fun ic => n <? snd ic) (combine items nz)) in
         if axis1 then tt_submatrix m None (Some rest) else tt_submatrix m (Some rest) None.
  (** merge matrix.py:1186-1197 with SparseMatrix.merge 374-395 *)
  Definition sunion (a b : list pystr) : list pystr := isort sleb (dedup (a ++ b)).
  Definition tt_merge (a b : ttm) : res ttm :=
    rbind (sp_to_dict (tmx a) (trows a) (tcols a)) (fun d1 =>
    rbind (sp_to_dict (tmx b) (trows b) (tcols b)) (fun d2 =>
    let rows := sunion (trows a) (trows b) in
    let cols := sunion (tcols a) (tcols b) in
    rbind (dict_to_sp (merge_dict2 d1 d2) rows cols) (fun m => mk_ttm m rows cols))).
  (** concatenate matrix.py:1199-1223 with axis=0; a failing assert is shown as ValueError *)
  Definition tt_concat (a b : ttm) : res ttm :=
    rbind (sp_vstack (tmx a) (tmx b)) (fun m =>
      if eqb (tcols a) (tcols b) then mk_ttm m (trows a ++ trows b) (tcols a) else Err ValueError).
  (** equal matrix.py:1229-1234 *)
  Definition tt_equal (a b : ttm) : bool :=
    if negb (eqb (trows a) (trows b)) then false
    else if negb (eqb (tcols a) (tcols b)) then false
    else sm_equal (tmx a) (tmx b).

  (** ** Merging, mxutils.py *)
  (** transform_indices, mxutils.py:212-220: reads spmx.indices as column indices and spmx.indptr as row pointer whatever the format *)
  Definition transform_indices (m : ttm) (cols : list pystr) : res (sp V) :=
    rbind (rmapm (lookup (item2id cols)) (tcols m)) (fun sub2glb =>
    rbind (rmapm (fun ln => rmapm (fun e => rmap (fun j => (j, snd e)) (at_ sub2glb (fst e))) ln) (lanes (tmx m))) (fun ls =>
    if nmajor (tmx m) =? nrows (tmx m) then Ok (Sp Csr ls (length cols)) else Err ValueError)).
  (** merge_two_matrices, mxutils.py:170-209 *)
  Definition merge_two (a b : ttm) : res ttm :=
    if eqb (trows a) (trows b)
    then if eqb (tcols a) (tcols b)
         then rbind (sp_add (tmx a) (tmx b)) (fun m => mk_ttm m (trows a) (tcols a))
         else let cols := sunion (tcols a) (tcols b) in
              rbind (transform_indices a cols) (fun m1 => rbind (transform_indices b cols) (fun m2 =>
              rbind (sp_add m1 m2) (fun m => mk_ttm m (trows a) cols)))
    else Err NotImplementedError.
  (** merge_matrices, mxutils.py:223-270; the empty list is returned as it is ([None] here) *)
  Definition merge_matrices (l : list ttm) : res (option (sp V * list pystr * list pystr)) :=
    match l with
    | [] => Ok None
    | [m] => Ok (Some (tmx m, trows m, tcols m))
    | m0 :: ms =>
        if forallb (fun m => eqb (trows m) (trows m0) && eqb (tcols m) (tcols m0)) ms
        then rmap (fun s => Some (s, trows m0, tcols m0)) (rfold (fun s m => sp_add s (tmx m)) ms (tmx m0))
        else rbind (rmapm (fun m => sp_to_dict (tmx m) (trows m) (tcols m)) l) (fun ds =>
             let rows := isort sleb (dedup (flat_map trows l)) in
             let cols := isort sleb (dedup (flat_map tcols l)) in
             rmap (fun s => Some (s, rows, cols)) (dict_to_sp (merge_matrix_dict ds) rows cols))
    end.
End TTM.
Arguments ttm : clear implicits.
