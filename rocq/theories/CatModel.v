(** * Concatenation of sparse matrices and what can be done with the result: matrix.py:1199-1227, 418-434, 126-145, 160-179.

    scipy's vstack and hstack (bmat in scipy 1.5.4) give a csr matrix if csr matrices are stacked on top of each other, a csc
    matrix if csc matrices are put side by side, and a matrix in coordinate format (coo) otherwise.  A coo matrix cannot be
    indexed: it has no __getitem__.  C71 looks at the cells only. *)
From Coq Require Import String NArith ZArith Bool Arith List.
From Verif Require Import Base VocabModel MxModel MxTypedModel DenseModel IdxModel.
Import ListNotations.
Local Open Scope nat_scope.

Section Cat.
  Context {V : Type} {NV : Num V}.

  (** A scipy matrix: compressed, or in coordinate format (equal positions add up). *)
  Inductive smx := Comp (m : sp V) | Coo (nr nc : nat) (es : list (nat * nat * V)).
  Definition srows (m : smx) : nat := match m with Comp m => nrows m | Coo nr _ _ => nr end.
  Definition scols (m : smx) : nat := match m with Comp m => ncols m | Coo _ nc _ => nc end.
  Definition sentries (m : smx) : list (nat * nat * V) := match m with Comp m => entries m | Coo _ _ es => es end.
  Definition shift (dr dc : nat) (e : nat * nat * V) : nat * nat * V := (fst (fst e) + dr, snd (fst e) + dc, snd e).

  (** scipy.sparse.vstack([a, b]) and hstack([a, b]) *)
  Definition stack_rows (a b : smx) : res smx :=
    if scols a =? scols b then
      Ok (match a, b with
          | Comp (Sp Csr la n as x), Comp (Sp Csr lb _ as y) => Comp (Sp Csr (la ++ lb) n)
          | _, _ => Coo (srows a + srows b) (scols a) (sentries a ++ map (shift (srows a) 0) (sentries b))
          end)
    else Err ValueError.
  Definition stack_cols (a b : smx) : res smx :=
    if srows a =? srows b then
      Ok (match a, b with
          | Comp (Sp Csc la n as x), Comp (Sp Csc lb _ as y) => Comp (Sp Csc (la ++ lb) n)
          | _, _ => Coo (srows a) (scols a + scols b) (sentries a ++ map (shift 0 (scols a)) (sentries b))
          end)
    else Err ValueError.
  (** SparseMatrix.concatenate, matrix.py:418-431 *)
  Definition sm_concatenate (a b : smx) (axis : Z) : res smx :=
    if (axis =? 0)%Z then stack_rows a b else if (axis =? 1)%Z then stack_cols a b else Err ValueError.

  (** A TypeTokenMatrix over any scipy matrix; the constructor, matrix.py:671-700. *)
  Record stm := Stm { smat : smx; strows : list pystr; stcols : list pystr }.
  Definition mk_stm (m : smx) (rows cols : list pystr) : res stm :=
    if negb (srows m =? length rows) then Err ValueError
    else if negb (scols m =? length cols) then Err ValueError
    else Ok (Stm m rows cols).
  (** TypeTokenMatrix.concatenate, matrix.py:1199-1223: stacked first, compared afterwards. *)
  Definition concatenate (a b : stm) (axis : Z) : res stm :=
    if (axis =? 0)%Z then
      rbind (sm_concatenate (smat a) (smat b) axis) (fun m =>
        if eqb (stcols a) (stcols b) then mk_stm m (strows a ++ strows b) (stcols a) else Err AssertionError)
    else if (axis =? 1)%Z then
      rbind (sm_concatenate (smat a) (smat b) axis) (fun m =>
        if eqb (strows a) (strows b) then mk_stm m (strows a) (stcols a ++ stcols b) else Err AssertionError)
    else Err ValueError.
  (** transpose, matrix.py:1225-1227 with 433-434 *)
  Definition s_transpose (a : stm) : res stm :=
    mk_stm (match smat a with
            | Comp m => Comp (sp_transpose m)
            | Coo nr nc es => Coo nc nr (map (fun e => (snd (fst e), fst (fst e), snd e)) es)
            end) (stcols a) (strows a).
  (** Square brackets, matrix.py:766-802 with 160-179; coo matrices are not subscriptable. *)
  Definition s_getitem (a : stm) (g : garg) : res (gval V) :=
    match smat a with
    | Comp m => tt_getitem (Ttm m (strows a) (stcols a)) g
    | Coo _ _ _ =>
        match g with
        | GPair x y => rbind (resolve_sel (strows a) x) (fun _ => rbind (resolve_sel (stcols a) y) (fun _ => Err TypeError))
        | GTuple => Err ValueError
        | GOne x => rbind (resolve_sel (strows a) x) (fun _ => Err TypeError)
        | GList => Err NotImplementedError
        end
    end.
  (** submatrix, matrix.py:872-943 with 264-293.  [Ok None]: no requested row (column) exists; the columns are not looked at if no
      row exists.  Without any request the matrix itself is used, which is not indexed then. *)
  Definition s_submatrix (a : stm) (row col : option (list pystr)) : res (option stm) :=
    match smat a with
    | Comp m => rmap (option_map (fun t => Stm (Comp (tmx t)) (trows t) (tcols t))) (tt_submatrix (Ttm m (strows a) (stcols a)) row col)
    | Coo _ _ _ =>
        match select (strows a) row with
        | None => Ok None
        | Some r => match select (stcols a) col with
                    | None => Ok None
                    | Some c => match r, c with None, None => Ok (Some a) | _, _ => Err TypeError end
                    end
        end
    end.
  (** reorder, matrix.py:1001-1037 with SparseMatrix.reorder 295-305 and reorder_matrix 126-145; the items are looked up first. *)
  Definition s_reorder (a : stm) (items : list pystr) (axis1 : bool) : res stm :=
    match smat a with
    | Comp m => rmap (fun t => Stm (Comp (tmx t)) (trows t) (tcols t)) (tt_reorder (Ttm m (strows a) (stcols a)) items axis1)
    | Coo _ _ _ => rbind (rmapm (lookup (item2id (if axis1 then stcols a else strows a))) items) (fun _ => Err TypeError)
    end.
  (** sum(), matrix.py:866-867: of all cells *)
  Definition s_total (a : stm) : V := sumv (map snd (sentries (smat a))).
End Cat.
Arguments smx : clear implicits.
Arguments stm : clear implicits.

(** reorder_matrix, matrix.py:126-145, on a compressed matrix and positions as they are given: ints, which may be negative. *)
Definition reorder_matrix {V} (m : sp V) (idx : list Z) (axis : Z) : res (sp V) :=
  if (axis =? 0)%Z then rmap (take_rows m) (rmapm (norm_index (nrows m)) idx)
  else if (axis =? 1)%Z then rmap (take_cols m) (rmapm (norm_index (ncols m)) idx)
  else Err ValueError.
(** empty_row_idx, matrix.py:72-79: positions of the rows of an array without a cell that is not zero. *)
Definition empty_row_idx {V} `{Num V} (rows : list (list V)) : list nat :=
  map fst (filter (fun ir => forallb isz (snd ir)) (combine (seq 0 (length rows)) rows)).
