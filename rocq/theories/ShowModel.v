(** * Printing and CSV files: nephosem/core/matrix.py:715-740, 753-758, 1039-1084, 1182-1184, 1263-1314, 1424-1503, 351-369 and
    nephosem/core/vocab.py:449-464.

    tabulate (the layout of the table), the formatting of numbers and pandas' recognition of numbers are parameters.
    pandas 0.24: SparseDataFrame and DataFrame.as_matrix exist. *)
From Coq Require Import String NArith ZArith Bool Arith List.
From Verif Require Import Base Str VocabModel MxModel.
Import ListNotations.
Local Open Scope string_scope.
Local Open Scope nat_scope.
Local Open Scope list_scope.

Definition dots : pystr := u "...".
Definition nan_str : pystr := u "NaN".
(** min(n, len) if n else len, matrix.py:1460-1461 *)
Definition limit (n : option Z) (len : nat) : Z :=
  match n with None => Z.of_nat len | Some z => if (z =? 0)%Z then Z.of_nat len else Z.min z (Z.of_nat len) end.
(** str(list(shape)) *)
Definition shape_str (r c : nat) : pystr := u "[" ++ str_of_Z (Z.of_nat r) ++ u ", " ++ str_of_Z (Z.of_nat c) ++ u "]".
(** content[i][j] = val; i and j are not negative here *)
Fixpoint set_at {A} (l : list A) (i : nat) (x : A) : list A :=
  match l, i with [], _ => [] | _ :: l', O => x :: l' | y :: l', S i' => y :: set_at l' i' x end.
Definition set_cell (content : list (list pystr)) (i j : nat) (x : pystr) : res (list (list pystr)) :=
  match nth_error content i with
  | Some row => if j <? length row then Ok (set_at content i (set_at row j x)) else Err IndexError
  | None => Err IndexError
  end.
(** The ellipses, matrix.py:1491-1495 *)
Definition ellipses (r c : nat) (nr nc : Z) (t : list (list pystr)) : list (list pystr) :=
  let t := if (nc <? Z.of_nat c)%Z then map (fun row => row ++ [dots]) t else t in
  if (nr <? Z.of_nat r)%Z then t ++ [repeat dots (length (hd [] t))] else t.

Section Tables.
  Context {V : Type} `{Num V}.
  (** '{:0.4f}'.format(val) for floats, str(val) otherwise *)
  Variable show : V -> pystr.

  (** print_matrix, matrix.py:1445-1499, of a sparse matrix: the table given to tabulate.  The stored entries of
      mtx[:n_rows, :][:, :n_cols] are those of mtx in the first rows and columns. *)
  Definition print_sparse (m : ttm V) (n_rows n_cols : option Z) : res (list (list pystr)) :=
    let r := nrows (tmx m) in
    let c := ncols (tmx m) in
    let nr := limit n_rows r in
    let nc := limit n_cols c in
    let content := map (fun i => nth i (trows m) [] :: repeat nan_str (Z.to_nat nc)) (seq 0 (Z.to_nat nr)) in
    let es := filter (fun e => (fst (fst e) <? slice_bound r nr) && (snd (fst e) <? slice_bound c nc)) (entries (tmx m)) in
    rmap (fun content => ellipses r c nr nc ((shape_str r c :: py_slice (tcols m) None (Some nc)) :: content))
         (rfold (fun content e => set_cell content (fst (fst e)) (S (snd (fst e))) (show (snd e))) es content).
  (** print_matrix of a numpy array, given by its rows *)
  Definition print_dense (rows cols : list pystr) (a : list (list V)) (n_rows n_cols : option Z) : list (list pystr) :=
    let r := length rows in
    let c := length cols in
    let nr := limit n_rows r in
    let nc := limit n_cols c in
    ellipses r c nr nc ((shape_str r c :: py_slice cols None (Some nc)) ::
      map (fun ir => nth (fst ir) rows [] :: map show (py_slice (snd ir) None (Some nc)))
          (combine (seq 0 (length a)) (py_slice a None (Some nr)))).
  (** __repr__, matrix.py:1442-1443 *)
  Definition repr_sparse (m : ttm V) : res (list (list pystr)) := print_sparse m (Some 7%Z) (Some 7%Z).
  Definition repr_dense (rows cols : list pystr) (a : list (list V)) : list (list pystr) := print_dense rows cols a (Some 7%Z) (Some 7%Z).
End Tables.

(** describe, matrix.py:1424-1437: rows, columns, number of elements and the argument of the density; [size] is the number of
    stored entries of a sparse matrix and the number of cells of an array *)
Definition describe (r c size : nat) : res (nat * nat * nat * (Z * Z)) :=
  if r * c =? 0 then Err ZeroDivisionError else Ok (r, c, size, (Z.of_nat (size * 100), Z.of_nat (r * c))).

(** item2rowid and item2colid, matrix.py:715-740 *)
Definition item_ids (items : list pystr) : dict pystr nat := dict_of (combine items (seq 0 (length items))).

(** _reorder_verbose, matrix.py:1039-1084: self._reorder_matrix is not defined *)
Definition reorder_verbose (rows cols : list pystr) (item_list : option (list pystr)) (idx_list : bool) (axis : Z) : res unit :=
  rbind (if (axis =? 0)%Z then Ok rows else if (axis =? 1)%Z then Ok cols else Err ValueError) (fun items =>
  rbind (match item_list with
         | Some l => if idx_list then Err ValueError else rmapm (lookup (item_ids items)) l
         | None => if idx_list then Err NotImplementedError else Err ValueError
         end) (fun _ => Err AttributeError)).

(** SparseMatrix.drop_zero_rows and drop_zero_cols, matrix.py:351-369, of a coo matrix given by its entries: the numbers of rows
    or columns, and the entries that csr_matrix is built from.  Other sparse matrices have no method to_coo. *)
Inductive spkind := KCoo | KOther.
Definition uniq_sorted (l : list nat) : list nat := isort Nat.leb (dedup l).
Definition place (l : list nat) (x : nat) : nat := match index_of x l with Some i => i | None => 0 end.
Definition drop_zero {V} (by_rows : bool) (k : spkind) (r c : nat) (es : list (nat * nat * V)) : res (nat * nat * list (nat * nat * V)) :=
  match k with
  | KOther => Err AttributeError
  | KCoo =>
      let nz := uniq_sorted (map (fun e => if by_rows then fst (fst e) else snd (fst e)) es) in
      Ok (if by_rows then (length nz, c, map (fun e => (place nz (fst (fst e)), snd (fst e), snd e)) es)
          else (r, length nz, map (fun e => (fst (fst e), place nz (snd (fst e)), snd e)) es))
  end.
(** TypeTokenMatrix.drop_zero_rows, matrix.py:1182-1184, is pass; spmatrix_to_dict, matrix.py:1501-1503, names a function that the
    module does not import *)
Definition tt_drop_zero_rows {V} (m : ttm V) : option (ttm V) := None.
Definition spmatrix_to_dict {V} (m : ttm V) : res (dict pystr (dict pystr V)) := Err NameError.

(** ** Vocab.__repr__, vocab.py:457-464; [show]: str of a pair *)
Definition comma : N := 44%N.
Definition v_repr (show : pystr * Z -> pystr) (v : vocab) : pystr :=
  let items := fd v in
  if length items <=? 7 then u "[" ++ join comma (map show items) ++ u "]"
  else let s := isort (fun a b => (snd b <=? snd a)%Z) items in
       u "[" ++ join comma (map show (py_slice s None (Some 3%Z))) ++ u " ... " ++ join comma (map show (py_slice s (Some (-3)%Z) None)) ++ u "]".

(** ** CSV files, matrix.py:753-758 and 1263-1314.  A file is the grid of its fields; the quoting of fields is undone by pandas. *)
Section Csv.
  Context {V : Type} `{Num V}.
  Variable show : V -> pystr.
  (** What pandas takes a field for: a number, one of the words for a missing value, or a string *)
  Inductive fld := FNum (v : V) | FNaN | FStr (s : pystr).
  Variable parse : pystr -> fld.
  (** pandas' renaming of repeated column names *)
  Variable dedup_names : list pystr -> list pystr.

  (** dataframe: the cells; SparseDataFrame has NaN (None) where nothing is stored *)
  Definition sparse_frame (m : sp V) : list (list (option V)) :=
    map (fun i => map (fun j => if mem (i, j) (map fst (entries m)) then Some (spget m i j) else None) (seq 0 (ncols m))) (seq 0 (nrows m)).
  (** to_csv with header=True *)
  Definition field (c : option V) : pystr := match c with Some v => show v | None => [] end.
  Definition to_csv (index : bool) (rows cols : list pystr) (cells : list (list (option V))) : list (list pystr) :=
    ((if index then [[]] else []) ++ cols) ::
    map (fun ri => (if index then [fst ri] else []) ++ map field (snd ri)) (combine rows cells).
  (** One column: numbers when every field is a number or missing, strings otherwise *)
  Definition infer (col : list pystr) : list fld :=
    let p := map parse col in
    if existsb (fun f => match f with FStr _ => true | _ => false end) p
    then map (fun s => match parse s with FNaN => FNaN | _ => FStr s end) col else p.
  Definition unnamed (ks : nat * pystr) : pystr := match snd ks with [] => u "Unnamed: " ++ str_of_Z (Z.of_nat (fst ks)) | s => s end.
  Record frame := Frame { f_rows : option (list fld); f_cols : list pystr; f_cells : list (list fld) }.
  (** pd.read_csv with header='infer', of rows as long as the header.  Row labels [None]: 0, 1, 2, ... *)
  Definition read_frame (index_col : option nat) (g : list (list pystr)) : res frame :=
    match g with
    | [] => Err ValueError
    | h :: data =>
        let names := dedup_names (map unnamed (combine (seq 0 (length h)) h)) in
        let column k := infer (map (fun row => nth k row []) data) in
        let ks := match index_col with None => seq 0 (length h) | Some x => filter (fun k => negb (k =? x)) (seq 0 (length h)) end in
        let columns := map column ks in
        Ok (Frame (option_map column index_col) (map (fun k => nth k names []) ks)
                  (map (fun i => map (fun col => nth i col FNaN) columns) (seq 0 (length data))))
    end.
  (** from_dataframe, matrix.py:1307-1314: csr_matrix of an array of objects is a TypeError; the cells it stores are those
      that are not zero, NaN among them *)
  Definition is_strf (f : fld) : bool := match f with FStr _ => true | _ => false end.
  Definition from_frame_sparse (f : frame) : res (list (nat * nat * option V)) :=
    if existsb (existsb is_strf) (f_cells f) then Err TypeError
    else Ok (flat_map (fun ir => flat_map (fun jx => match snd jx with
                                                     | FNum v => if isz v then [] else [(fst ir, fst jx, Some v)]
                                                     | _ => [(fst ir, fst jx, None)]
                                                     end) (combine (seq 0 (length (snd ir))) (snd ir)))
                      (combine (seq 0 (length (f_cells f))) (f_cells f))).
End Csv.
Arguments fld : clear implicits.
Arguments frame : clear implicits.
