(** * Model of TypeTokenMatrix.save and load: nephosem/core/matrix.py:1316-1422.

    A file is named by its directory and its name in it.  The contents are what the library writes: JSON meta data, the four
    arrays of an .npz file, the array of an .npy file, an archive of such files.  JSON, numpy and zip are taken to read back what they
    wrote and to refuse a file that was cut off while being written ([FCut]).  The matrix's further meta data is not modelled, nor
    the items that the constructor requires of a symmetric array (DenseModel). *)
From Coq Require Import String NArith ZArith Bool Arith List.
From Verif Require Import Base Str MxModel.
Import ListNotations.

(** os.path.splitext on the last component of a path: everything from the last dot, if something other than dots precedes it. *)
Fixpoint rsplit_dot (s : pystr) : option (pystr * pystr) :=
  match s with
  | [] => None
  | c :: t => match rsplit_dot t with
              | Some (b, e) => Some (c :: b, e)
              | None => if eqb c 46%N then Some ([], s) else None
              end
  end.
Definition splitext (s : pystr) : pystr * pystr :=
  match rsplit_dot s with
  | Some (b, e) => if existsb (fun c => negb (eqb c 46%N)) b then (b, e) else (s, [])
  | None => (s, [])
  end.

Section Files.
  Context {V : Type}.

  (** The attributes data, indices and indptr of a compressed matrix *)
  Definition sp_data (m : sp V) : list V := map snd (concat (lanes m)).
  Definition sp_indices (m : sp V) : list nat := map fst (concat (lanes m)).
  Fixpoint cumul (n : nat) (ls : list (list (nat * V))) : list nat :=
    n :: match ls with [] => [] | l :: t => cumul (n + length l) t end.
  Definition sp_indptr (m : sp V) : list nat := cumul 0 (lanes m).
  (** sp.csr_matrix((data, indices, indptr), shape=shape) with the checks scipy makes *)
  Fixpoint cut (flat : list (nat * V)) (ptr : list nat) : list (list (nat * V)) :=
    match ptr with
    | a :: (b :: _) as t => firstn (b - a) (skipn a flat) :: cut flat t
    | _ => []
    end.
  Definition csr_of (data : list V) (indices indptr : list nat) (nr nc : nat) : res (sp V) :=
    if negb (length indptr =? S nr) then Err ValueError
    else if negb (hd 0 indptr =? 0) then Err ValueError
    else if negb (length indices =? length data) then Err ValueError
    else if negb (last indptr 0 <=? length indices) then Err ValueError
    else Ok (Sp Csr (cut (combine indices data) indptr) nc).

  (** What a TypeTokenMatrix holds: a scipy matrix or a numpy array *)
  Inductive anymx := Sparse (m : sp V) | Dense (rows : list (list V)) (nc : nat).
  Record amx := Amx { amat : anymx; arows : list pystr; acols : list pystr }.
  Definition mk_amx (m : anymx) (rows cols : list pystr) : res amx :=
    let nr := match m with Sparse s => nrows s | Dense l _ => length l end in
    let nc := match m with Sparse s => ncols s | Dense _ n => n end in
    if negb (nr =? length rows) then Err ValueError
    else if negb (nc =? length cols) then Err ValueError
    else Ok (Amx m rows cols).

  Definition path := (pystr * pystr)%type.
  Inductive file :=
  | FMeta (rows cols : list pystr)
  | FNpz (data : list V) (indices indptr : list nat) (nr nc : nat)
  | FNpy (rows : list (list V)) (nc : nat)
  | FZip (members : list (pystr * file))
  | FCut
  | FOther (bytes : pystr).
  Definition fs := path -> option file.
  Definition put (f : fs) (p : path) (c : option file) : fs := fun q => if eqb q p then c else f q.
  (** A program that changes files, as a list of steps *)
  Inductive step := Write (p : path) (c : file) | Remove (p : path).
  Definition do_step (f : fs) (s : step) : fs := match s with Write p c => put f p (Some c) | Remove p => put f p None end.
  Definition do_steps (f : fs) (l : list step) : fs := fold_left do_step l f.
  (** Stopped after n steps, or while making step n+1: a file being written is cut off. *)
  Definition crash (f : fs) (l : list step) (n : nat) (during : bool) : fs :=
    let f' := do_steps f (firstn n l) in
    if during then match nth_error l n with Some (Write p _) => put f' p (Some FCut) | _ => f' end else f'.

  Definition pac : pystr := u ".pac".
  Definition meta_of (d b : pystr) : path := (d, b ++ u ".meta").
  Definition npz_of (d b : pystr) : path := (d, b ++ u ".npz").
  Definition npy_of (d b : pystr) : path := (d, b ++ u ".npy").
  Definition pac_of (d b : pystr) : path := (d, b ++ pac).
  (** The base name taken by save, matrix.py:1322-1333, and load, 1387-1389 *)
  Definition save_base (name : pystr) (pack : bool) : pystr :=
    if pack then (if eqb (snd (splitext name)) pac then fst (splitext name) else name) else name.
  Definition load_base (name : pystr) : pystr := if eqb (snd (splitext name)) pac then fst (splitext name) else name.
  Definition mx_file (m : anymx) : file :=
    match m with Sparse s => FNpz (sp_data s) (sp_indices s) (sp_indptr s) (nrows s) (ncols s) | Dense l n => FNpy l n end.
  Definition mx_path (d b : pystr) (m : anymx) : path := match m with Sparse _ => npz_of d b | Dense _ _ => npy_of d b end.
  (** save, matrix.py:1316-1366, as steps *)
  Definition save_steps (m : amx) (d name : pystr) (pack : bool) : list step :=
    let b := save_base name pack in
    let meta := FMeta (arows m) (acols m) in
    let mx := mx_file (amat m) in
    [Write (meta_of d b) meta; Write (mx_path d b (amat m)) mx] ++
    if pack
    then [Write (pac_of d b) (FZip [(snd (meta_of d b), meta); (snd (mx_path d b (amat m)), mx)]);
          Remove (meta_of d b); Remove (mx_path d b (amat m))]
    else [].
  Definition save (f : fs) (m : amx) (d name : pystr) (pack : bool) : fs := do_steps f (save_steps m d name pack).
  (** load, matrix.py:1368-1422: the result and the files afterwards *)
  Definition extract (f : fs) (d : pystr) (members : list (pystr * file)) : fs :=
    do_steps f (map (fun nf => Write (d, fst nf) (snd nf)) members).
  Definition read_mx (c : option file) (issparse : bool) : res anymx :=
    match c, issparse with
    | Some (FNpz data indices indptr nr nc), true => rmap Sparse (csr_of data indices indptr nr nc)
    | Some (FNpy l n), false => Ok (Dense l n)
    | None, _ => Err IOError
    | _, _ => Err ValueError
    end.
  Definition load_from (f : fs) (d b : pystr) (pack : bool) : res amx * fs :=
    match f (npz_of d b), f (npy_of d b) with
    | None, None => (Err ValueError, f)
    | z, _ =>
        let issparse := match z with Some _ => true | None => false end in
        let mxp := if issparse then npz_of d b else npy_of d b in
        match f (meta_of d b) with
        | Some (FMeta rows cols) =>
            match read_mx (f mxp) issparse with
            | Ok m => let f' := if pack then put (put f (meta_of d b) None) mxp None else f in (mk_amx m rows cols, f')
            | Err e => (Err e, f)
            end
        | None => (Err IOError, f)
        | Some _ => (Err ValueError, f)
        end
    end.
  Definition load (f : fs) (d name : pystr) (pack : bool) : res amx * fs :=
    let b := load_base name in
    if pack
    then match f (pac_of d b) with
         | Some (FZip members) => load_from (extract f d members) d b true
         | None => (Err IOError, f)
         | Some _ => (Err ValueError, f)
         end
    else load_from f d b false.
End Files.
Arguments anymx : clear implicits.
Arguments amx : clear implicits.
Arguments file : clear implicits.
Arguments fs : clear implicits.
