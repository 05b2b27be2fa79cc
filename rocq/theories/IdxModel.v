(** * Square brackets on a TypeTokenMatrix: _get_value, matrix.py:766-802 with 157-179, 460-464 and 560-564. *)
From Coq Require Import String NArith ZArith Bool Arith QArith Qcanon List.
From Verif Require Import Base VocabModel MxModel MxTypedModel DenseModel.
Import ListNotations.
Local Open Scope nat_scope.

(** One key: a string, an int, a slice [start:stop] (a step is left out), or anything else (a numpy integer is no int). *)
Inductive sel := SItem (s : pystr) | SInt (z : Z) | SSlice (start stop : option Z) | SOther.
(** What stands in the brackets: a tuple of two, a tuple of another length, one key, or a list. *)
Inductive garg := GPair (a b : sel) | GTuple | GOne (a : sel) | GList.
(** What comes out: a number, an array with one dimension, or an array with two (with its number of columns). *)
Inductive gval {V : Type} := GScalar (v : V) | GVec (l : list V) | GArr (l : list (list V)) (nc : nat).
Arguments gval : clear implicits.

(** matrix.py:771-800: strings become positions. *)
Inductive rsel := RInt (z : Z) | RSlice (start stop : option Z).
Definition resolve_sel (items : list pystr) (a : sel) : res rsel :=
  match a with
  | SItem s => rmap (fun i => RInt (Z.of_nat i)) (lookup (item2id items) s)
  | SInt z => Ok (RInt z)
  | SSlice x y => Ok (RSlice x y)
  | SOther => Err ValueError
  end.
(** The positions of a key among n, as numpy and scipy have it; the flag tells whether the dimension stays. *)
Definition positions_of (n : nat) (a : rsel) : res (bool * list nat) :=
  match a with
  | RInt z => rmap (fun i => (false, [i])) (norm_index n z)
  | RSlice x y => Ok (true, py_slice (seq 0 n) x y)
  end.

Section Get.
  Context {V : Type}.
  (** SparseMatrix._get_value, matrix.py:160-179.  matrix[i, j] is a number; any other index gives a sparse matrix, which is
      turned into an array with two dimensions, and an array with one row into that row. *)
  Definition shape_sparse (get : nat -> nat -> V) (r c : bool * list nat) : gval V :=
    match r, c with
    | (false, [i]), (false, [j]) => GScalar (get i j)
    | (_, rs), (_, cs) =>
        let rows := map (fun i => map (get i) cs) rs in
        match rows with [x] => GVec x | _ => GArr rows (length cs) end
    end.
  (** matrix[arg] of numpy (NormalMatrix._get_value 463-464, SquareMatrix._get_value 563-564): an int takes the dimension away. *)
  Definition shape_dense (get : nat -> nat -> V) (r c : bool * list nat) : gval V :=
    match r, c with
    | (false, [i]), (false, [j]) => GScalar (get i j)
    | (false, [i]), (_, cs) => GVec (map (get i) cs)
    | (_, rs), (false, [j]) => GVec (map (fun i => get i j) rs)
    | (_, rs), (_, cs) => GArr (map (fun i => map (get i) cs) rs) (length cs)
    end.
  (** TypeTokenMatrix._get_value, matrix.py:766-802.  Both keys are looked up before the matrix is indexed. *)
  Definition get_value (shape : (nat -> nat -> V) -> bool * list nat -> bool * list nat -> gval V)
      (rows cols : list pystr) (nr nc : nat) (get : nat -> nat -> V) (a : garg) : res (gval V) :=
    match a with
    | GPair x y =>
        rbind (resolve_sel rows x) (fun x => rbind (resolve_sel cols y) (fun y =>
        rbind (positions_of nr x) (fun r => rbind (positions_of nc y) (fun c => Ok (shape get r c)))))
    | GTuple => Err ValueError
    | GOne x => rbind (resolve_sel rows x) (fun x => rbind (positions_of nr x) (fun r => Ok (shape get r (true, seq 0 nc))))
    | GList => Err NotImplementedError
    end.
  Definition tt_getitem `{Num V} (m : ttm V) (a : garg) : res (gval V) :=
    get_value shape_sparse (trows m) (tcols m) (nrows (tmx m)) (ncols (tmx m)) (spget (tmx m)) a.
End Get.
Definition d_getitem (m : dtm) (a : garg) : res (gval Qc) :=
  get_value shape_dense (drows m) (dcols m) (ar (dmx m)) (ac (dmx m)) (cell (dmx m)) a.
