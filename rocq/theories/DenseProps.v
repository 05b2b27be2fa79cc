(** * Claims C106-C114: dense matrices, indexing, contexts and samples. *)
From Coq Require Import String NArith ZArith Bool Arith Lia Sorted QArith Qcanon Qabs Qround List.
From Verif Require Import Base BaseLemmas MxModel MxTypedModel MxSpec MxTtmProofs MxElemProofs MxOpsProofs DenseModel DenseSpec DenseProofs DenseAgreeProofs.
Import ListNotations.
Local Open Scope string_scope.
Local Open Scope nat_scope.
Local Open Scope list_scope.

(** Arrays for the examples *)
Definition q (z : Z) : Qc := Q2Qc (inject_Z z).
Definition array (n m : nat) (l : list (list Z)) : arr := Arr n m (fun i j => q (nth j (nth i l []) 0%Z)).
Definition table (a : arr) : list (list Q) := map (fun i => map (fun j => this (cell a i j)) (seq 0 (ac a))) (seq 0 (ar a)).
Definition show (m : dtm) := (table (dmx m), drows m, dcols m, dbeh m).
Definition ab := [u "a"; u "b"].
Definition xy := [u "x"; u "y"].
Definition xyz := [u "x"; u "y"; u "z"].
Lemma ab_nodup : NoDup ab. Proof. repeat constructor; cbn; intuition discriminate. Qed.
Lemma xy_nodup : NoDup xy. Proof. repeat constructor; cbn; intuition discriminate. Qed.
Lemma xyz_nodup : NoDup xyz. Proof. repeat constructor; cbn; intuition discriminate. Qed.
(** <<   x y z
      a  1 0 2
      b  3 4 0 >> *)
Definition ex_n : dtm := Dtm (array 2 3 [[1; 0; 2]; [3; 4; 0]]%Z) ab xyz Normal.
Lemma ex_n_good : dgood ex_n. Proof. constructor; [vm_compute; reflexivity|exact ab_nodup|exact xyz_nodup]. Qed.
(** a 2 x 2 table with different row and column items that is not symmetric *)
Definition ex_f : dtm := Dtm (array 2 2 [[1; 2]; [3; 4]]%Z) ab xy Normal.
Lemma ex_f_good : dgood ex_f. Proof. constructor; [vm_compute; reflexivity|exact ab_nodup|exact xy_nodup]. Qed.
(** a distance matrix *)
Definition ex_s : dtm := Dtm (array 2 2 [[0; 5]; [5; 0]]%Z) ab ab Square.
Lemma ex_s_good : dgood ex_s. Proof. constructor; [vm_compute; reflexivity|exact ab_nodup|exact ab_nodup]. Qed.

(** ** C106: wrapping an array *)
(** The claim "an array whose shape fits the item lists can be wrapped" holds unless the array looks symmetric and the lists differ. *)
Theorem C106_wrap_partial : forall (a : arr) (rows cols : list pystr), ar a = length rows -> ac a = length cols -> (~ near_symmetric a \/ rows = cols) ->
  exists m, mk_dense a rows cols = Ok m /\ dmx m = a /\ drows m = rows /\ dcols m = cols /\ (dbeh m = Square <-> near_symmetric a).
Proof.
  intros a rows cols R C H. destruct (near_symmetric_dec a) as [N|N].
  - assert (rows = cols) by tauto. subst cols. rewrite mk_dense_square by assumption. eexists. split; [reflexivity|]. cbn. tauto.
  - rewrite mk_dense_normal by assumption. eexists. split; [reflexivity|]. cbn. do 3 (split; [reflexivity|]). split; [discriminate|tauto].
Qed.
Print Assumptions C106_wrap_partial.
Theorem C106_wrap_rejects : forall (a : arr) (rows cols : list pystr),
  ~ (ar a = length rows /\ ac a = length cols) \/ (near_symmetric a /\ rows <> cols) -> mk_dense a rows cols = Err ValueError.
Proof. intros a rows cols [H|[H D]]; [now apply mk_dense_shape|now apply mk_dense_fail]. Qed.
Print Assumptions C106_wrap_rejects.
(** For counts of up to five digits, looking symmetric is being symmetric. *)
Theorem C106_wrap_counts : forall a, (forall i j, i < ar a -> j < ac a -> small_int (cell a i j)) ->
  (near_symmetric a <-> ar a = ac a /\ forall i j, i < ar a -> j < ar a -> cell a i j = cell a j i).
Proof. exact @near_symmetric_ints. Qed.
Print Assumptions C106_wrap_counts.
(** Every matrix of one cell is refused unless its row and column have the same name, and so is a square matrix of zeros. *)
Theorem C106_wrap_refuted : (forall v r c, r <> c -> mk_dense (Arr 1 1 (fun _ _ => v)) [r] [c] = Err ValueError) /\
  forall n rows cols, rows <> cols -> mk_dense (Arr n n (fun _ _ => zero)) rows cols = Err ValueError.
Proof.
  split; [exact one_cell_fails|]. intros n rows cols D. apply mk_dense_fail; [|assumption]. split; [reflexivity|]. intros. apply near_refl.
Qed.
Print Assumptions C106_wrap_refuted.
Example C106_ex : rmap show (mk_dense (array 2 3 [[1; 0; 2]; [3; 4; 0]]%Z) ab xyz) = Ok ([[1; 0; 2]; [3; 4; 0]]%Q, ab, xyz, Normal) /\
  ~ near_symmetric (array 2 3 [[1; 0; 2]; [3; 4; 0]]%Z).
Proof. split; [vm_compute; reflexivity|]. intros [E _]. discriminate. Qed.
Example C106_ex_reject : near_symmetric (array 2 2 [[1; 2]; [2; 1]]%Z) /\ mk_dense (array 2 2 [[1; 2]; [2; 1]]%Z) ab xy = Err ValueError.
Proof. split; [apply symmetric_iff; vm_compute; reflexivity|vm_compute; reflexivity]. Qed.
Example C106_ex_counts : forall i j, i < 2 -> j < 3 -> small_int (cell (dmx ex_n) i j).
Proof.
  intros i j I J. destruct i as [|[|i]]; [| |lia]; (destruct j as [|[|[|j]]]; [| | |lia]); cbn;
    [exists 1%Z|exists 0%Z|exists 2%Z|exists 3%Z|exists 4%Z|exists 0%Z]; (split; [reflexivity|lia]).
Qed.
(** Six digits: 100000 and 100001 look the same. *)
Example C106_ex_six : rmap dbeh (mk_dense (array 2 2 [[0; 100000]; [100001; 0]]%Z) ab ab) = Ok Square.
Proof. vm_compute. reflexivity. Qed.

(** ** C107: submatrix *)
(** Whenever a matrix is returned, it has the requested items that exist, in the requested order, and their values. *)
Theorem C107_submatrix_cells : forall (m : dtm) (row col : option (list pystr)) (m' : dtm), dgood m -> d_submatrix m row col = Ok (Some m') ->
  drows m' = (match row with None => drows m | Some l => filter (fun e => mem e (drows m)) l end) /\
  dcols m' = (match col with None => dcols m | Some l => filter (fun e => mem e (dcols m)) l end) /\
  ar (dmx m') = length (drows m') /\ ac (dmx m') = length (dcols m') /\
  forall i j r c, nth_error (drows m') i = Some r -> nth_error (dcols m') j = Some c -> cell (dmx m') i j = dval m r c.
Proof. intros m row col m' G E. destruct (d_submatrix_cells m row col m' G E) as (R & C & (A & B & T) & _). repeat split; assumption. Qed.
Print Assumptions C107_submatrix_cells.
(** A matrix is returned when rows and columns are given, or when one is given and the matrix is not a SquareMatrix, provided the
    selected table does not look symmetric by accident. *)
Theorem C107_submatrix_partial : forall (m : dtm) (row col : option (list pystr)), dgood m ->
  let R := match row with None => drows m | Some l => filter (fun e => mem e (drows m)) l end in
  let C := match col with None => dcols m | Some l => filter (fun e => mem e (dcols m)) l end in
  (row <> None -> R <> []) -> (col <> None -> C <> []) ->
  dbeh m = Normal /\ (row <> None \/ col <> None) \/ row <> None /\ col <> None ->
  (~ looks_symmetric (dval m) R C \/ R = C) ->
  exists m', d_submatrix m row col = Ok (Some m').
Proof.
  intros m row col G R C FR FC W H. apply d_submatrix_ok; auto.
  - destruct row; [apply FR; discriminate|exact I].
  - destruct col; [apply FC; discriminate|exact I].
Qed.
Print Assumptions C107_submatrix_partial.
Theorem C107_submatrix_fails : forall (m : dtm) (row col : option (list pystr)), dgood m ->
  let R := match row with None => drows m | Some l => filter (fun e => mem e (drows m)) l end in
  let C := match col with None => dcols m | Some l => filter (fun e => mem e (dcols m)) l end in
  (row <> None -> R <> []) -> (col <> None -> C <> []) ->
  (looks_symmetric (dval m) R C /\ R <> C) \/ (dbeh m = Square /\ (row = None \/ col = None)) ->
  d_submatrix m row col = Err ValueError.
Proof.
  intros m row col G R C FR FC H.
  assert (F1 : found (drows m) row) by (destruct row; [apply FR; discriminate|exact I]). assert (F2 : found (dcols m) col) by (destruct col; [apply FC; discriminate|exact I]).
  destruct H as [[L D]|[S N]]; [now apply d_submatrix_fail|now apply d_submatrix_square].
Qed.
Print Assumptions C107_submatrix_fails.
(** One cell can never be selected from a dense matrix of items against other items; from a square matrix rows alone cannot. *)
Theorem C107_submatrix_refuted :
  (forall m r c, dgood m -> In r (drows m) -> In c (dcols m) -> r <> c -> d_submatrix m (Some [r]) (Some [c]) = Err ValueError) /\
  exists m r, dgood m /\ In r (drows m) /\ d_submatrix m (Some [r]) None = Err ValueError.
Proof.
  split; [exact d_one_cell|]. exists ex_s, (u "a"). split; [exact ex_s_good|]. split; [now left|]. vm_compute. reflexivity.
Qed.
Print Assumptions C107_submatrix_refuted.
Example C107_ex : rmap (option_map show) (d_submatrix ex_n (Some [u "b"; u "?"]) (Some [u "y"; u "x"])) = Ok (Some ([[4; 3]]%Q, [u "b"], [u "y"; u "x"], Normal)).
Proof. vm_compute. reflexivity. Qed.
Example C107_ex_partial : ~ looks_symmetric (dval ex_n) [u "b"] [u "y"; u "x"].
Proof. intros [E _]. discriminate. Qed.
Example C107_ex_square : rmap (option_map show) (d_submatrix ex_s (Some [u "b"]) (Some [u "b"])) = Ok (Some ([[0]]%Q, [u "b"], [u "b"], Square)).
Proof. vm_compute. reflexivity. Qed.
(** A two by two selection of a table that happens to be symmetric *)
Definition ex_w : dtm := Dtm (array 2 3 [[1; 2; 7]; [2; 1; 8]]%Z) ab xyz Normal.
Example C107_ex_fails : dgood ex_w /\ looks_symmetric (dval ex_w) ab xy /\ d_submatrix ex_w None (Some xy) = Err ValueError.
Proof.
  split; [constructor; [vm_compute; reflexivity|exact ab_nodup|exact xyz_nodup]|]. split; [|vm_compute; reflexivity].
  split; [reflexivity|]. intros i j r c r' c' R1 C1 R2 C2. apply close_near.
  pose proof (nth_error_lt' _ _ _ R1) as L1. pose proof (nth_error_lt' _ _ _ R2) as L2. cbn in L1, L2.
  destruct i as [|[|i]]; [| |lia]; (destruct j as [|[|j]]; [| |lia]); cbn in R1, C1, R2, C2;
    injection R1 as <-; injection C1 as <-; injection R2 as <-; injection C2 as <-; vm_compute; reflexivity.
Qed.

(** ** C108: dense and sparse matrices are the same table *)
Theorem C108_todense : forall (s : ttm Qc) (d : dtm), tgood s -> todense s = Ok d -> same_table d s /\ dgood d.
Proof. exact todense_table. Qed.
Print Assumptions C108_todense.
Theorem C108_todense_partial : forall s : ttm Qc, tgood s ->
  ((exists d, todense s = Ok d) <-> ~ (looks_symmetric (val s) (trows s) (tcols s) /\ trows s <> tcols s)) /\
  ((exists d, todense s = Ok d) \/ todense s = Err ValueError).
Proof. exact todense_fails. Qed.
Print Assumptions C108_todense_partial.
Theorem C108_submatrix : forall (d : dtm) (s : ttm Qc) (row col : option (list pystr)), dgood d -> tgood s -> same_table d s ->
  (forall d', d_submatrix d row col = Ok (Some d') -> exists s', tt_submatrix s row col = Ok (Some s') /\ same_table d' s') /\
  (d_submatrix d row col = Ok None <-> tt_submatrix s row col = Ok None).
Proof. intros d s row col G T S. split; [intros d'; now apply agree_submatrix|now apply agree_none]. Qed.
Print Assumptions C108_submatrix.
Theorem C108_transpose : forall (d : dtm) (s : ttm Qc) (d' : dtm), dgood d -> tgood s -> same_table d s -> d_transpose d = Ok d' ->
  exists s', tt_transpose s = Ok s' /\ same_table d' s'.
Proof. exact agree_transpose. Qed.
Print Assumptions C108_transpose.
Theorem C108_reorder : forall (d : dtm) (s : ttm Qc) (items : list pystr) (axis1 : bool) (d' : dtm), dgood d -> tgood s -> same_table d s -> NoDup items ->
  d_reorder d items axis1 = Ok d' -> exists s', tt_reorder s items axis1 = Ok s' /\ same_table d' s'.
Proof. exact agree_reorder. Qed.
Print Assumptions C108_reorder.
(** When that succeeds.  No items at all: refused, unlike for a sparse matrix (C26_reorder). *)
Theorem C108_reorder_outcome : forall (d : dtm) (items : list pystr) (axis1 : bool), dgood d -> dbeh d = Normal -> let its := if axis1 then dcols d else drows d in
  let rows := if axis1 then drows d else items in let cols := if axis1 then items else dcols d in
  (~ incl items its -> d_reorder d items axis1 = Err KeyError) /\
  d_reorder d [] axis1 = Err IndexError /\
  (incl items its -> items <> [] -> ~ (looks_symmetric (dval d) rows cols /\ rows <> cols) -> exists d', d_reorder d items axis1 = Ok d') /\
  (incl items its -> items <> [] -> looks_symmetric (dval d) rows cols -> rows <> cols -> d_reorder d items axis1 = Err ValueError).
Proof. exact reorder_outcome. Qed.
Print Assumptions C108_reorder_outcome.
Theorem C108_sums : forall (d : dtm) (s : ttm Qc), dgood d -> tgood s -> same_table d s ->
  (forall axis1, d_sum d axis1 = tt_sum s axis1) /\ d_total d = tt_total s.
Proof. exact agree_sum. Qed.
Print Assumptions C108_sums.
Theorem C108_index : forall (d : dtm) (s : ttm Qc) (a b : ix), same_table d s -> d_index d a b = tt_index s a b.
Proof. exact agree_index. Qed.
Print Assumptions C108_index.
Theorem C108_equal : forall (d : dtm) (s : ttm Qc) (e : dtm) (t : ttm Qc), same_table d s -> same_table e t -> tt_equal s t = true -> d_equal d e = true.
Proof. exact agree_equal. Qed.
Print Assumptions C108_equal.
(** Multiplication agrees when the sparse matrix stores no zero; comparisons agree when zero does not satisfy them. *)
Theorem C108_multiply_partial : forall (d : dtm) (s : ttm Qc) (e : dtm) (t : ttm Qc) (d' : dtm), dgood d -> tgood s -> same_table d s ->
  dgood e -> tgood t -> same_table e t -> (forall x, In x (entries (tmx s)) -> snd x <> zero) ->
  d_multiply d e = Ok d' -> exists s', tt_multiply s t = Ok s' /\ same_table d' s'.
Proof.
  intros d s e t d' G T S Ge Tt Se NZ. apply agree_multiply; auto. apply Forall_forall. intros x I. destruct (isz (snd x)) eqn:Z; [|reflexivity].
  exfalso. apply (NZ x I). unfold isz, veqb in Z. apply andb_true_iff in Z as [Z1 Z2]. now apply vleb_antisym.
Qed.
Print Assumptions C108_multiply_partial.
Theorem C108_cmp_partial : forall (op : cmpop) (k : Qc) (d : dtm) (s : ttm Qc) (d' : dtm), dgood d -> tgood s -> same_table d s ->
  cmpb op zero k = false -> ~ ((op = CLe \/ op = CGe) /\ k = zero) ->
  d_cmp op d k = Ok d' -> exists s', tt_cmp op s k = Ok s' /\ same_table d' s'.
Proof. exact agree_cmp. Qed.
Print Assumptions C108_cmp_partial.
Theorem C108_concat : forall (d : dtm) (s : ttm Qc) (e : dtm) (t : ttm Qc) (d' : dtm), dgood d -> tgood s -> same_table d s ->
  dgood e -> tgood t -> same_table e t -> d_concat d e false = Ok d' -> exists s', tt_concat s t = Ok s' /\ same_table d' s'.
Proof. exact agree_concat. Qed.
Print Assumptions C108_concat.
(** Side by side (dense only): the columns of the first, then those of the second. *)
Theorem C108_concat_columns : forall m o m' : dtm, dgood m -> dgood o -> d_concat m o true = Ok m' ->
  drows m = drows o /\ drows m' = drows m /\ dcols m' = dcols m ++ dcols o /\
  forall i j r c, nth_error (drows m') i = Some r -> nth_error (dcols m') j = Some c ->
    cell (dmx m') i j = if j <? length (dcols m) then dval m r c else dval o r c.
Proof. exact concat_columns. Qed.
Print Assumptions C108_concat_columns.
(** A SquareMatrix does none of these. *)
Theorem C108_square_refuted : forall m, dbeh m = Square ->
  (forall o, d_multiply m o = Err NotImplementedError) /\ (forall op k, d_cmp op m k = Err NotImplementedError) /\ d_transpose m = Err NotImplementedError /\
  (forall o axis1, d_concat m o axis1 = Err NotImplementedError) /\ (forall items axis1 x, d_reorder m items axis1 <> Ok x).
Proof. exact square_refuses. Qed.
Print Assumptions C108_square_refuted.
(** The sparse form of [ex_n] *)
Definition sp_n : ttm Qc := Ttm (Sp Csr [[(0, q 1); (2, q 2)]; [(0, q 3); (1, q 4)]] 3) ab xyz.
Lemma sp_n_good : tgood sp_n.
Proof.
  constructor; [|reflexivity|reflexivity|exact ab_nodup|exact xyz_nodup]. unfold spwf. cbn.
  repeat (apply Forall_cons || apply Forall_nil); (split; [repeat constructor; cbn; intuition discriminate|repeat constructor]).
Qed.
(** [m < 5]: the zero cells belong to the dense mask but not to the sparse one.  [m.multiply(m)] with a stored zero keeps the values. *)
Theorem C108_refuted :
  (exists (s : ttm Qc) (d d' : dtm) (s' : ttm Qc), tgood s /\ todense s = Ok d /\ d_cmp CLt d (q 5) = Ok d' /\ tt_cmp CLt s (q 5) = Ok s' /\
     cell (dmx d') 0 1 = one /\ spget (tmx s') 0 1 = zero) /\
  (exists (s : ttm Qc) (d d' : dtm) (s' : ttm Qc), tgood s /\ todense s = Ok d /\ d_multiply d d = Ok d' /\ tt_multiply s s = Ok s' /\
     cell (dmx d') 0 0 = q 4 /\ spget (tmx s') 0 0 = q 2).
Proof.
  split.
  - exists sp_n. do 3 eexists. split; [exact sp_n_good|]. split; [vm_compute; reflexivity|]. split; [vm_compute; reflexivity|]. split; [vm_compute; reflexivity|].
    split; apply Qc_is_canon; vm_compute; reflexivity.
  - exists (Ttm (Sp Csr [[(0, q 2); (1, q 0)]] 2) [u "a"] xy). do 3 eexists. split.
    { constructor; [|reflexivity|reflexivity|repeat constructor; cbn; tauto|exact xy_nodup]. unfold spwf. cbn.
      repeat (apply Forall_cons || apply Forall_nil); (split; [repeat constructor; cbn; intuition discriminate|repeat constructor]). }
    split; [vm_compute; reflexivity|]. split; [vm_compute; reflexivity|]. split; [vm_compute; reflexivity|].
    split; apply Qc_is_canon; vm_compute; reflexivity.
Qed.
Print Assumptions C108_refuted.
Example C108_ex : rmap show (todense sp_n) = Ok ([[1; 0; 2]; [3; 4; 0]]%Q, ab, xyz, Normal) /\ same_table ex_n sp_n.
Proof.
  split; [vm_compute; reflexivity|]. repeat split. intros i j I J. cbn in I, J. apply Qc_is_canon.
  destruct i as [|[|i]]; [| |lia]; (destruct j as [|[|[|j]]]; [| | |lia]); vm_compute; reflexivity.
Qed.
Example C108_ex_transpose : rmap show (d_transpose ex_n) = Ok ([[1; 3]; [0; 4]; [2; 0]]%Q, xyz, ab, Normal).
Proof. vm_compute. reflexivity. Qed.
Example C108_ex_reorder_outcome : d_reorder ex_n [u "q"] false = Err KeyError /\ d_reorder ex_n [] true = Err IndexError /\
  incl [u "a"] ab /\ rmap show (d_reorder ex_n [u "a"] false) = Ok ([[1; 0; 2]]%Q, [u "a"], xyz, Normal) /\
  d_reorder (Dtm (Arr 2 2 (fun i j => q (Z.of_nat (if Nat.eqb i j then 1 else 0)))) ab [u "x"; u "y"] Normal) [u "b"; u "a"] false = Err ValueError.
Proof. split; [vm_compute; reflexivity|]. split; [vm_compute; reflexivity|]. split; [intros x [<-|[]]; now left|]. split; vm_compute; reflexivity. Qed.
Example C108_ex_reorder : NoDup [u "b"; u "a"] /\ rmap show (d_reorder ex_n [u "b"; u "a"] false) = Ok ([[3; 4; 0]; [1; 0; 2]]%Q, [u "b"; u "a"], xyz, Normal).
Proof. split; [repeat constructor; cbn; intuition discriminate|vm_compute; reflexivity]. Qed.
Example C108_ex_concat : rmap show (d_concat ex_n ex_n true) = Ok ([[1; 0; 2; 1; 0; 2]; [3; 4; 0; 3; 4; 0]]%Q, ab, xyz ++ xyz, Normal) /\
  rmap show (d_concat ex_n ex_n false) = Ok ([[1; 0; 2]; [3; 4; 0]; [1; 0; 2]; [3; 4; 0]]%Q, ab ++ ab, xyz, Normal).
Proof. split; vm_compute; reflexivity. Qed.
Example C108_ex_sum : rmap (map (fun kv => (fst kv, this (snd kv)))) (d_sum ex_n true) = Ok [(u "a", 3%Q); (u "b", 7%Q)].
Proof. vm_compute. reflexivity. Qed.
Example C108_ex_cmp : cmpb CGt zero (q 1) = false /\ rmap show (d_cmp CGt ex_n (q 1)) = Ok ([[0; 0; 1]; [1; 1; 0]]%Q, ab, xyz, Normal).
Proof. split; vm_compute; reflexivity. Qed.
Example C108_ex_multiply : (forall x, In x (entries (tmx sp_n)) -> snd x <> zero) /\ rmap show (d_multiply ex_n ex_n) = Ok ([[1; 0; 4]; [9; 16; 0]]%Q, ab, xyz, Normal).
Proof.
  split; [|vm_compute; reflexivity]. intros x I E. cbn in I. destruct I as [<-|[<-|[<-|[<-|[]]]]]; cbn in E; apply (f_equal this) in E; vm_compute in E; discriminate.
Qed.
(** A sparse matrix that looks symmetric over different items cannot be made dense. *)
Example C108_ex_todense : todense (Ttm (Sp Csr [[(0, q 1)]; [(1, q 1)]] 2) ab xy) = Err ValueError.
Proof. vm_compute. reflexivity. Qed.

(** ** C109: transpose *)
(** Transposing swaps rows and columns and can be undone; it works on every NormalMatrix. *)
Theorem C109_transpose_partial : forall m, dgood m -> dbeh m = Normal ->
  exists m', d_transpose m = Ok m' /\ dgood m' /\ drows m' = dcols m /\ dcols m' = drows m /\ (forall r c, dval m' c r = dval m r c) /\ dbeh m' = Normal /\
    exists m'', d_transpose m' = Ok m'' /\ drows m'' = drows m /\ dcols m'' = dcols m /\ forall r c, dval m'' r c = dval m r c.
Proof. exact d_transpose_ok. Qed.
Print Assumptions C109_transpose_partial.
(** A table that is not symmetric but looks so within the tolerance is refused. *)
Theorem C109_transpose_refuted : exists m, dgood m /\ dval m (u "a") (u "b") <> dval m (u "b") (u "a") /\ d_transpose m = Err NotImplementedError.
Proof.
  exists (Dtm (array 2 2 [[0; 100000]; [100001; 0]]%Z) ab ab Square). split; [constructor; [vm_compute; reflexivity|exact ab_nodup|exact ab_nodup]|].
  split; [|reflexivity]. intros E. apply (f_equal this) in E. vm_compute in E. discriminate.
Qed.
Print Assumptions C109_transpose_refuted.
Example C109_ex : dgood ex_n /\ dbeh ex_n = Normal. Proof. split; [exact ex_n_good|reflexivity]. Qed.

(** ** C110: equal *)
Theorem C110_equal_partial : forall m o, dgood m -> dgood o -> (forall r c, small_int (dval m r c)) -> (forall r c, small_int (dval o r c)) ->
  (d_equal m o = true <-> drows m = drows o /\ dcols m = dcols o /\ forall r c, dval m r c = dval o r c).
Proof. exact d_equal_ints. Qed.
Print Assumptions C110_equal_partial.
Theorem C110_equal_refl : forall m, dgood m -> d_equal m m = true.
Proof. exact d_equal_refl. Qed.
Print Assumptions C110_equal_refl.
(** In general [equal] is not even symmetric. *)
Theorem C110_equal_refuted : exists m o, dgood m /\ dgood o /\ d_equal m o = true /\ d_equal o m = false.
Proof.
  exists (Dtm (array 1 2 [[99999; 0]]%Z) [u "a"] xy Normal), (Dtm (array 1 2 [[100000; 0]]%Z) [u "a"] xy Normal).
  repeat split; try exact xy_nodup; try (repeat constructor; cbn; tauto); vm_compute; reflexivity.
Qed.
Print Assumptions C110_equal_refuted.
Example C110_ex : forall r c, small_int (dval ex_f r c).
Proof.
  intros r c. unfold dval. destruct (index_of r (drows ex_f)) as [i|] eqn:E1; [destruct (index_of c (dcols ex_f)) as [j|] eqn:E2|].
  - apply index_of_Some in E1 as [E1 _], E2 as [E2 _]. destruct i as [|[|i]]; [| |destruct i; discriminate]; (destruct j as [|[|j]]; [| |destruct j; discriminate]); cbn;
      [exists 1%Z|exists 2%Z|exists 3%Z|exists 4%Z]; (split; [reflexivity|lia]).
  - exists 0%Z. split; [apply Qc_is_canon; reflexivity|lia].
  - exists 0%Z. split; [apply Qc_is_canon; reflexivity|lia].
Qed.

(** ** C111: masks *)
(** Every cell of a mask says whether the cell satisfies the comparison, zeros included. *)
Theorem C111_mask_cells : forall (op : cmpop) (m : dtm) (k : Qc) (m' : dtm), dgood m -> d_cmp op m k = Ok m' ->
  drows m' = drows m /\ dcols m' = dcols m /\ dgood m' /\
  forall r c, In r (drows m) -> In c (dcols m) ->
    dval m' r c = if match op with CLt => vltb (dval m r c) k | CLe => vleb (dval m r c) k | CGt => vltb k (dval m r c) | CGe => vleb k (dval m r c) end then one else zero.
Proof. exact d_cmp_cells. Qed.
Print Assumptions C111_mask_cells.
Theorem C111_mask_partial : forall (op : cmpop) (m : dtm) (k : Qc), dgood m -> dbeh m = Normal ->
  ~ looks_symmetric (fun r c => if cmpb op (dval m r c) k then one else zero) (drows m) (dcols m) \/ drows m = dcols m ->
  exists m', d_cmp op m k = Ok m'.
Proof. exact d_cmp_ok. Qed.
Print Assumptions C111_mask_partial.
(** A mask that happens to be symmetric over different items is refused: here all cells are positive. *)
Theorem C111_mask_refuted : exists m, dgood m /\ dbeh m = Normal /\ d_cmp CGt m zero = Err ValueError.
Proof. exists ex_f. split; [exact ex_f_good|]. split; [reflexivity|]. vm_compute. reflexivity. Qed.
Print Assumptions C111_mask_refuted.
Example C111_ex : ~ looks_symmetric (fun r c => if cmpb CLe (dval ex_n r c) zero then one else zero) (drows ex_n) (dcols ex_n) /\
  rmap show (d_cmp CLe ex_n zero) = Ok ([[0; 1; 0]; [0; 0; 1]]%Q, ab, xyz, Normal).
Proof. split; [intros [E _]; discriminate|vm_compute; reflexivity]. Qed.

(** ** C112: sample *)
(** A sample has the wanted number of rows, in the order of the matrix and distinct unless drawn with replacement, and their cells. *)
Theorem C112_sample_partial : forall {V} {NV : Num V} (m : ttm V) (p : pct) (replace : bool) (k : nat) (r : res (option (ttm V))), tgood m ->
  wanted (length (trows m)) p = Some k -> tt_sample m p replace r ->
  exists m', r = Ok (Some m') /\ length (trows m') = k /\ incl (trows m') (trows m) /\ (replace = false -> subseq (trows m') (trows m)) /\ tcols m' = tcols m /\
    (forall i j x c, nth_error (trows m') i = Some x -> nth_error (tcols m') j = Some c -> spget (tmx m') i j = val m x c).
Proof. exact @sample_ok. Qed.
Print Assumptions C112_sample_partial.
Theorem C112_sample_distinct : forall {V} {NV : Num V} (m : ttm V) (p : pct) (k : nat) (r : res (option (ttm V))), tgood m ->
  wanted (length (trows m)) p = Some k -> tt_sample m p false r ->
  exists m', r = Ok (Some m') /\ tgood m' /\ forall x c, In x (trows m') -> val m' x c = val m x c.
Proof. exact @sample_distinct. Qed.
Print Assumptions C112_sample_distinct.
(** Any other argument is an error, and a float of 1 or more (such as 1.0 for all rows) a TypeError from numpy. *)
Theorem C112_sample_invalid : forall {V} {NV : Num V} (m : ttm V) (p : pct) (replace : bool) (r : res (option (ttm V))),
  wanted (length (trows m)) p = None -> tt_sample m p replace r ->
  r = Err (match p with
           | PFloat q => if Qle_bool 1 q && Qle_bool q (inject_Z (Z.of_nat (length (trows m)))) then TypeError else ValueError
           | PInt _ => ValueError
           end).
Proof. exact @sample_bad. Qed.
Print Assumptions C112_sample_invalid.
Theorem C112_sample_exists : forall {V} {NV : Num V} (m : ttm V) (p : pct) (replace : bool), exists r, tt_sample m p replace r.
Proof. exact @sample_exists. Qed.
Print Assumptions C112_sample_exists.
(** The whole matrix cannot be asked for as 1.0, and no sample of a SquareMatrix is ever returned. *)
Theorem C112_sample_refuted :
  (exists m : ttm Qc, tgood m /\ forall r, tt_sample m (PFloat 1) false r -> r = Err TypeError) /\
  (exists m, dgood m /\ forall p replace r, d_sample m p replace r -> forall x, r <> Ok (Some x)).
Proof.
  split.
  - exists sp_n. split; [exact sp_n_good|]. intros r H. now apply sample_bad in H.
  - exists ex_s. split; [exact ex_s_good|]. intros p replace r H x E. eapply sample_square; eauto using ex_s_good.
Qed.
Print Assumptions C112_sample_refuted.
Example C112_ex : wanted 2 (PFloat (1#10)) = Some 1 /\ wanted 2 (PInt 2) = Some 2 /\ wanted 7 (PFloat (1#2)) = Some 3 /\ wanted 2 (PFloat 1) = None /\
  tt_sample sp_n (PInt 1) false (tt_submatrix sp_n (Some [u "b"]) None).
Proof.
  repeat (split; [vm_compute; reflexivity|]). refine (tts sp_n (PInt 1) false (Ok [u "b"]) _).
  refine (sm_ok _ _ _ (PInt 1) [1] _ _); [reflexivity|]. apply ch_draw; [reflexivity|repeat constructor|intros _; repeat constructor; tauto].
Qed.

(** ** C113: contexts of an item *)
Theorem C113_contexts_stored : forall {V} {NV : Num V} (m : ttm V) (item : pystr), tgood m -> In item (trows m) ->
  exists l, tt_contexts m item = Ok l /\ NoDup l /\
    forall c, In c l <-> exists i j, nth_error (trows m) i = Some item /\ nth_error (tcols m) j = Some c /\ stored (tmx m) i j.
Proof. exact @contexts_ok. Qed.
Print Assumptions C113_contexts_stored.
Theorem C113_contexts_partial : forall {V} {NV : Num V} (m : ttm V) (item : pystr) (l : list pystr) (c : pystr), tgood m ->
  (forall x, In x (entries (tmx m)) -> snd x <> zero) -> tt_contexts m item = Ok l -> (In c l <-> val m item c <> zero).
Proof.
  intros V NV m item l c G NZ. apply contexts_nonzero; auto. apply Forall_forall. intros x I. destruct (isz (snd x)) eqn:Z; [|reflexivity].
  exfalso. apply (NZ x I). unfold isz, veqb in Z. apply andb_true_iff in Z as [Z1 Z2]. now apply vleb_antisym.
Qed.
Print Assumptions C113_contexts_partial.
Theorem C113_contexts_unknown : forall {V} {NV : Num V} (m : ttm V) (item : pystr), ~ In item (trows m) -> tt_contexts m item = Err KeyError.
Proof. exact @contexts_unknown. Qed.
Print Assumptions C113_contexts_unknown.
(** A stored zero counts as a context. *)
Theorem C113_contexts_refuted : exists (m : ttm Z) item c l, tgood m /\ tt_contexts m item = Ok l /\ In c l /\ val m item c = 0%Z.
Proof.
  exists (Ttm (Sp Csc [[(0, 0%Z)]; [(0, 7%Z)]] 1) [u "a"] xy), (u "a"), (u "x"), xy. split.
  { constructor; [|reflexivity|reflexivity|repeat constructor; cbn; tauto|exact xy_nodup]. unfold spwf. cbn.
    repeat (apply Forall_cons || apply Forall_nil); (split; [repeat constructor; cbn; intuition discriminate|repeat constructor]). }
  split; [vm_compute; reflexivity|]. split; [now left|vm_compute; reflexivity].
Qed.
Print Assumptions C113_contexts_refuted.
Example C113_ex : tt_contexts sp_n (u "b") = Ok [u "x"; u "y"] /\ tt_contexts sp_n (u "c") = Err KeyError.
Proof. split; vm_compute; reflexivity. Qed.

(** ** C114: indexing *)
(** m[a, b] gives a cell exactly when both keys denote a position, and then that cell. *)
Theorem C114_index : forall {V} {NV : Num V} (m : ttm V) (a b : ix) (v : V), tgood m ->
  (tt_index m a b = Ok v <-> exists i j, denotes (trows m) (nrows (tmx m)) a i /\ denotes (tcols m) (ncols (tmx m)) b j /\ v = spget (tmx m) i j).
Proof. exact @index_ok. Qed.
Print Assumptions C114_index.
Theorem C114_index_names : forall {V} {NV : Num V} (m : ttm V) (r c : pystr), tgood m -> In r (trows m) -> In c (tcols m) ->
  tt_index m (IName r) (IName c) = Ok (val m r c).
Proof. exact @index_names. Qed.
Print Assumptions C114_index_names.
Theorem C114_index_unknown : forall {V} {NV : Num V} (m : ttm V) (r : pystr) (b : ix), tgood m -> ~ In r (trows m) -> tt_index m (IName r) b = Err KeyError.
Proof. exact @index_unknown. Qed.
Print Assumptions C114_index_unknown.
(** Keys that are known names or ints, one of which is out of range, are an IndexError; other keys are a ValueError. *)
Theorem C114_index_range : forall {V} {NV : Num V} (m : ttm V) (a b : ix), tgood m ->
  (a <> IOther /\ forall r, a = IName r -> In r (trows m)) -> (b <> IOther /\ forall c, b = IName c -> In c (tcols m)) ->
  (forall i, ~ denotes (trows m) (nrows (tmx m)) a i) \/ (forall j, ~ denotes (tcols m) (ncols (tmx m)) b j) -> tt_index m a b = Err IndexError.
Proof. exact @index_range. Qed.
Print Assumptions C114_index_range.
Theorem C114_index_other : forall {V} {NV : Num V} (m : ttm V) (a b : ix), tgood m ->
  a = IOther \/ (forall r, a = IName r -> In r (trows m)) /\ b = IOther -> tt_index m a b = Err ValueError.
Proof. exact @index_other. Qed.
Print Assumptions C114_index_other.
Example C114_ex_range : tt_index sp_n (IInt (-3)) (IName (u "x")) = Err IndexError /\ tt_index sp_n (IName (u "a")) (IInt 3) = Err IndexError /\
  (forall i, ~ denotes ab 2 (IInt (-3)) i) /\ tt_index sp_n (IName (u "a")) IOther = Err ValueError.
Proof. split; [vm_compute; reflexivity|]. split; [vm_compute; reflexivity|]. split; [intros i (H & [E|E]); lia|vm_compute; reflexivity]. Qed.
Example C114_ex : rmap this (tt_index sp_n (IName (u "b")) (IInt (-2))) = Ok 4%Q /\ tt_index sp_n (IInt 2) (IInt 0) = Err IndexError /\
  tt_index sp_n IOther (IInt 0) = Err ValueError /\ denotes ab 2 (IName (u "b")) 1 /\ denotes xyz 3 (IInt (-2)) 1.
Proof.
  split; [vm_compute; reflexivity|]. split; [vm_compute; reflexivity|]. split; [vm_compute; reflexivity|]. split; [split; [lia|reflexivity]|split; [lia|right; reflexivity]].
Qed.

(** ** Computed cases *)
Definition ex_2 : dtm := Dtm (array 2 3 [[2; 3; 5]; [7; 11; 13]]%Z) ab xyz Normal.
Definition ex_4 : dtm := Dtm (array 2 3 [[2; 3; 5]; [7; 11; 13]]%Z) [u "b"; u "a"] xyz Normal.
Example C106_values :
  rmap show (mk_dense (array 2 2 [[1; 2]; [3; 4]]%Z) ab ab) = Ok ([[1; 2]; [3; 4]]%Q, ab, ab, Normal) /\
  rmap show (mk_dense (array 2 2 [[1; 2]; [2; 1]]%Z) ab ab) = Ok ([[1; 2]; [2; 1]]%Q, ab, ab, Square) /\
  mk_dense (array 2 3 []) xyz xyz = Err ValueError /\ mk_dense (array 2 3 []) ab ab = Err ValueError.
Proof. repeat split; vm_compute; reflexivity. Qed.
Example C107_values :
  rmap (option_map show) (d_submatrix ex_n (Some [u "b"]) None) = Ok (Some ([[3; 4; 0]]%Q, [u "b"], xyz, Normal)) /\
  rmap (option_map show) (d_submatrix ex_n None (Some [u "z"])) = Ok (Some ([[2]; [0]]%Q, ab, [u "z"], Normal)) /\
  d_submatrix ex_s None (Some [u "a"; u "b"]) = Err ValueError /\ d_submatrix ex_s (Some [u "a"]) None = Err ValueError /\
  d_submatrix ex_s None None = Err ValueError /\ d_submatrix ex_s (Some [u "?"]) None = Ok None.
Proof. repeat split; vm_compute; reflexivity. Qed.
Example C108_values :
  rmap show (d_multiply ex_n ex_2) = Ok ([[2; 0; 10]; [21; 44; 0]]%Q, ab, xyz, Normal) /\ d_multiply ex_s ex_s = Err NotImplementedError /\
  rmap show (d_reorder ex_n [u "z"; u "x"; u "y"] true) = Ok ([[2; 1; 0]; [0; 3; 4]]%Q, ab, [u "z"; u "x"; u "y"], Normal) /\
  d_reorder ex_s ab false = Err NotImplementedError /\ d_reorder ex_s [u "?"] false = Err KeyError /\ d_transpose ex_s = Err NotImplementedError /\
  rmap (map (fun kv => (fst kv, this (snd kv)))) (d_sum ex_n false) = Ok [(u "x", 4%Q); (u "y", 4%Q); (u "z", 2%Q)] /\ this (d_total ex_n) = 10%Q /\
  rmap show (d_concat ex_n ex_2 true) = Ok ([[1; 0; 2; 2; 3; 5]; [3; 4; 0; 7; 11; 13]]%Q, ab, xyz ++ xyz, Normal) /\
  rmap show (d_concat ex_n ex_4 false) = Ok ([[1; 0; 2]; [3; 4; 0]; [2; 3; 5]; [7; 11; 13]]%Q, ab ++ [u "b"; u "a"], xyz, Normal) /\
  d_concat ex_n ex_4 true = Err AssertionError /\ d_concat ex_n ex_f false = Err ValueError /\ d_concat ex_s ex_s true = Err NotImplementedError.
Proof. repeat split; vm_compute; reflexivity. Qed.
(** The last pair has the items of one shape and the cells of another, which the constructor does not make. *)
Example C110_values :
  d_equal ex_n ex_n = true /\ d_equal ex_n ex_2 = false /\ d_equal ex_2 ex_4 = false /\ d_equal ex_n ex_f = false /\
  d_equal ex_f (Dtm (dmx ex_f) ab ab Normal) = false /\ d_equal ex_n (Dtm (array 3 3 [[1; 0; 2]; [3; 4; 0]]%Z) ab xyz Normal) = false.
Proof. repeat split; vm_compute; reflexivity. Qed.
Example C111_values : d_cmp CLe ex_s zero = Err NotImplementedError /\ rmap show (d_cmp CGe ex_n (q 2)) = Ok ([[0; 0; 1]; [1; 1; 0]]%Q, ab, xyz, Normal) /\
  rmap show (d_cmp CLt ex_n (q 2)) = Ok ([[1; 1; 0]; [0; 0; 1]]%Q, ab, xyz, Normal).
Proof. repeat split; vm_compute; reflexivity. Qed.
Example C112_values :
  sample_size 7 (PFloat (1 # 2)) = Ok (PInt 3) /\ sample_size 2 (PFloat (1 # 10)) = Ok (PInt 1) /\ sample_size 2 (PInt 3) = Err ValueError /\
  sample_size 2 (PFloat 1) = Ok (PFloat 1) /\ sample_size 2 (PInt 2) = Ok (PInt 2) /\ sample_size 2 (PInt 0) = Err ValueError /\ sample_size 2 (PFloat (-1 # 2)) = Err ValueError.
Proof. repeat split; vm_compute; reflexivity. Qed.
Example C112_values_draw :
  (forall r, sampled ab (PInt 2) false (Ok r) -> r = ab) /\ sampled ab (PInt 2) true (Ok [u "a"; u "a"]) /\ (forall r, sampled ab (PFloat 1) true r -> r = Err TypeError).
Proof.
  split; [|split].
  - intros r H. inversion H as [| |k draw E C E']. cbn in E. injection E as <-. inversion C as [| | |z d L F Nd]. subst.
    destruct draw as [|i [|j [|? ?]]]; [discriminate|discriminate| |cbn [length] in L; lia]. specialize (Nd eq_refl). inversion F as [|? ? I F']. inversion F' as [|? ? J ?]. cbn in I, J. subst.
    assert (i <> j) by (intros ->; inversion Nd; cbn in *; tauto).
    assert (C1 : i = 0 /\ j = 1 \/ i = 1 /\ j = 0) by lia. destruct C1 as [[-> ->]|[-> ->]]; vm_compute in E'; injection E' as <-; reflexivity.
  - refine (sm_ok ab (PInt 2) true (PInt 2) [0; 0] eq_refl _). apply ch_draw; [reflexivity|repeat constructor|discriminate].
  - intros r H. inversion H as [e E|k e E C|k draw E C]; vm_compute in E; try discriminate; injection E as <-; inversion C; reflexivity.
Qed.
Example C114_values : rmap this (d_index ex_n (IName (u "b")) (IName (u "y"))) = Ok 4%Q /\ rmap this (tt_index sp_n (IName (u "a")) (IName (u "z"))) = Ok 2%Q /\
  d_index ex_n (IName (u "x")) (IInt 0) = Err KeyError /\ d_index ex_n (IInt (-3)) (IInt 0) = Err IndexError.
Proof. repeat split; vm_compute; reflexivity. Qed.
