(** * C175: multiplying matrices of different shapes. *)
From Coq Require Import String NArith ZArith Bool Arith QArith Qcanon Lia Permutation List.
From Verif Require Import Base BaseLemmas MxModel MxTypedModel MxSpec MxProofs MxElemProofs DenseModel DenseSpec DenseProofs DenseAgreeProofs MulSpec MulProofs.
Import ListNotations.
Local Open Scope nat_scope.

(** Without stored zeros: a matrix with one row (or one column) is used for every row (column) of m, whatever its item is;
    other differences of shape raise a ValueError, also when the other matrix is the larger one. *)
Theorem C175_multiply_outcome : forall {V} {NV : Num V} (m o : ttm V), tgood m -> tgood o -> no_zeros (tmx m) ->
  (covers m o -> exists x, tt_multiply m o = Ok x /\ tgood x /\ trows x = trows m /\ tcols x = tcols m /\
     forall i j r c r' c', nth_error (trows m) i = Some r -> nth_error (tcols m) j = Some c -> partner (trows o) i r' -> partner (tcols o) j c' ->
       val x r c = mul (val m r c) (val o r' c')) /\
  (~ covers m o -> tt_multiply m o = Err ValueError).
Proof. exact @multiply_outcome. Qed.
Print Assumptions C175_multiply_outcome.
(** With a stored zero the shape of the other matrix is not looked at; the stored zeros at its positions are kept. *)
Theorem C175_stored_zero_any_shape : forall {V} {NV : Num V} (m o : ttm V), tgood m -> tgood o -> ~ no_zeros (tmx m) ->
  exists x, tt_multiply m o = Ok x /\ tgood x /\ trows x = trows m /\ tcols x = tcols m /\
    forall i j r c, nth_error (trows m) i = Some r -> nth_error (tcols m) j = Some c ->
      val x r c = (if stored_dec (tmx o) i j then val m r c else zero) /\ (stored (tmx x) i j <-> stored (tmx m) i j /\ stored (tmx o) i j).
Proof. exact @multiply_stored_zero. Qed.
Print Assumptions C175_stored_zero_any_shape.

Definition mul_m : ttm Z := Ttm (Sp Csr [[(0, 1%Z); (2, 2%Z)]; [(1, 3%Z)]] 3) [u "a"; u "b"] [u "x"; u "y"; u "z"].
Definition mul_row : ttm Z := Ttm (Sp Csr [[(0, 5%Z); (1, 7%Z)]] 3) [u "q"] [u "z"; u "y"; u "p"].
Definition mul_col : ttm Z := Ttm (Sp Csr [[(0, 5%Z)]; []] 1) [u "q"; u "r"] [u "w"].
Definition mul_wide : ttm Z := Ttm (Sp Csr [[(3, 5%Z)]; [(1, 4%Z)]] 4) [u "a"; u "b"] [u "x"; u "y"; u "z"; u "w"].
Definition mul_z : ttm Z := Ttm (Sp Csr [[(0, 0%Z); (2, 2%Z)]; [(1, 3%Z)]] 3) [u "a"; u "b"] [u "x"; u "y"; u "z"].
Ltac mgood := constructor; [vm_compute; repeat constructor; simpl; intuition discriminate|reflexivity|reflexivity|repeat constructor; simpl; intuition discriminate|repeat constructor; simpl; intuition discriminate].
Example C175_ex : tgood mul_m /\ tgood mul_row /\ tgood mul_col /\ tgood mul_wide /\ no_zeros (tmx mul_m) /\ covers mul_m mul_row /\ covers mul_m mul_col /\
  ~ covers mul_m mul_wide /\ ~ no_zeros (tmx mul_z) /\
  rmap (fun m => entries (tmx m)) (tt_multiply mul_m mul_row) = Ok [(0, 0, 5%Z); (1, 1, 21%Z)] /\
  rmap (fun m => entries (tmx m)) (tt_multiply mul_m mul_col) = Ok [(0, 0, 5%Z); (0, 2, 10%Z)] /\
  tt_multiply mul_m mul_wide = Err ValueError /\ tt_multiply mul_row mul_m = Err ValueError /\
  rmap (fun m => entries (tmx m)) (tt_multiply mul_z mul_wide) = Ok [(1, 1, 3%Z)].
Proof.
  split; [mgood|]. split; [mgood|]. split; [mgood|]. split; [mgood|]. split; [repeat constructor|].
  split; [split; cbn; auto|]. split; [split; cbn; auto|]. split; [intros [_ [E|E]]; discriminate|].
  split; [intros F; inversion F as [|? ? E _]; discriminate|]. repeat split; vm_compute; reflexivity.
Qed.
(** Full statement: matrices with different items are not multiplied. *)
Definition multiply_rejects_other_items : Prop := forall (m o : ttm Z), tgood m -> tgood o ->
  length (trows m) <> length (trows o) \/ length (tcols m) <> length (tcols o) -> exists e, tt_multiply m o = Err e.
(** The single row q multiplies the rows a and b, column by position. *)
Theorem C175_other_items_refuted : ~ multiply_rejects_other_items.
Proof.
  intros H. destruct (H mul_m mul_row) as (e & E); [mgood|mgood|left; discriminate|]. vm_compute in E. discriminate.
Qed.
Print Assumptions C175_other_items_refuted.
(** Full statement with stored zeros and matrices of incompatible shapes *)
Definition multiply_rejects_other_shapes : Prop := forall (m o : ttm Z), tgood m -> tgood o -> ~ covers m o -> exists e, tt_multiply m o = Err e.
Theorem C175_other_shapes_refuted : ~ multiply_rejects_other_shapes.
Proof.
  intros H. destruct (H mul_z mul_wide) as (e & E); [mgood|mgood|intros [_ [E|E]]; discriminate|]. vm_compute in E. discriminate.
Qed.
Print Assumptions C175_other_shapes_refuted.
(** Dense matrices (a NormalMatrix): the same, and only the same; a product that looks symmetric may still be refused by the
    constructor, which cannot happen when the numbers of rows and columns differ. *)
Theorem C175_dense_outcome : forall (m o : dtm), dgood m -> dgood o -> dbeh m = Normal ->
  (dcovers m o -> length (drows m) <> length (dcols m) -> exists x, d_multiply m o = Ok x) /\
  (forall x, d_multiply m o = Ok x -> dcovers m o /\ drows x = drows m /\ dcols x = dcols m /\
     forall i j r c r' c', nth_error (drows m) i = Some r -> nth_error (dcols m) j = Some c -> partner (drows o) i r' -> partner (dcols o) j c' ->
       dval x r c = (dval m r c * dval o r' c')%Qc) /\
  (~ dcovers m o -> d_multiply m o = Err ValueError).
Proof. exact d_multiply_outcome. Qed.
Print Assumptions C175_dense_outcome.
Definition dq (l : list (list Z)) (r c : nat) : arr := Arr r c (fun i j => Q2Qc (inject_Z (nth j (nth i l []) 0%Z))).
Definition dshow (m : dtm) : list (list Q) := map (fun i => map (fun j => this (cell (dmx m) i j)) (seq 0 (ac (dmx m)))) (seq 0 (ar (dmx m))).
Example C175_dense_ex :
  let m := Dtm (dq [[1; 0; 2]; [0; 3; 4]]%Z 2 3) [u "a"; u "b"] [u "x"; u "y"; u "z"] Normal in
  let row := Dtm (dq [[5; 7; 1]]%Z 1 3) [u "q"] [u "z"; u "y"; u "p"] Normal in
  let col := Dtm (dq [[5]; [2]]%Z 2 1) [u "q"; u "r"] [u "w"] Normal in
  dgood m /\ dgood row /\ dgood col /\ dcovers m row /\ dcovers m col /\ ~ dcovers row m /\
  rmap dshow (d_multiply m row) = Ok [[5; 0; 2]; [0; 21; 4]]%Q /\ rmap dshow (d_multiply m col) = Ok [[5; 0; 10]; [0; 6; 8]]%Q /\
  d_multiply row m = Err ValueError.
Proof.
  intros m row col. assert (G : forall x, mk_dense (dmx x) (drows x) (dcols x) = Ok x -> dedup (drows x) = drows x -> dedup (dcols x) = dcols x -> dgood x).
  { intros x E R C. constructor; auto; [rewrite <- R|rewrite <- C]; apply dedup_NoDup. }
  split; [apply G; vm_compute; reflexivity|]. split; [apply G; vm_compute; reflexivity|]. split; [apply G; vm_compute; reflexivity|].
  split; [split; cbn; auto|]. split; [split; cbn; auto|]. split; [intros [[E|E] _]; discriminate|]. repeat split; vm_compute; reflexivity.
Qed.
