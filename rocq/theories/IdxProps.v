(** * Claims about square brackets on matrices: C166. *)
From Coq Require Import String NArith ZArith Bool Arith Sorted Lia QArith Qcanon List.
From Verif Require Import Base BaseLemmas VocabModel MxModel MxSpec MxTypedModel DenseModel IdxModel IdxSpec IdxProofs.
Import ListNotations.
Local Open Scope nat_scope.

(** ** C166 *)
(** m[a, b] on a sparse matrix: a number for two single keys, otherwise the cells of the selected rows and columns; one
    selected row gives an array with one dimension, any other number of rows an array with two. *)
Theorem C166_sparse : forall {V} {NV : Num V} (m : ttm V) a b rs cs, tgood m -> selects (trows m) a rs -> selects (tcols m) b cs ->
  exists g, tt_getitem m (GPair a b) = Ok g /\ flat g = concat (block (spget (tmx m)) rs cs) /\
    shape g = if single a && single b then [] else if length rs =? 1 then [length cs] else [length rs; length cs].
Proof.
  intros V NV m a b rs cs [Wf Er Ec Nr Nc] Ha Hb. unfold tt_getitem. rewrite Er, Ec. eexists. split; [apply pair_ok; eassumption|].
  assert (H1 : fst (negb (single a), rs) = false -> exists i, snd (negb (single a), rs) = [i]) by (intros; eapply single_one; eauto).
  assert (H2 : fst (negb (single b), cs) = false -> exists i, snd (negb (single b), cs) = [i]) by (intros; eapply single_one; eauto).
  split; [rewrite flat_sparse by assumption; reflexivity|]. rewrite dims_sparse by assumption. cbn [fst snd]. now rewrite !negb_involutive.
Qed.
Print Assumptions C166_sparse.
(** On a dense matrix a single key takes its dimension away, as in numpy. *)
Theorem C166_dense : forall (m : dtm) a b rs cs, ar (dmx m) = length (drows m) -> ac (dmx m) = length (dcols m) -> NoDup (drows m) -> NoDup (dcols m) ->
  selects (drows m) a rs -> selects (dcols m) b cs ->
  exists g, d_getitem m (GPair a b) = Ok g /\ flat g = concat (block (cell (dmx m)) rs cs) /\
    shape g = (if single a then [] else [length rs]) ++ (if single b then [] else [length cs]).
Proof.
  intros m a b rs cs Er Ec Nr Nc Ha Hb. unfold d_getitem. rewrite Er, Ec. eexists. split; [apply pair_ok; eassumption|].
  assert (H1 : fst (negb (single a), rs) = false -> exists i, snd (negb (single a), rs) = [i]) by (intros; eapply single_one; eauto).
  assert (H2 : fst (negb (single b), cs) = false -> exists i, snd (negb (single b), cs) = [i]) by (intros; eapply single_one; eauto).
  split; [rewrite flat_dense by assumption; reflexivity|]. rewrite dims_dense by assumption. cbn [fst snd]. destruct (single a), (single b); reflexivity.
Qed.
Print Assumptions C166_dense.
(** m[a] selects rows: all of their cells. *)
Theorem C166_rows : forall {V} {NV : Num V} (m : ttm V) a rs, tgood m -> selects (trows m) a rs ->
  exists g, tt_getitem m (GOne a) = Ok g /\ flat g = concat (block (spget (tmx m)) rs (seq 0 (length (tcols m)))) /\
    shape g = if length rs =? 1 then [length (tcols m)] else [length rs; length (tcols m)].
Proof.
  intros V NV m a rs [Wf Er Ec Nr Nc] Ha. unfold tt_getitem. rewrite Er, Ec. eexists. split; [apply one_ok; eassumption|].
  assert (H1 : fst (negb (single a), rs) = false -> exists i, snd (negb (single a), rs) = [i]) by (intros; eapply single_one; eauto).
  split; [rewrite flat_sparse by (assumption || discriminate); reflexivity|]. rewrite dims_sparse by (assumption || discriminate). cbn [fst snd negb].
  rewrite andb_false_r, seq_length. reflexivity.
Qed.
Print Assumptions C166_rows.
(** A sparse matrix and todense() of it: the same cells in the same order, or the same exception, for every argument. *)
Theorem C166_todense : forall (m : ttm Qc) d a, todense m = Ok d -> rmap flat (tt_getitem m a) = rmap flat (d_getitem d a).
Proof.
  intros m d a E. unfold todense, mk_dense in E. cbn [ar ac] in E. unfold tt_getitem, d_getitem.
  destruct (negb _); [discriminate|]. destruct (negb _); [discriminate|].
  destruct (check_symmetric _); [destruct (negb _); [discriminate|]|]; injection E as <-; cbn [drows dcols dmx ar ac cell]; apply same_flat.
Qed.
Print Assumptions C166_todense.
(** A slice always selects something, possibly nothing; unknown items, ints out of range and other keys raise. *)
Theorem C166_slices : forall items x y, exists ks, selects items (SSlice x y) ks.
Proof. exact slice_exists. Qed.
Print Assumptions C166_slices.
Theorem C166_errors : forall {V} {NV : Num V} (m : ttm V) a b, tgood m ->
  (forall s, ~ In s (trows m) -> tt_getitem m (GPair (SItem s) b) = Err KeyError /\ tt_getitem m (GOne (SItem s)) = Err KeyError) /\
  (forall z, ~ (- Z.of_nat (length (trows m)) <= z < Z.of_nat (length (trows m)))%Z -> tt_getitem m (GOne (SInt z)) = Err IndexError) /\
  (forall z cs, ~ (- Z.of_nat (length (trows m)) <= z < Z.of_nat (length (trows m)))%Z -> selects (tcols m) b cs -> tt_getitem m (GPair (SInt z) b) = Err IndexError) /\
  (forall s rs, ~ In s (tcols m) -> selects (trows m) a rs -> tt_getitem m (GPair a (SItem s)) = Err KeyError) /\
  (forall z rs, ~ (- Z.of_nat (length (tcols m)) <= z < Z.of_nat (length (tcols m)))%Z -> selects (trows m) a rs -> tt_getitem m (GPair a (SInt z)) = Err IndexError) /\
  tt_getitem m (GPair SOther b) = Err ValueError /\ tt_getitem m (GOne SOther) = Err ValueError /\
  (forall rs, selects (trows m) a rs -> tt_getitem m (GPair a SOther) = Err ValueError) /\
  tt_getitem m GTuple = Err ValueError /\ tt_getitem m GList = Err NotImplementedError.
Proof.
  intros V NV m a b [Wf Er Ec Nr Nc]. unfold tt_getitem. rewrite Er, Ec.
  destruct (gv_errors (trows m) (tcols m) (spget (tmx m)) Nr Nc shape_sparse a b) as (H1 & H2 & H3 & H4 & H5 & H6 & H7 & H8).
  repeat (split; [assumption|]). split; reflexivity.
Qed.
Print Assumptions C166_errors.

Definition ex_ix : ttm Z := Ttm (Sp Csr [[(0, 1%Z); (2, 2%Z)]; [(1, 3%Z)]; []] 3) (map u ["a"; "b"; "c"]%string) (map u ["x"; "y"; "z"]%string).
Lemma ex_ix_good : tgood ex_ix.
Proof. constructor; try reflexivity; repeat constructor; cbn; intuition (discriminate || lia). Qed.
Example C166_ex : tgood ex_ix /\ selects (trows ex_ix) (SSlice (Some (-2)%Z) None) [1; 2] /\ selects (tcols ex_ix) (SItem (u "y"%string)) [1] /\
  tt_getitem ex_ix (GPair (SSlice (Some (-2)%Z) None) (SItem (u "y"%string))) = Ok (GArr [[3%Z]; [0%Z]] 1) /\
  tt_getitem ex_ix (GPair (SInt (-3)) (SItem (u "z"%string))) = Ok (GScalar 2%Z) /\
  tt_getitem ex_ix (GOne (SItem (u "a"%string))) = Ok (GVec [1; 0; 2]%Z).
Proof.
  split; [exact ex_ix_good|]. split.
  - constructor; [repeat constructor; lia|]. intros k. cbn. split; [intros [<-|[<-|[]]]; lia|]. intros H. assert (k = 1 \/ k = 2) as [-> | ->] by lia; auto.
  - split; [now constructor|]. repeat split; vm_compute; reflexivity.
Qed.
(** A dense matrix with the same items. *)
Definition ex_dix : dtm := Dtm (Arr 2 2 (fun i j => Q2Qc (inject_Z (Z.of_nat (2 * i + j))))) (map u ["a"; "b"]%string) (map u ["x"; "y"]%string) Normal.
Example C166_ex_dense : ar (dmx ex_dix) = length (drows ex_dix) /\ ac (dmx ex_dix) = length (dcols ex_dix) /\ NoDup (drows ex_dix) /\ NoDup (dcols ex_dix) /\
  selects (drows ex_dix) (SSlice None None) [0; 1] /\ selects (dcols ex_dix) (SInt (-1)) [1] /\
  exists g, d_getitem ex_dix (GPair (SSlice None None) (SInt (-1))) = Ok g /\ shape g = [2].
Proof.
  split; [reflexivity|]. split; [reflexivity|]. split; [repeat constructor; cbn; intuition discriminate|]. split; [repeat constructor; cbn; intuition discriminate|]. split.
  - constructor; [repeat constructor; lia|]. intros k. cbn. split; [intros [<-|[<-|[]]]; lia|]. intros H. assert (k = 0 \/ k = 1) as [-> | ->] by lia; auto.
  - split; [now constructor; cbn; lia|]. eexists. split; vm_compute; reflexivity.
Qed.
(** The number of dimensions depends on the keys only.  In a sparse matrix it depends on the number of rows: m[:, 'x'] has two
    dimensions, but one if the matrix has one row. *)
Theorem C166_dimensions_refuted : exists (m m' : ttm Z) g g', tgood m /\ tgood m' /\
  tt_getitem m (GPair (SSlice None None) (SItem (u "x"%string))) = Ok g /\ tt_getitem m' (GPair (SSlice None None) (SItem (u "x"%string))) = Ok g' /\
  length (shape g) <> length (shape g').
Proof.
  exists ex_ix, (Ttm (Sp Csr [[(0, 1%Z)]] 3) [u "a"%string] (map u ["x"; "y"; "z"]%string)). eexists. eexists. split; [exact ex_ix_good|].
  split; [constructor; try reflexivity; repeat constructor; cbn; intuition (discriminate || lia)|].
  split; [vm_compute; reflexivity|]. split; [vm_compute; reflexivity|]. discriminate.
Qed.
Print Assumptions C166_dimensions_refuted.
(** todense() changes nothing about indexing.  It changes the shape: m[:, 'x'] is a column before and a row after. *)
Theorem C166_todense_refuted : exists (m : ttm Qc) d g g', todense m = Ok d /\
  tt_getitem m (GPair (SSlice None None) (SItem (u "x"%string))) = Ok g /\ d_getitem d (GPair (SSlice None None) (SItem (u "x"%string))) = Ok g' /\ shape g <> shape g'.
Proof.
  exists (Ttm (Sp Csr [[(0, Q2Qc 1)]; [(1, Q2Qc 2); (0, Q2Qc 3)]] 2) (map u ["a"; "b"]%string) (map u ["x"; "y"]%string)).
  eexists. eexists. eexists. split; [vm_compute; reflexivity|]. split; [vm_compute; reflexivity|]. split; [vm_compute; reflexivity|]. discriminate.
Qed.
Print Assumptions C166_todense_refuted.

(** ** Computed cases *)
Definition wide_ix : ttm Z := Ttm (Sp Csr [[(0, 1%Z); (2, 2%Z)]; [(1, 3%Z)]] 3) (map u ["a"; "b"]%string) (map u ["x"; "y"; "z"]%string).
Example C166_values :
  tt_getitem wide_ix (GOne (SItem (u "a"%string))) = Ok (GVec [1; 0; 2]%Z) /\ tt_getitem wide_ix (GOne (SInt (-1))) = Ok (GVec [0; 3; 0]%Z) /\
  tt_getitem wide_ix (GPair (SSlice (Some 0%Z) (Some 1%Z)) (SSlice (Some 2%Z) None)) = Ok (GVec [2%Z]) /\
  tt_getitem wide_ix (GPair (SItem (u "c"%string)) SOther) = Err KeyError /\ tt_getitem wide_ix (GPair SOther (SItem (u "c"%string))) = Err ValueError /\
  tt_getitem wide_ix (GPair (SInt 2) (SInt 0)) = Err IndexError /\ tt_getitem wide_ix GTuple = Err ValueError /\ tt_getitem wide_ix GList = Err NotImplementedError /\
  tt_getitem wide_ix (GOne SOther) = Err ValueError.
Proof. repeat split; vm_compute; reflexivity. Qed.
Definition show_q (g : gval Qc) : gval Q :=
  match g with GScalar v => GScalar (this v) | GVec l => GVec (map this l) | GArr l n => GArr (map (map this) l) n end.
Example C166_values_dense :
  rmap show_q (d_getitem ex_dix (GPair (SItem (u "b"%string)) (SItem (u "x"%string)))) = Ok (GScalar (2 # 1)%Q) /\
  rmap show_q (d_getitem ex_dix (GOne (SInt 0))) = Ok (GVec [0 # 1; 1 # 1]%Q) /\
  rmap show_q (d_getitem ex_dix (GPair (SSlice None None) (SItem (u "x"%string)))) = Ok (GVec [0 # 1; 2 # 1]%Q) /\
  rmap show_q (d_getitem ex_dix (GPair (SSlice (Some 1%Z) None) (SSlice None None))) = Ok (GArr [[2 # 1; 3 # 1]%Q] 2).
Proof. repeat split; vm_compute; reflexivity. Qed.
