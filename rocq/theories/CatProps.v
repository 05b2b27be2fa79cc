(** * Claims about concatenated matrices: C167. *)
From Coq Require Import String NArith ZArith Bool Arith Lia Sorted List.
From Verif Require Import Base BaseLemmas VocabModel MxModel MxSpec MxTypedModel DenseModel IdxModel IdxSpec CatModel CatSpec CatProofs.
Import ListNotations.
Local Open Scope nat_scope.

(** ** C167 *)
(** Matrices with the same columns, one below the other: the items and the cells of all of them, in order. *)
Theorem C167_rows : forall {V} {NV : Num V} (a : stm V) bs, sgood a -> Forall sgood bs -> Forall (fun b => stcols b = stcols a) bs ->
  exists c, concat_all a bs 0 = Ok c /\ sgood c /\ strows c = strows a ++ concat (map strows bs) /\ stcols c = stcols a /\
    cells_of c = cells_of a ++ concat (map cells_of bs).
Proof. intros V NV a bs Ga Gb E. destruct (all_rows bs a Ga Gb E) as (c & ? & ? & ? & ? & ? & _). exists c. auto. Qed.
Print Assumptions C167_rows.
(** Matrices with the same rows, side by side: every row is continued. *)
Theorem C167_columns : forall {V} {NV : Num V} (a : stm V) bs, sgood a -> Forall sgood bs -> Forall (fun b => strows b = strows a) bs ->
  exists c, concat_all a bs 1 = Ok c /\ sgood c /\ strows c = strows a /\ stcols c = stcols a ++ concat (map stcols bs) /\
    forall i, nth i (cells_of c) [] = nth i (cells_of a) [] ++ concat (map (fun b => nth i (cells_of b) []) bs).
Proof. intros V NV a bs Ga Gb E. destruct (all_cols bs a Ga Gb E) as (c & ? & ? & ? & ? & ? & _). exists c. auto. Qed.
Print Assumptions C167_columns.
(** The result can be indexed iff all matrices were compressed in the direction of the concatenation: csr for rows, csc for columns. *)
Theorem C167_indexable : forall {V} {NV : Num V} (a : stm V) bs c, sgood a -> Forall sgood bs -> bs <> [] ->
  (concat_all a bs 0 = Ok c -> Forall (fun b => stcols b = stcols a) bs ->
     (subscriptable (smat c) <-> Forall (fun m => is_fmt Csr (smat m)) (a :: bs))) /\
  (concat_all a bs 1 = Ok c -> Forall (fun b => strows b = strows a) bs ->
     (subscriptable (smat c) <-> Forall (fun m => is_fmt Csc (smat m)) (a :: bs))).
Proof.
  assert (Sx : forall {V} f (m : smx V), is_fmt f m -> subscriptable m) by (intros V f [m|]; cbn; tauto).
  intros V NV a bs c Ga Gb Ne. split; intros Ec E.
  - destruct (all_rows bs a Ga Gb E) as (c' & Ec' & _ & _ & _ & _ & S1 & S2). replace c' with c in * by congruence.
    split; intros H; [destruct (S1 H Ne); auto|]. inversion H; subst. eauto.
  - destruct (all_cols bs a Ga Gb E) as (c' & Ec' & _ & _ & _ & _ & S1 & S2). replace c' with c in * by congruence.
    split; intros H; [destruct (S1 H Ne); auto|]. inversion H; subst. eauto.
Qed.
Print Assumptions C167_indexable.
(** Otherwise square brackets, submatrix() of rows and reorder() of rows raise TypeError for every valid argument. *)
Theorem C167_unusable : forall {V} {NV : Num V} (c : stm V), ~ subscriptable (smat c) -> NoDup (strows c) -> NoDup (stcols c) ->
  (forall x y rs cs, selects (strows c) x rs -> selects (stcols c) y cs -> s_getitem c (GPair x y) = Err TypeError /\ s_getitem c (GOne x) = Err TypeError) /\
  (forall row, (exists r, In r row /\ In r (strows c)) -> s_submatrix c (Some row) None = Err TypeError) /\
  (forall items, incl items (strows c) -> s_reorder c items false = Err TypeError).
Proof.
  intros V NV c S Nr Nc. split; [|split].
  - intros. eapply coo_getitem; eauto.
  - intros. now apply coo_submatrix.
  - intros. now apply coo_reorder.
Qed.
Print Assumptions C167_unusable.
(** Wrong axis or shape: ValueError.  Other items: AssertionError. *)
Theorem C167_errors : forall {V} {NV : Num V} (a b : stm V), sgood a -> sgood b ->
  (forall axis, axis <> 0%Z -> axis <> 1%Z -> concatenate a b axis = Err ValueError) /\
  (length (stcols a) <> length (stcols b) -> concatenate a b 0 = Err ValueError) /\
  (length (strows a) <> length (strows b) -> concatenate a b 1 = Err ValueError) /\
  (length (stcols a) = length (stcols b) -> stcols a <> stcols b -> concatenate a b 0 = Err AssertionError) /\
  (length (strows a) = length (strows b) -> strows a <> strows b -> concatenate a b 1 = Err AssertionError).
Proof. exact @concat_errors. Qed.
Print Assumptions C167_errors.
(** The matrices without items: the same cells and errors. *)
Theorem C167_sparse : forall {V} {NV : Num V} (a b : smx V), swf a -> swf b ->
  (forall axis, axis <> 0%Z -> axis <> 1%Z -> sm_concatenate a b axis = Err ValueError) /\
  (scols a <> scols b -> sm_concatenate a b 0 = Err ValueError) /\ (srows a <> srows b -> sm_concatenate a b 1 = Err ValueError) /\
  (scols a = scols b -> exists c, sm_concatenate a b 0 = Ok c /\ srows c = srows a + srows b /\ scols c = scols a /\
     forall i j, scell c i j = if i <? srows a then scell a i j else scell b (i - srows a) j) /\
  (srows a = srows b -> exists c, sm_concatenate a b 1 = Ok c /\ srows c = srows a /\ scols c = scols a + scols b /\
     forall i j, scell c i j = if j <? scols a then scell a i j else scell b i (j - scols a)).
Proof.
  intros V NV a b Wa Wb. unfold sm_concatenate. cbn [Z.eqb Pos.eqb]. split; [|split; [|split; [|split]]].
  - intros axis N0 N1. apply Z.eqb_neq in N0, N1. now rewrite N0, N1.
  - intros H. unfold stack_rows. apply Nat.eqb_neq in H. now rewrite H.
  - intros H. unfold stack_cols. apply Nat.eqb_neq in H. now rewrite H.
  - intros E. destruct (stack_rows_ok a b Wa Wb E) as (c & Ec & _ & R & C & H & _). exists c. auto.
  - intros E. destruct (stack_cols_ok a b Wa Wb E) as (c & Ec & _ & R & C & H & _). exists c. auto.
Qed.
Print Assumptions C167_sparse.
(** The total of the result is the sum of the totals. *)
Theorem C167_total : forall {V} {NV : Num V} (a b c : stm V) axis, concatenate a b axis = Ok c -> s_total c = add (s_total a) (s_total b).
Proof. exact @total_concat. Qed.
Print Assumptions C167_total.
(** Side by side is the transpose of the transposes on top of each other, in items and cells. *)
Theorem C167_transposed : forall {V} {NV : Num V} (a b : stm V), sgood a -> sgood b -> strows a = strows b ->
  exists c ta tb tc t, concatenate a b 1 = Ok c /\ s_transpose a = Ok ta /\ s_transpose b = Ok tb /\ concatenate ta tb 0 = Ok tc /\ s_transpose tc = Ok t /\
    strows t = strows c /\ stcols t = stcols c /\ cells_of t = cells_of c.
Proof.
  intros V NV a b Ga Gb E. destruct (concat1 a b Ga Gb E) as (c & Ec & Gc & Rc & Cc & (_ & R1 & C1 & H1 & _)).
  destruct (transpose_ok a Ga) as (ta & Ea & Gta & Rta & Cta & Ha & Ra & Ca). destruct (transpose_ok b Gb) as (tb & Eb & Gtb & Rtb & Ctb & Hb & Rb & Cb).
  destruct (concat0 ta tb Gta Gtb) as (tc & Etc & Gtc & Rtc & Ctc & (_ & R2 & C2 & H2 & _)); [congruence|].
  destruct (transpose_ok tc Gtc) as (t & Et & Gt & Rt & Ct & Ht & R3 & C3).
  exists c, ta, tb, tc, t. do 5 (split; [assumption|]). split; [congruence|]. split; [congruence|].
  unfold cells_of. replace (srows (smat t)) with (srows (smat c)) by congruence. replace (scols (smat t)) with (scols (smat c)) by congruence.
  apply map_ext. intros i. apply map_ext. intros j. rewrite Ht, H2, H1, Ra, Ha, Hb. reflexivity.
Qed.
Print Assumptions C167_transposed.
(** reorder_matrix: the rows (columns) at the given positions, counted from the end if negative; IndexError for others, ValueError for another axis. *)
Theorem C167_reorder : forall {V} {NV : Num V} (m : sp V) idx, spwf m ->
  (forall ks, Forall2 (points (nrows m)) idx ks -> exists r, reorder_matrix m idx 0 = Ok r /\ spwf r /\ nrows r = length idx /\ ncols r = ncols m /\
     forall i j k, nth_error ks i = Some k -> spget r i j = spget m k j) /\
  (forall ks, Forall2 (points (ncols m)) idx ks -> exists r, reorder_matrix m idx 1 = Ok r /\ spwf r /\ nrows r = nrows m /\ ncols r = length idx /\
     forall i j k, nth_error ks j = Some k -> spget r i j = spget m i k) /\
  (Exists (fun z => ~ (- Z.of_nat (nrows m) <= z < Z.of_nat (nrows m))%Z) idx -> reorder_matrix m idx 0 = Err IndexError) /\
  (Exists (fun z => ~ (- Z.of_nat (ncols m) <= z < Z.of_nat (ncols m))%Z) idx -> reorder_matrix m idx 1 = Err IndexError) /\
  (forall axis, axis <> 0%Z -> axis <> 1%Z -> reorder_matrix m idx axis = Err ValueError).
Proof.
  intros V NV m idx W. split; [intros; now apply reorder_rows|]. split; [intros; now apply reorder_cols|]. unfold reorder_matrix. split; [|split].
  - intros H. cbn [Z.eqb]. now rewrite norms_out.
  - intros H. cbn [Z.eqb Pos.eqb]. now rewrite norms_out.
  - intros axis N0 N1. apply Z.eqb_neq in N0, N1. now rewrite N0, N1.
Qed.
Print Assumptions C167_reorder.
(** empty_row_idx: exactly the rows in which every cell is zero, in order. *)
Theorem C167_empty_rows : forall {V} {NV : Num V} (rows : list (list V)),
  (forall i, In i (empty_row_idx rows) <-> exists row, nth_error rows i = Some row /\ Forall (fun v => v = zero) row) /\ StronglySorted lt (empty_row_idx rows).
Proof. intros V NV rows. split; [apply empty_rows_spec|apply empty_rows_sorted]. Qed.
Print Assumptions C167_empty_rows.

Local Ltac good := unfold sgood; cbn [smat strows stcols swf]; split; [repeat constructor; cbn; intuition discriminate|split; reflexivity].
(** The examples: two rows and two columns each, csr as the library makes them. *)
Definition ca : stm Z := Stm (Comp (Sp Csr [[(0, 1%Z)]; [(1, 2%Z)]] 2)) [u "r"; u "s"] [u "a"; u "b"].
Definition cb : stm Z := Stm (Comp (Sp Csr [[(0, 3%Z); (1, 4%Z)]; []] 2)) [u "r"; u "s"] [u "c"; u "d"].
Definition cc : stm Z := Stm (Comp (Sp Csr [[(0, 3%Z); (1, 4%Z)]; []] 2)) [u "t"; u "v"] [u "a"; u "b"].
Definition to_csc (a : stm Z) (ls : list (list (nat * Z))) : stm Z := Stm (Comp (Sp Csc ls (length (strows a)))) (strows a) (stcols a).
(** "Matrices that can be indexed give a matrix that can be indexed": not in direction 1 for csr matrices, nor for a mixture. *)
Theorem C167_indexable_refuted : ~ forall (a b c : stm Z) axis, sgood a -> sgood b -> subscriptable (smat a) -> subscriptable (smat b) ->
  concatenate a b axis = Ok c -> subscriptable (smat c).
Proof.
  intros H. assert (G : sgood ca /\ sgood cb) by (split; good). destruct G.
  destruct (concatenate ca cb 1) as [c|] eqn:E; [|vm_compute in E; discriminate]. specialize (H ca cb c 1%Z).
  vm_compute in E. injection E as <-. apply H; auto; exact I.
Qed.
Print Assumptions C167_indexable_refuted.
(** "The order in which matrices are put together does not matter for what can be done": a csr matrix and the csc form of another. *)
Theorem C167_mixed_refuted : ~ forall (a b c : stm Z), sgood a -> sgood b -> subscriptable (smat a) -> subscriptable (smat b) ->
  concatenate a b 0 = Ok c -> exists v, s_getitem c (GPair (SInt 0) (SInt 0)) = Ok v.
Proof.
  intros H. assert (G : sgood ca /\ sgood (to_csc cc [[(0, 3%Z)]; [(0, 4%Z)]])) by (split; good). destruct G as [Ga Gb].
  destruct (H ca (to_csc cc [[(0, 3%Z)]; [(0, 4%Z)]]) _ Ga Gb I I eq_refl) as [v E]. vm_compute in E. discriminate.
Qed.
Print Assumptions C167_mixed_refuted.
(** "reorder_matrix keeps the total": positions may be repeated or left out. *)
Theorem C167_reorder_total_refuted : ~ forall (m r : sp Z) idx, spwf m -> length idx = nrows m -> reorder_matrix m idx 0 = Ok r ->
  sumv (map snd (entries r)) = sumv (map snd (entries m)).
Proof.
  intros H. specialize (H (Sp Csr [[(0, 1%Z)]; [(1, 2%Z)]] 2) (Sp Csr [[(1, 2%Z)]; [(1, 2%Z)]] 2) [1%Z; (-1)%Z]).
  assert (W : spwf (Sp Csr [[(0, 1%Z)]; [(1, 2%Z)]] 2)) by (repeat constructor; cbn; intuition discriminate). specialize (H W eq_refl eq_refl). vm_compute in H. discriminate.
Qed.
Print Assumptions C167_reorder_total_refuted.

Example C167_ex : sgood ca /\ sgood cb /\ sgood cc /\
  (exists c, concat_all ca [cc; cc] 0 = Ok c /\ cells_of c = [[1; 0]; [0; 2]; [3; 4]; [0; 0]; [3; 4]; [0; 0]]%Z /\ subscriptable (smat c) /\ s_total c = 17%Z) /\
  (exists c, concatenate ca cb 1 = Ok c /\ cells_of c = [[1; 0; 3; 4]; [0; 2; 0; 0]]%Z /\ ~ subscriptable (smat c) /\
     NoDup (strows c) /\ NoDup (stcols c) /\ s_getitem c (GOne (SItem (u "r"))) = Err TypeError /\ s_submatrix c (Some [u "r"]) None = Err TypeError /\
     s_reorder c [u "s"; u "r"] false = Err TypeError) /\
  (exists c, concatenate (to_csc ca [[(0, 1%Z)]; [(1, 2%Z)]]) (to_csc cb [[(0, 3%Z)]; [(0, 4%Z)]]) 1 = Ok c /\ cells_of c = [[1; 0; 3; 4]; [0; 2; 0; 0]]%Z /\
     s_getitem c (GOne (SItem (u "r"))) = Ok (GVec [1; 0; 3; 4]%Z)) /\
  concatenate ca cb 0 = Err AssertionError /\ concatenate ca cb 2 = Err ValueError.
Proof.
  split; [good|]. split; [good|]. split; [good|].
  split; [eexists; split; [reflexivity|]; split; [vm_compute; reflexivity|]; split; [exact I|vm_compute; reflexivity]|].
  split.
  - eexists. split; [reflexivity|]. split; [vm_compute; reflexivity|]. split; [vm_compute; tauto|].
    split; [vm_compute; repeat (constructor; [cbn; intuition discriminate|]); constructor|].
    split; [vm_compute; repeat (constructor; [cbn; intuition discriminate|]); constructor|]. repeat split; vm_compute; reflexivity.
  - split; [|split; vm_compute; reflexivity]. eexists. split; [reflexivity|]. split; vm_compute; reflexivity.
Qed.
Example C167_ex_reorder :
  Forall2 (points 3) [2%Z; (-3)%Z] [2; 0] /\
  (exists r, reorder_matrix (Sp Csr [[(0, 1%Z)]; [(1, 2%Z)]; [(0, 5%Z)]] 2) [2%Z; (-3)%Z] 0 = Ok r /\ spget r 0 0 = 5%Z /\ spget r 1 0 = 1%Z) /\
  reorder_matrix (Sp Csr [[(0, 1%Z)]; [(1, 2%Z)]; [(0, 5%Z)]] 2) [3%Z] 0 = Err IndexError /\
  empty_row_idx [[0; 0]; [0; 1]; []; [0; 0]]%Z = [0; 2; 3].
Proof.
  split; [constructor; [split; [lia|reflexivity]|constructor; [split; [lia|reflexivity]|constructor]]|].
  split; [eexists; split; [reflexivity|]; split; vm_compute; reflexivity|]. split; vm_compute; reflexivity.
Qed.

(** ** Computed cases *)
Definition cells (a : res (stm Z)) : res (list (nat * nat * Z) * list pystr * list pystr) :=
  rmap (fun a => (sentries (smat a), strows a, stcols a)) a.
Definition cw : stm Z := Stm (Comp (Sp Csr [[(2, 7%Z)]; [(0, 8%Z)]] 3)) [u "r"; u "s"] [u "e"; u "f"; u "g"].
Example C167_values :
  (* a csr matrix below a csc matrix; side by side with different widths *)
  cells (concatenate (to_csc ca [[(0, 1%Z)]; [(1, 2%Z)]]) cc 0) = Ok ([(0, 0, 1%Z); (1, 1, 2%Z); (2, 0, 3%Z); (2, 1, 4%Z)], [u "r"; u "s"; u "t"; u "v"], [u "a"; u "b"]) /\
  cells (concatenate ca cw 1) = Ok ([(0, 0, 1%Z); (1, 1, 2%Z); (0, 4, 7%Z); (1, 2, 8%Z)], [u "r"; u "s"], [u "a"; u "b"; u "e"; u "f"; u "g"]) /\
  rmap (fun a => (srows (smat a), scols (smat a))) (concatenate ca cw 1) = Ok (2, 5) /\
  cells (rbind (concatenate ca cw 1) s_transpose) = Ok ([(0, 0, 1%Z); (1, 1, 2%Z); (4, 0, 7%Z); (2, 1, 8%Z)], [u "a"; u "b"; u "e"; u "f"; u "g"], [u "r"; u "s"]) /\
  cells (s_transpose cw) = Ok ([(2, 0, 7%Z); (0, 1, 8%Z)], [u "e"; u "f"; u "g"], [u "r"; u "s"]) /\
  sm_concatenate (smat ca) (smat cb) 2 = Err ValueError /\ cells (concatenate ca cw 0) = Err ValueError /\
  cells (concatenate ca ca (-1)) = Err ValueError /\
  rmap entries (reorder_matrix (Sp Csr [[(2, 7%Z)]; [(0, 8%Z)]] 3) [2; -3]%Z 1) = Ok [(0, 0, 7%Z); (1, 1, 8%Z)] /\
  reorder_matrix (Sp Csr [[(2, 7%Z)]; [(0, 8%Z)]] 3) [0]%Z 2 = Err ValueError.
Proof. repeat split; vm_compute; reflexivity. Qed.
