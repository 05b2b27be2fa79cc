(** * Dense and sparse matrices agree; indexing; contexts; samples. *)
From Coq Require Import NArith ZArith Bool Arith QArith Qcanon Qabs Qround Lia List Sorted Permutation.
From Verif Require Import Base BaseLemmas MxModel MxTypedModel MxSpec MxProofs MxTtmProofs MxOpsProofs MxElemProofs MxCellProofs MxMoreProofs DenseModel DenseSpec DenseProofs MulSpec MulProofs.
Import ListNotations.
Local Open Scope nat_scope.

(** ** Dense and sparse *)
Lemma same_table_val d s : dgood d -> tgood s -> same_table d s -> forall r c, dval d r c = val s r c.
Proof.
  intros G T (R & C & A & B & E) r c. unfold dval, val. rewrite R, C. destruct (index_of r (trows s)) as [i|] eqn:I; [|reflexivity].
  destruct (index_of c (tcols s)) as [j|] eqn:J; [|reflexivity]. apply index_of_Some in I as [I _], J as [J _]. apply nth_error_lt' in I, J.
  apply E; [rewrite A, (tg_rows _ T)|rewrite B, (tg_cols _ T)]; assumption.
Qed.
Lemma tabulates_table m' f s' : drows m' = trows s' -> dcols m' = tcols s' -> tabulates (dmx m') f (drows m') (dcols m') ->
  nrows (tmx s') = length (trows s') -> ncols (tmx s') = length (tcols s') ->
  (forall i j r c, nth_error (trows s') i = Some r -> nth_error (tcols s') j = Some c -> spget (tmx s') i j = f r c) -> same_table m' s'.
Proof.
  intros R C (A & B & T) N1 N2 H. unfold same_table. split; [assumption|]. split; [assumption|]. split; [congruence|]. split; [congruence|].
  intros i j I J. rewrite A in I. rewrite B in J. destruct (nth_error_lt _ _ I) as [r Er], (nth_error_lt _ _ J) as [c Ec].
  rewrite (T _ _ _ _ Er Ec). symmetry. apply H; congruence.
Qed.
Lemma todense_table s d : tgood s -> todense s = Ok d -> same_table d s /\ dgood d.
Proof.
  intros T E. unfold todense in E. pose proof (mk_dense_made _ _ _ _ E) as M. destruct (mk_dense_inv _ _ _ _ E) as (A & R & C & _).
  split; [|constructor; [assumption|rewrite R; apply T|rewrite C; apply T]]. unfold same_table. rewrite A, R, C. cbn. auto.
Qed.
Lemma todense_fails s : tgood s -> ((exists d, todense s = Ok d) <-> ~ (looks_symmetric (val s) (trows s) (tcols s) /\ trows s <> tcols s)) /\
  ((exists d, todense s = Ok d) \/ todense s = Err ValueError).
Proof.
  intros T. unfold todense. set (a := Arr _ _ _). assert (TB : tabulates a (val s) (trows s) (tcols s)).
  { split; [apply T|]. split; [apply T|]. intros. cbn. symmetry. now apply val_at. }
  destruct (near_symmetric_dec a) as [S|S].
  - pose proof (proj1 (tabulates_symmetric _ _ _ _ TB) S) as L. destruct (eqdec (trows s) (tcols s)) as [Q|Q].
    + rewrite <- Q in *. rewrite mk_dense_square; [|apply TB|assumption]. split; [split; [tauto|eauto]|eauto].
    + rewrite mk_dense_fail by assumption. split; [split; [intros [? ?]; discriminate|tauto]|auto].
  - rewrite mk_dense_normal; [|apply TB|apply TB|assumption]. split; [split; [|eauto]|eauto]. intros _ [L _]. apply S. now apply (tabulates_symmetric _ _ _ _ TB).
Qed.
Lemma agree_submatrix d s row col d' : dgood d -> tgood s -> same_table d s -> d_submatrix d row col = Ok (Some d') ->
  exists s', tt_submatrix s row col = Ok (Some s') /\ same_table d' s'.
Proof.
  intros G T ST E. destruct (d_submatrix_cells _ _ _ _ G E) as (R & C & TB & Fr & Fc). pose proof (same_table_val _ _ G T ST) as V.
  destruct ST as (R0 & C0 & _). rewrite R0 in R, Fr. rewrite C0 in C, Fc.
  destruct (submatrix_ok s row col T Fr Fc) as (s' & E' & R' & C' & W & N1 & N2 & _ & H). exists s'. split; [assumption|].
  eapply tabulates_table with (f := dval d); try congruence. intros. rewrite V. auto.
Qed.
Lemma agree_none d s row col : dgood d -> tgood s -> same_table d s -> (d_submatrix d row col = Ok None <-> tt_submatrix s row col = Ok None).
Proof.
  intros G T (R & C & _).
  destruct (found_dec (trows s) row) as [Fr|Fr]; [destruct (found_dec (tcols s) col) as [Fc|Fc]|].
  - destruct (submatrix_ok s row col T Fr Fc) as (s' & -> & _). split; [|discriminate]. rewrite d_submatrix_eq by (congruence || assumption).
    destruct (d_sub _ _ _); [|discriminate]. cbn. destruct (mk_dense _ _ _); discriminate.
  - rewrite submatrix_none, d_submatrix_none; try tauto. now rewrite C; tauto.
  - rewrite submatrix_none, d_submatrix_none; try tauto. now rewrite R; tauto.
Qed.
Lemma agree_transpose d s d' : dgood d -> tgood s -> same_table d s -> d_transpose d = Ok d' -> exists s', tt_transpose s = Ok s' /\ same_table d' s'.
Proof.
  intros G T ST E. destruct (dg_beh _ G) as [[B _]|[B _]]; [unfold d_transpose in E; rewrite B in E; discriminate|].
  unfold d_transpose in E. rewrite B in E. destruct (mk_dense_inv _ _ _ _ E) as (A' & R & C & _). unfold tt_transpose.
  destruct (sp_transpose_spec (tmx s) (tg_wf _ T)) as (W & N1 & N2 & H). destruct ST as (R0 & C0 & A & B0 & ST).
  rewrite mk_ttm_ok by (rewrite ?N1, ?N2; apply T). eexists. split; [reflexivity|].
  unfold same_table. rewrite A'. cbn [atrans ar ac cell tmx trows tcols].
  repeat split; try congruence. intros i j I J. rewrite (proj1 H i j). now apply ST.
Qed.
Lemma agree_reorder d s items axis1 d' : dgood d -> tgood s -> same_table d s -> NoDup items -> d_reorder d items axis1 = Ok d' ->
  exists s', tt_reorder s items axis1 = Ok s' /\ same_table d' s'.
Proof.
  intros G T ST ND E. pose proof (same_table_val _ _ G T ST) as V. destruct (d_reorder_cells _ _ _ _ G E) as (R & C & TB).
  assert (I : incl items (if axis1 then tcols s else trows s)).
  { destruct ST as (R0 & C0 & _). unfold d_reorder in E. rewrite R0, C0 in E. destruct (rmapm _ items) as [k|] eqn:L in E; [|discriminate].
    clear - L T. revert k L. induction items as [|x l IH]; intros k L y; [intros []|]. cbn in L. destruct (lookup _ x) eqn:K; [|discriminate].
    cbn in L. destruct (rmapm _ l) as [ks|] eqn:Q in L; [|discriminate]. intros [<-|I]; [|eapply IH; eauto].
    unfold lookup in K. rewrite dget_item2id in K by (destruct axis1; apply T). destruct (index_of x _) eqn:X in K; [|discriminate].
    apply index_of_Some in X as [X _]. now apply nth_error_In in X. }
  destruct (reorder_ok s items axis1 T ND I) as (s' & E' & G' & R' & C' & H). exists s'. split; [assumption|].
  destruct ST as (R0 & C0 & _). eapply tabulates_table with (f := dval d); try apply G'; auto.
  - rewrite R, R'. destruct axis1; congruence.
  - rewrite C, C'. destruct axis1; congruence.
  - intros i j r c Er Ec. rewrite V, <- H; [symmetry; now apply val_at|]. apply nth_error_In in Er, Ec. rewrite R' in Er. rewrite C' in Ec. now destruct axis1.
Qed.
Lemma index_items (its items : list pystr) : NoDup its -> incl items its ->
  exists idx, rmapm (lookup (item2id its)) items = Ok idx /\ length idx = length items /\
    forall i x, nth_error items i = Some x -> nth_error its (nth i idx 0) = Some x.
Proof.
  intros ND. induction items as [|y items IH]; intros I; [exists []; repeat split; intros [|i] x E; discriminate|].
  destruct IH as (idx & E & L & P); [intros z Z; apply I; now right|]. destruct (index_of_In y its) as (k & K & _); [apply I; now left|].
  exists (k :: idx). cbn [rmapm]. unfold lookup at 1. rewrite dget_item2id, K by assumption. cbn [rbind]. rewrite E. cbn [rbind]. split; [reflexivity|].
  split; [cbn; congruence|]. intros [|i] x X; cbn in X |- *; [|auto]. injection X as <-. now apply index_of_Some in K.
Qed.
(** When a dense matrix can be reordered *)
Lemma reorder_outcome d items (axis1 : bool) : dgood d -> dbeh d = Normal -> let its := if axis1 then dcols d else drows d in
  let rows := if axis1 then drows d else items in let cols := if axis1 then items else dcols d in
  (~ incl items its -> d_reorder d items axis1 = Err KeyError) /\
  d_reorder d [] axis1 = Err IndexError /\
  (incl items its -> items <> [] -> ~ (looks_symmetric (dval d) rows cols /\ rows <> cols) -> exists d', d_reorder d items axis1 = Ok d') /\
  (incl items its -> items <> [] -> looks_symmetric (dval d) rows cols -> rows <> cols -> d_reorder d items axis1 = Err ValueError).
Proof.
  intros G B its rows cols. assert (ND : NoDup its) by (unfold its; destruct axis1; apply G). split; [|split; [unfold d_reorder; cbn; now rewrite B|]].
  - intros N. unfold d_reorder. fold its. rewrite (MxOpsProofs.rmapm_err _ _ KeyError); [reflexivity| |].
    + assert (X : exists x, In x items /\ ~ In x its).
      { clear -N. induction items as [|x l IH]; [exfalso; apply N; intros ? []|]. destruct (in_dec eqdec x its) as [I|I]; [|exists x; cbn; auto].
        destruct IH as (y & Iy & Ny); [intros I2; apply N; intros z [->|Iz]; auto|]. exists y. cbn. auto. }
      destruct X as (x & Ix & Nx). exists x. split; [assumption|]. unfold lookup. rewrite dget_item2id by assumption. now rewrite (proj2 (index_of_None _ _) Nx).
    + intros x _. unfold lookup. destruct (dget (item2id its) x); eauto.
  - assert (K : incl items its -> items <> [] -> exists a, d_reorder d items axis1 = mk_dense a rows cols /\ tabulates a (dval d) rows cols).
    { intros I Nn. destruct (index_items its items ND I) as (idx & E & L & P). unfold d_reorder. fold its. rewrite E. cbn [rbind]. rewrite B.
      destruct idx as [|i0 idx0] eqn:Ei; [destruct items; [congruence|discriminate]|]. rewrite <- Ei in *. clear Ei.
      unfold rows, cols, its in *. destruct axis1; eexists; (split; [reflexivity|]).
      - split; [cbn; now apply dg_ar|]. split; [assumption|]. intros i j r c R C. cbn. symmetry. apply dval_at; auto.
      - split; [assumption|]. split; [cbn; now apply dg_ac|]. intros i j r c R C. cbn. symmetry. apply dval_at; auto. }
    split.
    + intros I Nn NS. destruct (K I Nn) as (a & -> & TB). destruct (near_symmetric_dec a) as [S|S].
      * pose proof (proj1 (tabulates_symmetric _ _ _ _ TB) S) as Q. destruct (eqdec rows cols) as [R|R]; [|tauto].
        rewrite <- R in *. rewrite mk_dense_square; [eauto|apply TB|assumption].
      * rewrite mk_dense_normal; [eauto|apply TB|apply TB|assumption].
    + intros I Nn S R. destruct (K I Nn) as (a & -> & TB). apply mk_dense_fail; [|assumption]. now apply (tabulates_symmetric _ _ _ _ TB).
Qed.
Lemma agree_multiply d s e t d' : dgood d -> tgood s -> same_table d s -> dgood e -> tgood t -> same_table e t -> no_zeros (tmx s) ->
  d_multiply d e = Ok d' -> exists s', tt_multiply s t = Ok s' /\ same_table d' s'.
Proof.
  intros G T ST Ge Tt STt NZ E. unfold d_multiply in E. destruct (dbeh d); [|discriminate]. unfold a_mul in E.
  destruct ST as (R0 & C0 & N1 & N2 & ST), STt as (R1 & C1 & N3 & N4 & STt).
  pose proof (sp_multiply_spec (tmx s) (tmx t) (tg_wf _ T) (tg_wf _ Tt)) as SP. rewrite <- N1, <- N2, <- N3, <- N4 in SP.
  destruct (bdim (ar (dmx d)) (ar (dmx e))) as [nr|] eqn:BR; [|discriminate]. destruct (bdim (ac (dmx d)) (ac (dmx e))) as [nc|] eqn:BC; [|discriminate].
  cbn [rbind] in E. destruct (mk_dense_inv _ _ _ _ E) as (A & R & C & L1 & L2 & _). cbn [ar ac] in L1, L2.
  destruct SP as (x & Ex & Wx & Rx & Cx & P). apply has_zero in NZ. unfold tt_multiply, sm_multiply. rewrite NZ, Ex. cbn [rbind].
  rewrite mk_ttm_ok by congruence. eexists. split; [reflexivity|].
  unfold same_table. rewrite A. cbn [ar ac cell tmx trows tcols]. repeat split; try congruence. intros i j I J. rewrite P by assumption.
  assert (B : forall a b n k, bdim a b = Some n -> k < n -> bidx a k < a /\ bidx b k < b).
  { intros a b n k H K. apply bdim_Some in H. unfold bidx. destruct (Nat.eqb_spec a 1), (Nat.eqb_spec b 1); lia. }
  destruct (B _ _ _ _ BR I) as (B1 & B2), (B _ _ _ _ BC J) as (B3 & B4). rewrite <- ST, <- STt by assumption. reflexivity.
Qed.
(** The product of dense matrices of any shapes *)
Lemma d_multiply_outcome m o : dgood m -> dgood o -> dbeh m = Normal ->
  (dcovers m o -> length (drows m) <> length (dcols m) -> exists x, d_multiply m o = Ok x) /\
  (forall x, d_multiply m o = Ok x -> dcovers m o /\ drows x = drows m /\ dcols x = dcols m /\
     forall i j r c r' c', nth_error (drows m) i = Some r -> nth_error (dcols m) j = Some c -> partner (drows o) i r' -> partner (dcols o) j c' ->
       dval x r c = (dval m r c * dval o r' c')%Qc) /\
  (~ dcovers m o -> d_multiply m o = Err ValueError).
Proof.
  intros G H N. pose proof (dg_ar _ G) as A1. pose proof (dg_ac _ G) as A2. pose proof (dg_ar _ H) as A3. pose proof (dg_ac _ H) as A4.
  unfold d_multiply. rewrite N. unfold a_mul. split; [|split].
  - intros (CR & CC) NL. rewrite (proj2 (bdim_left (ar (dmx m)) (ar (dmx o)))) by (rewrite A1, A3; exact CR).
    rewrite (proj2 (bdim_left (ac (dmx m)) (ac (dmx o)))) by (rewrite A2, A4; exact CC). cbn [rbind]. unfold mk_dense, check_symmetric. cbn [ar ac].
    rewrite A1, A2, !Nat.eqb_refl. destruct (Nat.eqb_spec (length (drows m)) (length (dcols m))); [contradiction|]. cbn [negb]. eauto.
  - intros x E. destruct (bdim (ar (dmx m)) (ar (dmx o))) as [nr|] eqn:BR; [|discriminate]. destruct (bdim (ac (dmx m)) (ac (dmx o))) as [nc|] eqn:BC; [|discriminate].
    cbn [rbind] in E. pose proof (mk_dense_made _ _ _ _ E) as Md. destruct (mk_dense_inv _ _ _ _ E) as (A & R & C & L1 & L2 & _). cbn [ar ac] in L1, L2.
    rewrite L1, <- A1 in BR. rewrite L2, <- A2 in BC. apply bdim_left in BR, BC.
    split; [split; rewrite <- ?A1, <- ?A2, <- ?A3, <- ?A4; assumption|]. split; auto. split; auto.
    intros i j r c r' c' Er Ec Pr Pc. assert (Gx : dgood x) by (constructor; [exact Md|rewrite R; apply G|rewrite C; apply G]).
    rewrite (dval_at x i j r c Gx) by congruence. rewrite A. cbn [cell]. rewrite (dval_at m i j r c G Er Ec).
    assert (Li : i < length (drows m)) by (apply nth_error_Some; congruence). assert (Lj : j < length (dcols m)) by (apply nth_error_Some; congruence).
    assert (B : forall n k, k < n -> bidx n k = k) by (intros n k K; unfold bidx; destruct (Nat.eqb_spec n 1); lia).
    rewrite (B (ar (dmx m)) i), (B (ac (dmx m)) j) by lia. f_equal. rewrite A3, A4. symmetry. apply dval_at; auto; apply partner_at; auto; lia.
  - intros NC. destruct (bdim (ar (dmx m)) (ar (dmx o))) as [nr|] eqn:BR; [|reflexivity]. destruct (bdim (ac (dmx m)) (ac (dmx o))) as [nc|] eqn:BC; [|reflexivity].
    cbn [rbind]. unfold mk_dense. cbn [ar ac]. destruct (Nat.eqb_spec nr (length (drows m))) as [->|]; cbn [negb]; [|reflexivity].
    destruct (Nat.eqb_spec nc (length (dcols m))) as [->|]; cbn [negb]; [|reflexivity]. exfalso. apply NC. rewrite A1 in BR. rewrite A2 in BC. apply bdim_left in BR, BC. split; congruence.
Qed.
Lemma agree_cmp op k d s d' : dgood d -> tgood s -> same_table d s -> cmpb op zero k = false -> ~ ((op = CLe \/ op = CGe) /\ k = zero) ->
  d_cmp op d k = Ok d' -> exists s', tt_cmp op s k = Ok s' /\ same_table d' s'.
Proof.
  intros G T ST Z NE E. unfold d_cmp in E. destruct (dbeh d); [|discriminate]. destruct (mk_dense_inv _ _ _ _ E) as (A & R & C & _).
  destruct ST as (R0 & C0 & N1 & N2 & ST). destruct (sm_cmp_ok op (tmx s) k (tg_wf _ T) NE) as (x & Ex & Wx & Rx & Cx & M & H).
  unfold tt_cmp. rewrite Ex. cbn [rbind]. rewrite mk_ttm_ok by (rewrite ?Rx, ?Cx; apply T). eexists. split; [reflexivity|].
  unfold same_table. rewrite A. cbn. repeat split; try congruence. intros i j I J. rewrite ST by assumption.
  destruct (stored_dec x i j) as [S|S].
  - pose proof (proj1 (H i j) S) as [_ ->]. apply in_map_iff in S as ([[a b] v] & Q & I'). cbn in Q. injection Q as -> ->.
    rewrite (entries_value _ _ _ _ Wx I'). unfold is_mask in M. rewrite Forall_forall in M. specialize (M _ I'). cbn in M. now symmetry.
  - rewrite (not_stored _ _ _ S). destruct (cmpb op (spget (tmx s) i j) k) eqn:P; [|reflexivity]. exfalso. apply S, H. split; [|assumption].
    destruct (stored_dec (tmx s) i j) as [S'|S']; [assumption|]. rewrite (not_stored _ _ _ S') in P. congruence.
Qed.
Lemma agree_sum d s : dgood d -> tgood s -> same_table d s -> (forall axis1, d_sum d axis1 = tt_sum s axis1) /\ d_total d = tt_total s.
Proof.
  intros G T (R & C & N1 & N2 & ST). split.
  - intros axis1. unfold d_sum, tt_sum. rewrite R, C, N1, N2.
    assert (E : map (fun x => sumv (map (fun y => if axis1 then cell (dmx d) x y else cell (dmx d) y x) (seq 0 (if axis1 then ncols (tmx s) else nrows (tmx s)))))
                    (seq 0 (if axis1 then nrows (tmx s) else ncols (tmx s)))
                = map (if axis1 then row_sum (tmx s) else col_sum (tmx s)) (seq 0 (if axis1 then nrows (tmx s) else ncols (tmx s)))).
    { apply map_ext_in. intros x I. apply in_seq in I. destruct axis1; [rewrite row_sum_cells by apply T|rewrite col_sum_cells by apply T];
        f_equal; apply map_ext_in; intros y Iy; apply in_seq in Iy; apply ST; lia. }
    now rewrite E.
  - unfold d_total, tt_total. rewrite sp_sum_rows by apply T. rewrite N1, N2. f_equal. apply map_ext_in. intros i I. apply in_seq in I.
    rewrite row_sum_cells by apply T. f_equal. apply map_ext_in. intros y Iy. apply in_seq in Iy. apply ST; lia.
Qed.
Lemma norm_lt n z i : norm_index n z = Ok i -> i < n.
Proof.
  unfold norm_index. destruct (Z.leb_spec 0 z); [destruct (Z.ltb_spec z (Z.of_nat n))|destruct (Z.leb_spec (- Z.of_nat n) z)]; try discriminate; injection 1 as <-; lia.
Qed.
Lemma agree_index d s a b : same_table d s -> d_index d a b = tt_index s a b.
Proof.
  intros (R & C & N1 & N2 & ST). unfold d_index, tt_index, index2. rewrite R, C, <- N1, <- N2.
  destruct (resolve (trows s) a) as [x|]; [|reflexivity]. cbn [rbind]. destruct (resolve (tcols s) b) as [y|]; [|reflexivity]. cbn [rbind].
  destruct (norm_index (ar (dmx d)) x) as [i|] eqn:I; [|reflexivity]. cbn [rbind]. destruct (norm_index (ac (dmx d)) y) as [j|] eqn:J; [|reflexivity]. cbn [rbind].
  apply norm_lt in I, J. now rewrite ST.
Qed.
Lemma agree_equal d s e t : same_table d s -> same_table e t -> tt_equal s t = true -> d_equal d e = true.
Proof.
  intros (R & C & N1 & N2 & ST) (R1 & C1 & N3 & N4 & STt) E. unfold tt_equal in E. unfold d_equal. rewrite R, C, R1, C1, N1, N2, N3, N4.
  destruct (eqb (trows s) (trows t)); [|discriminate]. destruct (eqb (tcols s) (tcols t)); [|discriminate]. cbn [negb] in *. unfold sm_equal in E.
  destruct ((nrows (tmx s) =? nrows (tmx t)) && (ncols (tmx s) =? ncols (tmx t))) eqn:S; [|discriminate]. cbn [negb orb] in *.
  destruct (nnz (tmx s) =? nnz (tmx t)); [|discriminate]. cbn [negb] in E. apply andb_true_iff in S as [S1 S2]. apply Nat.eqb_eq in S1, S2.
  apply allclose_iff. intros i j I J. rewrite ST, STt by congruence. unfold sp_same in E. rewrite forallb_forall in E.
  assert (Q : spget (tmx s) i j = spget (tmx t) i j).
  { specialize (E i). rewrite forallb_forall in E. assert (X : veqb (spget (tmx s) i j) (spget (tmx t) i j) = true) by (apply E; apply in_seq; lia).
    unfold veqb in X. apply andb_true_iff in X as [X1 X2]. now apply vleb_antisym. }
  rewrite Q. apply near_refl.
Qed.

(** ** Indexing *)
Lemma norm_ok n z i : norm_index n z = Ok i <-> i < n /\ (z = Z.of_nat i \/ z = (Z.of_nat i - Z.of_nat n)%Z).
Proof.
  split.
  - intros E. split; [eapply norm_lt; eauto|]. revert E. unfold norm_index.
    destruct (Z.leb_spec 0 z); [destruct (Z.ltb_spec z (Z.of_nat n))|destruct (Z.leb_spec (- Z.of_nat n) z)]; try discriminate; injection 1 as <-; lia.
  - intros [L H]. unfold norm_index. destruct (Z.leb_spec 0 z); [destruct (Z.ltb_spec z (Z.of_nat n))|destruct (Z.leb_spec (- Z.of_nat n) z)]; f_equal; lia.
Qed.
Lemma denotes_ok items n a i : NoDup items -> n = length items -> (rbind (resolve items a) (norm_index n) = Ok i <-> denotes items n a i).
Proof.
  intros ND N. unfold denotes. destruct a as [s|z|]; cbn [resolve rmap rbind].
  - unfold lookup. rewrite dget_item2id by assumption. destruct (index_of s items) as [k|] eqn:K; cbn [rmap rbind].
    + pose proof (index_of_Some _ _ _ K) as [K1 _]. rewrite norm_ok. pose proof (nth_error_lt' _ _ _ K1). split.
      * intros [L [E|E]]; [apply Nat2Z.inj in E; subst; auto|lia].
      * intros [L E]. split; [assumption|]. left. f_equal. apply (index_of_nth _ _ _ ND) in E. congruence.
    + split; [discriminate|]. intros [_ E]. apply (index_of_nth _ _ _ ND) in E. congruence.
  - apply norm_ok.
  - split; [discriminate|tauto].
Qed.
Lemma index2_ok {V} rows cols nr nc (get : nat -> nat -> V) a b v : NoDup rows -> NoDup cols -> nr = length rows -> nc = length cols ->
  (index2 rows cols nr nc get a b = Ok v <-> exists i j, denotes rows nr a i /\ denotes cols nc b j /\ v = get i j).
Proof.
  intros N1 N2 E1 E2. unfold index2. split.
  - destruct (resolve rows a) as [x|] eqn:A; [|discriminate]. cbn [rbind]. destruct (resolve cols b) as [y|] eqn:B; [|discriminate]. cbn [rbind].
    destruct (norm_index nr x) as [i|] eqn:I; [|discriminate]. cbn [rbind]. destruct (norm_index nc y) as [j|] eqn:J; [|discriminate]. cbn [rbind].
    injection 1 as <-. exists i, j. split; [apply denotes_ok; auto; now rewrite A|]. split; [apply denotes_ok; auto; now rewrite B|reflexivity].
  - intros (i & j & A & B & ->). apply denotes_ok in A, B; auto. destruct (resolve rows a) as [x|]; [|discriminate]. destruct (resolve cols b) as [y|]; [|discriminate].
    cbn [rbind] in *. rewrite A. cbn [rbind]. now rewrite B.
Qed.
Lemma index_ok {V} {NV : Num V} (m : ttm V) a b v : tgood m ->
  (tt_index m a b = Ok v <-> exists i j, denotes (trows m) (nrows (tmx m)) a i /\ denotes (tcols m) (ncols (tmx m)) b j /\ v = spget (tmx m) i j).
Proof. intros G. apply index2_ok; apply G. Qed.
Lemma index_names {V} {NV : Num V} (m : ttm V) r c : tgood m -> In r (trows m) -> In c (tcols m) -> tt_index m (IName r) (IName c) = Ok (val m r c).
Proof.
  intros G R C. apply index_ok; [assumption|]. rewrite val_idx by assumption. exists (idx (trows m) r), (idx (tcols m) c).
  unfold denotes. rewrite (tg_rows _ G), (tg_cols _ G). repeat split; auto using idx_lt, idx_nth.
Qed.
Lemma index_unknown {V} {NV : Num V} (m : ttm V) r b : tgood m -> ~ In r (trows m) -> tt_index m (IName r) b = Err KeyError.
Proof.
  intros G R. unfold tt_index, index2. cbn [resolve]. unfold lookup. rewrite dget_item2id by apply G. now rewrite (proj2 (index_of_None _ _) R).
Qed.

Lemma resolve_ok (items : list pystr) (a : ix) : NoDup items -> a <> IOther -> (forall r, a = IName r -> In r items) -> exists z, resolve items a = Ok z.
Proof.
  intros D N K. destruct a as [s|z|]; [|eexists; reflexivity|congruence]. cbn [resolve]. unfold lookup. rewrite dget_item2id by exact D.
  destruct (index_of s items) as [i|] eqn:E; [eexists; reflexivity|]. apply index_of_None in E. now elim E; apply K.
Qed.
Lemma norm_outcome (n : nat) (z : Z) : (exists i, norm_index n z = Ok i) \/ norm_index n z = Err IndexError.
Proof. unfold norm_index. destruct (0 <=? z)%Z; [destruct (z <? Z.of_nat n)%Z|destruct (- Z.of_nat n <=? z)%Z]; eauto. Qed.
Lemma index_range {V} {NV : Num V} (m : ttm V) (a b : ix) : tgood m ->
  (a <> IOther /\ forall r, a = IName r -> In r (trows m)) -> (b <> IOther /\ forall c, b = IName c -> In c (tcols m)) ->
  (forall i, ~ denotes (trows m) (nrows (tmx m)) a i) \/ (forall j, ~ denotes (tcols m) (ncols (tmx m)) b j) -> tt_index m a b = Err IndexError.
Proof.
  intros G (Na & Ka) (Nb & Kb) H. destruct (tt_index m a b) as [v|e] eqn:E.
  - apply (index_ok m a b v G) in E as (i & j & Hi & Hj & _). destruct H as [H|H]; [now elim (H i)|now elim (H j)].
  - unfold tt_index, index2 in E. destruct (resolve_ok (trows m) a (tg_nr _ G) Na Ka) as (x & Ex). destruct (resolve_ok (tcols m) b (tg_nc _ G) Nb Kb) as (y & Ey).
    rewrite Ex, Ey in E. cbn [rbind] in E. destruct (norm_outcome (nrows (tmx m)) x) as [(i & Ei)|Ei]; rewrite Ei in E; cbn [rbind] in E; [|congruence].
    destruct (norm_outcome (ncols (tmx m)) y) as [(j & Ej)|Ej]; rewrite Ej in E; cbn [rbind] in E; congruence.
Qed.
Lemma index_other {V} {NV : Num V} (m : ttm V) (a b : ix) : tgood m ->
  a = IOther \/ (forall r, a = IName r -> In r (trows m)) /\ b = IOther -> tt_index m a b = Err ValueError.
Proof.
  intros G [->|(K & ->)]; [reflexivity|]. unfold tt_index, index2. destruct a as [s|z|]; [|reflexivity|reflexivity].
  destruct (resolve_ok (trows m) (IName s) (tg_nr _ G) ltac:(discriminate) K) as (x & ->). reflexivity.
Qed.

(** ** Contexts *)
Lemma tocsr_lane {V} {NV : Num V} (m : sp V) i : spwf m ->
  NoDup (map fst (nth i (lanes (tocsr m)) [])) /\ forall j, In j (map fst (nth i (lanes (tocsr m)) [])) <-> stored m i j.
Proof.
  intros W.
  assert (K : forall x : sp V, sfmt x = Csr -> spwf x -> NoDup (map fst (nth i (lanes x) [])) /\ forall j, In j (map fst (nth i (lanes x) [])) <-> stored x i j).
  { intros x F Wx. split; [apply nth_lane_wf, Wx|]. intros j. unfold stored. rewrite !in_map_iff. split.
    - intros ([j' v] & E & I). cbn in E. subst j'. exists (i, j, v). split; [reflexivity|]. apply entries_In. now rewrite F.
    - intros ([[a b] v] & E & I). cbn in E. injection E as -> ->. apply entries_In in I. rewrite F in I. now exists (j, v). }
  unfold tocsr. destruct (sfmt m) eqn:F; [now apply K|].
  assert (RG : in_range (nrows m) (ncols m) (entries m)) by now apply entries_range.
  destruct (K (of_coo (nrows m) (ncols m) (entries m))) as [K1 K2]; [reflexivity|now apply of_coo_wf|]. split; [assumption|].
  intros j. rewrite K2, of_coo_stored by assumption. reflexivity.
Qed.
Lemma contexts_ok {V} {NV : Num V} (m : ttm V) item : tgood m -> In item (trows m) ->
  exists l, tt_contexts m item = Ok l /\ NoDup l /\
    forall c, In c l <-> exists i j, nth_error (trows m) i = Some item /\ nth_error (tcols m) j = Some c /\ stored (tmx m) i j.
Proof.
  intros G I. unfold tt_contexts. destruct (index_of_In _ _ I) as (i & Ei & Li). rewrite Ei.
  destruct (tocsr_lane (tmx m) i (tg_wf _ G)) as [ND S]. set (js := map fst (nth i (lanes (tocsr (tmx m))) [])) in *.
  assert (RG : forall j, In j js -> j < length (tcols m)).
  { intros j J. apply S in J. apply in_map_iff in J as ([[a b] v] & E & J). cbn in E. injection E as -> ->. pose proof (entries_range _ (tg_wf _ G)) as R.
    unfold in_range in R. rewrite Forall_forall in R. specialize (R _ J). cbn in R. rewrite <- (tg_cols _ G). apply R. }
  rewrite (rmapm_map _ (fun j => nth j (tcols m) [])).
  2:{ intros j J. unfold at_. destruct (nth_error_lt _ _ (RG _ J)) as [y Ey]. rewrite Ey. f_equal. symmetry. now apply nth_error_nth. }
  eexists. split; [reflexivity|]. apply index_of_Some in Ei as [Ei _]. split.
  - clear S. revert ND RG. generalize js. intros l. induction l as [|x l IH]; intros ND RG; cbn; [constructor|].
    inversion ND; subst. constructor; [|apply IH; auto; intros; apply RG; now right]. intros J. apply in_map_iff in J as (y & E & J).
    assert (x = y); [|congruence]. pose proof (proj1 (NoDup_nth _ []) (tg_nc _ G)) as U. symmetry. apply U; auto; apply RG; cbn; auto.
  - intros c. rewrite in_map_iff. split.
    + intros (j & <- & J). exists i, j. split; [assumption|]. split; [apply nth_error_nth', RG, J|]. now apply S.
    + intros (i' & j & E1 & E2 & St). assert (i' = i). { pose proof (proj1 (NoDup_nth_error _) (tg_nr _ G)) as U. apply U; [eapply nth_error_lt'; eauto|congruence]. }
      subst i'. exists j. split; [now apply nth_error_nth|]. now apply S.
Qed.
Lemma contexts_nonzero {V} {NV : Num V} (m : ttm V) item l c : tgood m -> no_zeros (tmx m) -> tt_contexts m item = Ok l -> (In c l <-> val m item c <> zero).
Proof.
  intros G NZ E. assert (I : In item (trows m)).
  { unfold tt_contexts in E. destruct (index_of item (trows m)) eqn:K; [|discriminate]. apply index_of_Some in K as [K _]. now apply nth_error_In in K. }
  destruct (contexts_ok m item G I) as (l' & E' & _ & H). assert (l' = l) by congruence. subst l'. rewrite H. split.
  - intros (i & j & E1 & E2 & S). rewrite (val_at _ _ _ _ _ G E1 E2). apply no_zeros_stored; auto; apply G.
  - intros V0. destruct (in_dec eqdec c (tcols m)) as [J|J].
    + rewrite val_idx in V0 by assumption. exists (idx (trows m) item), (idx (tcols m) c). split; [now apply idx_nth|]. split; [now apply idx_nth|].
      apply no_zeros_stored; auto; apply G.
    + exfalso. apply V0. unfold val. rewrite (proj2 (index_of_None _ _) J). destruct (index_of item (trows m)); reflexivity.
Qed.
Lemma contexts_unknown {V} {NV : Num V} (m : ttm V) item : ~ In item (trows m) -> tt_contexts m item = Err KeyError.
Proof. intros N. unfold tt_contexts. now rewrite (proj2 (index_of_None _ _) N). Qed.

(** ** Samples *)
Lemma subseq_positions {A} (d : A) (items : list A) : forall base js, StronglySorted lt js -> Forall (fun j => base <= j < base + length items) js ->
  subseq (map (fun j => nth (j - base) items d) js) items.
Proof.
  induction items as [|x items IH]; intros base js SS F.
  - destruct js as [|j js]; [constructor|]. inversion F; subst. cbn in *. lia.
  - destruct js as [|j js]; [constructor|]. inversion SS as [|? ? S' Lt]; subst. inversion F as [|? ? Fj F']; subst. cbn [length] in *.
    destruct (Nat.eq_dec j base) as [E|E].
    + subst j. cbn [map]. rewrite Nat.sub_diag. cbn [nth]. apply sub_take.
      rewrite (map_ext_in _ (fun j => nth (j - S base) items d)).
      * apply IH; [assumption|]. rewrite Forall_forall in *. intros y I. specialize (Lt y I). specialize (F' y I). lia.
      * intros y I. rewrite Forall_forall in Lt. specialize (Lt y I). now replace (y - base) with (S (y - S base)) by lia.
    + apply sub_skip. rewrite (map_ext_in _ (fun j => nth (j - S base) items d)).
      * apply IH; [assumption|]. rewrite Forall_forall in *. intros y [<-|I]; [lia|]. specialize (Lt y I). specialize (F' y I). lia.
      * intros y I. assert (base < y). { destruct I as [<-|I]; [lia|]. rewrite Forall_forall in Lt. specialize (Lt y I). lia. }
        now replace (y - base) with (S (y - S base)) by lia.
Qed.
Lemma subseq_incl {A} (l l' : list A) : subseq l l' -> incl l l'.
Proof. induction 1; intros y I; [destruct I|right; now apply IHsubseq|]. destruct I as [->|I]; [now left|right; now apply IHsubseq]. Qed.
Lemma subseq_NoDup {A} (l l' : list A) : subseq l l' -> NoDup l' -> NoDup l.
Proof.
  induction 1; intros ND; [constructor|inversion ND; auto|]. inversion ND; subst. constructor; [|auto]. intros I. now apply (subseq_incl _ _ H) in I.
Qed.
Lemma sorted_lt js : StronglySorted (fun a b => Nat.leb a b = true) js -> NoDup js -> StronglySorted lt js.
Proof.
  induction 1 as [|x l S IH F]; intros ND; [constructor|]. inversion ND; subst. constructor; [auto|]. rewrite Forall_forall in *. intros y I. specialize (F y I).
  apply Nat.leb_le in F. assert (x <> y) by congruence. lia.
Qed.
Lemma isort_nat_sorted js : StronglySorted (fun a b => Nat.leb a b = true) (isort Nat.leb js).
Proof.
  apply isort_sorted.
  - intros x y. destruct (Nat.leb_spec x y); [now left|right]. apply Nat.leb_le. lia.
  - intros x y z A B. apply Nat.leb_le in A, B. apply Nat.leb_le. lia.
Qed.
Lemma at_list (items : list pystr) js : Forall (fun i => i < length items) js -> rmapm (at_ items) js = Ok (map (fun j => nth j items []) js).
Proof.
  intros F. apply rmapm_map. intros j I. rewrite Forall_forall in F. unfold at_. destruct (nth_error_lt _ _ (F _ I)) as [y Ey]. rewrite Ey. f_equal. symmetry.
  now apply nth_error_nth.
Qed.
Lemma sample_size_wanted size p k : wanted size p = Some k -> sample_size size p = Ok (PInt (Z.of_nat k)) /\ 1 <= k <= size.
Proof.
  unfold wanted, sample_size. destruct p as [z|q]; cbn [pq].
  - destruct (Z.leb_spec 1 z); [|discriminate]. destruct (Z.leb_spec z (Z.of_nat size)); [|discriminate]. injection 1 as <-.
    assert (A : Qle_bool 1 (inject_Z z) = true) by (apply Qle_bool_iff; change 1%Q with (inject_Z 1); rewrite <- Zle_Qle; lia).
    assert (B : Qle_bool (inject_Z z) (inject_Z (Z.of_nat size)) = true) by (apply Qle_bool_iff; rewrite <- Zle_Qle; lia).
    rewrite A, B. split; [do 2 f_equal; lia|lia].
  - destruct (Qle_bool q 0) eqn:A; [discriminate|]. destruct (Qle_bool 1 q) eqn:B; [discriminate|]. destruct (Nat.eqb_spec size 0); [discriminate|]. cbn [orb].
    set (f := Qfloor (inject_Z (Z.of_nat size) * q)). intros HK. assert (K : k = Nat.max 1 (Z.to_nat f)) by congruence. clear HK. subst k.
    assert (Q0 : (0 < q)%Q). { apply Qnot_le_lt. intros H. apply Qle_bool_iff in H. congruence. }
    assert (Q1 : (q < 1)%Q). { apply Qnot_le_lt. intros H. apply Qle_bool_iff in H. congruence. }
    assert (F : (0 <= f <= Z.of_nat size)%Z).
    { assert (S0 : (0 <= inject_Z (Z.of_nat size))%Q) by (change 0%Q with (inject_Z 0); rewrite <- Zle_Qle; lia). split.
      - change 0%Z with (Qfloor 0). apply Qfloor_resp_le. apply Qmult_le_0_compat; [assumption|now apply Qlt_le_weak].
      - replace (Z.of_nat size) with (Qfloor (inject_Z (Z.of_nat size))) by apply Qfloor_Z. apply Qfloor_resp_le.
        rewrite <- (Qmult_1_r (inject_Z (Z.of_nat size))) at 2. rewrite (Qmult_comm _ q), (Qmult_comm _ 1). apply Qmult_le_compat_r; [now apply Qlt_le_weak|assumption]. }
    split; [do 2 f_equal; lia|lia].
Qed.
Lemma sampled_ok items p replace k r : wanted (length items) p = Some k -> sampled items p replace r ->
  exists l, r = Ok l /\ length l = k /\ incl l items /\ (replace = false -> subseq l items).
Proof.
  intros W H. destruct (sample_size_wanted _ _ _ W) as [S K]. inversion H as [e E|k' e E C|k' draw E C]; subst.
  - congruence.
  - rewrite S in E. injection E as <-. inversion C; subst; lia.
  - rewrite S in E. injection E as <-. inversion C as [| | |z d L F ND]; subst. apply Nat2Z.inj in L.
    assert (F' : Forall (fun i => i < length items) (isort Nat.leb draw)).
    { rewrite Forall_forall in *. intros i I. apply F. now apply isort_In in I. }
    rewrite at_list by assumption. eexists. split; [reflexivity|]. split; [rewrite map_length, isort_length; assumption|]. split.
    + intros y I. apply in_map_iff in I as (j & <- & I). rewrite Forall_forall in F'. now apply nth_In, F'.
    + intros R. rewrite (map_ext _ (fun j => nth (j - 0) items [])) by (intros; now rewrite Nat.sub_0_r). apply subseq_positions.
      * apply sorted_lt; [apply isort_nat_sorted|]. eapply Permutation_NoDup; [apply isort_perm|auto].
      * rewrite Forall_forall in *. intros i I. specialize (F' i I). lia.
Qed.
Lemma sampled_bad items p replace r : wanted (length items) p = None -> sampled items p replace r ->
  r = Err (match p with PFloat q => if Qle_bool 1 q && Qle_bool q (inject_Z (Z.of_nat (length items))) then TypeError else ValueError | PInt _ => ValueError end).
Proof.
  unfold wanted. intros W H. destruct p as [z|q].
  - assert (S : sample_size (length items) (PInt z) = Err ValueError).
    { unfold sample_size. cbn [pq]. destruct (Qle_bool 1 (inject_Z z)) eqn:A.
      - apply Qle_bool_iff in A. change 1%Q with (inject_Z 1) in A. rewrite <- Zle_Qle in A. destruct (Z.leb_spec 1 z); [|lia]. cbn [andb] in W.
        destruct (Z.leb_spec z (Z.of_nat (length items))); [discriminate|]. destruct (Qle_bool (inject_Z z) _) eqn:B; [|reflexivity].
        apply Qle_bool_iff in B. rewrite <- Zle_Qle in B. lia.
      - destruct (Qle_bool (inject_Z z) 0) eqn:B; [reflexivity|]. exfalso.
        assert (~ (1 <= inject_Z z)%Q) by (intros X; apply Qle_bool_iff in X; congruence). assert (~ (inject_Z z <= 0)%Q) by (intros X; apply Qle_bool_iff in X; congruence).
        change 1%Q with (inject_Z 1) in *. change 0%Q with (inject_Z 0) in *. rewrite <- Zle_Qle in *. lia. }
    inversion H; subst; congruence.
  - inversion H as [e E|k' e E C|k' draw E C]; subst; unfold sample_size in E; cbn [pq] in E.
    + destruct (Qle_bool 1 q) eqn:A; cbn [andb orb] in *.
      * destruct (Qle_bool q (inject_Z _)); congruence.
      * destruct (Qle_bool q 0) eqn:B; congruence.
    + destruct (Qle_bool 1 q) eqn:A; cbn [andb orb] in *.
      * destruct (Qle_bool q (inject_Z _)); [|discriminate]. injection E as <-. inversion C; reflexivity.
      * destruct (Qle_bool q 0) eqn:B; [discriminate|]. injection E as <-. inversion C; reflexivity.
    + destruct (Qle_bool 1 q) eqn:A; cbn [andb orb] in *.
      * destruct (Qle_bool q (inject_Z _)); [|discriminate]. injection E as <-. inversion C.
      * destruct (Qle_bool q 0) eqn:B; [discriminate|]. injection E as <-. cbn [orb] in W. destruct (Nat.eqb_spec (length items) 0) as [Z|]; [|discriminate].
        inversion C as [| | |z d L F ND]; subst. destruct draw as [|x draw]; [cbn in L; lia|]. inversion F; subst. lia.
Qed.
Lemma sample_ok {V} {NV : Num V} (m : ttm V) p replace k r : tgood m -> wanted (length (trows m)) p = Some k -> tt_sample m p replace r ->
  exists m', r = Ok (Some m') /\ length (trows m') = k /\ incl (trows m') (trows m) /\ (replace = false -> subseq (trows m') (trows m)) /\ tcols m' = tcols m /\
    (forall i j x c, nth_error (trows m') i = Some x -> nth_error (tcols m') j = Some c -> spget (tmx m') i j = val m x c).
Proof.
  intros G W H. inversion H as [r' S]; subst. destruct (sampled_ok _ _ _ _ _ W S) as (l & -> & L & I & SS). cbn [rbind].
  assert (R : requested (trows m) (Some l) = l).
  { cbn. clear - I. induction l as [|x l IH]; [reflexivity|]. cbn. rewrite (proj2 (mem_In _ _) (I x (or_introl eq_refl))). f_equal. apply IH. intros y J. apply I. now right. }
  destruct (sample_size_wanted _ _ _ W) as [_ K].
  destruct (submatrix_ok m (Some l) None G) as (m' & E & R' & C' & _ & _ & _ & _ & X).
  { unfold found. rewrite R. intros ->. cbn in L. lia. } { exact Logic.I. }
  exists m'. rewrite R in R'. rewrite R', C'. cbn [requested]. split; [assumption|]. split; [assumption|]. split; [assumption|]. split; [assumption|]. split; [reflexivity|].
  intros i j x c E1 E2. apply X; [now rewrite R'|now rewrite C'].
Qed.
Lemma sample_distinct {V} {NV : Num V} (m : ttm V) p k r : tgood m -> wanted (length (trows m)) p = Some k -> tt_sample m p false r ->
  exists m', r = Ok (Some m') /\ tgood m' /\ forall x c, In x (trows m') -> val m' x c = val m x c.
Proof.
  intros G W H. destruct (sample_ok m p false k r G W H) as (m' & E & L & I & S & C & X). exists m'. split; [assumption|].
  specialize (S eq_refl). assert (ND : NoDup (trows m')) by (eapply subseq_NoDup; [eassumption|apply G]).
  inversion H as [r' S']; subst. destruct r' as [l|]; [|discriminate]. cbn [rbind] in *.
  destruct (submatrix_val m (Some l) None m' G H0) as [G' V'].
  - intros l' E. injection E as <-. destruct (sampled_ok _ _ _ _ _ W S') as (l2 & E2 & _ & _ & SS). injection E2 as <-. eapply subseq_NoDup; [apply SS; reflexivity|apply G].
  - intros; discriminate.
  - split; [assumption|]. intros x c J. rewrite V'. rewrite (proj2 (mem_In _ _) J). cbn [andb]. rewrite C. destruct (mem c (tcols m)) eqn:M; [reflexivity|].
    unfold val. apply mem_nIn in M. rewrite (proj2 (index_of_None _ _) M). destruct (index_of x (trows m)); reflexivity.
Qed.
Lemma sample_bad {V} {NV : Num V} (m : ttm V) p replace r : wanted (length (trows m)) p = None -> tt_sample m p replace r ->
  r = Err (match p with PFloat q => if Qle_bool 1 q && Qle_bool q (inject_Z (Z.of_nat (length (trows m)))) then TypeError else ValueError | PInt _ => ValueError end).
Proof. intros W H. inversion H as [r' S]; subst. now rewrite (sampled_bad _ _ _ _ W S). Qed.
Lemma sample_exists {V} {NV : Num V} (m : ttm V) p replace : exists r, tt_sample m p replace r.
Proof.
  assert (X : exists r, sampled (trows m) p replace r).
  { destruct (sample_size (length (trows m)) p) as [k|e] eqn:S; [|exists (Err e); apply sm_bad, S].
    assert (C : exists c, choice (length (trows m)) replace k c).
    { destruct k as [z|q]; [|eexists; apply ch_float]. destruct (Z.leb_spec z 0).
      - exfalso. unfold sample_size in S. destruct (Qle_bool 1 (pq p)) eqn:A.
        + destruct (Qle_bool (pq p) (inject_Z _)); [|discriminate]. injection S as ->. cbn in A. apply Qle_bool_iff in A. change 1%Q with (inject_Z 1) in A. rewrite <- Zle_Qle in A. lia.
        + destruct (Qle_bool (pq p) 0); [discriminate|]. injection S as <-. lia.
      - destruct (trows m) as [|r0 rs]; [eexists; apply ch_empty; [reflexivity|assumption]|]. destruct replace.
        + exists (Ok (repeat 0 (Z.to_nat z))). apply ch_draw; [rewrite repeat_length; lia| |discriminate]. rewrite Forall_forall. intros i I. apply repeat_spec in I. subst. cbn. lia.
        + destruct (Z.ltb_spec (Z.of_nat (length (r0 :: rs))) z); [eexists; now apply ch_large|].
          exists (Ok (seq 0 (Z.to_nat z))). apply ch_draw; [rewrite seq_length; lia| |intros; apply seq_NoDup]. rewrite Forall_forall. intros i I. apply in_seq in I. lia. }
    destruct C as [[draw|e] C]; [eexists; eapply sm_ok; eassumption|eexists; eapply sm_raise; eassumption]. }
  destruct X as [r X]. eexists. constructor. exact X.
Qed.
Lemma sample_square (m : dtm) p replace r : dgood m -> dbeh m = Square -> d_sample m p replace r -> forall x, r = Ok (Some x) -> False.
Proof.
  intros G B H x E. inversion H as [r' S]; subst. destruct r' as [l|]; [|discriminate]. cbn [rbind] in *.
  destruct (d_submatrix_cells _ _ _ _ G H0) as (_ & _ & _ & F1 & F2). rewrite (d_submatrix_square m (Some l) None) in H0; auto. discriminate.
Qed.

(** ** concatenate, and what SquareMatrix refuses *)
Lemma agree_concat d s e t d' : dgood d -> tgood s -> same_table d s -> dgood e -> tgood t -> same_table e t -> d_concat d e false = Ok d' ->
  exists s', tt_concat s t = Ok s' /\ same_table d' s'.
Proof.
  intros G T (R0 & C0 & N1 & N2 & ST) Ge Tt (R1 & C1 & N3 & N4 & STt) E. unfold d_concat in E. destruct (dbeh d); [|discriminate]. unfold a_vstack in E.
  destruct (Nat.eqb_spec (ac (dmx d)) (ac (dmx e))) as [E1|]; [|discriminate]. cbn [rbind] in E.
  destruct (eqb (dcols d) (dcols e)) eqn:EC; [|discriminate]. rewrite C0, C1 in EC. destruct (mk_dense_inv _ _ _ _ E) as (A & R & C & _).
  unfold tt_concat, sp_vstack. rewrite (proj2 (Nat.eqb_eq (ncols (tmx s)) (ncols (tmx t)))) by congruence. cbn [rbind]. rewrite EC.
  destruct (as_format_spec Csr (tmx s) (tg_wf _ T)) as (Wa & Fa & Ra & Ca & Pa). destruct (as_format_spec Csr (tmx t) (tg_wf _ Tt)) as (Wb & Fb & Rb & Cb & Pb).
  change (as_format Csr (tmx s)) with (tocsr (tmx s)) in *. change (as_format Csr (tmx t)) with (tocsr (tmx t)) in *.
  assert (LA : length (lanes (tocsr (tmx s))) = nrows (tmx s)). { rewrite <- Ra. unfold nrows. now rewrite Fa. }
  assert (LB : length (lanes (tocsr (tmx t))) = nrows (tmx t)). { rewrite <- Rb. unfold nrows. now rewrite Fb. }
  rewrite mk_ttm_ok.
  2:{ unfold nrows at 1, nmajor. cbn [sfmt lanes]. rewrite !app_length, LA, LB, (tg_rows _ T), (tg_rows _ Tt). reflexivity. }
  2:{ apply T. }
  eexists. split; [reflexivity|]. unfold same_table. rewrite A. cbn [ar ac cell tmx trows tcols]. split; [congruence|]. split; [congruence|].
  split. { unfold nrows at 1, nmajor. cbn [sfmt lanes]. rewrite app_length. congruence. } split; [unfold ncols at 1; cbn [sfmt nminor]; congruence|].
  intros i j I J. unfold spget, mget. cbn [sfmt lanes]. destruct (Nat.ltb_spec i (ar (dmx d))) as [L|L].
  - rewrite ST by assumption. rewrite <- Pa. unfold spget, mget. rewrite Fa, app_nth1 by lia. reflexivity.
  - rewrite STt by lia. rewrite <- Pb. unfold spget, mget. rewrite Fb, app_nth2 by lia. now rewrite LA, N1.
Qed.
Lemma concat_columns m o m' : dgood m -> dgood o -> d_concat m o true = Ok m' ->
  drows m = drows o /\ drows m' = drows m /\ dcols m' = dcols m ++ dcols o /\
  forall i j r c, nth_error (drows m') i = Some r -> nth_error (dcols m') j = Some c ->
    cell (dmx m') i j = if j <? length (dcols m) then dval m r c else dval o r c.
Proof.
  intros G H E. unfold d_concat in E. destruct (dbeh m); [|discriminate]. unfold a_hstack in E. destruct (Nat.eqb_spec (ar (dmx m)) (ar (dmx o))); [|discriminate].
  cbn [rbind] in E. destruct (eqb (drows m) (drows o)) eqn:ER; [|discriminate]. apply (proj1 (eqb_eq _ _)) in ER. destruct (mk_dense_inv _ _ _ _ E) as (A & R & C & _).
  split; [assumption|]. split; [assumption|]. split; [assumption|]. intros i j r c Er Ec. rewrite A. cbn [cell]. rewrite (dg_ac _ G). rewrite R in Er. rewrite C in Ec.
  destruct (Nat.ltb_spec j (length (dcols m))) as [L|L].
  - rewrite nth_error_app1 in Ec by assumption. symmetry. now apply dval_at.
  - rewrite nth_error_app2 in Ec by assumption. symmetry. apply dval_at; auto. congruence.
Qed.
Lemma square_refuses m : dbeh m = Square ->
  (forall o, d_multiply m o = Err NotImplementedError) /\ (forall op k, d_cmp op m k = Err NotImplementedError) /\ d_transpose m = Err NotImplementedError /\
  (forall o axis1, d_concat m o axis1 = Err NotImplementedError) /\ (forall items axis1 x, d_reorder m items axis1 <> Ok x).
Proof.
  intros B. unfold d_multiply, d_cmp, d_transpose, d_concat, d_reorder. rewrite B. repeat split. intros items axis1 x. destruct (rmapm _ _); discriminate.
Qed.
