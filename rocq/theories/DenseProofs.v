(** * Proofs about dense matrices. *)
From Coq Require Import NArith ZArith Bool Arith QArith Qcanon Qabs Qround Lia Lqa List Sorted.
From Verif Require Import Base BaseLemmas MxModel MxTypedModel MxSpec MxProofs MxTtmProofs MxOpsProofs MxElemProofs DenseModel DenseSpec.
Import ListNotations.
Local Open Scope nat_scope.

Lemma close_near x y : close x y = true <-> near x y.
Proof. unfold close, near. apply Qle_bool_iff. Qed.
Lemma near_refl x : near x x.
Proof.
  unfold near. setoid_replace (this x - this x)%Q with 0%Q by ring. change (Qabs 0) with 0%Q.
  assert (0 <= Qabs (this x))%Q by apply Qabs_nonneg. lra.
Qed.
Lemma allcells_iff f n m : allcells f n m = true <-> forall i j, i < n -> j < m -> f i j = true.
Proof.
  unfold allcells. rewrite forallb_forall. split; intros A.
  - intros i j I J. specialize (A i). rewrite forallb_forall in A. apply A; apply in_seq; lia.
  - intros i I. rewrite forallb_forall. intros j J. apply in_seq in I, J. apply A; lia.
Qed.
Lemma allclose_iff a b : allclose a b = true <-> forall i j, i < ar a -> j < ac a -> near (cell a i j) (cell b i j).
Proof. unfold allclose. rewrite allcells_iff. split; intros A i j I J; apply close_near; auto. Qed.
Lemma symmetric_iff a : check_symmetric a = true <-> near_symmetric a.
Proof.
  unfold check_symmetric, near_symmetric. destruct (Nat.eqb_spec (ar a) (ac a)) as [E|E]; cbn [negb].
  - rewrite allclose_iff. cbn [atrans cell]. split; [intros A; split; auto; intros; apply A; lia|intros [_ A] i j I J; apply A; lia].
  - split; [discriminate|tauto].
Qed.
Lemma symmetric_not a : check_symmetric a = false <-> ~ near_symmetric a.
Proof. rewrite <- symmetric_iff. destruct (check_symmetric a); split; congruence. Qed.
Lemma near_symmetric_dec a : {near_symmetric a} + {~ near_symmetric a}.
Proof. destruct (check_symmetric a) eqn:E; [left; now apply symmetric_iff|right; now apply symmetric_not]. Qed.

(** ** Construction *)
Lemma mk_dense_shape a rows cols : ~ (ar a = length rows /\ ac a = length cols) -> mk_dense a rows cols = Err ValueError.
Proof. unfold mk_dense. intros H. destruct (Nat.eqb_spec (ar a) (length rows)); [|reflexivity]. destruct (Nat.eqb_spec (ac a) (length cols)); [tauto|reflexivity]. Qed.
Lemma mk_dense_normal a rows cols : ar a = length rows -> ac a = length cols -> ~ near_symmetric a -> mk_dense a rows cols = Ok (Dtm a rows cols Normal).
Proof. intros R C N. unfold mk_dense. rewrite R, C, !Nat.eqb_refl. cbn [negb]. apply symmetric_not in N. now rewrite N. Qed.
Lemma mk_dense_square a rows : ar a = length rows -> near_symmetric a -> mk_dense a rows rows = Ok (Dtm a rows rows Square).
Proof.
  intros R N. unfold mk_dense. assert (C : ac a = length rows) by (destruct N; congruence). rewrite R, C, !Nat.eqb_refl. cbn [negb]. apply symmetric_iff in N.
  now rewrite N, eqb_refl.
Qed.
Lemma mk_dense_fail a rows cols : near_symmetric a -> rows <> cols -> mk_dense a rows cols = Err ValueError.
Proof.
  intros N D. unfold mk_dense. destruct (ar a =? length rows); [|reflexivity]. destruct (ac a =? length cols); [|reflexivity]. cbn [negb].
  apply symmetric_iff in N. rewrite N. now rewrite (proj2 (eqb_neq _ _) D).
Qed.
Lemma mk_dense_inv a rows cols m : mk_dense a rows cols = Ok m ->
  dmx m = a /\ drows m = rows /\ dcols m = cols /\ ar a = length rows /\ ac a = length cols /\
  (dbeh m = Square /\ near_symmetric a /\ rows = cols \/ dbeh m = Normal /\ ~ near_symmetric a).
Proof.
  unfold mk_dense. destruct (Nat.eqb_spec (ar a) (length rows)); [|discriminate]. destruct (Nat.eqb_spec (ac a) (length cols)); [|discriminate]. cbn [negb].
  destruct (check_symmetric a) eqn:S.
  - destruct (eqb rows cols) eqn:E; [|discriminate]. apply (proj1 (eqb_eq _ _)) in E. cbn [negb]. injection 1 as <-. cbn. repeat split; auto. left. repeat split; auto; now apply symmetric_iff.
  - injection 1 as <-. cbn. repeat split; auto. right. split; [reflexivity|]. now apply symmetric_not.
Qed.
Lemma mk_dense_made a rows cols m : mk_dense a rows cols = Ok m -> mk_dense (dmx m) (drows m) (dcols m) = Ok m.
Proof. intros H. destruct (mk_dense_inv _ _ _ _ H) as (-> & -> & -> & _). exact H. Qed.

Lemma dg_ar m : dgood m -> ar (dmx m) = length (drows m).
Proof. intros G. now destruct (mk_dense_inv _ _ _ _ (dg_made _ G)) as (_ & _ & _ & ? & _). Qed.
Lemma dg_ac m : dgood m -> ac (dmx m) = length (dcols m).
Proof. intros G. now destruct (mk_dense_inv _ _ _ _ (dg_made _ G)) as (_ & _ & _ & _ & ? & _). Qed.
Lemma dg_beh m : dgood m -> dbeh m = Square /\ near_symmetric (dmx m) /\ drows m = dcols m \/ dbeh m = Normal /\ ~ near_symmetric (dmx m).
Proof. intros G. now destruct (mk_dense_inv _ _ _ _ (dg_made _ G)) as (_ & _ & _ & _ & _ & ?). Qed.

(** ** Integers *)
Lemma near_int x y : small_int x -> small_int y -> near x y -> x = y.
Proof.
  intros (a & -> & A) (b & -> & B) N. unfold near in N. unfold Q2Qc, this in N. rewrite !Qred_correct in N.
  f_equal. f_equal. destruct (Z.eq_dec a b) as [E|E]; [assumption|exfalso].
  assert (H : (inject_Z a - inject_Z b == inject_Z (a - b))%Q) by (unfold Z.sub; rewrite inject_Z_plus, inject_Z_opp; ring).
  assert (H2 : (Qabs (inject_Z (a - b)) == inject_Z (Z.abs (a - b)))%Q) by reflexivity.
  assert (H3 : (Qabs (inject_Z b) == inject_Z (Z.abs b))%Q) by reflexivity.
  rewrite H, H2, H3 in N. assert (1 <= inject_Z (Z.abs (a - b)))%Q by (change 1%Q with (inject_Z 1); rewrite <- Zle_Qle; lia).
  assert (inject_Z (Z.abs b) <= inject_Z 99999)%Q by (rewrite <- Zle_Qle; lia). change (inject_Z 99999) with (99999 # 1) in H1. lra.
Qed.

(** ** Values *)
Lemma dval_at m i j r c : dgood m -> nth_error (drows m) i = Some r -> nth_error (dcols m) j = Some c -> dval m r c = cell (dmx m) i j.
Proof.
  intros G R C. unfold dval. rewrite (index_of_nth _ _ _ (dg_nr _ G) R), (index_of_nth _ _ _ (dg_nc _ G) C). reflexivity.
Qed.
Lemma nth_error_lt {A} (l : list A) i : i < length l -> exists x, nth_error l i = Some x.
Proof. intros H. destruct (nth_error l i) eqn:E; [eauto|]. apply nth_error_None in E. lia. Qed.
Lemma nth_error_lt' {A} (l : list A) i x : nth_error l i = Some x -> i < length l.
Proof. intros H. apply nth_error_Some. congruence. Qed.

(** An array whose cells are the values of the pairs of items. *)
Definition tabulates (a : arr) (f : pystr -> pystr -> Qc) (R C : list pystr) : Prop :=
  ar a = length R /\ ac a = length C /\ forall i j r c, nth_error R i = Some r -> nth_error C j = Some c -> cell a i j = f r c.
Lemma tabulates_symmetric a f R C : tabulates a f R C -> (near_symmetric a <-> looks_symmetric f R C).
Proof.
  intros (A & B & T). unfold near_symmetric, looks_symmetric. rewrite A, B. split; intros [E H]; (split; [assumption|]).
  - intros i j r c r' c' R1 C1 R2 C2. rewrite <- (T _ _ _ _ R1 C1), <- (T _ _ _ _ R2 C2). apply H; eapply nth_error_lt'; eauto.
  - intros i j I J. destruct (nth_error_lt R i I) as [r R1], (nth_error_lt R j J) as [r' R2].
    destruct (nth_error_lt C i) as [c' C2]; [lia|]. destruct (nth_error_lt C j) as [c C1]; [lia|].
    rewrite (T _ _ _ _ R1 C1), (T _ _ _ _ R2 C2). eauto.
Qed.
Lemma tabulates_self m : dgood m -> tabulates (dmx m) (dval m) (drows m) (dcols m).
Proof. intros G. split; [now apply dg_ar|]. split; [now apply dg_ac|]. intros. symmetry. now apply dval_at. Qed.

(** ** submatrix *)
Lemma d_sub_tab m row col : dgood m -> dbeh m = Normal /\ (row <> None \/ col <> None) \/ row <> None /\ col <> None ->
  exists a, d_sub m (option_map (map (idx (drows m))) (option_map (fun l => requested (drows m) (Some l)) row))
                    (option_map (map (idx (dcols m))) (option_map (fun l => requested (dcols m) (Some l)) col)) = Ok a
    /\ tabulates a (dval m) (requested (drows m) row) (requested (dcols m) col).
Proof.
  intros G H.
  assert (NR : forall l i r, nth_error (requested (drows m) (Some l)) i = Some r -> nth i (map (idx (drows m)) (requested (drows m) (Some l))) 0 = idx (drows m) r).
  { intros l i r E. apply nth_error_nth. now apply map_nth_error. }
  assert (NC : forall l i r, nth_error (requested (dcols m) (Some l)) i = Some r -> nth i (map (idx (dcols m)) (requested (dcols m) (Some l))) 0 = idx (dcols m) r).
  { intros l i r E. apply nth_error_nth. now apply map_nth_error. }
  assert (IR : forall l i r, nth_error (requested (drows m) l) i = Some r -> In r (drows m)) by (intros; eapply requested_In, nth_error_In; eauto).
  assert (IC : forall l i r, nth_error (requested (dcols m) l) i = Some r -> In r (dcols m)) by (intros; eapply requested_In, nth_error_In; eauto).
  pose proof (dg_ar _ G) as A. pose proof (dg_ac _ G) as B.
  destruct row as [lr|], col as [lc|]; cbn [option_map].
  - exists (a_cols (a_rows (dmx m) (map (idx (drows m)) (requested (drows m) (Some lr)))) (map (idx (dcols m)) (requested (dcols m) (Some lc)))).
    split; [unfold d_sub; now destruct (dbeh m)|]. split; [apply map_length|]. split; [apply map_length|].
    intros i j r c R C. cbn [a_cols a_rows cell]. rewrite (NR _ _ _ R), (NC _ _ _ C). symmetry. apply dval_at; [assumption| |]; apply idx_nth; eauto.
  - exists (a_rows (dmx m) (map (idx (drows m)) (requested (drows m) (Some lr)))).
    split; [unfold d_sub; destruct H as [[-> _]|[_ []]]; reflexivity|]. split; [apply map_length|]. split; [assumption|].
    intros i j r c R C. cbn [a_rows cell]. rewrite (NR _ _ _ R). symmetry. apply dval_at; [assumption| |]; [apply idx_nth; eauto|assumption].
  - exists (a_cols (dmx m) (map (idx (dcols m)) (requested (dcols m) (Some lc)))).
    split; [unfold d_sub; destruct H as [[-> _]|[[] _]]; reflexivity|]. split; [assumption|]. split; [apply map_length|].
    intros i j r c R C. cbn [a_cols cell]. rewrite (NC _ _ _ C). symmetry. apply dval_at; [assumption|assumption|]. apply idx_nth; eauto.
  - exfalso. destruct H as [[_ [[]|[]]]|[[] _]]; reflexivity.
Qed.
Lemma d_submatrix_eq m row col : dgood m -> found (drows m) row -> found (dcols m) col ->
  d_submatrix m row col =
  rbind (d_sub m (option_map (map (idx (drows m))) (option_map (fun l => requested (drows m) (Some l)) row))
                 (option_map (map (idx (dcols m))) (option_map (fun l => requested (dcols m) (Some l)) col)))
        (fun a => rmap Some (mk_dense a (requested (drows m) row) (requested (dcols m) col))).
Proof.
  intros G Fr Fc. unfold d_submatrix. rewrite (select_spec (drows m)), (select_spec (dcols m)) by apply G.
  destruct row as [lr|], col as [lc|]; cbn [found] in Fr, Fc.
  - destruct (requested (drows m) (Some lr)) as [|x xs] eqn:E1; [congruence|]. destruct (requested (dcols m) (Some lc)) as [|y ys] eqn:E2; [congruence|].
    cbn [option_map]. rewrite E1, E2. reflexivity.
  - destruct (requested (drows m) (Some lr)) as [|x xs] eqn:E1; [congruence|]. cbn [option_map]. rewrite E1. reflexivity.
  - destruct (requested (dcols m) (Some lc)) as [|y ys] eqn:E2; [congruence|]. cbn [option_map]. rewrite E2. reflexivity.
  - reflexivity.
Qed.
Lemma d_submatrix_none m row col : dgood m -> ~ (found (drows m) row /\ found (dcols m) col) -> d_submatrix m row col = Ok None.
Proof.
  intros G F. unfold d_submatrix. rewrite (select_spec (drows m)), (select_spec (dcols m)) by apply G.
  destruct row as [lr|], col as [lc|]; cbn [found] in F.
  - destruct (requested (drows m) (Some lr)) eqn:E1; [reflexivity|]. destruct (requested (dcols m) (Some lc)) eqn:E2; [reflexivity|].
    exfalso. apply F. split; discriminate.
  - destruct (requested (drows m) (Some lr)) eqn:E1; [reflexivity|]. exfalso. apply F. split; [discriminate|exact I].
  - destruct (requested (dcols m) (Some lc)) eqn:E1; [reflexivity|]. exfalso. apply F. split; [exact I|discriminate].
  - exfalso. apply F. split; exact I.
Qed.
Lemma option_dec {A} (o : option A) : {o <> None} + {o = None}.
Proof. destruct o; [left; discriminate|now right]. Qed.
Lemma sub_ways m row col : (dbeh m = Normal /\ (row <> None \/ col <> None) \/ row <> None /\ col <> None) \/
  d_sub m (option_map (map (idx (drows m))) (option_map (fun l => requested (drows m) (Some l)) row))
          (option_map (map (idx (dcols m))) (option_map (fun l => requested (dcols m) (Some l)) col)) = Err ValueError.
Proof.
  unfold d_sub. destruct row, col, (dbeh m); cbn [option_map]; auto; left; try (right; split; discriminate); left; (split; [reflexivity|]); try (left; discriminate); right; discriminate.
Qed.
Lemma d_submatrix_cells m row col m' : dgood m -> d_submatrix m row col = Ok (Some m') ->
  drows m' = requested (drows m) row /\ dcols m' = requested (dcols m) col /\ tabulates (dmx m') (dval m) (drows m') (dcols m') /\
  found (drows m) row /\ found (dcols m) col.
Proof.
  intros G E. destruct (found_dec (drows m) row) as [Fr|Fr]; [destruct (found_dec (dcols m) col) as [Fc|Fc]|].
  - rewrite d_submatrix_eq in E by assumption. destruct (sub_ways m row col) as [W|W]; [|rewrite W in E; discriminate].
    destruct (d_sub_tab m row col G W) as (a & Ea & T). rewrite Ea in E. cbn [rbind] in E.
    destruct (mk_dense a _ _) as [x|] eqn:M in E; [|discriminate]. injection E as ->. destruct (mk_dense_inv _ _ _ _ M) as (-> & -> & -> & _). auto.
  - rewrite d_submatrix_none in E by tauto. discriminate.
  - rewrite d_submatrix_none in E by tauto. discriminate.
Qed.
Lemma d_submatrix_ok m row col : dgood m -> found (drows m) row -> found (dcols m) col ->
  dbeh m = Normal /\ (row <> None \/ col <> None) \/ row <> None /\ col <> None ->
  (~ looks_symmetric (dval m) (requested (drows m) row) (requested (dcols m) col) \/ requested (drows m) row = requested (dcols m) col) ->
  exists m', d_submatrix m row col = Ok (Some m').
Proof.
  intros G Fr Fc W H. rewrite d_submatrix_eq by assumption. destruct (d_sub_tab m row col G W) as (a & Ea & T). rewrite Ea. cbn [rbind].
  destruct (near_symmetric_dec a) as [S|S].
  - assert (requested (drows m) row = requested (dcols m) col) as Q. { destruct H as [H|H]; [|assumption]. exfalso. now apply H, (tabulates_symmetric a _ _ _ T). }
    rewrite <- Q in *. rewrite mk_dense_square; [eexists; reflexivity|apply T|assumption].
  - rewrite mk_dense_normal; [eexists; reflexivity|apply T|apply T|assumption].
Qed.
Lemma d_submatrix_fail m row col : dgood m -> found (drows m) row -> found (dcols m) col ->
  looks_symmetric (dval m) (requested (drows m) row) (requested (dcols m) col) -> requested (drows m) row <> requested (dcols m) col ->
  d_submatrix m row col = Err ValueError.
Proof.
  intros G Fr Fc L D. rewrite d_submatrix_eq by assumption. destruct (sub_ways m row col) as [W|W]; [|now rewrite W].
  destruct (d_sub_tab m row col G W) as (a & Ea & T). rewrite Ea. cbn [rbind]. rewrite mk_dense_fail; [reflexivity| |assumption]. now apply (tabulates_symmetric a _ _ _ T).
Qed.
Lemma d_submatrix_square m row col : dgood m -> dbeh m = Square -> row = None \/ col = None -> found (drows m) row -> found (dcols m) col ->
  d_submatrix m row col = Err ValueError.
Proof.
  intros G S N Fr Fc. rewrite d_submatrix_eq by assumption. destruct (sub_ways m row col) as [W|W]; [|now rewrite W].
  exfalso. destruct W as [[W _]|[W1 W2]]; [congruence|]. destruct N; auto.
Qed.
Lemma requested_one items r : In r items -> requested items (Some [r]) = [r].
Proof. intros I. cbn. now rewrite (proj2 (mem_In _ _) I). Qed.
Lemma d_one_cell m r c : dgood m -> In r (drows m) -> In c (dcols m) -> r <> c -> d_submatrix m (Some [r]) (Some [c]) = Err ValueError.
Proof.
  intros G R C D. apply d_submatrix_fail; unfold found; rewrite ?requested_one by assumption; auto; try discriminate; [|congruence].
  split; [reflexivity|]. intros i j r1 c1 r2 c2 R1 C1 R2 C2. apply nth_error_In in R1, R2, C1, C2. cbn in *. destruct R1 as [<-|[]], R2 as [<-|[]], C1 as [<-|[]], C2 as [<-|[]]. apply near_refl.
Qed.

(** ** transpose, reorder, comparisons, concatenate *)
Lemma near_symmetric_trans a : near_symmetric (atrans a) <-> near_symmetric a.
Proof. unfold near_symmetric, atrans. cbn. split; intros [E H]; (split; [congruence|]); intros; apply H; congruence. Qed.
Lemma d_transpose_ok m : dgood m -> dbeh m = Normal -> exists m', d_transpose m = Ok m' /\ dgood m' /\ drows m' = dcols m /\ dcols m' = drows m /\
  (forall r c, dval m' c r = dval m r c) /\ dbeh m' = Normal /\
  exists m'', d_transpose m' = Ok m'' /\ drows m'' = drows m /\ dcols m'' = dcols m /\ forall r c, dval m'' r c = dval m r c.
Proof.
  intros G B. destruct (dg_beh _ G) as [[? _]|[_ N]]; [congruence|]. unfold d_transpose at 1. rewrite B.
  assert (N' : ~ near_symmetric (atrans (dmx m))) by now rewrite near_symmetric_trans.
  rewrite mk_dense_normal by (auto; cbn; auto using dg_ar, dg_ac). eexists. split; [reflexivity|].
  split. { constructor; cbn; try apply G. rewrite mk_dense_normal; auto; cbn; auto using dg_ar, dg_ac. }
  split; [reflexivity|]. split; [reflexivity|]. split. { intros r c. unfold dval. cbn. destruct (index_of r (drows m)), (index_of c (dcols m)); reflexivity. }
  split; [reflexivity|]. unfold d_transpose. cbn [dbeh dmx drows dcols]. rewrite mk_dense_normal; cbn; auto using dg_ar, dg_ac.
  eexists. split; [reflexivity|]. split; [reflexivity|]. split; reflexivity.
Qed.
Lemma d_reorder_cells m items axis1 m' : dgood m -> d_reorder m items axis1 = Ok m' ->
  drows m' = (if axis1 then drows m else items) /\ dcols m' = (if axis1 then items else dcols m) /\
  tabulates (dmx m') (dval m) (drows m') (dcols m').
Proof.
  intros G. unfold d_reorder. destruct (rmapm _ items) as [idx'|] eqn:L; [|discriminate]. cbn [rbind].
  assert (P : length idx' = length items /\ forall i x, nth_error items i = Some x -> nth_error (if axis1 then dcols m else drows m) (nth i idx' 0) = Some x).
  { assert (ND : NoDup (if axis1 then dcols m else drows m)) by (destruct axis1; apply G). revert idx' L.
    induction items as [|y items IH]; intros idx' L; cbn in L.
    - injection L as <-. split; [reflexivity|]. intros [|i] x E; discriminate.
    - destruct (lookup _ y) as [k|] eqn:K; [|discriminate]. cbn in L. destruct (rmapm _ items) as [ks|]; [|discriminate]. injection L as <-.
      destruct (IH _ eq_refl) as [IH1 IH2]. split; [cbn; congruence|]. intros [|i] x E; cbn in E |- *; [|auto]. injection E as <-.
      unfold lookup in K. rewrite dget_item2id in K by assumption. destruct (index_of y _) eqn:Q in K; [|discriminate]. injection K as <-. now apply index_of_Some in Q. }
  destruct P as [PL P]. destruct (dbeh m); [|discriminate]. destruct idx' as [|i0 idx] eqn:Ei; [discriminate|]. rewrite <- Ei in *. clear Ei i0 idx. destruct axis1; intros E; destruct (mk_dense_inv _ _ _ _ E) as (-> & -> & -> & _);
    (split; [reflexivity|]); (split; [reflexivity|]).
  - split; [cbn; now apply dg_ar|]. split; [assumption|]. intros i j r c R C. cbn. symmetry. apply dval_at; auto.
  - split; [assumption|]. split; [cbn; now apply dg_ac|]. intros i j r c R C. cbn. symmetry. apply dval_at; auto.
Qed.
Lemma d_cmp_cells op m k m' : dgood m -> d_cmp op m k = Ok m' -> drows m' = drows m /\ dcols m' = dcols m /\ dgood m' /\
  forall r c, In r (drows m) -> In c (dcols m) -> dval m' r c = if cmpb op (dval m r c) k then one else zero.
Proof.
  intros G. unfold d_cmp. destruct (dbeh m); [|discriminate]. intros E. pose proof (mk_dense_made _ _ _ _ E) as MD.
  destruct (mk_dense_inv _ _ _ _ E) as (A & B & C & _). split; [assumption|]. split; [assumption|].
  split. { constructor; [assumption|rewrite B; apply G|rewrite C; apply G]. }
  intros r c R1 C1. unfold dval. rewrite B, C, A.
  destruct (index_of_In _ _ R1) as (i & -> & _), (index_of_In _ _ C1) as (j & -> & _). reflexivity.
Qed.
Lemma d_cmp_ok op m k : dgood m -> dbeh m = Normal ->
  ~ looks_symmetric (fun r c => if cmpb op (dval m r c) k then one else zero) (drows m) (dcols m) \/ drows m = dcols m ->
  exists m', d_cmp op m k = Ok m'.
Proof.
  intros G B H. unfold d_cmp. rewrite B.
  assert (T : tabulates (a_map (fun v => if cmpb op v k then one else zero) (dmx m)) (fun r c => if cmpb op (dval m r c) k then one else zero) (drows m) (dcols m)).
  { destruct (tabulates_self _ G) as (T1 & T2 & T3). split; [assumption|]. split; [assumption|]. intros. cbn. now rewrite (T3 _ _ _ _ H0 H1). }
  destruct (near_symmetric_dec (a_map (fun v => if cmpb op v k then one else zero) (dmx m))) as [S|S].
  - assert (Q : drows m = dcols m). { destruct H as [H|H]; [|assumption]. exfalso. now apply H, (tabulates_symmetric _ _ _ _ T). }
    rewrite <- Q in *. rewrite mk_dense_square; [eauto|apply T|assumption].
  - rewrite mk_dense_normal; [eauto|apply T|apply T|assumption].
Qed.
Lemma d_cmp_fail op m k : dgood m -> dbeh m = Normal ->
  looks_symmetric (fun r c => if cmpb op (dval m r c) k then one else zero) (drows m) (dcols m) -> drows m <> dcols m ->
  d_cmp op m k = Err ValueError.
Proof.
  intros G B H D. unfold d_cmp. rewrite B.
  assert (T : tabulates (a_map (fun v => if cmpb op v k then one else zero) (dmx m)) (fun r c => if cmpb op (dval m r c) k then one else zero) (drows m) (dcols m)).
  { destruct (tabulates_self _ G) as (T1 & T2 & T3). split; [assumption|]. split; [assumption|]. intros. cbn. now rewrite (T3 _ _ _ _ H0 H1). }
  apply mk_dense_fail; [|assumption]. now apply (tabulates_symmetric _ _ _ _ T).
Qed.

(** ** equal *)
Lemma d_equal_ints m o : dgood m -> dgood o -> (forall r c, small_int (dval m r c)) -> (forall r c, small_int (dval o r c)) ->
  (d_equal m o = true <-> drows m = drows o /\ dcols m = dcols o /\ forall r c, dval m r c = dval o r c).
Proof.
  intros G H Im Io. pose proof (dg_ar _ G) as A1. pose proof (dg_ac _ G) as A2. pose proof (dg_ar _ H) as A3. pose proof (dg_ac _ H) as A4. unfold d_equal. split.
  - destruct (eqb (drows m) (drows o)) eqn:E1; [|discriminate]. destruct (eqb (dcols m) (dcols o)) eqn:E2; [|discriminate]. apply (proj1 (eqb_eq _ _)) in E1, E2. cbn [negb].
    destruct (negb _); [discriminate|]. rewrite allclose_iff. intros C. split; [assumption|]. split; [assumption|]. intros r c.
    destruct (index_of r (drows m)) as [i|] eqn:I.
    + destruct (index_of c (dcols m)) as [j|] eqn:J.
      * apply index_of_Some in I as [I _], J as [J _]. pose proof (dval_at _ _ _ _ _ G I J) as V1.
        assert (V2 : dval o r c = cell (dmx o) i j) by (apply dval_at; auto; congruence).
        apply near_int; auto. rewrite V1, V2. apply C; [rewrite A1|rewrite A2]; eapply nth_error_lt'; eauto.
      * unfold dval. rewrite <- E1, <- E2, I, J. reflexivity.
    + unfold dval. rewrite <- E1, I. reflexivity.
  - intros (E1 & E2 & V). rewrite E1, E2, !eqb_refl. cbn [negb].
    assert (Q1 : ar (dmx m) = ar (dmx o)) by congruence. assert (Q2 : ac (dmx m) = ac (dmx o)) by congruence. rewrite Q1, Q2, !Nat.eqb_refl. cbn [andb negb].
    apply allclose_iff. intros i j I J. rewrite A1 in I. rewrite A2 in J. destruct (nth_error_lt _ _ I) as [r Er], (nth_error_lt _ _ J) as [c Ec].
    rewrite <- (dval_at _ _ _ _ _ G Er Ec), V, (dval_at o i j r c H) by congruence. apply near_refl.
Qed.
Lemma d_equal_refl m : dgood m -> d_equal m m = true.
Proof.
  intros G. unfold d_equal. rewrite !eqb_refl, !Nat.eqb_refl. cbn [negb andb]. apply allclose_iff. intros. apply near_refl.
Qed.
Lemma near_symmetric_ints a : (forall i j, i < ar a -> j < ac a -> small_int (cell a i j)) ->
  (near_symmetric a <-> ar a = ac a /\ forall i j, i < ar a -> j < ar a -> cell a i j = cell a j i).
Proof.
  intros I. unfold near_symmetric. split; intros [E H]; (split; [assumption|]); intros i j A B.
  - apply near_int; [apply I; congruence|apply I; congruence|auto].
  - rewrite (H i j A B). apply near_refl.
Qed.
Lemma one_cell_fails q r c : r <> c -> mk_dense (Arr 1 1 (fun _ _ => q)) [r] [c] = Err ValueError.
Proof. intros D. apply mk_dense_fail; [|congruence]. split; [reflexivity|]. intros. cbn. apply near_refl. Qed.
