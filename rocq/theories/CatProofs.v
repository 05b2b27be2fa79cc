(** * Proofs about concatenated matrices. *)
From Coq Require Import String NArith ZArith Bool Arith Lia Sorted List.
From Verif Require Import Base BaseLemmas VocabModel MxModel MxSpec MxProofs MxTtmProofs MxTypedModel DenseModel DenseAgreeProofs IdxModel IdxSpec IdxProofs CatModel CatSpec.
Import ListNotations.
Local Open Scope nat_scope.

Section Cat.
  Context {V : Type} {NV : Num V}.
  Notation smx := (smx V).
  Notation stm := (stm V).

  Lemma scell_entries (m : smx) i j : scell m i j = cellsum (sentries m) i j.
  Proof. destruct m as [m|nr nc es]; cbn [scell sentries]; [now rewrite entries_get|]. reflexivity. Qed.
  Lemma swf_range (m : smx) : swf m -> forall e, In e (sentries m) -> fst (fst e) < srows m /\ snd (fst e) < scols m.
  Proof.
    destruct m as [m|nr nc es]; cbn [swf sentries srows scols]; intros W.
    - pose proof (entries_range m W) as H. unfold in_range in H. rewrite Forall_forall in H. exact H.
    - now rewrite Forall_forall in W.
  Qed.
  Lemma cell_shift (es : list (nat * nat * V)) dr dc i j :
    cellsum (map (shift dr dc) es) i j = if (dr <=? i) && (dc <=? j) then cellsum es (i - dr) (j - dc) else zero.
  Proof.
    unfold cellsum. etransitivity; [apply (pick_map (fun k : nat * nat => (fst k + dr, snd k + dc)))|]. destruct (Nat.leb_spec dr i), (Nat.leb_spec dc j); cbn [andb].
    - apply pick_ext. intros [[x y] v] _. unfold ij. cbn [fst snd].
      destruct (Nat.eqb_spec (x + dr) i), (Nat.eqb_spec x (i - dr)), (Nat.eqb_spec (y + dc) j), (Nat.eqb_spec y (j - dc)); cbn; lia.
    - apply pick_none. intros [[x y] v] _. unfold ij. cbn [fst snd]. destruct (Nat.eqb_spec (y + dc) j); [lia|]. apply andb_false_r.
    - apply pick_none. intros [[x y] v] _. unfold ij. cbn [fst snd]. destruct (Nat.eqb_spec (x + dr) i); [lia|]. reflexivity.
    - apply pick_none. intros [[x y] v] _. unfold ij. cbn [fst snd]. destruct (Nat.eqb_spec (x + dr) i); [lia|]. reflexivity.
  Qed.
  Lemma cell_out (m : smx) i j : swf m -> ~ (i < srows m /\ j < scols m) -> cellsum (sentries m) i j = zero.
  Proof.
    intros W H. apply pick_none. intros [[x y] v] I. apply (swf_range m W) in I. cbn [fst snd] in I. unfold ij. cbn [fst snd].
    destruct (Nat.eqb_spec x i), (Nat.eqb_spec y j); cbn; auto. exfalso. apply H. lia.
  Qed.
  Lemma coo_rows_cells (a b : smx) i j : swf a -> swf b ->
    cellsum (sentries a ++ map (shift (srows a) 0) (sentries b)) i j = if i <? srows a then scell a i j else scell b (i - srows a) j.
  Proof.
    intros Wa Wb. unfold cellsum. rewrite pick_app. fold (cellsum (sentries a) i j). fold (cellsum (map (shift (srows a) 0) (sentries b)) i j).
    rewrite cell_shift, Nat.sub_0_r. cbn [Nat.leb]. rewrite andb_true_r, !scell_entries.
    destruct (Nat.ltb_spec i (srows a)), (Nat.leb_spec (srows a) i); try lia; [apply add_0r|]. rewrite cell_out by (auto; lia). apply add_0.
  Qed.
  Lemma coo_cols_cells (a b : smx) i j : swf a -> swf b ->
    cellsum (sentries a ++ map (shift 0 (scols a)) (sentries b)) i j = if j <? scols a then scell a i j else scell b i (j - scols a).
  Proof.
    intros Wa Wb. unfold cellsum. rewrite pick_app. fold (cellsum (sentries a) i j). fold (cellsum (map (shift 0 (scols a)) (sentries b)) i j).
    rewrite cell_shift, Nat.sub_0_r. cbn [Nat.leb]. cbn [andb]. rewrite !scell_entries.
    destruct (Nat.ltb_spec j (scols a)), (Nat.leb_spec (scols a) j); try lia; [apply add_0r|]. rewrite cell_out by (auto; lia). apply add_0.
  Qed.
  Lemma coo_rows_wf (a b : smx) : swf a -> swf b -> scols a = scols b ->
    Forall (fun e => fst (fst e) < srows a + srows b /\ snd (fst e) < scols a) (sentries a ++ map (shift (srows a) 0) (sentries b)).
  Proof.
    intros Wa Wb E. apply Forall_app. split; apply Forall_forall; intros e I.
    - apply (swf_range a Wa) in I. lia.
    - apply in_map_iff in I as (e' & <- & I). apply (swf_range b Wb) in I. cbn [shift fst snd]. lia.
  Qed.
  Lemma coo_cols_wf (a b : smx) : swf a -> swf b -> srows a = srows b ->
    Forall (fun e => fst (fst e) < srows a /\ snd (fst e) < scols a + scols b) (sentries a ++ map (shift 0 (scols a)) (sentries b)).
  Proof.
    intros Wa Wb E. apply Forall_app. split; apply Forall_forall; intros e I.
    - apply (swf_range a Wa) in I. lia.
    - apply in_map_iff in I as (e' & <- & I). apply (swf_range b Wb) in I. cbn [shift fst snd]. lia.
  Qed.

  Definition rows_stacked (a b c : smx) : Prop :=
    swf c /\ srows c = srows a + srows b /\ scols c = scols a /\ (forall i j, scell c i j = if i <? srows a then scell a i j else scell b (i - srows a) j) /\
    (subscriptable c <-> is_fmt Csr a /\ is_fmt Csr b) /\ (is_fmt Csr a -> is_fmt Csr b -> is_fmt Csr c).
  Definition cols_stacked (a b c : smx) : Prop :=
    swf c /\ srows c = srows a /\ scols c = scols a + scols b /\ (forall i j, scell c i j = if j <? scols a then scell a i j else scell b i (j - scols a)) /\
    (subscriptable c <-> is_fmt Csc a /\ is_fmt Csc b) /\ (is_fmt Csc a -> is_fmt Csc b -> is_fmt Csc c).
  Lemma coo_rows (a b : smx) : swf a -> swf b -> scols a = scols b -> ~ (is_fmt Csr a /\ is_fmt Csr b) ->
    rows_stacked a b (Coo (srows a + srows b) (scols a) (sentries a ++ map (shift (srows a) 0) (sentries b))).
  Proof.
    intros Wa Wb E Nf. split; [now apply coo_rows_wf|]. split; [reflexivity|]. split; [reflexivity|]. split; [intros; now apply coo_rows_cells|].
    cbn [subscriptable is_fmt]. tauto.
  Qed.
  Lemma coo_cols (a b : smx) : swf a -> swf b -> srows a = srows b -> ~ (is_fmt Csc a /\ is_fmt Csc b) ->
    cols_stacked a b (Coo (srows a) (scols a + scols b) (sentries a ++ map (shift 0 (scols a)) (sentries b))).
  Proof.
    intros Wa Wb E Nf. split; [now apply coo_cols_wf|]. split; [reflexivity|]. split; [reflexivity|]. split; [intros; now apply coo_cols_cells|].
    cbn [subscriptable is_fmt]. tauto.
  Qed.
  Lemma comp_stack f (la : list (list (nat * V))) na lb nb : spwf (Sp f la na) -> spwf (Sp f lb nb) -> na = nb -> spwf (Sp f (la ++ lb) na).
  Proof. intros Wa Wb ->. unfold spwf in *. cbn [lanes nminor] in *. now apply Forall_app. Qed.
  Lemma lane_app (la lb : list (list (nat * V))) (i j : nat) : lane_get (nth i (la ++ lb) []) j = if i <? length la then lane_get (nth i la []) j else lane_get (nth (i - length la) lb []) j.
  Proof. destruct (Nat.ltb_spec i (length la)); [now rewrite app_nth1|]. now rewrite app_nth2. Qed.
  Lemma stack_rows_ok (a b : smx) : swf a -> swf b -> scols a = scols b -> exists c, stack_rows a b = Ok c /\ rows_stacked a b c.
  Proof.
    intros Wa Wb E. unfold stack_rows. replace (scols a =? scols b) with true by (symmetry; now apply Nat.eqb_eq).
    destruct a as [[[|] la na]|nra nca ea], b as [[[|] lb nb]|nrb ncb eb]; (eexists; split; [reflexivity|]);
      try (apply coo_rows; [exact Wa|exact Wb|exact E|cbn; intuition discriminate]).
    cbn in E. subst nb. split; [now apply comp_stack with (nb := na)|]. split; [unfold srows, nrows, nmajor; cbn [lanes sfmt]; apply app_length|].
    split; [reflexivity|]. split; [|cbn; tauto]. intros i j. unfold scell, spget, mget, srows, nrows, nmajor. cbn [sfmt lanes]. apply lane_app.
  Qed.
  Lemma stack_cols_ok (a b : smx) : swf a -> swf b -> srows a = srows b -> exists c, stack_cols a b = Ok c /\ cols_stacked a b c.
  Proof.
    intros Wa Wb E. unfold stack_cols. replace (srows a =? srows b) with true by (symmetry; now apply Nat.eqb_eq).
    destruct a as [[[|] la na]|nra nca ea], b as [[[|] lb nb]|nrb ncb eb]; (eexists; split; [reflexivity|]);
      try (apply coo_cols; [exact Wa|exact Wb|exact E|cbn; intuition discriminate]).
    cbn in E. subst nb. split; [now apply comp_stack with (nb := na)|]. split; [reflexivity|].
    split; [unfold scols, ncols, nmajor; cbn [lanes sfmt]; apply app_length|]. split; [|cbn; tauto].
    intros i j. unfold scell, spget, mget, scols, ncols, nmajor. cbn [sfmt lanes]. apply lane_app.
  Qed.

  Lemma concat0 (a b : stm) : sgood a -> sgood b -> stcols a = stcols b -> exists c, concatenate a b 0 = Ok c /\ sgood c /\
    strows c = strows a ++ strows b /\ stcols c = stcols a /\ rows_stacked (smat a) (smat b) (smat c).
  Proof.
    intros (Wa & Ra & Ca) (Wb & Rb & Cb) E. unfold concatenate, sm_concatenate. cbn [Z.eqb Pos.eqb].
    destruct (stack_rows_ok (smat a) (smat b) Wa Wb) as (m & Em & Hm); [congruence|]. rewrite Em. cbn [rbind]. rewrite E, eqb_refl. unfold mk_stm.
    destruct Hm as (Wm & Rm & Cm & Hc). assert (R : srows m = length (strows a ++ strows b)) by (rewrite app_length; lia).
    assert (C : scols m = length (stcols b)) by congruence. rewrite R, C, !Nat.eqb_refl. cbn [negb].
    eexists. split; [reflexivity|]. cbn [strows stcols smat]. split; [now split|]. split; [reflexivity|]. split; [reflexivity|]. now split.
  Qed.
  Lemma concat1 (a b : stm) : sgood a -> sgood b -> strows a = strows b -> exists c, concatenate a b 1 = Ok c /\ sgood c /\
    strows c = strows a /\ stcols c = stcols a ++ stcols b /\ cols_stacked (smat a) (smat b) (smat c).
  Proof.
    intros (Wa & Ra & Ca) (Wb & Rb & Cb) E. unfold concatenate, sm_concatenate. cbn [Z.eqb Pos.eqb].
    destruct (stack_cols_ok (smat a) (smat b) Wa Wb) as (m & Em & Hm); [congruence|]. rewrite Em. cbn [rbind]. rewrite E, eqb_refl. unfold mk_stm.
    destruct Hm as (Wm & Rm & Cm & Hc). assert (C : scols m = length (stcols a ++ stcols b)) by (rewrite app_length; lia).
    assert (R : srows m = length (strows b)) by congruence. rewrite R, C, !Nat.eqb_refl. cbn [negb].
    eexists. split; [reflexivity|]. cbn [strows stcols smat]. split; [now split|]. split; [reflexivity|]. split; [reflexivity|]. now split.
  Qed.
  Lemma concat_errors (a b : stm) : sgood a -> sgood b ->
    (forall axis, axis <> 0%Z -> axis <> 1%Z -> concatenate a b axis = Err ValueError) /\
    (length (stcols a) <> length (stcols b) -> concatenate a b 0 = Err ValueError) /\
    (length (strows a) <> length (strows b) -> concatenate a b 1 = Err ValueError) /\
    (length (stcols a) = length (stcols b) -> stcols a <> stcols b -> concatenate a b 0 = Err AssertionError) /\
    (length (strows a) = length (strows b) -> strows a <> strows b -> concatenate a b 1 = Err AssertionError).
  Proof.
    intros (Wa & Ra & Ca) (Wb & Rb & Cb). unfold concatenate, sm_concatenate. cbn [Z.eqb Pos.eqb]. repeat split.
    - intros axis N0 N1. apply Z.eqb_neq in N0, N1. now rewrite N0, N1.
    - intros H. unfold stack_rows. rewrite Ca, Cb. apply Nat.eqb_neq in H. now rewrite H.
    - intros H. unfold stack_cols. rewrite Ra, Rb. apply Nat.eqb_neq in H. now rewrite H.
    - intros E H. destruct (stack_rows_ok (smat a) (smat b) Wa Wb) as (m & Em & Hm); [congruence|]. rewrite Em. cbn [rbind]. apply eqb_neq in H. now rewrite H.
    - intros E H. destruct (stack_cols_ok (smat a) (smat b) Wa Wb) as (m & Em & Hm); [congruence|]. rewrite Em. cbn [rbind]. apply eqb_neq in H. now rewrite H.
  Qed.

  (** ** All cells *)
  Lemma seq_map_add n k : seq n k = map (fun i => n + i) (seq 0 k).
  Proof.
    revert n. induction k as [|k IH]; intros n; [reflexivity|]. cbn [seq map]. rewrite Nat.add_0_r. f_equal. rewrite IH, (IH 1), map_map. apply map_ext. lia.
  Qed.
  Lemma cells_rows (a b c : stm) : scols (smat a) = scols (smat b) -> rows_stacked (smat a) (smat b) (smat c) -> cells_of c = cells_of a ++ cells_of b.
  Proof.
    intros E (_ & R & C & H & _). unfold cells_of. rewrite R, C, seq_app, map_app. f_equal.
    - apply map_ext_in. intros i I. apply in_seq in I. apply map_ext. intros j. rewrite H. destruct (Nat.ltb_spec i (srows (smat a))); [auto|lia].
    - rewrite <- E. cbn [Nat.add]. rewrite (seq_map_add (srows (smat a))), map_map. apply map_ext. intros i. apply map_ext. intros j. rewrite H.
      destruct (Nat.ltb_spec (srows (smat a) + i) (srows (smat a))); [lia|]. f_equal. lia.
  Qed.
  Lemma cells_cols (a b c : stm) : srows (smat a) = srows (smat b) -> cols_stacked (smat a) (smat b) (smat c) ->
    forall i, nth i (cells_of c) [] = nth i (cells_of a) [] ++ nth i (cells_of b) [].
  Proof.
    intros E (_ & R & C & H & _) i. unfold cells_of. rewrite R, C, <- E. destruct (Nat.ltb_spec i (srows (smat a))).
    - rewrite !nth_map_seq by assumption. rewrite seq_app, map_app. f_equal.
      + apply map_ext_in. intros j I. apply in_seq in I. rewrite H. destruct (Nat.ltb_spec j (scols (smat a))); [auto|lia].
      + cbn [Nat.add]. rewrite (seq_map_add (scols (smat a))), map_map. apply map_ext. intros j. rewrite H.
        destruct (Nat.ltb_spec (scols (smat a) + j) (scols (smat a))); [lia|]. f_equal. lia.
    - rewrite !nth_overflow by (rewrite map_length, seq_length; assumption). reflexivity.
  Qed.
  Lemma all_rows (bs : list stm) : forall a, sgood a -> Forall sgood bs -> Forall (fun b => stcols b = stcols a) bs ->
    exists c, concat_all a bs 0 = Ok c /\ sgood c /\ strows c = strows a ++ concat (map strows bs) /\ stcols c = stcols a /\
      cells_of c = cells_of a ++ concat (map cells_of bs) /\
      (subscriptable (smat c) -> bs <> [] -> is_fmt Csr (smat a) /\ Forall (fun b => is_fmt Csr (smat b)) bs) /\
      (is_fmt Csr (smat a) -> Forall (fun b => is_fmt Csr (smat b)) bs -> is_fmt Csr (smat c)).
  Proof.
    induction bs as [|b bs IH]; intros a Ga Gb E.
    - exists a. cbn [concat_all map concat]. rewrite !app_nil_r. do 5 (split; [auto|]). split; [intros _ X; now contradiction X|auto].
    - inversion Gb as [|? ? Gb1 Gb2]; subst. inversion E as [|? ? E1 E2]; subst.
      destruct (concat0 a b Ga Gb1 (eq_sym E1)) as (c & Ec & Gc & Rc & Cc & Hc). cbn [concat_all]. rewrite Ec. cbn [rbind].
      destruct (IH c Gc Gb2) as (d & Ed & Gd & Rd & Cd & Hd & S1 & S2); [rewrite Cc; exact E2|].
      exists d. split; [exact Ed|]. split; [exact Gd|]. cbn [map concat]. split; [now rewrite Rd, Rc, <- app_assoc|]. split; [congruence|].
      split; [|split].
      + rewrite Hd, (cells_rows a b c), <- app_assoc; auto. destruct Ga as (_ & _ & ->), Gb1 as (_ & _ & ->). congruence.
      + intros Sd _. destruct Hc as (_ & _ & _ & _ & Sc & _). destruct bs as [|b2 bs].
        * cbn [concat_all] in Ed. injection Ed as <-. apply Sc in Sd as [? ?]. auto.
        * destruct (S1 Sd) as [Fc F]; [discriminate|]. assert (Sx : subscriptable (smat c)) by (destruct (smat c); cbn in *; tauto).
          apply Sc in Sx as [? ?]. auto.
      + intros Fa F. inversion F; subst. apply S2; [|assumption]. destruct Hc as (_ & _ & _ & _ & _ & Fc). auto.
  Qed.
  Lemma all_cols (bs : list stm) : forall a, sgood a -> Forall sgood bs -> Forall (fun b => strows b = strows a) bs ->
    exists c, concat_all a bs 1 = Ok c /\ sgood c /\ strows c = strows a /\ stcols c = stcols a ++ concat (map stcols bs) /\
      (forall i, nth i (cells_of c) [] = nth i (cells_of a) [] ++ concat (map (fun b => nth i (cells_of b) []) bs)) /\
      (subscriptable (smat c) -> bs <> [] -> is_fmt Csc (smat a) /\ Forall (fun b => is_fmt Csc (smat b)) bs) /\
      (is_fmt Csc (smat a) -> Forall (fun b => is_fmt Csc (smat b)) bs -> is_fmt Csc (smat c)).
  Proof.
    induction bs as [|b bs IH]; intros a Ga Gb E.
    - exists a. cbn [concat_all map concat]. rewrite !app_nil_r. do 4 (split; [auto|]). split; [intros; now rewrite app_nil_r|]. split; [intros _ X; now contradiction X|auto].
    - inversion Gb as [|? ? Gb1 Gb2]; subst. inversion E as [|? ? E1 E2]; subst.
      destruct (concat1 a b Ga Gb1 (eq_sym E1)) as (c & Ec & Gc & Rc & Cc & Hc). cbn [concat_all]. rewrite Ec. cbn [rbind].
      destruct (IH c Gc Gb2) as (d & Ed & Gd & Rd & Cd & Hd & S1 & S2); [rewrite Rc; exact E2|].
      exists d. split; [exact Ed|]. split; [exact Gd|]. cbn [map concat]. split; [congruence|]. split; [now rewrite Cd, Cc, <- app_assoc|].
      split; [|split].
      + intros i. rewrite Hd, (cells_cols a b c), <- app_assoc; auto. destruct Ga as (_ & -> & _), Gb1 as (_ & -> & _). congruence.
      + intros Sd _. destruct Hc as (_ & _ & _ & _ & Sc & _). destruct bs as [|b2 bs].
        * cbn [concat_all] in Ed. injection Ed as <-. apply Sc in Sd as [? ?]. auto.
        * destruct (S1 Sd) as [Fc F]; [discriminate|]. assert (Sx : subscriptable (smat c)) by (destruct (smat c); cbn in *; tauto).
          apply Sc in Sx as [? ?]. auto.
      + intros Fa F. inversion F; subst. apply S2; [|assumption]. destruct Hc as (_ & _ & _ & _ & _ & Fc). auto.
  Qed.
  (** ** What a coo matrix cannot do *)
  Lemma coo_getitem (a : stm) x y rs cs : ~ subscriptable (smat a) -> NoDup (strows a) -> NoDup (stcols a) ->
    selects (strows a) x rs -> selects (stcols a) y cs -> s_getitem a (GPair x y) = Err TypeError /\ s_getitem a (GOne x) = Err TypeError.
  Proof.
    intros S Nr Nc Hx Hy. unfold s_getitem. destruct (smat a) as [m|nr nc es]; [contradiction S; exact I|].
    destruct (select_ok _ _ _ Nr Hx) as (r & Er & _). destruct (select_ok _ _ _ Nc Hy) as (q & Eq & _). rewrite Er, Eq. auto.
  Qed.
  Lemma coo_submatrix (a : stm) row : ~ subscriptable (smat a) -> NoDup (strows a) -> (exists r, In r row /\ In r (strows a)) ->
    s_submatrix a (Some row) None = Err TypeError.
  Proof.
    intros S Nr (r & I1 & I2). unfold s_submatrix. destruct (smat a) as [m|nr nc es]; [contradiction S; exact I|].
    cbn [select]. destruct (filter (dmem (item2id (strows a))) row) as [|x l] eqn:F; [|reflexivity]. exfalso.
    assert (I3 : In r (filter (dmem (item2id (strows a))) row)).
    { apply filter_In. split; [auto|]. unfold dmem. destruct (index_of_In r (strows a) I2) as (k & Ek & _). now rewrite (dget_item2id _ _ Nr), Ek. }
    now rewrite F in I3.
  Qed.
  Lemma coo_reorder (a : stm) items : ~ subscriptable (smat a) -> NoDup (strows a) -> incl items (strows a) -> s_reorder a items false = Err TypeError.
  Proof.
    intros S Nr I. unfold s_reorder. destruct (smat a) as [m|nr nc es]; [contradiction S; exact Logic.I|].
    rewrite (rmapm_map _ (idx (strows a))); [reflexivity|]. intros x Ix. apply lookup_ok; auto.
  Qed.
  (** Transposing exchanges the two directions. *)
  Lemma cellsum_swap (es : list (nat * nat * V)) i j : cellsum (map (fun e => (snd (fst e), fst (fst e), snd e)) es) i j = cellsum es j i.
  Proof.
    unfold cellsum. etransitivity; [apply (pick_map (fun k : nat * nat => (snd k, fst k)))|]. apply pick_ext. intros [[x y] v] _. unfold ij. cbn [fst snd]. apply andb_comm.
  Qed.
  Lemma transpose_ok (a : stm) : sgood a -> exists t, s_transpose a = Ok t /\ sgood t /\ strows t = stcols a /\ stcols t = strows a /\
    (forall i j, scell (smat t) i j = scell (smat a) j i) /\ srows (smat t) = scols (smat a) /\ scols (smat t) = srows (smat a).
  Proof.
    intros (W & R & C). unfold s_transpose, mk_stm. set (m := match smat a with Comp _ => _ | Coo _ _ _ => _ end).
    assert (Rm : srows m = scols (smat a)). { unfold m. destruct (smat a) as [[[|] la n]|]; reflexivity. }
    assert (Cm : scols m = srows (smat a)). { unfold m. destruct (smat a) as [[[|] la n]|]; reflexivity. }
    rewrite Rm, Cm, R, C, !Nat.eqb_refl. cbn [negb]. eexists. split; [reflexivity|]. cbn [smat strows stcols]. rewrite Rm, Cm.
    split; [split; [|cbn [smat strows stcols]; split; congruence]|].
    - cbn [smat]. unfold m. destruct (smat a) as [x|nr nc es]; cbn [swf] in *; [exact W|]. apply Forall_forall. intros e I.
      apply in_map_iff in I as (e' & <- & I). rewrite Forall_forall in W. apply W in I. cbn [fst snd]. tauto.
    - split; [reflexivity|]. split; [reflexivity|]. split; [|auto]. intros i j. unfold m. destruct (smat a) as [[[|] la n]|nr nc es]; try reflexivity.
      rewrite !scell_entries. cbn [sentries]. apply cellsum_swap.
  Qed.

  (** ** Totals *)
  Lemma entries_values (m : sp V) : map snd (entries m) = concat (map (map snd) (lanes m)).
  Proof.
    unfold entries, nmajor. generalize 0 as k. induction (lanes m) as [|l ls IH]; intros k; [reflexivity|].
    cbn [length seq combine flat_map map concat fst snd]. rewrite map_app, IH. f_equal. rewrite map_map. apply map_ext. intros [j v]. now destruct (sfmt m).
  Qed.
  Lemma shift_values dr dc (es : list (nat * nat * V)) : map snd (map (shift dr dc) es) = map snd es.
  Proof. rewrite map_map. reflexivity. Qed.
  Definition added (a b c : smx) : Prop := sumv (map snd (sentries c)) = add (sumv (map snd (sentries a))) (sumv (map snd (sentries b))).
  Lemma total_coo (a b : smx) nr nc dr dc : added a b (Coo nr nc (sentries a ++ map (shift dr dc) (sentries b))).
  Proof. unfold added. cbn [sentries]. rewrite map_app, shift_values. apply sumv_app. Qed.
  Lemma total_comp f (la lb : list (list (nat * V))) na nb : added (Comp (Sp f la na)) (Comp (Sp f lb nb)) (Comp (Sp f (la ++ lb) na)).
  Proof. unfold added. cbn [sentries]. rewrite !entries_values. cbn [lanes]. rewrite map_app, concat_app. apply sumv_app. Qed.
  Lemma total_rows (a b c : smx) : stack_rows a b = Ok c -> added a b c.
  Proof.
    unfold stack_rows. destruct (scols a =? scols b); [|discriminate]. intros E.
    destruct a as [[[|] la na]|nra nca ea], b as [[[|] lb nb]|nrb ncb eb]; injection E as <-; (apply total_coo || apply total_comp).
  Qed.
  Lemma total_cols (a b c : smx) : stack_cols a b = Ok c -> added a b c.
  Proof.
    unfold stack_cols. destruct (srows a =? srows b); [|discriminate]. intros E.
    destruct a as [[[|] la na]|nra nca ea], b as [[[|] lb nb]|nrb ncb eb]; injection E as <-; (apply total_coo || apply total_comp).
  Qed.
  Lemma mk_stm_mat (m : smx) rows cols c : mk_stm m rows cols = Ok c -> smat c = m.
  Proof. unfold mk_stm. destruct (negb _); [discriminate|]. destruct (negb _); [discriminate|]. now injection 1 as <-. Qed.
  Lemma total_concat (a b c : stm) axis : concatenate a b axis = Ok c -> s_total c = add (s_total a) (s_total b).
  Proof.
    unfold concatenate, sm_concatenate, s_total. destruct (axis =? 0)%Z.
    - destruct (stack_rows (smat a) (smat b)) as [m|e] eqn:E; [|discriminate]. cbn [rbind]. destruct (eqb _ _); [|discriminate].
      intros H. apply mk_stm_mat in H. rewrite H. now apply total_rows.
    - destruct (axis =? 1)%Z; [|discriminate].
      destruct (stack_cols (smat a) (smat b)) as [m|e] eqn:E; [|discriminate]. cbn [rbind]. destruct (eqb _ _); [|discriminate].
      intros H. apply mk_stm_mat in H. rewrite H. now apply total_cols.
  Qed.
  (** ** reorder_matrix *)
  Lemma norm_points n z k : norm_index n z = Ok k <-> points n z k.
  Proof.
    rewrite norm_ok. unfold points, from_end. destruct (Z.ltb_spec z 0); split; intros [? ?]; split; auto; lia.
  Qed.
  Lemma norms_points n idx ks : Forall2 (points n) idx ks -> rmapm (norm_index n) idx = Ok ks.
  Proof.
    induction 1 as [|z k idx ks P _ IH]; [reflexivity|]. apply norm_points in P. cbn [rmapm]. rewrite P. cbn [rbind]. rewrite IH. reflexivity.
  Qed.
  Lemma norms_out n idx : Exists (fun z => ~ (- Z.of_nat n <= z < Z.of_nat n)%Z) idx -> rmapm (norm_index n) idx = Err IndexError.
  Proof.
    induction idx as [|z idx IH]; intros H; [inversion H|]. cbn [rmapm]. destruct (int_range n z) as [R|E].
    - destruct (norm_index n z) as [k|e] eqn:E; cbn [rbind].
      + inversion H as [? ? X|? ? X]; subst; [contradiction|]. now rewrite (IH X).
      + exfalso. revert E. unfold norm_index. destruct (Z.leb_spec 0 z); [destruct (Z.ltb_spec z (Z.of_nat n))|destruct (Z.leb_spec (- Z.of_nat n) z)]; try discriminate; lia.
    - now rewrite E.
  Qed.
  Lemma points_length n idx ks : Forall2 (points n) idx ks -> length idx = length ks.
  Proof. induction 1; cbn; congruence. Qed.
  Lemma reorder_rows (m : sp V) idx ks : spwf m -> Forall2 (points (nrows m)) idx ks -> exists r, reorder_matrix m idx 0 = Ok r /\ spwf r /\ nrows r = length idx /\ ncols r = ncols m /\ forall i j k, nth_error ks i = Some k -> spget r i j = spget m k j.
  Proof.
    intros W P. unfold reorder_matrix. cbn [Z.eqb]. rewrite (norms_points _ _ _ P). cbn [rmap]. eexists. split; [reflexivity|].
    destruct (take_rows_spec m ks W) as (Wr & _ & Rr & Cr & H). split; [exact Wr|]. split; [rewrite Rr; symmetry; eapply points_length; eauto|]. split; [exact Cr|].
    intros i j k E. now rewrite H, E.
  Qed.
  Lemma reorder_cols (m : sp V) idx ks : spwf m -> Forall2 (points (ncols m)) idx ks -> exists r, reorder_matrix m idx 1 = Ok r /\ spwf r /\ nrows r = nrows m /\ ncols r = length idx /\ forall i j k, nth_error ks j = Some k -> spget r i j = spget m i k.
  Proof.
    intros W P. unfold reorder_matrix. cbn [Z.eqb Pos.eqb]. rewrite (norms_points _ _ _ P). cbn [rmap]. eexists. split; [reflexivity|].
    destruct (take_cols_spec m ks W) as (Wr & _ & Rr & Cr & H). split; [exact Wr|]. split; [exact Rr|]. split; [rewrite Cr; symmetry; eapply points_length; eauto|].
    intros i j k E. now rewrite H, E.
  Qed.
  (** ** empty_row_idx *)
  Lemma empty_rows_gen (rows : list (list V)) : forall b i, In i (map fst (filter (fun ir => forallb isz (snd ir)) (combine (seq b (length rows)) rows))) <->
    exists k row, i = b + k /\ nth_error rows k = Some row /\ Forall (fun v => v = zero) row.
  Proof.
    induction rows as [|r rows IH]; intros b i; cbn [length seq combine filter].
    - split; [intros []|]. intros ([|k] & row & _ & E & _); discriminate.
    - cbn [snd]. assert (Hz : forallb isz r = true <-> Forall (fun v => v = zero) r).
      { rewrite forallb_forall, Forall_forall. split; intros H v I; apply isz_ok; auto. }
      split.
      + intros I. assert (I' : (i = b /\ forallb isz r = true) \/ In i (map fst (filter (fun ir => forallb isz (snd ir)) (combine (seq (S b) (length rows)) rows)))).
        { destruct (forallb isz r); [destruct I as [<-|I]|]; auto. }
        destruct I' as [[-> F]|I'].
        * exists 0, r. split; [lia|]. split; [reflexivity|]. now apply Hz.
        * apply IH in I' as (k & row & -> & E & F). exists (S k), row. split; [lia|]. auto.
      + intros ([|k] & row & -> & E & F).
        * injection E as ->. apply Hz in F. rewrite F. left. cbn. lia.
        * assert (I' : In (b + S k) (map fst (filter (fun ir => forallb isz (snd ir)) (combine (seq (S b) (length rows)) rows)))).
          { apply IH. exists k, row. split; [lia|]. auto. }
          destruct (forallb isz r); [right|]; exact I'.
  Qed.
  Lemma empty_rows_spec (rows : list (list V)) i : In i (empty_row_idx rows) <-> exists row, nth_error rows i = Some row /\ Forall (fun v => v = zero) row.
  Proof.
    unfold empty_row_idx. rewrite empty_rows_gen. split; [intros (k & row & -> & E & F)|intros (row & E & F)]; [exists row; auto|exists i, row; auto].
  Qed.
  Lemma empty_rows_sorted (rows : list (list V)) : StronglySorted lt (empty_row_idx rows).
  Proof.
    unfold empty_row_idx. generalize 0 as b. induction rows as [|r rows IH]; intros b; [constructor|]. cbn [length seq combine filter snd].
    destruct (forallb isz r); [|apply IH]. cbn [map fst]. constructor; [apply IH|]. apply Forall_forall. intros i I. apply empty_rows_gen in I as (k & _ & -> & _). lia.
  Qed.
End Cat.
