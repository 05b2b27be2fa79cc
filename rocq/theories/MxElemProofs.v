(** * Element-wise multiplication, comparison, equality: proofs. *)
From Coq Require Import NArith ZArith Bool Arith Lia Permutation Sorted List.
From Verif Require Import Base BaseLemmas MxModel MxSpec MxProofs MxTtmProofs MxOpsProofs MxCellProofs.
Import ListNotations.

Section Elem.
  Context {V : Type} {NV : Num V}.
  Implicit Types (m a b : ttm V) (s : sp V) (r c : pystr).

  (** The stored values contain no zero / are all true. *)
  Definition no_zeros s : Prop := Forall (fun e => isz (snd e) = false) (entries s).
  Definition is_mask s : Prop := Forall (fun e => snd e = one) (entries s).

  Lemma stored_dec s i j : {stored s i j} + {~ stored s i j}.
  Proof. apply in_dec. apply eqdec. Qed.
  Lemma has_zero s : existsb (fun e => isz (snd e)) (concat (lanes s)) = false <-> no_zeros s.
  Proof.
    unfold no_zeros. rewrite Forall_forall. split.
    - intros E e I. apply entries_lanes in I as (x & Ix & Ex). destruct (isz (snd e)) eqn:Z; [|reflexivity]. rewrite <- not_true_iff_false in E.
      exfalso. apply E, existsb_exists. exists x. now rewrite Ex.
    - intros F. apply not_true_iff_false. intros E. apply existsb_exists in E as (x & Ix & Z). apply lanes_entries in Ix as (e & Ie & Ee). apply F in Ie. congruence.
  Qed.
  Lemma filter_range nr nc (es : list (nat * nat * V)) p : in_range nr nc es -> in_range nr nc (filter p es).
  Proof. unfold in_range. rewrite !Forall_forall. intros F e I. apply filter_In in I as [I _]. now apply F. Qed.
  Lemma sm_multiply_spec s o : spwf s -> spwf o -> nrows s = nrows o -> ncols s = ncols o ->
    exists x, sm_multiply s o = Ok x /\ spwf x /\ nrows x = nrows s /\ ncols x = ncols s
      /\ (no_zeros s -> forall i j, spget x i j = mul (spget s i j) (spget o i j))
      /\ (~ no_zeros s -> forall i j, spget x i j = if stored_dec o i j then spget s i j else zero).
  Proof.
    intros Ws Wo R C. unfold sm_multiply. destruct (existsb (fun e => isz (snd e)) (concat (lanes s))) eqn:E.
    - set (mask := map fst (entries o)). set (es := filter (fun e => mem (fst e) mask) (entries s)).
      assert (RG : in_range (nrows s) (ncols s) es) by (apply filter_range, entries_range, Ws).
      assert (ND : NoDup (map fst es)) by (apply NoDup_map_filter, entries_NoDup, Ws).
      destruct (of_coo_shape (nrows s) (ncols s) es) as [S1 S2].
      exists (of_coo (nrows s) (ncols s) es). split; [reflexivity|]. split; [now apply of_coo_wf|]. split; [assumption|]. split; [assumption|]. split.
      + intros N. apply has_zero in N. congruence.
      + intros _ i j. destruct (stored_dec o i j) as [So|So].
        * destruct (stored_dec s i j) as [Ss|Ss].
          -- apply in_map_iff in Ss as ([[x y] v] & Exy & I). cbn in Exy. inversion Exy; subst. rewrite (entries_value _ _ _ _ Ws I).
             apply entries_value; [now apply of_coo_wf|]. apply of_coo_In; auto. apply filter_In. split; [assumption|]. apply mem_In. exact So.
          -- rewrite (not_stored s i j Ss). apply not_stored. rewrite of_coo_stored by assumption. intros I. apply Ss. apply in_map_iff in I as (e & Ee & I).
             apply filter_In in I as [I _]. apply in_map_iff. eauto.
        * apply not_stored. rewrite of_coo_stored by assumption. intros I. apply So. apply in_map_iff in I as (e & Ee & I). apply filter_In in I as [_ I]. apply mem_In in I. now rewrite Ee in I.
    - unfold sp_multiply. rewrite <- R, <- C, !Nat.eqb_refl. cbn [andb].
      destruct (sp_binop_spec mul s o Ws Wo (mul_0l zero) R C) as (x & Ex & Wx & _ & Rx & Cx & P & _). exists x. repeat (split; [assumption|]). split; [auto|].
      intros N. exfalso. apply N. now apply has_zero.
  Qed.
  (** Multiplication by a mask selects, in both branches. *)
  Lemma multiply_mask s o : spwf s -> spwf o -> nrows s = nrows o -> ncols s = ncols o -> is_mask o ->
    exists x, sm_multiply s o = Ok x /\ spwf x /\ nrows x = nrows s /\ ncols x = ncols s
      /\ forall i j, spget x i j = if stored_dec o i j then spget s i j else zero.
  Proof.
    intros Ws Wo R C M. destruct (sm_multiply_spec s o Ws Wo R C) as (x & Ex & Wx & Rx & Cx & P & Q). exists x. repeat (split; [assumption|]).
    destruct (existsb (fun e => isz (snd e)) (concat (lanes s))) eqn:E.
    - apply Q. intros N. apply has_zero in N. congruence.
    - apply has_zero in E. intros. rewrite P by assumption. destruct (stored_dec o i j) as [So|So].
      + apply in_map_iff in So as ([[a b] v] & Exy & I). cbn in Exy. inversion Exy; subst. rewrite (entries_value _ _ _ _ Wo I).
        unfold is_mask in M. rewrite Forall_forall in M. specialize (M _ I). cbn in M. subst. apply mul_1.
      + rewrite (not_stored o i j So). apply mul_0r.
  Qed.

  (** ** Comparisons *)
  Lemma cmp_zero_direct op (k : V) : match op with CLt => vleb k zero | CLe => vleb k zero && negb (isz k) | CGt => vleb zero k | CGe => vleb zero k && negb (isz k) end = true ->
    cmpb op zero k = false.
  Proof.
    destruct op; cbn; unfold vltb; intros E.
    - now rewrite E.
    - apply andb_true_iff in E as [E N]. apply negb_true_iff, isz_false in N. destruct (vleb zero k) eqn:Z; [|reflexivity]. exfalso. apply N. now apply vleb_antisym.
    - now rewrite E.
    - apply andb_true_iff in E as [E N]. apply negb_true_iff, isz_false in N. destruct (vleb k zero) eqn:Z; [|reflexivity]. exfalso. apply N. now apply vleb_antisym.
  Qed.
  Lemma sp_cmp_full op s (k : V) : spwf s -> cmpb op zero k = false ->
    let x := sp_cmp (fun v => cmpb op v k) s in
    spwf x /\ nrows x = nrows s /\ ncols x = ncols s /\ is_mask x
      /\ forall i j, stored x i j <-> stored s i j /\ cmpb op (spget s i j) k = true.
  Proof.
    intros W Z x. destruct (sp_cmp_spec (fun v => cmpb op v k) s W Z) as (Wx & R & C & G & ONE). repeat (split; [assumption|]). split.
    - unfold is_mask. rewrite Forall_forall in *. intros e I. apply entries_lanes in I as (y & Iy & Ey). rewrite <- Ey. now apply ONE.
    - intros. unfold x. rewrite (sp_cmp_stored (fun v => cmpb op v k) s i j W Z). split; [|tauto]. intros P. split; [|assumption].
      destruct (stored_dec s i j) as [S|S]; [assumption|]. rewrite (not_stored _ _ _ S) in P. congruence.
  Qed.
  Lemma operator_positive_full op s (k : V) : spwf s ->
    let x := sm_operator_positive op k s in
    spwf x /\ nrows x = nrows s /\ ncols x = ncols s /\ is_mask x
      /\ forall i j, stored x i j <-> stored s i j /\ cmpb op (spget s i j) k = true.
  Proof.
    intros W x. set (es := map (fun e : nat * nat * V => (fst e, one : V)) (filter (fun e => cmpb op (snd e) k) (entries s))).
    assert (RG : in_range (nrows s) (ncols s) es).
    { pose proof (filter_range _ _ _ (fun e => cmpb op (snd e) k) (entries_range s W)) as F. unfold in_range in *. rewrite Forall_forall in *. intros e I.
      apply in_map_iff in I as (y & <- & I). cbn. now apply F. }
    assert (ND : NoDup (map fst es)) by (unfold es; rewrite map_map; cbn; apply NoDup_map_filter, entries_NoDup, W).
    destruct (of_coo_shape (nrows s) (ncols s) es) as [S1 S2]. change x with (of_coo (nrows s) (ncols s) es).
    split; [now apply of_coo_wf|]. split; [assumption|]. split; [assumption|]. split.
    - apply Forall_forall. intros [[i j] v] I. apply of_coo_In in I; auto. apply in_map_iff in I as (y & E & _). cbn. congruence.
    - intros. rewrite of_coo_stored by assumption. unfold es. rewrite map_map. cbn. split.
      + intros I. apply in_map_iff in I as ([[a b] v] & E & I). cbn in E. inversion E; subst. apply filter_In in I as [I P]. cbn in P.
        rewrite (entries_value _ _ _ _ W I). split; [apply in_map_iff; now exists (i, j, v)|assumption].
      + intros [S P]. apply in_map_iff in S as ([[a b] v] & E & I). cbn in E. inversion E; subst. rewrite (entries_value _ _ _ _ W I) in P.
        apply in_map_iff. exists (i, j, v). split; [reflexivity|]. now apply filter_In.
  Qed.
  Lemma sm_cmp_ok op s (k : V) : spwf s -> ~ ((op = CLe \/ op = CGe) /\ k = zero) ->
    exists x, sm_cmp op s k = Ok x /\ spwf x /\ nrows x = nrows s /\ ncols x = ncols s /\ is_mask x
      /\ forall i j, stored x i j <-> stored s i j /\ cmpb op (spget s i j) k = true.
  Proof.
    intros W N. unfold sm_cmp.
    assert (D : cmpb op zero k = false -> exists x, Ok (sp_cmp (fun v => cmpb op v k) s) = Ok x /\ spwf x /\ nrows x = nrows s /\ ncols x = ncols s /\ is_mask x
              /\ forall i j, stored x i j <-> stored s i j /\ cmpb op (spget s i j) k = true).
    { intros Z. eexists. split; [reflexivity|]. now apply sp_cmp_full. }
    assert (P : exists x, Ok (sm_operator_positive op k s) = Ok x /\ spwf x /\ nrows x = nrows s /\ ncols x = ncols s /\ is_mask x
              /\ forall i j, stored x i j <-> stored s i j /\ cmpb op (spget s i j) k = true).
    { eexists. split; [reflexivity|]. now apply operator_positive_full. }
    pose proof (cmp_zero_direct op k) as CZ. destruct op; cbn [cmpb] in *.
    - destruct (vleb k zero); auto.
    - destruct (vleb k zero); auto. destruct (isz k) eqn:Z; [exfalso; apply isz_ok in Z; apply N; auto|]. auto.
    - destruct (vleb zero k); auto.
    - destruct (vleb zero k); auto. destruct (isz k) eqn:Z; [exfalso; apply isz_ok in Z; apply N; auto|]. auto.
  Qed.
  Lemma sm_cmp_zero op s : op = CLe \/ op = CGe -> sm_cmp op s (zero : V) = Err NotImplementedError.
  Proof. intros [->| ->]; cbn; rewrite vleb_refl, isz_zero; reflexivity. Qed.

  (** ** By item *)
  Definition tstored m r c : Prop := In r (trows m) /\ In c (tcols m) /\ stored (tmx m) (idx (trows m) r) (idx (tcols m) c).
  Lemma tstored_dec m r c : {tstored m r c} + {~ tstored m r c}.
  Proof.
    unfold tstored. destruct (in_dec eqdec r (trows m)); [|right; tauto]. destruct (in_dec eqdec c (tcols m)); [|right; tauto].
    destruct (stored_dec (tmx m) (idx (trows m) r) (idx (tcols m) c)); [left|right]; tauto.
  Qed.
  Lemma tt_multiply_ok m o : tgood m -> tgood o -> trows m = trows o -> tcols m = tcols o ->
    exists x, tt_multiply m o = Ok x /\ tgood x /\ trows x = trows m /\ tcols x = tcols m
      /\ (no_zeros (tmx m) -> forall r c, val x r c = mul (val m r c) (val o r c))
      /\ (~ no_zeros (tmx m) -> forall r c, val x r c = if tstored_dec o r c then val m r c else zero).
  Proof.
    intros Gm Go ER EC. destruct m as [sm rm cm]. destruct o as [so ro co]. cbn [trows tcols] in *. subst ro co.
    pose proof (tg_rows _ Gm) as A1. pose proof (tg_rows _ Go) as A2. pose proof (tg_cols _ Gm) as A3. pose proof (tg_cols _ Go) as A4. cbn [tmx trows tcols] in *.
    destruct (sm_multiply_spec sm so) as (x & Ex & Wx & Rx & Cx & P & Q); try apply Gm; try apply Go; try congruence.
    unfold tt_multiply. cbn [tmx trows tcols]. rewrite Ex. cbn [rbind]. rewrite mk_ttm_ok by congruence. eexists. split; [reflexivity|].
    split; [constructor; cbn; auto; try congruence; apply Gm|]. split; [reflexivity|]. split; [reflexivity|]. split.
    - intros N r c. unfold val. cbn. destruct (index_of r rm); [destruct (index_of c cm)|]; auto using P; symmetry; apply mul_0l.
    - intros N r c. destruct (tstored_dec _ r c) as [S|S].
      + destruct S as (Ir & Ic & S). cbn [tmx trows tcols] in *. rewrite !val_idx by assumption. cbn [tmx trows tcols]. rewrite Q by assumption. now destruct (stored_dec so _ _).
      + destruct (in_dec eqdec r rm) as [Ir|Ir]; [destruct (in_dec eqdec c cm) as [Ic|Ic]|].
        * rewrite val_idx by assumption. cbn [tmx trows tcols]. rewrite Q by assumption. destruct (stored_dec so _ _); [|reflexivity]. exfalso. apply S. repeat split; assumption.
        * now apply val_no_col.
        * now apply val_no_row.
  Qed.
  Lemma tt_cmp_ok op m (k : V) : tgood m -> ~ ((op = CLe \/ op = CGe) /\ k = zero) ->
    exists x, tt_cmp op m k = Ok x /\ tgood x /\ trows x = trows m /\ tcols x = tcols m /\ is_mask (tmx x)
      /\ (forall r c, tstored x r c <-> tstored m r c /\ cmpb op (val m r c) k = true)
      /\ forall r c, val x r c = if tstored_dec x r c then one else zero.
  Proof.
    intros G N. destruct (sm_cmp_ok op (tmx m) k (tg_wf _ G) N) as (x & E & W & R & C & M & S). unfold tt_cmp. rewrite E. cbn [rbind].
    rewrite mk_ttm_ok; [|rewrite R; apply G|rewrite C; apply G]. eexists. split; [reflexivity|].
    assert (GX : tgood (Ttm x (trows m) (tcols m))) by (constructor; cbn; auto; try apply G; [rewrite R|rewrite C]; apply G).
    split; [assumption|]. split; [reflexivity|]. split; [reflexivity|]. split; [assumption|]. split.
    - intros r c. unfold tstored. cbn [tmx trows tcols]. rewrite S. split.
      + intros (Ir & Ic & Sr & P). rewrite val_idx by assumption. auto.
      + intros ((Ir & Ic & Sr) & P). rewrite val_idx in P by assumption. auto.
    - intros r c. destruct (tstored_dec _ r c) as [(Ir & Ic & Sx)|NS].
      + cbn [tmx trows tcols] in *. rewrite val_idx by assumption. cbn [tmx trows tcols]. apply in_map_iff in Sx as ([[a b] v] & Exy & I). cbn in Exy. inversion Exy; subst.
        rewrite (entries_value _ _ _ _ W I). unfold is_mask in M. rewrite Forall_forall in M. apply (M _ I).
      + destruct (in_dec eqdec r (trows m)) as [Ir|Ir]; [destruct (in_dec eqdec c (tcols m)) as [Ic|Ic]|]; [|now apply val_no_col|now apply val_no_row].
        rewrite val_idx by assumption. cbn [tmx trows tcols]. apply not_stored. intros S'. apply NS. repeat split; assumption.
  Qed.
  (** Masks as booleans: the comparison of the dense matrix, whenever zero fails the comparison or every cell is stored. *)
  Lemma tt_cmp_dense op m (k : V) x : tgood m -> tt_cmp op m k = Ok x ->
    cmpb op zero k = false \/ (forall r c, In r (trows m) -> In c (tcols m) -> tstored m r c) ->
    forall r c, In r (trows m) -> In c (tcols m) -> val x r c = if cmpb op (val m r c) k then one else zero.
  Proof.
    intros G E D r c Ir Ic.
    assert (N : ~ ((op = CLe \/ op = CGe) /\ k = zero)).
    { intros [O ->]. unfold tt_cmp in E. rewrite (sm_cmp_zero op) in E by assumption. discriminate. }
    destruct (tt_cmp_ok op m k G N) as (x' & E' & _ & _ & _ & _ & S & P). assert (x' = x) by congruence. subst. rewrite P.
    destruct (tstored_dec x r c) as [T|T]; [apply S in T as [_ T]; now rewrite T|]. destruct (cmpb op (val m r c) k) eqn:Q; [|reflexivity]. exfalso. apply T, S. split; [|assumption].
    destruct D as [Z|A]; [|auto]. destruct (tstored_dec m r c) as [T'|T']; [assumption|]. exfalso.
    assert (Z' : val m r c = zero) by (rewrite val_idx by assumption; apply not_stored; intros X; apply T'; repeat split; assumption). congruence.
  Qed.
  (** m.multiply(m2 > k) *)
  Lemma multiply_cmp m o op (k : V) x : tgood m -> tgood o -> trows m = trows o -> tcols m = tcols o -> tt_cmp op o k = Ok x ->
    exists y, tt_multiply m x = Ok y /\ tgood y /\ trows y = trows m /\ tcols y = tcols m /\ forall r c, val y r c = if tstored_dec x r c then val m r c else zero.
  Proof.
    intros Gm Go ER EC E.
    assert (N : ~ ((op = CLe \/ op = CGe) /\ k = zero)).
    { intros [O ->]. unfold tt_cmp in E. rewrite (sm_cmp_zero op) in E by assumption. discriminate. }
    destruct (tt_cmp_ok op o k Go N) as (x' & E' & Gx & Rx & Cx & M & S & P). assert (x' = x) by congruence. subst x'.
    destruct (tt_multiply_ok m x Gm Gx) as (y & Ey & Gy & Ry & Cy & A & B); try congruence. exists y. repeat (split; [assumption|]). intros.
    destruct (existsb (fun e => isz (snd e)) (concat (lanes (tmx m)))) eqn:Z.
    - apply B. intros X. apply has_zero in X. congruence.
    - apply has_zero in Z. rewrite A by assumption. rewrite P. destruct (tstored_dec x r c); [apply mul_1|apply mul_0r].
  Qed.

  (** ** equal *)
  Lemma nnz_entries s : nnz s = length (entries s).
  Proof.
    unfold nnz, entries, nmajor. generalize 0. induction (lanes s) as [|ln L IH]; intros n; [reflexivity|]. cbn [concat length seq combine flat_map fst snd].
    rewrite !app_length, map_length. f_equal. apply IH.
  Qed.
  Lemma tt_equal_sound a b : tgood a -> tgood b -> tt_equal a b = true -> trows a = trows b /\ tcols a = tcols b /\ forall r c, val a r c = val b r c.
  Proof.
    intros Ga Gb E. unfold tt_equal in E. destruct (eqb (trows a) (trows b)) eqn:ER; [|discriminate]. destruct (eqb (tcols a) (tcols b)) eqn:EC; [|discriminate].
    apply eqb_true in ER, EC. cbn in E. split; [assumption|]. split; [assumption|]. unfold sm_equal in E. destruct (_ || _); [discriminate|].
    unfold sp_same in E. rewrite forallb_forall in E. intros. destruct (in_dec eqdec r (trows a)) as [Ir|Ir]; [|rewrite !val_no_row; congruence].
    destruct (in_dec eqdec c (tcols a)) as [Ic|Ic]; [|rewrite !val_no_col; congruence].
    rewrite !val_idx by congruence. rewrite <- ER, <- EC. pose proof (idx_lt _ _ Ir) as Lr. pose proof (idx_lt _ _ Ic) as Lc.
    specialize (E (idx (trows a) r)). rewrite in_seq, (tg_rows _ Ga) in E. specialize (E ltac:(lia)). rewrite forallb_forall in E.
    specialize (E (idx (tcols a) c)). rewrite in_seq, (tg_cols _ Ga) in E. specialize (E ltac:(lia)). now apply veqb_eq in E.
  Qed.
  Lemma no_zeros_stored s i j : spwf s -> no_zeros s -> stored s i j <-> spget s i j <> zero.
  Proof.
    intros W N. split.
    - intros S. apply in_map_iff in S as ([[x y] v] & E & I). cbn in E. inversion E; subst. rewrite (entries_value _ _ _ _ W I). unfold no_zeros in N.
      rewrite Forall_forall in N. specialize (N _ I). now apply isz_false in N.
    - intros NZ. destruct (stored_dec s i j) as [S|S]; [assumption|]. exfalso. apply NZ. now apply not_stored.
  Qed.
  Lemma tt_equal_complete a b : tgood a -> tgood b -> no_zeros (tmx a) -> no_zeros (tmx b) ->
    trows a = trows b -> tcols a = tcols b -> (forall r c, val a r c = val b r c) -> tt_equal a b = true.
  Proof.
    intros Ga Gb Za Zb ER EC Vv. unfold tt_equal. rewrite ER, EC, !eqb_refl. cbn.
    assert (CELL : forall i j, spget (tmx a) i j = spget (tmx b) i j).
    { intros. destruct (Nat.lt_ge_cases i (length (trows a))) as [Li|Li]; [destruct (Nat.lt_ge_cases j (length (tcols a))) as [Lj|Lj]|].
      - rewrite <- (val_at a i j (nth i (trows a) []) (nth j (tcols a) []) Ga) by (now apply nth_error_nth').
        rewrite Vv. apply val_at; [assumption| |]; rewrite <- ?ER, <- ?EC; now apply nth_error_nth'.
      - rewrite !spget_range; try apply Ga; try apply Gb; auto; [rewrite (tg_cols _ Gb), <- EC|rewrite (tg_cols _ Ga)]; lia.
      - rewrite !spget_range; try apply Ga; try apply Gb; auto; [rewrite (tg_rows _ Gb), <- ER|rewrite (tg_rows _ Ga)]; lia. }
    unfold sm_equal. rewrite (tg_rows _ Ga), (tg_cols _ Ga), (tg_rows _ Gb), (tg_cols _ Gb), ER, EC, !Nat.eqb_refl. cbn [andb negb orb].
    assert (NN : nnz (tmx a) = nnz (tmx b)).
    { rewrite !nnz_entries. rewrite <- (map_length fst (entries (tmx a))), <- (map_length fst (entries (tmx b))). apply nodup_same_length; try (apply entries_NoDup; [apply Ga|apply Gb]).
      - apply entries_NoDup, Ga. - apply entries_NoDup, Gb.
      - intros [i j]. change (stored (tmx a) i j <-> stored (tmx b) i j). rewrite !no_zeros_stored by (assumption || apply Ga || apply Gb). now rewrite CELL. }
    rewrite (proj2 (Nat.eqb_eq _ _) NN). cbn [negb orb]. unfold sp_same. apply forallb_forall. intros i _. apply forallb_forall. intros j _. apply veqb_eq, CELL.
  Qed.
End Elem.
