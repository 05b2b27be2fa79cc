(** * Sums, dropping, element-wise operations and equality: proofs. *)
From Coq Require Import NArith ZArith Bool Arith Lia Permutation Sorted List.
From Verif Require Import Base BaseLemmas MxModel MxSpec MxProofs MxTtmProofs MxOpsProofs.
Import ListNotations.

Section Cells.
  Context {V : Type} {NV : Num V}.
  Implicit Types (m a b : ttm V) (s : sp V) (r c : pystr).

  (** ** Sums *)
  Lemma sumv_indicator n (b : nat) (v : V) : sumv (map (fun j => if b =? j then v else zero) (seq 0 n)) = if b <? n then v else zero.
  Proof.
    pose proof (pick_fun (seq 0 n) (fun _ => v) (fun j => b =? j) b (seq_NoDup n 0)) as P.
    assert (E : pick (fun j => b =? j) (map (fun x => (x, v)) (seq 0 n)) = sumv (map (fun j => if b =? j then v else zero) (seq 0 n))).
    { clear P. induction (seq 0 n) as [|x l IH]; [reflexivity|]. cbn [map]. rewrite pick_cons, IH.
      change (sumv ((if b =? x then v else zero) :: map (fun j => if b =? j then v else zero) l)) with (add (if b =? x then v else zero) (sumv (map (fun j => if b =? j then v else zero) l))).
      destruct (b =? x); [reflexivity|]. now rewrite add_0. }
    rewrite <- E, P by (intros; rewrite Nat.eqb_eq; split; congruence). clear. destruct (existsb (fun j => b =? j) (seq 0 n)) eqn:X; destruct (Nat.ltb_spec b n); auto.
    - apply existsb_exists in X as (x & I & E). apply Nat.eqb_eq in E. subst. apply in_seq in I. lia.
    - exfalso. rewrite <- not_true_iff_false in X. apply X, existsb_exists. exists b. rewrite in_seq, Nat.eqb_refl. split; [lia|reflexivity].
  Qed.
  Lemma pick_split {K} (g : K -> nat) (p : K -> bool) (es : list (K * V)) n : (forall e, In e es -> g (fst e) < n) ->
    pick p es = sumv (map (fun j => pick (fun k => p k && (g k =? j)) es) (seq 0 n)).
  Proof.
    induction es as [|[k v] es IH]; intros R.
    - cbn. symmetry. apply sumv_zero. intros x I. apply in_map_iff in I as (? & <- & _). reflexivity.
    - rewrite pick_cons. rewrite (sumv_map_ext (fun j => pick (fun k => p k && (g k =? j)) ((k, v) :: es))
        (fun j => add (if p k then (if g k =? j then v else zero) else zero) (pick (fun k => p k && (g k =? j)) es))).
      2:{ intros j _. rewrite pick_cons. destruct (p k); cbn [andb]; [destruct (g k =? j)|]; now rewrite ?add_0. }
      rewrite (sumv_add (fun j => if p k then (if g k =? j then v else zero) else zero)). rewrite <- IH by (intros; apply R; cbn; auto).
      destruct (p k).
      + rewrite sumv_indicator. assert (L : g k < n) by (apply (R (k, v)); cbn; auto). apply Nat.ltb_lt in L. now rewrite L.
      + rewrite sumv_zero, add_0; [reflexivity|]. intros x I. apply in_map_iff in I as (? & <- & _). reflexivity.
  Qed.
  Lemma row_sum_cells s i : spwf s -> row_sum s i = sumv (map (spget s i) (seq 0 (ncols s))).
  Proof.
    intros W. change (row_sum s i) with (pick (fun k : nat * nat => fst k =? i) (entries s)).
    pose proof (entries_range s W) as R. unfold in_range in R. rewrite Forall_forall in R. rewrite (pick_split snd _ _ (ncols s)) by (intros e I; apply (R _ I)).
    apply sumv_map_ext. intros j _. rewrite <- entries_get. reflexivity.
  Qed.
  Lemma col_sum_cells s j : spwf s -> col_sum s j = sumv (map (fun i => spget s i j) (seq 0 (nrows s))).
  Proof.
    intros W. change (col_sum s j) with (pick (fun k : nat * nat => snd k =? j) (entries s)).
    pose proof (entries_range s W) as R. unfold in_range in R. rewrite Forall_forall in R. rewrite (pick_split fst _ _ (nrows s)) by (intros e I; apply (R _ I)).
    apply sumv_map_ext. intros i _. rewrite <- entries_get. apply pick_ext. intros. unfold ij. apply andb_comm.
  Qed.
  Lemma sp_sum_rows s : spwf s -> sp_sum s = sumv (map (row_sum s) (seq 0 (nrows s))).
  Proof.
    intros W. assert (E : sp_sum s = pick (fun _ : nat * nat => true) (entries s)).
    { unfold sp_sum, pick. do 2 f_equal. clear. induction (entries s) as [|e l IH]; [reflexivity|]. cbn. now rewrite <- IH. }
    rewrite E. pose proof (entries_range s W) as R. unfold in_range in R. rewrite Forall_forall in R. rewrite (pick_split fst _ _ (nrows s)) by (intros e I; apply (R _ I)).
    reflexivity.
  Qed.
  Lemma map_nth_seq {A} (l : list A) d : map (fun i => nth i l d) (seq 0 (length l)) = l.
  Proof.
    apply nth_ext with (d := nth 0 l d) (d' := d).
    - now rewrite map_length, seq_length.
    - intros n L. rewrite map_length, seq_length in L. rewrite (map_nth (fun i => nth i l d)). now rewrite seq_nth.
  Qed.
  Lemma sum_by_items (items : list pystr) (f : nat -> V) (g : pystr -> V) :
    (forall i x, nth_error items i = Some x -> f i = g x) -> map f (seq 0 (length items)) = map g items.
  Proof.
    intros E. rewrite <- (map_nth_seq items []) at 2. rewrite map_map. apply map_ext_in. intros i I. apply in_seq in I.
    apply E. apply nth_error_nth'. lia.
  Qed.
  Lemma dget_combine_map (items : list pystr) (g : pystr -> V) k : dget (combine items (map g items)) k = if mem k items then Some (g k) else None.
  Proof.
    induction items as [|a items IH]; cbn; [reflexivity|]. destruct (eqdec k a) as [->|N]; [now rewrite eqb_refl|]. rewrite IH.
    rewrite (proj2 (eqb_neq _ _) N). reflexivity.
  Qed.
  Definition row_total m r : V := sumv (map (fun c => val m r c) (tcols m)).
  Definition col_total m c : V := sumv (map (fun r => val m r c) (trows m)).
  Lemma row_sum_items m : tgood m -> map (row_sum (tmx m)) (seq 0 (nrows (tmx m))) = map (row_total m) (trows m).
  Proof.
    intros G. rewrite (tg_rows _ G). apply sum_by_items. intros i r Er. rewrite row_sum_cells by apply G. unfold row_total. rewrite (tg_cols _ G). f_equal.
    apply sum_by_items. intros j c Ec. symmetry. now apply val_at.
  Qed.
  Lemma col_sum_items m : tgood m -> map (col_sum (tmx m)) (seq 0 (ncols (tmx m))) = map (col_total m) (tcols m).
  Proof.
    intros G. rewrite (tg_cols _ G). apply sum_by_items. intros j c Ec. rewrite col_sum_cells by apply G. unfold col_total. rewrite (tg_rows _ G). f_equal.
    apply (sum_by_items (trows m) (fun i => spget (tmx m) i j) (fun r => val m r c)). intros i r Er. symmetry. now apply val_at.
  Qed.
  Lemma tt_sum_ok m (axis1 : bool) : tgood m -> length (if axis1 then trows m else tcols m) <> 1 ->
    exists d, tt_sum m axis1 = Ok d /\ dkeys d = (if axis1 then trows m else tcols m)
      /\ forall k, dget d k = if mem k (if axis1 then trows m else tcols m) then Some (if axis1 then row_total m k else col_total m k) else None.
  Proof.
    intros G N. unfold tt_sum. set (items := if axis1 then trows m else tcols m) in *.
    assert (EN : (if axis1 then nrows (tmx m) else ncols (tmx m)) = length items) by (unfold items; destruct axis1; apply G).
    assert (ES : map (if axis1 then row_sum (tmx m) else col_sum (tmx m)) (seq 0 (if axis1 then nrows (tmx m) else ncols (tmx m)))
                 = map (fun k => if axis1 then row_total m k else col_total m k) items).
    { unfold items. destruct axis1; [now apply row_sum_items|now apply col_sum_items]. }
    rewrite ES, EN. rewrite (proj2 (Nat.eqb_neq _ _) N). eexists. split; [reflexivity|].
    assert (NI : NoDup items) by (unfold items; destruct axis1; apply G).
    assert (KK : map fst (combine items (map (fun k => if axis1 then row_total m k else col_total m k) items)) = items) by (apply map_fst_combine; now rewrite map_length).
    rewrite dict_of_nodup by (unfold dwf, dkeys; now rewrite KK). split; [exact KK|]. intros. apply (dget_combine_map items (fun k => if axis1 then row_total m k else col_total m k)).
  Qed.
  Lemma tt_total_ok m : tgood m -> tt_total m = sumv (map (row_total m) (trows m)) /\ tt_total m = sumv (map (col_total m) (tcols m)).
  Proof.
    intros G. assert (E : tt_total m = sumv (map (row_total m) (trows m))) by (unfold tt_total; rewrite sp_sum_rows by apply G; now rewrite row_sum_items).
    split; [assumption|]. rewrite E. unfold row_total, col_total. apply sumv_exchange.
  Qed.
  Lemma tt_sum_single m (axis1 : bool) : tgood m -> length (if axis1 then trows m else tcols m) = 1 -> tt_sum m axis1 = Err TypeError.
  Proof. intros G E. unfold tt_sum. destruct axis1; [rewrite (tg_rows _ G)|rewrite (tg_cols _ G)]; now rewrite E. Qed.

  (** ** Counting non-zero cells *)
  Lemma sp_cmp_stored (p : V -> bool) s i j : spwf s -> p zero = false -> stored (sp_cmp p s) i j <-> p (spget s i j) = true.
  Proof.
    intros W Z. destruct (sp_cmp_spec p s W Z) as (W' & _ & _ & G & ONE). rewrite Forall_forall in ONE. split.
    - intros S. apply in_map_iff in S as ([[x y] v] & E & I). cbn in E. inversion E; subst. pose proof (entries_value _ _ _ _ W' I) as K. rewrite G in K.
      apply entries_lanes in I as (e & Ie & Ee). cbn in Ee. rewrite (ONE _ Ie) in Ee. destruct (p (spget s i j)); [reflexivity|]. exfalso. apply one_nz. congruence.
    - intros P. destruct (in_dec eqdec (i, j) (map fst (entries (sp_cmp p s)))) as [I|N]; [exact I|]. apply not_stored in N. rewrite G, P in N. exfalso. now apply one_nz.
  Qed.
  Lemma nodup_same_length {A} (l l' : list A) : NoDup l -> NoDup l' -> (forall x, In x l <-> In x l') -> length l = length l'.
  Proof. intros. apply Nat.le_antisymm; apply NoDup_incl_length; auto; intros x; apply H1. Qed.
  Definition nz m r c : bool := negb (isz (val m r c)).
  Definition row_nonzeros m r : nat := length (filter (nz m r) (tcols m)).
  Definition col_nonzeros m c : nat := length (filter (fun r => nz m r c) (trows m)).
  Lemma nonzeros_rows m : tgood m -> nonzeros (tmx m) false = map (row_nonzeros m) (trows m).
  Proof.
    intros G. unfold nonzeros. rewrite (tg_rows _ G).
    set (f := fun i => length (filter (fun e : nat * nat * V => fst (fst e) =? i) (entries (sp_nz (tmx m))))).
    assert (E : forall i r, nth_error (trows m) i = Some r -> f i = row_nonzeros m r).
    { intros i r Er. unfold f, row_nonzeros.
      assert (Z0 : (fun v : V => negb (isz v)) zero = false) by (cbn; now rewrite isz_zero).
      destruct (sp_cmp_spec (fun v => negb (isz v)) (tmx m) (tg_wf _ G) Z0) as (W' & R' & C' & _ & _).
      rewrite <- (map_length (fun e : nat * nat * V => nth (snd (fst e)) (tcols m) []) (filter (fun e : nat * nat * V => fst (fst e) =? i) (entries (sp_nz (tmx m))))).
      pose proof (entries_range _ W') as RG. unfold in_range in RG. rewrite Forall_forall in RG. rewrite C', (tg_cols _ G) in RG.
      apply nodup_same_length.
      - rewrite <- (map_map fst (fun k : nat * nat => nth (snd k) (tcols m) [])). apply nodup_map_inj.
        + intros [x y] [x' y'] I I' EQ. apply in_map_iff in I as (e & Ee & I). apply in_map_iff in I' as (e' & Ee' & I').
          apply filter_In in I as [I X]. apply filter_In in I' as [I' X']. apply Nat.eqb_eq in X, X'. rewrite Ee in X. rewrite Ee' in X'. cbn in X, X', EQ.
          pose proof (RG _ I) as L. pose proof (RG _ I') as L'. rewrite Ee in L. rewrite Ee' in L'. cbn in L, L'. f_equal; [congruence|].
          eapply (proj1 (NoDup_nth (tcols m) [])); [apply G| | |exact EQ]; tauto.
        + apply NoDup_map_filter. now apply entries_NoDup.
      - apply NoDup_filter, G.
      - intros c. rewrite in_map_iff, filter_In. split.
        + intros ([[x y] v] & Ec & I). cbn in Ec. apply filter_In in I as [I X]. cbn in X. apply Nat.eqb_eq in X. subst x.
          pose proof (RG _ I) as L. cbn in L. assert (Ey : nth_error (tcols m) y = Some c) by (rewrite <- Ec; apply nth_error_nth'; tauto). split; [eapply nth_error_In; eassumption|].
          unfold nz. rewrite (val_at m i y r c G Er Ey). apply (sp_cmp_stored (fun v => negb (isz v)) (tmx m) i y (tg_wf _ G) Z0). apply in_map_iff. now exists (i, y, v).
        + intros [Ic N]. unfold nz in N. rewrite (val_at m i (idx (tcols m) c) r c G Er) in N by (now apply idx_nth).
          apply (sp_cmp_stored (fun v => negb (isz v)) (tmx m) i _ (tg_wf _ G) Z0) in N. apply in_map_iff in N as ([[x y] v] & Exy & I). cbn in Exy. inversion Exy; subst.
          exists (i, idx (tcols m) c, v). cbn. split; [apply nth_error_nth; now apply idx_nth|]. apply filter_In. cbn. now rewrite Nat.eqb_refl. }
    clearbody f. generalize E. clear. intros E. rewrite <- (map_nth_seq (trows m) []) at 2. rewrite map_map. apply map_ext_in. intros i I. apply in_seq in I. apply E. apply nth_error_nth'. lia.
  Qed.
  Lemma entries_transpose s : entries (sp_transpose s) = map (fun e => (snd (fst e), fst (fst e), snd e)) (entries s).
  Proof.
    unfold entries, nmajor. change (lanes (sp_transpose s)) with (lanes s). rewrite !flat_map_concat_map, concat_map, map_map. f_equal. apply map_ext.
    intros [k ln]. cbn [fst snd]. rewrite map_map. apply map_ext. intros e. cbn [sp_transpose sfmt]. now destruct (sfmt s).
  Qed.
  Lemma nonzeros_cols m : tgood m -> nonzeros (tmx m) true = map (col_nonzeros m) (tcols m).
  Proof.
    intros G. destruct (transpose_ok m G) as (m' & E & G' & R & C & VT & _).
    assert (T : tmx m' = sp_transpose (tmx m)).
    { unfold tt_transpose, mk_ttm in E. destruct (negb _); [discriminate|]. destruct (negb _); [discriminate|]. now inversion E. }
    assert (N : nonzeros (tmx m) true = nonzeros (tmx m') false).
    { rewrite T. unfold nonzeros. replace (nrows (sp_transpose (tmx m))) with (ncols (tmx m)) by (symmetry; apply sp_transpose_spec; apply G).
      apply map_ext. intros i. change (sp_nz (sp_transpose (tmx m))) with (sp_transpose (sp_nz (tmx m))). rewrite entries_transpose.
      clear. induction (entries (sp_nz (tmx m))) as [|e l IH]; [reflexivity|]. cbn [filter map fst snd]. destruct (snd (fst e) =? i); cbn [length]; now rewrite IH. }
    rewrite N, nonzeros_rows by assumption. rewrite R. apply map_ext. intros c. unfold row_nonzeros, col_nonzeros. rewrite C. f_equal. apply filter_ext.
    intros r. unfold nz. now rewrite VT.
  Qed.
  (** ** drop *)
  Lemma combine_map_filter {A B} (l : list A) (f : A -> B) (p : B -> bool) : map fst (filter (fun ic => p (snd ic)) (combine l (map f l))) = filter (fun x => p (f x)) l.
  Proof. induction l as [|x l IH]; [reflexivity|]. cbn. destruct (p (f x)); cbn; now rewrite IH. Qed.
  Lemma drop_submatrix m (axis1 : bool) n : tgood m -> length (if axis1 then tcols m else trows m) <> 1 ->
    tt_drop m axis1 n = if axis1 then tt_submatrix m None (Some (filter (fun c => n <? col_nonzeros m c) (tcols m)))
                        else tt_submatrix m (Some (filter (fun r => n <? row_nonzeros m r) (trows m))) None.
  Proof.
    intros G N. unfold tt_drop. destruct axis1.
    - rewrite nonzeros_cols by assumption. rewrite map_length, (proj2 (Nat.eqb_neq _ _) N). now rewrite (combine_map_filter (tcols m) (col_nonzeros m) (fun x => n <? x)).
    - rewrite nonzeros_rows by assumption. rewrite map_length, (proj2 (Nat.eqb_neq _ _) N). now rewrite (combine_map_filter (trows m) (row_nonzeros m) (fun x => n <? x)).
  Qed.
  Lemma drop_single m (axis1 : bool) n : tgood m -> length (if axis1 then tcols m else trows m) = 1 -> tt_drop m axis1 n = Err IndexError.
  Proof.
    intros G N. unfold tt_drop. destruct axis1; [rewrite nonzeros_cols by assumption|rewrite nonzeros_rows by assumption]; now rewrite map_length, N.
  Qed.
  Lemma filter_all {A} (p : A -> bool) l : (forall x, In x l -> p x = true) -> filter p l = l.
  Proof. induction l as [|x l IH]; intros F; [reflexivity|]. cbn. rewrite F by (cbn; auto). f_equal. apply IH. intros; apply F; cbn; auto. Qed.
  Lemma requested_filter (p : pystr -> bool) l : requested l (Some (filter p l)) = filter p l.
  Proof. cbn. apply filter_all. intros x I. apply filter_In in I as [I _]. now apply mem_In. Qed.
  (** Selecting a subset of the rows *)
  Lemma select_rows m (p : pystr -> bool) : tgood m ->
    (filter p (trows m) = [] /\ tt_submatrix m (Some (filter p (trows m))) None = Ok None) \/
    (exists m', tt_submatrix m (Some (filter p (trows m))) None = Ok (Some m') /\ tgood m' /\ trows m' = filter p (trows m) /\ tcols m' = tcols m
       /\ forall r c, In r (trows m') -> val m' r c = val m r c).
  Proof.
    intros G. destruct (found_dec (trows m) (Some (filter p (trows m)))) as [F|F].
    - right. destruct (submatrix_ok m (Some (filter p (trows m))) None G F I) as (m' & E & R & C & _).
      rewrite requested_filter in R. cbn in C. exists m'. split; [assumption|].
      destruct (submatrix_val m (Some (filter p (trows m))) None m' G E) as [G' VV]; [intros l X; inversion X; subst; apply NoDup_filter, G|discriminate|].
      split; [assumption|]. split; [assumption|]. split; [assumption|]. intros r c Ir. rewrite VV. rewrite (proj2 (mem_In _ _) Ir). cbn [andb].
      destruct (mem c (tcols m')) eqn:Mc; [reflexivity|]. symmetry. apply val_no_col. rewrite <- C. now apply mem_nIn.
    - left. split.
      + cbn in F. destruct (filter p (trows m)) eqn:E; [reflexivity|]. exfalso. apply F. rewrite <- E. rewrite (requested_filter p (trows m) : filter (fun e => mem e (trows m)) (filter p (trows m)) = _).
        rewrite E. discriminate.
      + apply submatrix_none; tauto.
  Qed.
  Lemma select_cols m (p : pystr -> bool) : tgood m ->
    (filter p (tcols m) = [] /\ tt_submatrix m None (Some (filter p (tcols m))) = Ok None) \/
    (exists m', tt_submatrix m None (Some (filter p (tcols m))) = Ok (Some m') /\ tgood m' /\ tcols m' = filter p (tcols m) /\ trows m' = trows m
       /\ forall r c, In c (tcols m') -> val m' r c = val m r c).
  Proof.
    intros G. destruct (found_dec (tcols m) (Some (filter p (tcols m)))) as [F|F].
    - right. destruct (submatrix_ok m None (Some (filter p (tcols m))) G I F) as (m' & E & R & C & _).
      rewrite requested_filter in C. cbn in R. exists m'. split; [assumption|].
      destruct (submatrix_val m None (Some (filter p (tcols m))) m' G E) as [G' VV]; [discriminate|intros l X; inversion X; subst; apply NoDup_filter, G|].
      split; [assumption|]. split; [assumption|]. split; [assumption|]. intros r c Ic. rewrite VV. rewrite (proj2 (mem_In _ _) Ic). rewrite andb_true_r.
      destruct (mem r (trows m')) eqn:Mr; [reflexivity|]. symmetry. apply val_no_row. rewrite <- R. now apply mem_nIn.
    - left. split.
      + cbn in F. destruct (filter p (tcols m)) eqn:E; [reflexivity|]. exfalso. apply F. rewrite <- E. rewrite (requested_filter p (tcols m) : filter (fun e => mem e (tcols m)) (filter p (tcols m)) = _).
        rewrite E. discriminate.
      + apply submatrix_none; tauto.
  Qed.

  (** ** empty rows *)
  Lemma at_items (items : list pystr) (p : nat -> bool) (q : pystr -> bool) : (forall i x, nth_error items i = Some x -> p i = q x) ->
    rmapm (at_ items) (filter p (seq 0 (length items))) = Ok (filter q items).
  Proof.
    intros E. rewrite (rmapm_map _ (fun i => nth i items [])).
    2:{ intros i I. apply filter_In in I as [I _]. apply in_seq in I. unfold at_. rewrite (nth_error_nth' items [] (n := i)) by lia. reflexivity. }
    f_equal. transitivity (filter q (map (fun i => nth i items []) (seq 0 (length items)))); [|now rewrite map_nth_seq]. assert (R : forall i, In i (seq 0 (length items)) -> p i = q (nth i items [])).
    { intros i I. apply in_seq in I. apply E. apply nth_error_nth'. lia. }
    induction (seq 0 (length items)) as [|i l IH]; [reflexivity|]. cbn [filter map]. rewrite <- (R i) by (cbn; auto). destruct (p i); cbn [map]; [f_equal|]; apply IH; intros; apply R; cbn; auto.
  Qed.
  (** No cell of the row is non-zero / no cell of the row is stored *)
  Definition row_zero m r : bool := forallb (fun c => isz (val m r c)) (tcols m).
  Definition row_unstored m r : bool := negb (existsb (fun e => fst (fst e) =? idx (trows m) r) (entries (tmx m))).
  Lemma empty_rows_ok m (explicit : bool) : tgood m -> tt_empty_rows m explicit = Ok (filter (if explicit then row_unstored m else row_zero m) (trows m)).
  Proof.
    intros G. unfold tt_empty_rows, sm_empty_rows. rewrite (tg_rows _ G). destruct explicit; apply at_items; intros i r Er.
    - unfold row_unstored. now rewrite (idx_of_nth _ _ _ (tg_nr _ G) Er).
    - unfold row_zero. rewrite (tg_cols _ G).
      assert (E : forall j c, nth_error (tcols m) j = Some c -> isz (spget (tmx m) i j) = isz (val m r c)) by (intros j c Ec; now rewrite (val_at m i j)).
      clear -E. transitivity (forallb (fun c => isz (val m r c)) (map (fun i => nth i (tcols m) []) (seq 0 (length (tcols m))))); [|now rewrite map_nth_seq]. assert (R : forall j, In j (seq 0 (length (tcols m))) -> isz (spget (tmx m) i j) = isz (val m r (nth j (tcols m) []))).
      { intros j I. apply in_seq in I. apply E. apply nth_error_nth'. lia. }
      induction (seq 0 (length (tcols m))) as [|j l IH]; [reflexivity|]. cbn [forallb map]. rewrite R by (cbn; auto). f_equal. apply IH. intros; apply R; cbn; auto.
  Qed.
  Lemma drop_empty_rows_ok m (explicit : bool) : tgood m ->
    let kept := filter (fun r => negb ((if explicit then row_unstored m else row_zero m) r)) (trows m) in
    (kept = [] /\ trows m <> [] /\ tt_drop_empty_rows m explicit = Ok None) \/
    (exists m', tt_drop_empty_rows m explicit = Ok (Some m') /\ tgood m' /\ trows m' = kept /\ tcols m' = tcols m /\ forall r c, In r (trows m') -> val m' r c = val m r c).
  Proof.
    intros G. unfold tt_drop_empty_rows. rewrite empty_rows_ok by assumption. cbn [rbind].
    set (p := if explicit then row_unstored m else row_zero m). cbv zeta. destruct (filter p (trows m)) as [|x em] eqn:E.
    - right. exists m. assert (K : filter (fun r => negb (p r)) (trows m) = trows m).
      { apply filter_all. intros r Ir. destruct (p r) eqn:P; [|reflexivity]. exfalso. assert (In r (filter p (trows m))) by (now apply filter_In). rewrite E in H. contradiction. }
      rewrite K. repeat split; try apply G; auto.
    - rewrite <- E. assert (K : filter (fun e => negb (mem e (filter p (trows m)))) (trows m) = filter (fun r => negb (p r)) (trows m)).
      { apply filter_ext_in. intros r Ir. f_equal. destruct (p r) eqn:P.
        - apply mem_In. now apply filter_In.
        - apply mem_nIn. rewrite filter_In. intros [_ ?]. congruence. }
      rewrite K. destruct (select_rows m (fun r => negb (p r)) G) as [[Z EQ]|(m' & EQ & G' & R & C & VV)].
      + left. split; [assumption|]. split; [|assumption]. intros N. rewrite N in E. discriminate.
      + right. exists m'. auto.
  Qed.
End Cells.
