(** * TypeTokenMatrix and nested dicts: proofs. *)
From Coq Require Import NArith ZArith Bool Arith Lia Permutation Sorted List.
From Verif Require Import Base BaseLemmas MxModel MxSpec MxProofs.
Import ListNotations.

(** ** Generic *)
Lemma dict_of_nodup_app {K X} `{EqDec K} (l d : dict K X) :
  dwf (d ++ l) -> fold_left (fun d kv => dset d (fst kv) (snd kv)) l d = d ++ l.
Proof.
  revert d. induction l as [|[k v] l IH]; intros d W; cbn [fold_left]; [now rewrite app_nil_r|].
  assert (E : dset d k v = d ++ [(k, v)]).
  { assert (N : ~ In k (dkeys d)).
    { unfold dwf, dkeys in W. rewrite map_app in W. cbn in W. apply NoDup_remove_2 in W. rewrite in_app_iff in W. tauto. }
    clear -N. induction d as [|[a b] d IHd]; [reflexivity|]. cbn. destruct (eqdec k a) as [->|].
    - exfalso. apply N. cbn. auto.
    - cbn. f_equal. apply IHd. intros I. apply N. cbn. auto. }
  cbn [fst snd]. rewrite E, IH, <- app_assoc; [reflexivity|]. now rewrite <- app_assoc.
Qed.
Lemma dict_of_nodup {K X} `{EqDec K} (l : dict K X) : dwf l -> dict_of l = l.
Proof. intros W. unfold dict_of. rewrite dict_of_nodup_app; [reflexivity|exact W]. Qed.
Lemma map_fst_combine {A B} (la : list A) (lb : list B) : length la = length lb -> map fst (combine la lb) = la.
Proof. revert lb. induction la as [|a la IH]; intros [|b lb] L; try discriminate; cbn; [reflexivity|]. f_equal. apply IH. now inversion L. Qed.
Lemma item2id_nodup items : NoDup items -> item2id items = combine items (seq 0 (length items)).
Proof. intros ND. unfold item2id. apply dict_of_nodup. unfold dwf, dkeys. rewrite map_fst_combine; [assumption|]. now rewrite seq_length. Qed.
Lemma item2id_length items : NoDup items -> length (item2id items) = length items.
Proof. intros ND. rewrite item2id_nodup by assumption. rewrite combine_length, seq_length. lia. Qed.
Lemma dget_combine_seq (items : list pystr) s k : dget (combine items (seq s (length items))) k = option_map (fun i => s + i) (index_of k items).
Proof.
  revert s. induction items as [|a items IH]; intros s; cbn; [reflexivity|]. destruct (eqdec k a); cbn; [now rewrite Nat.add_0_r|].
  rewrite IH. destruct (index_of k items); cbn; [f_equal; lia|reflexivity].
Qed.
Lemma dget_item2id items k : NoDup items -> dget (item2id items) k = index_of k items.
Proof. intros ND. rewrite item2id_nodup, dget_combine_seq by assumption. now destruct (index_of k items). Qed.
Lemma index_of_lt {A} `{EqDec A} (x : A) l i : index_of x l = Some i -> i < length l.
Proof. intros E. apply index_of_Some in E as [E _]. apply nth_error_Some. congruence. Qed.
Lemma index_of_dec {A} `{EqDec A} (x : A) l : (exists i, index_of x l = Some i) \/ index_of x l = None.
Proof. destruct (index_of x l); eauto. Qed.
Lemma rmapm_map {A B} (f : A -> res B) (g : A -> B) l : (forall x, In x l -> f x = Ok (g x)) -> rmapm f l = Ok (map g l).
Proof.
  induction l as [|x l IH]; intros E; [reflexivity|]. cbn. rewrite E by (cbn; auto). cbn. rewrite IH by (intros; apply E; cbn; auto). reflexivity.
Qed.
Definition idx (items : list pystr) (k : pystr) : nat := match index_of k items with Some i => i | None => 0 end.
Lemma lookup_ok items k : NoDup items -> In k items -> lookup (item2id items) k = Ok (idx items k).
Proof.
  intros ND I. unfold lookup, idx. rewrite dget_item2id by assumption. destruct (index_of k items) eqn:E; [reflexivity|].
  now apply index_of_None in E.
Qed.
Lemma idx_nth items k : In k items -> nth_error items (idx items k) = Some k.
Proof.
  intros I. unfold idx. destruct (index_of k items) eqn:E; [now apply index_of_Some in E|]. now apply index_of_None in E.
Qed.
Lemma idx_lt items k : In k items -> idx items k < length items.
Proof. intros I. apply nth_error_Some. rewrite idx_nth by assumption. discriminate. Qed.
Lemma idx_inj items k k' : In k items -> In k' items -> idx items k = idx items k' -> k = k'.
Proof. intros I I' E. apply idx_nth in I, I'. rewrite E in I. congruence. Qed.
Lemma idx_of_nth items i k : NoDup items -> nth_error items i = Some k -> idx items k = i.
Proof. intros ND E. unfold idx. now rewrite (index_of_nth _ _ _ ND E). Qed.
Lemma nodup_flat_map {A B} (f : A -> list B) l : NoDup l -> (forall x, In x l -> NoDup (f x)) ->
  (forall x y b, In x l -> In y l -> In b (f x) -> In b (f y) -> x = y) -> NoDup (flat_map f l).
Proof.
  induction l as [|a l IH]; intros ND F D; [constructor|]. inversion ND; subst. cbn. apply NoDup_app'.
  - apply F. cbn; auto.
  - apply IH; auto; intros; [apply F; cbn; auto|eapply D; cbn; eauto].
  - intros b I1 I2. apply in_flat_map in I2 as (x & I2 & I3). assert (a = x) by (eapply D; cbn; eauto). subst. contradiction.
Qed.

Section DictProofs.
  Context {V : Type} {NV : Num V}.
  Notation mxdict := (dict pystr (dict pystr V)).
  Implicit Types (d : mxdict) (rows cols : list pystr).

  Definition coo_of d rows cols : list (nat * nat * V) :=
    flat_map (fun rv => map (fun cv => (idx rows (fst rv), idx cols (fst cv), snd cv)) (isort kleb (snd rv))) (isort kleb d).
  Lemma dict_to_coo_ok d rows cols : NoDup rows -> NoDup cols -> mxwf d rows cols -> dict_to_coo d rows cols = Ok (coo_of d rows cols).
  Proof.
    intros NR NC [W F]. unfold dict_to_coo, coo_of.
    rewrite (rmapm_map _ (fun rv => map (fun cv => (idx rows (fst rv), idx cols (fst cv), snd cv)) (isort kleb (snd rv)))).
    - cbn. f_equal. symmetry. apply flat_map_concat_map.
    - intros [r row] I. apply isort_In in I. destruct (F _ _ I) as (Ir & _ & Ic). apply rmapm_map. intros [c v] I2. apply isort_In in I2.
      cbn [fst snd]. rewrite lookup_ok by assumption. cbn. rewrite lookup_ok; [reflexivity|assumption|]. apply Ic. apply in_map_iff. now exists (c, v).
  Qed.
  Lemma coo_In d rows cols i j v : NoDup rows -> NoDup cols -> mxwf d rows cols ->
    In (i, j, v) (coo_of d rows cols) <-> exists r c, nth_error rows i = Some r /\ nth_error cols j = Some c /\ dget2 d r c = Some v.
  Proof.
    intros NR NC [W F]. unfold coo_of, dget2. rewrite in_flat_map. split.
    - intros ([r row] & I & I2). apply isort_In in I. apply in_map_iff in I2 as ([c w] & E & I2). apply isort_In in I2.
      cbn [fst snd] in *. destruct (F _ _ I) as (Ir & Wr & Ic). inversion E; subst. exists r, c.
      assert (In c cols) by (apply Ic; apply in_map_iff; now exists (c, v)). repeat split; try (now apply idx_nth).
      apply (proj1 (dget_In _ _ _ W)) in I. rewrite I. now apply (proj1 (dget_In _ _ _ Wr)).
    - intros (r & c & Er & Ec & G). destruct (dget d r) as [row|] eqn:D; [|discriminate]. exists (r, row). split.
      + apply isort_In. now apply dget_Some_In.
      + apply in_map_iff. exists (c, v). cbn [fst snd]. rewrite (idx_of_nth _ _ _ NR Er), (idx_of_nth _ _ _ NC Ec). split; [reflexivity|].
        apply isort_In. now apply dget_Some_In.
  Qed.
  Lemma isort_keys {X} (d : dict pystr X) : dwf d -> dwf (isort kleb d).
  Proof. intros W. unfold dwf, dkeys. eapply Permutation_NoDup; [apply Permutation_map, isort_perm|exact W]. Qed.
  Lemma coo_NoDup d rows cols : mxwf d rows cols -> NoDup (map fst (coo_of d rows cols)).
  Proof.
    intros [W F]. unfold coo_of. rewrite flat_map_concat_map, concat_map, map_map, <- flat_map_concat_map.
    apply nodup_flat_map.
    - apply (NoDup_map_inv fst). now apply isort_keys.
    - intros [r row] I. apply isort_In in I. destruct (F _ _ I) as (Ir & Wr & Ic). rewrite map_map. cbn [fst snd].
      rewrite <- (map_map fst (fun c => (idx rows r, idx cols c))). apply nodup_map_inj.
      + intros c c' I1 I2 E. inversion E as [E']. apply idx_inj in E'; [assumption| |]; apply Ic; apply in_map_iff;
          [apply in_map_iff in I1 as (x & <- & I1)|apply in_map_iff in I2 as (x & <- & I2)]; exists x; split; auto; now apply (isort_In kleb).
      + now apply isort_keys.
    - intros [r row] [r' row'] b I I' B B'. apply isort_In in I, I'. destruct (F _ _ I) as (Ir & _). destruct (F _ _ I') as (Ir' & _).
      rewrite map_map in B, B'. apply in_map_iff in B as (x & <- & _). apply in_map_iff in B' as (y & E & _). cbn in E. inversion E as [[E1 E2]].
      apply idx_inj in E1; auto. subst r'. f_equal. apply (proj1 (dget_In _ _ _ W)) in I, I'. congruence.
  Qed.
  Lemma coo_range d rows cols : NoDup rows -> NoDup cols -> mxwf d rows cols -> in_range (length rows) (length cols) (coo_of d rows cols).
  Proof.
    intros NR NC W. apply Forall_forall. intros [[i j] v] I. apply coo_In in I as (r & c & Er & Ec & _); auto. cbn.
    split; apply nth_error_Some; congruence.
  Qed.
  (** ** of_coo with distinct positions *)
  Lemma of_coo_stored nr nc (es : list (nat * nat * V)) i j : in_range nr nc es -> stored (of_coo nr nc es) i j <-> In (i, j) (map fst es).
  Proof.
    intros R. unfold stored. unfold in_range in R. rewrite Forall_forall in R. split.
    - intros I. apply in_map_iff in I as ([[a b] v] & E & I). cbn in E. inversion E; subst. apply entries_In in I.
      unfold of_coo in I. cbn [sfmt lanes] in I. destruct (Nat.lt_ge_cases i nr).
      2:{ rewrite nth_overflow in I by (now rewrite map_length, seq_length). contradiction. }
      rewrite nth_map_seq in I by assumption. apply (in_map fst) in I. rewrite canon_keys in I. apply (proj1 (sset_In _ _)) in I.
      rewrite map_map in I. cbn in I. apply in_map_iff in I as ([[a b] w] & E2 & I). cbn in E2. subst.
      apply filter_In in I as [I E2]. cbn in E2. apply Nat.eqb_eq in E2. subst. apply in_map_iff. now exists (i, j, w).
    - intros I. apply in_map_iff in I as ([[a b] v] & E & I). cbn in E. inversion E; subst. pose proof (R _ I) as [Li Lj]. cbn in Li, Lj.
      assert (K : In j (map fst (nth i (lanes (of_coo nr nc es)) []))).
      { unfold of_coo. cbn [lanes]. rewrite nth_map_seq by assumption. rewrite canon_keys. apply sset_In. rewrite map_map. cbn.
        apply in_map_iff. exists (i, j, v). split; [reflexivity|]. apply filter_In. cbn. now rewrite Nat.eqb_refl. }
      apply in_map_iff in K as ([j' w] & E2 & K). cbn in E2. subst. apply in_map_iff. exists (i, j, w). split; [reflexivity|].
      apply entries_In. exact K.
  Qed.
  Lemma of_coo_In nr nc (es : list (nat * nat * V)) i j v : in_range nr nc es -> NoDup (map fst es) ->
    In (i, j, v) (entries (of_coo nr nc es)) <-> In (i, j, v) es.
  Proof.
    intros R ND. pose proof (of_coo_wf nr nc es R) as W.
    assert (X : forall w, In (i, j, w) es -> spget (of_coo nr nc es) i j = w).
    { intros w I. rewrite of_coo_get. unfold in_range in R. rewrite Forall_forall in R. specialize (R _ I). cbn in R.
      replace (i <? nr) with true by (symmetry; apply Nat.ltb_lt; lia). apply (pick_in _ _ (i, j)); [assumption|assumption|apply ij_true]. }
    split; intros I.
    - pose proof (entries_value _ _ _ _ W I) as G. assert (S : In (i, j) (map fst es)) by (apply (of_coo_stored nr nc); [assumption|]; apply in_map_iff; now exists (i, j, v)).
      apply in_map_iff in S as ([[a b] w] & E & I2). cbn in E. inversion E; subst. rewrite (X _ I2). exact I2.
    - assert (S : stored (of_coo nr nc es) i j) by (apply of_coo_stored; [assumption|]; apply in_map_iff; now exists (i, j, v)).
      apply in_map_iff in S as ([[a b] w] & E & I2). cbn in E. inversion E; subst.
      rewrite <- (X _ I). rewrite (entries_value _ _ _ _ W I2). exact I2.
  Qed.

  (** ** dict -> matrix *)
  Lemma dict_to_sp_ok d rows cols : NoDup rows -> NoDup cols -> mxwf d rows cols -> (exists r c v, dget2 d r c = Some v) ->
    exists m, dict_to_sp d rows cols = Ok m /\ spwf m /\ sfmt m = Csr /\ nrows m = length rows /\ ncols m = length cols
      /\ (forall i j v, In (i, j, v) (entries m) <-> exists r c, nth_error rows i = Some r /\ nth_error cols j = Some c /\ dget2 d r c = Some v)
      /\ (forall r c, In r rows -> In c cols -> spget m (idx rows r) (idx cols c) = oz (dget2 d r c)).
  Proof.
    intros NR NC W (r0 & c0 & v0 & G0). pose proof (coo_range d rows cols NR NC W) as R. pose proof (coo_NoDup d rows cols W) as ND.
    exists (of_coo (length rows) (length cols) (coo_of d rows cols)). split.
    - unfold dict_to_sp. rewrite dict_to_coo_ok by assumption. cbn [rbind].
      assert (K : exists x l, coo_of d rows cols = x :: l).
      { assert (In (idx rows r0, idx cols c0, v0) (coo_of d rows cols)).
        { apply coo_In; auto. exists r0, c0. unfold dget2 in G0. destruct (dget d r0) as [row|] eqn:D; [|discriminate].
          destruct (proj2 W r0 row) as (I1 & I2 & I3); [now apply dget_Some_In|]. assert (In c0 cols) by (apply I3; eapply dget_Some_key; eassumption).
          repeat split; try (now apply idx_nth). unfold dget2. now rewrite D. }
        destruct (coo_of d rows cols) as [|x l]; [contradiction|eauto]. }
      destruct K as (x & l & K). rewrite K. rewrite <- K. unfold checked_of_coo. rewrite !item2id_length by assumption.
      replace (forallb _ _) with true; [reflexivity|]. symmetry. apply forallb_forall. intros e I. unfold in_range in R. rewrite Forall_forall in R.
      destruct (R _ I) as [A B]. apply Nat.ltb_lt in A, B. now rewrite A, B.
    - destruct (of_coo_shape (length rows) (length cols) (coo_of d rows cols)) as [S1 S2].
      split; [now apply of_coo_wf|]. split; [reflexivity|]. split; [exact S1|]. split; [exact S2|]. split.
      + intros. rewrite of_coo_In by assumption. now apply coo_In.
      + intros r c Ir Ic. destruct (dget2 d r c) as [v|] eqn:G; cbn [oz].
        * apply entries_value; [now apply of_coo_wf|]. apply of_coo_In; auto. apply coo_In; auto. exists r, c. auto using idx_nth.
        * apply not_stored. intros S. apply in_map_iff in S as ([[a b] v] & E & I). cbn in E. inversion E; subst.
          apply of_coo_In in I; auto. apply coo_In in I as (r' & c' & Er & Ec & G'); auto.
          rewrite idx_nth in Er, Ec by assumption. congruence.
  Qed.
  Lemma dict_to_sp_empty d rows cols : NoDup rows -> NoDup cols -> mxwf d rows cols -> (forall r c, dget2 d r c = None) -> dict_to_sp d rows cols = Err ValueError.
  Proof.
    intros NR NC W Z. unfold dict_to_sp. rewrite dict_to_coo_ok by assumption. cbn [rbind].
    destruct (coo_of d rows cols) as [|[[i j] v] l] eqn:E; [reflexivity|]. exfalso.
    assert (I : In (i, j, v) (coo_of d rows cols)) by (rewrite E; cbn; auto). apply coo_In in I as (r & c & _ & _ & G); auto. congruence.
  Qed.

  (** ** matrix -> dict *)
  Definition eitem rows cols (e : nat * nat * V) : pystr * pystr * V := (nth (fst (fst e)) rows [], nth (snd (fst e)) cols [], snd e).
  Definition dput3 d (e : pystr * pystr * V) := dput d (fst (fst e)) (snd (fst e)) (snd e).
  Lemma sp_to_dict_fold (m : sp V) rows cols : spwf m -> nrows m = length rows -> ncols m = length cols ->
    sp_to_dict m rows cols = Ok (fold_left dput3 (map (eitem rows cols) (entries m)) []).
  Proof.
    intros W R C. unfold sp_to_dict. pose proof (entries_range m W) as RG. rewrite R, C in RG. unfold in_range in RG. generalize (@nil (pystr * dict pystr V)). revert RG.
    induction (entries m) as [|[[i j] v] es IH]; intros RG d; [reflexivity|]. inversion RG as [|? ? [Li Lj] RG']; subst. cbn in Li, Lj. cbn [rfold fst snd map fold_left].
    unfold at_ at 1. rewrite (nth_error_nth' rows [] Li). cbn [rbind]. unfold at_ at 1. rewrite (nth_error_nth' cols [] Lj). cbn [rbind].
    rewrite IH by assumption. reflexivity.
  Qed.
  Lemma dget2_dput d r c v r' c' : dget2 (dput d r c v) r' c' = if eqdec (r', c') (r, c) then Some v else dget2 d r' c'.
  Proof.
    unfold dget2, dput. rewrite dget_dset. destruct (eqdec r' r) as [->|N].
    - rewrite dget_dset. destruct (eqdec c' c) as [->|N2].
      + destruct (eqdec (r, c) (r, c)); congruence.
      + destruct (eqdec (r, c') (r, c)); [congruence|]. now destruct (dget d r).
    - destruct (eqdec (r', c') (r, c)); [congruence|reflexivity].
  Qed.
  Lemma fold_dput es d r c : NoDup (map fst es) ->
    dget2 (fold_left dput3 es d) r c = match dget es (r, c) with Some v => Some v | None => dget2 d r c end.
  Proof.
    revert d. induction es as [|[[a b] v] es IH]; intros d ND; [reflexivity|]. inversion ND; subst. cbn [fold_left]. rewrite IH by assumption.
    unfold dput3 at 1. cbn [fst snd]. cbn [dget]. rewrite dget2_dput. destruct (eqdec (r, c) (a, b)) as [E|]; [|reflexivity].
    inversion E; subst. destruct (dget es (a, b)) eqn:D; [|reflexivity]. apply dget_Some_key in D. contradiction.
  Qed.
  Lemma fold_dput_wf es d rows cols : mxwf d rows cols -> Forall (fun e => In (fst (fst e)) rows /\ In (snd (fst e)) cols) es -> mxwf (fold_left dput3 es d) rows cols.
  Proof.
    revert d. induction es as [|[[r c] v] es IH]; intros d W F; [exact W|]. inversion F as [|? ? [Ir Ic] F']; subst. cbn [fold_left fst snd] in *.
    apply IH; [|assumption]. destruct W as [W0 W]. split; [now apply dwf_dset|]. intros r' row I.
    unfold dput3, dput in I. cbn [fst snd] in I. apply (proj1 (dget_In _ _ _ (dwf_dset _ _ _ W0))) in I. rewrite dget_dset in I.
    destruct (eqdec r' r) as [->|N].
    - inversion I; subst. split; [assumption|]. destruct (dget d r) as [row|] eqn:D.
      + destruct (W r row) as (_ & W2 & W3); [now apply dget_Some_In|]. split; [now apply dwf_dset|]. intros x Ix. apply dkeys_dset_In in Ix as [->|Ix]; auto.
      + split; [apply dwf_dset, dwf_nil|]. intros x Ix. apply dkeys_dset_In in Ix as [->|Ix]; [assumption|contradiction].
    - apply W. now apply dget_Some_In.
  Qed.
  Lemma sp_to_dict_ok (m : sp V) rows cols : spwf m -> nrows m = length rows -> ncols m = length cols -> NoDup rows -> NoDup cols ->
    exists d, sp_to_dict m rows cols = Ok d /\ mxwf d rows cols /\
      forall r c v, dget2 d r c = Some v <-> exists i j, nth_error rows i = Some r /\ nth_error cols j = Some c /\ In (i, j, v) (entries m).
  Proof.
    intros W R C NR NC. eexists. split; [now apply sp_to_dict_fold|].
    pose proof (entries_range m W) as RG. rewrite R, C in RG. unfold in_range in RG. rewrite Forall_forall in RG.
    assert (ND : NoDup (map fst (map (eitem rows cols) (entries m)))).
    { rewrite map_map. unfold eitem. cbn. rewrite <- (map_map fst (fun k => (nth (fst k) rows [], nth (snd k) cols []))).
      apply nodup_map_inj; [|now apply entries_NoDup]. intros [a b] [a' b'] I I' E. cbn in E. inversion E as [[E1 E2]].
      apply in_map_iff in I as (e & Ee & I). apply in_map_iff in I' as (e' & Ee' & I'). pose proof (RG _ I) as K. pose proof (RG _ I') as K'.
      rewrite Ee in K. rewrite Ee' in K'. cbn in K, K'. f_equal.
      - eapply (proj1 (NoDup_nth rows [])); try tauto.
      - eapply (proj1 (NoDup_nth cols [])); try tauto. }
    split.
    - apply fold_dput_wf; [split; [apply dwf_nil|contradiction]|]. apply Forall_forall. intros e I. apply in_map_iff in I as (x & <- & I).
      unfold eitem. cbn. destruct (RG _ I). split; now apply nth_In.
    - intros r c v. rewrite fold_dput by assumption. cbn.
      replace (match dget (map (eitem rows cols) (entries m)) (r, c) with Some v0 => Some v0 | None => None end) with (dget (map (eitem rows cols) (entries m)) (r, c)) by (now destruct dget).
      rewrite <- (dget_In _ _ _ ND). rewrite in_map_iff. split.
      + intros ([[i j] w] & E & I). unfold eitem in E. cbn in E. inversion E; subst. destruct (RG _ I) as [Li Lj]. cbn in Li, Lj.
        exists i, j. repeat split; auto using nth_error_nth'.
      + intros (i & j & Er & Ec & I). exists (i, j, v). split; [|assumption]. unfold eitem. cbn [fst snd].
        rewrite (nth_error_nth _ _ (@nil N : pystr) Er). rewrite (nth_error_nth _ _ (@nil N : pystr) Ec). reflexivity.
  Qed.
  (** ** Adding nested dicts *)
  Lemma fold_dadd_row row base c : dwf row ->
    dget (fold_left dadd_row row base) c = match dget row c with Some v => Some (add (oz (dget base c)) v) | None => dget base c end.
  Proof.
    revert base. induction row as [|[k v] row IH]; intros base W; [reflexivity|]. unfold dwf in W. cbn in W. inversion W; subst. cbn [fold_left].
    rewrite IH by assumption. unfold dadd_row at 1 2. cbn [fst snd dget]. rewrite !dget_dset. destruct (eqdec c k) as [->|]; [|reflexivity].
    destruct (dget row k) eqn:D; [apply dget_Some_key in D; contradiction|]. unfold oz. now destruct (dget base k).
  Qed.
  Lemma fold_dadd_row_wf row base cols : dwf base -> incl (dkeys base) cols -> incl (dkeys row) cols -> dwf (fold_left dadd_row row base) /\ incl (dkeys (fold_left dadd_row row base)) cols.
  Proof.
    revert base. induction row as [|[k v] row IH]; intros base W I1 I2; [auto|]. cbn [fold_left]. apply IH.
    - now apply dwf_dset.
    - intros x Ix. apply dkeys_dset_In in Ix as [->|Ix]; [|auto]. apply I2. cbn. auto.
    - intros x Ix. apply I2. cbn. auto.
  Qed.
  Lemma fold_dadd (m d : mxdict) r c : dwf m -> (forall r row, In (r, row) m -> dwf row) ->
    dget2 (fold_left dadd m d) r c = match dget2 m r c with Some v => Some (add (oz (dget2 d r c)) v) | None => dget2 d r c end.
  Proof.
    revert d. induction m as [|[k row] m IH]; intros d W F; [reflexivity|]. unfold dwf in W. cbn in W. inversion W; subst. cbn [fold_left].
    assert (Wr : dwf row) by (eapply F; cbn; eauto). rewrite IH; [|assumption|intros; eapply F; cbn; eauto].
    assert (E : dget2 (dadd d (k, row)) r c = if eqdec r k then match dget row c with Some v => Some (add (oz (dget2 d r c)) v) | None => dget2 d r c end else dget2 d r c).
    { unfold dadd, dget2. cbn [fst snd]. rewrite dget_dset. destruct (eqdec r k) as [->|]; [|reflexivity]. rewrite fold_dadd_row by assumption.
      now destruct (dget d k). }
    rewrite E. clear E. assert (E : dget2 ((k, row) :: m) r c = if eqdec r k then dget row c else dget2 m r c).
    { unfold dget2. cbn [dget]. now destruct (eqdec r k). }
    rewrite E. destruct (eqdec r k) as [->|]; [|reflexivity].
    assert (E2 : dget2 m k c = None) by (unfold dget2; destruct (dget m k) eqn:D; [apply dget_Some_key in D; contradiction|reflexivity]).
    now rewrite E2.
  Qed.
  Lemma fold_dadd_wf (m d : mxdict) rows cols : mxwf d rows cols -> (forall r row, In (r, row) m -> In r rows /\ incl (dkeys row) cols) -> mxwf (fold_left dadd m d) rows cols.
  Proof.
    revert d. induction m as [|[k row] m IH]; intros d W F; [exact W|]. cbn [fold_left]. apply IH; [|intros; apply F; cbn; auto].
    destruct W as [W0 W]. destruct (F k row) as [Ik Ir]; [cbn; auto|]. split; [now apply dwf_dset|]. intros r' row' I. unfold dadd in I. cbn [fst snd] in I.
    apply (proj1 (dget_In _ _ _ (dwf_dset _ _ _ W0))) in I. rewrite dget_dset in I. destruct (eqdec r' k) as [->|N].
    - inversion I; subst. split; [assumption|]. destruct (dget d k) as [r0|] eqn:D.
      + destruct (W k r0) as (_ & W2 & W3); [now apply dget_Some_In|]. now apply fold_dadd_row_wf.
      + apply fold_dadd_row_wf; [apply dwf_nil|intros x []|assumption].
    - apply W. now apply dget_Some_In.
  Qed.
End DictProofs.
