(** * From a corpus to scores: PPMI, copies of a corpus, joint corpora, corpora read backwards *)
From Coq Require Import String NArith ZArith Bool Arith Lia Permutation Reals Lra List.
From Verif Require Import Base BaseLemmas VocabModel CorpusModel CorpusSpec CorpusColProofs CorpusSegProofs CorpusMoreProofs MxModel MxSpec MxOpsProofs MxProofs MxElemProofs MxCellProofs CalcModel CalcSpec CalcProofs CalcProofs2 CalcCellProofs
  ParModel ParProofs ParColModel ParColSpec ParColProofs PipeModel EndModel EndSpec EndProofs.
Import ListNotations.
Local Open Scope nat_scope.

Lemma with_marginals_ok {A} (m : ttm Z) (k : vocab -> vocab -> res A) : tgood m ->
  length (trows m) <> 1 -> length (tcols m) <> 1 ->
  exists nf cf, with_marginals m k = k nf cf /\ (forall t, In t (trows m) -> freq_of nf t = Some (row_total m t)) /\ (forall c, In c (tcols m) -> freq_of cf c = Some (col_total m c)) /\
    v_sum nf = tt_total m /\ v_sum cf = tt_total m.
Proof.
  intros G R C. destruct (tt_sum_ok m true G R) as (d1 & E1 & _). destruct (tt_sum_ok m false G C) as (d2 & E2 & _).
  destruct (tt_sum_dwf _ _ _ G E1) as (K1 & W1 & Q1). destruct (tt_sum_dwf _ _ _ G E2) as (K2 & W2 & Q2). destruct (reference_total _ _ _ G E1 E2) as (T1 & T2).
  exists (vocab_init false d1), (vocab_init false d2). unfold with_marginals. rewrite E1, E2. split; [reflexivity|]. split; [|split; [|split; [exact T1|exact T2]]].
  - intros t I. unfold freq_of. cbn [fd isdef vocab_init]. rewrite Q1, mem_true by assumption. reflexivity.
  - intros c I. unfold freq_of. cbn [fd isdef vocab_init]. rewrite Q2, mem_true by assumption. reflexivity.
Qed.
Lemma with_marginals_single {A} (m : ttm Z) (k : vocab -> vocab -> res A) : tgood m -> length (trows m) = 1 \/ length (tcols m) = 1 -> with_marginals m k = Err TypeError.
Proof.
  intros G H. unfold with_marginals. destruct (Nat.eq_dec (length (trows m)) 1) as [R|R].
  - now rewrite (tt_sum_single m true G R).
  - destruct H as [H|H]; [contradiction|]. destruct (tt_sum_ok m true G R) as (d & -> & _). cbn [rmap rbind]. now rewrite (tt_sum_single m false G H).
Qed.
(** A value that is not zero is stored. *)
Lemma tstored_nonzero (m : ttm Z) t c : val m t c <> 0%Z -> tstored m t c.
Proof.
  intros N. destruct (tstored_dec m t c) as [T|T]; [assumption|]. exfalso. apply N. destruct (index_of t (trows m)) as [i|] eqn:A; [|unfold val; now rewrite A]. destruct (index_of c (tcols m)) as [j|] eqn:B; [|unfold val; now rewrite A, B].
  assert (It : In t (trows m)). { destruct (in_dec eqdec t (trows m)) as [|X]; [assumption|]. apply index_of_None in X. congruence. }
  assert (Ic : In c (tcols m)). { destruct (in_dec eqdec c (tcols m)) as [|X]; [assumption|]. apply index_of_None in X. congruence. }
  rewrite val_idx by assumption. change 0%Z with (@zero Z _). apply not_stored. intros X. apply T. repeat split; assumption.
Qed.
Lemma unstored_zero (m : ttm Z) t c : ~ tstored m t c -> val m t c = 0%Z.
Proof. intros N. destruct (Z.eq_dec (val m t c) 0) as [|NZ]; [assumption|]. exfalso. now apply N, tstored_nonzero. Qed.

Section Scores.
  Context {L M : Type} (match_line : L -> option M) (separator : L -> bool) (get_type get_colloc : M -> pystr) (rv cv : vocab) (l r : nat).
  Notation NP := (n_pairs match_line separator l r).
  Notation pairs := (corpus_pairs match_line separator get_type get_colloc rv cv l r).
  Notation tgt := (target get_type rv).
  Notation fea := (feature get_colloc cv).
  Notation ist := (is_target get_type rv).
  Notation isf := (is_feature get_colloc cv).
  Variables (contents : list (list L)) (rows cols : list pystr).
  Hypothesis RS : corpus_rows rv rows.
  Hypothesis CS : corpus_cols match_line separator l r get_type get_colloc rv cv contents cols.
  Definition ideal t c : R := ideal_ppmi (IZR (NP (ist t) (isf c) contents)) (IZR (NP (ist t) fea contents)) (IZR (NP tgt (isf c) contents)) (IZR (NP tgt fea contents)).
  Variable o : option (ttm Z).
  Hypothesis HO : holds_counts rv cv o (pairs contents).
  Lemma table_le t c : (0 <= NP (ist t) (isf c) contents <= NP (ist t) fea contents)%Z /\ (NP (ist t) (isf c) contents <= NP tgt (isf c) contents)%Z.
  Proof.
    split; [split; [apply n_pairs_nonneg|]|]; apply n_pairs_mono; intros x; try (intros B; exact B); unfold is_feature, is_target; intros B; now apply andb_true_iff in B.
  Qed.
  Lemma scores_fail {A} (k : ttm Z -> vocab -> vocab -> res A) :
    (NP tgt fea contents = 0%Z -> rbind (deref (Ok o)) (fun m => with_marginals m (k m)) = Err AttributeError) /\
    (NP tgt fea contents <> 0%Z -> length rows = 1 \/ length cols = 1 -> rbind (deref (Ok o)) (fun m => with_marginals m (k m)) = Err TypeError).
  Proof.
    pose proof (holds_cases match_line separator get_type get_colloc rv cv l r contents rows cols RS CS o HO) as H. destruct o as [m|].
    - destruct H as (N & G & ER & EC & _). split; [contradiction|]. intros _ S. cbn [deref rbind]. apply with_marginals_single; [exact G|]. now rewrite ER, EC.
    - split; [reflexivity|contradiction].
  Qed.
  Lemma ppmi_scores : NP tgt fea contents <> 0%Z -> length rows <> 1 -> length cols <> 1 ->
    exists m', corpus_ppmi (Ok o) = Ok m' /\ tgood m' /\ trows m' = rows /\ tcols m' = cols /\ forall t c, In t rows -> In c cols -> val m' t c = ideal t c.
  Proof.
    intros N R1 C1. pose proof (holds_cases match_line separator get_type get_colloc rv cv l r contents rows cols RS CS o HO) as H. destruct o as [m|]; [|contradiction].
    destruct H as (_ & G & ER & EC & V & RT & CT & TT). unfold corpus_ppmi. cbn [deref rbind].
    destruct (with_marginals_ok m (fun nf cf => compute_ppmi m (Some nf) (Some cf) true) G) as (nf & cf & -> & HF & HC & T1 & T2); [now rewrite ER|now rewrite EC|].
    assert (PN : (0 < NP tgt fea contents)%Z) by (pose proof (n_pairs_nonneg match_line separator l r tgt fea contents); lia).
    destruct (compute_ppmi_ok m nf (Some cf) (row_total m) (col_total m) G HF HC true) as (m' & E & G' & R' & C' & _ & Z' & V').
    { intros t c _. rewrite T1, TT, V. pose proof (table_le t c). nia. }
    exists m'. split; [exact E|]. split; [exact G'|]. split; [congruence|]. split; [congruence|]. intros t c It Ic. destruct (table_le t c) as (B1 & B2).
    destruct (tstored_dec m t c) as [S|S].
    - rewrite V' by assumption. rewrite T1, TT, V, RT, CT. apply pmi_value_ideal; assumption.
    - rewrite Z' by assumption. apply unstored_zero in S. rewrite V in S. unfold ideal, ideal_ppmi. rewrite S. destruct (Rlt_dec 0 0); [lra|reflexivity].
  Qed.
  Lemma association_scores : NP tgt fea contents <> 0%Z -> length rows <> 1 -> length cols <> 1 ->
    exists m', corpus_scores (u "ppmi") (Ok o) = Ok m' /\ tgood m' /\ trows m' = rows /\ tcols m' = cols /\
      forall t c, In t rows -> In c cols -> (0 <= val m' t c /\ Rabs (val m' t c - ideal t c) <= 22 / 100000000000)%R.
  Proof.
    intros N R1 C1. pose proof (holds_cases match_line separator get_type get_colloc rv cv l r contents rows cols RS CS o HO) as H. destruct o as [m|]; [|contradiction].
    destruct H as (_ & G & ER & EC & V & RT & CT & TT). unfold corpus_scores. cbn [deref rbind].
    destruct (with_marginals_ok m (fun nf cf => compute_association m nf cf None (u "ppmi")) G) as (nf & cf & -> & HF & HC & T1 & T2); [now rewrite ER|now rewrite EC|].
    assert (PN : (0 < NP tgt fea contents)%Z) by (pose proof (n_pairs_nonneg match_line separator l r tgt fea contents); lia).
    assert (TAB : forall t c, exists p, of_table calc_ppmi (val m t c) (row_total m t) (col_total m c) (Z.max (v_sum nf) (v_sum cf)) = Ok p /\ (0 <= p)%R /\
        (Rabs (p - ideal_ppmi (IZR (val m t c)) (IZR (row_total m t)) (IZR (col_total m c)) (IZR (Z.max (v_sum nf) (v_sum cf)))) <= 22 / 100000000000)%R).
    { intros t c. rewrite T1, T2, Z.max_id, TT, V, RT, CT. destruct (table_le t c) as (B1 & B2). now apply ppmi_table_close. }
    destruct (association_ok m nf cf (row_total m) (col_total m) G HF HC None (u "ppmi") calc_ppmi
      (fun t c => match of_table calc_ppmi (val m t c) (row_total m t) (col_total m c) (Z.max (v_sum nf) (v_sum cf)) with Ok p => p | Err _ => 0%R end) eq_refl) as (m' & E & G' & R' & C' & _ & V' & Z').
    { intros t c _. unfold total_of. destruct (TAB t c) as (p & -> & _). reflexivity. }
    exists m'. split; [exact E|]. split; [exact G'|]. split; [congruence|]. split; [congruence|]. intros t c It Ic. unfold ideal.
    destruct (tstored_dec m t c) as [S|S].
    - rewrite V' by assumption. destruct (TAB t c) as (p & Ep & B). rewrite Ep. rewrite T1, T2, Z.max_id, TT, V, RT, CT in B. exact B.
    - rewrite Z' by assumption. split; [lra|]. apply unstored_zero in S. rewrite V in S. unfold ideal_ppmi. rewrite S. destruct (Rlt_dec 0 0); [lra|]. rewrite Rminus_0_r, Rabs_R0. lra.
  Qed.
  (** Any other measure, on the cells with a positive count *)
  Lemma measure_scores meas f m' : dget func_dict meas = Some f -> corpus_scores meas (Ok o) = Ok m' ->
    tgood m' /\ trows m' = rows /\ tcols m' = cols /\
    forall t c, (0 < NP (ist t) (isf c) contents)%Z -> of_table f (NP (ist t) (isf c) contents) (NP (ist t) fea contents) (NP tgt (isf c) contents) (NP tgt fea contents) = Ok (val m' t c).
  Proof.
    intros EF E. pose proof (holds_cases match_line separator get_type get_colloc rv cv l r contents rows cols RS CS o HO) as H. unfold corpus_scores in E. destruct o as [m|]; [|discriminate].
    cbn [deref rbind] in E. destruct H as (_ & G & ER & EC & V & RT & CT & TT).
    destruct (Nat.eq_dec (length (trows m)) 1) as [R1|R1]; [rewrite with_marginals_single in E by auto; discriminate|].
    destruct (Nat.eq_dec (length (tcols m)) 1) as [C1|C1]; [rewrite with_marginals_single in E by auto; discriminate|].
    destruct (with_marginals_ok m (fun nf cf => compute_association m nf cf None meas) G R1 C1) as (nf & cf & Ek & HF & HC & T1 & T2). rewrite Ek in E.
    destruct (association_inv m nf cf (row_total m) (col_total m) G HF HC None meas f m' EF E) as (G' & R' & C' & _ & _ & V').
    split; [exact G'|]. split; [congruence|]. split; [congruence|]. intros t c P. rewrite <- V, <- RT, <- CT, <- TT.
    rewrite <- V' by (apply tstored_nonzero; rewrite V; lia). unfold total_of. now rewrite T1, T2, Z.max_id.
  Qed.
End Scores.

(** ** The items exist *)
Lemma sorted_set_of (ks : list pystr) (P : pystr -> Prop) : (forall x, In x ks <-> P x) -> exists xs, sorted_set xs P.
Proof.
  intros H. exists (isort sleb (dedup ks)). split; [eapply Permutation_NoDup; [apply isort_perm|apply dedup_NoDup]|]. split.
  - apply isort_sorted; [apply sleb_total|apply sleb_trans].
  - intros x. rewrite isort_In, dedup_In. apply H.
Qed.
Section Items.
  Context {L M : Type} (match_line : L -> option M) (separator : L -> bool) (get_type get_colloc : M -> pystr) (rv cv : vocab) (l r : nat).
  Lemma corpus_items contents : exists rows cols, corpus_rows rv rows /\ corpus_cols match_line separator l r get_type get_colloc rv cv contents cols.
  Proof.
    destruct (sorted_set_of (dkeys (fd rv)) (fun t => dmem (fd rv) t = true)) as (rows & R); [intros x; symmetry; apply dmem_In|].
    assert (C : exists cols, corpus_cols match_line separator l r get_type get_colloc rv cv contents cols).
    { unfold corpus_cols. destruct (any_column cv) eqn:A.
      - apply (sorted_set_of (map (fun xy => get_colloc (snd xy)) (filter (fun xy => target get_type rv (fst xy)) (window_pairs match_line separator l r contents)))).
        intros c. rewrite (n_pairs_pos match_line separator get_type get_colloc), in_map_iff. split.
        + intros ([x y] & <- & I). apply filter_In in I as (I & T). exists x, y. split; [exact I|]. split; [exact T|]. unfold is_feature, feature. now rewrite A, eqb_refl.
        + intros (x & y & I & T & F). exists (x, y). split; [unfold is_feature in F; apply andb_true_iff in F as (_ & F); now apply eqb_true in F|]. now apply filter_In.
      - apply (sorted_set_of (dkeys (fd cv))). intros x. symmetry. apply dmem_In. }
    destruct C as (cols & C). exists rows, cols. auto.
  Qed.
End Items.

(** ** Copies of a corpus, corpora put together *)
Section Copies.
  Context {L M : Type} (match_line : L -> option M) (separator : L -> bool) (l r : nat).
  Notation NP := (n_pairs match_line separator l r).
  Lemma n_pairs_perm P Q cs cs' : Permutation cs cs' -> NP P Q cs = NP P Q cs'.
  Proof. intros H. rewrite (n_pairs_files match_line separator l r P Q cs), (n_pairs_files match_line separator l r P Q cs'). apply sumZ_perm, Permutation_map, H. Qed.
  Lemma n_pairs_app P Q cs cs' : NP P Q (cs ++ cs') = (NP P Q cs + NP P Q cs')%Z.
  Proof. rewrite (n_pairs_files match_line separator l r P Q cs), (n_pairs_files match_line separator l r P Q cs'), n_pairs_files, map_app. apply sumZ_app. Qed.
  Lemma n_pairs_copies P Q k cs : NP P Q (copies k cs) = (Z.of_nat k * NP P Q cs)%Z.
  Proof. unfold copies. induction k as [|k IH]; [reflexivity|]. cbn [repeat concat]. rewrite n_pairs_app, IH. lia. Qed.
  Context (get_type get_colloc : M -> pystr) (rv cv : vocab).
  Lemma copies_cols k cs cs' cols : 1 <= k -> Permutation cs' (copies k cs) -> corpus_cols match_line separator l r get_type get_colloc rv cv cs cols ->
    corpus_cols match_line separator l r get_type get_colloc rv cv cs' cols.
  Proof.
    intros K P (C1 & C2 & C3). split; [exact C1|]. split; [exact C2|]. intros c. rewrite C3. destruct (any_column cv); [|reflexivity]. rewrite (n_pairs_perm _ _ _ _ P), n_pairs_copies. nia.
  Qed.
End Copies.
Lemma ideal_ppmi_scale k c r cc n : (0 < k)%Z -> (0 <= c <= r)%Z -> (c <= cc)%Z -> ideal_ppmi (IZR (k * c)) (IZR (k * r)) (IZR (k * cc)) (IZR (k * n)) = ideal_ppmi (IZR c) (IZR r) (IZR cc) (IZR n).
Proof.
  intros K Hr Hc. rewrite !mult_IZR. apply IZR_lt in K. unfold ideal_ppmi. destruct (Rlt_dec 0 (IZR c)) as [P|P].
  - assert (0 < IZR r)%R by (apply IZR_lt; apply lt_IZR in P; lia). assert (0 < IZR cc)%R by (apply IZR_lt; apply lt_IZR in P; lia).
    destruct (Rlt_dec 0 (IZR k * IZR c)) as [Q|Q]; [|exfalso; apply Q; now apply Rmult_lt_0_compat]. unfold ideal_pmi. do 2 f_equal. field. lra.
  - destruct (Rlt_dec 0 (IZR k * IZR c)) as [Q|Q]; [|reflexivity]. exfalso. apply P. apply (Rmult_lt_reg_l (IZR k)); lra.
Qed.

(** ** Corpora read backwards *)
Section Mirror.
  Context {L M : Type} (match_line : L -> option M) (separator : L -> bool).
  Notation segs := (file_segs match_line separator).
  Lemma file_segs_cons x lines : segs (x :: lines) = match match_line x with
      | Some m => match segs lines with s :: ss => (m :: s) :: ss | [] => [[m]] end
      | None => if separator x then [] :: segs lines else segs lines
      end.
  Proof.
    unfold file_segs, segments. cbn [segments_from]. rewrite <- (segments_shift match_line separator 1 0). destruct (segments_from_cons match_line separator 1 lines) as (s & ss & ->).
    destruct (match_line x); [reflexivity|]. destruct (separator x); reflexivity.
  Qed.
  Lemma file_segs_some lines : exists s ss, segs lines = s :: ss.
  Proof. unfold file_segs, segments. destruct (segments_from_cons match_line separator 0 lines) as (s & ss & ->). cbn. eauto. Qed.
  Lemma file_segs_snoc lines x : exists a s, segs lines = a ++ [s] /\ segs (lines ++ [x]) = match match_line x with
      | Some m => a ++ [s ++ [m]]
      | None => if separator x then a ++ [s; []] else a ++ [s]
      end.
  Proof.
    induction lines as [|y lines (a & s & E & E')].
    - exists [], []. split; [reflexivity|]. cbn [app]. rewrite file_segs_cons. destruct (match_line x); [reflexivity|]. destruct (separator x); reflexivity.
    - cbn [app]. rewrite !file_segs_cons, E'. destruct (match_line y) as [m|].
      + rewrite E. destruct a as [|s0 a].
        * exists [], (m :: s). split; [reflexivity|]. cbn [app]. destruct (match_line x); [reflexivity|]. destruct (separator x); reflexivity.
        * exists ((m :: s0) :: a), s. split; [reflexivity|]. cbn [app]. destruct (match_line x); [reflexivity|]. destruct (separator x); reflexivity.
      + destruct (separator y).
        * exists ([] :: a), s. rewrite E. split; [reflexivity|]. cbn [app]. destruct (match_line x); [reflexivity|]. destruct (separator x); reflexivity.
        * exists a, s. split; [exact E|]. reflexivity.
  Qed.
  Lemma file_segs_rev lines : segs (rev lines) = rev (map (@rev M) (segs lines)).
  Proof.
    induction lines as [|x lines IH]; [reflexivity|]. cbn [rev]. destruct (file_segs_snoc (rev lines) x) as (a & s & E & ->). rewrite file_segs_cons.
    destruct (file_segs_some lines) as (s0 & ss & E0). rewrite E0 in *. cbn [map rev] in IH. rewrite E in IH. apply app_inj_tail in IH as (-> & ->).
    destruct (match_line x); [reflexivity|]. destruct (separator x); [|reflexivity]. cbn [map rev]. rewrite <- app_assoc. reflexivity.
  Qed.
  Lemma nth_error_rev {A} (xs : list A) i : i < length xs -> nth_error (rev xs) i = nth_error xs (length xs - S i).
  Proof.
    intros H. destruct (nth_error xs (length xs - S i)) as [x|] eqn:E.
    - rewrite (nth_error_nth' _ x) by now rewrite rev_length. rewrite rev_nth by assumption. f_equal. now apply nth_error_nth.
    - apply nth_error_None in E. lia.
  Qed.
  Lemma nodup_map_inj {A B} (f : A -> B) xs : NoDup xs -> (forall x y, In x xs -> In y xs -> f x = f y -> x = y) -> NoDup (map f xs).
  Proof.
    induction 1 as [|x xs N N' IH]; intros H; cbn [map]; constructor; [|apply IH; intros; apply H; try (now right); assumption].
    intros I. apply in_map_iff in I as (y & E & I). assert (y = x) by (apply H; [now right|now left|assumption]). now subst.
  Qed.
  Lemma npairs_rev n P : npairs n P = npairs n (fun i j => P (n - 1 - i) (n - 1 - j)).
  Proof.
    unfold npairs. rewrite <- (map_length (fun ij => (n - 1 - fst ij, n - 1 - snd ij)) (filter (fun ij => P (fst ij) (snd ij)) _)).
    apply Permutation_length. apply NoDup_Permutation.
    - apply nodup_map_inj; [apply NoDup_filter, NoDup_list_prod; apply seq_NoDup|].
      intros [a b] [c d] I1 I2 E. apply filter_In in I1 as (I1 & _), I2 as (I2 & _). apply in_prod_iff in I1, I2. rewrite !in_seq in *. cbn in E. injection E as E1 E2. f_equal; lia.
    - apply NoDup_filter, NoDup_list_prod; apply seq_NoDup.
    - intros [i j]. rewrite in_map_iff, filter_In, in_prod_iff, !in_seq. cbn [fst snd]. split.
      + intros ([a b] & E & H). cbn in E. apply filter_In in H as (H & Q). apply in_prod_iff in H. rewrite !in_seq in H. cbn [fst snd] in Q. injection E as <- <-.
        replace (n - 1 - (n - 1 - a)) with a by lia. replace (n - 1 - (n - 1 - b)) with b by lia. split; [lia|exact Q].
      + intros (H & Q). exists (n - 1 - i, n - 1 - j). cbn [fst snd]. split; [f_equal; lia|]. apply filter_In. rewrite in_prod_iff, !in_seq. cbn [fst snd]. split; [lia|exact Q].
  Qed.
  Lemma seg_pairs_rev l r (p : M * M -> bool) (xs : list M) : foci_spec l (length xs) = length xs -> foci_spec r (length xs) = length xs ->
    length (filter p (seg_pairs l r xs)) = length (filter p (seg_pairs r l (rev xs))).
  Proof.
    intros FL FR. rewrite !seg_pairs_count, rev_length, FL, FR, npairs_rev. unfold npairs. f_equal. apply filter_ext_in'. intros [i j] I. apply in_prod_iff in I. rewrite !in_seq in I. cbn [fst snd].
    set (n := length xs) in *. rewrite !nth_error_rev by (fold n; lia). fold n. replace (n - S i) with (n - 1 - i) by lia. replace (n - S j) with (n - 1 - j) by lia. f_equal.
    unfold in_window. destruct (Nat.eqb_spec (n - 1 - i) (n - 1 - j)), (Nat.eqb_spec i j), (Nat.leb_spec (n - 1 - i) (n - 1 - j + l)), (Nat.leb_spec j (i + l)),
      (Nat.leb_spec (n - 1 - j) (n - 1 - i + r)), (Nat.leb_spec i (j + r)), (Nat.ltb_spec (n - 1 - i) n), (Nat.ltb_spec i n); cbn; try reflexivity; exfalso; lia.
  Qed.
  Lemma n_pairs_mirror l r P Q contents :
    (forall lines xs, In lines contents -> In xs (segs lines) -> foci_spec l (length xs) = length xs /\ foci_spec r (length xs) = length xs) ->
    n_pairs match_line separator l r P Q contents = n_pairs match_line separator r l P Q (map (@rev L) contents).
  Proof.
    intros H. unfold n_pairs, window_pairs. f_equal. rewrite !filter_flat_map, !length_flat_map. rewrite flat_map_concat_map, (flat_map_concat_map _ (map _ contents)), !concat_map.
    rewrite !map_map. induction contents as [|f cs IH]; [reflexivity|]. cbn [map concat]. rewrite !sumn_app, IH by (intros g xs I J; apply (H g xs); [now right|exact J]). f_equal.
    rewrite file_segs_rev, map_rev, map_map. etransitivity; [|apply sumn_perm, Permutation_rev]. f_equal. apply map_ext_in. intros xs I. destruct (H f xs ltac:(now left) I). now apply seg_pairs_rev.
  Qed.
End Mirror.

(** ** Two corpora with proportional counts *)
Section Two.
  Context {L M : Type} (match_line : L -> option M) (separator : L -> bool) (get_type get_colloc : M -> pystr) (rv cv : vocab) (l r : nat).
  Notation NP := (n_pairs match_line separator l r).
  Notation pairs := (corpus_pairs match_line separator get_type get_colloc rv cv l r).
  Variables (k : nat) (cs cs' : list (list L)) (o o' : option (ttm Z)).
  Hypothesis K : 1 <= k.
  Hypothesis P : Permutation cs' (copies k cs).
  Hypothesis HO : holds_counts rv cv o (pairs cs).
  Hypothesis HO' : holds_counts rv cv o' (pairs cs').
  Lemma copies_count A B : NP A B cs' = (Z.of_nat k * NP A B cs)%Z.
  Proof. rewrite (n_pairs_perm _ _ _ _ _ _ _ _ P). apply n_pairs_copies. Qed.
  Lemma copies_ideal t c : ideal match_line separator get_type get_colloc rv cv l r cs' t c = ideal match_line separator get_type get_colloc rv cv l r cs t c.
  Proof.
    unfold ideal. rewrite !copies_count. destruct (table_le match_line separator get_type get_colloc rv cv l r cs t c) as (A & B). apply ideal_ppmi_scale; lia.
  Qed.
  Lemma copies_cases : exists rows cols, corpus_rows rv rows /\ corpus_cols match_line separator l r get_type get_colloc rv cv cs cols /\ corpus_cols match_line separator l r get_type get_colloc rv cv cs' cols /\
    (NP (target get_type rv) (feature get_colloc cv) cs = 0%Z /\ NP (target get_type rv) (feature get_colloc cv) cs' = 0%Z \/
     NP (target get_type rv) (feature get_colloc cv) cs <> 0%Z /\ NP (target get_type rv) (feature get_colloc cv) cs' <> 0%Z /\ (length rows = 1 \/ length cols = 1) \/
     NP (target get_type rv) (feature get_colloc cv) cs <> 0%Z /\ NP (target get_type rv) (feature get_colloc cv) cs' <> 0%Z /\ length rows <> 1 /\ length cols <> 1).
  Proof.
    destruct (corpus_items match_line separator get_type get_colloc rv cv l r cs) as (rows & cols & R & C). exists rows, cols. split; [exact R|]. split; [exact C|]. split; [eapply copies_cols; eassumption|].
    rewrite (copies_count (target get_type rv) (feature get_colloc cv)). pose proof (n_pairs_nonneg match_line separator l r (target get_type rv) (feature get_colloc cv) cs). nia.
  Qed.
  Lemma copies_ppmi : match corpus_ppmi (Ok o), corpus_ppmi (Ok o') with
    | Ok m, Ok m' => trows m = trows m' /\ tcols m = tcols m' /\ forall t c, In t (trows m) -> In c (tcols m) -> val m t c = val m' t c
    | Err e, Err e' => e = e'
    | _, _ => False
    end.
  Proof.
    destruct copies_cases as (rows & cols & R & C & C' & H).
    pose proof (scores_fail match_line separator get_type get_colloc rv cv l r cs rows cols R C o HO (fun m nf cf => compute_ppmi m (Some nf) (Some cf) true)) as (F1 & F2).
    pose proof (scores_fail match_line separator get_type get_colloc rv cv l r cs' rows cols R C' o' HO' (fun m nf cf => compute_ppmi m (Some nf) (Some cf) true)) as (F1' & F2').
    fold (corpus_ppmi (Ok o)) in F1, F2. fold (corpus_ppmi (Ok o')) in F1', F2'. destruct H as [(N & N')|[(N & N' & S)|(N & N' & S & S')]].
    - now rewrite F1, F1'.
    - now rewrite F2, F2'.
    - destruct (ppmi_scores match_line separator get_type get_colloc rv cv l r cs rows cols R C o HO N S S') as (m & -> & _ & Rm & Cm & V).
      destruct (ppmi_scores match_line separator get_type get_colloc rv cv l r cs' rows cols R C' o' HO' N' S S') as (m' & -> & _ & Rm' & Cm' & V').
      split; [congruence|]. split; [congruence|]. rewrite Rm, Cm. intros t c It Ic. rewrite V, V' by assumption. symmetry. apply copies_ideal.
  Qed.
  Lemma copies_association : match corpus_scores (u "ppmi") (Ok o), corpus_scores (u "ppmi") (Ok o') with
    | Ok m, Ok m' => trows m = trows m' /\ tcols m = tcols m' /\ forall t c, In t (trows m) -> In c (tcols m) -> (Rabs (val m t c - val m' t c) <= 44 / 100000000000)%R
    | Err e, Err e' => e = e'
    | _, _ => False
    end.
  Proof.
    destruct copies_cases as (rows & cols & R & C & C' & H).
    pose proof (scores_fail match_line separator get_type get_colloc rv cv l r cs rows cols R C o HO (fun m nf cf => compute_association m nf cf None (u "ppmi"))) as (F1 & F2).
    pose proof (scores_fail match_line separator get_type get_colloc rv cv l r cs' rows cols R C' o' HO' (fun m nf cf => compute_association m nf cf None (u "ppmi"))) as (F1' & F2').
    fold (corpus_scores (u "ppmi") (Ok o)) in F1, F2. fold (corpus_scores (u "ppmi") (Ok o')) in F1', F2'. destruct H as [(N & N')|[(N & N' & S)|(N & N' & S & S')]].
    - now rewrite F1, F1'.
    - now rewrite F2, F2'.
    - destruct (association_scores match_line separator get_type get_colloc rv cv l r cs rows cols R C o HO N S S') as (m & -> & _ & Rm & Cm & V).
      destruct (association_scores match_line separator get_type get_colloc rv cv l r cs' rows cols R C' o' HO' N' S S') as (m' & -> & _ & Rm' & Cm' & V').
      split; [congruence|]. split; [congruence|]. rewrite Rm, Cm. intros t c It Ic. destruct (V t c It Ic) as (_ & A). destruct (V' t c It Ic) as (_ & B). rewrite copies_ideal in B.
      set (q := ideal _ _ _ _ _ _ _ _ _ _ _) in *. apply Rabs_le_inv in A, B. apply Rabs_le. lra.
  Qed.
End Two.
(** Cells of a corpus put together from two *)
Definition cell_of (o : option (ttm Z)) t c : Z := match o with Some m => val m t c | None => 0%Z end.
Lemma joint_cells {L M} (match_line : L -> option M) separator (get_type get_colloc : M -> pystr) rv cv l r cs1 cs2 o1 o2 o :
  holds_counts rv cv o1 (corpus_pairs match_line separator get_type get_colloc rv cv l r cs1) -> holds_counts rv cv o2 (corpus_pairs match_line separator get_type get_colloc rv cv l r cs2) ->
  holds_counts rv cv o (corpus_pairs match_line separator get_type get_colloc rv cv l r (cs1 ++ cs2)) ->
  (forall t c, cell_of o t c = cell_of o1 t c + cell_of o2 t c)%Z /\
  (o = None <-> o1 = None /\ o2 = None) /\
  (forall m m1 m2, o = Some m -> o1 = Some m1 -> o2 = Some m2 -> trows m = trows m1 /\ trows m = trows m2 /\ forall c, In c (tcols m) <-> In c (tcols m1) \/ In c (tcols m2)).
Proof.
  set (f := corpus_pairs match_line separator get_type get_colloc rv cv l r). intros H1 H2 H.
  assert (CELL : forall o cs, holds_counts rv cv o (f cs) -> forall t c, cell_of o t c = f cs t c).
  { intros o0 cs H0 t c. destruct o0 as [m|]; cbn in *; [apply H0|now rewrite H0]. }
  assert (ADD : forall t c, f (cs1 ++ cs2) t c = (f cs1 t c + f cs2 t c)%Z) by (intros; unfold f, corpus_pairs; now rewrite map_app, sumZ_app).
  assert (POS : forall cs t c, (0 <= f cs t c)%Z) by (intros; unfold f; rewrite corpus_pairs_count; apply n_pairs_nonneg).
  split; [intros t c; rewrite (CELL _ _ H), (CELL _ _ H1), (CELL _ _ H2); apply ADD|]. split.
  - assert (NONE : forall o cs, holds_counts rv cv o (f cs) -> (o = None <-> forall t c, f cs t c = 0%Z)).
    { intros o0 cs H0. split; [intros ->; exact H0|]. intros Z. destruct o0 as [m|]; [|reflexivity]. destruct H0 as (_ & _ & _ & _ & t & c & N). exfalso. apply N, Z. }
    rewrite (NONE _ _ H), (NONE _ _ H1), (NONE _ _ H2). split.
    + intros Z. split; intros t c; specialize (Z t c); rewrite ADD in Z; pose proof (POS cs1 t c); pose proof (POS cs2 t c); lia.
    + intros (Z1 & Z2) t c. now rewrite ADD, Z1, Z2.
  - intros m m1 m2 -> -> ->. cbn [holds_counts] in *. destruct H as (_ & R & (_ & _ & C) & _). destruct H1 as (_ & R1 & (_ & _ & C1) & _). destruct H2 as (_ & R2 & (_ & _ & C2) & _).
    split; [eapply sorted_set_unique; eassumption|]. split; [eapply sorted_set_unique; eassumption|]. intros c. rewrite C, C1, C2. destruct (any_column cv); [|tauto]. split.
    + intros (t & Q). rewrite ADD in Q. destruct (Z.eq_dec (f cs1 t c) 0); [right|left]; exists t; pose proof (POS cs1 t c); lia.
    + intros [(t & Q)|(t & Q)]; exists t; rewrite ADD; pose proof (POS cs1 t c); pose proof (POS cs2 t c); lia.
Qed.
Lemma mirror_counts {L M} (match_line : L -> option M) separator (get_type get_colloc : M -> pystr) rv cv l r contents :
  (forall lines xs, In lines contents -> In xs (file_segs match_line separator lines) -> foci_spec l (length xs) = length xs /\ foci_spec r (length xs) = length xs) ->
  forall t c, corpus_pairs match_line separator get_type get_colloc rv cv r l (map (@rev L) contents) t c = corpus_pairs match_line separator get_type get_colloc rv cv l r contents t c.
Proof. intros H t c. rewrite !corpus_pairs_count. symmetry. now apply n_pairs_mirror. Qed.
