(** * Pipelines: proofs. *)
From Coq Require Import String NArith ZArith Bool Arith Lia Reals Lra Permutation List.
From Verif Require Import Base BaseLemmas Str StrLemmas VocabModel TermsModel MxModel MxSpec MxProofs MxTtmProofs MxOpsProofs MxCellProofs MxElemProofs MxMoreProofs
  CalcModel CalcSpec CalcProofs CalcProofs2 CalcCellProofs CalcVecModel CalcVecSpec CalcVecProofs CalcVecProofs2 TokMxModel TokMxSpec TokMxProofs PipeModel PipeSpec.
From Verif Require DepMatchProofs.
Import ListNotations.
Local Open Scope nat_scope.

Section Stored.
  Context {V : Type} {NV : Num V}.
  Implicit Types (m : ttm V) (s : sp V) (r c : pystr).

  Definition lnz s : Prop := forall x, In x (concat (lanes s)) -> isz (snd x) = false.
  Lemma lnz_iff s : lnz s <-> no_zeros s.
  Proof.
    rewrite <- has_zero. unfold lnz. split.
    - intros F. apply not_true_iff_false. intros E. apply existsb_exists in E as (x & I & Z). rewrite F in Z by exact I. discriminate.
    - intros E x I. destruct (isz (snd x)) eqn:Z; [|reflexivity]. exfalso. apply not_true_iff_false in E. apply E, existsb_exists. eauto.
  Qed.
  Lemma lnz_transpose s : lnz s -> lnz (sp_transpose s).
  Proof. intros F. exact F. Qed.
  Lemma lnz_major s ix : lnz s -> lnz (index_major s ix).
  Proof.
    intros F x I. unfold index_major in I. cbn [lanes] in I. apply in_concat in I as (ln & Il & Ix). apply in_map_iff in Il as (a & <- & _).
    apply F. destruct (Nat.lt_ge_cases a (length (lanes s))) as [Lt|Ge]; [|rewrite nth_overflow in Ix by exact Ge; destruct Ix].
    apply in_concat. eexists. split; [|exact Ix]. now apply nth_In.
  Qed.
  Lemma lnz_minor s ix : lnz s -> lnz (index_minor s ix).
  Proof.
    intros F x I. unfold index_minor in I. cbn [lanes] in I. apply in_concat in I as (ln & Il & Ix). apply in_map_iff in Il as (a & <- & Ia).
    apply in_flat_map in Ix as (e & Ie & Ix). apply in_map_iff in Ix as (k & <- & _). cbn [snd]. apply F. apply in_concat. eauto.
  Qed.
  Lemma submatrix_keeps m row col m' : tt_submatrix m row col = Ok (Some m') -> sfmt (tmx m') = sfmt (tmx m) /\ (lnz (tmx m) -> lnz (tmx m')).
  Proof.
    unfold tt_submatrix. destruct (select (trows m) row) as [rr|]; [|discriminate]. destruct (select (tcols m) col) as [cc|]; [|discriminate].
    unfold mk_ttm. destruct (negb _); [discriminate|]. destruct (negb _); [discriminate|]. cbn [rmap]. intros [= <-]. cbn [tmx].
    assert (TR : forall s ix, sfmt (take_rows s ix) = sfmt s /\ (lnz s -> lnz (take_rows s ix))).
    { intros s ix. unfold take_rows. destruct (sfmt s) eqn:E; (split; [exact E|]); [apply lnz_major|apply lnz_minor]. }
    assert (TC : forall s ix, sfmt (take_cols s ix) = sfmt s /\ (lnz s -> lnz (take_cols s ix))).
    { intros s ix. unfold take_cols. destruct (sfmt s) eqn:E; (split; [exact E|]); [apply lnz_minor|apply lnz_major]. }
    unfold sm_submatrix. destruct (option_map snd rr) as [ri|]; destruct (option_map snd cc) as [ci|]; auto; try apply TR; try apply TC.
    destruct (TR (tmx m) ri) as [A B]. destruct (TC (take_rows (tmx m) ri) ci) as [C D]. split; [congruence|auto].
  Qed.
  (** drop_empty without [explicit], row version *)
  Lemma drop_rows_zero m : tgood m -> trows m <> [] ->
    (forallb (row_zero m) (trows m) = true /\ tt_drop_empty_rows m false = Ok None) \/
    (forallb (row_zero m) (trows m) = false /\ exists m', tt_drop_empty_rows m false = Ok (Some m') /\ tgood m' /\
      trows m' = filter (fun r => negb (row_zero m r)) (trows m) /\ tcols m' = tcols m /\ (forall r c, In r (trows m') -> val m' r c = val m r c) /\
      sfmt (tmx m') = sfmt (tmx m) /\ (lnz (tmx m) -> lnz (tmx m'))).
  Proof.
    intros G NE. unfold tt_drop_empty_rows. rewrite empty_rows_ok by assumption. cbn [rbind]. destruct (forallb (row_zero m) (trows m)) eqn:All.
    - left. split; [reflexivity|]. rewrite forallb_forall in All. rewrite (filter_all _ _ All). destruct (trows m) as [|x l] eqn:E; [congruence|].
      rewrite <- E in *. replace (filter _ (trows m)) with (@nil pystr).
      + apply submatrix_none; [exact G|]. cbn. intros [F _]. now apply F.
      + symmetry. clear. assert (X : forall l, (forall y, In y l -> mem y (trows m) = true) -> filter (fun e => negb (mem e (trows m))) l = []).
        { induction l as [|y l IH]; intros A; [reflexivity|]. cbn [filter]. rewrite A by (cbn; auto). cbn [negb]. apply IH. intros; apply A; cbn; auto. }
        apply X. intros y. apply mem_In.
    - right. split; [reflexivity|]. destruct (filter (row_zero m) (trows m)) as [|x em] eqn:E.
      + exists m. assert (K : filter (fun r => negb (row_zero m r)) (trows m) = trows m).
        { apply filter_all. intros r Ir. destruct (row_zero m r) eqn:P; [|reflexivity]. exfalso. assert (J : In r (filter (row_zero m) (trows m))) by (now apply filter_In). rewrite E in J. destruct J. }
        rewrite K. repeat split; auto; apply G.
      + rewrite <- E. assert (K : filter (fun e => negb (mem e (filter (row_zero m) (trows m)))) (trows m) = filter (fun r => negb (row_zero m r)) (trows m)).
        { apply filter_ext_in. intros r Ir. f_equal. destruct (row_zero m r) eqn:P.
          - apply mem_In. now apply filter_In.
          - apply mem_nIn. rewrite filter_In. intros [_ ?]. congruence. }
        rewrite K. destruct (select_rows m (fun r => negb (row_zero m r)) G) as [[Z EQ]|(m' & EQ & G' & R & C & VV)].
        * exfalso. apply not_true_iff_false in All. apply All, forallb_forall. intros r Ir. destruct (row_zero m r) eqn:P; [reflexivity|].
          assert (J : In r []) by (rewrite <- Z; apply filter_In; now rewrite P). destruct J.
        * exists m'. destruct (submatrix_keeps _ _ _ _ EQ) as [A B]. auto 8.
  Qed.
  Lemma drop_cols_zero m : tgood m -> tcols m <> [] ->
    (forallb (col_zero m) (tcols m) = true /\ tt_drop_empty m true false = Err AttributeError) \/
    (forallb (col_zero m) (tcols m) = false /\ exists m', tt_drop_empty m true false = Ok (Some m') /\ tgood m' /\
      tcols m' = filter (fun c => negb (col_zero m c)) (tcols m) /\ trows m' = trows m /\ (forall r c, In c (tcols m') -> val m' r c = val m r c) /\
      (lnz (tmx m) -> lnz (tmx m'))).
  Proof.
    intros G NE. unfold tt_drop_empty. destruct (transpose_ok m G) as (t & E & GT & RT & CT & VT & _). rewrite E. cbn [rbind].
    assert (Tt : tmx t = sp_transpose (tmx m)).
    { unfold tt_transpose, mk_ttm in E. destruct (negb _); [discriminate|]. destruct (negb _); [discriminate|]. injection E as <-. reflexivity. }
    assert (Z : forall c, row_zero t c = col_zero m c).
    { intros c. unfold row_zero, col_zero. rewrite CT. clear -VT. induction (trows m) as [|r l IH]; [reflexivity|]. cbn [forallb]. rewrite VT, IH. reflexivity. }
    destruct (drop_rows_zero t GT) as [(A & Q)|(A & t' & Q & G' & R' & C' & V' & F' & N')]; [congruence|left|right].
    - split; [|now rewrite Q]. rewrite RT in A. rewrite <- A. clear -Z. induction (tcols m) as [|c l IH]; [reflexivity|]. cbn [forallb]. rewrite (Z c), IH. reflexivity.
    - split. { rewrite RT in A. rewrite <- A. clear -Z. induction (tcols m) as [|c l IH]; [reflexivity|]. cbn [forallb]. rewrite (Z c), IH. reflexivity. }
      rewrite Q. cbn [rbind]. destruct (transpose_ok t' G') as (m' & E' & GM & RM & CM & VM & _). rewrite E'. cbn [rmap]. exists m'.
      assert (Tm : tmx m' = sp_transpose (tmx t')).
      { unfold tt_transpose, mk_ttm in E'. destruct (negb _); [discriminate|]. destruct (negb _); [discriminate|]. injection E' as <-. reflexivity. }
      split; [reflexivity|]. split; [exact GM|]. split; [|split; [congruence|split]].
      + rewrite CM, R', RT. apply filter_ext. intros. now rewrite Z.
      + intros r c I. rewrite VM, V' by congruence. apply VT.
      + intros L. rewrite Tm. apply lnz_transpose, N'. rewrite Tt. now apply lnz_transpose.
  Qed.
  (** m.multiply(m > k) with k not negative stores no zeros *)
  Lemma multiply_gt_nz m (k : V) x y : tgood m -> vleb zero k = true -> tt_cmp CGt m k = Ok x -> tt_multiply m x = Ok y -> lnz (tmx y).
  Proof.
    intros G K E M. destruct (tt_cmp_ok CGt m k G) as (x' & E' & Gx & Rx & Cx & Mk & _); [intros [[Q|Q] _]; discriminate|]. assert (x' = x) by congruence. subst x'.
    assert (Sx : forall i j, stored (tmx x) i j -> cmpb CGt (spget (tmx m) i j) k = true).
    { intros i j S. destruct (sm_cmp_ok CGt (tmx m) k (tg_wf _ G)) as (z & Ez & _ & _ & _ & _ & Sz); [intros [[Q|Q] _]; discriminate|].
      unfold tt_cmp in E. rewrite Ez in E. cbn [rbind] in E. unfold mk_ttm in E. destruct (negb _); [discriminate|]. destruct (negb _); [discriminate|].
      injection E as <-. cbn [tmx] in S. now apply Sz in S. }
    unfold tt_multiply in M. destruct (sm_multiply (tmx m) (tmx x)) as [z|] eqn:Ez; [|discriminate]. cbn [rbind] in M. unfold mk_ttm in M.
    destruct (negb _); [discriminate|]. destruct (negb _); [discriminate|]. injection M as <-. cbn [tmx]. unfold sm_multiply in Ez.
    destruct (existsb (fun e => isz (snd e)) (concat (lanes (tmx m)))) eqn:Q.
    - injection Ez as <-. apply lnz_iff. unfold no_zeros. apply Forall_forall. intros [[i j] v] I.
      assert (RG : in_range (nrows (tmx m)) (ncols (tmx m)) (filter (fun e => mem (fst e) (map fst (entries (tmx x)))) (entries (tmx m)))) by (apply filter_range, entries_range, G).
      assert (ND : NoDup (map fst (filter (fun e => mem (fst e) (map fst (entries (tmx x)))) (entries (tmx m))))) by (apply NoDup_map_filter, entries_NoDup, G).
      apply of_coo_In in I; auto. apply filter_In in I as [I J]. cbn [fst snd] in *. apply mem_In in J. apply Sx in J. rewrite (entries_value _ _ _ _ (tg_wf _ G) I) in J.
      apply isz_false. intros ->. cbn in J. unfold vltb in J. rewrite K in J. discriminate.
    - assert (RR : nrows (tmx m) = nrows (tmx x)) by (rewrite (tg_rows _ G), (tg_rows _ Gx); congruence).
      assert (CC : ncols (tmx m) = ncols (tmx x)) by (rewrite (tg_cols _ G), (tg_cols _ Gx); congruence).
      unfold sp_multiply in Ez. rewrite <- RR, <- CC, !Nat.eqb_refl in Ez. cbn [andb] in Ez.
      unfold sp_mul, sp_binop in Ez. destruct (_ && _); [|discriminate]. injection Ez as <-. intros e I. cbn [lanes] in I.
      apply in_concat in I as (ln & Il & Ie). apply in_map_iff in Il as ((a, b) & <- & _). unfold lane_op in Ie. apply filter_In in Ie as [_ Ie]. now apply negb_true_iff in Ie.
  Qed.
  Lemma lnz_val m r c : tgood m -> lnz (tmx m) -> tstored m r c -> val m r c <> zero.
  Proof.
    intros G L (Ir & Ic & S). rewrite val_idx by assumption. apply no_zeros_stored; [apply G|now apply lnz_iff|exact S].
  Qed.
  Lemma stored_val m r c : tgood m -> val m r c <> zero -> tstored m r c.
  Proof.
    intros G N. destruct (in_dec eqdec r (trows m)) as [Ir|Ir]; [|elim N; now apply val_no_row]. destruct (in_dec eqdec c (tcols m)) as [Ic|Ic]; [|elim N; now apply val_no_col].
    split; [exact Ir|]. split; [exact Ic|]. destruct (stored_dec (tmx m) (idx (trows m) r) (idx (tcols m) c)) as [S|S]; [exact S|]. elim N. rewrite val_idx by assumption. now apply not_stored.
  Qed.
End Stored.

(** ** Sums over a part of a list *)
Lemma sumr_part {A} `{EqDec A} (f : A -> R) l l' : NoDup l -> NoDup l' -> incl l l' -> (forall x, In x l' -> ~ In x l -> f x = 0%R) ->
  sumr (map f l) = sumr (map f l').
Proof.
  intros N N' I Z. assert (P : Permutation l' (l ++ filter (fun x => negb (mem x l)) l')).
  { apply NoDup_Permutation; [exact N'| |].
    - apply NoDup_app'; [exact N|now apply NoDup_filter|]. intros x A1 A2. apply filter_In in A2 as [_ A2]. apply negb_true_iff in A2. apply mem_nIn in A2. contradiction.
    - intros x. rewrite in_app_iff, filter_In. destruct (mem x l) eqn:E.
      + apply mem_In in E. split; auto.
      + apply mem_nIn in E. cbn [negb]. split; [auto|]. intros [J|[J _]]; [now apply I|exact J]. }
  rewrite (sumr_perm _ _ (Permutation_map f P)), map_app, sumr_app. rewrite (sumr_zero (map f (filter _ l'))).
  - lra.
  - intros y J. apply in_map_iff in J as (x & <- & J). apply filter_In in J as [J E]. apply Z; [exact J|]. apply mem_nIn. now apply negb_true_iff.
Qed.

Lemma sumZ_nonneg' l : (forall x, In x l -> (0 <= x)%Z) -> (0 <= sumZ l)%Z.
Proof. induction l as [|x l IH]; intros A; cbn; [lia|]. pose proof (A x (or_introl eq_refl)). specialize (IH (fun y I => A y (or_intror I))). unfold sumZ in *. cbn in *. lia. Qed.
Lemma vltb_Z (a b : Z) : vltb a b = true <-> (a < b)%Z.
Proof. unfold vltb. cbn. rewrite negb_true_iff. apply Z.leb_gt. Qed.
Lemma vltb_R (a b : R) : vltb a b = true <-> (a < b)%R.
Proof. unfold vltb. cbn. destruct (Rle_dec b a); cbn; split; intros; try discriminate; try reflexivity; lra. Qed.

(** ** The measures of a frequency matrix *)
Definition okor0 (r : res R) : R := match r with Ok x => x | Err _ => 0%R end.
Definition Pf (freq : ttm Z) (r c : pystr) : R :=
  if (val freq r c =? 0)%Z then 0%R else okor0 (of_table calc_ppmi (val freq r c) (row_total freq r) (col_total freq c) (tt_total freq)).
Definition Lf (freq : ttm Z) (r c : pystr) : R := okor0 (of_table calc_lik (val freq r c) (row_total freq r) (col_total freq c) (tt_total freq)).

Lemma association_csr m nf cf N meas m' : compute_association m nf cf N meas = Ok m' -> sfmt (tmx m') = Csr.
Proof.
  unfold compute_association. destruct (marginals nf _); [|discriminate]. destruct (marginals cf _); [|discriminate]. cbn [rbind]. unfold calc_association.
  destruct (dget func_dict meas); [|discriminate]. destruct (rmapm _ _); [|discriminate]. cbn [rmap rbind]. unfold mk_ttm. destruct (negb _); [discriminate|]. destruct (negb _); [discriminate|].
  intros [= <-]. reflexivity.
Qed.
Lemma ppmi_zero r cc n : (0 < n)%Z -> (0 <= r)%Z -> (0 <= cc)%Z -> of_table calc_ppmi 0 r cc n = Ok 0%R.
Proof.
  intros Hn Hr Hc. unfold of_table. rewrite ppmi_of_pmi. fold (of_table calc_pmi 0 r cc n). rewrite pmi_table by lia. cbn [rmap]. f_equal.
  assert (Z0 : forall y, (0 / y = 0)%R) by (intros; unfold Rdiv; apply Rmult_0_l). rewrite Z0, adjust_0. pose proof (ln_neg eps). rewrite Rmax_left; [reflexivity|].
  assert (0 < eps < 1)%R by (unfold eps; lra). apply Rlt_le. auto.
Qed.

Section Freq.
  Variable freq : ttm Z.
  Hypothesis GF : tgood freq.
  Hypothesis NN : forall r c, (0 <= val freq r c)%Z.
  Hypothesis C1 : 1 <= length (tcols freq).
  Hypothesis TP : (0 < tt_total freq)%Z.
  Local Notation P := (Pf freq).
  Local Notation L := (Lf freq).

  Lemma row_nonneg r : (0 <= row_total freq r)%Z.
  Proof. unfold row_total. rewrite sumv_Z. apply sumZ_nonneg'. intros x I. apply in_map_iff in I as (? & <- & _). apply NN. Qed.
  Lemma col_nonneg c : (0 <= col_total freq c)%Z.
  Proof. unfold col_total. rewrite sumv_Z. apply sumZ_nonneg'. intros x I. apply in_map_iff in I as (? & <- & _). apply NN. Qed.
  Lemma P_table r c : In r (trows freq) -> In c (tcols freq) ->
    of_table calc_ppmi (val freq r c) (row_total freq r) (col_total freq c) (tt_total freq) = Ok (P r c).
  Proof.
    intros Ir Ic. unfold Pf. destruct (Z.eqb_spec (val freq r c) 0) as [->|N].
    - apply ppmi_zero; [exact TP|apply row_nonneg|apply col_nonneg].
    - destruct (reference_bounds freq r c GF NN Ir Ic) as (A & B & C). pose proof (NN r c).
      destruct (ppmi_table_close (val freq r c) (row_total freq r) (col_total freq c) (tt_total freq)) as (p & E & _); [exact TP|lia|lia|]. now rewrite E.
  Qed.
  Hypothesis CT : forall c, In c (tcols freq) -> (col_total freq c < tt_total freq)%Z.
  Lemma L_table r c : In r (trows freq) -> In c (tcols freq) -> val freq r c <> 0%Z ->
    of_table calc_lik (val freq r c) (row_total freq r) (col_total freq c) (tt_total freq) = Ok (L r c) /\
    let g := of_table G2 (val freq r c) (row_total freq r) (col_total freq c) (tt_total freq) in
    (g - 22 / 100000000000 * IZR (tt_total freq) <= L r c <= g)%R.
  Proof.
    intros Ir Ic N. destruct (reference_bounds freq r c GF NN Ir Ic) as (A & B & C). pose proof (NN r c). pose proof (CT c Ic). unfold Lf, of_table.
    destruct (table_sums (val freq r c) (row_total freq r) (col_total freq c) (tt_total freq)) as (S1 & S2 & S3).
    destruct (lik_close (IZR (val freq r c)) (IZR (col_total freq c - val freq r c)) (IZR (row_total freq r - val freq r c))
                (IZR (tt_total freq - row_total freq r - col_total freq c + val freq r c))) as (x & E & K & _); try (apply IZR_le; lia).
    - rewrite S2. apply IZR_lt. lia.
    - rewrite <- plus_IZR. apply IZR_lt. lia.
    - rewrite E. cbn [okor0]. split; [reflexivity|]. cbv zeta. rewrite <- S3. exact K.
  Qed.
  Lemma freq_measures : measures freq P L.
  Proof.
    constructor.
    - intros r c Ir Ic. destruct (reference_bounds freq r c GF NN Ir Ic) as (A & B & C). pose proof (NN r c).
      destruct (ppmi_table_close (val freq r c) (row_total freq r) (col_total freq c) (tt_total freq)) as (p & E & K); [exact TP|lia|lia|].
      rewrite P_table in E by assumption. injection E as <-. exact K.
    - intros r c E. unfold Pf. now rewrite E.
    - intros r c Pos. assert (N : val freq r c <> 0%Z) by lia. destruct (stored_val freq r c GF N) as (Ir & Ic & _). now apply L_table.
  Qed.

  (** The two vocabularies of totals *)
  Variables nf cf : vocab.
  Hypothesis NF : rmap (vocab_init false) (tt_sum freq true) = Ok nf.
  Hypothesis CF : rmap (vocab_init false) (tt_sum freq false) = Ok cf.
  Lemma nf_of r : In r (trows freq) -> freq_of nf r = Some (row_total freq r).
  Proof.
    intros I. destruct (tt_sum freq true) as [d|] eqn:E; [|discriminate]. injection NF as <-. destruct (tt_sum_dwf _ _ _ GF E) as (K & W & Q).
    unfold freq_of. cbn [fd vocab_init]. rewrite Q, mem_true by exact I. reflexivity.
  Qed.
  Lemma cf_of c : In c (tcols freq) -> freq_of cf c = Some (col_total freq c).
  Proof.
    intros I. destruct (tt_sum freq false) as [d|] eqn:E; [|discriminate]. injection CF as <-. destruct (tt_sum_dwf _ _ _ GF E) as (K & W & Q).
    unfold freq_of. cbn [fd vocab_init]. rewrite Q, mem_true by exact I. reflexivity.
  Qed.
  Lemma total_is : total_of nf cf None = tt_total freq.
  Proof.
    destruct (tt_sum freq true) as [d1|] eqn:E1; [|discriminate]. injection NF as <-. destruct (tt_sum freq false) as [d2|] eqn:E2; [|discriminate]. injection CF as <-.
    destruct (reference_total freq d1 d2 GF E1 E2) as (A & B). unfold total_of. rewrite A, B. apply Z.max_id.
  Qed.
  Lemma assoc_ppmi (m : ttm Z) : tgood m -> incl (trows m) (trows freq) -> incl (tcols m) (tcols freq) -> (forall r c, tstored m r c -> val m r c = val freq r c) ->
    exists m', compute_association m nf cf None (u "ppmi") = Ok m' /\ tgood m' /\ trows m' = trows m /\ tcols m' = tcols m /\
      (forall r c, tstored m' r c <-> tstored m r c) /\ (forall r c, tstored m r c -> val m' r c = P r c) /\ (forall r c, ~ tstored m r c -> val m' r c = 0%R) /\ sfmt (tmx m') = Csr.
  Proof.
    intros G IR IC EV. destruct (association_ok m nf cf (row_total freq) (col_total freq) G) with (N := @None Z) (meas := u "ppmi") (f := calc_ppmi) (score := P)
      as (m' & E & G' & A); [intros; now apply nf_of, IR|intros; now apply cf_of, IC|reflexivity| |].
    - intros r c S. rewrite total_is, EV by exact S. destruct S as (Ir & Ic & _). apply P_table; auto.
    - exists m'. pose proof (association_csr _ _ _ _ _ _ E). clear CT. intuition.
  Qed.
  Lemma assoc_lik (m : ttm Z) : tgood m -> incl (trows m) (trows freq) -> incl (tcols m) (tcols freq) -> (forall r c, tstored m r c -> val m r c = val freq r c) -> lnz (tmx m) ->
    exists m', compute_association m nf cf None (u "lik") = Ok m' /\ tgood m' /\ trows m' = trows m /\ tcols m' = tcols m /\
      (forall r c, tstored m' r c <-> tstored m r c) /\ (forall r c, tstored m r c -> val m' r c = L r c).
  Proof.
    intros G IR IC EV NZ. destruct (association_ok m nf cf (row_total freq) (col_total freq) G) with (N := @None Z) (meas := u "lik") (f := calc_lik) (score := L)
      as (m' & E & G' & A); [intros; now apply nf_of, IR|intros; now apply cf_of, IC|reflexivity| |].
    - intros r c S. pose proof (lnz_val m r c G NZ S) as N. rewrite total_is. rewrite EV in N |- * by exact S. destruct S as (Ir & Ic & _). apply L_table; auto.
    - exists m'. intuition.
  Qed.

  (** *** Counts above the cutoff *)
  Variables (fc : Z) (pc lc : R).
  Hypothesis FC : (0 <= fc)%Z.
  Variable strs : list pystr.
  Hypothesis ND : NoDup strs.

  Lemma above_row v c : (fc < val freq v c)%Z -> In v (trows freq) /\ In c (tcols freq).
  Proof. clear C1. intros A. assert (N : val freq v c <> 0%Z) by lia. destruct (stored_val freq v c GF N) as (? & ? & _). auto. Qed.
  Lemma freq_cells v c : In v strs -> (if (fc <? val freq v c)%Z then val freq v c else 0%Z) <> 0%Z <-> (fc < val freq v c)%Z.
  Proof. intros _. destruct (Z.ltb_spec fc (val freq v c)); lia. Qed.
  Lemma concept_freq_ok :
    ((forall v c, In v strs -> (val freq v c <= fc)%Z) /\ concept_freq freq strs fc = Err AttributeError) \/
    ((exists v c, In v strs /\ (fc < val freq v c)%Z) /\ exists cut, concept_freq freq strs fc = Ok cut /\ tgood cut /\ incl (trows cut) (trows freq) /\ incl (tcols cut) (tcols freq) /\
       (forall v, In v (trows cut) -> In v strs) /\ tcols cut <> [] /\
       (forall v c, In v strs -> val cut v c = if (fc <? val freq v c)%Z then val freq v c else 0%Z) /\ (forall r c, tstored cut r c -> val cut r c = val freq r c) /\ lnz (tmx cut)).
  Proof.
    unfold concept_freq. destruct (found_dec (trows freq) (Some strs)) as [F|F].
    2:{ left. split; [|rewrite submatrix_none by (try exact GF; intros [? _]; contradiction); reflexivity].
        intros v c Iv. destruct (Z.le_gt_cases (val freq v c) fc) as [A|A]; [exact A|]. destruct (above_row v c A) as [Ir _]. exfalso. apply F. cbn [found requested]. intros Z.
        assert (J : In v []) by (rewrite <- Z; apply filter_In; split; [exact Iv|now apply mem_In]). destruct J. }
    destruct (submatrix_ok freq (Some strs) None GF F I) as (cep & E & R & C & _). rewrite E. unfold deref at 1 3. cbn [rbind].
    destruct (submatrix_val freq (Some strs) None cep GF E) as [G VV]; [intros l X; inversion X; now subst|discriminate|]. cbn [requested] in R, C.
    assert (VC : forall v c, In v strs -> val cep v c = val freq v c).
    { intros v c Iv. rewrite VV. destruct (mem v (trows cep)) eqn:Mv; destruct (mem c (tcols cep)) eqn:Mc; cbn [andb]; [reflexivity| | |]; symmetry.
      - apply val_no_col. rewrite <- C. now apply mem_nIn.
      - apply val_no_row. apply mem_nIn in Mv. intros J. apply Mv. rewrite R. apply filter_In. split; [exact Iv|now apply mem_In].
      - apply val_no_col. rewrite <- C. now apply mem_nIn. }
    destruct (tt_cmp_ok CGt cep fc G) as (x & Ex & Gx & Rx & Cx & _ & Sx & _); [intros [[Q|Q] _]; discriminate|]. rewrite Ex. cbn [rbind].
    destruct (multiply_cmp cep cep CGt fc x G G eq_refl eq_refl Ex) as (y & Ey & Gy & Ry & Cy & Vy). rewrite Ey. cbn [rbind].
    assert (NZ : lnz (tmx y)) by (eapply multiply_gt_nz; [exact G| |exact Ex|exact Ey]; now apply Z.leb_le).
    assert (VY : forall v c, In v strs -> val y v c = if (fc <? val freq v c)%Z then val freq v c else 0%Z).
    { intros v c Iv. rewrite Vy. destruct (tstored_dec x v c) as [S|S].
      - apply Sx in S as (_ & S). cbn [cmpb] in S. apply vltb_Z in S. rewrite VC in S |- * by exact Iv. now rewrite (proj2 (Z.ltb_lt _ _) S).
      - destruct (Z.ltb_spec fc (val freq v c)) as [A|A]; [|reflexivity]. exfalso. apply S, Sx. rewrite VC by exact Iv. split; [|now apply vltb_Z].
        apply stored_val; [exact G|]. rewrite VC by exact Iv. cbn. lia. }
    assert (RS : forall v, In v (trows y) -> In v strs) by (intros v Iv; rewrite Ry, R in Iv; now apply filter_In in Iv).
    destruct (drop_cols_zero y Gy) as [(Q & ->)|(Q & cut & -> & GC & TC & TR & VV' & LZ)].
    - rewrite Cy, C. intros Z. rewrite Z in C1. cbn in C1. lia.
    - left. split; [|reflexivity]. intros v c Iv. destruct (Z.le_gt_cases (val freq v c) fc) as [A|A]; [exact A|]. exfalso. destruct (above_row v c A) as [Ir Ic].
      rewrite forallb_forall in Q. specialize (Q c). rewrite Cy, C in Q. specialize (Q Ic). unfold col_zero in Q. rewrite forallb_forall in Q. specialize (Q v).
      rewrite Ry, R in Q. specialize (Q (proj2 (filter_In _ _ _) (conj Iv (proj2 (mem_In _ _) Ir)))). apply isz_ok in Q. rewrite VY, (proj2 (Z.ltb_lt _ _) A) in Q by exact Iv. cbn in Q. lia.
    - right. destruct (existsb (fun c => negb (col_zero y c)) (tcols y)) eqn:X.
      2:{ exfalso. rewrite <- not_true_iff_false in Q, X. apply Q, forallb_forall. intros c Ic. destruct (col_zero y c) eqn:Z; [reflexivity|]. exfalso. apply X, existsb_exists. exists c. now rewrite Z. }
      apply existsb_exists in X as (c & Ic & X). assert (KC : In c (tcols cut)) by (rewrite TC; now apply filter_In). split.
      + apply negb_true_iff in X. unfold col_zero in X. rewrite <- not_true_iff_false, forallb_forall in X.
        destruct (existsb (fun v => negb (isz (val y v c))) (trows y)) eqn:X2.
        * apply existsb_exists in X2 as (v & Iv & N). exists v, c. split; [auto|]. apply (freq_cells v c (RS v Iv)). rewrite <- VY by auto. apply negb_true_iff in N. now apply isz_false in N.
        * exfalso. apply X. intros v Iv. destruct (isz (val y v c)) eqn:Z; [reflexivity|]. exfalso. apply not_true_iff_false in X2. apply X2, existsb_exists. exists v. now rewrite Z.
      + exists cut. assert (RC : forall v, In v (trows cut) -> In v strs) by (rewrite TR; exact RS).
        assert (VCUT : forall v c, In v strs -> val cut v c = if (fc <? val freq v c)%Z then val freq v c else 0%Z).
        { intros v c' Iv. destruct (in_dec eqdec c' (tcols cut)) as [J|J]; [rewrite VV' by exact J; now apply VY|]. rewrite (val_no_col cut) by exact J.
          destruct (Z.ltb_spec fc (val freq v c')) as [A|A]; [|reflexivity]. exfalso. destruct (above_row v c' A) as [Ir Ic']. apply J. rewrite TC, filter_In, Cy, C. split; [exact Ic'|].
          apply negb_true_iff, not_true_iff_false. unfold col_zero. rewrite forallb_forall. intros Q'. specialize (Q' v). rewrite Ry, R in Q'.
          specialize (Q' (proj2 (filter_In _ _ _) (conj Iv (proj2 (mem_In _ _) Ir)))). apply isz_ok in Q'. rewrite VY, (proj2 (Z.ltb_lt _ _) A) in Q' by exact Iv. cbn in Q'. lia. }
        split; [reflexivity|]. split; [exact GC|]. split; [intros v; rewrite TR, Ry, R; intros J; apply filter_In in J as [_ J]; now apply mem_In|].
        split; [intros v; rewrite TC; intros J; apply filter_In in J as [J _]; rewrite Cy, C in J; exact J|]. split; [exact RC|]. split; [intros Z; rewrite Z in KC; destruct KC|]. split; [exact VCUT|].
        split; [|auto]. intros r c' S. pose proof (lnz_val cut r c' GC (LZ NZ) S) as N. destruct S as (Ir & _). rewrite VCUT in * by auto. destruct (fc <? val freq r c')%Z; [reflexivity|]. now elim N.
  Qed.

  (** *** Weights of collocates *)
  Local Notation w := (weight freq P L fc pc lc).
  Lemma weight_above v c : w v c <> 0%R -> (fc < val freq v c)%Z.
  Proof. unfold weight. destruct (Z.ltb_spec fc (val freq v c)); [auto|]. intros N. now elim N. Qed.
  Lemma not_all_zero {V} {NV : Num V} (m : ttm V) c : col_zero m c = false <-> exists v, In v (trows m) /\ val m v c <> zero.
  Proof.
    unfold col_zero. split.
    - intros Q. destruct (existsb (fun v => negb (isz (val m v c))) (trows m)) eqn:X.
      + apply existsb_exists in X as (v & Iv & N). exists v. split; [exact Iv|]. apply negb_true_iff in N. now apply isz_false in N.
      + exfalso. apply not_true_iff_false in Q. apply Q, forallb_forall. intros v Iv. destruct (isz (val m v c)) eqn:Z; [reflexivity|]. exfalso. apply not_true_iff_false in X. apply X, existsb_exists. exists v. now rewrite Z.
    - intros (v & Iv & N). apply not_true_iff_false. rewrite forallb_forall. intros Q. apply N, isz_ok, Q, Iv.
  Qed.
  Lemma concept_weights_ok cut : concept_freq freq strs fc = Ok cut ->
    ((forall v c, In v strs -> w v c = 0%R) /\ concept_weights cut nf cf pc lc = Err AttributeError) \/
    ((exists v c, In v strs /\ w v c <> 0%R) /\ exists wm, concept_weights cut nf cf pc lc = Ok wm /\ tgood wm /\
       (forall c, In c (tcols wm) <-> exists v, In v strs /\ w v c <> 0%R) /\ (forall v, In v (trows wm) -> In v strs) /\ (forall v c, In v strs -> val wm v c = w v c)).
  Proof.
    intros EC. destruct concept_freq_ok as [(_ & Q)|(_ & cut' & Q & GC & IR & IC & RS & NE & VC & SV & NZ)]; [congruence|]. assert (cut' = cut) by congruence. subst cut'. clear Q EC.
    assert (SC : forall v c, In v strs -> tstored cut v c <-> (fc < val freq v c)%Z).
    { intros v c Iv. split; intros A.
      - pose proof (lnz_val _ _ _ GC NZ A) as N. rewrite VC in N by exact Iv. now apply (freq_cells v c Iv) in N.
      - apply stored_val; [exact GC|]. rewrite VC by exact Iv. now apply (freq_cells v c Iv). }
    unfold concept_weights. destruct (assoc_ppmi cut GC IR IC SV) as (pm & -> & Gp & Rp & Cp & Sp & Vp & Zp & _). cbn [rbind].
    destruct (assoc_lik cut GC IR IC SV NZ) as (lm & -> & Gl & Rl & Cl & Sl & Vl). cbn [rbind].
    destruct (tt_cmp_ok CGt pm pc Gp) as (x1 & Ex1 & Gx1 & Rx1 & Cx1 & _ & Sx1 & _); [intros [[Q|Q] _]; discriminate|]. rewrite Ex1. cbn [rbind].
    destruct (multiply_cmp pm pm CGt pc x1 Gp Gp eq_refl eq_refl Ex1) as (p1 & -> & G1 & R1 & K1 & V1). cbn [rbind].
    destruct (tt_cmp_ok CGt lm lc Gl) as (x2 & Ex2 & Gx2 & Rx2 & Cx2 & _ & Sx2 & _); [intros [[Q|Q] _]; discriminate|]. rewrite Ex2. cbn [rbind].
    destruct (multiply_cmp p1 lm CGt lc x2 G1 Gl) as (p2 & -> & G2' & R2' & C2' & V2); [congruence|congruence|exact Ex2|]. cbn [rbind].
    assert (V : forall v c, In v strs -> val p2 v c = w v c).
    { intros v c Iv. rewrite V2, V1. unfold weight. pose proof (SC v c Iv) as S. destruct (Z.ltb_spec fc (val freq v c)) as [A|A].
      - apply S in A. assert (S1 : tstored x1 v c <-> (pc < P v c)%R). { rewrite Sx1, Sp, Vp by exact A. cbn [cmpb]. rewrite vltb_R. tauto. }
        assert (S2 : tstored x2 v c <-> (lc < L v c)%R). { rewrite Sx2, Sl, Vl by exact A. cbn [cmpb]. rewrite vltb_R. tauto. }
        rewrite (Vp v c A). destruct (tstored_dec x2 v c) as [T2|T2]; destruct (tstored_dec x1 v c) as [T1|T1]; destruct (Rlt_dec pc (P v c)); destruct (Rlt_dec lc (L v c)); try reflexivity; tauto.
      - assert (NS : ~ tstored cut v c) by (rewrite S; lia). rewrite (Zp v c NS). destruct (tstored_dec x2 v c); [|reflexivity]. destruct (tstored_dec x1 v c); reflexivity. }
    assert (RP : forall v, In v (trows p2) -> In v strs) by (rewrite R2', R1, Rp; exact RS).
    assert (IN : forall v c, In v strs -> w v c <> 0%R -> In v (trows p2) /\ In c (tcols p2)).
    { intros v c Iv N. rewrite <- V in N by exact Iv. destruct (stored_val p2 v c G2' N) as (? & ? & _). auto. }
    destruct (drop_cols_zero p2 G2') as [(Q & ->)|(Q & wm & -> & GW & TC & TR & VW & _)].
    - rewrite C2', K1, Cp. exact NE.
    - left. split; [|reflexivity]. intros v c Iv. destruct (Req_EM_T (w v c) 0) as [E|N]; [exact E|]. exfalso. destruct (IN v c Iv N) as [Ir Ic]. rewrite forallb_forall in Q. specialize (Q c Ic).
      apply not_false_iff_true in Q. apply Q. apply not_all_zero. exists v. split; [exact Ir|]. now rewrite V.
    - right. assert (K : forall c, In c (tcols wm) <-> exists v, In v strs /\ w v c <> 0%R).
      { intros c. rewrite TC, filter_In, negb_true_iff, not_all_zero. split.
        - intros (Ic & v & Iv & N). exists v. rewrite V in N by auto. auto.
        - intros (v & Iv & N). destruct (IN v c Iv N) as [Ir Ic]. split; [exact Ic|]. exists v. rewrite V by exact Iv. auto. }
      split.
      + destruct (tcols wm) as [|c l] eqn:E.
        * exfalso. apply not_true_iff_false in Q. apply Q, forallb_forall. intros c Ic. destruct (col_zero p2 c) eqn:Z; [reflexivity|]. exfalso.
          assert (J : In c []) by (rewrite TC; apply filter_In; now rewrite Z). destruct J.
        * destruct (proj1 (K c) (or_introl eq_refl)) as (v & A & B). eauto.
      + exists wm. split; [reflexivity|]. split; [exact GW|]. split; [exact K|]. split; [rewrite TR; exact RP|]. intros v c Iv.
        destruct (in_dec eqdec c (tcols wm)) as [J|J]; [rewrite VW by exact J; now apply V|]. rewrite val_no_col by exact J. destruct (Req_EM_T (w v c) 0) as [E|N]; [now rewrite E|]. exfalso. apply J, K. eauto.
  Qed.
End Freq.

(** ** Tokens *)
Section Tokens.
  Variable order1 : list pystr -> list pystr.
  Hypothesis perm1 : forall l, Permutation l (order1 l).
  Variables (variants : list (tnode ctok)) (strs : list pystr).
  Hypothesis VO : variants_ok variants strs.

  Lemma list_dict : exists d, nodes_list_dict variants = Ok d /\ toks_of d = flat_map tn_tokens variants.
  Proof.
    pose proof (vo_types _ _ VO) as T. pose proof (vo_distinct _ _ VO) as N. unfold nodes_list_dict, toks_of.
    assert (G : forall vs ss (d : dict pystr (tnode ctok)), Forall2 (fun n s => tn_type n = Ok s) vs ss -> NoDup ss -> (forall s, In s ss -> ~ In s (dkeys d)) ->
      exists d', rfold (fun d n => rbind (tn_type n) (fun s => Ok (dset d s n))) vs d = Ok d' /\ dvals d' = dvals d ++ vs).
    { clear. intros vs ss d F. revert d. induction F as [|n s vs ss E F IH]; intros d ND Fr; [exists d; cbn; now rewrite app_nil_r|].
      cbn [rfold]. rewrite E. cbn [rbind]. inversion ND as [|? ? NI ND']; subst. rewrite DepMatchProofs.dset_fresh by (apply Fr; cbn; auto).
      destruct (IH (d ++ [(s, n)])) as (d' & Q & V); [exact ND'| |].
      - intros s' I' J. unfold dkeys in J. rewrite map_app, in_app_iff in J. destruct J as [J|[<-|[]]]; [|contradiction]. apply (Fr s'); cbn; auto.
      - exists d'. split; [exact Q|]. rewrite V. unfold dvals. rewrite map_app, <- app_assoc. reflexivity. }
    destruct (G variants strs [] T N) as (d & E & V); [intros s _ []|]. exists d. split; [exact E|]. rewrite V. reflexivity.
  Qed.
  Local Notation lp := (Some (u "lemma/pos")).
  Lemma seen_near t c : seen variants t c -> near variants c.
  Proof. intros (a & tk & b & ls & rs & E & _ & _ & K & I). exists tk, ls, rs. split; [rewrite E, in_app_iff; cbn; auto|]. auto. Qed.
  Lemma written_fun a f s s' : written a f s -> written a f s' -> s = s'.
  Proof.
    intros (_ & vs & F & ->) (_ & vs' & F' & ->). f_equal. revert vs' F'. induction F as [|c v l vs E F IH]; intros vs' F'; inversion F'; subst; [reflexivity|]. f_equal; [congruence|auto].
  Qed.
  Lemma collocs_fun tk ls rs ls' rs' : collocs_are lp tk ls rs -> collocs_are lp tk ls' rs' -> ls = ls' /\ rs = rs'.
  Proof.
    assert (X : forall n s s', colloc_string lp n s -> colloc_string lp n s' -> s = s').
    { intros n s s' [(f & E & W)|([E|E] & _)] [(f' & E' & W')|([E'|E'] & _)]; try discriminate. injection E as <-. injection E' as <-. eapply written_fun; eassumption. }
    assert (Y : forall l a b, Forall2 (colloc_string lp) l a -> Forall2 (colloc_string lp) l b -> a = b).
    { intros l a b F. revert b. induction F as [|n s l a E F IH]; intros b F'; inversion F'; subst; [reflexivity|]. f_equal; eauto. }
    intros [A B] [C D]. split; eauto.
  Qed.
  Lemma occurs_nz ls rs c z : occurs ls rs c z -> z <> 0%Z.
  Proof. intros [(i & E & ->)|(i & E & ->)]; [|lia]. assert (i < length ls) by (apply nth_error_Some; congruence). lia. Qed.
  Lemma token_stage :
    ((forall t c, ~ seen variants t c) /\ nodes_list_to_matrix order1 lp variants = Err ValueError) \/
    ((exists t c, seen variants t c) /\ exists tok, nodes_list_to_matrix order1 lp variants = Ok tok /\ tgood tok /\ (forall c, In c (tcols tok) <-> near variants c) /\
       (exists ss, Forall2 (fun tk s => ct_str tk = Ok s) (flat_map tn_tokens variants) ss /\ trows tok = dedup ss) /\
       (forall t, In t (trows tok) <-> exists s, token_of variants s t) /\ forall t c, val tok t c <> 0%Z <-> seen variants t c).
  Proof.
    destruct list_dict as (d & Ed & Et). unfold nodes_list_to_matrix. rewrite Ed. cbn [rbind].
    destruct (tokens_outcome order1 perm1 lp d) as [O1 O2]; [rewrite Et; apply VO|].
    assert (SL : forall t c, seen variants t c <-> exists tk ls rs, last_with d tk t /\ collocs_are lp tk ls rs /\ In c (ls ++ rs)).
    { intros t c. unfold seen, last_with. rewrite Et. split.
      - intros (a & tk & b & ls & rs & E & S & NL & K & J). exists tk, ls, rs. split; [|auto]. split; [exact S|]. exists a, b. auto.
      - intros (tk & ls & rs & (S & a & b & E & NL) & K & J). exists a, tk, b, ls, rs. auto. }
    destruct (nodes_to_matrix order1 lp d) as [tok|e] eqn:EN.
    - right. destruct (token_matrix order1 perm1 lp d tok EN) as (G & Hr & Hc & HV). rewrite Et in Hr, Hc.
      assert (VS : forall t c, val tok t c <> 0%Z <-> seen variants t c).
      { intros t c. rewrite SL. split.
        - intros N. assert (It : In t (trows tok)) by (destruct (in_dec eqdec t (trows tok)) as [J|J]; [exact J|]; elim N; exact (val_no_row _ _ _ J)).
          destruct (row_last order1 perm1 d lp tok t EN It) as (tk & LW). destruct (HV tk t LW) as (ls & rs & K & V). exists tk, ls, rs. split; [exact LW|]. split; [exact K|].
          destruct (in_dec eqdec c (ls ++ rs)) as [J|J]; [exact J|]. elim N. now apply V.
        - intros (tk & ls & rs & LW & K & J). destruct (HV tk t LW) as (ls' & rs' & K' & V). destruct (collocs_fun _ _ _ _ _ K K') as [-> ->]. destruct (proj1 (V c) J) as [O _]. eapply occurs_nz; exact O. }
      split.
      + destruct (existsb (fun t => existsb (fun c => negb (val tok t c =? 0)%Z) (tcols tok)) (trows tok)) eqn:X.
        * apply existsb_exists in X as (t & _ & X). apply existsb_exists in X as (c & _ & X). exists t, c. apply VS. apply negb_true_iff, Z.eqb_neq in X. exact X.
        * exfalso. assert (Z0 : forall t c, val tok t c = 0%Z).
          { intros t c. destruct (Z.eq_dec (val tok t c) 0) as [E|N]; [exact E|]. exfalso. destruct (stored_val tok t c G N) as (It & Ic & _). apply not_true_iff_false in X. apply X, existsb_exists.
            exists t. split; [exact It|]. apply existsb_exists. exists c. split; [exact Ic|]. now apply negb_true_iff, Z.eqb_neq. }
          discriminate O2. intros tk s LW. destruct (HV tk s LW) as (ls & rs & (K1 & K2) & V).
          destruct ls as [|c ls]; [|exfalso; destruct (proj1 (V c)) as [O _]; [cbn; auto|]; rewrite Z0 in O; apply occurs_nz in O; congruence].
          destruct rs as [|c rs]; [|exfalso; destruct (proj1 (V c)) as [O _]; [cbn; auto|]; rewrite Z0 in O; apply occurs_nz in O; congruence].
          inversion K1; inversion K2. auto.
      + exists tok. split; [reflexivity|]. split; [exact G|]. split; [intros c; rewrite Hc; unfold near; tauto|]. split; [|split; [|exact VS]].
        * assert (S : exists ss, Forall2 (fun tk s => ct_str tk = Ok s) (flat_map tn_tokens variants) ss).
          { pose proof (vo_print _ _ VO) as PR. clear -PR. induction (flat_map tn_tokens variants) as [|tk l IH]; [exists []; constructor|]. destruct (PR tk (or_introl eq_refl)) as ((s & E) & _).
            destruct IH as (ss & F); [intros t' J; apply PR; cbn; auto|]. exists (s :: ss). now constructor. }
          destruct S as (ss & F). exists ss. split; [exact F|]. apply (rows_count order1 perm1 d lp tok ss EN). now rewrite Et.
        * intros t. rewrite Hr. unfold token_of. pose proof (vo_types _ _ VO) as T. split.
          -- intros (tk & J & E). apply in_flat_map in J as (n & In_ & J). destruct (Forall2_In_l _ _ _ _ T In_) as (s & _ & Es). exists s, n, tk. auto.
          -- intros (s & n & tk & In_ & _ & J & E). exists tk. split; [|exact E]. apply in_flat_map. eauto.
    - left. assert (Em : forall tk s, last_with d tk s -> ct_l tk = [] /\ ct_r tk = []).
      { intros tk s LW. destruct (ct_l tk) as [|x l] eqn:El; [destruct (ct_r tk) as [|y r] eqn:Er; [auto|]|]; exfalso; destruct O1 as (m & Q); try discriminate; exists tk, s; (split; [exact LW|]); rewrite El, ?Er; [right|left]; discriminate. }
      split; [|apply O2, Em]. intros t c S. apply SL in S as (tk & ls & rs & LW & (K1 & K2) & J). destruct (Em tk t LW) as [E1 E2]. rewrite E1 in K1. rewrite E2 in K2. inversion K1; inversion K2; subst. destruct J.
  Qed.
End Tokens.

(** ** Counts as reals *)
Lemma lane_get_map (l : list (nat * Z)) j : lane_get (map (fun e => (fst e, IZR (snd e))) l) j = IZR (lane_get l j).
Proof. induction l as [|[k x] l IH]; [reflexivity|]. cbn [map fst snd]. rewrite lane_get_cons, IH.
  assert (E : lane_get ((k, x) :: l) j = if k =? j then (x + lane_get l j)%Z else lane_get l j) by (unfold lane_get; cbn; destruct (k =? j); reflexivity).
  rewrite E. destruct (k =? j); [|reflexivity]. symmetry. apply plus_IZR.
Qed.
Lemma ttm_map_good (m : ttm Z) : tgood m -> tgood (ttm_map IZR m) /\ forall r c, val (ttm_map IZR m) r c = IZR (val m r c).
Proof.
  intros G. assert (SH : nrows (sp_map IZR (tmx m)) = nrows (tmx m) /\ ncols (sp_map IZR (tmx m)) = ncols (tmx m)).
  { unfold nrows, ncols, nmajor, sp_map. cbn [sfmt lanes nminor]. rewrite map_length. auto. }
  split.
  - constructor; cbn [ttm_map tmx trows tcols]; try apply G; [|rewrite (proj1 SH); apply G|rewrite (proj2 SH); apply G].
    pose proof (tg_wf _ G) as W. unfold spwf in *. cbn [sp_map lanes nminor]. rewrite Forall_map. eapply Forall_impl; [|exact W]. intros l A. cbn beta. rewrite map_map, Forall_map. exact A.
  - intros r c. unfold val. cbn [ttm_map tmx trows tcols]. destruct (index_of r (trows m)); [|reflexivity]. destruct (index_of c (tcols m)); [|reflexivity].
    unfold spget, sp_map, mget. cbn [sfmt lanes]. destruct (sfmt (tmx m)); (etransitivity; [|apply lane_get_map]); f_equal; apply (map_nth (map (fun e : nat * Z => (fst e, IZR (snd e)))) _ []).
Qed.

(** ** From weights and tokens to vectors *)
Lemma req_all items l : incl l items -> requested items (Some l) = l.
Proof. intros I. cbn [requested]. apply filter_all. intros x J. apply mem_In, I, J. Qed.
Lemma weights_csr pos tw b fmt m : compute_token_weights pos tw b fmt = Ok m -> sfmt (tmx m) = Csr.
Proof.
  unfold compute_token_weights. destruct (negb _); [discriminate|]. unfold mk_ttm. destruct (negb _); [discriminate|]. destruct (negb _); [discriminate|]. intros [= <-]. reflexivity.
Qed.
Lemma rows_not_zero {V} {NV : Num V} (m : ttm V) r : row_zero m r = false <-> exists c, In c (tcols m) /\ val m r c <> zero.
Proof.
  unfold row_zero. split.
  - intros Q. destruct (existsb (fun c => negb (isz (val m r c))) (tcols m)) eqn:X.
    + apply existsb_exists in X as (c & Ic & N). exists c. split; [exact Ic|]. apply negb_true_iff in N. now apply isz_false in N.
    + exfalso. apply not_true_iff_false in Q. apply Q, forallb_forall. intros c Ic. destruct (isz (val m r c)) eqn:Z; [reflexivity|]. exfalso. apply not_true_iff_false in X. apply X, existsb_exists. exists c. now rewrite Z.
  - intros (c & Ic & N). apply not_true_iff_false. rewrite forallb_forall. intros Q. apply N, isz_ok, Q, Ic.
Qed.

Section Vectors.
  Variable freq : ttm Z.
  Hypothesis GF : tgood freq.
  Hypothesis NN : forall r c, (0 <= val freq r c)%Z.
  Hypothesis C1 : 1 <= length (tcols freq).
  Hypothesis CT : forall c, In c (tcols freq) -> (col_total freq c < tt_total freq)%Z.
  Hypothesis TP : (0 < tt_total freq)%Z.
  Local Notation P := (Pf freq).
  Local Notation L := (Lf freq).
  Variables nf cf : vocab.
  Hypothesis NF : rmap (vocab_init false) (tt_sum freq true) = Ok nf.
  Hypothesis CF : rmap (vocab_init false) (tt_sum freq false) = Ok cf.
  Variables (fc : Z) (pc lc : R).
  Hypothesis FC : (0 <= fc)%Z.
  Variables (variants : list (tnode ctok)) (strs : list pystr).
  Hypothesis VO : variants_ok variants strs.
  Variable order2 : list pystr -> list pystr.
  Hypothesis perm2 : forall l, Permutation l (order2 l).
  Local Notation w := (weight freq P L fc pc lc).
  Variables (wm : ttm R) (tok : ttm Z).
  Hypothesis GW : tgood wm.
  Hypothesis WC : forall c, In c (tcols wm) <-> exists v, In v strs /\ w v c <> 0%R.
  Hypothesis WV : forall v c, In v strs -> val wm v c = w v c.
  Hypothesis GT : tgood tok.
  Hypothesis TCn : forall c, In c (tcols tok) <-> near variants c.
  Hypothesis TRo : exists ss, Forall2 (fun tk s => ct_str tk = Ok s) (flat_map tn_tokens variants) ss /\ trows tok = dedup ss.
  Hypothesis TR : forall t, In t (trows tok) <-> exists s, token_of variants s t.
  Hypothesis TV : forall t c, val tok t c <> 0%Z <-> seen variants t c.
  Hypothesis SEEN : exists t c, seen variants t c.
  Local Notation foc := (feature freq P L fc pc lc variants strs).
  Let cs := intersect order2 (tcols wm) (tcols tok).

  Lemma cs_In c : In c cs <-> foc c.
  Proof.
    unfold cs, intersect, feature. rewrite <- WC, <- TCn. split.
    - intros J. apply (Permutation_in _ (Permutation_sym (perm2 _))) in J. apply filter_In in J as [J M]. rewrite dedup_In in J. apply mem_In in M. auto.
    - intros [J M]. apply (Permutation_in _ (perm2 _)). apply filter_In. rewrite dedup_In. split; [exact J|now apply mem_In].
  Qed.
  Lemma cs_NoDup : NoDup cs.
  Proof. unfold cs, intersect. eapply Permutation_NoDup; [apply perm2|]. apply NoDup_filter, dedup_NoDup. Qed.
  Lemma cs_wm : incl cs (tcols wm).
  Proof. intros c J. apply cs_In in J as [J _]. now apply WC. Qed.
  Lemma cs_tok : incl cs (tcols tok).
  Proof. intros c J. apply cs_In in J as [_ J]. now apply TCn. Qed.
  Lemma cs_freq : incl cs (tcols freq).
  Proof. intros c J. apply cs_In in J as [(v & _ & N) _]. apply weight_above in N. eapply above_row; eassumption. Qed.
  Lemma type_of_token s t : token_of variants s t -> type_of (u "lemma/pos") t = s /\ In s strs.
  Proof.
    intros T. assert (Is : In s strs).
    { destruct T as (n & tk & In_ & E & _). destruct (Forall2_In_l _ _ _ _ (vo_types _ _ VO) In_) as (s' & Is & E'). cbn in E'. congruence. }
    split; [|exact Is]. destruct (vo_form _ _ VO s Is) as (l & p & Nl & Np & ->). destruct (vo_tokens _ _ VO _ _ T) as (rest & ->). rewrite <- app_assoc. cbn [app]. now apply type_of_lemma_pos.
  Qed.
  Lemma own_feature s t c : token_of variants s t -> seen variants t c -> w s c <> 0%R -> foc c.
  Proof. intros T S N. split; [exists s; split; [now apply (type_of_token s t)|exact N]|]. eapply seen_near; exact S. Qed.
  Definition sees (t c : pystr) : bool := negb (val tok t c =? 0)%Z.
  Lemma sees_seen t c : sees t c = true <-> seen variants t c.
  Proof. unfold sees. rewrite negb_true_iff, Z.eqb_neq. apply TV. Qed.

  Lemma vectors_stage : let r := vectors_from order2 freq nf cf wm tok in
    ((forall c, ~ foc c) /\ r = Err AttributeError) \/
    ((exists c, foc c) /\
     (((forall c, foc c -> ~ In c (trows freq)) /\ r = Err AttributeError) \/
      ((exists c, foc c /\ In c (trows freq)) /\
       (((forall s t, ~ weighted freq P L fc pc lc variants s t) /\ r = Err AssertionError) \/
        ((exists s t, weighted freq P L fc pc lc variants s t) /\
         (((exists c, foc c /\ ~ In c (trows freq)) /\ r = Err ValueError) \/
          ((forall c, foc c -> In c (trows freq)) /\ exists m, r = Ok m /\ vectors_are freq P L fc pc lc variants m))))))).
  Proof.
    cbv zeta. unfold vectors_from. fold cs. destruct cs as [|c0 cs0] eqn:ECS.
    - left. split; [intros c F; apply cs_In in F; rewrite ECS in F; destruct F|]. rewrite submatrix_none by (try exact GW; cbn; tauto). rewrite submatrix_none by (try exact GT; cbn; tauto). reflexivity.
    - rewrite <- ECS. right. split; [exists c0; apply cs_In; rewrite ECS; cbn; auto|].
      assert (NE : cs <> []) by (rewrite ECS; discriminate). clear ECS.
      assert (F1 : found (tcols wm) (Some cs)) by (cbn [found]; rewrite req_all by apply cs_wm; exact NE).
      assert (F2 : found (tcols tok) (Some cs)) by (cbn [found]; rewrite req_all by apply cs_tok; exact NE).
      destruct (submatrix_ok wm None (Some cs) GW I F1) as (tw & E1 & RW1 & CW1 & _). rewrite E1. cbn [rbind]. rewrite req_all in CW1 by apply cs_wm.
      destruct (submatrix_ok tok None (Some cs) GT I F2) as (pos & E2 & RP1 & CP1 & _). rewrite E2. cbn [rbind]. rewrite req_all in CP1 by apply cs_tok.
      destruct (submatrix_val wm None (Some cs) tw GW E1) as [GTW VTW]; [discriminate|intros l X; injection X as <-; apply cs_NoDup|].
      destruct (submatrix_val tok None (Some cs) pos GT E2) as [GP VP]; [discriminate|intros l X; injection X as <-; apply cs_NoDup|].
      cbn [requested] in RW1, RP1. destruct (ttm_map_good pos GP) as [GP' VP'].
      destruct (token_weights_ok (ttm_map IZR pos) tw true (u "lemma/pos") GP' GTW) as (tk & Etk & Gtk & Rtk & Ctk & Vtk); [cbn [ttm_map tcols]; congruence|]. rewrite Etk. cbn [rbind].
      cbn [ttm_map tcols trows] in Rtk, Ctk, Vtk. rewrite RP1 in Rtk. rewrite CP1 in Ctk. rewrite RP1, CP1 in Vtk.
      assert (VK : forall s t c, token_of variants s t -> In c cs -> val tk t c = if sees t c then w s c else 0%R).
      { intros s t c T Jc. assert (It : In t (trows tok)) by (apply TR; eauto). rewrite Vtk by assumption. fold (ttm_map IZR pos). rewrite VP'. destruct (type_of_token s t T) as [-> Is].
        rewrite VP, RP1, CP1, (proj2 (mem_In _ _) It), (proj2 (mem_In _ _) Jc). cbn [andb]. unfold masked, sees.
        destruct (Z.eqb_spec (val tok t c) 0) as [Z0|N0]; cbn [negb].
        - rewrite Z0. destruct (Req_EM_T 0 0); [reflexivity|contradiction].
        - destruct (Req_EM_T (IZR (val tok t c)) 0) as [Z0|_]; [now apply eq_IZR_R0 in Z0|]. rewrite VTW, CW1, (proj2 (mem_In _ _) Jc), andb_true_r. rewrite <- WV by exact Is.
          destruct (mem s (trows tw)) eqn:Ms; [reflexivity|]. symmetry. apply val_no_row. rewrite <- RW1. now apply mem_nIn. }
      assert (TN : trows tk <> []).
      { rewrite Rtk. destruct SEEN as (t & c & S). apply TV in S. destruct (stored_val tok t c GT S) as (It & _). intros Z. rewrite Z in It. destruct It. }
      assert (ZK : forall t, In t (trows tok) -> row_zero tk t = false <-> exists s, weighted freq P L fc pc lc variants s t).
      { intros t It. rewrite rows_not_zero, Ctk. split.
        - intros (c & Jc & N). apply TR in It as (s & T). exists s. split; [exact T|]. exists c. rewrite (VK s t c T Jc) in N. destruct (sees t c) eqn:S; [|now elim N]. apply sees_seen in S. auto.
        - intros (s & T & c & S & N). assert (Jc : In c cs) by (apply cs_In; eapply own_feature; eassumption). exists c. split; [exact Jc|]. rewrite (VK s t c T Jc). apply sees_seen in S. now rewrite S. }
      assert (RT : forall s t, weighted freq P L fc pc lc variants s t -> In t (trows tok)) by (intros s t [T _]; apply TR; eauto).
      unfold tt_drop_empty. destruct (drop_rows_zero tk Gtk TN) as [(Q & ->)|(Q & wk & -> & Gwk & Rwk & Cwk & Vwk & Fwk & _)]; cbn [rbind].
      all: destruct (found_dec (trows freq) (Some cs)) as [F3|F3];
        [|left; split; [intros c Fc Jc; apply F3; cbn [found requested]; intros Z; assert (J : In c []) by (rewrite <- Z; apply filter_In; split; [now apply cs_In|now apply mem_In]); destruct J
                       |rewrite submatrix_none by (try exact GF; tauto); reflexivity]].
      all: right; destruct (submatrix_ok freq (Some cs) None GF F3 I) as (cm & E3 & RC & CC & _); rewrite E3; cbn [deref rbind];
        destruct (submatrix_val freq (Some cs) None cm GF E3) as [GC VC]; [intros l X; injection X as <-; apply cs_NoDup|discriminate|];
        cbn [requested] in RC, CC.
      all: assert (IR : incl (trows cm) (trows freq)) by (intros r J; rewrite RC in J; apply filter_In in J as [_ J]; now apply mem_In).
      all: assert (EV : forall r c, tstored cm r c -> val cm r c = val freq r c) by (intros r c (Ir & Ic & _); now rewrite VC, (proj2 (mem_In _ _) Ir), (proj2 (mem_In _ _) Ic)).
      all: destruct (assoc_ppmi freq GF NN C1 TP nf cf NF CF cm GC IR) as (soc & -> & GS & RS & CS & SS & VS & ZS & FS); [rewrite CC; apply incl_refl|exact EV|]; cbn [rbind].
      all: split; [destruct (trows cm) as [|c l] eqn:EL; [exfalso; apply F3; cbn [requested]; now rewrite RC|]; exists c; assert (J : In c (c :: l)) by (cbn; auto);
                   rewrite RC in J; apply filter_In in J as [J M]; split; [now apply cs_In|now apply mem_In]|].
      + left. split; [|reflexivity]. intros s t W. rewrite forallb_forall in Q. specialize (Q t). rewrite Rtk in Q. specialize (Q (RT s t W)). apply not_false_iff_true in Q. apply Q, ZK; [eapply RT; exact W|]. eauto.
      + right. split.
        { destruct (trows wk) as [|t l] eqn:EL.
          - exfalso. apply not_true_iff_false in Q. apply Q, forallb_forall. intros t It. destruct (row_zero tk t) eqn:Z; [reflexivity|]. exfalso.
            assert (J : In t []) by (rewrite Rwk; apply filter_In; now rewrite Z). destruct J.
          - assert (J : In t (t :: l)) by (cbn; auto). rewrite Rwk in J. apply filter_In in J as [J Z]. apply negb_true_iff in Z. rewrite Rtk in J. apply ZK in Z; [|exact J]. destruct Z as (s & W). eauto. }
        assert (RS' : forall c, In c (trows soc) <-> foc c /\ In c (trows freq)). { intros c. rewrite RS, RC, filter_In, <- cs_In. rewrite (mem_In c (trows freq)). tauto. }
        destruct (forallb (fun c => mem c (trows freq)) cs) eqn:AL.
        * right. rewrite forallb_forall in AL. assert (AF : forall c, foc c -> In c (trows freq)) by (intros c Fc; apply mem_In, AL, cs_In, Fc). split; [exact AF|].
          destruct (addition_ok wk soc (u "l1") Gwk GS) as (m & Em & Gm & Rm & Cm & Vm).
          -- intros c. rewrite Cwk, Ctk, RS'. split; [intros J; apply cs_In in J; auto|intros [J _]; now apply cs_In].
          -- cbn. auto.
          -- right. split.
             { intros Z. apply not_true_iff_false in Q. apply Q, forallb_forall. intros t It. destruct (row_zero tk t) eqn:ZR; [reflexivity|]. exfalso.
               assert (J : In t []) by (rewrite <- Z, Rwk; apply filter_In; now rewrite ZR). destruct J. }
             { rewrite CS, CC. intros Z. rewrite Z in C1. cbn in C1. lia. }
          -- rewrite Fwk. eapply weights_csr; exact Etk.
          -- exact FS.
          -- exists m. split; [exact Em|]. rewrite CS, CC in Cm, Vm. assert (RW : forall t, In t (trows m) <-> exists s, weighted freq P L fc pc lc variants s t).
             { intros t. rewrite Rm, Rwk, filter_In, negb_true_iff, Rtk. split; [intros [It Z]; now apply ZK|]. intros (s & W). assert (It : In t (trows tok)) by (eapply RT; exact W). split; [exact It|]. apply ZK; eauto. }
             constructor; [exact Gm|exact Cm|exact RW| |].
             ++ destruct TRo as (ss & Fss & Ess). exists ss, (fun t => negb (row_zero tk t)). split; [exact Fss|]. now rewrite Rm, Rwk, Rtk, Ess.
             ++ exists sees. split; [exact sees_seen|]. intros s t f W If. assert (It : In t (trows wk)) by (rewrite <- Rm; apply RW; eauto).
                rewrite Vm by assumption.
                assert (WS : forall f, weighted_sum wk soc t f = vector freq P L fc pc lc sees s t f).
                { intros g. unfold weighted_sum, vector. rewrite Cwk, Ctk. rewrite <- (sumr_part _ cs (tcols freq)); [|apply cs_NoDup|apply GF|exact cs_freq|].
                  - f_equal. apply map_ext_in. intros c Jc. destruct W as [T _]. rewrite Vwk by exact It. rewrite (VK s t c T Jc). f_equal.
                    destruct (tstored_dec cm c g) as [S|S]; [now rewrite VS|]. rewrite ZS by exact S. unfold Pf.
                    assert (Z0 : val freq c g = 0%Z); [|now rewrite Z0]. destruct (Z.eq_dec (val freq c g) 0) as [E|N]; [exact E|]. exfalso. apply S. apply stored_val; [exact GC|].
                    destruct (stored_val freq c g GF N) as (_ & Ig & _). rewrite VC, CC, (proj2 (mem_In _ _) Ig). rewrite mem_true; [exact N|]. rewrite <- RS. apply RS'. split; [now apply cs_In|]. apply AF. now apply cs_In.
                  - intros c Ic NJ. destruct (sees t c) eqn:S; [|lra]. destruct (Req_EM_T (w s c) 0) as [->|N]; [lra|]. exfalso. apply NJ, cs_In. destruct W as [T _]. eapply own_feature; [exact T|apply sees_seen; exact S|exact N]. }
                rewrite WS. f_equal. apply map_ext. exact WS.
        * left. apply not_true_iff_false in AL. split.
          -- destruct (existsb (fun c => negb (mem c (trows freq))) cs) eqn:X.
             ++ apply existsb_exists in X as (c & Jc & M). exists c. split; [now apply cs_In|]. apply mem_nIn. now apply negb_true_iff.
             ++ exfalso. apply AL, forallb_forall. intros c Jc. destruct (mem c (trows freq)) eqn:M; [reflexivity|]. exfalso. apply not_true_iff_false in X. apply X, existsb_exists. exists c. now rewrite M.
          -- apply vectors_mismatch. intros X. apply AL, forallb_forall. intros c Jc. apply mem_In. rewrite Cwk, Ctk in X. apply X in Jc. now apply RS' in Jc.
  Qed.
End Vectors.

(** ** The whole loop body *)
Section Body.
  Variables order1 order2 : list pystr -> list pystr.
  Hypothesis perm1 : forall l, Permutation l (order1 l).
  Hypothesis perm2 : forall l, Permutation l (order2 l).

  Lemma marginal_vocabs (freq : ttm Z) : tgood freq -> 2 <= length (trows freq) -> 2 <= length (tcols freq) ->
    exists nf cf, rmap (vocab_init false) (tt_sum freq true) = Ok nf /\ rmap (vocab_init false) (tt_sum freq false) = Ok cf.
  Proof.
    intros G A B. destruct (tt_sum_ok freq true G) as (d1 & E1 & _); [lia|]. destruct (tt_sum_ok freq false G) as (d2 & E2 & _); [lia|]. rewrite E1, E2. cbn [rmap]. eauto.
  Qed.
  Lemma variant_strs variants strs : variants_ok variants strs -> rmapm tn_type variants = Ok strs.
  Proof. intros VO. pose proof (vo_types _ _ VO) as T. clear VO. induction T as [|n s l l' E T IH]; [reflexivity|]. cbn [rmapm]. rewrite E. cbn [rbind]. rewrite IH. reflexivity. Qed.
  Lemma table_total freq : table_ok freq -> (0 < tt_total freq)%Z /\ 1 <= length (tcols freq).
  Proof.
    intros T. pose proof (tb_cols _ T) as C2. split; [|lia]. destruct (tcols freq) as [|c l] eqn:E; [cbn in C2; lia|].
    pose proof (tb_totals _ T c). rewrite E in H. specialize (H (or_introl eq_refl)). pose proof (col_nonneg freq (tb_counts _ T) c). lia.
  Qed.
  Lemma concept_outcome freq fc pc lc variants strs : table_ok freq -> (0 <= fc)%Z -> variants_ok variants strs ->
    let r := concept_vectors order1 order2 freq fc pc lc variants in
    (exists e, no_vectors freq (Pf freq) (Lf freq) fc pc lc variants strs e /\ r = Err e) \/
    (has_vectors freq (Pf freq) (Lf freq) fc pc lc variants strs /\ exists m, r = Ok m /\ vectors_are freq (Pf freq) (Lf freq) fc pc lc variants m).
  Proof.
    intros T FC VO. cbv zeta. destruct (table_total freq T) as [TP C1]. pose proof (tb_good _ T) as GF. pose proof (tb_counts _ T) as NN.
    destruct (marginal_vocabs freq GF (tb_rows _ T) (tb_cols _ T)) as (nf & cf & NF & CF).
    unfold concept_vectors. rewrite (variant_strs _ _ VO). cbn [rbind].
    destruct (concept_freq_ok freq GF C1 fc FC strs (vo_distinct _ _ VO)) as [(A & ->)|(_ & cut & EC & _)].
    - left. exists AttributeError. split; [|reflexivity]. apply nv_weights. intros v c Iv. unfold weight. specialize (A v c Iv). destruct (Z.ltb_spec fc (val freq v c)); [lia|reflexivity].
    - rewrite EC. cbn [rbind]. rewrite NF, CF. cbn [rbind].
      destruct (concept_weights_ok freq GF NN C1 TP (tb_totals _ T) nf cf NF CF fc pc lc FC strs (vo_distinct _ _ VO) cut EC) as [(A & ->)|(A & wm & -> & GW & WC & _ & WV)].
      { left. exists AttributeError. split; [|reflexivity]. now apply nv_weights. }
      cbn [rbind]. destruct (token_stage order1 perm1 variants strs VO) as [(B & ->)|(B & tok & -> & GT & TCn & TRo & TR & TV)].
      { left. exists ValueError. split; [|reflexivity]. now apply nv_tokens. }
      cbn [rbind]. destruct (vectors_stage freq GF NN C1 TP nf cf NF CF fc pc lc FC variants strs VO order2 perm2 wm tok GW WC WV GT TCn TRo TR TV B)
        as [(C & ->)|(_ & [(C & ->)|(C & [(D & ->)|(D & [(E & ->)|(E & m & -> & V)])])])].
      + left. exists AttributeError. split; [|reflexivity]. now apply nv_features.
      + left. exists AttributeError. split; [|reflexivity]. now apply nv_rows.
      + left. exists AssertionError. split; [|reflexivity]. now apply nv_own.
      + left. exists ValueError. split; [|reflexivity]. now apply nv_missing.
      + right. split; [split; assumption|]. exists m. auto.
  Qed.
End Body.
Lemma table_measures freq : table_ok freq -> measures freq (Pf freq) (Lf freq).
Proof.
  intros T. apply freq_measures; try apply T; [pose proof (tb_cols _ T); lia|now apply table_total].
Qed.
