(** * ColFreqHandler with vocabularies of any kind: which workers die and what is returned *)
From Coq Require Import NArith ZArith Bool Arith Lia Sorted Permutation List.
From Verif Require Import Base BaseLemmas VocabModel VocabProofs CorpusModel CorpusSpec CorpusProofs CorpusSegProofs CorpusColProofs CorpusMoreProofs
  ParModel ParProofs ParUseProofs MxModel MxSpec MxProofs MxTtmProofs MxOpsProofs MxMergeProofs MxMoreProofs ParColModel ParColSpec ParColProofs.
Import ListNotations.

(** ** Items that are looked up in vain *)
Lemma rmapm_keyerr {A B} (f : A -> res B) (l : list A) : (forall x, In x l -> (exists y, f x = Ok y) \/ f x = Err KeyError) ->
  (exists x, In x l /\ f x = Err KeyError) -> rmapm f l = Err KeyError.
Proof.
  induction l as [|a l IH]; intros A1 (x & I & E); [destruct I|]. cbn [rmapm]. destruct (A1 a (or_introl eq_refl)) as [[y E1]|E1]; rewrite E1; [|reflexivity].
  cbn [rbind]. rewrite IH; [reflexivity|intros z Iz; apply A1; now right|]. destruct I as [-> | I]; [congruence|eauto].
Qed.
Lemma rmapm_okerr {A B} (f : A -> res B) (l : list A) : (forall x, In x l -> (exists y, f x = Ok y) \/ f x = Err KeyError) ->
  (exists ys, rmapm f l = Ok ys) \/ rmapm f l = Err KeyError.
Proof.
  induction l as [|a l IH]; intros A1; cbn [rmapm]; [eauto|]. destruct (A1 a (or_introl eq_refl)) as [[y E1]|E1]; rewrite E1; [|auto]. cbn [rbind].
  destruct IH as [[ys E]|E]; [intros z I; apply A1; now right| |]; rewrite E; cbn; eauto.
Qed.
Lemma lookup_cases (d : dict pystr nat) k : (exists y, lookup d k = Ok y /\ In k (dkeys d)) \/ (lookup d k = Err KeyError /\ ~ In k (dkeys d)).
Proof.
  unfold lookup. destruct (dget d k) as [v|] eqn:E.
  - left. exists v. split; [reflexivity|]. eapply dget_Some_key; eauto.
  - right. split; [reflexivity|]. intros I. apply dmem_In in I. unfold dmem in I. rewrite E in I. discriminate I.
Qed.
Lemma stray_error {V} `{Num V} (d : dict pystr (dict pystr V)) rows cols t c : NoDup rows -> NoDup cols -> (exists v, dget2 d t c = Some v) -> ~ In t rows \/ ~ In c cols ->
  dict_to_sp d rows cols = Err KeyError.
Proof.
  intros NR NC [v G] O. unfold dict_to_sp. enough (dict_to_coo d rows cols = Err KeyError) as -> by reflexivity. unfold dict_to_coo.
  set (r2i := item2id rows). set (c2i := item2id cols).
  assert (KR : forall x, In x (dkeys r2i) <-> In x rows) by (intros x; rewrite <- dmem_In; unfold r2i; rewrite dmem_item2id by assumption; apply mem_In). assert (KC : forall x, In x (dkeys c2i) <-> In x cols) by (intros x; rewrite <- dmem_In; unfold c2i; rewrite dmem_item2id by assumption; apply mem_In).
  set (g := fun (k : pystr) (cv : pystr * V) => rbind (lookup r2i k) (fun i => rbind (lookup c2i (fst cv)) (fun j => Ok (i, j, snd cv)))).
  assert (Cg : forall k cv, (exists y, g k cv = Ok y) \/ g k cv = Err KeyError).
  { intros k [c' w]. unfold g. cbn [fst snd]. destruct (lookup_cases r2i k) as [(i & -> & _)|[-> _]]; [|now right]. cbn [rbind].
    destruct (lookup_cases c2i c') as [(j & -> & _)|[-> _]]; [left; eexists; reflexivity|now right]. }
  enough (rmapm (fun rv => rmapm (g (fst rv)) (isort kleb (snd rv))) (isort kleb d) = Err KeyError) as E by (change (rmap (@concat _) (rmapm (fun rv => rmapm (g (fst rv)) (isort kleb (snd rv))) (isort kleb d)) = Err KeyError); rewrite E; reflexivity).
  unfold dget2 in G. destruct (dget d t) as [row|] eqn:Gt; [|discriminate G]. apply dget_Some_In in Gt. apply dget_Some_In in G.
  apply rmapm_keyerr.
  - intros rv _. apply rmapm_okerr. intros. apply Cg.
  - exists (t, row). split; [apply isort_In; exact Gt|]. cbn [fst snd]. apply rmapm_keyerr; [intros; apply Cg|]. exists (c, v). split; [apply isort_In; exact G|].
    unfold g. cbn [fst snd]. destruct (lookup_cases r2i t) as [(i & -> & I1)|[-> _]]; [|reflexivity]. cbn [rbind].
    destruct (lookup_cases c2i c) as [(j & -> & I2)|[-> _]]; [|reflexivity]. exfalso. destruct O as [O|O]; apply O; [apply KR|apply KC]; assumption.
Qed.

Section Stray.
  Context {L M : Type} (match_line : L -> option M) (separator : L -> bool) (get_type get_colloc : M -> pystr) (rv cv : vocab) (l r : nat).
  Hypothesis WR : dwf (fd rv).
  Hypothesis WC : dwf (fd cv).
  Notation job := (cf_job match_line separator get_type get_colloc rv l r).
  Notation fin := (cf_finish rv cv).
  Notation upd := (col_update_one_file match_line separator get_type get_colloc rv l r).
  Notation nocol := (nocolvocab cv).
  Notation pairs := (corpus_pairs match_line separator get_type get_colloc rv cv l r).
  Notation met := (all_pairs match_line separator get_type get_colloc l r).
  Notation rv' := {| fd := fd rv; isdef := isdef rv; filt := true |}.
  Notation cv' := {| fd := fd cv; isdef := isdef cv; filt := true |}.

  Definition passes (t c : pystr) : bool := allowed rv t && (nocol || allowed cv c).
  Definition sinv (st : colst) : Prop :=
    dwf (c_mtx st) /\ (forall t row, In (t, row) (c_mtx st) -> dwf row /\ row <> []) /\
    (forall t c v, dget2 (c_mtx st) t c = Some v -> (0 < v)%Z) /\
    (if nocol then filt (c_col st) = false /\ dwf (fd (c_col st)) /\ forall c, In c (dkeys (fd (c_col st))) <-> exists t, (0 < cell (c_mtx st) t c)%Z
     else if filt cv then c_col st = cv else filt (c_col st) = false).
  Lemma sinv_init : sinv (cf_init cv).
  Proof.
    unfold cf_init, sinv. cbn [c_mtx c_col]. split; [apply dwf_nil|]. split; [contradiction|]. split; [cbn; discriminate|].
    destruct nocol.
    - split; [reflexivity|]. split; [apply dwf_nil|]. intros c. cbn. split; [contradiction|]. intros [t H]. unfold cell in H. cbn in H. lia.
    - destruct (filt cv) eqn:F; auto.
  Qed.
  Lemma bump_rows (m : mtxdict) t c : dwf m -> (forall t row, In (t, row) m -> dwf row /\ row <> []) ->
    dwf (bump m t c) /\ forall t' row, In (t', row) (bump m t c) -> dwf row /\ row <> [].
  Proof.
    intros W R. unfold bump. set (row := match dget m t with Some r => r | None => [] end).
    assert (Wr : dwf row). { unfold row. destruct (dget m t) eqn:E; [|apply dwf_nil]. apply dget_Some_In in E. apply R in E. apply E. }
    assert (W' : dwf (dset m t (dset row c (match dget row c with Some n => n | None => 0 end + 1)%Z))) by now apply dwf_dset.
    split; [exact W'|]. intros t' row' I. apply (proj1 (dget_In _ _ _ W')) in I. destruct (eqdec t' t) as [-> | N].
    - rewrite dget_dset_same in I. injection I as <-. split; [now apply dwf_dset|]. intros E. assert (K : In c (dkeys (dset row c (match dget row c with Some n => n | None => 0 end + 1)%Z))) by (apply dkeys_dset_In; now left).
      rewrite E in K. destruct K.
    - rewrite dget_dset_other in I by exact N. apply dget_Some_In in I. eapply R; eauto.
  Qed.
  Lemma cell_pos st t c : sinv st -> (0 < cell (c_mtx st) t c)%Z <-> exists v, dget2 (c_mtx st) t c = Some v.
  Proof.
    intros (_ & _ & P & _). rewrite cell_dget2. unfold oz. destruct (dget2 _ t c) as [v|] eqn:E; cbn.
    - split; [intros _; eauto|]. intros _. exact (P _ _ _ E).
    - split; [lia|]. intros [v H]. discriminate H.
  Qed.
  Lemma slot_sinv st t x : allowed rv t = true -> sinv st -> sinv (col_slot (M:=M) get_colloc t st x).
  Proof.
    intros _ I. pose proof I as (W & R & P & N). destruct x as [[m li]|]; [|exact I]. cbn [col_slot]. set (c := get_colloc m).
    destruct (bump_rows (c_mtx st) t c W R) as [W1 R1]. pose proof (bump_pos (c_mtx st) t c P) as P1.
    destruct (filt (c_col st)) eqn:F; cbn [negb].
    - destruct (v_contains (c_col st) c); [|exact I]. unfold sinv. cbn [c_mtx c_col]. split; [exact W1|]. split; [exact R1|]. split; [exact P1|].
      rewrite F. destruct nocol; [destruct N; congruence|exact N].
    - unfold sinv. cbn [c_mtx c_col]. split; [exact W1|]. split; [exact R1|]. split; [exact P1|]. destruct nocol.
      + destruct N as (_ & D & K). split; [exact F|]. split; [unfold v_incr; cbn [fd]; destruct (dget (fd (c_col st)) c); now apply dwf_dset|].
        assert (K' : forall x, In x (dkeys (fd (v_incr (c_col st) c 1))) <-> x = c \/ In x (dkeys (fd (c_col st)))).
        { intros x. unfold v_incr. cbn [fd]. destruct (dget (fd (c_col st)) c); apply dkeys_dset_In. }
        assert (C0 : forall t' c', (0 <= cell (c_mtx st) t' c')%Z). { intros. rewrite cell_dget2. unfold oz. destruct (dget2 _ t' c') eqn:E; cbn; [apply P in E|]; lia. }
        intros x. rewrite K', K. split.
        * intros [-> | [t' H]]; [exists t; rewrite cell_bump, !eqb_refl; cbn [andb]; pose proof (C0 t c); lia|exists t'; rewrite cell_bump; destruct (_ && _); lia].
        * intros [t' H]. rewrite cell_bump in H. destruct (eqb t t' && eqb c x) eqn:E; [left|right; exists t'; lia].
          apply andb_true_iff in E as [_ E]. unfold eqb in E. destruct (eqdec c x); [now symmetry|discriminate E].
      + destruct (filt cv) eqn:Fc; [rewrite N in F; congruence|exact F].
  Qed.
  Lemma file_sinv lines st : sinv st -> exists st', upd lines st = Ok st' /\ sinv st' /\
    forall t c, cell (c_mtx st') t c = (cell (c_mtx st) t c + if passes t c then met [lines] t c else 0)%Z.
  Proof.
    intros I. destruct (counts_exact match_line separator get_type get_colloc rv l r lines st) as (st' & E & C). exists st'. split; [exact E|]. split.
    - eapply (file_kept match_line separator get_type get_colloc rv sinv); eauto. intros. now apply slot_sinv.
    - intros t c. rewrite C. assert (A : allowed (c_col st) c = nocol || allowed cv c).
      { destruct I as (_ & _ & _ & N). destruct nocol; [destruct N as [F _]; unfold allowed; now rewrite F|]. cbn [orb].
        destruct (filt cv) eqn:Fc; [now rewrite N|]. unfold allowed. now rewrite N, Fc. }
      rewrite A. unfold passes. destruct (allowed rv t && _); [|reflexivity]. unfold all_pairs. cbn [map sumZ]. lia.
  Qed.
  Lemma met_app a b t c : met (a ++ b) t c = (met a t c + met b t c)%Z.
  Proof. unfold all_pairs. now rewrite map_app, sumZ_app. Qed.
  Lemma met_nonneg cs t c : (0 <= met cs t c)%Z.
  Proof. unfold all_pairs. induction cs as [|x cs IH]; cbn [map sumZ]; lia. Qed.
  Lemma wexec_sinv : forall cs s, sinv s -> exists s', wexec job s (map Ok cs) = Ok (s', []) /\ sinv s' /\
    forall t c, cell (c_mtx s') t c = (cell (c_mtx s) t c + if passes t c then met cs t c else 0)%Z.
  Proof.
    induction cs as [|x cs IH]; intros s I; cbn [map wexec].
    - exists s. split; [auto|]. split; [auto|]. intros. unfold all_pairs. cbn. destruct (passes t c); lia.
    - destruct (file_sinv x s I) as (s1 & E1 & I1 & C1). unfold cf_job at 1. cbn [rbind]. rewrite E1. cbn [rmap rbind fst snd].
      destruct (IH s1 I1) as (s' & E2 & I2 & C2). exists s'. rewrite E2. split; [reflexivity|]. split; [auto|].
      intros. rewrite C2, C1. change (x :: cs) with ([x] ++ cs). rewrite met_app. destruct (passes t c); lia.
  Qed.

  (** ** The matrix of a worker *)
  Notation W t c := (wanted rv cv t c).
  Lemma item_keys v x : In x (v_item_list v) <-> In x (dkeys (fd v)).
  Proof. apply isort_In. Qed.
  Lemma item_nodup v : dwf (fd v) -> NoDup (v_item_list v).
  Proof. intros. eapply Permutation_NoDup; [apply isort_perm|assumption]. Qed.
  Lemma fin_stray st t c : sinv st -> (0 < cell (c_mtx st) t c)%Z -> W t c = false -> fin st = Err KeyError.
  Proof.
    intros I H N. pose proof (proj1 (cell_pos st t c I) H) as G. unfold cf_finish.
    assert (CV : (0 <? count_values (c_mtx st)) = true). { apply count_values_pos; [apply I|]. destruct G as [v G]. eauto. }
    rewrite CV. rewrite (stray_error (c_mtx st) (v_item_list rv) (cf_cols cv st) t c); [reflexivity| | |exact G|].
    - now apply item_nodup.
    - unfold cf_cols. destruct nocol eqn:E; [|now apply item_nodup]. apply item_nodup. destruct I as (_ & _ & _ & K). rewrite E in K. apply K.
    - unfold wanted in N. apply andb_false_iff in N as [N|N].
      + left. intros J. apply item_keys, dmem_In in J. congruence.
      + right. apply orb_false_iff in N as [N1 N2]. unfold cf_cols. change (nocolvocab cv) with (any_column cv). rewrite N1. intros J. apply item_keys, dmem_In in J. congruence.
  Qed.
  Lemma fc' : nocolvocab cv' = true \/ (filt cv' = true /\ dwf (fd cv')).
  Proof. right. split; [reflexivity|exact WC]. Qed.
  Lemma fin_clean st : sinv st -> (forall t c, (0 < cell (c_mtx st) t c)%Z -> W t c = true) ->
    exists o, fin st = Ok o /\ item_ok rv' cv' (match o with Some x => x | None => None end) (cell (c_mtx st)).
  Proof.
    intros I A. set (s := ColSt (c_mtx st) (if nocol then c_col st else cv')).
    assert (E : fin st = cf_finish rv' cv' s).
    { unfold cf_finish. change (c_mtx s) with (c_mtx st). change (v_item_list rv') with (v_item_list rv). change (nocolvocab cv') with nocol.
      assert (CC : cf_cols cv st = cf_cols cv' s). { unfold cf_cols. change (nocolvocab cv') with nocol. unfold s. cbn [c_col]. destruct nocol; reflexivity. }
      rewrite CC. reflexivity. }
    rewrite E. apply (fin_ok rv' cv' WR fc' s). pose proof I as (W0 & R & P & N).
    unfold cinv. change (nocolvocab cv') with nocol. change (c_mtx s) with (c_mtx st). split; [|split; [exact P|split]].
    - split; [exact W0|]. intros t row J. destruct (R t row J) as [Wr Nr].
      assert (G : forall c, In c (dkeys row) -> W t c = true /\ (0 < cell (c_mtx st) t c)%Z).
      { intros c Ic. assert (H : (0 < cell (c_mtx st) t c)%Z); [|split; [now apply A|exact H]]. apply (cell_pos st t c I). unfold dget2.
        apply (proj1 (dget_In _ _ _ W0)) in J. rewrite J. destruct (dget row c) eqn:D; [eauto|]. apply dmem_In in Ic. unfold dmem in Ic. rewrite D in Ic. discriminate Ic. }
      split; [|split; [exact Wr|]].
      + destruct row as [|[c v] row]; [destruct (Nr eq_refl)|]. destruct (G c) as [H _]; [now left|]. unfold wanted in H. apply andb_true_iff in H as [H _]. apply dmem_In. exact H.
      + intros c Ic. destruct (G c Ic) as [H1 H2]. unfold s. cbn [c_col]. unfold wanted in H1. apply andb_true_iff in H1 as [_ H1]. change (any_column cv) with nocol in H1.
        destruct nocol; [apply N; eauto|]. cbn [orb] in H1. apply dmem_In. exact H1.
    - unfold s. cbn [c_col]. destruct nocol; [apply N|exact WC].
    - unfold s. cbn [c_col]. destruct nocol; [|reflexivity]. split; [apply N|]. intros c J. apply N. exact J.
  Qed.

  (** ** The pool *)
  Definition stray (cs : list (list L)) : Prop := exists t c, passes t c = true /\ W t c = false /\ (0 < met cs t c)%Z.
  Lemma clean_pairs cs : ~ stray cs -> forall t c, (if passes t c then met cs t c else 0)%Z = pairs cs t c.
  Proof.
    intros N t c. assert (PW : W t c = true -> passes t c = true).
    { unfold wanted, passes, allowed. intros H. apply andb_true_iff in H as [H1 H2]. change (any_column cv) with nocol in H2. apply andb_true_iff. split.
      - destruct (filt rv); [exact H1|reflexivity].
      - destruct nocol; [reflexivity|]. cbn [orb] in *. destruct (filt cv); [exact H2|reflexivity]. }
    assert (E : pairs cs t c = if W t c then met cs t c else 0%Z).
    { unfold corpus_pairs, file_pairs, all_pairs. destruct (W t c); [reflexivity|]. clear. induction cs as [|x cs IH]; [reflexivity|]. cbn [map sumZ]. lia. }
    rewrite E. destruct (W t c) eqn:Q; [now rewrite PW|]. destruct (passes t c) eqn:Pp; [|reflexivity].
    destruct (Z.eq_dec (met cs t c) 0) as [Z0|Z0]; [exact Z0|]. exfalso. apply N. exists t, c. pose proof (met_nonneg cs t c). repeat split; auto; lia.
  Qed.
  Lemma wexec_out s o h : wexec job (cf_init cv) h = Ok (s, o) -> o = [] /\ exists cs, h = map Ok cs /\ sinv s /\
    forall t c, cell (c_mtx s) t c = (if passes t c then met cs t c else 0)%Z.
  Proof.
    intros E. destruct (wexec_files match_line separator get_type get_colloc rv l r _ _ _ _ E) as (cs & ->).
    destruct (wexec_sinv cs (cf_init cv) sinv_init) as (s' & E' & I & T). rewrite E in E'. injection E' as -> ->. split; [reflexivity|]. exists cs. split; [auto|]. split; [exact I|].
    intros t c. rewrite T. reflexivity.
  Qed.
  Definition fate (w : wstate colst (option (ttm Z))) (x : list (res (list L)) * list (list L)) : Prop :=
    match w with
    | WExit => fst x = map Ok (snd x) /\ ~ stray (snd x)
    | _ => snd x = [] /\ ((exists e, In (Err e) (fst x)) \/ exists cs, fst x = map Ok cs /\ stray cs)
    end.
  Lemma pool_fates n files sched st : run job fin (cf_start cv n files) sched = Some st -> joined st = true ->
    exists css o, cf_result st = Ok o /\ holds_counts rv cv o (pairs (concat css)) /\
      Forall2 fate (workers st) (combine (shares (cf_init cv) job fin n files sched) css) /\ length css = n.
  Proof.
    intros E Jn. destruct (reach (cf_init cv) job fin n files _ _ E) as (hp & js & k & HS & F & Q & P1 & P2 & N & B).
    assert (LH : length hp = n) by (rewrite <- (map_length fst), HS; unfold shares; now rewrite map_length, seq_length).
    unfold joined in Jn. destruct (todo st); [|discriminate]. clear Q B N P1.
    assert (X : exists css (xs : list (option (ttm Z) * (pystr -> pystr -> Z))), concat (map snd hp) = map fst xs /\ length css = length hp /\
      Forall (fun x => item_ok rv' cv' (fst x) (snd x) /\ nonneg (snd x)) xs /\
      (forall t c, sumZ (map (fun x => snd x t c) xs) = pairs (concat css) t c) /\
      Forall2 fate (workers st) (combine (map fst hp) css)).
    { clear - F Jn WR WC. revert F Jn. generalize (workers st) as ws. induction hp as [|[h p] hp IH]; intros ws F Jn; inversion F as [|w ? ws' ? O F']; subst.
      - exists [], []. split; [reflexivity|]. split; [reflexivity|]. split; [constructor|]. split; [reflexivity|constructor].
      - cbn in Jn. apply andb_true_iff in Jn as [G1 G2]. destruct (IH ws' F' G2) as (css & xs & A & LC & Bx & C & D). cbn [fst snd map concat] in *.
        assert (DEAD : p = [] -> ((exists e, In (Err e) h) \/ exists cs, h = map Ok cs /\ stray cs) -> w = WDead -> exists css0 (xs0 : list (option (ttm Z) * (pystr -> pystr -> Z))),
          p ++ concat (map snd hp) = map fst xs0 /\ length css0 = Datatypes.S (length hp) /\ Forall (fun x => item_ok rv' cv' (fst x) (snd x) /\ nonneg (snd x)) xs0 /\
          (forall t c, sumZ (map (fun x => snd x t c) xs0) = pairs (concat css0) t c) /\ Forall2 fate (w :: ws') (combine (h :: map fst hp) css0)).
        { intros -> He ->. exists ([] :: css), xs. split; [exact A|]. split; [cbn; congruence|]. split; [exact Bx|]. split; [exact C|]. cbn [combine].
          constructor; [|exact D]. cbn [fate fst snd]. split; [reflexivity|exact He]. }
        assert (PA : forall a b t c, pairs (a ++ b) t c = (pairs a t c + pairs b t c)%Z) by (intros; unfold corpus_pairs; now rewrite map_app, sumZ_app).
        inversion O as [| |s f h' o p' E1 E2 E3|s h' j e p' E1 E2|s h' e p' E1 E2]; subst; try discriminate.
        + destruct (wexec_out _ _ _ E1) as (-> & cs & -> & I & T).
          assert (NS : ~ stray cs). { intros (t & c & S1 & S2 & S3). assert (Hc : (0 < cell (c_mtx s) t c)%Z) by (rewrite T, S1; exact S3). rewrite (fin_stray s t c I Hc S2) in E2. discriminate E2. }
          destruct (fin_clean s I) as (f' & E4 & O4).
          { intros t c H. destruct (W t c) eqn:Q; [reflexivity|]. rewrite T in H. destruct (passes t c) eqn:Pp; [|lia]. exfalso. apply NS. exists t, c. auto. }
          rewrite E2 in E4. injection E4 as <-.
          assert (O' : item_ok rv' cv' (match f with Some x => x | None => None end) (pairs cs)).
          { eapply item_ext; [exact fc'| |exact O4]. intros t c. rewrite T. now apply clean_pairs. }
          assert (NN : nonneg (pairs cs)). { intros t c. rewrite <- (clean_pairs cs NS). destruct (passes t c); [apply met_nonneg|lia]. }
          destruct f as [x|]; cbn [olist app].
          * exists (cs :: css), ((x, pairs cs) :: xs). cbn [map fst snd combine concat sumZ]. split; [now rewrite A|].
            split; [cbn; congruence|]. split; [constructor; [split; [exact O'|exact NN]|exact Bx]|].
            split; [intros t c; rewrite PA, <- C; reflexivity|]. constructor; [|exact D]. split; [reflexivity|exact NS].
          * exists (cs :: css), xs. cbn [combine concat]. split; [exact A|]. split; [cbn; congruence|]. split; [exact Bx|].
            split; [intros t c; rewrite PA, <- C; cbn in O'; now rewrite O'|]. constructor; [|exact D]. split; [reflexivity|exact NS].
        + destruct (wexec_out _ _ _ E1) as (-> & cs & -> & I & T). apply DEAD; auto. left. destruct j as [x|e']; [|exists e'; apply in_or_app; cbn; auto].
          exfalso. destruct (file_sinv x s I) as (s' & E' & _). unfold cf_job in E2. cbn [rbind] in E2. rewrite E' in E2. discriminate.
        + destruct (wexec_out _ _ _ E1) as (-> & cs & -> & I & T). apply DEAD; auto. right. exists cs. split; [reflexivity|].
          assert (DS : stray cs \/ ~ stray cs).
          { destruct (existsb (fun tr => existsb (fun c => negb (W (fst tr) (fst c))) (snd tr)) (c_mtx s)) eqn:Eb.
            - left. apply existsb_exists in Eb as ([t row] & J & Eb). cbn [fst snd] in Eb. apply existsb_exists in Eb as ([c v] & Jc & Eb). cbn [fst] in Eb.
              exists t, c. assert (H : (0 < cell (c_mtx s) t c)%Z).
              { apply (cell_pos s t c I). destruct I as (W0 & R & _). unfold dget2. pose proof (proj1 (dget_In _ _ _ W0) J) as ->. destruct (R _ _ J) as [Wr _].
                pose proof (proj1 (dget_In _ _ _ Wr) Jc) as ->. eauto. }
              rewrite T in H. destruct (passes t c) eqn:Pp; [|lia]. destruct (W t c); [discriminate Eb|]. auto.
            - right. intros (t & c & S1 & S2 & S3). assert (H : (0 < cell (c_mtx s) t c)%Z) by (rewrite T, S1; exact S3). apply (cell_pos s t c I) in H. destruct H as [v H].
              unfold dget2 in H. destruct (dget (c_mtx s) t) as [row|] eqn:Gt; [|discriminate H]. apply dget_Some_In in Gt. apply dget_Some_In in H.
              assert (Y : existsb (fun tr => existsb (fun c => negb (W (fst tr) (fst c))) (snd tr)) (c_mtx s) = true).
              { apply existsb_exists. exists (t, row). split; [exact Gt|]. cbn [fst snd]. apply existsb_exists. exists (c, v). split; [exact H|]. cbn [fst]. now rewrite S2. }
              congruence. }
          destruct DS as [DS|DS]; [exact DS|]. exfalso. destruct (fin_clean s I) as (f' & E4 & _); [|congruence].
          intros t c H. destruct (W t c) eqn:Q; [reflexivity|]. rewrite T in H. destruct (passes t c) eqn:Pp; [|lia]. exfalso. apply DS. exists t, c. auto. }
    destruct X as (css & xs & A & LC & Bx & C & D). rewrite A in P2. apply Permutation_map_inv in P2 as (ys & Ey & Py).
    destruct (merge_all rv' cv' fc' ys None (fun _ _ => 0%Z)) as (o & Eo & O).
    - intros t c. reflexivity.
    - intros t c. lia.
    - eapply Permutation_Forall; [|exact Bx]. exact Py.
    - exists css, o. unfold cf_result. rewrite Ey. split; [exact Eo|]. split; [|rewrite <- HS; split; [exact D|congruence]].
      change (holds_counts rv' cv' o (pairs (concat css))).
      eapply (holds_ext rv' cv' fc'); [|apply (holds_item rv' cv' WR fc'); exact O]. intros t c. cbn beta.
      rewrite <- (sumZ_perm _ _ (Permutation_map (fun x : option (ttm Z) * (pystr -> pystr -> Z) => snd x t c) Py)), C. rewrite Z.add_0_l. reflexivity.
  Qed.

  (** ** Files that can all be read *)
  Lemma met_perm a b t c : Permutation a b -> met a t c = met b t c.
  Proof. intros P. unfold all_pairs. apply sumZ_perm, Permutation_map, P. Qed.
  Lemma stray_more a b c : Permutation (a ++ b) c -> stray a -> stray c.
  Proof. intros P (t & k & S1 & S2 & S3). exists t, k. split; [exact S1|]. split; [exact S2|]. rewrite <- (met_perm _ _ t k P), met_app. pose proof (met_nonneg b t k). lia. Qed.
  Lemma share_of (hs : list (list (res (list L)))) js contents h cs : Permutation (concat hs ++ js) (map Ok contents) -> In h hs -> h = map Ok cs ->
    exists rest, Permutation (cs ++ rest) contents.
  Proof.
    intros P I ->. apply in_split in I as (h1 & h2 & ->). rewrite concat_app in P. cbn [concat] in P.
    assert (P' : Permutation (map Ok contents) (map Ok cs ++ (concat h1 ++ concat h2 ++ js))).
    { rewrite <- P. rewrite <- !app_assoc. rewrite !(app_assoc (concat h1)). rewrite !(app_assoc (map Ok cs)). rewrite <- !app_assoc.
      rewrite (app_assoc (concat h1)). rewrite (app_assoc (map Ok cs)). apply Permutation_app_tail. apply Permutation_app_comm. }
    symmetry in P'. apply Permutation_map_inv in P'. destruct P' as (c' & E & P'). symmetry in E. apply map_eq_app in E. destruct E as (a & b & -> & Ea & Eb).
    apply map_Ok_inj in Ea. subst a. exists b. now symmetry.
  Qed.
  Lemma pool_clean n contents sched st : 1 <= n -> run job fin (cf_start cv n (map Ok contents)) sched = Some st -> joined st = true ->
    ((forall w, In w (workers st) -> w = WExit) <-> ~ stray contents) /\
    (forall w, In w (workers st) -> w <> WExit -> stray contents) /\
    (~ stray contents -> exists o, cf_result st = Ok o /\ holds_counts rv cv o (pairs contents)).
  Proof.
    intros N E Jn. destruct (pool_fates n (map Ok contents) sched st E Jn) as (css & o & R & H & F & LC).
    destruct (reach (cf_init cv) job fin n (map Ok contents) _ _ E) as (hp & js & k & HS & _ & _ & P1 & _). rewrite HS in P1.
    set (hs := shares (cf_init cv) job fin n (map Ok contents) sched) in *.
    assert (LH : length hs = length css) by (unfold hs, shares; now rewrite map_length, seq_length).
    pose proof (run_workers job fin _ _ _ E) as LW. unfold cf_start in LW. cbn [start workers] in LW. rewrite repeat_length in LW.
    assert (Gone : forall w, In w (workers st) -> gone w = true).
    { unfold joined in Jn. destruct (todo st); [|discriminate Jn]. rewrite forallb_forall in Jn. exact Jn. }
    assert (In2 : forall w, In w (workers st) -> exists x, fate w x /\ In (fst x) hs).
    { clear - F LH. intros w I. revert F LH I. generalize (workers st) as ws. revert css. generalize hs as hs0. induction hs0 as [|h hs0 IH]; intros css ws F LH I.
      - cbn in F. inversion F; subst. destruct I.
      - destruct css as [|cs css]; [discriminate LH|]. cbn [combine] in F. inversion F as [|w0 x ws' xs F1 F2]; subst. destruct I as [<- | I].
        + exists (h, cs). split; [exact F1|now left].
        + destruct (IH css ws' F2) as (x & A & B); [now injection LH|exact I|]. exists x. split; [exact A|now right]. }
    assert (Dead : forall w, In w (workers st) -> w = WExit \/ stray contents).
    { intros w I. destruct (In2 w I) as (x & Fw & Ih). pose proof (Gone w I) as Gw. destruct w; try discriminate Gw; [now left|]. right.
      destruct Fw as [_ [[e He]|(cs & Ec & Sc)]].
      - assert (J : In (Err e) (map Ok contents)). { eapply Permutation_in; [exact P1|]. apply in_or_app. left. apply in_concat. exists (fst x). auto. }
        apply in_map_iff in J as (y & J & _). discriminate J.
      - destruct (share_of hs js contents _ cs P1 Ih Ec) as (rest & Pr). eapply stray_more; eauto. }
    assert (Live : ~ stray contents -> forall w, In w (workers st) -> w = WExit) by (intros NS w I; destruct (Dead w I); [assumption|contradiction]).
    assert (All : (forall w, In w (workers st) -> w = WExit) -> Permutation (concat css) contents /\ forall cs, In cs css -> ~ stray cs).
    { intros A. assert (Pf : Permutation (concat hs) (map Ok contents)).
      { destruct (finished (cf_init cv) job fin n (map Ok contents) sched st E Jn) as (ps & _ & _ & Pf & _); [|exact Pf].
        destruct (workers st) as [|w ws]; [cbn in LW; lia|]. exists w. split; [now left|]. rewrite (A w) by now left. reflexivity. }
      assert (Eh : hs = map (map Ok) css /\ forall cs, In cs css -> ~ stray cs).
      { clear - F LH A. revert css F LH A. generalize (workers st) as ws. generalize hs as hs0. induction hs0 as [|h hs0 IH]; intros ws css F LH A.
        - destruct css; [|discriminate LH]. split; [reflexivity|intros cs []].
        - destruct css as [|cs css]; [discriminate LH|]. cbn [combine] in F. inversion F as [|w x ws' xs F1 F2]; subst. rewrite (A w) in F1 by now left. destruct F1 as [F1 F3]. cbn [fst snd] in *.
          destruct (IH ws' css F2) as [B1 B2]; [now injection LH|intros w' I'; apply A; now right|]. split; [cbn [map]; congruence|]. intros cs' [<- | I']; auto. }
      destruct Eh as [Eh NS]. split; [|exact NS]. rewrite Eh, <- concat_map in Pf. symmetry in Pf. apply Permutation_map_inv in Pf. destruct Pf as (c' & E1 & PC).
      apply map_Ok_inj in E1. subst. now symmetry. }
    split; [split; [|exact Live]|split; [intros w I D; destruct (Dead w I); [contradiction|assumption]|]].
    - intros A. destruct (All A) as [Pc NS]. intros (t & c & S1 & S2 & S3). rewrite <- (met_perm _ _ t c Pc) in S3.
      assert (Z0 : met (concat css) t c = 0%Z).
      { clear - NS S1 S2. induction css as [|cs css IH]; [reflexivity|]. cbn [concat]. rewrite met_app, IH by (intros cs' I; apply NS; now right).
        destruct (Z.eq_dec (met cs t c) 0) as [Z0|Z0]; [lia|]. exfalso. apply (NS cs (or_introl eq_refl)). exists t, c. pose proof (met_nonneg cs t c). repeat split; auto; lia. }
      lia.
    - intros NS. destruct (All (Live NS)) as [Pc _]. exists o. split; [exact R|]. eapply (holds_ext rv' cv' fc'); [|exact H]. intros t c. unfold corpus_pairs. apply sumZ_perm, Permutation_map, Pc.
  Qed.
End Stray.
