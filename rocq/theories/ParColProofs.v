(** * The pool counting co-occurrences. *)
From Coq Require Import NArith ZArith Bool Arith Lia Permutation Sorted List.
From Verif Require Import Base BaseLemmas VocabModel VocabProofs CorpusModel CorpusSpec CorpusProofs CorpusSegProofs CorpusColProofs CorpusMoreProofs
  ParModel ParProofs ParUseProofs MxModel MxSpec MxProofs MxTtmProofs MxOpsProofs MxMergeProofs MxMoreProofs ParColModel.
Import ListNotations.

(** ** Pools whose workers keep an invariant *)
Section CompleteInv.
  Context {J S R : Type} (s0 : S) (job : S -> J -> res (S * option R)) (finish : S -> res (option R)).
  Variable P : S -> Prop.
  Variable files : list J.
  Hypothesis P0 : P s0.
  Hypothesis Pjob : forall s j, P s -> In j files -> exists s' o, job s j = Ok (s', o) /\ P s'.
  Hypothesis Pfin : forall s, P s -> exists o, finish s = Ok o.

  Lemma wexec_inv : forall js s s' o, P s -> incl js files -> wexec job s js = Ok (s', o) -> P s'.
  Proof.
    induction js as [|j js IH]; intros s s' o Ps I E; cbn in E; [injection E as <- <-; auto|].
    destruct (Pjob s j Ps) as (s1 & o1 & E1 & P1); [apply I; cbn; auto|]. rewrite E1 in E. cbn in E.
    destruct (wexec job s1 js) as [[s2 o2]|] eqn:E2; cbn in E; [|discriminate]. injection E as <- <-.
    eapply IH; eauto. intros x Ix. apply I. cbn; auto.
  Qed.
  Lemma no_death_inv n sched st : run job finish (start s0 n files) sched = Some st -> forall w, In w (workers st) -> alive_ok w = true.
  Proof.
    intros E w Iw. destruct (reach s0 job finish n files _ _ E) as (hp & js & k & HS & F & Q & P1 & P2 & N & B).
    assert (D : exists x, In x hp /\ wok s0 job finish w (fst x) (snd x)).
    { clear - F Iw. induction F; [destruct Iw|]. destruct Iw as [<-|I]; [exists y; cbn; auto|].
      destruct (IHF I) as (x' & ? & ?). exists x'. cbn; auto. }
    destruct D as ([h p] & Ih & O). cbn [fst snd] in O.
    assert (IN : incl h files).
    { intros x Ix. eapply Permutation_in; [exact P1|]. apply in_or_app. left. apply in_concat. exists h. split; auto.
      apply in_map_iff. exists (h, p). auto. }
    inversion O; subst; auto; exfalso.
    - assert (Ps : P s) by (eapply wexec_inv; [exact P0| |eassumption]; intros x Ix; apply IN, in_or_app; auto).
      destruct (Pjob s j Ps) as (s' & o' & E' & _); [apply IN, in_or_app; cbn; auto|congruence].
    - assert (Ps : P s) by (eapply wexec_inv; [exact P0| |eassumption]; auto). destruct (Pfin s Ps). congruence.
  Qed.
  Lemma complete_inv n sched st : 1 <= n -> run job finish (start s0 n files) sched = Some st -> joined st = true ->
    exists ps, Forall2 (fun h p => exists s o f, wexec job s0 h = Ok (s, o) /\ finish s = Ok f /\ p = o ++ olist f)
                 (shares s0 job finish n files sched) ps /\
      Permutation (concat (shares s0 job finish n files sched)) files /\ Permutation (results st) (concat ps).
  Proof.
    intros N E Jn. pose proof (no_death_inv n sched st E) as ND.
    pose proof (run_workers job finish _ _ _ E) as LW. cbn [start workers] in LW. rewrite repeat_length in LW.
    destruct (finished s0 job finish n files sched st E Jn) as (ps & F & L & P1 & P2).
    { destruct (workers st) as [|w ws] eqn:W; [cbn in LW; lia|]. exists w. split; [cbn; auto|apply ND; cbn; auto]. }
    exists ps. repeat split; auto. unfold joined in Jn. destruct (todo st); [|discriminate].
    assert (LS : length (shares s0 job finish n files sched) = length ps).
    { unfold shares. rewrite map_length, seq_length. auto. }
    clear P1 P2 LW. revert F ND Jn LS. generalize (shares s0 job finish n files sched) as hs. generalize (workers st) as ws. clear.
    intros ws hs. revert ws ps. induction hs as [|h hs IH]; intros ws [|p ps] F ND G LS; cbn in LS; try lia; [constructor|].
    cbn [combine] in F. inversion F as [|w ? ws' ? O F']; subst. cbn [fst snd] in O. cbn in G. apply andb_true_iff in G.
    destruct G as [G1 G2]. assert (A : alive_ok w = true) by (apply ND; cbn; auto).
    constructor; [|eapply IH; eauto; [intros; apply ND; cbn; auto]]. inversion O; subst; try discriminate. eauto 6.
  Qed.
End CompleteInv.

(** ** Every property that one match keeps is kept by a file *)
Section Kept.
  Context {L M : Type} (match_line : L -> option M) (separator : L -> bool) (get_type get_colloc : M -> pystr) (rv : vocab).
  Variable P : colst -> Prop.
  Hypothesis Pslot : forall st t x, allowed rv t = true -> P st -> P (col_slot (M:=M) get_colloc t st x).

  Lemma slots_kept t slots : allowed rv t = true -> forall st, P st -> P (fold_left (col_slot get_colloc t) slots st).
  Proof. intros A. induction slots; cbn; auto. Qed.
  Lemma match_kept st w : P st -> P (col_match get_type get_colloc rv st w).
  Proof.
    intros H. unfold col_match. destruct (node w) as [[m li]|]; auto.
    change (if filt rv then v_contains rv (get_type m) else true) with (allowed rv (get_type m)).
    destruct (allowed rv (get_type m)) eqn:A; auto. now repeat apply slots_kept.
  Qed.
  Lemma focs_kept l r xs is : forall st, P st -> P (fold_left (foc (col_match get_type get_colloc rv) l r xs) is st).
  Proof. induction is; cbn; auto. intros. apply IHis. now apply match_kept. Qed.
  Lemma segs_kept l r segs : forall st st', P st ->
    rfold (seg_res (col_match get_type get_colloc rv) (col_flush_res get_type get_colloc rv) l r) segs st = Ok st' -> P st'.
  Proof.
    induction segs as [|xs segs IH]; intros st st' H E; cbn [rfold] in E; [injection E as <-; auto|].
    rewrite col_seg in E. cbn [rbind] in E. eapply IH; [|exact E]. now apply focs_kept.
  Qed.
  Lemma file_kept l r lines st st' : P st ->
    col_update_one_file match_line separator get_type get_colloc rv l r lines st = Ok st' -> P st'.
  Proof. unfold col_update_one_file. rewrite update_one_file_segments. apply segs_kept. Qed.
End Kept.

(** ** The nested dict *)
Lemma cell_dget2 (m : mtxdict) t c : cell m t c = oz (dget2 m t c).
Proof. unfold cell, oz, dget2. destruct (dget m t) as [row|]; auto. Qed.
Lemma bump_dput (m : mtxdict) t c : bump m t c = dput m t c (match dget2 m t c with Some n => n | None => 0 end + 1)%Z.
Proof. unfold bump, dput, dget2. destruct (dget m t); auto. Qed.

Section ColPool.
  Context {L M : Type} (match_line : L -> option M) (separator : L -> bool) (get_type get_colloc : M -> pystr) (rv cv : vocab) (l r : nat).
  Hypothesis FR : filt rv = true.
  Hypothesis WR : dwf (fd rv).
  Hypothesis FC : nocolvocab cv = true \/ (filt cv = true /\ dwf (fd cv)).
  Notation job := (cf_job match_line separator get_type get_colloc rv l r).
  Notation fin := (cf_finish rv cv).
  Notation upd := (col_update_one_file match_line separator get_type get_colloc rv l r).
  Notation nocol := (nocolvocab cv).

  Definition cinv (st : colst) : Prop :=
    mxwf (c_mtx st) (dkeys (fd rv)) (dkeys (fd (c_col st))) /\
    (forall t c v, dget2 (c_mtx st) t c = Some v -> (0 < v)%Z) /\
    dwf (fd (c_col st)) /\
    (if nocol then filt (c_col st) = false /\ forall c, In c (dkeys (fd (c_col st))) -> exists t, (0 < cell (c_mtx st) t c)%Z
     else c_col st = cv).

  Lemma cinv_init : cinv (cf_init cv).
  Proof.
    unfold cf_init, cinv. cbn [c_mtx c_col]. split; [|split; [|split]].
    - split; [apply dwf_nil|contradiction].
    - cbn. discriminate.
    - destruct nocol eqn:N; [apply dwf_nil|]. destruct FC as [E|[_ W]]; [congruence|exact W].
    - destruct nocol; [|reflexivity]. split; [reflexivity|contradiction].
  Qed.
  Lemma bump_wf (m : mtxdict) t c R C C' : mxwf m R C -> In t R -> incl C C' -> In c C' -> mxwf (bump m t c) R C'.
  Proof.
    intros W It I Ic. rewrite bump_dput. apply (fold_dput_wf [((t, c), _)]); [|constructor; [cbn; auto|constructor]].
    eapply mxwf_incl; eauto. apply incl_refl.
  Qed.
  Lemma bump_pos (m : mtxdict) t c : (forall t c v, dget2 m t c = Some v -> (0 < v)%Z) -> forall t' c' v, dget2 (bump m t c) t' c' = Some v -> (0 < v)%Z.
  Proof.
    intros H t' c' v E. rewrite bump_dput, dget2_dput in E. destruct (eqdec (t', c') (t, c)); [|eauto]. injection E as <-.
    destruct (dget2 m t c) as [n|] eqn:D; [apply H in D; lia|lia].
  Qed.
  Lemma slot_cinv st t x : allowed rv t = true -> cinv st -> cinv (col_slot (M:=M) get_colloc t st x).
  Proof.
    unfold allowed. rewrite FR. intros A (W & P & D & N). destruct x as [[m li]|]; [|exact (conj W (conj P (conj D N)))]. cbn [col_slot].
    set (c := get_colloc m).
    assert (It : In t (dkeys (fd rv))) by (apply dmem_In; exact A).
    destruct (filt (c_col st)) eqn:F; cbn [negb].
    - assert (nocol = false) as NC by (destruct nocol; auto; destruct N; congruence). rewrite NC in N.
      destruct (v_contains (c_col st) c) eqn:V; [|unfold cinv; rewrite NC; auto].
      unfold cinv. cbn [c_mtx c_col]. rewrite NC. split; [|split; [|split]]; auto.
      + eapply bump_wf; eauto; [apply incl_refl|]. apply dmem_In. exact V.
      + now apply bump_pos.
    - assert (nocol = true) as NC.
      { destruct nocol; auto. destruct FC as [E|[E _]]; [discriminate|]. congruence. }
      rewrite NC in N. destruct N as [_ N].
      assert (K : forall x, In x (dkeys (fd (v_incr (c_col st) c 1))) <-> x = c \/ In x (dkeys (fd (c_col st)))).
      { intros x. unfold v_incr. cbn [fd]. destruct (dget (fd (c_col st)) c); apply dkeys_dset_In. }
      unfold cinv. cbn [c_mtx c_col]. rewrite NC. split; [|split; [|split; [|split]]]; auto.
      + eapply bump_wf; eauto; [intros x Ix|]; apply K; auto.
      + now apply bump_pos.
      + unfold v_incr. cbn [fd]. destruct (dget (fd (c_col st)) c); now apply dwf_dset.
      + intros x Ix. apply K in Ix as [->|Ix].
        * exists t. rewrite cell_bump, !eqb_refl. cbn. rewrite cell_dget2. unfold oz. destruct (dget2 _ t c) eqn:E; cbn; [apply P in E|]; lia.
        * destruct (N x Ix) as [t' H]. exists t'. rewrite cell_bump. destruct (_ && _); lia.
  Qed.
  Lemma file_cinv lines st : cinv st -> exists st', upd lines st = Ok st' /\ cinv st'.
  Proof.
    intros I. destruct (col_file match_line separator get_type get_colloc rv l r lines st) as (st' & E & _). exists st'. split; auto.
    eapply (file_kept match_line separator get_type get_colloc rv cinv); eauto. intros. now apply slot_cinv.
  Qed.

  (** The counts of one file on its own. *)
  Definition file_counts (lines : list L) (t c : pystr) : Z :=
    match upd lines (cf_init cv) with Ok st => cell (c_mtx st) t c | Err _ => 0%Z end.
  Lemma cinv_allowed st c : cinv st -> allowed (c_col st) c = allowed (c_col (cf_init cv)) c.
  Proof.
    intros (_ & _ & _ & N). unfold cf_init. cbn [c_col]. destruct nocol; [|now rewrite N]. destruct N as [F _]. unfold allowed. now rewrite F.
  Qed.
  Lemma file_adds lines st st' : cinv st -> upd lines st = Ok st' -> forall t c, cell (c_mtx st') t c = (cell (c_mtx st) t c + file_counts lines t c)%Z.
  Proof.
    intros I E t c. destruct (col_file match_line separator get_type get_colloc rv l r lines st) as (s1 & E1 & _ & C1). rewrite E in E1. injection E1 as <-.
    destruct (col_file match_line separator get_type get_colloc rv l r lines (cf_init cv)) as (s2 & E2 & _ & C2).
    unfold file_counts. rewrite E2, C1, C2, (cinv_allowed st c I). cbn. lia.
  Qed.
  Lemma cell_nonneg st t c : cinv st -> (0 <= cell (c_mtx st) t c)%Z.
  Proof. intros (_ & P & _). rewrite cell_dget2. unfold oz. destruct (dget2 _ t c) eqn:E; cbn; [apply P in E|]; lia. Qed.
  Lemma file_counts_nonneg lines t c : (0 <= file_counts lines t c)%Z.
  Proof.
    unfold file_counts. destruct (upd lines _) as [st|] eqn:E; [|lia]. apply cell_nonneg.
    destruct (file_cinv lines _ cinv_init) as (st' & E' & I). congruence.
  Qed.

  (** ** What a worker puts *)
  Notation counts := (pystr -> pystr -> Z).
  Definition cols_ok (cs : list pystr) (f : counts) : Prop :=
    if nocol then sorted_items cs /\ forall c, In c cs <-> exists t, (0 < f t c)%Z else cs = v_item_list cv.
  Definition item_ok (x : option (ttm Z)) (f : counts) : Prop :=
    match x with
    | None => forall t c, f t c = 0%Z
    | Some m => mergeable m /\ trows m = v_item_list rv /\ cols_ok (tcols m) f /\ (forall t c, val m t c = f t c) /\ exists t c, f t c <> 0%Z
    end.

  Lemma count_values_pos (d : mtxdict) : dwf d -> (0 <? count_values d) = true <-> exists t c v, dget2 d t c = Some v.
  Proof.
    intros W. rewrite Nat.ltb_lt. unfold count_values. split.
    - intros H. assert (K : exists t row, In (t, row) d /\ row <> []).
      { clear W. induction d as [|[t row] d IH]; cbn in H; [lia|]. destruct row as [|x row].
        - destruct IH as (t' & row' & I & N); [cbn in H; lia|]. exists t', row'. cbn; auto.
        - exists t, (x :: row). split; [cbn; auto|discriminate]. }
      destruct K as (t & [|[c v] row] & I & N); [congruence|]. exists t, c, v. unfold dget2.
      apply (proj1 (dget_In _ _ _ W)) in I. rewrite I. cbn. destruct (eqdec c c); congruence.
    - intros (t & c & v & E). unfold dget2 in E. destruct (dget d t) as [row|] eqn:G; [|discriminate].
      apply dget_Some_In in G. destruct row as [|x row]; [discriminate|]. clear - G.
      induction d as [|[t' row'] d IH]; [destruct G|]. cbn [map sumn]. destruct G as [G|G]; [inversion G; cbn; lia|]. specialize (IH G). lia.
  Qed.

  Lemma fin_ok st : cinv st -> exists o, fin st = Ok o /\ item_ok (match o with Some x => x | None => None end) (cell (c_mtx st)).
  Proof.
    intros I. pose proof I as (W & P & D & N). unfold cf_finish. destruct (0 <? count_values (c_mtx st)) eqn:CV.
    - apply count_values_pos in CV; [|apply W].
      assert (CC : cf_cols cv st = v_item_list (c_col st)) by (unfold cf_cols; destruct nocol; congruence).
      rewrite CC.
      assert (IL : forall v, dwf (fd v) -> NoDup (v_item_list v)) by (intros; eapply Permutation_NoDup; [apply isort_perm|assumption]).
      assert (IK : forall v x, In x (v_item_list v) <-> In x (dkeys (fd v))) by (intros; apply isort_In).
      pose proof (IL _ WR) as NR. pose proof (IL _ D) as NC.
      assert (W' : mxwf (c_mtx st) (v_item_list rv) (v_item_list (c_col st))) by (eapply mxwf_incl; eauto; intros x; apply IK).
      destruct (dict_to_sp_ok (c_mtx st) _ _ NR NC W' CV) as (m & E & S1 & S2 & S3 & S4 & S5 & S6).
      rewrite E. cbn [rbind]. rewrite mk_ttm_ok by assumption. cbn [rmap]. eexists. split; [reflexivity|]. cbn [item_ok].
      split; [|split; [|split; [|split]]]; cbn [trows tcols tmx]; auto.
      + split; [constructor; assumption|assumption].
      + unfold cols_ok. destruct nocol; [|congruence]. split; [apply isort_sorted; [apply sleb_total|apply sleb_trans]|].
        intros c. rewrite IK. split; [apply N|]. intros [t H]. rewrite cell_dget2 in H. unfold oz, dget2 in H. cbn in H.
        destruct (dget (c_mtx st) t) as [row|] eqn:G; [|lia]. destruct (dget row c) eqn:G'; [|lia].
        apply dget_Some_In in G. apply (proj2 W) in G as (_ & _ & K). apply K. eapply dget_Some_key; eauto.
      + intros t c. rewrite cell_dget2.
        assert (Q : forall v, dget2 (c_mtx st) t c = Some v -> In t (v_item_list rv) /\ In c (v_item_list (c_col st))).
        { intros v G. unfold dget2 in G. destruct (dget (c_mtx st) t) as [row|] eqn:G1; [|discriminate].
          apply dget_Some_In in G1. apply (proj2 W') in G1 as (It & _ & K). split; [exact It|]. apply K. eapply dget_Some_key; eauto. }
        destruct (in_dec eqdec t (v_item_list rv)) as [It|It]; [destruct (in_dec eqdec c (v_item_list (c_col st))) as [Ic|Ic]|].
        * rewrite val_idx by assumption. apply S6; assumption.
        * rewrite val_no_col by assumption. destruct (dget2 (c_mtx st) t c) eqn:G; [|reflexivity]. exfalso. now apply Ic, (Q _ eq_refl).
        * rewrite val_no_row by assumption. destruct (dget2 (c_mtx st) t c) eqn:G; [|reflexivity]. exfalso. now apply It, (Q _ eq_refl).
      + destruct CV as (t & c & v & G). exists t, c. rewrite cell_dget2, G. cbn. apply P in G. lia.
    - assert (Z : forall t c, cell (c_mtx st) t c = 0%Z).
      { intros. rewrite cell_dget2. destruct (dget2 (c_mtx st) t c) eqn:E; [|reflexivity]. exfalso.
        assert (X : (0 <? count_values (c_mtx st)) = true) by (apply count_values_pos; [apply W|eauto]). congruence. }
      destruct nocol; eexists; (split; [reflexivity|exact Z]).
  Qed.

  (** ** Adding up the results *)
  Definition nonneg (f : counts) : Prop := forall t c, (0 <= f t c)%Z.
  Lemma item_ext x f g : (forall t c, f t c = g t c) -> item_ok x f -> item_ok x g.
  Proof.
    intros E. destruct x as [m|]; cbn.
    - intros (A & B & C & D & t & c & N). split; [auto|]. split; [auto|]. split; [|split].
      + unfold cols_ok in *. destruct nocol; [|auto]. destruct C as [C1 C2]. split; [auto|]. intros x. rewrite C2.
        split; intros [t' H]; exists t'; [rewrite <- E|rewrite E]; auto.
      + intros. rewrite <- E. auto.
      + exists t, c. now rewrite <- E.
    - intros Z t c. now rewrite <- E.
  Qed.
  Lemma merge_step acc x f g : item_ok acc f -> item_ok x g -> nonneg f -> nonneg g ->
    exists o, cf_merge acc x = Ok o /\ item_ok o (fun t c => f t c + g t c)%Z.
  Proof.
    intros A X NF NG. destruct x as [m|]; cbn [cf_merge].
    - destruct acc as [a|].
      + destruct A as (A1 & A2 & A3 & A4 & A5). destruct X as (X1 & X2 & X3 & X4 & X5).
        destruct (merge_two_mergeable a m A1 X1) as (y & E & Y1 & Y2 & Y3 & Y4 & Y5); [congruence|]. rewrite E. cbn [rmap].
        eexists. split; [reflexivity|]. cbn [item_ok]. split; [auto|]. split; [congruence|]. split; [|split].
        * unfold cols_ok in *. destruct nocol.
          -- destruct A3 as [A3 A3']. destruct X3 as [X3 X3']. split; [destruct Y4 as [->|]; auto|]. intros c. rewrite Y3, A3', X3'. split.
             ++ intros [[t H]|[t H]]; exists t; pose proof (NF t c); pose proof (NG t c); lia.
             ++ intros [t H]. pose proof (NF t c). pose proof (NG t c). destruct (Z.eq_dec (f t c) 0); [right|left]; exists t; lia.
          -- unfold merge_two in E. rewrite A2, X2, eqb_refl, A3, X3, eqb_refl in E.
             destruct (sp_add _ _); [|discriminate]. cbn [rbind] in E. unfold mk_ttm in E. do 2 (destruct (negb _) in E; [discriminate|]). injection E as <-. reflexivity.
        * intros. rewrite Y5, A4, X4. reflexivity.
        * destruct A5 as (t & c & H). exists t, c. pose proof (NF t c). pose proof (NG t c). lia.
      + eexists. split; [reflexivity|]. eapply item_ext; [|exact X]. intros. cbn in A. rewrite A. lia.
    - eexists. split; [reflexivity|]. eapply item_ext; [|exact A]. intros. cbn in X. rewrite X. lia.
  Qed.
  Lemma merge_all : forall (xs : list (option (ttm Z) * counts)) acc f, item_ok acc f -> nonneg f ->
    Forall (fun x => item_ok (fst x) (snd x) /\ nonneg (snd x)) xs ->
    exists o, rfold cf_merge (map fst xs) acc = Ok o /\ item_ok o (fun t c => f t c + sumZ (map (fun x => snd x t c) xs))%Z.
  Proof.
    induction xs as [|[x g] xs IH]; intros acc f A NF F; cbn [map rfold fst].
    - eexists. split; [reflexivity|]. eapply item_ext; [|exact A]. intros. cbn. lia.
    - inversion F as [|? ? [X NG] F']; subst. cbn [fst snd] in *. destruct (merge_step acc x f g A X NF NG) as (o & E & O). rewrite E. cbn [rbind].
      destruct (IH o _ O) as (o' & E' & O'); [intros t c; specialize (NF t c); specialize (NG t c); lia|auto|].
      exists o'. split; [auto|]. eapply item_ext; [|exact O']. intros. cbn. lia.
  Qed.

  Definition total (contents : list (list L)) (t c : pystr) : Z := sumZ (map (fun lines => file_counts lines t c) contents).
  Lemma total_app a b t c : total (a ++ b) t c = (total a t c + total b t c)%Z.
  Proof. unfold total. now rewrite map_app, sumZ_app. Qed.
  Lemma total_nonneg cs t c : (0 <= total cs t c)%Z.
  Proof. unfold total. induction cs as [|x cs IH]; cbn; [lia|]. pose proof (file_counts_nonneg x t c). lia. Qed.
  Lemma cf_wexec : forall cs s, cinv s -> exists s', wexec job s (map Ok cs) = Ok (s', []) /\ cinv s' /\
    forall t c, cell (c_mtx s') t c = (cell (c_mtx s) t c + total cs t c)%Z.
  Proof.
    induction cs as [|x cs IH]; intros s I; cbn [map wexec].
    - exists s. split; [auto|]. split; [auto|]. intros. cbn. lia.
    - destruct (file_cinv x s I) as (s1 & E1 & I1). unfold cf_job at 1. cbn [rbind]. rewrite E1. cbn [rmap rbind fst snd].
      destruct (IH s1 I1) as (s' & E2 & I2 & C2). exists s'. rewrite E2. split; [reflexivity|]. split; [auto|].
      intros. rewrite C2, (file_adds _ _ _ I E1). unfold total. cbn [map sumZ]. lia.
  Qed.

  Lemma cf_pool n contents sched st : 1 <= n -> run job fin (cf_start cv n (map Ok contents)) sched = Some st -> joined st = true ->
    exists o, cf_result st = Ok o /\ item_ok o (total contents).
  Proof.
    intros N E Jn. unfold cf_start in E.
    destruct (complete_inv (cf_init cv) job fin cinv (map Ok contents) cinv_init) with (n := n) (sched := sched) (st := st) as (ps & F & P1 & P2); auto.
    - intros s j I H. apply in_map_iff in H as (x & <- & _). destruct (file_cinv x s I) as (s' & E' & I'). unfold cf_job. cbn [rbind]. rewrite E'. cbn. eauto.
    - intros s I. destruct (fin_ok s I) as (o & E' & _). eauto.
    - set (hs := shares (cf_init cv) job fin n (map Ok contents) sched) in *. destruct (Forall_concat_Ok hs contents P1) as [css Eh]. rewrite Eh in *. clear Eh hs.
      assert (PC : Permutation (concat css) contents).
      { rewrite <- concat_map in P1. symmetry in P1. apply Permutation_map_inv in P1. destruct P1 as (c' & E1 & PC).
        apply map_Ok_inj in E1. subst. auto. }
      assert (X : exists xs : list (option (ttm Z) * counts), concat ps = map fst xs /\ Forall (fun x => item_ok (fst x) (snd x) /\ nonneg (snd x)) xs /\
        forall t c, sumZ (map (fun x => snd x t c) xs) = total (concat css) t c).
      { clear P1 P2 PC E. revert ps F. induction css as [|cs css IH]; intros ps F; cbn [map] in F; inversion F as [|? p ? ps' H F']; subst.
        - exists []. split; [reflexivity|]. split; [constructor|]. intros. cbn. reflexivity.
        - destruct (IH _ F') as (xs & A & B & C). destruct H as (s & o & f & E1 & E2 & ->).
          destruct (cf_wexec cs (cf_init cv) cinv_init) as (s' & E3 & I & Q). rewrite E3 in E1. injection E1 as <- <-.
          destruct (fin_ok s' I) as (o' & E4 & O). rewrite E2 in E4. injection E4 as <-.
          assert (O' : item_ok (match f with Some x => x | None => None end) (total cs)) by (eapply item_ext; [|exact O]; intros; rewrite Q; reflexivity).
          destruct f as [x|]; cbn [olist app concat].
          + exists ((x, total cs) :: xs). cbn [map fst snd]. split; [now rewrite A|]. split; [constructor; [split; [exact O'|]|exact B]; intros t c; apply total_nonneg|].
            intros t c. rewrite total_app, <- C. reflexivity.
          + exists xs. split; [exact A|]. split; [exact B|]. intros. rewrite total_app, <- C. cbn in O'. rewrite O'. reflexivity. }
      destruct X as (xs & A & B & C). rewrite A in P2. apply Permutation_map_inv in P2 as (ys & Ey & Py).
      unfold cf_result. rewrite Ey. destruct (merge_all ys None (fun _ _ => 0%Z)) as (o & Eo & O).
      + intros t c. reflexivity.
      + intros t c. lia.
      + eapply Permutation_Forall; [|exact B]. exact Py.
      + exists o. split; [exact Eo|]. eapply item_ext; [|exact O]. intros t c. cbn.
        rewrite <- (sumZ_perm _ _ (Permutation_map (fun x : option (ttm Z) * counts => snd x t c) Py)), C. unfold total.
        apply sumZ_perm, Permutation_map, PC.
  Qed.
End ColPool.

(** ** In terms of the specification *)
From Verif Require Import ParColSpec.
Section ColPoolSpec.
  Context {L M : Type} (match_line : L -> option M) (separator : L -> bool) (get_type get_colloc : M -> pystr) (rv cv : vocab) (l r : nat).
  Hypothesis FR : filt rv = true.
  Hypothesis WR : dwf (fd rv).
  Hypothesis FC : any_column cv = true \/ (filt cv = true /\ dwf (fd cv)).
  Notation job := (cf_job match_line separator get_type get_colloc rv l r).
  Notation fin := (cf_finish rv cv).
  Notation pairs := (corpus_pairs match_line separator get_type get_colloc rv cv l r).

  Lemma file_counts_pairs lines t c :
    file_counts match_line separator get_type get_colloc rv cv l r lines t c = file_pairs match_line separator get_type get_colloc rv cv l r lines t c.
  Proof.
    unfold file_counts, file_pairs. destruct (counts_exact match_line separator get_type get_colloc rv l r lines (cf_init cv)) as (st & -> & C).
    rewrite C. unfold cf_init. cbn [c_mtx c_col]. replace (allowed rv t && _) with (wanted rv cv t c); [reflexivity|].
    unfold wanted. f_equal; [unfold allowed; now rewrite FR|]. change (nocolvocab cv) with (any_column cv).
    destruct (any_column cv) eqn:A; [reflexivity|]. destruct FC as [E|[E _]]; [congruence|]. unfold allowed. now rewrite E.
  Qed.
  Lemma total_pairs contents t c : total match_line separator get_type get_colloc rv cv l r contents t c = pairs contents t c.
  Proof. unfold total, corpus_pairs. f_equal. apply map_ext. intros. apply file_counts_pairs. Qed.
  Lemma item_list_set v (W : dwf (fd v)) : sorted_set (v_item_list v) (fun x => dmem (fd v) x = true).
  Proof.
    split; [eapply Permutation_NoDup; [apply isort_perm|exact W]|]. split; [apply isort_sorted; [apply sleb_total|apply sleb_trans]|].
    intros x. unfold v_item_list. rewrite isort_In. symmetry. apply dmem_In.
  Qed.
  Lemma holds_item o f : item_ok rv cv o f -> holds_counts rv cv o f.
  Proof.
    destruct o as [m|]; cbn; [|auto]. intros ((G & _) & R & C & V & E). split; [exact G|]. split; [rewrite R; now apply item_list_set|].
    split; [|auto]. unfold cols_ok in C. change (nocolvocab cv) with (any_column cv) in C. destruct (any_column cv) eqn:A.
    - destruct C. split; [apply G|]. auto.
    - destruct FC as [E'|[_ W]]; [congruence|]. rewrite C. now apply item_list_set.
  Qed.
  Lemma holds_ext o f g : (forall t c, f t c = g t c) -> holds_counts rv cv o f -> holds_counts rv cv o g.
  Proof.
    intros E. destruct o as [m|]; cbn; [|intros Z t c; now rewrite <- E]. intros (G & R & (C1 & C2 & C3) & V & t & c & N).
    split; [auto|]. split; [auto|]. split; [split; [auto|split; [auto|]]|split; [intros; rewrite <- E; auto|exists t, c; now rewrite <- E]].
    intros x. rewrite C3. destruct (any_column cv); [|tauto]. split; intros [t' H]; exists t'; [rewrite <- E|rewrite E]; auto.
  Qed.
  Lemma col_pool n contents sched st : 1 <= n -> run job fin (cf_start cv n (map Ok contents)) sched = Some st -> joined st = true ->
    exists o, cf_result st = Ok o /\ holds_counts rv cv o (pairs contents).
  Proof.
    intros N E Jn. destruct (cf_pool match_line separator get_type get_colloc rv cv l r FR WR FC n contents sched st N E Jn) as (o & Eo & O).
    exists o. split; [exact Eo|]. eapply holds_ext; [|apply holds_item; exact O]. intros. apply total_pairs.
  Qed.
  (** Matrices holding the same counts have the same items in the same order and the same cells. *)
  Lemma sorted_set_unique xs ys P : sorted_set xs P -> sorted_set ys P -> xs = ys.
  Proof.
    intros (N1 & S1 & I1) (N2 & S2 & I2). eapply sorted_perm_unique; [|exact S1|exact S2|].
    - intros. now apply sleb_antisym.
    - apply NoDup_Permutation; auto. intros x. now rewrite I1, I2.
  Qed.
  Lemma holds_unique o o' f : holds_counts rv cv o f -> holds_counts rv cv o' f ->
    match o, o' with
    | None, None => True
    | Some m, Some m' => trows m = trows m' /\ tcols m = tcols m' /\ forall t c, val m t c = val m' t c
    | _, _ => False
    end.
  Proof.
    destruct o as [m|], o' as [m'|]; cbn; auto.
    - intros (_ & R & C & V & _) (_ & R' & C' & V' & _). split; [eapply sorted_set_unique; eauto|]. split; [eapply sorted_set_unique; eauto|].
      intros. now rewrite V, V'.
    - intros (_ & _ & _ & _ & t & c & N) Z. apply N. apply Z.
    - intros Z (_ & _ & _ & _ & t & c & N). apply N. apply Z.
  Qed.

  (** ** Files that cannot be read *)
  Lemma wexec_files : forall fs s s' o, wexec job s fs = Ok (s', o) -> exists cs, fs = map Ok cs.
  Proof.
    induction fs as [|f fs IH]; intros s s' o E; [exists []; auto|]. cbn [wexec] in E. destruct f as [x|]; [|discriminate].
    unfold cf_job at 1 in E. cbn [rbind] in E. destruct (col_update_one_file _ _ _ _ _ _ _ x s) as [s1|]; cbn [rmap rbind fst snd] in E; [|discriminate].
    destruct (wexec job s1 fs) as [[s2 o2]|] eqn:E2; [|discriminate]. destruct (IH _ _ _ E2) as (cs & ->). exists (x :: cs). auto.
  Qed.
  (** Whatever happens, a finished run returns the counts of the files that were taken by the workers that exited. *)
  Lemma col_pool_survivors n files sched st : run job fin (cf_start cv n files) sched = Some st -> joined st = true ->
    exists css o, cf_result st = Ok o /\ holds_counts rv cv o (pairs (concat css)) /\
      Forall2 (fun w x => match w with
                          | WExit => fst x = map Ok (snd x)
                          | _ => snd x = [] /\ exists e, In (Err e) (fst x)
                          end) (workers st) (combine (shares (cf_init cv) job fin n files sched) css) /\
      length css = n.
  Proof.
    intros E Jn. destruct (reach (cf_init cv) job fin n files _ _ E) as (hp & js & k & HS & F & Q & P1 & P2 & N & B).
    assert (LH : length hp = n) by (rewrite <- (map_length fst), HS; unfold shares; now rewrite map_length, seq_length).
    unfold joined in Jn. destruct (todo st); [|discriminate]. clear Q B N P1.
    assert (X : exists css (xs : list (option (ttm Z) * (pystr -> pystr -> Z))), concat (map snd hp) = map fst xs /\ length css = length hp /\
      Forall (fun x => item_ok rv cv (fst x) (snd x) /\ nonneg (snd x)) xs /\
      (forall t c, sumZ (map (fun x => snd x t c) xs) = total match_line separator get_type get_colloc rv cv l r (concat css) t c) /\
      Forall2 (fun w x => match w with WExit => fst x = map Ok (snd x) | _ => snd x = [] /\ exists e, In (Err e) (fst x) end)
        (workers st) (combine (map fst hp) css)).
    { clear - F Jn FR WR FC. revert F Jn. generalize (workers st) as ws. induction hp as [|[h p] hp IH]; intros ws F Jn; inversion F as [|w ? ws' ? O F']; subst.
      - exists [], []. split; [reflexivity|]. split; [reflexivity|]. split; [constructor|]. split; [reflexivity|constructor].
      - cbn in Jn. apply andb_true_iff in Jn as [G1 G2]. destruct (IH ws' F' G2) as (css & xs & A & LC & Bx & C & D). cbn [fst snd map concat] in *.
        assert (DEAD : p = [] -> (exists e, In (Err e) h) -> w = WDead -> exists css0 (xs0 : list (option (ttm Z) * (pystr -> pystr -> Z))),
          p ++ concat (map snd hp) = map fst xs0 /\ length css0 = Datatypes.S (length hp) /\ Forall (fun x => item_ok rv cv (fst x) (snd x) /\ nonneg (snd x)) xs0 /\
          (forall t c, sumZ (map (fun x => snd x t c) xs0) = total match_line separator get_type get_colloc rv cv l r (concat css0) t c) /\
          Forall2 (fun w x => match w with WExit => fst x = map Ok (snd x) | _ => snd x = [] /\ exists e, In (Err e) (fst x) end)
            (w :: ws') (combine (h :: map fst hp) css0)).
        { intros -> He ->. exists ([] :: css), xs. split; [exact A|]. split; [cbn; congruence|]. split; [exact Bx|]. split; [exact C|]. cbn [combine].
          constructor; [|exact D]. cbn [fst snd]. split; [reflexivity|exact He]. }
        assert (OUT : forall s o h', wexec job (cf_init cv) h' = Ok (s, o) -> o = [] /\ exists cs, h' = map Ok cs /\ cinv rv cv s /\
                        forall t c, cell (c_mtx s) t c = total match_line separator get_type get_colloc rv cv l r cs t c).
        { intros s o h' E. destruct (wexec_files _ _ _ _ E) as (cs & ->).
          destruct (cf_wexec match_line separator get_type get_colloc rv cv l r FR FC cs (cf_init cv) (cinv_init rv cv FC)) as (s' & E' & I & T).
          rewrite E in E'. injection E' as -> ->. split; [reflexivity|]. exists cs. split; [auto|]. split; [exact I|exact T]. }
        inversion O as [| |s f h' o p' E1 E2 E3|s h' j e p' E1 E2|s h' e p' E1 E2]; subst; try discriminate.
        + destruct (OUT _ _ _ E1) as (-> & cs & -> & I & T). destruct (fin_ok rv cv WR FC s I) as (f' & E4 & O4). rewrite E2 in E4. injection E4 as <-.
          assert (O' : item_ok rv cv (match f with Some x => x | None => None end) (total match_line separator get_type get_colloc rv cv l r cs))
            by (eapply item_ext; [exact FC|exact T|exact O4]).
          destruct f as [x|]; cbn [olist app].
          * exists (cs :: css), ((x, total match_line separator get_type get_colloc rv cv l r cs) :: xs). cbn [map fst snd combine concat sumZ]. split; [now rewrite A|].
            split; [cbn; congruence|]. split; [constructor; [split; [exact O'|]|exact Bx]; intros t c; now apply total_nonneg|].
            split; [intros t c; rewrite total_app, <- C; reflexivity|]. constructor; [reflexivity|exact D].
          * exists (cs :: css), xs. cbn [combine concat]. split; [exact A|]. split; [cbn; congruence|]. split; [exact Bx|].
            split; [intros t c; rewrite total_app, <- C; cbn in O'; now rewrite O'|]. constructor; [reflexivity|exact D].
        + destruct (OUT _ _ _ E1) as (-> & cs & -> & I & T). apply DEAD; auto. destruct j as [x|e']; [|exists e'; apply in_or_app; cbn; auto].
          exfalso. destruct (file_cinv match_line separator get_type get_colloc rv cv l r FR FC x s I) as (s' & E' & _).
          unfold cf_job in E2. cbn [rbind] in E2. rewrite E' in E2. discriminate.
        + destruct (OUT _ _ _ E1) as (-> & cs & -> & I & T). exfalso. destruct (fin_ok rv cv WR FC s I) as (f' & E4 & O4). congruence. }
    destruct X as (css & xs & A & LC & Bx & C & D). rewrite A in P2. apply Permutation_map_inv in P2 as (ys & Ey & Py).
    destruct (merge_all rv cv FC ys None (fun _ _ => 0%Z)) as (o & Eo & O).
    - intros t c. reflexivity.
    - intros t c. lia.
    - eapply Permutation_Forall; [|exact Bx]. exact Py.
    - exists css, o. unfold cf_result. rewrite Ey. split; [exact Eo|]. split; [|rewrite <- HS; split; [exact D|congruence]].
      eapply holds_ext; [|apply holds_item; exact O]. intros t c. cbn beta.
      rewrite <- (sumZ_perm _ _ (Permutation_map (fun x : option (ttm Z) * (pystr -> pystr -> Z) => snd x t c) Py)), C. rewrite Z.add_0_l. apply total_pairs.
  Qed.
End ColPoolSpec.
