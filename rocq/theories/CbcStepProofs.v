(** * Steps 2 and 3 of clustering by committee. *)
From Coq Require Import String NArith ZArith QArith Bool Arith Permutation Sorted Lia List.
From Verif Require Import Base BaseLemmas Str DepMatchProofs CbcModel CbcSpec CbcMergeProofs CbcCleanProofs.
Import ListNotations.
Local Open Scope nat_scope.

(** ** argmax *)
Lemma argmax_from_spec l : forall done best v, nth_error done best = Some v -> (forall j x, nth_error done j = Some x -> (x <= v)%Q /\ (j < best -> (x < v)%Q)) ->
  exists w, nth_error (done ++ l) (argmax_from best v (length done) l) = Some w /\
            forall j x, nth_error (done ++ l) j = Some x -> (x <= w)%Q /\ (j < argmax_from best v (length done) l -> (x < w)%Q).
Proof.
  induction l as [|y l IH]; intros done best v E H; cbn [argmax_from]; [rewrite app_nil_r; eauto|].
  assert (Lb : best < length done) by (apply nth_error_Some; congruence).
  assert (Rw : done ++ y :: l = (done ++ [y]) ++ l) by now rewrite <- app_assoc. rewrite Rw.
  assert (Sl : S (length done) = length (done ++ [y])) by (rewrite app_length; cbn; lia). rewrite Sl.
  destruct (qlt v y) eqn:Q; apply IH.
  - rewrite nth_error_app2, Nat.sub_diag by lia. reflexivity.
  - apply qlt_iff in Q. intros j x Ej. destruct (Nat.lt_ge_cases j (length done)) as [Lj|Gj].
    + rewrite nth_error_app1 in Ej by auto. destruct (H j x Ej) as [A _]. assert ((x < y)%Q) by (eapply Qle_lt_trans; eauto). split; [now apply Qlt_le_weak|auto].
    + rewrite nth_error_app2 in Ej by auto. destruct (j - length done) as [|k] eqn:Ek; cbn in Ej; [|destruct k; discriminate]. injection Ej as <-. split; [apply Qle_refl|lia].
  - rewrite nth_error_app1; auto.
  - apply qlt_false in Q. intros j x Ej. destruct (Nat.lt_ge_cases j (length done)) as [Lj|Gj].
    + rewrite nth_error_app1 in Ej by auto. apply H; auto.
    + rewrite nth_error_app2 in Ej by auto. destruct (j - length done) as [|k] eqn:Ek; cbn in Ej; [|destruct k; discriminate]. injection Ej as <-. split; [auto|lia].
Qed.
(** The first of the largest values *)
Lemma argmax_spec l : l <> [] -> exists v, nth_error l (argmax l) = Some v /\ forall j x, nth_error l j = Some x -> (x <= v)%Q /\ (j < argmax l -> (x < v)%Q).
Proof.
  destruct l as [|x l]; [congruence|]. intros _. apply (argmax_from_spec l [x] 0 x); [reflexivity|]. intros [|j] y E; [|destruct j; discriminate]. injection E as <-. split; [apply Qle_refl|lia].
Qed.
Lemma argmax_lt l : l <> [] -> argmax l < length l.
Proof. intros H. destruct (argmax_spec l H) as (v & E & _). apply nth_error_Some. congruence. Qed.

(** ** Extending one of some lists *)
Lemma nth_enum_map {A B} (f : nat * A -> B) l j : nth_error (map f (enumerate l)) j = option_map (fun x => f (j, x)) (nth_error l j).
Proof.
  unfold enumerate. assert (H : forall (l : list A) a j, nth_error (map f (combine (seq a (length l)) l)) j = option_map (fun x => f (a + j, x)) (nth_error l j)).
  { clear. induction l as [|x l IH]; intros a [|j]; try reflexivity; cbn [length seq combine map nth_error]; [now rewrite Nat.add_0_r|]. rewrite IH. now rewrite <- plus_n_Sm. }
  apply H.
Qed.
Lemma enum_length {A} (l : list A) : length (enumerate l) = length l.
Proof. rewrite <- (map_length fst), enum_fst. apply seq_length. Qed.
Lemma extend_nth l i x j : nth_error (extend l i x) j = option_map (fun c => if j =? i then c ++ [x] else c) (nth_error l j).
Proof. unfold extend. apply nth_enum_map. Qed.
Lemma assign_nth l i x j : nth_error (assign l i x) j = option_map (fun c => if (j =? i) && negb (mem x c) then c ++ [x] else c) (nth_error l j).
Proof. unfold assign. apply nth_enum_map. Qed.

Section Step23.
  Variable argsort : list Q -> list nat.
  Variable csim : list pystr -> list pystr -> list pystr -> Q.
  Variable esim : list pystr -> pystr -> list pystr -> Q.
  Variable rows : list pystr.
  Local Notation names_of := (row_names rows).

  Lemma names_nth ids names : names_of ids = Ok names -> Forall2 (fun i x => nth_error rows i = Some x) ids names.
  Proof. intros H. apply rmapm_ok in H. induction H as [|i x ids names E F IH]; constructor; auto. destruct (nth_error rows i); congruence. Qed.
  Lemma e_ids_nth elements e i : dget (e_ids elements) e = Some i -> nth_error elements i = Some e.
  Proof.
    unfold e_ids, dict_of. assert (H : forall l a d, (forall e i, dget d e = Some i -> nth_error elements i = Some e) -> (forall j x, nth_error l j = Some x -> nth_error elements (a + j) = Some x) ->
      dget (fold_left (fun d kv => dset d (fst kv) (snd kv)) (combine l (seq a (length l))) d) e = Some i -> nth_error elements i = Some e).
    { clear. induction l as [|x l IH]; intros a d Hd Hl; cbn [length seq combine fold_left fst snd]; [auto|]. apply IH.
      - intros e' i'. rewrite dget_dset. destruct (eqdec e' x) as [->|_]; auto. injection 1 as <-. rewrite <- (Nat.add_0_r a). now apply Hl.
      - intros j y E. rewrite Nat.add_succ_comm. apply Hl, E. }
    apply H; [discriminate|auto].
  Qed.
  Lemma e_ids_In elements e : In e elements -> exists i, dget (e_ids elements) e = Some i.
  Proof.
    intros I. apply dget_key_Some. unfold e_ids, dict_of. assert (H : forall l a (d : dict pystr nat), In e (dkeys d) \/ In e l -> In e (dkeys (fold_left (fun d kv => dset d (fst kv) (snd kv)) (combine l (seq a (length l))) d))).
    { clear. induction l as [|x l IH]; intros a d H; cbn [length seq combine fold_left fst snd]; [destruct H; auto; contradiction|]. apply IH. rewrite dkeys_dset_In. destruct H as [H|[->|H]]; auto. }
    apply H; auto.
  Qed.
  (** Positions of elements *)
  Lemma to_ids_spec elements c ids : to_ids elements c = Ok ids ->
    (forall i, In i ids -> exists e, In e c /\ nth_error elements i = Some e) /\ (forall e, In e c -> exists i, In i ids /\ nth_error elements i = Some e).
  Proof.
    unfold to_ids. intros E. apply rmap_ok in E as (l & E & ->). apply rmapm_ok in E.
    assert (H : Forall2 (fun e i => nth_error elements i = Some e) c l).
    { clear - E. induction E as [|e i c l E F IH]; constructor; auto. destruct (dget (e_ids elements) e) as [k|] eqn:G; [|discriminate]. injection E as <-. now apply e_ids_nth. }
    clear E. split.
    - intros i I. apply isort_In in I. induction H; [easy|]. destruct I as [<-|I]; [eexists; split; [left; reflexivity|auto]|]. destruct (IHForall2 I) as (e & ? & ?). exists e. cbn; auto.
    - intros e I. induction H; [easy|]. destruct I as [<-|I]; [exists y; rewrite isort_In; cbn; auto|]. destruct (IHForall2 I) as (i & Ii & ?). rewrite isort_In in Ii. exists i. rewrite isort_In. cbn; auto.
  Qed.
  Lemma singles_fold theta names sgl : forall mc, length mc = length names -> mc <> [] -> forall j c, nth_error (add_singletons esim rows theta names mc sgl) j = Some c ->
    exists c0, nth_error mc j = Some c0 /\ forall i, In i c <-> In i c0 \/ exists x, In (i, x) sgl /\ let row := map (esim rows x) names in argmax row = j /\ (theta <= nth j row 0)%Q.
  Proof.
    induction sgl as [|[i x] sgl IH]; intros mc Len Ne j c; unfold add_singletons; cbn [fold_left fst snd].
    - intros E. exists c. split; auto. intros i. split; auto. intros [|(x & [] & _)]; auto.
    - set (row := map (esim rows x) names). fold (add_singletons esim rows theta names (if Qle_bool theta (nth (argmax row) row 0%Q) then extend mc (argmax row) i else mc) sgl).
      destruct (Qle_bool theta (nth (argmax row) row 0%Q)) eqn:T; intros E.
      + assert (Le : length (extend mc (argmax row) i) = length mc) by (unfold extend; now rewrite map_length, enum_length).
        destruct (IH (extend mc (argmax row) i)) with (j := j) (c := c) as (c0 & E0 & H); auto; [congruence|intros C; rewrite C in Le; destruct mc; [congruence|discriminate]|].
        rewrite extend_nth in E0. destruct (nth_error mc j) as [c1|] eqn:E1; [|discriminate]. cbn in E0. exists c1. split; auto. injection E0 as <-. intros k. rewrite H. split.
        * intros [I|(y & I & R)]; [|right; exists y; cbn; auto]. destruct (Nat.eqb_spec j (argmax row)) as [->|]; auto. apply in_app_iff in I as [I|[<-|[]]]; auto. right. exists x. split; [cbn; auto|]. fold row. cbn zeta. split; auto. now apply Qle_bool_iff.
        * intros [I|(y & [[= -> ->]|I] & R)].
          -- left. destruct (j =? argmax row); auto. apply in_app_iff; auto.
          -- left. fold row in R. cbn zeta in R. destruct R as [<- _]. rewrite Nat.eqb_refl. apply in_app_iff. cbn; auto.
          -- right. exists y. auto.
      + destruct (IH mc Len Ne j c E) as (c0 & E0 & H). exists c0. split; auto. intros k. rewrite H. split.
        * intros [I|(y & I & R)]; auto. right. exists y. cbn; auto.
        * intros [I|(y & [[= -> ->]|I] & R)]; auto; [|eauto]. exfalso. fold row in R. cbn zeta in R. destruct R as [<- R]. apply Qle_bool_iff in R. congruence.
  Qed.
  Lemma add_length theta names sgl : forall mc, length (add_singletons esim rows theta names mc sgl) = length mc.
  Proof. induction sgl as [|[i x] sgl IH]; intros mc; auto. unfold add_singletons in *. cbn [fold_left]. rewrite IH. destruct (Qle_bool _ _); auto. unfold extend. now rewrite map_length, enum_length. Qed.
  Lemma simmx_square names : square (simmx_of csim rows names).
  Proof. intros row I. unfold simmx_of in *. apply in_map_iff in I as (a & <- & _). now rewrite !map_length. Qed.
  Lemma indices_In ps i : In i (indices ps) <-> exists ij, In ij ps /\ (fst ij = i \/ snd ij = Some i).
  Proof.
    unfold indices. rewrite in_flat_map. split; intros (ij & I & H); exists ij; split; auto.
    - destruct H as [H|H]; auto. right. destruct (snd ij); cbn in H; intuition congruence.
    - destruct H as [H|H]; [left; auto|right; rewrite H; cbn; auto].
  Qed.
  Lemma Forall2_nth_l {A B} (R : A -> B -> Prop) l l' : Forall2 R l l' -> forall i x, nth_error l i = Some x -> exists y, nth_error l' i = Some y /\ R x y.
  Proof. induction 1; intros [|i] z E; try discriminate; cbn in *; eauto. injection E as <-. eauto. Qed.
  Lemma Forall2_len {A B} (R : A -> B -> Prop) l l' : Forall2 R l l' -> length l = length l'.
  Proof. induction 1; cbn; auto. Qed.
  Lemma merge_In idxcomms ij i : In i (merge_ids idxcomms ij) <-> In i (nth (fst ij) idxcomms []) \/ exists j, snd ij = Some j /\ In i (nth j idxcomms []).
  Proof.
    unfold merge_ids. rewrite isort_In, dedup_In, in_app_iff. destruct (snd ij) as [j|]; split; intros [H|H]; auto.
    - right. eauto. - destruct H as (k & E & H). injection E as <-. auto. - destruct H. - destruct H as (k & E & _). discriminate.
  Qed.

  (** What step 2 returns, if it does. *)
  Theorem step2_spec L elements theta comms cnames : NoDup elements -> (forall names, sorts_rows argsort (simmx_of csim rows names)) ->
    cbc_step2 argsort csim esim rows L elements theta = Ok (comms, cnames) ->
    let kept := map snd (fst (clean_clusters L)) in let singles := snd (clean_clusters L) in
    exists merged mnames,
      (forall k, In k kept -> exists m, In m merged /\ incl k m) /\
      (forall m, In m merged -> exists k k', In k kept /\ In k' kept /\ same_set m (k ++ k')) /\
      (rows = elements -> mnames = merged) /\ length mnames = length merged /\
      length comms = length merged /\ (rows = elements -> cnames = comms) /\ length cnames = length comms /\
      forall j c, nth_error comms j = Some c -> exists m, nth_error merged j = Some m /\
        forall e, In e c <-> In e m \/ exists x i, In e singles /\ nth_error elements i = Some e /\ nth_error rows i = Some x /\
                                                   let row := map (esim rows x) mnames in argmax row = j /\ (theta <= nth j row 0)%Q.
  Proof.
    intros Nde So E. cbn zeta. unfold cbc_step2 in E. destruct L as [|l0 L0] eqn:EL; [discriminate|]. rewrite <- EL in *. clear EL l0 L0.
    destruct (clean_clusters L) as [kept singles] eqn:Cl. cbn [fst snd].
    apply rbind_ok in E as (idx & E1 & E). apply rbind_ok in E as (names & E2 & E). destruct idx as [|i0 idx0] eqn:Ei; [discriminate|]. rewrite <- Ei in *. clear Ei i0 idx0.
    set (mc := map (merge_ids idx) (get_merged_committee argsort (simmx_of csim rows names) theta)) in *.
    apply rbind_ok in E as (mnames & E3 & E). apply rbind_ok in E as (sgl & E4 & E). apply rbind_ok in E as (sn & E5 & E).
    set (full := map (isort Nat.leb) (add_singletons esim rows theta mnames mc (combine sgl sn))) in *.
    apply rbind_ok in E as (cn & E6 & E). apply rmap_ok in E as (cs & E7 & E). injection E as -> ->.
    apply rmapm_ok in E1, E2, E3, E6, E7.
    pose proof (merged_partition argsort (simmx_of csim rows names) theta (simmx_square names) (So names)) as MP.
    assert (Ls : length (simmx_of csim rows names) = length idx) by (unfold simmx_of; rewrite map_length; symmetry; eapply Forall2_len; eauto). rewrite Ls in MP.
    assert (Idx : forall i, i < length idx -> exists k, nth_error kept i = Some k /\ to_ids elements (snd k) = Ok (nth i idx [])).
    { intros i Hi. destruct (nth_error idx i) as [y|] eqn:Ey; [|apply nth_error_None in Ey; lia]. destruct (Forall2_nth _ _ _ E1 i y Ey) as (k & Ek & Hk). exists k. split; auto. now rewrite (nth_error_nth _ _ [] Ey). }
    set (els := fun ids => rmapm (fun i => match nth_error elements i with Some x => Ok x | None => Err IndexError end) ids).
    assert (Pmc : forall m, In m mc -> exists ij, m = merge_ids idx ij /\ fst ij < length idx /\ match snd ij with Some j => j < length idx | None => True end).
    { intros m Im. apply in_map_iff in Im as (ij & <- & I). exists ij. split; auto. assert (H : forall i, fst ij = i \/ snd ij = Some i -> i < length idx).
      { intros i H. assert (I' : In i (seq 0 (length idx))) by (eapply Permutation_in; [exact MP|]; apply indices_In; eauto). apply in_seq in I'. lia. }
      split; [auto|]. destruct (snd ij); auto. }
    assert (Kids : forall i x, i < length idx -> In x (nth i idx []) -> exists k e, nth_error kept i = Some k /\ In e (snd k) /\ nth_error elements x = Some e).
    { intros i x Hi Ix. destruct (Idx i Hi) as (k & Ek & Tk). destruct (proj1 (to_ids_spec _ _ _ Tk) x Ix) as (e & Ie & Ee). eauto. }
    assert (Mel : forall m, In m mc -> exists w, els m = Ok w /\ (forall e, In e w <-> exists i, In i m /\ nth_error elements i = Some e)).
    { intros m Im. destruct (Pmc m Im) as (ij & -> & B1 & B2). assert (Hd : forall x, In x (merge_ids idx ij) -> exists e, nth_error elements x = Some e).
      { intros x Ix. apply merge_In in Ix as [Ix|(j & Ej & Ix)]; [destruct (Kids _ _ B1 Ix) as (? & e & _ & _ & ?)|rewrite Ej in B2; destruct (Kids _ _ B2 Ix) as (? & e & _ & _ & ?)]; eauto. }
      clear - Hd. unfold els. induction (merge_ids idx ij) as [|x l IH]; cbn [rmapm]; [exists []; split; auto; cbn; firstorder|].
      destruct (Hd x (or_introl eq_refl)) as (e & Ee). destruct IH as (w & Ew & Hw); [intros; apply Hd; cbn; auto|]. rewrite Ee. cbn [rbind]. rewrite Ew. cbn [rbind]. exists (e :: w). split; auto.
      intros e'. cbn [In]. rewrite Hw. split; [intros [<-|(i & I & H)]; eauto|]. intros (i & [<-|I] & H); eauto. left. congruence. }
    assert (exists merged, Forall2 (fun m w => els m = Ok w) mc merged) as (merged & FM).
    { clear - Mel. induction mc as [|m l IH]; [exists []; constructor|]. destruct (Mel m (or_introl eq_refl)) as (w & Ew & _). destruct IH as (ms & F); [intros; apply Mel; cbn; auto|]. exists (w :: ms). constructor; auto. }
    assert (Wm : forall m w, In m mc -> els m = Ok w -> forall e, In e w <-> exists i, In i m /\ nth_error elements i = Some e) by (intros m w I Ew; destruct (Mel m I) as (w' & Ew' & H); assert (X : Ok w' = Ok w) by (rewrite <- Ew, <- Ew'; reflexivity); injection X as <-; exact H).
    assert (Lmc : length mnames = length mc) by (symmetry; eapply Forall2_len; eauto).
    assert (Lm : length merged = length mc) by (symmetry; eapply Forall2_len; eauto).
    assert (Lf : length full = length mc) by (unfold full; now rewrite map_length, add_length).
    exists merged, mnames. split; [|split; [|split; [|split; [|split; [|split; [|split]]]]]].
    - intros k Ik. apply in_map_iff in Ik as (sc & <- & Ik). apply In_nth_error in Ik as (i & Ei). destruct (Forall2_nth_l _ _ _ E1 i sc Ei) as (ids & Eids & Tk).
      assert (Hi : i < length idx) by (apply nth_error_Some; congruence).
      assert (In i (indices (get_merged_committee argsort (simmx_of csim rows names) theta))) as II by (eapply Permutation_in; [symmetry; exact MP|]; apply in_seq; lia).
      apply indices_In in II as (ij & Iij & Hij). assert (Im : In (merge_ids idx ij) mc) by now apply in_map.
      apply In_nth_error in Im as (p & Ep). destruct (Forall2_nth_l _ _ _ FM p _ Ep) as (w & Ew & Hw). exists w. split; [eapply nth_error_In; eauto|].
      intros e Ie. apply (Wm _ _ (nth_error_In _ _ Ep) Hw). destruct (proj2 (to_ids_spec _ _ _ Tk) e Ie) as (x & Ix & Ee). exists x. split; auto. apply merge_In.
      rewrite <- (nth_error_nth _ _ [] Eids) in Ix. destruct Hij as [<-|Hij]; eauto.
    - intros w Iw. apply In_nth_error in Iw as (p & Ep). destruct (Forall2_nth _ _ _ FM p w Ep) as (m & Em & Hm). pose proof (nth_error_In _ _ Em) as Im. destruct (Pmc m Im) as (ij & -> & B1 & B2).
      destruct (Idx _ B1) as (k & Ek & Tk). assert (exists k', In k' kept /\ forall e, In e (snd k') -> exists x, In x (merge_ids idx ij) /\ nth_error elements x = Some e) as (k1 & Ik1 & _).
      { exists k. split; [eapply nth_error_In; eauto|]. intros e Ie. destruct (proj2 (to_ids_spec _ _ _ Tk) e Ie) as (x & Ix & Ee). exists x. split; auto. apply merge_In. auto. }
      clear k1 Ik1. destruct (snd ij) as [j|] eqn:Ej.
      + destruct (Idx _ B2) as (k' & Ek' & Tk'). exists (snd k), (snd k'). split; [apply in_map; eapply nth_error_In; eauto|]. split; [apply in_map; eapply nth_error_In; eauto|].
        intros e. rewrite (Wm _ _ Im Hm), in_app_iff. split.
        * intros (x & Ix & Ex). apply merge_In in Ix as [Ix|(j' & Ej' & Ix)].
          -- left. destruct (proj1 (to_ids_spec _ _ _ Tk) x Ix) as (e' & ? & ?). congruence.
          -- right. assert (j' = j) by congruence. subst j'. destruct (proj1 (to_ids_spec _ _ _ Tk') x Ix) as (e' & ? & ?). congruence.
        * intros [Ie|Ie]; [destruct (proj2 (to_ids_spec _ _ _ Tk) e Ie) as (x & Ix & Ee)|destruct (proj2 (to_ids_spec _ _ _ Tk') e Ie) as (x & Ix & Ee)]; exists x; (split; [apply merge_In; eauto|auto]).
      + exists (snd k), (snd k). split; [apply in_map; eapply nth_error_In; eauto|]. split; [apply in_map; eapply nth_error_In; eauto|].
        intros e. rewrite (Wm _ _ Im Hm), in_app_iff. split.
        * intros (x & Ix & Ex). apply merge_In in Ix as [Ix|(j' & Ej' & Ix)]; [|congruence]. left. destruct (proj1 (to_ids_spec _ _ _ Tk) x Ix) as (e' & ? & ?). congruence.
        * intros [Ie|Ie]; destruct (proj2 (to_ids_spec _ _ _ Tk) e Ie) as (x & Ix & Ee); exists x; (split; [apply merge_In; eauto|auto]).
    - intros Er. clear - E3 FM Er. clearbody mc. subst els. revert merged FM. induction E3; intros merged FM; inversion FM as [|? ? ? ? G]; auto. f_equal; auto. unfold row_names in *. assert (X : Ok y = Ok y0) by (rewrite <- H, <- G, Er; reflexivity). now injection X.
    - rewrite Lm. exact Lmc.
    - rewrite Lm, <- Lf. symmetry. eapply Forall2_len; eauto.
    - intros Er. clear - E6 E7 Er. clearbody full. revert cs E7. induction E6; intros cs E7; inversion E7 as [|? ? ? ? G]; auto. f_equal; auto. unfold row_names in *. assert (X : Ok y = Ok y0) by (rewrite <- H, <- G, Er; reflexivity). now injection X.
    - rewrite <- (Forall2_len _ _ _ E6). eapply Forall2_len; eauto.
    - intros j c Ec. destruct (Forall2_nth _ _ _ E7 j c Ec) as (ids & Eids & Hc). unfold full in Eids. rewrite nth_error_map in Eids.
      destruct (nth_error (add_singletons esim rows theta mnames mc (combine sgl sn)) j) as [f|] eqn:Ef; [|discriminate]. cbn in Eids. injection Eids as <-.
      assert (Nmc : mc <> []) by (intros C; rewrite C in Lf; destruct full; [inversion E7; subst; destruct j; discriminate|discriminate]).
      destruct (singles_fold theta mnames (combine sgl sn) mc (eq_sym Lmc) Nmc j f Ef) as (m & Em & Hm). destruct (Forall2_nth_l _ _ _ FM j m Em) as (w & Ew & Hw). exists w. split; auto.
      assert (Wc : forall e, In e c <-> exists i, In i f /\ nth_error elements i = Some e).
      { intros e. apply rmapm_ok in Hc. split.
        - intros Ie. apply In_nth_error in Ie as (q & Eq). destruct (Forall2_nth _ _ _ Hc q e Eq) as (i & Ei & Hi). exists i. split; [apply (isort_In Nat.leb); eapply nth_error_In; eauto|]. destruct (nth_error elements i); congruence.
        - intros (i & Ii & Ee). apply (isort_In Nat.leb) in Ii. apply In_nth_error in Ii as (q & Eq). destruct (Forall2_nth_l _ _ _ Hc q i Eq) as (y & Ey & Hy). rewrite Ee in Hy. injection Hy as <-. eapply nth_error_In; eauto. }
      intros e. rewrite Wc, (Wm _ _ (nth_error_In _ _ Em) Hw). apply names_nth in E5. destruct (to_ids_spec _ _ _ E4) as [T1 T2]. split.
      + intros (i & Ii & Ee). apply Hm in Ii as [Ii|(x & Ix & R)]; [left; eauto|]. right. exists x, i. apply In_nth_error in Ix as (q & Eq).
        assert (Hq : nth_error sgl q = Some i /\ nth_error sn q = Some x). { clear - Eq. revert sgl sn Eq. induction q as [|q IH]; intros [|a sgl] [|b sn] Eq; try discriminate; cbn in *; [injection Eq as -> ->; auto|auto]. }
        destruct Hq as [Q1 Q2]. destruct (Forall2_nth _ _ _ E5 q x Q2) as (i' & Ei' & Hr). assert (i' = i) by congruence. subst i'. destruct (T1 i (nth_error_In _ _ Q1)) as (e' & Ie' & Ee'). assert (e' = e) by congruence. subst e'. repeat split; auto; apply R.
      + intros [(i & Ii & Ee)|(x & i & Ie & Ee & Hr & R)].
        * exists i. split; auto. apply Hm. auto.
        * destruct (T2 e Ie) as (i' & Ii' & Ee'). apply In_nth_error in Ii' as (q & Eq). destruct (Forall2_nth_l _ _ _ E5 q i' Eq) as (x' & Ex' & Hx').
          assert (i' = i) by (apply (proj1 (NoDup_nth_error elements) Nde); [apply nth_error_Some; congruence|congruence]). subst i'. assert (x' = x) by congruence. subst x'.
          exists i. split; auto. apply Hm. right. exists x. split; auto.
          clear - Eq Ex'. revert sgl sn Eq Ex'. induction q as [|q IH]; intros [|a sgl] [|b sn] Eq Ex'; try discriminate; cbn in *; [injection Eq as ->; injection Ex' as ->; auto|right; auto].
  Qed.
End Step23.
