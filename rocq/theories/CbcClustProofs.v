(** * The clusters of one element's neighbours. *)
From Coq Require Import String NArith ZArith QArith Bool Arith Permutation Sorted Lia List.
From Verif Require Import Base BaseLemmas Str DepMatchProofs CbcModel CbcSpec CbcIndexProofs CbcMergeProofs CbcCleanProofs CbcStepProofs.
Import ListNotations.
Local Open Scope nat_scope.

(** ** Grouping by label *)
Definition positions (labels : list Z) (c : Z) : list nat := map fst (filter (fun ic => Z.eqb (snd ic) c) (enumerate labels)).
Lemma group_snoc labels c : group (labels ++ [c]) = dset (group labels) c ((match dget (group labels) c with Some l => l | None => [] end) ++ [length labels]).
Proof. unfold group. rewrite enum_app, fold_left_app. reflexivity. Qed.
Lemma positions_snoc labels c c' : positions (labels ++ [c']) c = positions labels c ++ (if Z.eqb c' c then [length labels] else []).
Proof. unfold positions. rewrite enum_app, filter_app, map_app. cbn [filter snd]. destruct (Z.eqb c' c); reflexivity. Qed.
Lemma group_wf labels : dwf (group labels).
Proof. induction labels as [|c l IH] using rev_ind; [constructor|]. rewrite group_snoc. now apply dwf_dset. Qed.
Lemma group_get labels c : dget (group labels) c = if mem c labels then Some (positions labels c) else None.
Proof.
  induction labels as [|c' l IH] using rev_ind; [reflexivity|]. rewrite group_snoc, dget_dset, positions_snoc. destruct (eqdec c c') as [->|Ne].
  - rewrite IH, Z.eqb_refl. destruct (mem c' (l ++ [c'])) eqn:M; [|apply mem_nIn in M; exfalso; apply M, in_app_iff; cbn; auto]. destruct (mem c' l) eqn:M'; auto.
    f_equal. apply mem_nIn in M'. unfold positions. replace (filter _ (enumerate l)) with (@nil (nat * Z)); auto. symmetry.
    destruct (filter (fun ic : nat * Z => Z.eqb (snd ic) c') (enumerate l)) as [|[i x] t] eqn:F; auto. exfalso. assert (I : In (i, x) ((i, x) :: t)) by (cbn; auto). rewrite <- F in I. apply filter_In in I as [I E]. apply Z.eqb_eq in E. cbn in E. subst x. apply enum_nth in I. now apply nth_error_In in I.
  - rewrite IH. destruct (Z.eqb_spec c' c) as [->|_]; [congruence|]. rewrite app_nil_r. destruct (mem c l) eqn:M, (mem c (l ++ [c'])) eqn:M'; auto; exfalso.
    + apply mem_In in M. apply mem_nIn in M'. apply M', in_app_iff. auto.
    + apply mem_nIn in M. apply mem_In, in_app_iff in M' as [|[|[]]]; auto.
Qed.
Lemma positions_nth labels c i : In i (positions labels c) <-> nth_error labels i = Some c.
Proof.
  unfold positions. rewrite in_map_iff. split.
  - intros ([j x] & <- & I). apply filter_In in I as [I E]. apply Z.eqb_eq in E. cbn in *. subst. now apply enum_nth.
  - intros E. exists (i, c). split; auto. apply filter_In. split; [now apply enum_nth|apply Z.eqb_refl].
Qed.
Lemma positions_NoDup labels c : NoDup (positions labels c).
Proof. apply NoDup_map_filter. rewrite enum_fst. apply seq_NoDup. Qed.
Lemma dset_vals_perm (d : dict Z (list nat)) c x : dwf d ->
  Permutation (concat (dvals (dset d c ((match dget d c with Some l => l | None => [] end) ++ [x])))) (concat (dvals d) ++ [x]).
Proof.
  induction d as [|[k v] d IH]; intros W; [cbn; constructor; constructor|]. cbn [dset dget]. inversion W as [|? ? Nk W']; subst. destruct (eqdec c k) as [->|Ne].
  - cbn [dvals map snd concat]. rewrite <- !app_assoc. apply Permutation_app_head, Permutation_app_comm.
  - cbn [dvals map snd concat] in *. rewrite <- app_assoc. apply Permutation_app_head. now apply IH.
Qed.
Lemma group_perm labels : Permutation (concat (dvals (group labels))) (seq 0 (length labels)).
Proof.
  induction labels as [|c l IH] using rev_ind; [constructor|]. rewrite group_snoc, app_length. cbn [length]. rewrite Nat.add_1_r, seq_S. cbn [plus]. etransitivity; [apply dset_vals_perm, group_wf|]. now apply Permutation_app_tail.
Qed.
Lemma group_In labels c l : In (c, l) (group labels) -> l = positions labels c /\ In c labels.
Proof.
  intros I. pose proof (proj1 (dget_In _ _ _ (group_wf labels)) I) as G. rewrite group_get in G. destruct (mem c labels) eqn:M; [|discriminate]. injection G as <-. split; auto. now apply mem_In.
Qed.

Section Cse.
  Variable fcluster : list (Q * Q) -> Q -> list Z.
  Variables mean median : list Q -> Q.
  Variable percentile : list Q -> Z -> Q.
  Variable linkage : list Q -> res (list (Q * Q)).
  Variable sqrt_of : nat -> Q.

  (** ** Scores *)
  (** The score of the cluster at some positions *)
  Definition score_at (simmx : list Q) (metric : pystr) (ids : list nat) : res Q :=
    if length ids =? 1 then Ok (-1)%Q else rbind (average_similarity (map Z.of_nat ids) simmx) (score_of sqrt_of metric (length ids)).
  (** The best score so far, of the clusters done *)
  Definition best_of (done : list (Z * list nat)) (scores : dict Z Q) (m : Z * Q) : Prop :=
    (m = ((-1)%Z, 0%Q) \/ (exists ids, In (fst m, ids) done /\ length ids <> 1 /\ dget scores (fst m) = Some (snd m) /\ (0 < snd m)%Q)) /\
    (forall c ids s, In (c, ids) done -> length ids <> 1 -> dget scores c = Some s -> (s <= snd m)%Q).
  Lemma scores_fold simmx metric clusters sims : dwf clusters ->
    (forall c ids, In (c, ids) clusters -> exists a, dget sims c = Some a /\ avgsim_of ids simmx = Ok a) ->
    forall done todo scores m st, clusters = done ++ todo ->
    (forall c, In c (dkeys scores) <-> In c (map fst done)) ->
    (forall c ids, In (c, ids) done -> exists s, dget scores c = Some s /\ score_at simmx metric ids = Ok s) ->
    best_of done scores m ->
    rfold (sc_step sqrt_of metric sims) todo (scores, m) = Ok st ->
    (forall c ids, In (c, ids) clusters -> exists s, dget (fst st) c = Some s /\ score_at simmx metric ids = Ok s) /\ best_of clusters (fst st) (snd st).
  Proof.
    intros W Hs done todo. revert done. induction todo as [|[c ids] todo IH]; intros done scores m st Eq Hk Hd Hb E; cbn [rfold] in E.
    - injection E as <-. rewrite app_nil_r in Eq. subst clusters. auto.
    - apply rbind_ok in E as ([sc' m'] & E1 & E).
      assert (Nc : ~ In c (map fst done)).
      { unfold dwf, dkeys in W. rewrite Eq, map_app in W. cbn [map fst] in W. apply NoDup_remove_2 in W. intros C. apply W, in_app_iff. auto. }
      assert (Eq' : clusters = (done ++ [(c, ids)]) ++ todo) by (rewrite <- app_assoc; exact Eq).
      assert (Ic : In (c, ids) clusters) by (rewrite Eq; apply in_app_iff; cbn; auto).
      destruct (Hs c ids Ic) as (a & Ea & Ha).
      (* one more score *)
      assert (Step : exists s, sc' = dset scores c s /\ score_at simmx metric ids = Ok s /\ m' = if negb (length ids =? 1) && qlt (snd m) s then (c, s) else m).
      { unfold sc_step in E1. destruct m as [mc ms]. cbn [fst snd] in *. unfold score_at. destruct (length ids =? 1) eqn:L1.
        - injection E1 as <- <-. exists (-1)%Q. cbn [negb andb]. auto.
        - rewrite Ea in E1. cbn [rbind] in E1. apply rmap_ok in E1 as (s & Es & E1). injection E1 as -> ->. exists s. unfold avgsim_of in Ha. rewrite L1 in Ha. rewrite Ha. cbn [rbind negb andb]. auto. }
      destruct Step as (s & -> & Hsc & Hm'). apply (IH (done ++ [(c, ids)]) (dset scores c s) m' st Eq'); auto.
      + intros c'. rewrite dkeys_dset_In, Hk, map_app, in_app_iff. cbn. intuition.
      + intros c' ids' I. apply in_app_iff in I as [I|[[= <- <-]|[]]].
        * destruct (Hd c' ids' I) as (s' & G & H). exists s'. split; auto. rewrite dget_dset. destruct (eqdec c' c) as [->|]; auto. exfalso. apply Nc. apply in_map_iff. exists (c, ids'). auto.
        * exists s. rewrite dget_dset_same. auto.
      + destruct Hb as [Hb1 Hb2]. assert (Old : forall c' ids', In (c', ids') done -> dget (dset scores c s) c' = dget scores c') by (intros c' ids' I; rewrite dget_dset; destruct (eqdec c' c) as [->|]; auto; exfalso; apply Nc; apply in_map_iff; exists (c, ids'); auto).
        destruct (length ids =? 1) eqn:L1; cbn [negb andb] in Hm'; [|destruct (qlt (snd m) s) eqn:Q]; subst m'; split.
        * destruct Hb1 as [|(i0 & I0 & N0 & G0 & P0)]; auto. right. exists i0. rewrite (Old _ _ I0), in_app_iff. auto.
        * intros c' ids' s' I N G. apply in_app_iff in I as [I|[[= <- <-]|[]]]; [rewrite (Old _ _ I) in G; eauto|]. apply Nat.eqb_eq in L1. contradiction.
        * right. exists ids. cbn [fst snd]. rewrite dget_dset_same, in_app_iff. apply Nat.eqb_neq in L1. split; [right; cbn; auto|]. split; auto. split; auto. apply qlt_iff in Q. eapply Qle_lt_trans; [|exact Q]. destruct Hb1 as [->|(i0 & I0 & N0 & G0 & P0)]; [apply Qle_refl|now apply Qlt_le_weak].
        * intros c' ids' s' I N G. cbn [snd]. apply in_app_iff in I as [I|[[= <- <-]|[]]].
          -- rewrite (Old _ _ I) in G. apply qlt_iff in Q. apply Qlt_le_weak. eapply Qle_lt_trans; [eapply Hb2; eauto|auto].
          -- rewrite dget_dset_same in G. injection G as <-. apply Qle_refl.
        * destruct Hb1 as [|(i0 & I0 & N0 & G0 & P0)]; auto. right. exists i0. rewrite (Old _ _ I0), in_app_iff. auto.
        * intros c' ids' s' I N G. apply in_app_iff in I as [I|[[= <- <-]|[]]]; [rewrite (Old _ _ I) in G; eauto|]. rewrite dget_dset_same in G. injection G as <-. now apply qlt_false.
  Qed.
  Lemma score_cluster_spec clusters simmx metric highest r : dwf clusters -> score_cluster sqrt_of clusters simmx metric highest = Ok r ->
    exists scores, Forall2 (fun ci s => score_at simmx metric (snd ci) = Ok s) clusters scores /\
      if highest then (r = [(0%Q, match dget clusters (-1)%Z with Some c => c | None => [] end)] /\ Forall2 (fun ci s => length (snd ci) = 1 \/ (s <= 0)%Q) clusters scores) \/
                      (exists c s ids, r = [(s, ids)] /\ In ((c, ids), s) (combine clusters scores) /\ length ids <> 1 /\ (0 < s)%Q /\ Forall2 (fun ci s' => length (snd ci) = 1 \/ (s' <= s)%Q) clusters scores)
      else r = combine scores (map snd clusters).
  Proof.
    intros W E. unfold score_cluster in E. apply rbind_ok in E as (sims & E1 & E). apply rbind_ok in E as ([scd [mc ms]] & E2 & E). apply rmapm_ok in E1.
    assert (Ks : map fst sims = map fst clusters). { clear - E1. induction E1 as [|ci x l l' H F IH]; auto. apply rmap_ok in H as (a & _ & ->). cbn. now rewrite IH. }
    assert (Hs : forall c ids, In (c, ids) clusters -> exists a, dget sims c = Some a /\ avgsim_of ids simmx = Ok a).
    { intros c ids I. apply In_nth_error in I as (i & Ei). destruct (Forall2_nth_l _ _ _ E1 i _ Ei) as (y & Ey & Hy). cbn [fst snd] in Hy. apply rmap_ok in Hy as (a & Ha & ->). exists a. split; auto. apply (proj1 (dget_In sims c a ltac:(unfold dwf, dkeys; rewrite Ks; exact W))). eapply nth_error_In; exact Ey. }
    assert (Hb0 : best_of [] [] ((-1)%Z, 0%Q)) by (split; [auto|intros ? ? ? []]).
    destruct (scores_fold simmx metric clusters sims W Hs [] clusters [] ((-1)%Z, 0%Q) (scd, (mc, ms)) eq_refl (fun c => iff_refl _) (fun c ids (I : In (c, ids) []) => match I with end) Hb0 E2) as [Hall Hbest]. cbn [fst snd] in *.
    assert (exists scores, Forall2 (fun ci s => dget scd (fst ci) = Some s /\ score_at simmx metric (snd ci) = Ok s) clusters scores) as (scores & F).
    { clear - Hall. induction clusters as [|[c ids] l IH]; [exists []; constructor|]. destruct (Hall c ids (or_introl eq_refl)) as (s & A & B). destruct IH as (ss & F); [intros; apply Hall; cbn; auto|]. exists (s :: ss). constructor; auto. }
    exists scores. split; [clear - F; induction F as [|? ? ? ? [? ?]]; constructor; auto|]. destruct highest.
    - injection E as <-. destruct Hbest as [[Hb|(ids & I & N & G & P)] Hle].
      + injection Hb as -> ->. left. split; auto. cbn [snd] in Hle. clear - F Hle. assert (H : forall ci s, In (ci, s) (combine clusters scores) -> length (snd ci) = 1 \/ (s <= 0)%Q).
        { intros [c ids] s I. destruct (Nat.eq_dec (length ids) 1); [auto|]. right. assert (X : In (c, ids) clusters) by (eapply in_combine_l; eauto). eapply Hle; eauto. apply In_nth_error in I as (i & Ei).
          clear Hle X. revert scores i F Ei. induction clusters as [|a l IH]; intros ss i F Ei; inversion F as [|? b ? ? [G _]]; subst; [destruct i; discriminate|]. destruct i as [|i]; cbn in Ei; [injection Ei as -> ->; exact G|eapply IH; eauto]. }
        clear Hle. induction F as [|ci s l ss [_ _] F IH]; constructor; [apply H; cbn; auto|]. apply IH. intros; apply H; cbn; auto.
      + right. cbn [fst snd] in *. exists mc, ms, ids. rewrite (proj1 (dget_In _ _ _ W) I). split; auto.
        assert (Gs : forall ci s, In (ci, s) (combine clusters scores) -> dget scd (fst ci) = Some s).
        { clear - F. intros ci s I. induction F as [|? ? ? ? [G _] F IH]; [destruct I|]. destruct I as [[= -> ->]|I]; auto. }
        split; [|split; auto; split; auto].
        * apply In_nth_error in I as (i & Ei). destruct (Forall2_nth_l _ _ _ F i _ Ei) as (s & Es & Hs' & _). cbn [fst] in Hs'. rewrite G in Hs'. injection Hs' as <-.
          clear - Ei Es. revert clusters scores Ei Es. induction i as [|i IH]; intros [|a l] [|b ss] Ei Es; try discriminate; cbn in *; [injection Ei as ->; injection Es as ->; auto|right; auto].
        * assert (H : forall ci s, In (ci, s) (combine clusters scores) -> length (snd ci) = 1 \/ (s <= ms)%Q).
          { intros [c i0] s I0. destruct (Nat.eq_dec (length i0) 1); [auto|]. right. eapply Hle; [eapply in_combine_l; eauto|auto|]. apply (Gs _ _ I0). }
          clear - F H. induction F as [|ci s l ss _ F IH]; constructor; [apply H; cbn; auto|]. apply IH. intros; apply H; cbn; auto.
    - apply rmapm_ok in E. clear - E F. revert r E. induction F as [|ci s l ss [G _] F IH]; intros r E; inversion E as [|? y ? ys Ey Er]; subst; auto. rewrite G in Ey. injection Ey as <-. cbn [combine map]. f_equal; auto.
  Qed.

  (** ** The whole function *)
  Variable neighbours : pystr -> res (list pystr).
  Variable condensed : list pystr -> res (list Q).
  Variable glb : list pystr.
  Lemma glb_round sub ids gids r : sub2glb ids sub glb = Ok gids -> rmapm (fun i => match nth_error glb i with Some x => Ok x | None => Err IndexError end) gids = Ok r ->
    Forall2 (fun i x => nth_error sub i = Some x) ids r.
  Proof.
    unfold sub2glb. intros E E'. apply rbind_ok in E as (items & E1 & E). apply rmapm_ok in E1, E, E'. revert items gids E1 E E'. revert r. induction ids as [|i ids IH]; intros r items gids E1 E E'.
    - inversion E1; subst. inversion E; subst. inversion E'; subst. constructor.
    - inversion E1 as [|? it ? its H1 F1]; subst. inversion E as [|? g ? gs H2 F2]; subst. inversion E' as [|? x ? xs H3 F3]; subst. constructor; [|eapply IH; eauto].
      destruct (nth_error sub i); [injection H1 as ->|discriminate]. destruct (dget _ it) as [g'|] eqn:G; [injection H2 as ->|discriminate]. pose proof (e_ids_nth glb it g G) as G'. rewrite G' in H3. congruence.
  Qed.
  Theorem cse_spec prune t metric highest e r : cluster_similar_elements fcluster mean median percentile linkage sqrt_of neighbours condensed glb prune t metric highest e = Ok r ->
    exists sub cd labels scores,
      neighbours e = Ok sub /\ condensed sub = Ok cd /\ Forall2 (fun ci s => score_at (map (fun d => 1 - d)%Q cd) metric (snd ci) = Ok s) (group labels) scores /\
      (exists Z, linkage cd = Ok Z /\ flat_cluster fcluster mean median percentile Z t prune = Ok labels) /\
      if highest then
        labels = [] /\ r = [] \/
        (labels <> [] /\ exists ids, r = [(0%Q, ids)] /\ (~ In (-1)%Z labels -> ids = []) /\ Forall2 (fun ci s => length (snd ci) = 1 \/ (s <= 0)%Q) (group labels) scores) \/
        (exists c s ids names, r = [(s, names)] /\ In ((c, ids), s) (combine (group labels) scores) /\ Forall2 (fun i x => nth_error sub i = Some x) ids names /\ length ids <> 1 /\ (0 < s)%Q /\
                               Forall2 (fun ci s' => length (snd ci) = 1 \/ (s' <= s)%Q) (group labels) scores)
      else map fst r = scores /\ Forall2 (fun ci sc => Forall2 (fun i x => nth_error sub i = Some x) (snd ci) (snd sc)) (group labels) r.
  Proof.
    unfold cluster_similar_elements. intros E. apply rbind_ok in E as (sub & E1 & E). apply rbind_ok in E as (cd & E2 & E). apply rbind_ok in E as (clusters & E3 & E).
    unfold hierarchical_cluster in E3. apply rbind_ok in E3 as (Z & E3 & E4). apply rmap_ok in E4 as (labels & E4 & ->).
    destruct (group labels) as [|g0 gs] eqn:Eg.
    - injection E as <-. exists sub, cd, labels, []. rewrite Eg. split; auto. split; auto. split; [constructor|]. split; [eauto|]. assert (labels = []).
      { pose proof (Permutation_length (group_perm labels)) as P. rewrite Eg in P. rewrite seq_length in P. destruct labels; [auto|discriminate]. }
      destruct highest; auto.
    - rewrite <- Eg in *. apply rbind_ok in E as (scs & E5 & E). apply rmapm_ok in E.
      destruct (score_cluster_spec _ _ _ _ _ (group_wf labels) E5) as (scores & F & H). exists sub, cd, labels, scores. split; auto. split; auto. split; auto. split; [eauto|].
      assert (Nl : labels <> []) by (intros ->; discriminate).
      assert (R : Forall2 (fun sc rc => fst rc = fst sc /\ Forall2 (fun i x => nth_error sub i = Some x) (snd sc) (snd rc)) scs r).
      { clear - E. induction E as [|sc rc l l' H F IH]; constructor; auto. apply rbind_ok in H as (gids & H1 & H). apply rmap_ok in H as (names & H2 & ->). split; auto. cbn [snd]. eapply glb_round; eauto. }
      destruct highest.
      + right. destruct H as [[-> Hn]|(c & s & ids & -> & I & N & P & Hn)].
        * left. inversion R as [|? [s0 names] ? ? [R1 R2] R3]; subst. inversion R3; subst. cbn [fst snd] in *. subst. split; auto. exists names. split; auto. split; auto. intros Nm. rewrite group_get in R2. destruct (mem (-1)%Z labels) eqn:M; [apply mem_In in M; contradiction|]. inversion R2; auto.
        * right. inversion R as [|? [s0 names] ? ? [R1 R2] R3]; subst. inversion R3; subst. cbn [fst snd] in *. subst. exists c, s, ids, names. auto 10.
      + subst scs. clear - F R. assert (L : length scores = length (group labels)) by (symmetry; eapply Forall2_len; eauto). clear F. revert scores r L R. induction (group labels) as [|ci l IH]; intros [|s ss] r L R; try discriminate; cbn [map combine] in R; inversion R as [|? rc ? rs [R1 R2] R3]; subst; [split; [auto|constructor]|].
        cbn [fst snd] in *. destruct (IH ss rs) as [A B]; auto. split; [cbn; congruence|constructor; auto].
  Qed.
  (** The clusters partition the neighbours. *)
  Theorem cse_partition prune t metric e r sub : (forall Z q, length (fcluster Z q) = S (length Z)) -> (forall d Z, linkage d = Ok Z -> forall s, condensed s = Ok d -> S (length Z) = length s) ->
    prune = u "minsize" \/ prune = u "distance" -> neighbours e = Ok sub ->
    cluster_similar_elements fcluster mean median percentile linkage sqrt_of neighbours condensed glb prune t metric false e = Ok r ->
    Permutation (concat (map snd r)) sub /\ forall sc, In sc r -> snd sc <> [].
  Proof.
    intros Hf Hl Hp Hn E. destruct (cse_spec _ _ _ _ _ _ E) as (sub' & cd & labels & scores & E1 & E2 & F & (Z & E3 & E4) & Hr & R). assert (sub' = sub) by congruence. subst sub'.
    assert (Ll : length labels = length sub).
    { rewrite <- (Hl cd Z E3 sub E2). unfold flat_cluster in E4. destruct Hp as [-> | ->].
      - rewrite eqb_refl in E4. destruct t as [q|s]; [injection E4 as <-; apply Hf|]. destruct Z; [injection E4 as <-; apply Hf|discriminate].
      - change (eqb (u "distance") (u "minsize")) with false in E4. rewrite eqb_refl in E4. destruct t as [q|s]; [injection E4 as <-; apply Hf|].
        destruct (eqb s (u "mean")); [injection E4 as <-; apply Hf|]. destruct (eqb s (u "median")); [injection E4 as <-; apply Hf|]. destruct (index_of percent s); [|discriminate]. apply rbind_ok in E4 as (p & _ & E4). destruct (_ && _) in E4; [injection E4 as <-|discriminate]. apply Hf. }
    split.
    - assert (G : Forall2 (fun i x => nth_error sub i = Some x) (concat (dvals (group labels))) (concat (map snd r))).
      { clear - R. unfold dvals. induction R as [|ci sc l l' H F IH]; [constructor|]. cbn [map concat]. apply Forall2_app; auto. }
      assert (G' : concat (map snd r) = map (fun i => nth i sub []) (concat (dvals (group labels)))).
      { clear - G. induction G as [|i x l l' H F IH]; auto. cbn [map]. rewrite <- IH. f_equal. symmetry. exact (nth_error_nth _ _ [] H). }
      rewrite G'. etransitivity; [apply Permutation_map, group_perm|]. rewrite Ll.
      assert (H : forall p (l : list pystr), map (fun i => nth i (p ++ l) []) (seq (length p) (length l)) = l).
      { clear. intros p l. revert p. induction l as [|x l IH]; intros p; auto. cbn [length seq map]. rewrite app_nth2, Nat.sub_diag by lia. cbn [nth]. f_equal. specialize (IH (p ++ [x])). rewrite app_length in IH. cbn [length] in IH. rewrite Nat.add_1_r in IH. rewrite <- app_assoc in IH. exact IH. }
      pose proof (H [] sub) as H0. cbn [app length] in H0. rewrite H0. reflexivity.
    - intros sc I. apply In_nth_error in I as (i & Ei). destruct (Forall2_nth _ _ _ R i sc Ei) as ([c ids] & Ec & H). cbn [snd] in H. destruct (group_In labels c ids (nth_error_In _ _ Ec)) as [-> Ic].
      apply In_nth_error in Ic as (k & Ek). apply positions_nth in Ek. intros C. rewrite C in H. inversion H as [X|]. rewrite <- X in Ek. destruct Ek.
  Qed.
End Cse.
