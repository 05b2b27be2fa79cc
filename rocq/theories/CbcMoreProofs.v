(** * Elements of committees, the best cluster, exact scores, and a sorting function. *)
From Coq Require Import String NArith ZArith QArith Bool Arith Permutation Sorted Lia List.
From Verif Require Import Base BaseLemmas Str DepMatchProofs CbcModel CbcSpec CbcIndexProofs CbcMergeProofs CbcCleanProofs CbcStepProofs CbcLoopProofs CbcClustProofs.
Import ListNotations.
Local Open Scope nat_scope.

(** ** Committees consist of elements *)
Lemma step2_elements argsort csim esim rows L elements theta comms cnames : cbc_step2 argsort csim esim rows L elements theta = Ok (comms, cnames) -> forall c e, In c comms -> In e c -> In e elements.
Proof.
  intros E c e Ic Ie. unfold cbc_step2 in E. destruct L as [|l0 L0]; [discriminate|]. destruct (clean_clusters (l0 :: L0)) as [kept singles].
  apply rbind_ok in E as (idx & E1 & E). apply rbind_ok in E as (names & E2 & E). destruct idx as [|i0 idx0]; [discriminate|].
  apply rbind_ok in E as (mnames & E3 & E). apply rbind_ok in E as (sgl & E4 & E). apply rbind_ok in E as (sn & E5 & E). apply rbind_ok in E as (cn & E6 & E). apply rmap_ok in E as (cs & E7 & E). injection E as <- <-.
  apply rmapm_ok in E7. apply In_nth_error in Ic as (j & Ej). destruct (Forall2_nth _ _ _ E7 j c Ej) as (ids & _ & H). apply rmapm_ok in H. apply In_nth_error in Ie as (k & Ek). destruct (Forall2_nth _ _ _ H k e Ek) as (i & _ & Hi).
  destruct (nth_error elements i) as [e'|] eqn:Ee; [|discriminate]. injection Hi as ->. eapply nth_error_In; eauto.
Qed.
Lemma major_elements argsort csim esim mxrows elements t1 t2 L eles C R : major_steps argsort csim esim mxrows elements t1 t2 L eles = Ok (C, R) ->
  (forall c e, In c C -> In e c -> In e eles) /\ subseq R eles.
Proof.
  intros E. split; [|eapply major_subseq; eauto]. unfold major_steps in E. apply rbind_ok in E as (rows & _ & E). apply rbind_ok in E as ([comms cn] & E2 & E). cbn [fst snd] in E.
  assert (C = comms) by (destruct comms; [injection E as <- _; auto|apply rmap_ok in E as (? & _ & E); congruence]). subst C. eapply step2_elements; eauto.
Qed.
Lemma all_rows (eles mxrows : list pystr) : incl eles mxrows -> filter (fun e => mem e mxrows) eles = eles.
Proof. induction eles as [|e l IH]; intros I; [reflexivity|]. cbn [filter]. rewrite (proj2 (mem_In e mxrows)) by (apply I; now left). f_equal. apply IH. intros x J. apply I. now right. Qed.
(** What a recursion returns when the matrix rows are the elements *)
Lemma major_spec argsort csim esim mxrows elements t1 t2 L eles C R : (elements = eles -> mxrows = eles) -> incl eles mxrows -> major_steps argsort csim esim mxrows elements t1 t2 L eles = Ok (C, R) ->
  C = [] /\ R = eles \/ exists names, cbc_step2 argsort csim esim eles L eles t1 = Ok (C, names) /\ R = filter (fun e => forallb (fun s => qlt s t2) (map (esim eles e) names)) eles.
Proof.
  intros Rows I E. unfold major_steps in E. apply rbind_ok in E as (rows & Er & E). assert (rows = eles).
  { unfold major_rows in Er. destruct (eqb elements eles) eqn:B; [apply eqb_true in B; injection Er as <-; auto|].
    rewrite (all_rows eles mxrows I) in Er. destruct eles; [discriminate|now injection Er as <-]. }
  subst rows.
  apply rbind_ok in E as ([comms cn] & E2 & E). cbn [fst snd] in E. destruct comms as [|c0 cs]; [injection E as <- <-; auto|]. right. apply rmap_ok in E as ([R' c'] & E3 & E). cbn [fst] in E. injection E as -> ->.
  exists cn. split; auto. now destruct (step3_own _ _ _ _ _ _ _ _ eq_refl E3).
Qed.

(** ** Empty results *)
Lemma cluster_error {C} (step : nat -> list pystr -> res (list C * list pystr)) n elements x : elements <> [] -> step 1 elements = Err x -> cluster step (S n) elements (-1) = ([[]], [[]]).
Proof. intros N E. unfold cluster. cbn [Z.ltb Z.compare cluster_from]. destruct elements; [congruence|]. rewrite E. reflexivity. Qed.
Lemma no_clusters argsort csim esim mxrows elements t1 t2 eles : exists e, major_steps argsort csim esim mxrows elements t1 t2 [] eles = Err e /\ (e = ValueError <-> elements = eles \/ exists x, In x eles /\ In x mxrows).
Proof.
  unfold major_steps, major_rows. destruct (eqb elements eles) eqn:B; [apply eqb_true in B; exists ValueError; split; [reflexivity|tauto]|]. apply eqb_neq in B. destruct (filter _ eles) as [|x l] eqn:F.
  - exists AttributeError. split; [reflexivity|]. split; [discriminate|]. intros [?|(x & I & J)]; [contradiction|]. assert (X : In x []) by (rewrite <- F; apply filter_In; split; [exact I|now apply mem_In]). destruct X.
  - exists ValueError. split; [reflexivity|]. split; [|reflexivity]. intros _. right. exists x. assert (X : In x (x :: l)) by now left. rewrite <- F in X. apply filter_In in X as (I & J). split; [exact I|now apply mem_In].
Qed.

(** ** argsort *)
Definition argsort_std (row : list Q) : list nat := isort (fun i j => Qle_bool (nth i row 0%Q) (nth j row 0%Q)) (seq 0 (length row)).
Lemma argsort_std_ok simmx : sorts_rows argsort_std simmx.
Proof.
  intros row _. split; [symmetry; apply isort_perm|]. unfold argsort_std. set (le := fun i j => Qle_bool (nth i row 0%Q) (nth j row 0%Q)).
  assert (S : StronglySorted (fun i j => le i j = true) (isort le (seq 0 (length row)))).
  { apply isort_sorted; unfold le.
    - intros a b. rewrite !Qle_bool_iff. destruct (Qlt_le_dec (nth a row 0%Q) (nth b row 0%Q)) as [H|H]; auto. left. now apply Qlt_le_weak.
    - intros a b c. rewrite !Qle_bool_iff. intros; eapply Qle_trans; eauto. }
  induction S as [|a l S IH F]; constructor; auto. eapply Forall_impl; [|exact F]. intros b. apply Qle_bool_iff.
Qed.

(** ** The best cluster *)
Section Best.
  Variable fcluster : list (Q * Q) -> Q -> list Z.
  Variables mean median : list Q -> Q.
  Variable percentile : list Q -> Z -> Q.
  Variable linkage : list Q -> res (list (Q * Q)).
  Variable sqrt_of : nat -> Q.
  Variable neighbours : pystr -> res (list pystr).
  Variable condensed : list pystr -> res (list Q).
  Variable glb : list pystr.
  Local Notation cse := (cluster_similar_elements fcluster mean median percentile linkage sqrt_of neighbours condensed glb).
  Lemma f2_det {A B} (R : A -> res B) l a b : Forall2 (fun x y => R x = Ok y) l a -> Forall2 (fun x y => R x = Ok y) l b -> a = b.
  Proof. intros F. revert b. induction F; intros b G; inversion G; subst; auto. f_equal; [congruence|auto]. Qed.
  Lemma names_det (sub : list pystr) l a b : Forall2 (fun (i : nat) x => nth_error sub i = Some x) l a -> Forall2 (fun (i : nat) x => nth_error sub i = Some x) l b -> a = b.
  Proof. intros F. revert b. induction F; intros b G; inversion G; subst; auto. f_equal; [congruence|auto]. Qed.
  (** Of all clusters, one with the highest score *)
  Theorem best_cluster prune t metric e all best : cse prune t metric false e = Ok all -> cse prune t metric true e = Ok best ->
    (exists sc, In sc all /\ length (snd sc) <> 1 /\ (0 < fst sc)%Q) ->
    exists sc, best = [sc] /\ In sc all /\ length (snd sc) <> 1 /\ forall sc', In sc' all -> length (snd sc') <> 1 -> (fst sc' <= fst sc)%Q.
  Proof.
    intros Ea Eb (sc0 & I0 & N0 & P0).
    destruct (cse_spec _ _ _ _ _ _ _ _ _ _ _ _ _ _ _ Ea) as (sub & cd & labels & scores & A1 & A2 & A3 & (Z & A4 & A5) & A6 & A7).
    destruct (cse_spec _ _ _ _ _ _ _ _ _ _ _ _ _ _ _ Eb) as (sub' & cd' & labels' & scores' & B1 & B2 & B3 & (Z' & B4 & B5) & B6).
    assert (sub' = sub) by congruence. subst sub'. assert (cd' = cd) by congruence. subst cd'. assert (Z' = Z) by congruence. subst Z'. assert (labels' = labels) by congruence. subst labels'.
    assert (scores' = scores) by (apply (f2_det (fun ci => score_at sqrt_of (map (fun d => 1 - d)%Q cd) metric (snd ci)) (group labels)); auto). subst scores'. clear B1 B2 B3 B4 B5 A1 A2 A3 A4 A5.
    subst scores.
    assert (Al : forall i ci sc, nth_error (group labels) i = Some ci -> nth_error all i = Some sc -> length (snd ci) = length (snd sc) /\ Forall2 (fun i x => nth_error sub i = Some x) (snd ci) (snd sc)).
    { intros i ci sc Ei Es. destruct (Forall2_nth_l _ _ _ A7 i ci Ei) as (sc' & Es' & F). assert (sc' = sc) by congruence. subst. split; auto. eapply Forall2_len; eauto. }
    assert (Hle : forall (P : list nat -> Q -> Prop), Forall2 (fun ci s => P (snd ci) s) (group labels) (map fst all) -> forall sc, In sc all -> exists ids, length ids = length (snd sc) /\ P ids (fst sc)).
    { intros P F sc I. apply In_nth_error in I as (i & Ei). destruct (Forall2_nth _ _ _ F i (fst sc)) as (ci & Ec & H); [rewrite nth_error_map, Ei; auto|]. exists (snd ci). split; auto. eapply Al; eauto. }
    destruct B6 as [[El _]|[(_ & ids & _ & _ & F)|(c & s & ids & names & Eb' & I & Fn & N & P & F)]].
    - exfalso. subst labels. inversion A7; subst. destruct I0.
    - exfalso. destruct (Hle (fun ids s => length ids = 1 \/ (s <= 0)%Q) F sc0 I0) as (ids0 & L0 & [H|H]); [congruence|]. eapply Qlt_not_le; eauto.
    - exists (s, names). split; auto. apply In_nth_error in I as (i & Ei).
      assert (Ec : nth_error (group labels) i = Some (c, ids) /\ nth_error (map fst all) i = Some s).
      { clear - Ei. revert i Ei. generalize (map fst all). induction (group labels) as [|a l IH]; intros [|b q] [|i] Ei; try discriminate; cbn in *; [injection Ei as -> ->; auto|auto]. }
      destruct Ec as [Ec Es]. rewrite nth_error_map in Es. destruct (nth_error all i) as [[s' nm]|] eqn:En; [|discriminate]. cbn in Es. injection Es as ->. destruct (Al _ _ _ Ec En) as [Ln Fn']. cbn [snd] in *. assert (nm = names) by (eapply names_det; eauto). subst nm.
      split; [eapply nth_error_In; eauto|]. split; [cbn; congruence|]. intros sc' I' N'. destruct (Hle (fun ids s' => length ids = 1 \/ (s' <= s)%Q) F sc' I') as (ids0 & L0 & [H|H]); [congruence|auto].
  Qed.
  (** Otherwise an empty cluster with score 0 *)
  Theorem best_none prune t metric e all best : cse prune t metric false e = Ok all -> cse prune t metric true e = Ok best -> all <> [] -> (forall Z q, ~ In (-1)%Z (fcluster Z q)) ->
    (forall sc, In sc all -> length (snd sc) <> 1 -> (fst sc <= 0)%Q) -> best = [(0%Q, [])].
  Proof.
    intros Ea Eb Na Nf Hn.
    destruct (cse_spec _ _ _ _ _ _ _ _ _ _ _ _ _ _ _ Ea) as (sub & cd & labels & scores & A1 & A2 & A3 & (Z & A4 & A5) & A6 & A7).
    destruct (cse_spec _ _ _ _ _ _ _ _ _ _ _ _ _ _ _ Eb) as (sub' & cd' & labels' & scores' & B1 & B2 & B3 & (Z' & B4 & B5) & B6).
    assert (sub' = sub) by congruence. subst sub'. assert (cd' = cd) by congruence. subst cd'. assert (Z' = Z) by congruence. subst Z'. assert (labels' = labels) by congruence. subst labels'.
    assert (scores' = scores) by (apply (f2_det (fun ci => score_at sqrt_of (map (fun d => 1 - d)%Q cd) metric (snd ci)) (group labels)); auto). subst scores'. clear B1 B2 B3 B4 B5 A1 A2 A3 A4.
    destruct B6 as [[El _]|[(_ & ids & -> & H & _)|(c & s & ids & names & Eb' & I & Fn & N & P & F)]].
    - exfalso. apply Na. subst labels. inversion A7; auto.
    - f_equal. f_equal. apply H. unfold flat_cluster in A5. destruct (eqb prune (u "minsize")).
      + destruct t; [injection A5 as <-; apply Nf|]. destruct Z; [injection A5 as <-; apply Nf|discriminate].
      + destruct (eqb prune (u "distance")); [|injection A5 as <-; easy]. destruct t as [q|s]; [injection A5 as <-; apply Nf|]. destruct (eqb s (u "mean")); [injection A5 as <-; apply Nf|]. destruct (eqb s (u "median")); [injection A5 as <-; apply Nf|]. destruct (index_of percent s); [|discriminate]. apply rbind_ok in A5 as (p & _ & A5). destruct (_ && _) in A5; [injection A5 as <-|discriminate]. apply Nf.
    - exfalso. subst scores. apply In_nth_error in I as (i & Ei).
      assert (Ec : nth_error (group labels) i = Some (c, ids) /\ nth_error (map fst all) i = Some s).
      { clear - Ei. revert i Ei. generalize (map fst all). induction (group labels) as [|a l IH]; intros [|b q] [|i] Ei; try discriminate; cbn in *; [injection Ei as -> ->; auto|auto]. }
      destruct Ec as [Ec Es]. rewrite nth_error_map in Es. destruct (nth_error all i) as [[s' nm]|] eqn:En; [|discriminate]. cbn in Es. injection Es as ->. destruct (Forall2_nth_l _ _ _ A7 i _ Ec) as (sc & Esc & Fi). rewrite En in Esc. injection Esc as <-. cbn [snd] in Fi.
      eapply Qlt_not_le; [exact P|]. apply (Hn (s, nm)); [eapply nth_error_In; eauto|]. cbn. rewrite <- (Forall2_len _ _ _ Fi). auto.
  Qed.
  (** The scores *)
  Theorem exact_scores prune t metric e r sub D : (forall i j, D i j = D j i) -> 1 <= length sub -> neighbours e = Ok sub -> condensed sub = Ok (condensed_of (length sub) D) ->
    cse prune t metric false e = Ok r ->
    forall sc, In sc r -> exists ids, NoDup ids /\ Forall2 (fun i x => nth_error sub i = Some x) ids (snd sc) /\
      (length ids = 1 -> fst sc = (-1)%Q) /\
      (length ids <> 1 -> let n := length ids in let mean_sim := (qsum (map (fun ij => 1 - D (fst ij) (snd ij)) (pairs ids)) / inject_Z (Z.of_nat n * (Z.of_nat n - 1) / 2))%Q in
                          metric = u "with_size_sqrt" /\ fst sc = (sqrt_of n * mean_sim)%Q \/
                          metric = u "with_size" /\ fst sc = (inject_Z (Z.of_nat n) * mean_sim)%Q \/
                          metric = u "without_size" /\ fst sc = mean_sim).
  Proof.
    intros Sym L1 Hn Hc E sc Isc. destruct (cse_spec _ _ _ _ _ _ _ _ _ _ _ _ _ _ _ E) as (sub' & cd & labels & scores & A1 & A2 & A3 & (Z & A4 & A5) & A6 & A7).
    assert (sub' = sub) by congruence. subst sub'. assert (cd = condensed_of (length sub) D) by congruence. subst cd. subst scores.
    apply In_nth_error in Isc as (i & Ei). destruct (Forall2_nth _ _ _ A7 i sc Ei) as ([c ids] & Ec & F). destruct (Forall2_nth_l _ _ _ A3 i _ Ec) as (s & Es & Hs). rewrite nth_error_map, Ei in Es. cbn in Es. injection Es as <-. cbn [snd] in *.
    destruct (group_In labels c ids (nth_error_In _ _ Ec)) as [-> Ic]. exists (positions labels c). split; [apply positions_NoDup|]. split; auto. unfold score_at in Hs. split.
    - intros L. rewrite L in Hs. cbn in Hs. congruence.
    - intros L. rewrite (proj2 (Nat.eqb_neq _ _) L) in Hs. cbn zeta.
      assert (L2 : 2 <= length (positions labels c)). { apply In_nth_error in Ic as (k & Ek). apply positions_nth in Ek. destruct (positions labels c) as [|x [|y l]]; [destruct Ek|cbn in L; lia|cbn; lia]. }
      assert (Eq : map (fun d => 1 - d)%Q (condensed_of (length sub) D) = condensed_of (length sub) (fun i j => 1 - D i j)%Q).
      { unfold condensed_of. clear. generalize (seq 0 (length sub)). induction l as [|j l IH]; auto. cbn [flat_map]. rewrite map_app, IH, map_map. reflexivity. }
      assert (Lt : forall k, In k (positions labels c) -> k < length sub) by (intros k Ik; apply nth_error_Some; clear - F Ik; apply In_nth_error in Ik as (p & Ep); destruct (Forall2_nth_l _ _ _ F p k Ep) as (x & _ & H); congruence).
      rewrite Eq, (average_exact (length sub) (fun i j => 1 - D i j)%Q) in Hs; auto; [|apply positions_NoDup|intros; now rewrite Sym].
      cbn [rbind] in Hs. unfold score_of in Hs.
      destruct (eqb metric (u "with_size_sqrt")) eqn:M1; [apply eqb_true in M1; left; split; congruence|].
      destruct (eqb metric (u "with_size")) eqn:M2; [apply eqb_true in M2; right; left; split; congruence|].
      destruct (eqb metric (u "without_size")) eqn:M3; [apply eqb_true in M3; right; right; split; congruence|discriminate].
  Qed.
End Best.
(** minsize needs a number. *)
Lemma minsize_string fcluster mean median percentile linkage sqrt_of neighbours condensed glb s metric highest e sub cd Z : neighbours e = Ok sub -> condensed sub = Ok cd -> linkage cd = Ok Z -> Z <> [] ->
  cluster_similar_elements fcluster mean median percentile linkage sqrt_of neighbours condensed glb (u "minsize") (TStr s) metric highest e = Err TypeError.
Proof.
  intros A B D N. unfold cluster_similar_elements, hierarchical_cluster, flat_cluster. rewrite A. cbn [rbind]. rewrite B. cbn [rbind]. rewrite D. cbn [rbind]. rewrite eqb_refl. destruct Z; [congruence|reflexivity].
Qed.
Lemma step1_all_fail cse elements : (forall e, In e elements -> exists x, cse e = Err x) -> step1 cse elements = [].
Proof. unfold step1. induction elements as [|e l IH]; intros H; auto. cbn [flat_map]. destruct (H e (or_introl eq_refl)) as (x & ->). apply IH. intros; apply H; cbn; auto. Qed.

(** ** Thresholds *)
Lemma index_of_split (x : N) s i : index_of x s = Some i -> exists rest, s = firstn i s ++ x :: rest /\ ~ In x (firstn i s).
Proof.
  revert i. induction s as [|y s IH]; intros i; [discriminate|]. cbn [index_of]. destruct (eqdec x y) as [-> | N].
  - intros [= <-]. exists s. split; [reflexivity|intros []].
  - destruct (index_of x s) as [k|]; [|discriminate]. intros [= <-]. destruct (IH k eq_refl) as (rest & E & J). exists rest. cbn [firstn app]. split; [now rewrite <- E|]. intros [<-|I]; [now apply N|auto].
Qed.
Lemma flat_strings fcluster mean median percentile Z s r : flat_cluster fcluster mean median percentile Z (TStr s) (u "distance") = r ->
  (s = u "mean" /\ r = Ok (fcluster Z (mean (map fst Z)))) \/ (s = u "median" /\ r = Ok (fcluster Z (median (map fst Z)))) \/
  (exists pre rest, s = pre ++ percent :: rest /\ ~ In percent pre /\
     ((exists p, int_of_str pre = Ok p /\ ((0 <= p <= 100)%Z /\ r = Ok (fcluster Z (percentile (map fst Z) p)) \/ ~ (0 <= p <= 100)%Z /\ r = Err ValueError)) \/
      exists e, int_of_str pre = Err e /\ r = Err e)) \/
  (s <> u "mean" /\ s <> u "median" /\ ~ In percent s /\ r = Err NotImplementedError).
Proof.
  intros <-. unfold flat_cluster. change (eqb (u "distance") (u "minsize")) with false. rewrite eqb_refl. cbn iota.
  destruct (eqdec s (u "mean")) as [-> | N1]; [left; rewrite eqb_refl; auto|]. rewrite (proj2 (eqb_neq _ _) N1). destruct (eqdec s (u "median")) as [-> | N2]; [right; left; rewrite eqb_refl; auto|]. rewrite (proj2 (eqb_neq _ _) N2). right. right.
  destruct (index_of percent s) as [i|] eqn:E.
  - left. destruct (index_of_split _ _ _ E) as (rest & S' & J). exists (firstn i s), rest. split; [exact S'|]. split; [exact J|]. destruct (int_of_str (firstn i s)) as [p|e]; cbn [rbind]; [|right; eauto]. left. exists p. split; [reflexivity|].
    destruct (Z.leb_spec 0 p); destruct (Z.leb_spec p 100); cbn [andb]; [left|right|right|right]; split; auto; lia.
  - right. split; [exact N1|]. split; [exact N2|]. split; [|reflexivity]. now apply index_of_None.
Qed.
Lemma flat_minsize fcluster mean median percentile Z q : exists d, flat_cluster fcluster mean median percentile Z (TNum q) (u "minsize") = Ok (fcluster Z d) /\
  ((exists pre dc post, Z = pre ++ dc :: post /\ (forall x, In x pre -> (snd x < q)%Q) /\ (q <= snd dc)%Q /\ d = fst dc) \/ (forall x, In x Z -> (snd x < q)%Q) /\ d = 1%Q).
Proof.
  unfold flat_cluster. rewrite eqb_refl. eexists. split; [reflexivity|]. induction Z as [|x Z IH]; cbn [find]; [right; split; [intros x []|reflexivity]|]. destruct (Qle_bool q (snd x)) eqn:E.
  - left. exists [], x, Z. apply Qle_bool_iff in E. split; [reflexivity|]. split; [intros y []|auto].
  - assert (L : (snd x < q)%Q) by (apply Qnot_le_lt; intros C; apply Qle_bool_iff in C; congruence). destruct IH as [(pre & dc & post & -> & A & B & C)|(A & C)].
    + left. exists (x :: pre), dc, post. split; [reflexivity|]. split; [intros y [<-|I]; auto|auto].
    + right. split; [intros y [<-|I]; auto|exact C].
Qed.
