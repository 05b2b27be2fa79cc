(** * Cleaning clusters. *)
From Coq Require Import String NArith ZArith QArith Qabs Bool Arith Permutation Sorted Lia List.
From Verif Require Import Base BaseLemmas Str CbcModel CbcSpec CbcMergeProofs.
Import ListNotations.
Local Open Scope nat_scope.

Lemma enum_nth {A} (l : list A) i x : In (i, x) (enumerate l) <-> nth_error l i = Some x.
Proof.
  unfold enumerate. assert (H : forall (l : list A) a i x, In (i, x) (combine (seq a (length l)) l) <-> a <= i /\ nth_error l (i - a) = Some x).
  { clear. induction l as [|y l IH]; intros a i x; cbn [length seq combine].
    - cbn. split; [easy|]. intros [_ H]. destruct (i - a); discriminate.
    - cbn [In]. rewrite IH. split.
      + intros [E|[H1 H2]]. * injection E as <- <-. rewrite Nat.sub_diag. auto. * split; [lia|]. replace (i - a) with (S (i - S a)) by lia. auto.
      + intros [H1 H2]. destruct (Nat.eq_dec i a) as [->|Ne]. * left. rewrite Nat.sub_diag in H2. cbn in H2. congruence. * right. split; [lia|]. replace (i - a) with (S (i - S a)) in H2 by lia. auto. }
  rewrite H. rewrite Nat.sub_0_r. split; [easy|]. intros; split; [lia|auto].
Qed.
Lemma enum_app {A} (l : list A) x : enumerate (l ++ [x]) = enumerate l ++ [(length l, x)].
Proof.
  unfold enumerate. rewrite app_length. cbn [length]. rewrite Nat.add_1_r, seq_S.
  assert (H : forall (a : list nat) (b : list A), length a = length b -> forall c d, combine (a ++ [c]) (b ++ [d]) = combine a b ++ [(c, d)]).
  { clear. induction a as [|y a IH]; intros [|z b] E c d; try discriminate; auto. cbn [app combine]. rewrite IH; auto. }
  apply H. apply seq_length.
Qed.
Lemma enum_fst {A} (l : list A) : map fst (enumerate l) = seq 0 (length l).
Proof. unfold enumerate. generalize 0. induction l as [|x l IH]; intros a; auto. cbn [length seq combine map fst]. now rewrite IH. Qed.
Lemma enum_snd {A} (l : list A) : map snd (enumerate l) = l.
Proof. unfold enumerate. generalize 0. induction l as [|x l IH]; intros a; auto. cbn [length seq combine map snd]. now rewrite IH. Qed.

(** ** The inverted index *)
Definition inv_of (d : dict pystr (list nat)) (e : pystr) : list nat := match dget d e with Some s => s | None => [] end.
Definition ii_one (c : nat) (d : dict pystr (list nat)) (e : pystr) := let s := match dget d e with Some s => s | None => [] end in dset d e (if mem c s then s else s ++ [c]).
Lemma ii_one_In c d e c' e' : In c' (inv_of (ii_one c d e) e') <-> In c' (inv_of d e') \/ (c' = c /\ e' = e).
Proof.
  unfold ii_one, inv_of. rewrite dget_dset. destruct (eqdec e' e) as [->|Ne]; [|intuition]. destruct (dget d e) as [s|]; [|cbn; intuition].
  destruct (mem c s) eqn:M; [apply mem_In in M; intuition; subst; auto|]. rewrite in_app_iff. cbn. intuition.
Qed.
Lemma ii_one_key c d e e' : In e' (dkeys (ii_one c d e)) <-> In e' (dkeys d) \/ e' = e.
Proof. unfold ii_one. rewrite dkeys_dset_In. tauto. Qed.
Lemma ii_many c l : forall d c' e', (In c' (inv_of (fold_left (ii_one c) l d) e') <-> In c' (inv_of d e') \/ (c' = c /\ In e' l)) /\ (In e' (dkeys (fold_left (ii_one c) l d)) <-> In e' (dkeys d) \/ In e' l).
Proof.
  induction l as [|e l IH]; intros d c' e'; cbn [fold_left]; [cbn; tauto|]. destruct (IH (ii_one c d e) c' e') as [-> ->]. rewrite ii_one_In, ii_one_key. cbn. intuition.
Qed.
Lemma inverted_In L c e : In c (inv_of (inverted_index L) e) <-> exists x, nth_error L c = Some x /\ In e (snd x).
Proof.
  unfold inverted_index. change (fold_left _ (enumerate L) []) with (fold_left (fun d ic => fold_left (ii_one (fst ic)) (snd (snd ic)) d) (enumerate L) []).
  assert (H : forall l d, In c (inv_of (fold_left (fun d (ic : nat * scored) => fold_left (ii_one (fst ic)) (snd (snd ic)) d) l d) e) <-> In c (inv_of d e) \/ exists x, In (c, x) l /\ In e (snd x)).
  { induction l as [|[i x] l IH]; intros d; cbn [fold_left fst snd]; [cbn; firstorder|]. rewrite IH. rewrite (proj1 (ii_many i (snd x) d c e)). cbn [In]. split.
    - intros [[H|[-> H]]|(y & H1 & H2)]; eauto.
    - intros [H|(y & [E|H1] & H2)]; eauto. injection E as -> ->. auto. }
  rewrite H. cbn. split; [intros [[]|(x & I & E)]|intros (x & I & E)]; [exists x|right; exists x]; split; auto; now apply enum_nth.
Qed.
Lemma inverted_key L e : In e (dkeys (inverted_index L)) <-> exists x, In x L /\ In e (snd x).
Proof.
  unfold inverted_index. change (fold_left _ (enumerate L) []) with (fold_left (fun d ic => fold_left (ii_one (fst ic)) (snd (snd ic)) d) (enumerate L) []).
  assert (H : forall l d, In e (dkeys (fold_left (fun d (ic : nat * scored) => fold_left (ii_one (fst ic)) (snd (snd ic)) d) l d)) <-> In e (dkeys d) \/ exists x, In x (map snd l) /\ In e (snd x)).
  { induction l as [|[i x] l IH]; intros d; cbn [fold_left fst snd map]; [cbn; firstorder|]. rewrite IH. rewrite (proj2 (ii_many i (snd x) d 0 e)). cbn [In]. split.
    - intros [[H|H]|(y & H1 & H2)]; eauto.
    - intros [H|(y & [E|H1] & H2)]; eauto. subst. auto. }
  rewrite H, enum_snd. cbn. intuition.
Qed.
Lemma common_spec d clust : match common d clust with
                            | None => clust = []
                            | Some a => clust <> [] /\ forall c, In c a <-> forall e, In e clust -> In c (inv_of d e)
                            end.
Proof.
  unfold common. induction clust as [|e l IH] using rev_ind; [reflexivity|]. rewrite fold_left_app. cbn [fold_left]. set (acc := fold_left _ l None) in *.
  split; [now destruct l|]. intros c. fold (inv_of d e). destruct acc as [a|].
  - destruct IH as [_ IH]. rewrite filter_In, mem_In, IH. split.
    + intros [A B] x Ix. apply in_app_iff in Ix as [Ix|[<-|[]]]; auto.
    + intros A. split; [intros; apply A, in_app_iff; auto|]. apply A, in_app_iff. cbn; auto.
  - subst l. cbn. split; [intros A x [<-|[]]; auto|intros A; apply A; auto].
Qed.
Lemma super_In L c : In c (superclusters L (inverted_index L)) <->
  exists i x y, nth_error L i = Some x /\ nth_error L c = Some y /\ i <> c /\ snd x <> [] /\ incl (snd x) (snd y).
Proof.
  unfold superclusters. rewrite in_flat_map. split.
  - intros ([i x] & Ii & H). apply enum_nth in Ii. cbn [fst snd] in H. pose proof (common_spec (inverted_index L) (snd x)) as S. destruct (common _ _) as [a|]; [|destruct H].
    destruct S as [Ne S]. apply filter_In in H as [H N]. apply negb_true_iff, Nat.eqb_neq in N. rewrite S in H.
    destruct (snd x) as [|e l] eqn:Ex; [congruence|]. destruct (proj1 (inverted_In L c e) (H e (or_introl eq_refl))) as (y & Ey & _). exists i, x, y. repeat split; auto; [congruence|].
    rewrite Ex. intros e' I'. apply H, inverted_In in I' as (y' & Ey' & I'). congruence.
  - intros (i & x & y & Ei & Ec & N & Ne & In_). exists (i, x). split; [now apply enum_nth|]. cbn [fst snd]. pose proof (common_spec (inverted_index L) (snd x)) as S. destruct (common _ _) as [a|]; [|congruence].
    destruct S as [_ S]. apply filter_In. split; [|apply negb_true_iff, Nat.eqb_neq; auto]. apply S. intros e Ie. apply inverted_In. exists y. split; auto.
Qed.
(** Position c is kept *)
Definition minimal (L : list scored) (c : nat) : Prop :=
  forall i x y, nth_error L i = Some x -> nth_error L c = Some y -> i <> c -> snd x <> [] -> ~ incl (snd x) (snd y).
Lemma remove_superset_positions L : exists ps, NoDup ps /\ Forall2 (fun p x => nth_error L p = Some x) ps (remove_superset L (inverted_index L)) /\
  forall p, In p ps <-> p < length L /\ minimal L p.
Proof.
  unfold remove_superset. set (keep := filter _ (enumerate L)). exists (map fst keep). split; [|split].
  - apply NoDup_map_filter. rewrite enum_fst. apply seq_NoDup.
  - assert (H : forall ix, In ix keep -> nth_error L (fst ix) = Some (snd ix)) by (intros [i x] I; apply filter_In in I as [I _]; now apply enum_nth in I).
    clearbody keep. induction keep as [|k l IH]; cbn [map]; constructor; [apply H; cbn; auto|]. apply IH. intros; apply H; cbn; auto.
  - intros p. rewrite in_map_iff. split.
    + intros ([i x] & <- & I). apply filter_In in I as [I N]. cbn [fst] in *. apply enum_nth in I. split; [apply nth_error_Some; congruence|]. apply negb_true_iff, mem_nIn in N.
      intros j a b Ea Eb Ne Na Inc. apply N, super_In. exists j, a, b. auto.
    + intros [H M]. destruct (nth_error L p) as [x|] eqn:E; [|apply nth_error_None in E; lia]. exists (p, x). split; auto. apply filter_In. split; [now apply enum_nth|]. apply negb_true_iff, mem_nIn.
      rewrite super_In. intros (i & a & b & Ea & Eb & Ne & Na & Inc). exact (M i a b Ea Eb Ne Na Inc).
Qed.
Lemma Forall2_nth {A B} (R : A -> B -> Prop) l l' : Forall2 R l l' -> forall i y, nth_error l' i = Some y -> exists x, nth_error l i = Some x /\ R x y.
Proof. induction 1; intros [|i] z E; try discriminate; cbn in *; eauto. injection E as <-. eauto. Qed.
(** No kept cluster contains another. *)
Lemma kept_antichain L i j x y : nth_error (remove_superset L (inverted_index L)) i = Some x -> nth_error (remove_superset L (inverted_index L)) j = Some y ->
  i <> j -> snd x <> [] -> ~ incl (snd x) (snd y).
Proof.
  intros Ei Ej Ne Nx. destruct (remove_superset_positions L) as (ps & Nd & F & H). destruct (Forall2_nth _ _ _ F i x Ei) as (p & Ep & Xp), (Forall2_nth _ _ _ F j y Ej) as (q & Eq & Xq).
  assert (p <> q) by (intros ->; apply Ne; apply (proj1 (NoDup_nth_error ps) Nd); [apply nth_error_Some; congruence|congruence]).
  apply (proj1 (H q)) with (i := p); auto. eapply nth_error_In; eauto.
Qed.
Lemma kept_In L x : In x (remove_superset L (inverted_index L)) -> In x L.
Proof. unfold remove_superset. rewrite in_map_iff. intros ([i y] & <- & I). apply filter_In in I as [I _]. apply enum_nth in I. cbn. eapply nth_error_In; eauto. Qed.
(** Every cluster contains a kept one, if no two are the same set. *)
Lemma kept_below L : (forall x, In x L -> snd x <> [] /\ NoDup (snd x)) -> (forall i j x y, nth_error L i = Some x -> nth_error L j = Some y -> same_set (snd x) (snd y) -> i = j) ->
  forall n x, In x L -> length (snd x) <= n -> exists k, In k (remove_superset L (inverted_index L)) /\ incl (snd k) (snd x).
Proof.
  intros Ok_ Di. destruct (remove_superset_positions L) as (ps & Nd & F & H). induction n as [|n IH]; intros x Ix Len.
  - exfalso. destruct (Ok_ x Ix) as [N _]. destruct (snd x); [congruence|cbn in Len; lia].
  - apply In_nth_error in Ix as (p & Ep). change (@nth_error scored L p = @Some scored x) in Ep. destruct (in_dec Nat.eq_dec p ps) as [Ip|Np].
    + exists x. split; [|apply incl_refl]. apply In_nth_error in Ip as (i & Ei). destruct (nth_error (remove_superset L (inverted_index L)) i) as [y|] eqn:Ey.
      * destruct (Forall2_nth _ _ _ F i y Ey) as (q & Eq & Xq). assert (q = p) by congruence. subst q. assert (E : Some x = Some y) by exact (eq_trans (eq_sym Ep) Xq). injection E as <-. eapply nth_error_In; eauto.
      * exfalso. apply nth_error_None in Ey. assert (length ps = length (remove_superset L (inverted_index L))) as Le by (clear - F; induction F; cbn; auto). assert (i < length ps) by (apply nth_error_Some; congruence). lia.
    + assert (Sx : In p (superclusters L (inverted_index L))).
      { destruct (in_dec Nat.eq_dec p (superclusters L (inverted_index L))) as [|Ns]; auto. exfalso. apply Np, H. split; [apply nth_error_Some; congruence|].
        intros i a b Ea Eb Ne Na Inc. apply Ns, super_In. exists i, a, b. auto. }
      apply super_In in Sx as (i & a & b & Ea & Eb & Ne & Na & Inc). assert (b = x) by congruence. subst b.
      assert (Ia : In a L) by (eapply nth_error_In; eauto). assert (Ix : In x L) by (eapply nth_error_In; eauto).
      destruct (IH a Ia) as (k & Ik & Ink).
      * destruct (Nat.le_gt_cases (length (snd a)) n) as [|G]; auto. exfalso. apply Ne. eapply Di; [exact Ea|exact Ep|]. intros e. split; [apply Inc|].
        revert e. change (incl (snd x) (snd a)). apply NoDup_length_incl; [apply (Ok_ a Ia)|lia|auto].
      * exists k. split; auto. eapply incl_tran; eauto.
Qed.

(** ** Duplicates *)
Lemma rd_rep prev l x : In x l -> exists y, (In y (rd_from prev l) \/ y = (fst prev, dedup (snd prev))) /\ same_set (snd y) (snd x).
Proof.
  revert prev. induction l as [|a l IH]; intros prev []; subst.
  - cbn [rd_from]. destruct (_ || _) eqn:E.
    + exists (fst x, dedup (snd x)). split; [cbn; auto|]. intros e. apply dedup_In.
    + apply orb_false_iff in E as [_ E]. apply negb_false_iff, eqb_true in E. exists (fst prev, dedup (snd prev)). split; auto. intros e. cbn [snd]. rewrite dedup_In, <- (isort_In sleb (snd prev)), <- E, isort_In. reflexivity.
  - cbn [rd_from]. destruct (_ || _) eqn:E.
    + destruct (IH a H) as (y & [Iy| ->] & S); eexists; (split; [left|exact S]); cbn; auto.
    + apply IH; auto.
Qed.
Lemma rd_In prev l y : In y (rd_from prev l) -> exists x, In x l /\ y = (fst x, dedup (snd x)).
Proof.
  revert prev. induction l as [|a l IH]; intros prev; [easy|]. cbn [rd_from]. destruct (_ || _).
  - intros [<-|I]; [exists a; cbn; auto|]. destruct (IH _ I) as (x & ? & ?). exists x; cbn; auto.
  - intros I. destruct (IH _ I) as (x & ? & ?). exists x; cbn; auto.
Qed.
Lemma dup_rep l x : In x l -> exists y, In y (remove_duplicate l) /\ same_set (snd y) (snd x).
Proof.
  destruct l as [|a l]; [easy|]. cbn [remove_duplicate]. intros [<-|I].
  - exists (fst a, dedup (snd a)). split; [cbn; auto|]. intros e. apply dedup_In.
  - destruct (rd_rep a l x I) as (y & [Iy| ->] & S); eexists; (split; [|exact S]); cbn; auto.
Qed.
Lemma dup_In l y : In y (remove_duplicate l) -> exists x, In x l /\ y = (fst x, dedup (snd x)).
Proof.
  destruct l as [|a l]; [easy|]. cbn [remove_duplicate]. intros [<-|I]; [exists a; cbn; auto|]. destruct (rd_In _ _ _ I) as (x & ? & ?). exists x; cbn; auto.
Qed.
Lemma isort_same (a b : list pystr) : NoDup a -> NoDup b -> same_set a b -> isort sleb a = isort sleb b.
Proof.
  intros Na Nb S. apply (sorted_perm_unique (fun x y => sleb x y = true)).
  - intros x y _ _. apply sleb_antisym.
  - apply isort_sorted; [apply sleb_total|apply sleb_trans].
  - apply isort_sorted; [apply sleb_total|apply sleb_trans].
  - rewrite <- !isort_perm. apply NoDup_Permutation; auto.
Qed.
Lemma close_eq a b : (a == b)%Q -> close a b = true.
Proof.
  intros E. unfold close. apply Qle_bool_iff. assert (H : (a - b == 0)%Q) by (rewrite E; ring). assert (H' : (b - a == 0)%Q) by (rewrite E; ring).
  destruct (Qle_bool 0 (a - b)); [rewrite H|rewrite H']; discriminate.
Qed.
(** Clusters are equal exactly if their scores are. *)
Definition told_apart (l : list scored) : Prop := forall x y, In x l -> In y l -> (same_set (snd x) (snd y) <-> (fst x == fst y)%Q).
Definition desc (l : list scored) : Prop := StronglySorted (fun a b => (fst b <= fst a)%Q) l.
Lemma rd_strict prev l : told_apart (prev :: l) -> (forall x, In x (prev :: l) -> NoDup (snd x)) -> desc (prev :: l) ->
  Forall (fun y => (fst y < fst prev)%Q) (rd_from prev l) /\ StronglySorted (fun a b => (fst b < fst a)%Q) (rd_from prev l).
Proof.
  revert prev. induction l as [|a l IH]; intros prev T N D; [cbn; split; constructor|]. cbn [rd_from].
  inversion D as [|? ? D' F]; subst. rewrite Forall_forall in F. assert (Fa := F a (or_introl eq_refl)).
  destruct (_ || _) eqn:E.
  - assert (Lt : (fst a < fst prev)%Q).
    { apply Qle_lteq in Fa. destruct Fa as [|Eq]; auto. exfalso. assert (S : same_set (snd a) (snd prev)) by (apply T; cbn; auto).
      rewrite (close_eq _ _ Eq), (isort_same (snd a) (snd prev)), eqb_refl in E; [discriminate|apply N; cbn; auto|apply N; cbn; auto|auto]. }
    destruct (IH a) as [F1 S1]; [intros x y Ix Iy; apply T; cbn in *; tauto|intros x Ix; apply N; cbn in *; tauto|auto|].
    split.
    + constructor; auto. eapply Forall_impl; [|exact F1]. intros y Hy. cbn beta in Hy. eapply Qlt_trans; eauto.
    + constructor; auto.
  - apply IH.
    + intros x y Ix Iy. apply T; cbn in *; tauto.
    + intros x Ix. apply N; cbn in *; tauto.
    + inversion D' as [|? ? D'' F']; subst. constructor; auto. apply Forall_forall. intros x Ix. apply F. cbn; auto.
Qed.
Lemma dup_strict l : told_apart l -> (forall x, In x l -> NoDup (snd x)) -> desc l -> StronglySorted (fun a b => (fst b < fst a)%Q) (remove_duplicate l).
Proof.
  destruct l as [|a l]; intros T N D; [constructor|]. cbn [remove_duplicate]. destruct (rd_strict a l T N D) as [F S]. constructor; auto.
Qed.
Lemma sorted_nth {A} (R : A -> A -> Prop) l : StronglySorted R l -> forall i j x y, i < j -> nth_error l i = Some x -> nth_error l j = Some y -> R x y.
Proof.
  induction 1 as [|a l S IH F]; intros [|i] [|j] x y Lt Ei Ej; try discriminate; try lia; cbn in *.
  - injection Ei as <-. rewrite Forall_forall in F. apply F. eapply nth_error_In; eauto.
  - eapply (IH i j); eauto. lia.
Qed.
Lemma dup_distinct l : told_apart l -> (forall x, In x l -> NoDup (snd x)) -> desc l ->
  forall i j x y, nth_error (remove_duplicate l) i = Some x -> nth_error (remove_duplicate l) j = Some y -> same_set (snd x) (snd y) -> i = j.
Proof.
  intros T N D i j x y Ei Ej S. pose proof (dup_strict l T N D) as St.
  assert (Eq : (fst x == fst y)%Q).
  { destruct (dup_In l x (nth_error_In _ _ Ei)) as (x' & Ix & ->), (dup_In l y (nth_error_In _ _ Ej)) as (y' & Iy & ->). cbn [fst snd] in *. apply T; auto. intros e. specialize (S e). rewrite !dedup_In in S. auto. }
  destruct (Nat.lt_trichotomy i j) as [L|[L|L]]; auto; exfalso.
  - apply (sorted_nth _ _ St i j x y L Ei) in Ej. rewrite Eq in Ej. now apply Qlt_irrefl in Ej.
  - apply (sorted_nth _ _ St j i y x L Ej) in Ei. rewrite Eq in Ei. now apply Qlt_irrefl in Ei.
Qed.

(** ** clean_clusters *)
Definition sorted_L (L : list scored) := isort (fun a b : scored => Qle_bool (fst b) (fst a)) L.
Lemma sorted_desc L : desc (sorted_L L).
Proof.
  unfold sorted_L, desc. eapply StronglySorted_ind with (P := fun l => StronglySorted (fun a b : scored => (fst b <= fst a)%Q) l) (R := fun a b : scored => Qle_bool (fst b) (fst a) = true).
  - constructor.
  - intros a l _ IH F. constructor; auto. eapply Forall_impl; [|exact F]. intros b. apply Qle_bool_iff.
  - apply isort_sorted.
    + intros a b. rewrite !Qle_bool_iff. destruct (Qlt_le_dec (fst a) (fst b)) as [H|H]; auto. right. now apply Qlt_le_weak.
    + intros a b c. rewrite !Qle_bool_iff. intros; eapply Qle_trans; eauto.
Qed.
Lemma take_drop {A} (p : A -> bool) l : take_while p l ++ drop_while p l = l.
Proof. induction l as [|x l IH]; auto. cbn [take_while drop_while]. destruct (p x); auto. cbn [app]. now rewrite IH. Qed.
Lemma take_all {A} (p : A -> bool) l x : In x (take_while p l) -> p x = true.
Proof. induction l as [|y l IH]; [easy|]. cbn [take_while]. destruct (p y) eqn:E; [|easy]. intros [<-|]; auto. Qed.
Lemma drop_head {A} (p : A -> bool) l : match drop_while p l with [] => True | x :: _ => p x = false end.
Proof. induction l as [|y l IH]; cbn [drop_while]; auto. destruct (p y) eqn:E; auto. Qed.
Lemma positive_In L x : In x (take_while (fun x : scored => qlt 0 (fst x)) (sorted_L L)) <-> In x L /\ (0 < fst x)%Q.
Proof.
  pose proof (take_drop (fun x : scored => qlt 0 (fst x)) (sorted_L L)) as TD. split.
  - intros I. split; [|apply qlt_iff; eapply (take_all (fun x : scored => qlt 0 (fst x))); eauto]. apply (isort_In (fun a b : scored => Qle_bool (fst b) (fst a)) L x). fold (sorted_L L). rewrite <- TD. apply in_app_iff; auto.
  - intros [I P]. apply (isort_In (fun a b : scored => Qle_bool (fst b) (fst a)) L x) in I. fold (sorted_L L) in I. rewrite <- TD in I. apply in_app_iff in I as [I|I]; auto. exfalso.
    pose proof (sorted_desc L) as D. unfold desc in D. rewrite <- TD in D. apply sorted_app in D as (_ & D & _). pose proof (drop_head (fun x : scored => qlt 0 (fst x)) (sorted_L L)) as H.
    destruct (drop_while _ (sorted_L L)) as [|h l]; [destruct I|]. apply qlt_false in H. assert (Lx : (fst x <= fst h)%Q).
    { destruct I as [<-|I]; [apply Qle_refl|]. inversion D as [|? ? _ F]; subst. rewrite Forall_forall in F. now apply F. }
    eapply Qlt_not_le; [exact P|]. eapply Qle_trans; eauto.
Qed.
Lemma nonpositive_In L x : In x (drop_while (fun x : scored => qlt 0 (fst x)) (sorted_L L)) <-> In x L /\ (fst x <= 0)%Q.
Proof.
  pose proof (take_drop (fun x : scored => qlt 0 (fst x)) (sorted_L L)) as TD. split.
  - intros I. assert (IL : In x L) by (apply (isort_In (fun a b : scored => Qle_bool (fst b) (fst a)) L x); fold (sorted_L L); rewrite <- TD; apply in_app_iff; auto). split; auto.
    pose proof (sorted_desc L) as D. unfold desc in D. rewrite <- TD in D. apply sorted_app in D as (_ & D & _). pose proof (drop_head (fun x : scored => qlt 0 (fst x)) (sorted_L L)) as H.
    destruct (drop_while _ (sorted_L L)) as [|h l]; [destruct I|]. apply qlt_false in H.
    destruct I as [<-|I]; auto. inversion D as [|? ? _ F]; subst. rewrite Forall_forall in F. eapply Qle_trans; [now apply F|auto].
  - intros [I P]. apply (isort_In (fun a b : scored => Qle_bool (fst b) (fst a)) L x) in I. fold (sorted_L L) in I. rewrite <- TD in I. apply in_app_iff in I as [I|I]; auto. exfalso.
    apply take_all in I. apply qlt_iff in I. eapply Qlt_not_le; eauto.
Qed.
Lemma clean_antichain L i j x y : nth_error (fst (clean_clusters L)) i = Some x -> nth_error (fst (clean_clusters L)) j = Some y -> i <> j -> snd x <> [] -> ~ incl (snd x) (snd y).
Proof. apply kept_antichain. Qed.
Lemma clean_sound L k : In k (fst (clean_clusters L)) -> exists x, In x L /\ (0 < fst x)%Q /\ fst k = fst x /\ same_set (snd k) (snd x) /\ NoDup (snd k).
Proof.
  intros I. apply kept_In, dup_In in I as (x & Ix & ->). apply positive_In in Ix as [Ix P]. exists x. repeat split; auto; cbn [snd]; try apply dedup_In; auto. apply dedup_NoDup.
Qed.
Lemma clean_covers L : (forall x, In x L -> (0 < fst x)%Q -> snd x <> [] /\ NoDup (snd x)) ->
  (forall x y, In x L -> In y L -> (0 < fst x)%Q -> (0 < fst y)%Q -> (same_set (snd x) (snd y) <-> (fst x == fst y)%Q)) ->
  forall x, In x L -> (0 < fst x)%Q -> exists k, In k (fst (clean_clusters L)) /\ incl (snd k) (snd x).
Proof.
  intros Ok_ T x Ix P. set (P_ := take_while (fun x : scored => qlt 0 (fst x)) (sorted_L L)).
  assert (Ip : In x P_) by now apply positive_In. destruct (dup_rep P_ x Ip) as (y & Iy & S).
  assert (D : desc P_). { pose proof (sorted_desc L) as D. unfold desc in D. rewrite <- (take_drop (fun x : scored => qlt 0 (fst x)) (sorted_L L)) in D. now apply sorted_app in D as (D & _). }
  destruct (kept_below (remove_duplicate P_)) with (n := length (snd y)) (x := y) as (k & Ik & Inc); auto.
  - intros z Iz. apply dup_In in Iz as (w & Iw & ->). apply positive_In in Iw as [Iw Pw]. cbn [snd]. split; [|apply dedup_NoDup]. destruct (Ok_ w Iw Pw) as [N _]. intros C. destruct (snd w) as [|e l]; [congruence|discriminate].
  - apply dup_distinct; auto; [intros a b Ia Ib; apply positive_In in Ia as [? ?]; apply positive_In in Ib as [? ?]; auto|intros a Ia; apply positive_In in Ia as [? ?]; now apply Ok_].
  - exists k. split; [exact Ik|]. intros e Ie. apply S, Inc, Ie.
Qed.
Lemma clean_singletons L e : In e (snd (clean_clusters L)) <->
  (exists x rest, In x L /\ (fst x <= 0)%Q /\ snd x = e :: rest) /\ forall y, In y L -> (0 < fst y)%Q -> ~ In e (snd y).
Proof.
  unfold clean_clusters. cbn [snd]. unfold remove_singleton. rewrite filter_In, dedup_In, in_flat_map, negb_true_iff, dmem_nIn, inverted_key. fold (sorted_L L). split.
  - intros [(x & Ix & He) N]. apply nonpositive_In in Ix as [Ix Px]. split.
    + destruct (snd x) as [|a l] eqn:E; [destruct He|]. destruct He as [<-|[]]. eauto.
    + intros y Iy Py C. apply N. destruct (dup_rep _ y (proj2 (positive_In L y) (conj Iy Py))) as (z & Iz & S). exists z. split; auto. now apply S.
  - intros [(x & rest & Ix & Px & Ex) N]. split.
    + exists x. split; [now apply nonpositive_In|]. rewrite Ex. cbn; auto.
    + intros (z & Iz & Ie). apply dup_In in Iz as (w & Iw & ->). apply positive_In in Iw as [Iw Pw]. cbn [snd] in Ie. apply (proj1 (dedup_In _ _)) in Ie. exact (N w Iw Pw Ie).
Qed.
