(** * Lemmas about the Python fragment of [Base]. *)
From Coq Require Import String Ascii NArith ZArith Bool Arith List Lia Permutation Sorted.
From Verif Require Import Base.
Import ListNotations.

Lemma eqb_eq {A} `{EqDec A} (x y : A) : eqb x y = true <-> x = y.
Proof. unfold eqb. destruct (eqdec x y); split; congruence. Qed.
Lemma eqb_neq {A} `{EqDec A} (x y : A) : eqb x y = false <-> x <> y.
Proof. unfold eqb. destruct (eqdec x y); split; congruence. Qed.
Lemma eqb_true {A} `{EqDec A} (x y : A) : eqb x y = true -> x = y.
Proof. apply eqb_eq. Qed.
Lemma eqb_refl {A} `{EqDec A} (x : A) : eqb x x = true.
Proof. apply eqb_eq; reflexivity. Qed.

Lemma mem_In {A} `{EqDec A} (x : A) l : mem x l = true <-> In x l.
Proof.
  unfold mem. rewrite existsb_exists. split.
  - intros (y & Hy & E). apply eqb_true in E. subst x. exact Hy.
  - intros Hx. exists x. split; auto. apply eqb_refl.
Qed.
Lemma mem_nIn {A} `{EqDec A} (x : A) l : mem x l = false <-> ~ In x l.
Proof. rewrite <- mem_In. destruct (mem x l); split; congruence. Qed.

(** ** Strings *)
Lemma scmp_refl a : scmp a a = Eq.
Proof. induction a; cbn; auto. rewrite N.compare_refl; auto. Qed.
Lemma scmp_eq a b : scmp a b = Eq -> a = b.
Proof.
  revert b; induction a as [|x a IH]; intros [|y b]; cbn; try congruence.
  destruct (N.compare x y) eqn:E; try congruence.
  apply N.compare_eq_iff in E. intros Hs. f_equal; auto.
Qed.
Lemma scmp_opp a b : scmp b a = CompOpp (scmp a b).
Proof.
  revert b; induction a as [|x a IH]; intros [|y b]; cbn; auto.
  rewrite (N.compare_antisym x y). destruct (N.compare x y); cbn; auto.
Qed.
Lemma scmp_lt_trans a b c : scmp a b = Lt -> scmp b c = Lt -> scmp a c = Lt.
Proof.
  revert b c; induction a as [|x a IH]; intros [|y b] [|z c]; cbn; try congruence.
  destruct (N.compare x y) eqn:E1; destruct (N.compare y z) eqn:E2; try congruence; intros H1 H2.
  - apply N.compare_eq_iff in E1, E2. subst. rewrite N.compare_refl. eauto.
  - apply N.compare_eq_iff in E1. subst. rewrite E2. auto.
  - apply N.compare_eq_iff in E2. subst. rewrite E1. auto.
  - rewrite N.compare_lt_iff in E1, E2.
    assert (N.compare x z = Lt) as -> by (apply N.compare_lt_iff; lia). auto.
Qed.
Lemma sleb_refl a : sleb a a = true.
Proof. unfold sleb. rewrite scmp_refl; auto. Qed.
Lemma sleb_total a b : sleb a b = true \/ sleb b a = true.
Proof. unfold sleb. rewrite (scmp_opp a b). destruct (scmp a b); cbn; auto. Qed.
Lemma sleb_antisym a b : sleb a b = true -> sleb b a = true -> a = b.
Proof.
  unfold sleb. rewrite (scmp_opp a b). destruct (scmp a b) eqn:E; cbn; try congruence.
  intros; apply scmp_eq; auto.
Qed.
Lemma sleb_trans a b c : sleb a b = true -> sleb b c = true -> sleb a c = true.
Proof.
  unfold sleb. destruct (scmp a b) eqn:E1; destruct (scmp b c) eqn:E2; try congruence; intros _ _.
  - apply scmp_eq in E1; subst. rewrite E2; auto.
  - apply scmp_eq in E1; subst. rewrite E2; auto.
  - apply scmp_eq in E2; subst. rewrite E1; auto.
  - rewrite (scmp_lt_trans _ _ _ E1 E2); auto.
Qed.
Lemma sltb_sleb a b : sltb a b = negb (sleb b a).
Proof. unfold sltb, sleb. rewrite (scmp_opp a b). destruct (scmp a b); auto. Qed.

(** ** Dictionaries *)
Section Dict.
  Context {K V : Type} `{EqDec K}.
  Implicit Types d : dict K V.

  Lemma dget_dset d k v k' : dget (dset d k v) k' = if eqdec k' k then Some v else dget d k'.
  Proof.
    induction d as [|[k0 v0] d IH]; cbn.
    - destruct (eqdec k' k); auto.
    - destruct (eqdec k k0) as [->|n]; cbn.
      + destruct (eqdec k' k0); auto.
      + rewrite IH. destruct (eqdec k' k0), (eqdec k' k); subst; auto; congruence.
  Qed.
  Lemma dget_dset_same d k v : dget (dset d k v) k = Some v.
  Proof. rewrite dget_dset. destruct (eqdec k k); congruence. Qed.
  Lemma dget_dset_other d k v k' : k' <> k -> dget (dset d k v) k' = dget d k'.
  Proof. intros. rewrite dget_dset. destruct (eqdec k' k); congruence. Qed.

  Lemma dget_None d k : dget d k = None <-> ~ In k (dkeys d).
  Proof.
    induction d as [|[k0 v0] d IH]; cbn; [tauto|].
    destruct (eqdec k k0); subst; [split; [congruence|tauto]|].
    rewrite IH. split; [intros ? [?|?]; [congruence|tauto]|tauto].
  Qed.
  Lemma dget_Some_key d k v : dget d k = Some v -> In k (dkeys d).
  Proof.
    intros E. destruct (in_dec eqdec k (dkeys d)) as [|n]; auto.
    apply dget_None in n. congruence.
  Qed.
  Lemma dget_key_Some d k : In k (dkeys d) -> exists v, dget d k = Some v.
  Proof. intros Hk. destruct (dget d k) eqn:E; eauto. apply dget_None in E. tauto. Qed.
  Lemma dmem_In d k : dmem d k = true <-> In k (dkeys d).
  Proof.
    unfold dmem. destruct (dget d k) eqn:E.
    - split; auto. intros _. eapply dget_Some_key; eauto.
    - apply dget_None in E. split; [congruence|tauto].
  Qed.
  Lemma dmem_nIn d k : dmem d k = false <-> ~ In k (dkeys d).
  Proof. rewrite <- dmem_In. destruct (dmem d k); split; congruence. Qed.
  Lemma dget_Some_In d k v : dget d k = Some v -> In (k, v) d.
  Proof.
    induction d as [|[k0 v0] d IH]; cbn; [congruence|].
    destruct (eqdec k k0); subst; intros E; [injection E as <-|]; auto.
  Qed.
  Lemma dget_In d k v : dwf d -> In (k, v) d <-> dget d k = Some v.
  Proof.
    intros W; split; [|apply dget_Some_In]. unfold dwf in W.
    induction d as [|[k0 v0] d IH]; cbn in *; [tauto|]. inversion W; subst.
    intros [E|E].
    - injection E as -> ->. destruct (eqdec k k); congruence.
    - destruct (eqdec k k0) as [->|]; auto.
      exfalso. apply H2. change k0 with (fst (k0, v)). apply in_map; auto.
  Qed.
  Lemma dkeys_dset d k v : dkeys (dset d k v) = if dmem d k then dkeys d else dkeys d ++ [k].
  Proof.
    unfold dmem, dkeys. induction d as [|[k0 v0] d IH]; cbn; auto.
    destruct (eqdec k k0); cbn; auto. rewrite IH. destruct (dget d k); auto.
  Qed.
  Lemma dkeys_dset_In d k v k' : In k' (dkeys (dset d k v)) <-> k' = k \/ In k' (dkeys d).
  Proof.
    rewrite dkeys_dset. destruct (dmem d k) eqn:E.
    - apply dmem_In in E. intuition (subst; auto).
    - rewrite in_app_iff; cbn; intuition (subst; auto).
  Qed.
  Lemma dwf_dset d k v : dwf d -> dwf (dset d k v).
  Proof.
    unfold dwf. rewrite dkeys_dset. destruct (dmem d k) eqn:E; auto. intros W.
    apply dmem_nIn in E.
    apply (Permutation_NoDup (l := k :: dkeys d)).
    - apply Permutation_cons_append.
    - constructor; auto.
  Qed.
  Lemma dwf_nil : @dwf K V [].
  Proof. constructor. Qed.
  Lemma dwf_dupdate d d2 : dwf d -> dwf (dupdate d d2).
  Proof.
    unfold dupdate. revert d; induction d2 as [|[k v] d2 IH]; cbn; auto.
    intros d W. apply IH. apply dwf_dset; auto.
  Qed.
  Lemma dwf_dict_of (l : list (K * V)) : dwf (dict_of l).
  Proof. apply (dwf_dupdate [] l dwf_nil). Qed.

  Lemma dget_dupdate d d2 k :
    dget (dupdate d d2) k = match dget (rev d2) k with Some v => Some v | None => dget d k end.
  Proof.
    unfold dupdate. revert d; induction d2 as [|[k0 v0] d2 IH] using rev_ind; intros d; cbn; auto.
    rewrite fold_left_app, rev_unit. cbn. rewrite dget_dset.
    destruct (eqdec k k0); auto.
  Qed.

  Lemma dget_ext_keys d d' : (forall k, dget d k = dget d' k) -> forall k, In k (dkeys d) <-> In k (dkeys d').
  Proof.
    intros E k. split; intros Hk; apply dget_key_Some in Hk as [v Hv];
      [rewrite E in Hv|rewrite <- E in Hv]; eapply dget_Some_key; eauto.
  Qed.
  Lemma dget_ext_perm d d' : dwf d -> dwf d' -> (forall k, dget d k = dget d' k) -> Permutation d d'.
  Proof.
    intros W W' E. apply NoDup_Permutation.
    - unfold dwf, dkeys in W. eapply NoDup_map_inv; eauto.
    - unfold dwf, dkeys in W'. eapply NoDup_map_inv; eauto.
    - intros [k v]. rewrite !dget_In by auto. rewrite E. tauto.
  Qed.
  Lemma dget_perm d d' : dwf d -> Permutation d d' -> forall k, dget d k = dget d' k.
  Proof.
    intros W P k.
    assert (W' : dwf d') by (unfold dwf, dkeys in *; eapply Permutation_NoDup; [apply Permutation_map, P|auto]).
    destruct (dget d k) eqn:E.
    - apply dget_In in E; auto. symmetry. apply dget_In; auto. eapply Permutation_in; eauto.
    - destruct (dget d' k) eqn:E'; auto.
      apply dget_In in E'; auto. apply Permutation_sym in P. eapply Permutation_in in E'; eauto.
      apply dget_In in E'; auto. congruence.
  Qed.
  Lemma dget_filter d (f : K * V -> bool) k : dwf d ->
    dget (filter f d) k = match dget d k with Some v => if f (k, v) then Some v else None | None => None end.
  Proof.
    unfold dwf. induction d as [|[k0 v0] d IH]; cbn; auto. intros W. inversion W; subst.
    destruct (f (k0, v0)) eqn:F; cbn.
    - destruct (eqdec k k0); subst; auto. rewrite F; auto.
    - destruct (eqdec k k0); subst; auto. rewrite F.
      rewrite IH by auto. apply dget_None in H2. rewrite H2; auto.
  Qed.
  Lemma dkeys_filter_incl d (f : K * V -> bool) : incl (dkeys (filter f d)) (dkeys d).
  Proof. intros k Hk. unfold dkeys in *. apply in_map_iff in Hk as (x & <- & Hx). apply filter_In in Hx. apply in_map; tauto. Qed.
  Lemma NoDup_map_filter {A B} (g : A -> B) (f : A -> bool) l : NoDup (map g l) -> NoDup (map g (filter f l)).
  Proof.
    induction l; cbn; auto. intros W; inversion W; subst. destruct (f a); cbn; auto.
    constructor; auto. intros Hi. apply H2. apply in_map_iff in Hi as (x & <- & Hx).
    apply in_map. apply filter_In in Hx; tauto.
  Qed.
  Lemma dwf_filter d (f : K * V -> bool) : dwf d -> dwf (filter f d).
  Proof. apply NoDup_map_filter. Qed.
End Dict.

(** ** Sorting *)
Section Sort.
  Context {A : Type} (leb : A -> A -> bool).
  Hypothesis leb_total : forall x y, leb x y = true \/ leb y x = true.
  Hypothesis leb_trans : forall x y z, leb x y = true -> leb y z = true -> leb x z = true.

  Lemma insert_perm x l : Permutation (x :: l) (insert leb x l).
  Proof.
    induction l as [|y l IH]; cbn; auto. destruct (leb x y); auto.
    rewrite perm_swap. apply perm_skip, IH.
  Qed.
  Lemma isort_perm l : Permutation l (isort leb l).
  Proof. induction l; cbn; auto. rewrite <- insert_perm. apply perm_skip; auto. Qed.
  Lemma insert_sorted x l : StronglySorted (fun a b => leb a b = true) l ->
    StronglySorted (fun a b => leb a b = true) (insert leb x l).
  Proof.
    induction 1 as [|y l S IH F]; cbn; [repeat constructor|].
    destruct (leb x y) eqn:E.
    - constructor; [constructor; auto|]. constructor; auto.
      eapply Forall_impl; [|exact F]. intros z Hz. eapply leb_trans; eauto.
    - constructor; auto.
      assert (leb y x = true) by (destruct (leb_total x y); congruence).
      eapply (Permutation_Forall (insert_perm x l)). constructor; auto.
  Qed.
  Lemma isort_sorted l : StronglySorted (fun a b => leb a b = true) (isort leb l).
  Proof. induction l; cbn; [constructor|]. apply insert_sorted; auto. Qed.
  Lemma isort_length l : length (isort leb l) = length l.
  Proof. symmetry. apply Permutation_length, isort_perm. Qed.
  Lemma isort_In l x : In x (isort leb l) <-> In x l.
  Proof. split; apply Permutation_in; [symmetry|]; apply isort_perm. Qed.
End Sort.

Lemma sorted_perm_unique {A} (R : A -> A -> Prop) (l l' : list A) :
  (forall x y, In x l -> In y l -> R x y -> R y x -> x = y) ->
  StronglySorted R l -> StronglySorted R l' -> Permutation l l' -> l = l'.
Proof.
  revert l'. induction l as [|x l IH]; intros l' AS S S' P.
  - apply Permutation_nil in P. auto.
  - destruct l' as [|y l']; [apply Permutation_sym, Permutation_nil in P; congruence|].
    inversion S as [|? ? Sl Fl]; inversion S' as [|? ? Sl' Fl']; subst.
    assert (E : x = y).
    { assert (Iy : In y (x :: l)) by (eapply Permutation_in; [apply Permutation_sym, P|left; auto]).
      assert (Ix : In x (y :: l')) by (eapply Permutation_in; [apply P|left; auto]).
      destruct Iy as [|Iy]; auto. destruct Ix as [|Ix]; auto.
      apply AS; cbn; auto.
      - rewrite Forall_forall in Fl; auto.
      - rewrite Forall_forall in Fl'; auto. }
    subst y. f_equal. apply IH; auto.
    + intros; apply AS; cbn; auto.
    + eapply Permutation_cons_inv; eauto.
Qed.

(** ** Counting and sums *)
Lemma count_app {A} `{EqDec A} (x : A) l l' : count x (l ++ l') = count x l + count x l'.
Proof. induction l; cbn; auto. rewrite IHl. lia. Qed.
Lemma count_In {A} `{EqDec A} (x : A) l : In x l <-> count x l > 0.
Proof.
  induction l as [|y l IH]; cbn; [split; [tauto|lia]|].
  destruct (eqdec x y); subst.
  - split; [lia|auto].
  - rewrite <- (Nat.add_0_l (count x l)) in IH. split; intros.
    + destruct H0; [congruence|tauto].
    + right; tauto.
Qed.
Lemma count_nIn {A} `{EqDec A} (x : A) l : ~ In x l <-> count x l = 0.
Proof. rewrite count_In. lia. Qed.
Lemma count_perm {A} `{EqDec A} (x : A) l l' : Permutation l l' -> count x l = count x l'.
Proof. induction 1; cbn; lia. Qed.

Lemma sumZ_app l l' : sumZ (l ++ l') = (sumZ l + sumZ l')%Z.
Proof. induction l; cbn; auto. rewrite IHl. lia. Qed.
Lemma sumZ_perm l l' : Permutation l l' -> sumZ l = sumZ l'.
Proof. induction 1; cbn; lia. Qed.
Lemma sumn_app l l' : sumn (l ++ l') = sumn l + sumn l'.
Proof. induction l; cbn; auto. rewrite IHl. lia. Qed.
Lemma sumn_perm l l' : Permutation l l' -> sumn l = sumn l'.
Proof. induction 1; cbn; lia. Qed.

Lemma dedup_In {A} `{EqDec A} (l : list A) x : In x (dedup l) <-> In x l.
Proof.
  induction l as [|y l IH]; cbn; [tauto|]. rewrite filter_In, IH.
  destruct (eqdec y x) as [->|n]; [tauto|].
  rewrite (proj2 (eqb_neq y x) n). cbn. split; [tauto|]. intros [?|?]; [congruence|tauto].
Qed.
Lemma dedup_NoDup {A} `{EqDec A} (l : list A) : NoDup (dedup l).
Proof.
  induction l as [|y l IH]; cbn; constructor.
  - rewrite filter_In, eqb_refl. cbn. intros [_ ?]. congruence.
  - apply NoDup_filter; auto.
Qed.

Lemma index_of_Some {A} `{EqDec A} (x : A) l i : index_of x l = Some i -> nth_error l i = Some x /\ forall j, j < i -> nth_error l j <> Some x.
Proof.
  revert i. induction l as [|y l IH]; cbn; [congruence|]. intros i.
  destruct (eqdec x y); subst.
  - intros E; injection E as <-. split; auto. intros; lia.
  - destruct (index_of x l) eqn:E; cbn; [|congruence]. intros E'; injection E' as <-.
    destruct (IH _ eq_refl) as [I1 I2]. split; auto. intros [|j] Hj; cbn; [congruence|]. apply I2; lia.
Qed.
Lemma index_of_None {A} `{EqDec A} (x : A) l : index_of x l = None <-> ~ In x l.
Proof.
  induction l as [|y l IH]; cbn; [tauto|]. destruct (eqdec x y); subst; [split; [congruence|tauto]|].
  destruct (index_of x l); cbn; split; try congruence; intros.
  - exfalso. apply H0. right. destruct (in_dec eqdec x l); auto. apply IH in n1. congruence.
  - intros [?|?]; [congruence|]. tauto.
Qed.
Lemma index_of_nth {A} `{EqDec A} (l : list A) i x : NoDup l -> nth_error l i = Some x -> index_of x l = Some i.
Proof.
  intros ND. revert i; induction ND as [|y l Hn ND IH]; intros [|i]; cbn; try congruence; intros E.
  - injection E as ->. destruct (eqdec x x); congruence.
  - destruct (eqdec x y) as [->|].
    + exfalso. apply Hn. eapply nth_error_In; eauto.
    + rewrite (IH _ E); auto.
Qed.
Lemma index_of_In {A} `{EqDec A} (x : A) l : In x l -> exists i, index_of x l = Some i /\ i < length l.
Proof.
  intros Hx. destruct (index_of x l) as [i|] eqn:E.
  - exists i; split; auto. apply index_of_Some in E as [E _]. apply nth_error_Some. congruence.
  - apply index_of_None in E. tauto.
Qed.

Lemma NoDup_app' {A} (a b : list A) : NoDup a -> NoDup b -> (forall x, In x a -> In x b -> False) -> NoDup (a ++ b).
Proof.
  induction a as [|x a IH]; cbn; intros Na Nb D; auto. inversion Na; subst. constructor.
  - rewrite in_app_iff. intros [I|I]; [auto|]. eapply D; eauto.
  - apply IH; auto. intros y I I'. eapply D; eauto.
Qed.
Lemma NoDup_list_prod {A B} (a : list A) (b : list B) : NoDup a -> NoDup b -> NoDup (list_prod a b).
Proof.
  induction a as [|x a IH]; intros Na Nb; cbn; [constructor|]. inversion Na as [|? ? NI Na']; subst.
  apply NoDup_app'; auto.
  - clear - Nb. induction b as [|y b IHb]; cbn; [constructor|]. inversion Nb; subst. constructor; auto.
    rewrite in_map_iff. intros (z & E & I). injection E as ->. auto.
  - intros [p q] I I'. apply in_map_iff in I. destruct I as (? & E & ?). injection E as -> ->.
    apply in_prod_iff in I'. tauto.
Qed.
