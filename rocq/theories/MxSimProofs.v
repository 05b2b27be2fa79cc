(** * most_similar: proofs. *)
From Coq Require Import NArith ZArith Bool Arith Lia Permutation List.
From Verif Require Import Base BaseLemmas MxModel MxSpec MxProofs MxTtmProofs MxSimModel.
Import ListNotations.

Section SimProofs.
  Context {V : Type} {NV : Num V}.
  Implicit Types (row : list V) (mx : list (list V)).
  (** Closer: smaller distance, or larger similarity when descending. *)
  Definition closer (descending : bool) (x y : V) : bool := if descending then vltb y x else vltb x y.

  Lemma nth_error_firstn_lt {A} (l : list A) k i x : nth_error (firstn k l) i = Some x <-> nth_error l i = Some x /\ i < k.
  Proof.
    revert k i. induction l as [|a l IH]; intros [|k] i; cbn.
    - destruct i; cbn; split; [discriminate|intros [? ?]; lia|discriminate|intros [? ?]; lia].
    - destruct i; cbn; split; try discriminate; intros [? _]; discriminate.
    - destruct i; cbn; split; [discriminate|intros [? ?]; lia|discriminate|intros [? ?]; lia].
    - destruct i; cbn; [split; [intros; split; [assumption|lia]|tauto]|]. rewrite IH. split; intros [? ?]; split; auto; lia.
  Qed.
  Lemma nth_error_skipn {A} (l : list A) k i : nth_error (skipn k l) i = nth_error l (k + i).
  Proof. revert l. induction k as [|k IH]; intros l; [reflexivity|]. destruct l; cbn; [now destruct i|apply IH]. Qed.

  (** The positions selected are distinct, valid, and no position left out is closer. *)
  Lemma selected row k (desc : bool) p : partition_for row k desc p ->
    let ix := if desc then get_largest_k row (S k) p else get_smallest_k row (S k) p in
    NoDup ix /\ (forall i, In i ix -> i < length row) /\ length ix = Nat.min (S k) (length row)
    /\ forall i j, In i ix -> j < length row -> ~ In j ix -> closer desc (rowv row j) (rowv row i) = false.
  Proof.
    intros P. cbv zeta. unfold get_largest_k, get_smallest_k. destruct (Nat.leb_spec (length row) (S k)) as [L|L].
    - assert (X : forall b : bool, (if b then seq 0 (length row) else seq 0 (length row)) = seq 0 (length row)) by (intros []; reflexivity).
      rewrite X. split; [apply seq_NoDup|]. split; [intros i I; apply in_seq in I; lia|]. split; [rewrite seq_length; lia|].
      intros i j _ Lj N. exfalso. apply N, in_seq. lia.
    - destruct (P L) as (PM & LO & HI). assert (LP : length p = length row) by (rewrite (Permutation_length PM); apply seq_length).
      assert (NP : NoDup p) by (eapply Permutation_NoDup; [apply Permutation_sym, PM|apply seq_NoDup]).
      assert (RP : forall i, In i p -> i < length row) by (intros i I; apply (Permutation_in _ PM), in_seq in I; lia).
      assert (RI : forall i, i < length row -> In i p) by (intros i I; apply (Permutation_in _ (Permutation_sym PM)), in_seq; lia).
      assert (XY : forall t, t < length row -> exists y, nth_error p t = Some y) by (intros t T; destruct (nth_error p t) eqn:E; [eauto|apply nth_error_None in E; lia]).
      destruct desc.
      + split; [rewrite <- (firstn_skipn (length row - S k) p) in NP; clear -NP; induction (firstn (length row - S k) p); cbn in NP; [assumption|inversion NP; auto]|].
        assert (SI : forall i, In i (skipn (length row - S k) p) <-> exists x, length row - S k <= x < length row /\ nth_error p x = Some i).
        { intros i. split.
          - intros I. apply In_nth_error in I as (x & E). rewrite nth_error_skipn in E. exists (length row - S k + x). split; [|assumption].
            assert (length row - S k + x < length p) by (apply nth_error_Some; congruence). lia.
          - intros (x & Lx & E). apply (nth_error_In _ (x - (length row - S k))). rewrite nth_error_skipn. now replace (_ + _) with x by lia. }
        split; [intros i I; apply SI in I as (x & _ & E); apply RP; eapply nth_error_In; eassumption|].
        split; [rewrite skipn_length; lia|]. intros i j I Lj N. apply SI in I as (x & Lx & Ex).
        apply RI in Lj. apply In_nth_error in Lj as (y & Ey).
        assert (Ly : y < length row - S k). { destruct (Nat.lt_ge_cases y (length row - S k)); [assumption|]. exfalso. apply N, SI. exists y. split; [|assumption].
          assert (y < length p) by (apply nth_error_Some; congruence). lia. }
        destruct (XY (length row - S k)) as (z & Ez); [lia|]. unfold closer, vltb. apply negb_false_iff. cbv beta iota.
        pose proof (LO y z Ly Ez) as A. rewrite (nth_error_nth _ _ 0 Ey) in A. destruct (Nat.eq_dec x (length row - S k)) as [->|NE].
        * congruence.
        * pose proof (HI x z ltac:(lia) Ez) as B. rewrite (nth_error_nth _ _ 0 Ex) in B. eapply vleb_trans; eassumption.
      + split; [rewrite <- (firstn_skipn (S k) p) in NP; clear -NP; induction (firstn (S k) p) as [|h t IHt]; cbn in NP; [constructor|inversion NP; constructor; auto; intros I; match goal with H : ~ In _ _ |- _ => apply H end; apply in_app_iff; auto]|].
        assert (SI : forall i, In i (firstn (S k) p) <-> exists x, x < S k /\ nth_error p x = Some i).
        { intros i. split.
          - intros I. apply In_nth_error in I as (x & E). apply nth_error_firstn_lt in E as [E ?]. eauto.
          - intros (x & Lx & E). apply (nth_error_In _ x). now apply nth_error_firstn_lt. }
        split; [intros i I; apply SI in I as (x & _ & E); apply RP; eapply nth_error_In; eassumption|].
        split; [rewrite firstn_length; lia|]. intros i j I Lj N. apply SI in I as (x & Lx & Ex).
        apply RI in Lj. apply In_nth_error in Lj as (y & Ey).
        assert (Ly : S k <= y < length row). { split; [|assert (y < length p) by (apply nth_error_Some; congruence); lia]. destruct (Nat.lt_ge_cases y (S k)); [|assumption]. exfalso. apply N, SI. eauto. }
        destruct (XY (S k)) as (z & Ez); [lia|]. unfold closer, vltb. apply negb_false_iff. cbv beta iota.
        pose proof (LO x z Lx Ez) as A. rewrite (nth_error_nth _ _ 0 Ex) in A. destruct (Nat.eq_dec y (S k)) as [->|NE].
        * congruence.
        * pose proof (HI y z ltac:(lia) Ez) as B. rewrite (nth_error_nth _ _ 0 Ey) in B. eapply vleb_trans; eassumption.
  Qed.
  Definition dist mx (items : list pystr) (item x : pystr) : V := rowv (nth (idx items item) mx []) (idx items x).
  Lemma most_similar_ok mx items item k desc p : NoDup items -> length mx = length items -> Forall (fun row => length row = length items) mx -> In item items ->
    partition_for (nth (idx items item) mx []) k desc p ->
    exists l, most_similar mx items item k desc p = Ok l /\ NoDup l /\ incl l items /\ ~ In item l
      /\ (length l = Nat.min k (length items - 1) \/ length l = S k /\ length l <= length items - 1)
      /\ forall x y, In x l -> In y items -> y <> item -> ~ In y l -> closer desc (dist mx items item y) (dist mx items item x) = false.
  Proof.
    intros ND LM SQ I P. unfold most_similar. pose proof (idx_nth items item I) as EI. unfold idx in *. destruct (index_of item items) as [rid|] eqn:E; [|now apply index_of_None in E].
    set (row := nth rid mx []) in *.
    assert (LR : length row = length items).
    { rewrite Forall_forall in SQ. apply SQ. apply nth_In. rewrite LM. apply nth_error_Some. congruence. }
    destruct (selected row k desc p P) as (NX & RX & LX & CL). set (ix := if desc then get_largest_k row (S k) p else get_smallest_k row (S k) p) in *. cbv zeta.
    rewrite (rmapm_map _ (fun i => nth i items [])).
    2:{ intros i Ii. apply RX in Ii. unfold at_. rewrite (nth_error_nth' items [] (n := i)) by lia. reflexivity. }
    cbn [rmap]. set (sel := map (fun i => nth i items []) ix). eexists. split; [reflexivity|].
    assert (NS : NoDup sel).
    { unfold sel. apply nodup_map_inj; [|assumption]. intros x y Ix Iy EQ. eapply (proj1 (NoDup_nth items [])); eauto; rewrite <- LR; auto. }
    assert (SI : forall x, In x sel <-> In x items /\ In (idx items x) ix).
    { intros x. unfold sel. rewrite in_map_iff. split.
      - intros (i & <- & Ii). pose proof (RX _ Ii) as Li. rewrite LR in Li. split; [now apply nth_In|]. rewrite (idx_of_nth items i); auto. now apply nth_error_nth'.
      - intros [Ix Ii]. exists (idx items x). split; [|assumption]. apply nth_error_nth. now apply idx_nth. }
    assert (FI : forall x, In x (filter (fun x => negb (eqb x item)) sel) <-> In x sel /\ x <> item).
    { intros x. rewrite filter_In, negb_true_iff, eqb_neq. reflexivity. }
    split; [now apply NoDup_filter|]. split; [intros x Ix; apply FI in Ix as [Ix _]; now apply SI in Ix|]. split; [intros Ix; apply FI in Ix; tauto|]. split.
    - assert (LS : length sel = Nat.min (S k) (length items)) by (unfold sel; rewrite map_length, LX, LR; reflexivity).
      assert (LP : 0 < length items) by (assert (rid < length items) by (apply nth_error_Some; congruence); lia).
      destruct (in_dec eqdec item sel) as [Is|Is].
      + left. assert (Q : length (filter (fun x => negb (eqb x item)) sel) = length sel - 1).
        { clear -NS Is. induction sel as [|a l IH]; [contradiction|]. inversion NS; subst. cbn [filter]. destruct (eqb a item) eqn:EA; cbn [negb].
          - apply eqb_true in EA. subst. cbn. rewrite Nat.sub_0_r. f_equal. clear -H1. induction l as [|b l IH]; [reflexivity|]. cbn [filter].
            destruct (eqb b item) eqn:EB; [apply eqb_true in EB; subst; exfalso; apply H1; cbn; auto|]. cbn. f_equal. apply IH. intros X. apply H1. cbn. auto.
          - destruct Is as [->|Is]; [rewrite eqb_refl in EA; discriminate|]. cbn [length]. rewrite IH by assumption. destruct l; [contradiction|]. cbn. lia. }
        lia.
      + right. assert (Q : filter (fun x => negb (eqb x item)) sel = sel).
        { clear -Is. induction sel as [|a l IH]; [reflexivity|]. cbn [filter]. destruct (eqb a item) eqn:EA; [apply eqb_true in EA; subst; exfalso; apply Is; cbn; auto|].
          cbn. f_equal. apply IH. intros X. apply Is. cbn. auto. }
        rewrite Q, LS. assert (S k < length items).
        { destruct (Nat.lt_ge_cases (S k) (length items)); [assumption|]. exfalso. apply Is. apply SI. split; [assumption|].
          unfold ix, get_largest_k, get_smallest_k. rewrite LR. replace (length items <=? S k) with true by (symmetry; apply Nat.leb_le; lia).
          assert (In (idx items item) (seq 0 (length items))) by (apply in_seq; split; [lia|]; cbn; now apply idx_lt). now destruct desc. }
        lia.
    - intros x y Ix Iy NE NY. apply FI in Ix as [Ix _]. apply SI in Ix as [Ix Xi]. unfold dist. unfold idx at 1 3. rewrite E. fold row. fold (idx items x). fold (idx items y).
      apply CL; [assumption|rewrite LR; now apply idx_lt|]. intros Yi. apply NY, FI. split; [now apply SI|assumption].
  Qed.
  Lemma filter_full {A} (f : A -> bool) l : length (filter f l) = length l -> forall x, In x l -> f x = true.
  Proof.
    induction l as [|a l IH]; intros E x I; [destruct I|]. cbn [filter] in E. destruct (f a) eqn:F.
    - cbn in E. injection E as E. destruct I as [<-|I]; auto.
    - exfalso. cbn in E. assert (length (filter f l) <= length l) by (clear; induction l as [|b l IH]; [cbn; lia|]; cbn [filter]; destruct (f b); cbn; lia). lia.
  Qed.
  (** With the item strictly closest to itself, it is among the k+1 selected. *)
  Lemma most_similar_exact mx items item k (desc : bool) p l : NoDup items -> length mx = length items -> Forall (fun row => length row = length items) mx -> In item items ->
    (forall y, In y items -> y <> item -> closer desc (dist mx items item item) (dist mx items item y) = true) ->
    partition_for (nth (idx items item) mx []) k desc p -> most_similar mx items item k desc p = Ok l ->
    length l = Nat.min k (length items - 1).
  Proof.
    intros ND LM SQ I CL P E. destruct (most_similar_ok mx items item k desc p ND LM SQ I P) as (l' & E' & _ & _ & NI & [L|[L1 L2]] & _);
      rewrite E in E'; injection E' as <-; [assumption|]. exfalso.
    unfold most_similar in E. pose proof (idx_nth items item I) as EI. unfold idx in P, EI. destruct (index_of item items) as [rid|] eqn:ER; [|discriminate].
    assert (RI : rid < length items) by (apply nth_error_Some; congruence). cbv zeta in E.
    set (row := nth rid mx []) in *.
    assert (LR : length row = length items) by (rewrite Forall_forall in SQ; apply SQ, nth_In; now rewrite LM).
    destruct (selected row k desc p P) as (NX & RX & LX & C). cbv zeta in NX, RX, LX, C. set (ix := if desc then get_largest_k row (S k) p else get_smallest_k row (S k) p) in *.
    rewrite (rmapm_map _ (fun i => nth i items [])) in E.
    2:{ intros i Ii. apply RX in Ii. rewrite LR in Ii. unfold at_. rewrite (nth_error_nth' items [] (n := i)) by exact Ii. reflexivity. }
    cbn [rmap] in E. injection E as <-.
    assert (F : forall x, In x (map (fun i => nth i items []) ix) -> negb (eqb x item) = true) by (apply filter_full; rewrite L1, map_length, LX, LR; lia).
    destruct ix as [|i t] eqn:EX; [rewrite LR in LX; cbn [length] in LX; lia|]. rewrite <- EX in *.
    assert (Ii : In i ix) by (rewrite EX; now left). pose proof (RX _ Ii) as Li. rewrite LR in Li.
    assert (NR : ~ In rid ix). { intros X. specialize (F (nth rid items []) (in_map _ _ _ X)). rewrite (nth_error_nth _ _ _ EI), eqb_refl in F. discriminate. }
    specialize (C i rid Ii ltac:(lia) NR).
    assert (NE : nth i items [] <> item). { intros X. specialize (F (nth i items []) (in_map _ _ _ Ii)). rewrite X, eqb_refl in F. discriminate. }
    specialize (CL (nth i items []) (nth_In _ _ Li) NE). unfold dist in CL.
    rewrite (idx_of_nth items i (nth i items [])) in CL by (auto; now apply nth_error_nth').
    assert (Q : idx items item = rid) by (unfold idx; now rewrite ER). rewrite Q in CL. fold row in CL. congruence.
  Qed.
End SimProofs.
