(** * Matrices: consequences used in the claims. *)
From Coq Require Import NArith ZArith Bool Arith Lia Sorted List.
From Verif Require Import Base BaseLemmas MxModel MxSpec MxProofs MxTtmProofs MxOpsProofs MxMergeProofs MxCellProofs MxElemProofs.
Import ListNotations.

Section More.
  Context {V : Type} {NV : Num V}.
  Implicit Types (m a b c : ttm V).

  Definition sorted_items (l : list pystr) : Prop := StronglySorted (fun x y => sleb x y = true) l.
  (** The same items and the same cells. *)
  Definition same_cells a b : Prop :=
    (forall r, In r (trows a) <-> In r (trows b)) /\ (forall x, In x (tcols a) <-> In x (tcols b)) /\
    forall r x, val a r x = val b r x.
  Definition mergeable m : Prop := tgood m /\ sfmt (tmx m) = Csr.

  Lemma merge_two_mergeable a b : mergeable a -> mergeable b -> trows a = trows b ->
    exists m, merge_two a b = Ok m /\ mergeable m /\ trows m = trows a
      /\ (forall x, In x (tcols m) <-> In x (tcols a) \/ In x (tcols b))
      /\ (tcols m = tcols a \/ sorted_items (tcols m))
      /\ forall r x, val m r x = add (val a r x) (val b r x).
  Proof.
    intros [GA FA] [GB FB] R. destruct (merge_two_ok a b GA GB R (or_intror (conj FA FB))) as (m & E & G & RR & CC & S & F & VV).
    exists m. unfold mergeable. auto 10.
  Qed.
  Lemma merge_two_comm a b m m' : mergeable a -> mergeable b -> trows a = trows b ->
    merge_two a b = Ok m -> merge_two b a = Ok m' -> same_cells m m'.
  Proof.
    intros A B R E E'. destruct (merge_two_mergeable a b A B R) as (x & EX & _ & RX & CX & _ & VX).
    destruct (merge_two_mergeable b a B A (eq_sym R)) as (y & EY & _ & RY & CY & _ & VY).
    rewrite E in EX. injection EX as <-. rewrite E' in EY. injection EY as <-.
    split; [intros r; now rewrite RX, RY, R|]. split; [intros z; rewrite CX, CY; tauto|]. intros. rewrite VX, VY. apply add_comm.
  Qed.
  Lemma merge_two_assoc a b c ab bc m m' : mergeable a -> mergeable b -> mergeable c -> trows a = trows b -> trows b = trows c ->
    merge_two a b = Ok ab -> merge_two ab c = Ok m -> merge_two b c = Ok bc -> merge_two a bc = Ok m' -> same_cells m m'.
  Proof.
    intros A B C R R' E1 E2 E3 E4.
    destruct (merge_two_mergeable a b A B R) as (x & EX & MX & RX & CX & _ & VX). rewrite E1 in EX. injection EX as <-.
    destruct (merge_two_mergeable ab c MX C ltac:(congruence)) as (y & EY & _ & RY & CY & _ & VY). rewrite E2 in EY. injection EY as <-.
    destruct (merge_two_mergeable b c B C R') as (z & EZ & MZ & RZ & CZ & _ & VZ). rewrite E3 in EZ. injection EZ as <-.
    destruct (merge_two_mergeable a bc A MZ ltac:(congruence)) as (w & EW & _ & RW & CW & _ & VW). rewrite E4 in EW. injection EW as <-.
    split; [intros r; rewrite RY, RX, RW; reflexivity|]. split; [intros t; rewrite CY, CX, CW, CZ; tauto|].
    intros. rewrite VY, VX, VW, VZ. symmetry. apply add_assoc.
  Qed.

  (** drop: rows or columns with more than n non-zero cells are kept. *)
  Lemma drop_rows m n : tgood m -> length (trows m) <> 1 ->
    let kept := filter (fun r => n <? row_nonzeros m r) (trows m) in
    kept = [] /\ tt_drop m false n = Ok None \/
    exists m', tt_drop m false n = Ok (Some m') /\ tgood m' /\ trows m' = kept /\ tcols m' = tcols m /\
      forall r x, In r (trows m') -> val m' r x = val m r x.
  Proof. intros G L. cbv zeta. rewrite (drop_submatrix m false n G L). apply select_rows, G. Qed.
  Lemma drop_cols m n : tgood m -> length (tcols m) <> 1 ->
    let kept := filter (fun x => n <? col_nonzeros m x) (tcols m) in
    kept = [] /\ tt_drop m true n = Ok None \/
    exists m', tt_drop m true n = Ok (Some m') /\ tgood m' /\ tcols m' = kept /\ trows m' = trows m /\
      forall r x, In x (tcols m') -> val m' r x = val m r x.
  Proof. intros G L. cbv zeta. rewrite (drop_submatrix m true n G L). apply select_cols, G. Qed.

  (** A column is empty: all its cells zero, or none stored. *)
  Definition col_zero m (x : pystr) : bool := forallb (fun r => isz (val m r x)) (trows m).
  Definition row_stored m (r : pystr) : Prop := exists x, tstored m r x.
  Definition col_stored m (x : pystr) : Prop := exists r, tstored m r x.
  Lemma row_zero_iff m r : row_zero m r = true <-> forall x, In x (tcols m) -> val m r x = zero.
  Proof. unfold row_zero. rewrite forallb_forall. split; intros H x I; apply isz_ok; auto. Qed.
  Lemma col_zero_iff m x : col_zero m x = true <-> forall r, In r (trows m) -> val m r x = zero.
  Proof. unfold col_zero. rewrite forallb_forall. split; intros H y I; apply isz_ok; auto. Qed.
  Lemma row_unstored_iff m r : tgood m -> In r (trows m) -> (row_unstored m r = false <-> row_stored m r).
  Proof.
    intros G I. unfold row_unstored, row_stored, tstored, stored. rewrite negb_false_iff, existsb_exists. split.
    - intros (((i, j), v) & E & Q). cbn in Q. apply Nat.eqb_eq in Q. subst.
      destruct (nth_error (tcols m) j) as [x|] eqn:EX.
      + exists x. split; [assumption|]. split; [eapply nth_error_In; eassumption|].
        rewrite (idx_of_nth _ _ _ (tg_nc _ G) EX). apply in_map_iff. exists (idx (trows m) r, j, v). auto.
      + exfalso. apply nth_error_None in EX. rewrite <- (tg_cols _ G) in EX.
        pose proof (entries_range _ (tg_wf _ G)) as RG. unfold in_range in RG. rewrite Forall_forall in RG. destruct (RG _ E) as [_ L]. cbn in L. lia.
    - intros (x & _ & Ix & S). apply in_map_iff in S as (((i, j), v) & EQ & E). cbn in EQ. injection EQ as -> ->.
      eexists. split; [exact E|]. apply Nat.eqb_refl.
  Qed.

  (** What drop_empty takes for empty: with [explicit] a row none of whose cells is stored, without it a row of zeros. *)
  Definition dropped_row m (explicit : bool) (r : pystr) : Prop :=
    if explicit then ~ row_stored m r else forall x, In x (tcols m) -> val m r x = zero.
  Definition dropped_col m (explicit : bool) (x : pystr) : Prop :=
    if explicit then ~ col_stored m x else forall r, In r (trows m) -> val m r x = zero.
  (** l' is l without the items satisfying P, in the same order *)
  Definition without (P : pystr -> Prop) (l l' : list pystr) : Prop := exists p, (forall x, In x l -> (p x = false <-> P x)) /\ l' = filter p l.
  Lemma dropped_row_iff m (explicit : bool) r : tgood m -> In r (trows m) -> negb ((if explicit then row_unstored m else row_zero m) r) = false <-> dropped_row m explicit r.
  Proof.
    intros G I. rewrite negb_false_iff. unfold dropped_row. destruct explicit; [|apply row_zero_iff].
    pose proof (row_unstored_iff m r G I). destruct (row_unstored m r); [|intuition congruence]. split; [|auto]. intros _ S. apply H in S. discriminate.
  Qed.
  Lemma drop_empty_rows_spec m (explicit : bool) : tgood m ->
    (trows m <> [] /\ (forall r, In r (trows m) -> dropped_row m explicit r) /\ tt_drop_empty m false explicit = Ok None) \/
    exists m', tt_drop_empty m false explicit = Ok (Some m') /\ tgood m' /\ without (dropped_row m explicit) (trows m) (trows m') /\
      tcols m' = tcols m /\ forall r x, In r (trows m') -> val m' r x = val m r x.
  Proof.
    intros G. unfold tt_drop_empty. destruct (drop_empty_rows_ok m explicit G) as [(K & NE & E)|(m' & E & G' & R & C & VV)].
    - left. split; [assumption|]. split; [|exact E]. intros r I. apply dropped_row_iff; auto.
      destruct (negb _) eqn:Q; [|reflexivity]. exfalso. assert (J : In r []) by (rewrite <- K; apply filter_In; auto). destruct J.
    - right. exists m'. split; [exact E|]. split; [assumption|]. split; [|auto]. eexists. split; [|exact R]. intros x I. now apply dropped_row_iff.
  Qed.
  Lemma tstored_transpose m t : tt_transpose m = Ok t -> tgood m -> forall r x, tstored t x r <-> tstored m r x.
  Proof.
    intros E G r x. destruct (transpose_ok m G) as (t' & E' & _ & R & C & _). rewrite E in E'. injection E' as <-.
    unfold tt_transpose, mk_ttm in E. destruct (negb _); [discriminate|]. destruct (negb _); [discriminate|]. injection E as <-. cbn [trows tcols tmx] in *.
    unfold tstored, stored. cbn [trows tcols tmx]. rewrite entries_transpose, map_map.
    assert (X : forall i j, In (j, i) (map (fun e : nat * nat * V => fst (snd (fst e), fst (fst e), snd e)) (entries (tmx m))) <-> In (i, j) (map fst (entries (tmx m)))).
    { intros i j. rewrite !in_map_iff. split; intros (((a, b), v) & Q & I); cbn in Q; injection Q as <- <-; eexists; (split; [|exact I]); reflexivity. }
    rewrite X. tauto.
  Qed.
  Lemma drop_empty_cols_spec m (explicit : bool) : tgood m ->
    (tcols m <> [] /\ (forall x, In x (tcols m) -> dropped_col m explicit x) /\ tt_drop_empty m true explicit = Err AttributeError) \/
    exists m', tt_drop_empty m true explicit = Ok (Some m') /\ tgood m' /\ without (dropped_col m explicit) (tcols m) (tcols m') /\
      trows m' = trows m /\ forall r x, In x (tcols m') -> val m' r x = val m r x.
  Proof.
    intros G. unfold tt_drop_empty. destruct (transpose_ok m G) as (t & E & GT & RT & CT & VT & _). rewrite E. cbn [rbind].
    assert (D : forall x, dropped_row t explicit x <-> dropped_col m explicit x).
    { intros x. unfold dropped_row, dropped_col. destruct explicit.
      - unfold row_stored, col_stored. split; intros N (y & S); apply N; exists y; apply (tstored_transpose m t E G); exact S.
      - rewrite CT. split; intros H r I; [rewrite <- VT|rewrite VT]; auto. }
    destruct (drop_empty_rows_spec t explicit GT) as [(NE & A & EE)|(t' & EE & G' & W & C & VV)].
    - left. split; [now rewrite <- RT|]. split; [intros x I; apply D, A; now rewrite RT|]. unfold tt_drop_empty in EE. now rewrite EE.
    - right. unfold tt_drop_empty in EE. rewrite EE. cbn [rbind rmap]. destruct (transpose_ok t' G') as (m' & E' & GM & RM & CM & VM & _). rewrite E'.
      exists m'. split; [reflexivity|]. split; [assumption|]. split; [|split; [congruence|]].
      + rewrite CM, <- RT. destruct W as (p & P & Q). exists p. split; [|exact Q]. intros x I. rewrite <- D. auto.
      + intros r x I. rewrite VM, VV by congruence. apply VT.
  Qed.
End More.
