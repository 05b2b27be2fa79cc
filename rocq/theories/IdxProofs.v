(** * Proofs about square brackets. *)
From Coq Require Import String NArith ZArith Bool Arith Sorted Lia QArith Qcanon List.
From Verif Require Import Base BaseLemmas VocabModel MxModel MxSpec MxProofs MxTtmProofs MxTypedModel DenseModel IdxModel IdxSpec.
Import ListNotations.
Local Open Scope nat_scope.

Lemma slice_bound_spec n z : slice_bound n z = Z.to_nat (Z.max 0 (Z.min (Z.of_nat n) (from_end n z))).
Proof. unfold slice_bound, from_end. destruct (Z.ltb_spec z 0); lia. Qed.
Lemma slice_seq n x y : py_slice (seq 0 n) x y =
  seq (match x with Some z => slice_bound n z | None => 0 end)
      ((match y with Some z => slice_bound n z | None => n end) - (match x with Some z => slice_bound n z | None => 0 end)).
Proof.
  unfold py_slice. rewrite seq_length. set (a := match x with Some z => slice_bound n z | None => 0 end).
  set (b := match y with Some z => slice_bound n z | None => n end).
  assert (Ha : a <= n). { unfold a. destruct x as [z|]; [rewrite slice_bound_spec; lia|lia]. }
  assert (Hb : b <= n). { unfold b. destruct y as [z|]; [rewrite slice_bound_spec; lia|lia]. }
  rewrite <- (firstn_skipn a (seq 0 n)) at 1. rewrite skipn_app, firstn_length, seq_length.
  replace (a - Nat.min a n) with 0 by lia. rewrite skipn_O. rewrite skipn_all2 by (rewrite firstn_length; lia). cbn [app].
  replace n with (a + (n - a)) at 1 by lia. rewrite seq_app, skipn_app, seq_length, skipn_all2 by (rewrite seq_length; lia). cbn [app].
  replace (a - a) with 0 by lia. rewrite skipn_O. replace (n - a) with ((b - a) + (n - a - (b - a))) by lia.
  rewrite seq_app, firstn_app, seq_length. replace (b - a - (b - a)) with 0 by lia. rewrite firstn_O, app_nil_r, firstn_all2 by (rewrite seq_length; lia).
  reflexivity.
Qed.
Lemma seq_sorted a k : StronglySorted lt (seq a k).
Proof.
  revert a. induction k as [|k IH]; intros a; cbn [seq]; constructor; [apply IH|]. apply Forall_forall. intros x I. apply in_seq in I. lia.
Qed.
Lemma sorted_eq (l1 l2 : list nat) : StronglySorted lt l1 -> StronglySorted lt l2 -> (forall x, In x l1 <-> In x l2) -> l1 = l2.
Proof.
  intros S1. revert l2. induction S1 as [|a l1 S1 IH F1]; intros l2 S2 E.
  - destruct l2 as [|b l2]; [auto|]. exfalso. apply (E b). now left.
  - destruct S2 as [|b l2 S2 F2]; [exfalso; apply (E a); now left|]. rewrite Forall_forall in F1, F2.
    assert (a = b).
    { destruct (proj1 (E a) (or_introl eq_refl)) as [->|Ia]; [auto|]. destruct (proj2 (E b) (or_introl eq_refl)) as [->|Ib]; [auto|].
      apply F2 in Ia. apply F1 in Ib. lia. }
    subst b. f_equal. apply IH; [auto|]. intros x. split; intros I.
    + destruct (proj1 (E x) (or_intror I)) as [->|]; [apply F1 in I; lia|auto].
    + destruct (proj2 (E x) (or_intror I)) as [->|]; [apply F2 in I; lia|auto].
Qed.
Lemma slice_selects items x y ks : selects items (SSlice x y) ks -> py_slice (seq 0 (length items)) x y = ks.
Proof.
  intros H. inversion H as [| |x' y' ks' Hs Hk]; subst. rewrite slice_seq. apply sorted_eq; [apply seq_sorted|auto|].
  intros k. rewrite Hk, in_seq. destruct x as [x|], y as [y|]; rewrite ?slice_bound_spec; lia.
Qed.
Lemma slice_exists items x y : exists ks, selects items (SSlice x y) ks.
Proof.
  exists (py_slice (seq 0 (length items)) x y). rewrite slice_seq. constructor; [apply seq_sorted|].
  intros k. rewrite in_seq. destruct x as [x|], y as [y|]; rewrite ?slice_bound_spec; lia.
Qed.

Lemma item_lookup items s k : NoDup items -> nth_error items k = Some s -> lookup (item2id items) s = Ok k.
Proof.
  intros Nd E. unfold lookup. assert (I : index_of s items = Some k).
  { apply index_of_nth; assumption. }
  now rewrite (dget_item2id items s Nd), I.
Qed.
Lemma select_ok items a ks : NoDup items -> selects items a ks ->
  exists r, resolve_sel items a = Ok r /\ positions_of (length items) r = Ok (negb (single a), ks).
Proof.
  intros Nd H. inversion H as [s k E|z k E L|x y ks' Hs Hk]; subst; cbn [resolve_sel single negb].
  - rewrite (item_lookup _ _ _ Nd E). cbn [rmap]. eexists. split; [reflexivity|]. cbn [positions_of]. unfold norm_index.
    assert (k < length items) by (apply nth_error_Some; congruence).
    replace (0 <=? Z.of_nat k)%Z with true by (symmetry; apply Z.leb_le; lia).
    replace (Z.of_nat k <? Z.of_nat (length items))%Z with true by (symmetry; apply Z.ltb_lt; lia). cbn [rmap]. now rewrite Nat2Z.id.
  - eexists. split; [reflexivity|]. cbn [positions_of]. unfold norm_index. unfold from_end in E.
    destruct (Z.ltb_spec z 0); destruct (Z.leb_spec 0 z); try lia.
    + destruct (Z.leb_spec (- Z.of_nat (length items)) z); [|lia]. cbn [rmap]. rewrite E, Nat2Z.id. reflexivity.
    + destruct (Z.ltb_spec z (Z.of_nat (length items))); [|lia]. cbn [rmap]. rewrite E, Nat2Z.id. reflexivity.
  - eexists. split; [reflexivity|]. cbn [positions_of]. now rewrite (slice_selects items x y ks H).
Qed.

(** The keys that can be looked up, and the errors of the others. *)
Lemma resolve_item_err items s : NoDup items -> ~ In s items -> resolve_sel items (SItem s) = Err KeyError.
Proof. intros Nd Ns. cbn [resolve_sel]. unfold lookup. rewrite (dget_item2id items s Nd). apply index_of_None in Ns. now rewrite Ns. Qed.
Lemma int_range n z : (- Z.of_nat n <= z < Z.of_nat n)%Z \/ norm_index n z = Err IndexError.
Proof.
  unfold norm_index. destruct (Z.leb_spec 0 z).
  - destruct (Z.ltb_spec z (Z.of_nat n)); [left; lia|now right].
  - destruct (Z.leb_spec (- Z.of_nat n) z); [left; lia|now right].
Qed.
Lemma int_out n z : ~ (- Z.of_nat n <= z < Z.of_nat n)%Z -> norm_index n z = Err IndexError.
Proof. intros H. destruct (int_range n z); [contradiction|auto]. Qed.
Lemma positions_false n r ks : positions_of n r = Ok (false, ks) -> exists i, ks = [i].
Proof. destruct r as [z|x y]; cbn [positions_of]; [|discriminate]. destruct (norm_index n z) as [i|]; [|discriminate]. intros [= <-]. eauto. Qed.
Lemma concat_single {A} (l : list A) : concat [l] = l.
Proof. cbn. apply app_nil_r. Qed.
Lemma concat_column {V} (get : nat -> nat -> V) j rs : concat (map (fun i => [get i j]) rs) = map (fun i => get i j) rs.
Proof. induction rs; cbn; congruence. Qed.

Section Shapes.
  Context {V : Type}.
  Variable get : nat -> nat -> V.
  Lemma flat_sparse r c : (fst r = false -> exists i, snd r = [i]) -> (fst c = false -> exists j, snd c = [j]) ->
    flat (shape_sparse get r c) = concat (block get (snd r) (snd c)).
  Proof.
    destruct r as [[|] rs], c as [[|] cs]; cbn [fst snd]; intros Hr Hc; try destruct (Hr eq_refl) as (i & ->); try destruct (Hc eq_refl) as (j & ->);
      cbn [shape_sparse]; unfold block; try (now cbn); try (cbn [map flat concat]; now rewrite ?app_nil_r);
      destruct rs as [|x [|y rs]]; cbn [map flat concat]; rewrite ?app_nil_r; reflexivity.
  Qed.
  Lemma flat_dense r c : (fst r = false -> exists i, snd r = [i]) -> (fst c = false -> exists j, snd c = [j]) ->
    flat (shape_dense get r c) = concat (block get (snd r) (snd c)).
  Proof.
    destruct r as [[|] rs], c as [[|] cs]; cbn [fst snd]; intros Hr Hc; try destruct (Hr eq_refl) as (i & ->); try destruct (Hc eq_refl) as (j & ->);
      cbn [shape_dense]; unfold block; cbn [flat]; try reflexivity.
    - cbn [map]. now rewrite concat_column.
    - cbn [map concat]. now rewrite app_nil_r.
  Qed.
  Lemma dims_sparse r c : (fst r = false -> exists i, snd r = [i]) -> (fst c = false -> exists j, snd c = [j]) ->
    shape (shape_sparse get r c) =
      if negb (fst r) && negb (fst c) then [] else if length (snd r) =? 1 then [length (snd c)] else [length (snd r); length (snd c)].
  Proof.
    destruct r as [[|] rs], c as [[|] cs]; cbn [fst snd]; intros Hr Hc; try destruct (Hr eq_refl) as (i & ->); try destruct (Hc eq_refl) as (j & ->);
      cbn [shape_sparse negb andb]; try reflexivity; try (cbn [map shape length Nat.eqb]; now rewrite map_length);
      destruct rs as [|x [|y rs]]; cbn [map shape length Nat.eqb]; rewrite ?map_length; reflexivity.
  Qed.
  Lemma dims_dense r c : (fst r = false -> exists i, snd r = [i]) -> (fst c = false -> exists j, snd c = [j]) ->
    shape (shape_dense get r c) = (if fst r then [length (snd r)] else []) ++ (if fst c then [length (snd c)] else []).
  Proof.
    destruct r as [[|] rs], c as [[|] cs]; cbn [fst snd]; intros Hr Hc; try destruct (Hr eq_refl) as (i & ->); try destruct (Hc eq_refl) as (j & ->);
      cbn [shape_dense shape app length]; rewrite ?map_length; reflexivity.
  Qed.
  Lemma same_flat rows cols nr nc a :
    rmap flat (get_value shape_sparse rows cols nr nc get a) = rmap flat (get_value shape_dense rows cols nr nc get a).
  Proof.
    destruct a as [x y| |x|]; cbn [get_value]; try reflexivity.
    - destruct (resolve_sel rows x) as [x'|]; [|reflexivity]. cbn [rbind]. destruct (resolve_sel cols y) as [y'|]; [|reflexivity]. cbn [rbind].
      destruct (positions_of nr x') as [[br rs]|] eqn:Er; [|reflexivity]. cbn [rbind]. destruct (positions_of nc y') as [[bc cs]|] eqn:Ec; [|reflexivity].
      cbn [rbind rmap]. f_equal. rewrite flat_sparse, flat_dense; cbn [fst snd]; try reflexivity; intros ->; eapply positions_false; eauto.
    - destruct (resolve_sel rows x) as [x'|]; [|reflexivity]. cbn [rbind].
      destruct (positions_of nr x') as [[br rs]|] eqn:Er; [|reflexivity]. cbn [rbind rmap].
      f_equal. rewrite flat_sparse, flat_dense; cbn [fst snd]; try reflexivity; try discriminate; intros ->; eapply positions_false; eauto.
  Qed.
End Shapes.

Section Get.
  Context {V : Type}.
  Variables (rows cols : list pystr) (get : nat -> nat -> V).
  Hypotheses (Nr : NoDup rows) (Nc : NoDup cols).
  Variable shp : (nat -> nat -> V) -> bool * list nat -> bool * list nat -> gval V.
  Notation gv := (get_value shp rows cols (length rows) (length cols) get).
  Lemma pair_ok a b rs cs : selects rows a rs -> selects cols b cs -> gv (GPair a b) = Ok (shp get (negb (single a), rs) (negb (single b), cs)).
  Proof.
    intros Ha Hb. destruct (select_ok _ _ _ Nr Ha) as (x & Ex & Px). destruct (select_ok _ _ _ Nc Hb) as (y & Ey & Py).
    cbn [get_value]. now rewrite Ex, Ey; cbn [rbind]; rewrite Px; cbn [rbind]; rewrite Py.
  Qed.
  Lemma one_ok a rs : selects rows a rs -> gv (GOne a) = Ok (shp get (negb (single a), rs) (true, seq 0 (length cols))).
  Proof. intros Ha. destruct (select_ok _ _ _ Nr Ha) as (x & Ex & Px). cbn [get_value]. now rewrite Ex; cbn [rbind]; rewrite Px. Qed.
  Lemma single_one items a ks : selects items a ks -> negb (single a) = false -> exists i, ks = [i].
  Proof. intros H. inversion H; subst; cbn; [eauto|eauto|discriminate]. Qed.
  Lemma gv_errors : forall a b,
    (forall s, ~ In s rows -> gv (GPair (SItem s) b) = Err KeyError /\ gv (GOne (SItem s)) = Err KeyError) /\
    (forall z, ~ (- Z.of_nat (length rows) <= z < Z.of_nat (length rows))%Z -> gv (GOne (SInt z)) = Err IndexError) /\
    (forall z cs, ~ (- Z.of_nat (length rows) <= z < Z.of_nat (length rows))%Z -> selects cols b cs -> gv (GPair (SInt z) b) = Err IndexError) /\
    (forall s rs, ~ In s cols -> selects rows a rs -> gv (GPair a (SItem s)) = Err KeyError) /\
    (forall z rs, ~ (- Z.of_nat (length cols) <= z < Z.of_nat (length cols))%Z -> selects rows a rs -> gv (GPair a (SInt z)) = Err IndexError) /\
    gv (GPair SOther b) = Err ValueError /\ gv (GOne SOther) = Err ValueError /\ (forall rs, selects rows a rs -> gv (GPair a SOther) = Err ValueError).
  Proof.
    intros a b. repeat split.
    - cbn [get_value]. now rewrite resolve_item_err by auto.
    - cbn [get_value]. now rewrite resolve_item_err by auto.
    - intros z H. cbn [get_value resolve_sel rbind positions_of]. now rewrite int_out by auto.
    - intros z cs H Hb. destruct (select_ok _ _ _ Nc Hb) as (y & Ey & Py). cbn [get_value resolve_sel rbind positions_of]. rewrite Ey. cbn [rbind positions_of].
      now rewrite int_out by auto.
    - intros s rs Ns Ha. destruct (select_ok _ _ _ Nr Ha) as (x & Ex & Px). cbn [get_value]. rewrite Ex. cbn [rbind]. now rewrite resolve_item_err by auto.
    - intros z rs H Ha. destruct (select_ok _ _ _ Nr Ha) as (x & Ex & Px). cbn [get_value]. rewrite Ex. cbn [rbind resolve_sel]. rewrite Px. cbn [rbind positions_of].
      now rewrite int_out by auto.
    - intros rs Ha. destruct (select_ok _ _ _ Nr Ha) as (x & Ex & Px). cbn [get_value]. now rewrite Ex.
  Qed.
End Get.
