(** * Proofs about the Vocab model. *)
From Coq Require Import String NArith ZArith QArith Bool Arith Lia List Permutation Sorted.
From Verif Require Import Base BaseLemmas VocabModel VocabSpec.
Import ListNotations.
Local Open Scope Z_scope.

Lemma v_run_refines ops : forall v m, isdef v = false -> dwf (fd v) -> (forall k, vget v k = m k) ->
  isdef (v_run v ops) = false /\ dwf (fd (v_run v ops)) /\ forall k, vget (v_run v ops) k = s_run m ops k.
Proof.
  induction ops as [|o ops IH]; cbn; intros v m D W E; auto.
  apply IH; destruct o as [k f|k i|k]; cbn; auto.
  - unfold v_lookup. destruct (dget (fd v) k); auto. rewrite D; auto.
  - apply dwf_dset; auto.
  - destruct (dget (fd v) k); apply dwf_dset; auto.
  - unfold v_lookup. destruct (dget (fd v) k); auto. rewrite D; auto.
  - intros k'. unfold vget, supd in *; cbn. rewrite dget_dset. destruct (eqdec k' k); auto.
  - intros k'. unfold vget, supd, sval in *; cbn. rewrite <- (E k).
    destruct (dget (fd v) k); rewrite dget_dset; destruct (eqdec k' k); auto.
  - unfold v_lookup. unfold vget in *. destruct (dget (fd v) k) eqn:E'; auto.
    rewrite D; auto.
Qed.

Lemma dkeys_enum (d : dict pystr Z) m : dwf d -> (forall k, dget d k = m k) -> enumerates (dkeys d) m.
Proof.
  intros W E. split; auto. intros k. rewrite <- E.
  destruct (dget d k) eqn:G.
  - split; [congruence|]. intros _. eapply dget_Some_key; eauto.
  - apply dget_None in G. tauto.
Qed.
Lemma dvals_keys (d : dict pystr Z) : dwf d ->
  dvals d = map (fun k => match dget d k with Some f => f | None => 0 end) (dkeys d).
Proof.
  unfold dwf, dkeys, dvals. induction d as [|[k f] d IH]; cbn; auto. intros W; inversion W; subst.
  destruct (eqdec k k); [|congruence]. f_equal. rewrite IH by auto. apply map_ext_in.
  intros k' Hk'. destruct (eqdec k' k); subst; tauto.
Qed.

Lemma vocab_history (d : dict pystr Z) (ops : list vop) : dwf d ->
  let v := v_run (vocab_init false d) ops in
  let m := s_run (dget d) ops in
  (forall k, fst (v_lookup v k) = match m k with Some f => Ok f | None => Err KeyError end) /\
  (forall k, v_contains v k = true <-> m k <> None) /\
  enumerates (v_keys v) m /\
  (forall k f, In (k, f) (v_items v) <-> m k = Some f) /\
  (forall l, enumerates l m -> v_len v = length l /\ v_sum v = sumZ (map (sval m) l)).
Proof.
  intros W v m.
  destruct (v_run_refines ops (vocab_init false d) (dget d)) as (D & W' & E); auto.
  fold v m in D, W', E. unfold vget in E.
  pose proof (dkeys_enum _ _ W' E) as En.
  repeat split.
  - intros k. unfold v_lookup. rewrite D, E. destruct (m k); auto.
  - intros Hc. apply dmem_In in Hc. apply En in Hc; auto.
  - intros Hm. apply dmem_In. apply En; auto.
  - apply En.
  - apply En.
  - apply En.
  - intros Hi. rewrite <- E. apply dget_In; auto.
  - intros Hi. apply dget_In; auto. rewrite E; auto.
  - destruct En as [N1 I1], H as [N2 I2].
    assert (P : Permutation (dkeys (fd v)) l) by (apply NoDup_Permutation; auto; intros k; rewrite I1, I2; tauto).
    apply Permutation_length in P. auto.
  - destruct En as [N1 I1], H as [N2 I2].
    assert (P : Permutation (dkeys (fd v)) l) by (apply NoDup_Permutation; auto; intros k; rewrite I1, I2; tauto).
    unfold v_sum. rewrite dvals_keys by auto. rewrite <- (sumZ_perm _ _ (Permutation_map (sval m) P)).
    f_equal. apply map_ext. intros k. unfold sval. rewrite E. auto.
Qed.

(** ** Sorting *)
Section Stable.
  Context {A : Type} (leb : A -> A -> bool) (R : A -> A -> Prop).
  Hypothesis leb_total : forall x y, leb x y = true \/ leb y x = true.
  Hypothesis leb_trans : forall x y z, leb x y = true -> leb y z = true -> leb x z = true.
  Definition lexle a b := leb a b = true /\ (leb b a = true -> R a b).
  Lemma insert_stable x l : Forall (R x) l -> StronglySorted lexle l -> StronglySorted lexle (insert leb x l).
  Proof.
    induction l as [|y l IH]; cbn; intros F S; [repeat constructor|].
    inversion F as [|? ? Rxy F']; inversion S as [|? ? S' Fy]; subst.
    destruct (leb x y) eqn:E.
    - constructor; [constructor; auto|]. constructor; [split; auto|].
      rewrite Forall_forall in *. intros z Hz. specialize (Fy z Hz). specialize (F' z Hz).
      split; [|auto]. eapply leb_trans; [exact E|apply Fy].
    - constructor; auto. eapply Permutation_Forall; [apply insert_perm|].
      constructor; auto. split; [destruct (leb_total x y); congruence|congruence].
  Qed.
  Lemma isort_stable l : StronglySorted R l -> StronglySorted lexle (isort leb l).
  Proof.
    induction 1 as [|x l S IH F]; cbn; [constructor|].
    apply insert_stable; auto. eapply Permutation_Forall; [apply isort_perm|auto].
  Qed.
End Stable.

Definition item_le (a b : pystr * Z) : bool := sleb (fst a) (fst b).
Definition freq_ge (a b : pystr * Z) : bool := snd b <=? snd a.
Lemma item_le_total a b : item_le a b = true \/ item_le b a = true.
Proof. apply sleb_total. Qed.
Lemma item_le_trans a b c : item_le a b = true -> item_le b c = true -> item_le a c = true.
Proof. apply sleb_trans. Qed.
Lemma freq_ge_total a b : freq_ge a b = true \/ freq_ge b a = true.
Proof. unfold freq_ge. lia. Qed.
Lemma freq_ge_trans a b c : freq_ge a b = true -> freq_ge b c = true -> freq_ge a c = true.
Proof. unfold freq_ge. lia. Qed.

Lemma df_perm v : Permutation (fd v) (v_dataframe v).
Proof. unfold v_dataframe. rewrite <- isort_perm. apply isort_perm. Qed.

Lemma df_lex v : StronglySorted (lexle freq_ge (fun a b => item_le a b = true)) (v_dataframe v).
Proof.
  apply isort_stable; [apply freq_ge_total|apply freq_ge_trans|].
  apply isort_sorted; [apply item_le_total|apply item_le_trans].
Qed.

Lemma SSorted_impl_NoDup {A B} (R S : A -> A -> Prop) (g : A -> B) l :
  (forall a b, g a <> g b -> R a b -> S a b) -> NoDup (map g l) -> StronglySorted R l -> StronglySorted S l.
Proof.
  intros I ND SS. induction SS as [|x l SS IH F]; [constructor|]. cbn in ND. inversion ND; subst.
  constructor; auto. rewrite Forall_forall in *. intros y Hy. apply I; auto.
  intros E. apply H1. rewrite E. apply in_map; auto.
Qed.

Lemma df_sorted v : dwf (fd v) -> StronglySorted before (v_dataframe v).
Proof.
  intros W. eapply SSorted_impl_NoDup with (g := fst) (R := lexle freq_ge (fun a b => item_le a b = true)).
  - intros a b NE [L1 L2]. unfold before, freq_ge, item_le in *.
    destruct (Z.eq_dec (snd a) (snd b)) as [E|NE'].
    + right; split; auto. specialize (L2 ltac:(lia)). rewrite sltb_sleb.
      destruct (sleb (fst b) (fst a)) eqn:E'; auto. exfalso. apply NE. apply sleb_antisym; auto.
    + left. lia.
  - eapply Permutation_NoDup; [apply Permutation_map, df_perm|auto].
  - apply df_lex.
Qed.

Lemma before_irrefl_pair a b : before a b -> before b a -> False.
Proof.
  unfold before. intros [H1|[H1 H2]] [H3|[H3 H4]]; try lia.
  rewrite sltb_sleb in H2, H4. destruct (sleb_total (fst a) (fst b)) as [E|E]; rewrite E in *; discriminate.
Qed.

Lemma df_canonical v1 v2 : dwf (fd v1) -> dwf (fd v2) -> (forall k, vget v1 k = vget v2 k) ->
  v_dataframe v1 = v_dataframe v2.
Proof.
  intros W1 W2 E. apply sorted_perm_unique with (R := before).
  - intros x y _ _ H1 H2. exfalso. eapply before_irrefl_pair; eauto.
  - apply df_sorted; auto.
  - apply df_sorted; auto.
  - rewrite <- !df_perm. apply dget_ext_perm; auto.
Qed.

(** ** Slices *)
Lemma dict_of_nodup_app (l d : dict pystr Z) : dwf (d ++ l) -> fold_left (fun d kv => dset d (fst kv) (snd kv)) l d = d ++ l.
Proof.
  revert d. induction l as [|[k f] l IH]; cbn; intros d W; [rewrite app_nil_r; auto|].
  assert (E : dset d k f = d ++ [(k, f)]).
  { assert (~ In k (dkeys d)).
    { unfold dwf, dkeys in *. rewrite map_app in W. cbn in W. apply NoDup_remove_2 in W.
      intros Hk. apply W. apply in_or_app; auto. }
    clear W IH. induction d as [|[k' f'] d IH]; cbn in *; auto.
    destruct (eqdec k k'); [exfalso; subst; tauto|]. f_equal. apply IH. tauto. }
  rewrite E, IH; rewrite <- app_assoc; auto.
Qed.
Lemma dict_of_nodup (l : dict pystr Z) : dwf l -> dict_of l = l.
Proof. intros W. apply (dict_of_nodup_app l []); auto. Qed.

Lemma NoDup_firstn {A} (l : list A) n : NoDup l -> NoDup (firstn n l).
Proof.
  revert n; induction l; intros [|n] ND; cbn; try constructor; inversion ND; subst; auto.
  intros Hi. apply H1. rewrite <- (firstn_skipn n l). apply in_or_app; auto.
Qed.
Lemma NoDup_skipn {A} (l : list A) n : NoDup l -> NoDup (skipn n l).
Proof. revert n; induction l; intros [|n] ND; cbn; auto. inversion ND; subst; auto. Qed.

Lemma SSorted_app_inv {A} (R : A -> A -> Prop) l1 l2 : StronglySorted R (l1 ++ l2) ->
  forall a b, In a l1 -> In b l2 -> R a b.
Proof.
  induction l1 as [|x l1 IH]; cbn; intros S a b Ha Hb; [tauto|]. inversion S as [|? ? S' F]; subst.
  destruct Ha as [->|Ha]; eauto. rewrite Forall_forall in F. apply F. apply in_or_app; auto.
Qed.

Lemma slice_prefix {A} (l : list A) (n : nat) : py_slice l None (Some (Z.of_nat n)) = firstn n l.
Proof.
  unfold py_slice, slice_bound. destruct (Z.ltb_spec (Z.of_nat n) 0); [lia|]. rewrite Nat2Z.id. cbn [skipn].
  rewrite Nat.sub_0_r. destruct (Nat.le_ge_cases (length l) n) as [L|L].
  - rewrite Nat.min_l by auto. rewrite !firstn_all2; auto.
  - rewrite Nat.min_r by auto. auto.
Qed.

Lemma dwf_df v : dwf (fd v) -> dwf (v_dataframe v).
Proof. intros W. unfold dwf, dkeys in *. eapply Permutation_NoDup; [apply Permutation_map, df_perm|auto]. Qed.
Lemma vget_df v k : dwf (fd v) -> dget (v_dataframe v) k = vget v k.
Proof. intros W. symmetry. apply dget_perm; auto. apply df_perm. Qed.

Lemma slice_top (v : vocab) (n : nat) : dwf (fd v) ->
  exists r, v_getitem (ASlice None (Some (Z.of_nat n))) v = Ok r /\
    v_len r = Nat.min n (v_len v) /\
    (forall k f, vget r k = Some f -> vget v k = Some f) /\
    (forall k f k' f', vget r k = Some f -> vget v k' = Some f' -> vget r k' = None -> before (k, f) (k', f')).
Proof.
  intros W. eexists. split; [reflexivity|]. rewrite slice_prefix.
  pose proof (dwf_df _ W) as Wd.
  assert (Wf : dwf (firstn n (v_dataframe v))).
  { unfold dwf, dkeys in *. rewrite <- firstn_map. apply NoDup_firstn; auto. }
  unfold vocab_of_df, v_len, vget; cbn [vocab_init fd]. rewrite dict_of_nodup by auto.
  repeat split.
  - unfold dkeys. rewrite !map_length, firstn_length. f_equal. symmetry. apply Permutation_length, df_perm.
  - intros k f E. apply dget_In in E; auto. change (vget v k = Some f). rewrite <- vget_df by auto. apply dget_In; auto.
    rewrite <- (firstn_skipn n (v_dataframe v)). apply in_or_app; auto.
  - intros k f k' f' E E' EN. apply dget_In in E; auto.
    change (vget v k' = Some f') in E'. rewrite <- vget_df in E' by auto. apply dget_In in E'; auto.
    rewrite <- (firstn_skipn n (v_dataframe v)) in E'. apply in_app_or in E' as [E'|E'].
    + apply dget_In in E'; auto. congruence.
    + pose proof (df_sorted _ W) as S. rewrite <- (firstn_skipn n (v_dataframe v)) in S.
      eapply SSorted_app_inv in S; eauto.
Qed.

(** The general slice: [vocab[a:b]] keeps exactly the entries whose rank in the frequency list is in
    the range. *)
Lemma slice_general (v : vocab) (a b : option Z) : dwf (fd v) ->
  exists r, v_getitem (ASlice a b) v = Ok r /\ fd r = py_slice (v_dataframe v) a b.
Proof.
  intros W. eexists. split; [reflexivity|]. cbn. apply dict_of_nodup.
  pose proof (dwf_df _ W) as Wd. unfold dwf, dkeys, py_slice in *.
  rewrite <- firstn_map, <- skipn_map. apply NoDup_firstn, NoDup_skipn; auto.
Qed.

Lemma at_positions_range {A} (P : nat -> bool) (lo hi : nat) : forall (l : list A) (o : nat),
  (forall p, (o <= p < o + length l)%nat -> P p = Nat.leb lo p && Nat.ltb p hi) ->
  map snd (filter (fun px => P (fst px)) (combine (seq o (length l)) l)) = firstn (hi - Nat.max o lo) (skipn (lo - o) l).
Proof.
  induction l as [|x l IH]; intros o H; cbn [length seq combine filter map].
  - rewrite skipn_nil, firstn_nil. reflexivity.
  - cbn [fst]. rewrite H by (cbn; lia).
    assert (IH' := IH (S o) ltac:(intros p Hp; apply H; cbn; lia)). clear IH.
    destruct (Nat.leb_spec lo o) as [L|L]; cbn [andb].
    + replace (lo - o)%nat with 0%nat by lia. cbn [skipn]. replace (Nat.max o lo) with o by lia.
      destruct (Nat.ltb_spec o hi) as [Hh|Hh].
      * cbn [map snd]. rewrite IH'. replace (lo - S o)%nat with 0%nat by lia.
        replace (Nat.max (S o) lo) with (S o) by lia. replace (hi - o)%nat with (S (hi - S o)) by lia. reflexivity.
      * rewrite IH'. replace (hi - Nat.max (S o) lo)%nat with 0%nat by lia. replace (hi - o)%nat with 0%nat by lia. reflexivity.
    + rewrite IH'. replace (lo - o)%nat with (S (lo - S o)) by lia. cbn [skipn]. do 2 f_equal; lia.
Qed.
Lemma py_slice_positions {A} (l : list A) a b : py_slice l a b = at_positions (in_slice (length l) a b) l.
Proof.
  unfold py_slice, at_positions.
  set (lo := match a with Some b => slice_bound (length l) b | None => 0%nat end).
  set (hi := match b with Some b => slice_bound (length l) b | None => length l end).
  rewrite (at_positions_range _ lo hi l 0).
  - rewrite Nat.sub_0_r. f_equal; lia.
  - intros p Hp. unfold in_slice. subst lo hi. f_equal.
    + destruct a as [a|]; [|reflexivity]. unfold slice_bound.
      destruct (Z.ltb_spec a 0).
      * destruct (Z.leb_spec (Z.of_nat (length l) + a) (Z.of_nat p)), (Nat.leb_spec (Z.to_nat (Z.max 0 (a + Z.of_nat (length l)))) p); auto; lia.
      * destruct (Z.leb_spec a (Z.of_nat p)), (Nat.leb_spec (Nat.min (length l) (Z.to_nat a)) p); auto; lia.
    + destruct b as [b|]; [|symmetry; apply Nat.ltb_lt; lia]. unfold slice_bound.
      destruct (Z.ltb_spec b 0).
      * destruct (Z.ltb_spec (Z.of_nat p) (Z.of_nat (length l) + b)), (Nat.ltb_spec p (Z.to_nat (Z.max 0 (b + Z.of_nat (length l))))); auto; lia.
      * destruct (Z.ltb_spec (Z.of_nat p) b), (Nat.ltb_spec p (Nat.min (length l) (Z.to_nat b))); auto; lia.
Qed.
Lemma slice_general' (v : vocab) (a b : option Z) : dwf (fd v) ->
  exists r, v_getitem (ASlice a b) v = Ok r /\ fd r = at_positions (in_slice (v_len v) a b) (v_dataframe v).
Proof.
  intros W. destruct (slice_general v a b W) as (r & E & F). exists r. split; auto. rewrite F, py_slice_positions.
  unfold v_len, dkeys. rewrite map_length, (Permutation_length (df_perm v)). reflexivity.
Qed.

(** ** Comparison selection *)
Lemma keys_sel (v : vocab) (p : pystr * Z -> bool) k : dwf (fd v) ->
  In k (map fst (filter p (fd v))) <-> exists f, vget v k = Some f /\ p (k, f) = true.
Proof.
  intros W. rewrite in_map_iff. split.
  - intros ([k' f] & E & Hi). cbn in E; subst k'. apply filter_In in Hi as [Hi Hp].
    exists f. split; auto. apply dget_In; auto.
  - intros (f & E & Hp). exists (k, f). split; auto. apply filter_In. split; auto. apply dget_In; auto.
Qed.
Lemma In_v_lt v q k : dwf (fd v) -> In k (v_lt v q) <-> exists f, vget v k = Some f /\ (inject_Z f < q)%Q.
Proof.
  intros W. unfold v_lt. rewrite keys_sel by auto. cbn. split; intros (f & E & Hp); exists f; split; auto.
  - apply negb_true_iff in Hp. apply Qnot_le_lt. intros C. apply Qle_bool_iff in C. congruence.
  - apply negb_true_iff. apply not_true_iff_false. intros C. apply Qle_bool_iff in C. eapply Qlt_not_le; eauto.
Qed.
Lemma In_v_le v q k : dwf (fd v) -> In k (v_le v q) <-> exists f, vget v k = Some f /\ (inject_Z f <= q)%Q.
Proof. intros W. unfold v_le. rewrite keys_sel by auto. cbn. setoid_rewrite Qle_bool_iff. tauto. Qed.
Lemma In_v_eq v q k : dwf (fd v) -> In k (v_eq v q) <-> exists f, vget v k = Some f /\ (inject_Z f == q)%Q.
Proof. intros W. unfold v_eq. rewrite keys_sel by auto. cbn. setoid_rewrite Qeq_bool_iff. tauto. Qed.
Lemma In_v_gt v q k : dwf (fd v) -> In k (v_gt v q) <-> exists f, vget v k = Some f /\ (q < inject_Z f)%Q.
Proof.
  intros W. unfold v_gt. rewrite keys_sel by auto. cbn. split; intros (f & E & Hp); exists f; split; auto.
  - apply negb_true_iff in Hp. apply Qnot_le_lt. intros C. apply Qle_bool_iff in C. congruence.
  - apply negb_true_iff. apply not_true_iff_false. intros C. apply Qle_bool_iff in C. eapply Qlt_not_le; eauto.
Qed.
Lemma In_v_ge v q k : dwf (fd v) -> In k (v_ge v q) <-> exists f, vget v k = Some f /\ (q <= inject_Z f)%Q.
Proof. intros W. unfold v_ge. rewrite keys_sel by auto. cbn. setoid_rewrite Qle_bool_iff. tauto. Qed.

Lemma select_items_spec v l : dwf (fd v) ->
  exists r, v_getitem (AItems l) v = Ok r /\ dwf (fd r) /\
    forall k f, vget r k = Some f <-> vget v k = Some f /\ In k l.
Proof.
  intros W. destruct l as [|x l].
  - eexists; split; [reflexivity|]. split; [constructor|]. unfold vget; cbn. intros; split; [congruence|intros [_ []]].
  - eexists; split; [reflexivity|]. cbn -[mem]. split; [apply dwf_filter; auto|].
    intros k f. unfold vget. cbn -[mem]. rewrite dget_filter by auto. cbn [fst].
    destruct (dget (fd v) k) eqn:E; [|split; [congruence|intros [? ?]; congruence]].
    destruct (mem k (x :: l)) eqn:M.
    + apply mem_In in M; cbn in M. tauto.
    + apply mem_nIn in M; cbn in M. split; [congruence|tauto].
Qed.
Lemma select_freqs_spec v l : dwf (fd v) ->
  exists r, v_getitem (AFreqs l) v = Ok r /\ dwf (fd r) /\
    forall k f, vget r k = Some f <-> vget v k = Some f /\ In f l.
Proof.
  intros W. destruct l as [|x l].
  - eexists; split; [reflexivity|]. split; [constructor|]. unfold vget; cbn. intros; split; [congruence|intros [_ []]].
  - eexists; split; [reflexivity|]. cbn -[mem]. split; [apply dwf_filter; auto|].
    intros k f. unfold vget. cbn -[mem]. rewrite dget_filter by auto. cbn [snd].
    destruct (dget (fd v) k) eqn:E; [|split; [congruence|intros [? ?]; congruence]].
    destruct (mem z (x :: l)) eqn:M.
    + apply mem_In in M; cbn in M. split; [intros Q; injection Q as <-; auto|tauto].
    + apply mem_nIn in M; cbn in M. split; [congruence|]. intros [Q ?]. injection Q as <-. tauto.
Qed.

Lemma select_tuple_spec (cs : list (list pystr)) : forall v, dwf (fd v) ->
  exists r, v_getitem (ATuple (map AItems cs)) v = Ok r /\ dwf (fd r) /\
    forall k f, vget r k = Some f <-> vget v k = Some f /\ (forall c, In c cs -> In k c).
Proof.
  induction cs as [|c cs IH]; intros v W.
  - exists v. split; auto. split; auto. intros. split; [split; auto; intros ? []|tauto].
  - destruct (select_items_spec v c W) as (r1 & E1 & W1 & S1).
    destruct (IH r1 W1) as (r2 & E2 & W2 & S2).
    exists r2. split.
    + change (rbind (v_getitem (AItems c) v) (fun d => v_getitem (ATuple (map AItems cs)) d) = Ok r2).
      rewrite E1. exact E2.
    + split; auto. intros k f. rewrite S2, S1. cbn. split.
      * intros [[? ?] ?]. split; auto. intros c' [<-|?]; auto.
      * intros [? ?]. auto.
Qed.

(** ** subvocab, equal, select_items *)
Lemma subvocab_get v items k :
  vget (v_subvocab v items) k = if mem k items then Some (sval (vget v) k) else None.
Proof.
  unfold v_subvocab, vget. cbn [vocab_init fd].
  assert (G : forall d, dget (fold_left (fun d it => dset d it match dget (fd v) it with Some f => f | None => 0 end) items d) k
             = if mem k items then Some (sval (dget (fd v)) k) else dget d k).
  { induction items as [|x l IH]; cbn; auto. intros d. rewrite IH.
    fold (mem k l). destruct (mem k l); [rewrite orb_true_r; auto|]. rewrite orb_false_r.
    rewrite dget_dset. unfold eqb, sval. destruct (eqdec k x); subst; auto. }
  rewrite G. auto.
Qed.

Lemma v_equal_spec v1 v2 : dwf (fd v1) -> dwf (fd v2) ->
  v_equal v1 v2 = true <-> forall k, vget v1 k = vget v2 k.
Proof.
  intros W1 W2. unfold v_equal, dict_eq, vget. rewrite andb_true_iff, Nat.eqb_eq, forallb_forall. split.
  - intros [L F].
    assert (I : forall k f, dget (fd v1) k = Some f -> dget (fd v2) k = Some f).
    { intros k f E. apply dget_In in E; auto. apply F in E. cbn in E.
      destruct (dget (fd v2) k); [|congruence]. apply eqb_true in E. subst; auto. }
    assert (INC : incl (dkeys (fd v1)) (dkeys (fd v2))).
    { intros k Hk. apply dget_key_Some in Hk as [f Hf]. apply I in Hf. eapply dget_Some_key; eauto. }
    assert (INC' : incl (dkeys (fd v2)) (dkeys (fd v1))).
    { apply NoDup_length_incl; auto. unfold dkeys. rewrite !map_length. lia. }
    intros k. destruct (dget (fd v1) k) eqn:E; [symmetry; auto|].
    destruct (dget (fd v2) k) eqn:E2; auto. exfalso.
    apply dget_Some_key in E2. apply INC' in E2. apply dget_None in E. tauto.
  - intros E. split.
    + apply Permutation_length, dget_ext_perm; auto.
    + intros [k f] Hi. apply dget_In in Hi; auto. cbn. rewrite <- E, Hi. apply eqb_refl.
Qed.

Lemma item_list_spec v : dwf (fd v) ->
  Permutation (v_keys v) (v_item_list v) /\ StronglySorted (fun a b => sltb a b = true) (v_item_list v).
Proof.
  intros W. split; [apply isort_perm|].
  eapply SSorted_impl_NoDup with (g := fun x => x) (R := fun a b => sleb a b = true).
  - intros a b NE L. rewrite sltb_sleb. destruct (sleb b a) eqn:E; auto. exfalso. apply NE, sleb_antisym; auto.
  - rewrite map_id. eapply Permutation_NoDup; [apply isort_perm|auto].
  - apply isort_sorted; [apply sleb_total|apply sleb_trans].
Qed.

Lemma before_last_spec c s p : before_last c s = Some p <-> exists t, s = p ++ c :: t /\ ~ In c t.
Proof.
  revert p; induction s as [|x s IH]; intros p; cbn.
  - split; [congruence|]. intros (t & E & _). destruct p; discriminate.
  - destruct (before_last c s) as [q|] eqn:B.
    + split.
      * intros E; injection E as <-. destruct (proj1 (IH q) eq_refl) as (t & -> & Hn). exists t; auto.
      * intros (t & E & Hn). destruct p as [|y p]; cbn in E; injection E as -> ->.
        -- destruct (proj1 (IH q) eq_refl) as (t' & -> & _). exfalso. apply Hn. apply in_or_app; cbn; auto.
        -- f_equal. f_equal. assert (Some q = Some p) by (apply IH; eauto). congruence.
    + assert (NI : ~ In c s).
      { intros Hi. assert (exists p t, s = p ++ c :: t /\ ~ In c t) as (p' & t & E & Hn).
        { clear - Hi. induction s as [|y s IHs]; [destruct Hi|].
          destruct (in_dec eqdec c s) as [Hs|Hs].
          - destruct (IHs Hs) as (p & t & -> & Hn). exists (y :: p), t; auto.
          - destruct Hi as [->|]; [|tauto]. exists [], s; auto. }
        assert (None = Some p') by (apply IH; eauto). congruence. }
      destruct (eqdec x c) as [->|NE].
      * split.
        -- intros E; injection E as <-. exists s; auto.
        -- intros (t & E & Hn). destruct p as [|y p]; auto. cbn in E. injection E as -> ->.
           exfalso. apply NI. apply in_or_app; cbn; auto.
      * split; [congruence|]. intros (t & E & Hn). destruct p as [|y p]; cbn in E; injection E as -> ->; [congruence|].
        exfalso. apply NI. apply in_or_app; cbn; auto.
Qed.
Lemma before_last_None c s : before_last c s = None <-> ~ In c s.
Proof.
  induction s as [|x s IH]; cbn; [tauto|]. destruct (before_last c s) eqn:B.
  - split; [congruence|]. intros Hn. exfalso. apply Hn. right.
    apply before_last_spec in B as (t & -> & _). apply in_or_app; cbn; auto.
  - destruct (eqdec x c); subst; split; try congruence; try tauto.
Qed.

Lemma select_word_spec v word : dwf (fd v) ->
  forall k f, vget (v_select_word v word) k = Some f <-> vget v k = Some f /\ is_word_of word k.
Proof.
  intros W k f. unfold v_select_word, vget. cbn [vocab_init fd]. rewrite dget_filter by auto. cbn [fst].
  assert (E : eqb word (rsplit1_head k) = true <-> is_word_of word k).
  { rewrite eqb_eq. unfold rsplit1_head, is_word_of. destruct (before_last slash k) as [p|] eqn:B.
    - apply before_last_spec in B as B'. destruct B' as (t & E & Hn). split.
      + intros ->. left. exists t; auto.
      + intros [(t' & E' & Hn')|[E' Hn']].
        * assert (Some p = Some word) by (rewrite <- B; apply before_last_spec; eauto). congruence.
        * exfalso. apply Hn'. rewrite E. apply in_or_app; cbn; auto.
    - apply before_last_None in B. split; [intros ->; auto|].
      intros [(t' & E' & Hn')|[E' Hn']]; auto. exfalso. apply B. rewrite E'. apply in_or_app; cbn; auto. }
  destruct (dget (fd v) k); [|split; [congruence|intros [? _]; congruence]].
  destruct (eqb word (rsplit1_head k)); split; try tauto; try congruence.
  intros [Q C]. apply E in C. congruence.
Qed.

Lemma subvocab_spec v items k :
  (In k items -> vget (v_subvocab v items) k = Some (sval (vget v) k)) /\
  (~ In k items -> vget (v_subvocab v items) k = None).
Proof.
  rewrite subvocab_get. split; intros H.
  - apply mem_In in H. rewrite H. auto.
  - apply mem_nIn in H. rewrite H. auto.
Qed.

Lemma select_partition v q : dwf (fd v) ->
  exists hi lo, v_getitem (AItems (v_ge v q)) v = Ok hi /\ v_getitem (AItems (v_lt v q)) v = Ok lo /\
    forall k f, vget v k = Some f <-> (vget hi k = Some f /\ vget lo k = None) \/ (vget lo k = Some f /\ vget hi k = None).
Proof.
  intros W. destruct (select_items_spec v (v_ge v q) W) as (hi & E1 & _ & S1).
  destruct (select_items_spec v (v_lt v q) W) as (lo & E2 & _ & S2).
  exists hi, lo. split; auto. split; auto. intros k f. split.
  - intros E. destruct (Qlt_le_dec (inject_Z f) q) as [L|L].
    + right. split.
      * apply S2. split; auto. apply In_v_lt; auto. eauto.
      * destruct (vget hi k) eqn:G; auto. apply S1 in G as [G I]. apply In_v_ge in I as (f' & E' & L'); auto.
        assert (f = f') by congruence. subst. exfalso. eapply Qlt_not_le; eauto.
    + left. split.
      * apply S1. split; auto. apply In_v_ge; auto. eauto.
      * destruct (vget lo k) eqn:G; auto. apply S2 in G as [G I]. apply In_v_lt in I as (f' & E' & L'); auto.
        assert (f = f') by congruence. subst. exfalso. eapply Qlt_not_le; eauto.
  - intros [[E _]|[E _]]; [apply S1 in E|apply S2 in E]; tauto.
Qed.

(** ** Reads *)
Lemma lookup_pure_dict v k : isdef v = false -> snd (v_lookup v k) = v.
Proof. intros D. unfold v_lookup. destruct (dget (fd v) k); auto. rewrite D. auto. Qed.
Lemma lookup_present v k : v_contains v k = true -> snd (v_lookup v k) = v.
Proof. unfold v_contains, dmem, v_lookup. destruct (dget (fd v) k); auto. discriminate. Qed.
Lemma lookup_default_inserts v k : isdef v = true -> v_contains v k = false ->
  v_len (snd (v_lookup v k)) = S (v_len v) /\ v_contains (snd (v_lookup v k)) k = true.
Proof.
  unfold v_contains. intros D M. unfold v_lookup. pose proof M as M'. unfold dmem in M'.
  destruct (dget (fd v) k) eqn:G; [discriminate|].
  rewrite D. unfold v_len. cbn [snd fd]. rewrite dkeys_dset, M, app_length. cbn. split; [lia|].
  unfold dmem. rewrite dget_dset_same. auto.
Qed.
