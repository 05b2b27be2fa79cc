(** * Sparse matrix lemmas: the value of every cell after each scipy / SparseMatrix operation. *)
From Coq Require Import NArith ZArith Bool Arith Lia Permutation Sorted List.
From Verif Require Import Base BaseLemmas MxModel MxSpec.
Import ListNotations.

Lemma nodup_map_inj {A B} (f : A -> B) l : (forall x y, In x l -> In y l -> f x = f y -> x = y) -> NoDup l -> NoDup (map f l).
Proof.
  induction l as [|a l IH]; intros I ND; [constructor|]. inversion ND; subst. cbn. constructor.
  - intros IN. apply in_map_iff in IN as (x & E & IN). assert (x = a) by (apply I; cbn; auto). subst. contradiction.
  - apply IH; auto. intros. apply I; cbn; auto.
Qed.

Section Nums.
  Context {V : Type} {NV : Num V}.
  Lemma vleb_refl (a : V) : vleb a a = true.
  Proof. destruct (vleb_total a a); assumption. Qed.
  Lemma veqb_eq (a b : V) : veqb a b = true <-> a = b.
  Proof.
    unfold veqb. rewrite andb_true_iff. split; [intros [? ?]; now apply vleb_antisym|].
    intros ->. now rewrite vleb_refl.
  Qed.
  Lemma isz_ok (a : V) : isz a = true <-> a = zero.
  Proof. apply veqb_eq. Qed.
  Lemma isz_false (a : V) : isz a = false <-> a <> zero.
  Proof. rewrite <- isz_ok. destruct (isz a); split; congruence. Qed.
  Lemma isz_zero : isz (zero : V) = true.
  Proof. now apply isz_ok. Qed.
  Lemma isz_one : isz (one : V) = false.
  Proof. apply isz_false, one_nz. Qed.
  Lemma add_0r (a : V) : add a zero = a.
  Proof. rewrite add_comm. apply add_0. Qed.
  Lemma add_swap (a b c : V) : add a (add b c) = add b (add a c).
  Proof. now rewrite !add_assoc, (add_comm a b). Qed.

  Lemma sumv_app (l l' : list V) : sumv (l ++ l') = add (sumv l) (sumv l').
  Proof. induction l as [|x l IH]; cbn; [symmetry; apply add_0|]. fold (sumv (l ++ l')) (sumv l). rewrite IH. apply add_assoc. Qed.
  Lemma sumv_perm (l l' : list V) : Permutation l l' -> sumv l = sumv l'.
  Proof.
    induction 1; cbn; auto; try (fold (sumv l) (sumv l'); congruence).
    - fold (sumv l). apply add_swap.
  Qed.
  Lemma sumv_zero (l : list V) : (forall x, In x l -> x = zero) -> sumv l = zero.
  Proof. induction l as [|x l IH]; cbn; intros Z; [reflexivity|]. fold (sumv l). rewrite IH by auto. rewrite (Z x) by auto. apply add_0. Qed.
  Lemma sumv_add {A} (f g : A -> V) l : sumv (map (fun x => add (f x) (g x)) l) = add (sumv (map f l)) (sumv (map g l)).
  Proof.
    induction l as [|x l IH]; cbn; [symmetry; apply add_0|].
    fold (sumv (map (fun x => add (f x) (g x)) l)) (sumv (map f l)) (sumv (map g l)). rewrite IH.
    rewrite <- !add_assoc. f_equal. apply add_swap.
  Qed.
  Lemma sumv_map_ext {A} (f g : A -> V) l : (forall x, In x l -> f x = g x) -> sumv (map f l) = sumv (map g l).
  Proof. intros E. f_equal. now apply map_ext_in. Qed.
  (** Sum over cells in both orders *)
  Lemma sumv_exchange {A B} (f : A -> B -> V) la lb :
    sumv (map (fun a => sumv (map (f a) lb)) la) = sumv (map (fun b => sumv (map (fun a => f a b) la)) lb).
  Proof.
    induction la as [|a la IH]; cbn.
    - symmetry. apply sumv_zero. intros x I. apply in_map_iff in I as (b & <- & _). reflexivity.
    - fold (sumv (map (fun a => sumv (map (f a) lb)) la)). rewrite IH.
      rewrite <- (sumv_add (f a) (fun b => sumv (map (fun a => f a b) la))). apply sumv_map_ext. reflexivity.
  Qed.

  (** Sum of the selected values *)
  Definition pick {K} (p : K -> bool) (l : list (K * V)) : V := sumv (map snd (filter (fun e => p (fst e)) l)).
  Lemma pick_app {K} (p : K -> bool) l l' : pick p (l ++ l') = add (pick p l) (pick p l').
  Proof. unfold pick. now rewrite filter_app, map_app, sumv_app. Qed.
  Lemma pick_cons {K} (p : K -> bool) k v l : pick p ((k, v) :: l) = if p k then add v (pick p l) else pick p l.
  Proof. unfold pick. cbn. now destruct (p k). Qed.
  Lemma pick_none {K} (p : K -> bool) l : (forall e, In e l -> p (fst e) = false) -> pick p l = zero.
  Proof.
    intros Z. unfold pick. apply sumv_zero. intros x I. apply in_map_iff in I as (e & _ & I). apply filter_In in I as [I P].
    rewrite Z in P by assumption. discriminate.
  Qed.
  Lemma pick_ext {K} (p q : K -> bool) l : (forall e, In e l -> p (fst e) = q (fst e)) -> pick p l = pick q l.
  Proof. intros E. unfold pick. do 2 f_equal. apply filter_ext_in. exact E. Qed.
  Lemma pick_perm {K} (p : K -> bool) l l' : Permutation l l' -> pick p l = pick p l'.
  Proof.
    intros P. unfold pick. apply sumv_perm, Permutation_map.
    induction P; cbn; repeat match goal with |- context [if ?b then _ else _] => destruct b end; eauto using perm_swap, perm_trans.
  Qed.
  Lemma pick_filter {K} (p q : K -> bool) (l : list (K * V)) :
    pick p (filter (fun e => q (fst e)) l) = pick (fun k => q k && p k) l.
  Proof.
    induction l as [|[k v] l IH]; [reflexivity|]. cbn [filter fst]. rewrite pick_cons. destruct (q k) eqn:Q; cbn [andb].
    - rewrite pick_cons. rewrite IH. reflexivity.
    - exact IH.
  Qed.
  Lemma pick_map {K K'} (g : K -> K') (p : K' -> bool) (l : list (K * V)) :
    pick p (map (fun e => (g (fst e), snd e)) l) = pick (fun k => p (g k)) l.
  Proof. induction l as [|[k v] l IH]; [reflexivity|]. cbn [map fst snd]. rewrite !pick_cons. now rewrite IH. Qed.
  (** Dropping zero values does not change sums *)
  Lemma pick_nz {K} (p : K -> bool) (l : list (K * V)) : pick p (filter (fun e => negb (isz (snd e))) l) = pick p l.
  Proof.
    induction l as [|[k v] l IH]; [reflexivity|]. cbn [filter snd]. rewrite pick_cons.
    destruct (isz v) eqn:Z; cbn [negb].
    - rewrite IH. apply isz_ok in Z. subst. rewrite add_0. now destruct (p k).
    - rewrite pick_cons. now rewrite IH.
  Qed.
  (** A list with one value per key *)
  Lemma pick_fun {K} (ks : list K) (f : K -> V) (p : K -> bool) (k : K) :
    NoDup ks -> (forall x, In x ks -> p x = true <-> x = k) ->
    pick p (map (fun x => (x, f x)) ks) = if existsb p ks then f k else zero.
  Proof.
    induction ks as [|a ks IH]; intros ND E; [reflexivity|]. inversion ND; subst. cbn [map existsb]. rewrite pick_cons.
    destruct (p a) eqn:P; cbn [orb].
    - assert (a = k) by (apply E; cbn; auto). subst a. rewrite pick_none; [apply add_0r|].
      intros e I. apply in_map_iff in I as (x & <- & I). cbn. destruct (p x) eqn:Q; [|reflexivity].
      assert (x = k) by (apply E; cbn; auto). subst. contradiction.
    - apply IH; [assumption|]. intros. apply E. cbn. auto.
  Qed.
  Lemma pick_in {K} (p : K -> bool) (l : list (K * V)) k v :
    NoDup (map fst l) -> In (k, v) l -> (forall x, p x = true <-> x = k) -> pick p l = v.
  Proof.
    induction l as [|[a w] l IH]; intros ND I E; [contradiction|]. inversion ND; subst. rewrite pick_cons.
    destruct I as [I|I].
    - inversion I; subst. rewrite (proj2 (E k) eq_refl). rewrite pick_none; [apply add_0r|]. intros [x y] I2. cbn.
      destruct (p x) eqn:P; [|reflexivity]. apply E in P. subst. exfalso. match goal with H : ~ In _ _ |- _ => apply H end.
      apply in_map_iff. now exists (k, y).
    - destruct (p a) eqn:P.
      + apply E in P. subst. exfalso. match goal with H : ~ In _ _ |- _ => apply H end. apply in_map_iff. now exists (k, v).
      + now apply IH.
  Qed.
End Nums.

Section SpProofs.
  Context {V : Type} {NV : Num V}.
  Implicit Types (m : sp V) (ln : list (nat * V)) (es : list (nat * nat * V)).

  Lemma lane_get_pick ln b : lane_get ln b = pick (fun k => k =? b) ln.
  Proof. reflexivity. Qed.
  Lemma lane_get_absent ln b : ~ In b (map fst ln) -> lane_get ln b = zero.
  Proof.
    intros N. rewrite lane_get_pick; apply pick_none. intros [k v] I. cbn. apply Nat.eqb_neq. intros ->. apply N, in_map_iff. now exists (b, v).
  Qed.
  Lemma lane_get_fun ks (f : nat -> V) b : NoDup ks -> lane_get (map (fun j => (j, f j)) ks) b = if mem b ks then f b else zero.
  Proof.
    intros ND. rewrite lane_get_pick. rewrite (pick_fun ks f (fun k => k =? b) b) by (auto; intros; apply Nat.eqb_eq).
    replace (existsb (fun k => k =? b) ks) with (mem b ks); [reflexivity|].
    unfold mem. clear. induction ks as [|k ks IH]; [reflexivity|]. cbn [existsb]. rewrite IH. f_equal.
    destruct (k =? b) eqn:E; [apply Nat.eqb_eq in E; subst; apply eqb_refl|]. apply Nat.eqb_neq in E. apply eqb_neq. congruence.
  Qed.
  Definition sset (l : list nat) : list nat := isort Nat.leb (dedup l).
  Lemma sset_In l x : In x (sset l) <-> In x l.
  Proof. unfold sset. rewrite isort_In. apply dedup_In. Qed.
  Lemma sset_NoDup l : NoDup (sset l).
  Proof. eapply Permutation_NoDup; [apply isort_perm|apply dedup_NoDup]. Qed.

  Lemma canon_get ln b : lane_get (canon ln) b = lane_get ln b.
  Proof.
    unfold canon. rewrite lane_get_fun by apply sset_NoDup. destruct (mem b (isort Nat.leb (dedup (map fst ln)))) eqn:M; [reflexivity|].
    symmetry. apply lane_get_absent. apply mem_nIn in M. intros I. apply M, sset_In, I.
  Qed.
  Lemma canon_keys ln : map fst (canon ln) = sset (map fst ln).
  Proof. unfold canon. rewrite map_map. cbn. apply map_id. Qed.

  Lemma canon_wf n ln : Forall (fun e => fst e < n) ln -> NoDup (map fst (canon ln)) /\ Forall (fun e => fst e < n) (canon ln).
  Proof.
    intros F. split; [rewrite canon_keys; apply sset_NoDup|]. apply Forall_forall. intros e I.
    assert (I2 : In (fst e) (map fst (canon ln))) by (now apply in_map). rewrite canon_keys in I2. apply (proj1 (sset_In _ _)) in I2.
    apply in_map_iff in I2 as (e' & E & I2). rewrite <- E. rewrite Forall_forall in F. now apply F.
  Qed.

  (** Cells from coordinate triples *)
  Definition ij (i j : nat) (k : nat * nat) : bool := (fst k =? i) && (snd k =? j).
  Definition cellsum es i j : V := pick (ij i j) es.
  Lemma ij_true i j k : ij i j k = true <-> k = (i, j).
  Proof. destruct k as [a b]. unfold ij. cbn. rewrite andb_true_iff, !Nat.eqb_eq. split; [intros [-> ->]; reflexivity|intros E; inversion E; auto]. Qed.

  Lemma nth_map_seq {A} (f : nat -> A) n i d : i < n -> nth i (map f (seq 0 n)) d = f i.
  Proof.
    intros L. rewrite (nth_indep _ d (f 0)) by (now rewrite map_length, seq_length). rewrite map_nth, seq_nth by assumption. reflexivity.
  Qed.
  Lemma of_coo_get nr nc es i j : spget (of_coo nr nc es) i j = if i <? nr then cellsum es i j else zero.
  Proof.
    unfold spget, mget, of_coo. cbn [sfmt lanes]. destruct (Nat.ltb_spec i nr).
    - rewrite nth_map_seq by assumption. rewrite canon_get, lane_get_pick.
      rewrite (pick_map (fun k => snd k) (fun k => k =? j)). rewrite (pick_filter (fun k => snd k =? j) (fun k => fst k =? i)).
      reflexivity.
    - rewrite nth_overflow; [reflexivity|]. now rewrite map_length, seq_length.
  Qed.
  Lemma of_coo_shape nr nc es : nrows (of_coo nr nc es) = nr /\ ncols (of_coo nr nc es) = nc.
  Proof. unfold of_coo, nrows, ncols, nmajor. cbn. now rewrite map_length, seq_length. Qed.
  Definition in_range nr nc es : Prop := Forall (fun e => fst (fst e) < nr /\ snd (fst e) < nc) es.
  Lemma of_coo_wf nr nc es : in_range nr nc es -> spwf (of_coo nr nc es).
  Proof.
    intros F. unfold spwf, of_coo. cbn [lanes nminor]. apply Forall_forall. intros ln I. apply in_map_iff in I as (i & <- & _).
    apply canon_wf. apply Forall_forall. intros e I. apply in_map_iff in I as (x & <- & I). apply filter_In in I as [I _].
    cbn. unfold in_range in F. rewrite Forall_forall in F. now apply F.
  Qed.

  (** Coordinates of a matrix *)
  Lemma combine_seq_In {A} (l : list A) s a x : In (a, x) (combine (seq s (length l)) l) <-> s <= a /\ nth_error l (a - s) = Some x.
  Proof.
    revert s. induction l as [|y l IH]; intros s; cbn.
    - split; [contradiction|]. intros [_ E]. destruct (a - s); discriminate.
    - rewrite IH. split.
      + intros [E|[L E]]; [inversion E; subst; rewrite Nat.sub_diag; auto|]. split; [lia|].
        replace (a - s) with (S (a - S s)) by lia. exact E.
      + intros [L E]. destruct (Nat.eq_dec a s) as [->|D]; [rewrite Nat.sub_diag in E; cbn in E; left; congruence|].
        right. split; [lia|]. replace (a - s) with (S (a - S s)) in E by lia. exact E.
  Qed.
  Lemma pick_flat {A} (f : A -> list (nat * nat * V)) p l : pick p (flat_map f l) = sumv (map (fun a => pick p (f a)) l).
  Proof.
    induction l as [|a l IH]; [reflexivity|]. cbn [flat_map map]. rewrite pick_app, IH. reflexivity.
  Qed.
  Lemma entries_mget (sel : nat * nat -> nat * nat) (L : list (list (nat * V))) (a b s : nat) p :
    (forall x y, p (sel (x, y)) = (x =? a) && (y =? b)) ->
    pick p (flat_map (fun al => map (fun e => (sel (fst al, fst e), snd e)) (snd al)) (combine (seq s (length L)) L))
    = if a <? s then zero else lane_get (nth (a - s) L []) b.
  Proof.
    intros HP. revert s. induction L as [|ln L IH]; intros s.
    - cbn [length seq combine flat_map]. destruct (a <? s); [reflexivity|]. destruct (a - s); reflexivity.
    - cbn [length seq combine flat_map fst snd]. rewrite pick_app, IH. clear IH.
      rewrite (pick_map (fun k => sel (s, k)) p).
      rewrite (pick_ext _ (fun k => (s =? a) && (k =? b))) by (intros; apply HP).
      destruct (Nat.ltb_spec a s) as [Lt|Ge].
      + replace (a <? S s) with true by (symmetry; apply Nat.ltb_lt; lia). rewrite add_0r.
        apply pick_none. intros. replace (s =? a) with false by (symmetry; apply Nat.eqb_neq; lia). reflexivity.
      + destruct (Nat.eq_dec s a) as [->|D].
        * replace (a <? S a) with true by (symmetry; apply Nat.ltb_lt; lia). rewrite add_0r, Nat.sub_diag. cbn [nth].
          rewrite lane_get_pick. apply pick_ext. intros. now rewrite Nat.eqb_refl.
        * replace (a <? S s) with false by (symmetry; apply Nat.ltb_ge; lia). rewrite pick_none, add_0.
          2:{ intros. replace (s =? a) with false by (symmetry; apply Nat.eqb_neq; lia). reflexivity. }
          replace (a - s) with (S (a - S s)) by lia. reflexivity.
  Qed.
  Lemma entries_get m i j : cellsum (entries m) i j = spget m i j.
  Proof.
    unfold cellsum, entries, spget, mget, nmajor. destruct m as [f L n]. cbn [sfmt lanes]. destruct f.
    - rewrite (entries_mget (fun k => k) L i j 0 (ij i j)) by (intros; reflexivity). cbn. now rewrite Nat.sub_0_r.
    - etransitivity; [apply (entries_mget (fun k => (snd k, fst k)) L j i 0 (ij i j))|].
      + intros. unfold ij. cbn. apply andb_comm.
      + cbn [Nat.ltb Nat.leb]. now rewrite Nat.sub_0_r.
  Qed.
  Lemma entries_In m a b v : In (a, b, v) (entries m) <->
    match sfmt m with Csr => In (b, v) (nth a (lanes m) []) | Csc => In (a, v) (nth b (lanes m) []) end.
  Proof.
    unfold entries. destruct m as [f L n]. cbn [sfmt lanes nmajor]. rewrite in_flat_map. unfold nmajor. cbn [lanes].
    assert (X : forall k x ln, In (k, ln) (combine (seq 0 (length L)) L) /\ In x ln <-> nth_error L k = Some ln /\ In x ln).
    { intros. rewrite combine_seq_In, Nat.sub_0_r. intuition lia. }
    assert (Y : forall k x, In x (nth k L []) <-> exists ln, nth_error L k = Some ln /\ In x ln).
    { intros k x. destruct (nth_error L k) as [ln|] eqn:E.
      - rewrite (nth_error_nth _ _ [] E). split; [eauto|]. intros (ln' & E' & I). congruence.
      - rewrite nth_overflow by (now apply nth_error_None). split; [contradiction|]. intros (ln' & E' & I). congruence. }
    destruct f; rewrite Y; split.
    - intros ([k ln] & I1 & I2). apply in_map_iff in I2 as ([y w] & E & I2). cbn in E, I2. inversion E; subst.
      exists ln. apply X; auto.
    - intros (ln & I). apply X in I as [I1 I2]. exists (a, ln). split; [assumption|]. apply in_map_iff. now exists (b, v).
    - intros ([k ln] & I1 & I2). apply in_map_iff in I2 as ([y w] & E & I2). cbn in E, I2. inversion E; subst.
      exists ln. apply X; auto.
    - intros (ln & I). apply X in I as [I1 I2]. exists (b, ln). split; [assumption|]. apply in_map_iff. now exists (a, v).
  Qed.
  Lemma nth_lane_wf m k : spwf m -> NoDup (map fst (nth k (lanes m) [])) /\ Forall (fun e => fst e < nminor m) (nth k (lanes m) []).
  Proof.
    intros W. destruct (Nat.lt_ge_cases k (length (lanes m))) as [L|G].
    - unfold spwf in W. rewrite Forall_forall in W. apply W, nth_In, L.
    - rewrite nth_overflow by assumption. split; constructor.
  Qed.
  Lemma nth_lane_In m k e : In e (nth k (lanes m) []) -> k < nmajor m.
  Proof. intros I. destruct (Nat.lt_ge_cases k (length (lanes m))); [assumption|]. rewrite nth_overflow in I by assumption. contradiction. Qed.
  Lemma entries_range m : spwf m -> in_range (nrows m) (ncols m) (entries m).
  Proof.
    intros W. apply Forall_forall. intros [[i j] v] I. apply entries_In in I. unfold nrows, ncols. cbn [fst snd].
    destruct (sfmt m).
    - split; [eapply nth_lane_In; eassumption|]. destruct (nth_lane_wf m i W) as [_ F]. rewrite Forall_forall in F. apply (F _ I).
    - split; [|eapply nth_lane_In; eassumption]. destruct (nth_lane_wf m j W) as [_ F]. rewrite Forall_forall in F. apply (F _ I).
  Qed.
  Lemma spget_range m i j : spwf m -> ~ (i < nrows m /\ j < ncols m) -> spget m i j = zero.
  Proof.
    intros W N. rewrite <- entries_get. apply pick_none. intros [[a b] v] I. cbn [fst].
    pose proof (entries_range m W) as R. unfold in_range in R. rewrite Forall_forall in R. specialize (R _ I). cbn in R.
    destruct (ij i j (a, b)) eqn:E; [|reflexivity]. apply ij_true in E. inversion E; subst. contradiction.
  Qed.
  Lemma flat_map_keys_NoDup (sel : nat * nat -> nat * nat) (L : list (list (nat * V))) s :
    (forall k k', sel k = sel k' -> k = k') -> Forall (fun ln => NoDup (map fst ln)) L ->
    NoDup (map fst (flat_map (fun al => map (fun e => (sel (fst al, fst e), snd e)) (snd al)) (combine (seq s (length L)) L))).
  Proof.
    intros INJ. revert s. induction L as [|ln L IH]; intros s F; [constructor|]. inversion F; subst.
    cbn [length seq combine flat_map fst snd]. rewrite map_app. apply NoDup_app'.
    - rewrite map_map. cbn. rewrite <- (map_map fst (fun k => sel (s, k))). apply nodup_map_inj; [|assumption].
      intros x y _ _ E. apply INJ in E. congruence.
    - apply IH. assumption.
    - intros k I1 I2. apply in_map_iff in I1 as (e & <- & I1). apply in_map_iff in I1 as (e1 & <- & I1). cbn in I2.
      apply in_map_iff in I2 as (e & E & I2). apply in_flat_map in I2 as ([s' ln'] & I2 & I3).
      apply in_map_iff in I3 as (e2 & <- & I3). cbn in E. apply INJ in E. inversion E; subst.
      apply combine_seq_In in I2. lia.
  Qed.
  Lemma entries_NoDup m : spwf m -> NoDup (map fst (entries m)).
  Proof.
    intros W. assert (F : Forall (fun ln => NoDup (map fst ln)) (lanes m)) by (eapply Forall_impl; [|exact W]; cbn; tauto).
    unfold entries, nmajor. destruct m as [f L n]. cbn [sfmt lanes] in *. destruct f.
    - apply (flat_map_keys_NoDup (fun k => k)); auto.
    - apply (flat_map_keys_NoDup (fun k => (snd k, fst k))); auto. intros [? ?] [? ?] E. cbn in E. inversion E; reflexivity.
  Qed.
  (** A stored entry is the value of its cell *)
  Lemma entries_value m i j v : spwf m -> In (i, j, v) (entries m) -> spget m i j = v.
  Proof. intros W I. rewrite <- entries_get. apply (pick_in _ _ (i, j)); [now apply entries_NoDup|assumption|apply ij_true]. Qed.
  Lemma not_stored m i j : ~ stored m i j -> spget m i j = zero.
  Proof.
    intros N. rewrite <- entries_get. apply pick_none. intros [k v] I. cbn. destruct (ij i j k) eqn:E; [|reflexivity].
    apply ij_true in E. subst. exfalso. apply N. apply in_map_iff. now exists (i, j, v).
  Qed.

  (** Conversions *)
  Lemma as_format_spec f m : spwf m -> spwf (as_format f m) /\ sfmt (as_format f m) = f
    /\ nrows (as_format f m) = nrows m /\ ncols (as_format f m) = ncols m /\ forall i j, spget (as_format f m) i j = spget m i j.
  Proof.
    intros W. destruct f; unfold as_format.
    - unfold tocsr. destruct (sfmt m) eqn:F; [now rewrite F|].
      destruct (of_coo_shape (nrows m) (ncols m) (entries m)) as [R C].
      split; [apply of_coo_wf; now apply entries_range|]. split; [reflexivity|]. split; [exact R|]. split; [exact C|].
      intros. rewrite of_coo_get. destruct (Nat.ltb_spec i (nrows m)); [apply entries_get|].
      symmetry. apply spget_range; [assumption|lia].
    - unfold tocsc. destruct (sfmt m) eqn:F; [|now rewrite F].
      set (es := map (fun e : nat * nat * V => (snd (fst e), fst (fst e), snd e)) (entries m)).
      assert (RG : in_range (ncols m) (nrows m) es).
      { pose proof (entries_range m W) as R. unfold in_range in *. rewrite Forall_forall in *. intros e I.
        apply in_map_iff in I as (x & <- & I). cbn. specialize (R _ I). tauto. }
      assert (G : forall i j, cellsum es i j = spget m j i).
      { intros. rewrite <- entries_get. unfold cellsum, es.
        rewrite (pick_map (fun k : nat * nat => (snd k, fst k)) (ij i j)). apply pick_ext. intros [[a b] v] _. unfold ij. cbn. apply andb_comm. }
      split; [|split; [reflexivity|split; [|split]]].
      + apply (of_coo_wf _ _ _ RG).
      + apply (proj2 (of_coo_shape (ncols m) (nrows m) es)).
      + apply (proj1 (of_coo_shape (ncols m) (nrows m) es)).
      + intros. change (spget (of_coo (ncols m) (nrows m) es) j i = spget m i j). rewrite of_coo_get, G.
        destruct (Nat.ltb_spec j (ncols m)); [reflexivity|]. symmetry. apply spget_range; [assumption|lia].
  Qed.

  (** Fancy indexing *)
  Lemma positions_In idx j k : In k (positions j idx) <-> nth_error idx k = Some j.
  Proof.
    unfold positions. rewrite filter_In, in_seq. split.
    - intros [L E]. destruct (nth_error idx k); [|discriminate]. apply Nat.eqb_eq in E. congruence.
    - intros E. rewrite E, Nat.eqb_refl. split; [|reflexivity]. split; [lia|]. apply nth_error_Some. congruence.
  Qed.
  Lemma positions_NoDup idx j : NoDup (positions j idx).
  Proof. apply NoDup_filter, seq_NoDup. Qed.
  Lemma index_minor_lane idx ln k : lane_get (flat_map (fun e => map (fun k => (k, snd e)) (positions (fst e) idx)) ln) k =
    match nth_error idx k with Some j => lane_get ln j | None => zero end.
  Proof.
    rewrite lane_get_pick.
    assert (P : forall j (v : V), pick (fun x => x =? k) (map (fun k => (k, v)) (positions j idx)) =
                if match nth_error idx k with Some x => x =? j | None => false end then v else zero).
    { intros. rewrite (pick_fun (positions j idx) (fun _ => v) (fun x => x =? k) k) by (auto using positions_NoDup; intros; apply Nat.eqb_eq).
      destruct (existsb (fun x => x =? k) (positions j idx)) eqn:E.
      - apply existsb_exists in E as (x & I & E). apply Nat.eqb_eq in E. subst. apply positions_In in I. now rewrite I, Nat.eqb_refl.
      - destruct (nth_error idx k) as [x|] eqn:N; [|reflexivity]. destruct (Nat.eqb_spec x j); [|reflexivity]. subst.
        exfalso. rewrite <- not_true_iff_false in E. apply E, existsb_exists. exists k. now rewrite positions_In, Nat.eqb_refl. }
    induction ln as [|[j v] ln IH].
    - cbn. now destruct (nth_error idx k).
    - cbn [flat_map fst snd]. rewrite pick_app, P, IH. destruct (nth_error idx k) as [x|]; [|apply add_0].
      rewrite !lane_get_pick, pick_cons, (Nat.eqb_sym j x). destruct (x =? j); [reflexivity|apply add_0].
  Qed.
  Lemma map_nth_oob {A B} (f : A -> B) l i d d' : d' = f d -> nth i (map f l) d' = f (nth i l d).
  Proof. intros ->. apply map_nth. Qed.
  Lemma index_minor_spec m idx : spwf m -> spwf (index_minor m idx) /\ nmajor (index_minor m idx) = nmajor m /\ nminor (index_minor m idx) = length idx
    /\ forall a k, mget (index_minor m idx) a k = match nth_error idx k with Some j => mget m a j | None => zero end.
  Proof.
    intros W. repeat split.
    - unfold spwf, index_minor. cbn [lanes nminor]. apply Forall_forall. intros ln I. apply in_map_iff in I as (l0 & <- & I).
      unfold spwf in W. rewrite Forall_forall in W. destruct (W _ I) as [ND _]. split.
      + clear -ND. induction l0 as [|[j v] l0 IH]; [constructor|]. inversion ND; subst. cbn [flat_map fst snd]. rewrite map_app.
        apply NoDup_app'; [rewrite map_map; cbn; rewrite map_id; apply positions_NoDup|auto|].
        intros k I1 I2. rewrite map_map in I1. cbn in I1. rewrite map_id in I1. apply positions_In in I1.
        apply in_map_iff in I2 as ([k' v'] & E & I2). cbn in E. subst k'. apply in_flat_map in I2 as ([j' w] & I2 & I3).
        apply in_map_iff in I3 as (k' & E & I3). cbn in E, I3. inversion E; subst. apply positions_In in I3.
        match goal with H : ~ In _ _ |- _ => apply H end. apply in_map_iff. exists (j', v'). cbn. split; [congruence|assumption].
      + apply Forall_forall. intros [k v] I2. apply in_flat_map in I2 as ([j w] & _ & I2). apply in_map_iff in I2 as (k' & E & I2).
        inversion E; subst. cbn. apply positions_In in I2. apply nth_error_Some. congruence.
    - unfold nmajor. cbn. apply map_length.
    - intros. unfold mget, index_minor. cbn [lanes]. rewrite (map_nth_oob _ _ _ []) by reflexivity. apply index_minor_lane.
  Qed.
  Lemma index_major_spec m idx : spwf m -> spwf (index_major m idx) /\ nmajor (index_major m idx) = length idx /\ nminor (index_major m idx) = nminor m
    /\ forall a k, mget (index_major m idx) k a = match nth_error idx k with Some j => mget m j a | None => zero end.
  Proof.
    intros W. repeat split.
    - unfold spwf, index_major. cbn [lanes nminor]. apply Forall_forall. intros ln I. apply in_map_iff in I as (a & <- & I).
      now apply nth_lane_wf.
    - unfold nmajor. cbn. apply map_length.
    - intros. unfold mget, index_major. cbn [lanes]. destruct (nth_error idx k) as [j|] eqn:E.
      + rewrite (nth_indep _ [] (nth 0 (lanes m) [])).
        2:{ rewrite map_length. apply nth_error_Some. congruence. }
        rewrite (map_nth (fun a => nth a (lanes m) []) idx 0 k). now rewrite (nth_error_nth _ _ 0 E).
      + rewrite nth_overflow; [reflexivity|]. rewrite map_length. now apply nth_error_None.
  Qed.
  Lemma take_rows_spec m idx : spwf m -> spwf (take_rows m idx) /\ sfmt (take_rows m idx) = sfmt m /\ nrows (take_rows m idx) = length idx /\ ncols (take_rows m idx) = ncols m
    /\ forall i j, spget (take_rows m idx) i j = match nth_error idx i with Some i' => spget m i' j | None => zero end.
  Proof.
    intros W. unfold take_rows, spget, nrows, ncols. destruct (sfmt m) eqn:F.
    - destruct (index_major_spec m idx W) as (? & ? & ? & G). change (sfmt (index_major m idx)) with (sfmt m). rewrite F. auto.
    - destruct (index_minor_spec m idx W) as (? & ? & ? & G). change (sfmt (index_minor m idx)) with (sfmt m). rewrite F. auto.
  Qed.
  Lemma take_cols_spec m idx : spwf m -> spwf (take_cols m idx) /\ sfmt (take_cols m idx) = sfmt m /\ nrows (take_cols m idx) = nrows m /\ ncols (take_cols m idx) = length idx
    /\ forall i j, spget (take_cols m idx) i j = match nth_error idx j with Some j' => spget m i j' | None => zero end.
  Proof.
    intros W. unfold take_cols, spget, nrows, ncols. destruct (sfmt m) eqn:F.
    - destruct (index_minor_spec m idx W) as (? & ? & ? & G). change (sfmt (index_minor m idx)) with (sfmt m). rewrite F. auto.
    - destruct (index_major_spec m idx W) as (? & ? & ? & G). change (sfmt (index_major m idx)) with (sfmt m). rewrite F. auto.
  Qed.
  Lemma sp_transpose_spec m : spwf m -> spwf (sp_transpose m) /\ nrows (sp_transpose m) = ncols m /\ ncols (sp_transpose m) = nrows m
    /\ (forall i j, spget (sp_transpose m) i j = spget m j i) /\ sp_transpose (sp_transpose m) = m.
  Proof.
    intros W. destruct m as [f L n]. unfold sp_transpose, nrows, ncols, spget, mget, nmajor. cbn. destruct f; repeat split; exact W.
  Qed.

  (** Element-wise operations *)
  Lemma lane_op_get op a b j : op zero zero = zero -> lane_get (lane_op op a b) j = op (lane_get a j) (lane_get b j).
  Proof.
    intros Z. unfold lane_op. rewrite lane_get_pick. rewrite (pick_nz (fun k => k =? j)).
    change (lane_get (map (fun j => (j, op (lane_get a j) (lane_get b j))) (sset (map fst a ++ map fst b))) j = op (lane_get a j) (lane_get b j)).
    rewrite lane_get_fun by apply sset_NoDup. destruct (mem j (sset (map fst a ++ map fst b))) eqn:M; [reflexivity|].
    apply mem_nIn in M. rewrite sset_In, in_app_iff in M. rewrite !lane_get_absent by tauto. now rewrite Z.
  Qed.
  Lemma lane_op_wf op a b n : Forall (fun e => fst e < n) a -> Forall (fun e => fst e < n) b ->
    NoDup (map fst (lane_op op a b)) /\ Forall (fun e => fst e < n) (lane_op op a b).
  Proof.
    intros Fa Fb. unfold lane_op. split.
    - apply NoDup_map_filter. rewrite map_map. cbn. rewrite map_id. apply sset_NoDup.
    - apply Forall_forall. intros e I. apply filter_In in I as [I _]. apply in_map_iff in I as (j & <- & I). cbn.
      apply (proj1 (sset_In _ _)) in I. rewrite Forall_forall in Fa, Fb. apply in_app_iff in I as [I|I]; apply in_map_iff in I as (x & <- & I); auto.
  Qed.
  Lemma nth_combine {A B} (la : list A) (lb : list B) i a b : length la = length lb -> nth i (combine la lb) (a, b) = (nth i la a, nth i lb b).
  Proof. apply combine_nth. Qed.
  Lemma sp_binop_spec op m1 m2 : spwf m1 -> spwf m2 -> op zero zero = zero ->
    nrows m1 = nrows m2 -> ncols m1 = ncols m2 ->
    exists m, sp_binop op m1 m2 = Ok m /\ spwf m /\ sfmt m = sfmt m1 /\ nrows m = nrows m1 /\ ncols m = ncols m1
      /\ (forall i j, spget m i j = op (spget m1 i j) (spget m2 i j))
      /\ Forall (fun e => isz (snd e) = false) (concat (lanes m)).
  Proof.
    intros W1 W2 Z R C. unfold sp_binop.
    rewrite (proj2 (Nat.eqb_eq _ _) R), (proj2 (Nat.eqb_eq _ _) C). cbn [andb]. eexists. split; [reflexivity|].
    destruct (as_format_spec (sfmt m1) m2 W2) as (W & F & R' & C' & G). set (m2' := as_format (sfmt m1) m2) in *.
    assert (LM : length (lanes m1) = length (lanes m2') /\ nminor m1 = nminor m2').
    { rewrite <- R, <- C in *. unfold nrows, ncols, nmajor in R', C'. rewrite F in R', C'. destruct (sfmt m1); split; congruence. }
    destruct LM as [LM NM].
    assert (LL : length (map (fun ab => lane_op op (fst ab) (snd ab)) (combine (lanes m1) (lanes m2'))) = length (lanes m1)).
    { rewrite map_length, combine_length. lia. }
    split; [|split; [|split; [|split; [|split]]]].
    - unfold spwf. cbn [lanes nminor]. apply Forall_forall. intros ln I. apply in_map_iff in I as ([a b] & <- & I). cbn.
      unfold spwf in W1, W. rewrite Forall_forall in W1, W. apply lane_op_wf.
      + apply in_combine_l in I. apply (W1 _ I).
      + apply in_combine_r in I. rewrite NM. apply (W _ I).
    - reflexivity.
    - unfold nrows, nmajor. cbn [sfmt lanes nminor]. rewrite LL. reflexivity.
    - unfold ncols, nmajor. cbn [sfmt lanes nminor]. rewrite LL. reflexivity.
    - assert (MG : forall a b, lane_get (nth a (map (fun ab => lane_op op (fst ab) (snd ab)) (combine (lanes m1) (lanes m2'))) []) b
                   = op (mget m1 a b) (mget m2' a b)).
      { intros. rewrite (map_nth_oob _ _ _ ([], [])) by reflexivity. rewrite nth_combine by assumption. cbn.
        now apply lane_op_get. }
      intros. rewrite <- (G i j). unfold spget. rewrite F. cbn [sfmt]. destruct (sfmt m1); apply MG.
    - cbn [lanes]. apply Forall_forall. intros e I. apply in_concat in I as (ln & I & I2). apply in_map_iff in I as (ab & <- & _).
      unfold lane_op in I2. apply filter_In in I2 as [_ I2]. now apply negb_true_iff in I2.
  Qed.
  (** scipy comparison with a scalar *)
  Lemma lane_cmp_get (p : V -> bool) ln j : p zero = false ->
    lane_get (map (fun e => (fst e, one)) (filter (fun e => p (snd e)) (canon ln))) j = if p (lane_get ln j) then one else zero.
  Proof.
    intros Z. unfold canon. fold (sset (map fst ln)).
    replace (map (fun e => (fst e, one)) (filter (fun e => p (snd e)) (map (fun j => (j, lane_get ln j)) (sset (map fst ln)))))
      with (map (fun j : nat => (j, one : V)) (filter (fun j => p (lane_get ln j)) (sset (map fst ln)))).
    2:{ induction (sset (map fst ln)) as [|x l IH]; [reflexivity|]. cbn [map filter snd]. destruct (p (lane_get ln x)); cbn; now rewrite IH. }
    rewrite (lane_get_fun _ (fun _ => one)) by (apply NoDup_filter, sset_NoDup).
    destruct (mem j (filter (fun j => p (lane_get ln j)) (sset (map fst ln)))) eqn:M.
    - apply mem_In, filter_In in M as [_ ->]. reflexivity.
    - apply mem_nIn in M. rewrite filter_In, sset_In in M. destruct (p (lane_get ln j)) eqn:P; [|reflexivity].
      exfalso. apply M. split; [|reflexivity]. destruct (in_dec Nat.eq_dec j (map fst ln)) as [I|I]; [assumption|].
      rewrite lane_get_absent in P by assumption. congruence.
  Qed.
  Lemma sp_cmp_spec (p : V -> bool) m : spwf m -> p zero = false -> spwf (sp_cmp p m) /\ nrows (sp_cmp p m) = nrows m /\ ncols (sp_cmp p m) = ncols m
    /\ (forall i j, spget (sp_cmp p m) i j = if p (spget m i j) then one else zero)
    /\ Forall (fun e => snd e = one) (concat (lanes (sp_cmp p m))).
  Proof.
    intros W Z. repeat split.
    - unfold spwf, sp_cmp. cbn [lanes nminor]. apply Forall_forall. intros l I. apply in_map_iff in I as (ln & <- & I).
      unfold spwf in W. rewrite Forall_forall in W. destruct (canon_wf (nminor m) ln (proj2 (W _ I))) as [ND F]. split.
      + rewrite map_map. cbn. now apply NoDup_map_filter.
      + apply Forall_forall. intros e I2. apply in_map_iff in I2 as (x & <- & I2). cbn. apply filter_In in I2 as [I2 _].
        rewrite Forall_forall in F. now apply F.
    - unfold nrows, sp_cmp, nmajor. cbn. now rewrite map_length.
    - unfold ncols, sp_cmp, nmajor. cbn. now rewrite map_length.
    - intros. unfold spget, mget, sp_cmp. cbn [sfmt lanes].
      destruct (sfmt m); (rewrite (map_nth_oob _ _ _ []) by reflexivity); now apply lane_cmp_get.
    - unfold sp_cmp. cbn [lanes]. apply Forall_forall. intros e I. apply in_concat in I as (l & I & I2).
      apply in_map_iff in I as (ln & <- & _). apply in_map_iff in I2 as (x & <- & _). reflexivity.
  Qed.
  Lemma entries_lanes m e : In e (entries m) -> exists x, In x (concat (lanes m)) /\ snd x = snd e.
  Proof.
    destruct e as [[i j] v]. intros I. apply entries_In in I.
    assert (X : forall k e, In e (nth k (lanes m) []) -> In e (concat (lanes m))).
    { intros k e I2. apply in_concat. exists (nth k (lanes m) []). split; [|assumption]. apply nth_In. eapply nth_lane_In; eassumption. }
    destruct (sfmt m); [exists (j, v)|exists (i, v)]; split; eauto.
  Qed.
  Lemma lanes_entries m x : In x (concat (lanes m)) -> exists e, In e (entries m) /\ snd e = snd x.
  Proof.
    destruct x as [b v]. intros I. apply in_concat in I as (ln & I & I2). apply In_nth_error in I as (a & E).
    apply (nth_error_nth _ _ []) in E. rewrite <- E in I2. destruct (sfmt m) eqn:F.
    - exists (a, b, v). split; [|reflexivity]. apply entries_In. now rewrite F.
    - exists (b, a, v). split; [|reflexivity]. apply entries_In. now rewrite F.
  Qed.
End SpProofs.
