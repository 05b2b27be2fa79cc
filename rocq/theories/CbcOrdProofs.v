(** * The order of clusters and several processes: proofs. *)
From Coq Require Import String NArith ZArith QArith Qreduction Bool Arith Lia Permutation Sorted List.
From Verif Require Import Base BaseLemmas Str DepMatchProofs CbcModel CbcSpec CbcMergeProofs CbcCleanProofs CbcStepProofs CbcLoopProofs CbcOrdModel CbcOrdSpec.
Import ListNotations.
Local Open Scope nat_scope.

(** ** What the processes leave behind *)
Section Files.
  Variable cse : pystr -> res (list scored).
  Variable groups : list (list pystr).
  Definition out (t : nat) : list scored := step1 cse (nth t groups []).
  Fixpoint last_pairs (sched : list (nat * nat)) : list (nat * nat) :=
    match sched with [] => [] | tp :: l => if in_dec Nat.eq_dec (snd tp) (map snd l) then last_pairs l else tp :: last_pairs l end.
  Lemma last_pairs_tasks sched : map fst (last_pairs sched) = last_tasks sched.
  Proof. induction sched as [|[t p] l IH]; auto. cbn [last_pairs last_tasks snd]. destruct (in_dec _ _ _); auto. cbn [map fst]. now rewrite IH. Qed.
  Lemma last_pairs_snoc l tp : last_pairs (l ++ [tp]) = filter (fun q => negb (snd q =? snd tp)) (last_pairs l) ++ [tp].
  Proof.
    induction l as [|q l IH]; cbn [app last_pairs].
    - cbn [map filter app]. destruct (in_dec _ _ _) as [[]|]; reflexivity.
    - rewrite IH. rewrite map_app. cbn [map]. destruct (in_dec Nat.eq_dec (snd q) (map snd l ++ [snd tp])) as [I|N], (in_dec Nat.eq_dec (snd q) (map snd l)) as [I'|N']; cbn [filter].
      + reflexivity.
      + apply in_app_iff in I as [I|[E|[]]]; [contradiction|]. rewrite E, Nat.eqb_refl. reflexivity.
      + exfalso. apply N, in_app_iff. auto.
      + destruct (Nat.eqb_spec (snd q) (snd tp)) as [E|_]; [exfalso; apply N, in_app_iff; right; left; auto|]. reflexivity.
  Qed.
  Lemma dset_perm {X} (d : dict nat X) k x : dwf d -> Permutation (dset d k x) (filter (fun e => negb (fst e =? k)) d ++ [(k, x)]).
  Proof.
    unfold dwf, dkeys. induction d as [|[a v] d IH]; intros W; [reflexivity|]. cbn [dset filter fst map] in *. inversion W as [|? ? N W']; subst. destruct (eqdec k a) as [->|Ne].
    - rewrite Nat.eqb_refl. cbn [negb].
      assert (F : filter (fun e : nat * X => negb (fst e =? a)) d = d).
      { clear - N. induction d as [|[b w] d IH]; auto. cbn [filter fst map] in *. destruct (Nat.eqb_spec b a) as [->|_]; [exfalso; apply N; left; auto|]. cbn [negb]. f_equal. apply IH. intros I. apply N. right; exact I. }
      rewrite F. apply Permutation_cons_append.
    - destruct (Nat.eqb_spec a k) as [->|_]; [congruence|]. cbn [negb app]. apply perm_skip, IH, W'.
  Qed.
  Lemma files_wf sched : dwf (l_files cse groups sched).
  Proof. induction sched as [|tp l IH] using rev_ind; [constructor|]. unfold l_files. rewrite fold_left_app. cbn [fold_left]. apply dwf_dset, IH. Qed.
  Lemma filter_map_comm {A B} (f : A -> B) p (l : list A) : filter p (map f l) = map f (filter (fun x => p (f x)) l).
  Proof. induction l as [|x l IH]; auto. cbn [map filter]. rewrite IH. destruct (p (f x)); auto. Qed.
  Lemma perm_filter {A} (p : A -> bool) l l' : Permutation l l' -> Permutation (filter p l) (filter p l').
  Proof.
    induction 1; cbn [filter]; auto.
    - destruct (p x); auto.
    - destruct (p x), (p y); auto. apply perm_swap.
    - etransitivity; eauto.
  Qed.
  Lemma files_last sched : Permutation (l_files cse groups sched) (map (fun tp => (snd tp, out (fst tp))) (last_pairs sched)).
  Proof.
    induction sched as [|tp l IH] using rev_ind; [constructor|]. unfold l_files. rewrite fold_left_app. cbn [fold_left]. fold (l_files cse groups l).
    rewrite dset_perm by apply files_wf. rewrite last_pairs_snoc, map_app. cbn [map]. apply Permutation_app_tail.
    rewrite (perm_filter _ _ _ IH). rewrite filter_map_comm. reflexivity.
  Qed.
End Files.

Section Parallel.
  Variable cse : pystr -> res (list scored).
  Lemma multicore_exact m elements sched r : m <> 0 -> step1_multicore cse m elements sched r ->
    exists L, r = Ok L /\ Permutation L (flat_map (fun t => step1 cse (nth t (data_group m elements) [])) (last_tasks sched)).
  Proof.
    intros Hm H. destruct m as [|m]; [congruence|]. unfold step1_multicore in H. remember (S m) as k eqn:Ek. destruct H as (Pt & listing & Pl & ->).
    eexists. split; [reflexivity|]. rewrite (files_last cse (data_group k elements) sched) in Pl.
    rewrite <- flat_map_concat_map. rewrite (Permutation_flat_map snd Pl). rewrite flat_map_concat_map, map_map. cbn [snd]. rewrite <- last_pairs_tasks, flat_map_concat_map, map_map. reflexivity.
  Qed.
  Lemma tasks_split sched : exists lost, Permutation (last_tasks sched ++ lost) (map fst sched).
  Proof.
    induction sched as [|[t p] l (lost & IH)]; [exists []; constructor|]. cbn [last_tasks map fst]. destruct (in_dec _ _ _).
    - exists (t :: lost). rewrite <- IH. symmetry. apply Permutation_middle.
    - exists lost. cbn [app]. now apply perm_skip.
  Qed.
  Lemma groups_flat m elements : m <> 0 -> Permutation (flat_map (fun t => step1 cse (nth t (data_group m elements) [])) (seq 0 m)) (step1 cse elements).
  Proof.
    intros Hm. rewrite flat_map_concat_map, <- (map_map (fun t => nth t (data_group m elements) []) (step1 cse)).
    rewrite <- (groups_length m elements) at 1. rewrite nth_seq_map, <- step1_concat. apply step1_perm, groups_all, Hm.
  Qed.
  Lemma multicore_same_iff m elements sched L : m <> 0 -> step1_multicore cse m elements sched (Ok L) ->
    (Permutation L (step1 cse elements) <-> forall t, t < m -> ~ In t (last_tasks sched) -> step1 cse (nth t (data_group m elements) []) = []).
  Proof.
    intros Hm H. pose proof H as H'. apply multicore_exact in H as (L' & [= <-] & P); [|exact Hm].
    assert (Pt : Permutation (map fst sched) (seq 0 m)) by (destruct m as [|m]; [congruence|apply H']).
    destruct (tasks_split sched) as (lost & Pl). set (f := fun t => step1 cse (nth t (data_group m elements) [])) in *.
    assert (PA : Permutation (flat_map f (last_tasks sched) ++ flat_map f lost) (step1 cse elements)).
    { rewrite <- flat_map_app. etransitivity; [|apply (groups_flat m elements Hm)]. apply Permutation_flat_map. now rewrite Pl. }
    assert (ND : NoDup (last_tasks sched ++ lost)).
    { eapply Permutation_NoDup; [symmetry; etransitivity; [exact Pl|exact Pt]|apply seq_NoDup]. }
    split.
    - intros PL t Ht Nt. assert (LEN : length (flat_map f lost) = 0).
      { apply Permutation_length in PL, PA, P. rewrite app_length in PA. lia. }
      apply length_zero_iff_nil in LEN. assert (It : In t lost).
      { assert (I : In t (last_tasks sched ++ lost)) by (eapply Permutation_in; [symmetry; etransitivity; [exact Pl|exact Pt]|apply in_seq; lia]).
        apply in_app_iff in I as [I|I]; [contradiction|exact I]. }
      apply in_split in It as (l1 & l2 & ->). rewrite flat_map_app in LEN. apply app_eq_nil in LEN as [_ LEN]. cbn [flat_map] in LEN. now apply app_eq_nil in LEN as [LEN _].
    - intros E. rewrite P, <- PA. assert (LN : flat_map f lost = []).
      { rewrite flat_map_concat_map. apply concat_nil_Forall. apply Forall_forall. intros x Ix. apply in_map_iff in Ix as (t & <- & It). apply E.
        - assert (I : In t (seq 0 m)) by (eapply Permutation_in; [etransitivity; [exact Pl|exact Pt]|apply in_app_iff; auto]). apply in_seq in I. lia.
        - intros I. clear - ND I It. induction (last_tasks sched) as [|y l IH]; [destruct I|]. cbn [app] in ND. inversion ND as [|? ? N ND']; subst.
          destruct I as [->|I]; [apply N, in_app_iff; auto|auto]. }
      rewrite LN, app_nil_r. reflexivity.
  Qed.
End Parallel.

(** ** The order of the clusters *)
Lemma sorted_unique {A} (R : A -> A -> Prop) l : forall l', StronglySorted R l -> StronglySorted R l' -> Permutation l l' ->
  (forall x y, In x l -> In y l -> R x y -> R y x -> x = y) -> l = l'.
Proof.
  induction l as [|x xs IH]; intros l' Sl Sl' P AS; [now apply Permutation_nil in P|]. destruct l' as [|y ys]; [symmetry in P; now apply Permutation_nil in P|].
  inversion Sl as [|? ? Sx Fx]; subst. inversion Sl' as [|? ? Sy Fy]; subst. rewrite Forall_forall in Fx, Fy.
  assert (E : x = y).
  { assert (Ix : In x (y :: ys)) by (eapply Permutation_in; [exact P|left; reflexivity]). assert (Iy : In y (x :: xs)) by (eapply Permutation_in; [symmetry; exact P|left; reflexivity]).
    destruct Ix as [->|Ix]; [reflexivity|]. destruct Iy as [->|Iy]; [reflexivity|]. apply AS; [left; auto|right; auto|apply Fx, Iy|apply Fy, Ix]. }
  subst y. f_equal. apply IH; auto; [now apply Permutation_cons_inv in P|]. intros a b Ia Ib. apply AS; right; auto.
Qed.
Lemma isort_nat_perm a b : Permutation a b -> isort Nat.leb a = isort Nat.leb b.
Proof.
  intros P. assert (SS : forall l, StronglySorted (fun x y => Nat.leb x y = true) (isort Nat.leb l)).
  { intros l. apply isort_sorted; [intros x y; rewrite !Nat.leb_le; lia|intros x y z; rewrite !Nat.leb_le; lia]. }
  eapply sorted_unique; [apply SS|apply SS| |].
  - rewrite <- !isort_perm. exact P.
  - intros x y _ _. rewrite !Nat.leb_le. lia.
Qed.
Definition alike (x y : scored) : Prop := (fst x == fst y)%Q /\ Permutation (snd x) (snd y).
Definition key (x : scored) : Q * list pystr := (Qred (fst x), isort sleb (snd x)).
Lemma isort_str_perm a b : Permutation a b <-> isort sleb a = isort sleb b.
Proof.
  split.
  - intros P. eapply (sorted_unique (fun x y => sleb x y = true)).
    + apply isort_sorted; [apply sleb_total|apply sleb_trans].
    + apply isort_sorted; [apply sleb_total|apply sleb_trans].
    + rewrite <- !isort_perm. exact P.
    + intros x y _ _. apply sleb_antisym.
  - intros E. rewrite (isort_perm sleb a), (isort_perm sleb b), E. reflexivity.
Qed.
Lemma key_alike x y : key x = key y -> alike x y.
Proof.
  unfold key, alike. intros [= E F]. split; [|now apply isort_str_perm]. rewrite <- (Qred_correct (fst x)), <- (Qred_correct (fst y)), E. reflexivity.
Qed.
Lemma alike_key x y : alike x y -> key x = key y.
Proof. intros [E P]. unfold key. f_equal; [now apply Qred_complete|now apply isort_str_perm]. Qed.
Lemma map_key_alike l : forall l', map key l = map key l' -> Forall2 alike l l'.
Proof.
  induction l as [|x l IH]; intros [|y l'] E; try discriminate; constructor; cbn [map] in E; injection E as E1 E2 E3; [apply key_alike; unfold key; congruence|auto].
Qed.
Definition pos (x : scored) : bool := qlt 0 (fst x).
Lemma filter_all {A} (p : A -> bool) l : (forall x, In x l -> p x = true) -> filter p l = l.
Proof. induction l as [|x l IH]; intros H; auto. cbn [filter]. rewrite (H x) by (left; auto). f_equal. apply IH. intros; apply H; right; auto. Qed.
Lemma filter_none {A} (p : A -> bool) l : (forall x, In x l -> p x = false) -> filter p l = [].
Proof. induction l as [|x l IH]; intros H; auto. cbn [filter]. rewrite (H x) by (left; auto). apply IH. intros; apply H; right; auto. Qed.
Lemma positives_perm L : Permutation (take_while pos (sorted_L L)) (filter pos L).
Proof.
  assert (E : filter pos (sorted_L L) = take_while pos (sorted_L L)).
  { rewrite <- (take_drop pos (sorted_L L)) at 1. rewrite filter_app, filter_all, filter_none; [apply app_nil_r| |].
    - intros x I. apply nonpositive_In in I as [_ I]. unfold pos. now apply qlt_false.
    - intros x I. now apply take_all in I. }
  rewrite <- E. apply perm_filter. symmetry. apply isort_perm.
Qed.
Lemma positives_alike L L' : Permutation L L' -> told_by_score L -> Forall2 alike (take_while pos (sorted_L L)) (take_while pos (sorted_L L')).
Proof.
  intros P T. apply map_key_alike.
  assert (DS : forall M, StronglySorted (fun a b : Q * list pystr => (fst b <= fst a)%Q) (map key (take_while pos (sorted_L M)))).
  { intros M. assert (D : desc (take_while pos (sorted_L M))).
    { pose proof (sorted_desc M) as D. unfold desc in D. rewrite <- (take_drop pos (sorted_L M)) in D. now apply sorted_app in D as (D & _). }
    unfold desc in D. induction D as [|a l S IH F]; cbn [map]; constructor; auto. apply Forall_forall. intros k Ik. apply in_map_iff in Ik as (b & <- & Ib).
    rewrite Forall_forall in F. unfold key. cbn [fst]. rewrite !Qred_correct. now apply F. }
  eapply sorted_unique; [apply DS|apply DS| |].
  - apply Permutation_map. rewrite !positives_perm. now apply perm_filter.
  - intros k1 k2 I1 I2 L1 L2. apply in_map_iff in I1 as (x & <- & Ix), I2 as (y & <- & Iy). apply positive_In in Ix as [Ix Px], Iy as [Iy Py].
    apply alike_key. assert (E : (fst x == fst y)%Q) by (unfold key in L1, L2; cbn [fst] in L1, L2; rewrite !Qred_correct in L1, L2; now apply Qle_antisym).
    split; [exact E|]. now apply T.
Qed.
#[local] Instance close_proper : Proper (Qeq ==> Qeq ==> eq) close.
Proof.
  intros a a' Ea b b' Eb. unfold close. assert (E : Qle_bool 0 (a - b) = Qle_bool 0 (a' - b')) by now rewrite Ea, Eb.
  rewrite E. destruct (Qle_bool 0 (a' - b')); now rewrite Ea, Eb.
Qed.
Lemma dedup_perm (a b : list pystr) : Permutation a b -> Permutation (dedup a) (dedup b).
Proof. intros P. apply NoDup_Permutation; try apply dedup_NoDup. intros x. rewrite !dedup_In. split; apply Permutation_in; [exact P|now symmetry]. Qed.
Lemma rd_alike l l' : Forall2 alike l l' -> forall p p', alike p p' -> Forall2 alike (rd_from p l) (rd_from p' l').
Proof.
  induction 1 as [|x x' l l' [E P] F IH]; intros p p' [Ep Pp]; cbn [rd_from]; [constructor|].
  rewrite (close_proper _ _ E _ _ Ep), (proj1 (isort_str_perm _ _) P), (proj1 (isort_str_perm _ _) Pp).
  destruct (_ || _); [|apply IH; split; assumption]. constructor; [split; [exact E|now apply dedup_perm]|apply IH; split; assumption].
Qed.
Lemma dup_alike l l' : Forall2 alike l l' -> Forall2 alike (remove_duplicate l) (remove_duplicate l').
Proof.
  intros [|x x' r r' A F]; cbn [remove_duplicate]; [constructor|]. constructor; [|now apply rd_alike]. destruct A as [E P]. split; [exact E|now apply dedup_perm].
Qed.
Lemma nth_alike l l' : Forall2 alike l l' -> forall i x, nth_error l i = Some x -> exists y, nth_error l' i = Some y /\ alike x y.
Proof. induction 1 as [|x y l l' A F IH]; intros [|i] z E; try discriminate; cbn [nth_error] in *; [injection E as <-; eauto|eauto]. Qed.
Lemma alike_sym l l' : Forall2 alike l l' -> Forall2 alike l' l.
Proof. induction 1 as [|x y l l' [E P] F IH]; constructor; auto. split; now symmetry. Qed.
Lemma super_alike L L' c : Forall2 alike L L' -> In c (superclusters L (inverted_index L)) -> In c (superclusters L' (inverted_index L')).
Proof.
  intros F. rewrite !super_In. intros (i & x & y & Ei & Ec & N & Ne & Inc). destruct (nth_alike _ _ F _ _ Ei) as (x' & Ei' & _ & Px). destruct (nth_alike _ _ F _ _ Ec) as (y' & Ec' & _ & Py).
  exists i, x', y'. repeat (split; [assumption|]). split.
  - intros C. rewrite C in Px. symmetry in Px. apply Permutation_nil in Px. contradiction.
  - intros e Ie. eapply Permutation_in; [exact Py|]. apply Inc. eapply Permutation_in; [symmetry; exact Px|exact Ie].
Qed.
Lemma superset_alike L L' : Forall2 alike L L' -> Forall2 alike (remove_superset L (inverted_index L)) (remove_superset L' (inverted_index L')).
Proof.
  intros F. unfold remove_superset, enumerate. rewrite <- (Forall2_len _ _ _ F).
  assert (M : forall c, mem c (superclusters L (inverted_index L)) = mem c (superclusters L' (inverted_index L'))).
  { intros c. apply eq_true_iff_eq. rewrite !mem_In. split; apply super_alike; [exact F|now apply alike_sym]. }
  set (s := superclusters L (inverted_index L)) in *. set (s' := superclusters L' (inverted_index L')) in *. clearbody s s'. generalize 0.
  induction F as [|x x' l l' A F IH]; intros n; cbn [length seq combine filter]; [constructor|]. cbn [fst]. rewrite M. destruct (mem n s'); cbn [negb map snd]; [apply IH|constructor; [exact A|apply IH]].
Qed.
Lemma clean_alike L L' : Permutation L L' -> told_by_score L ->
  Forall2 alike (fst (clean_clusters L)) (fst (clean_clusters L')) /\ Permutation (snd (clean_clusters L)) (snd (clean_clusters L')).
Proof.
  intros P T. split.
  - unfold clean_clusters. cbn [fst]. apply superset_alike, dup_alike. exact (positives_alike L L' P T).
  - assert (ND : forall M, NoDup (snd (clean_clusters M))) by (intros M; unfold clean_clusters; cbn [snd]; apply NoDup_filter, dedup_NoDup).
    apply NoDup_Permutation; auto. intros e. rewrite !clean_singletons. split.
    + intros [(x & rest & Ix & H1 & H2) H3]. split; [exists x, rest; split; [eapply Permutation_in; eauto|auto]|]. intros y Iy. apply H3. eapply Permutation_in; [symmetry; exact P|exact Iy].
    + intros [(x & rest & Ix & H1 & H2) H3]. split; [exists x, rest; split; [eapply Permutation_in; [symmetry; exact P|exact Ix]|auto]|]. intros y Iy. apply H3. eapply Permutation_in; eauto.
Qed.
Lemma rmapm_keyerror {A B} (f : A -> option B) l :
  match rmapm (fun e => match f e with Some i => Ok i | None => Err KeyError end) l with
  | Ok r => Forall2 (fun e i => f e = Some i) l r
  | Err x => x = KeyError /\ exists e, In e l /\ f e = None
  end.
Proof.
  induction l as [|x l IH]; cbn [rmapm]; [constructor|]. destruct (f x) as [i|] eqn:E; cbn [rbind]; [|split; [reflexivity|exists x; split; [left; auto|exact E]]].
  destruct (rmapm _ l) as [r|e]; cbn [rbind rmap]; [constructor; auto|]. destruct IH as (-> & y & Iy & Ey). split; [reflexivity|]. exists y. split; [right; exact Iy|exact Ey].
Qed.
Lemma to_ids_perm elements c c' : Permutation c c' -> to_ids elements c = to_ids elements c'.
Proof.
  intros P. unfold to_ids. pose proof (rmapm_keyerror (dget (e_ids elements)) c) as H. pose proof (rmapm_keyerror (dget (e_ids elements)) c') as H'.
  destruct (rmapm _ c) as [r|x], (rmapm _ c') as [r'|x']; cbn [rmap rbind].
  - f_equal. apply isort_nat_perm.
    assert (G : forall l r, Forall2 (fun e i => dget (e_ids elements) e = Some i) l r -> r = map (fun e => match dget (e_ids elements) e with Some i => i | None => 0 end) l).
    { clear. induction 1 as [|e i l r E F IH]; auto. cbn [map]. rewrite E. congruence. }
    rewrite (G _ _ H), (G _ _ H'). now apply Permutation_map.
  - exfalso. destruct H' as (_ & e & Ie & N). symmetry in P. apply (Permutation_in _ P) in Ie. clear - H Ie N. induction H as [|a i l r E F IH]; [destruct Ie|]. destruct Ie as [->|Ie]; [congruence|auto].
  - exfalso. destruct H as (_ & e & Ie & N). apply (Permutation_in _ P) in Ie. clear - H' Ie N. induction H' as [|a i l r E F IH]; [destruct Ie|]. destruct Ie as [->|Ie]; [congruence|auto].
  - destruct H as [-> _], H' as [-> _]. reflexivity.
Qed.
Lemma step2_order argsort csim esim rows L L' elements theta : Permutation L L' -> told_by_score L ->
  cbc_step2 argsort csim esim rows L elements theta = cbc_step2 argsort csim esim rows L' elements theta.
Proof.
  intros P T. unfold cbc_step2. destruct L as [|x l]; [apply Permutation_nil in P; subst; reflexivity|]. destruct L' as [|x' l']; [symmetry in P; apply Permutation_nil in P; discriminate|].
  destruct (clean_alike _ _ P T) as [F S]. destruct (clean_clusters (x :: l)) as [cs sg], (clean_clusters (x' :: l')) as [cs' sg']. cbn [fst snd] in *.
  assert (E : rmapm (fun sc : scored => to_ids elements (snd sc)) cs = rmapm (fun sc : scored => to_ids elements (snd sc)) cs').
  { clear S. induction F as [|a a' r r' [_ A] F IH]; auto. cbn [rmapm]. now rewrite (to_ids_perm elements _ _ A), IH. }
  rewrite E, (to_ids_perm elements _ _ S). reflexivity.
Qed.
Lemma major_order argsort csim esim mxrows elements t1 t2 L L' eles : Permutation L L' -> told_by_score L ->
  major_steps argsort csim esim mxrows elements t1 t2 L eles = major_steps argsort csim esim mxrows elements t1 t2 L' eles.
Proof. intros P T. unfold major_steps. destruct (major_rows mxrows elements eles); cbn [rbind]; [|reflexivity]. now rewrite (step2_order _ _ _ _ L L' _ _ P T). Qed.
Lemma told_perm L L' : Permutation L L' -> told_by_score L -> told_by_score L'.
Proof. intros P T x y Ix Iy. symmetry in P. apply T; eapply Permutation_in; eauto. Qed.

(** ** One recursion *)
Section Recursion.
  Variable cse : list pystr -> Q -> pystr -> thr -> pystr -> bool -> pystr -> res (list scored).
  Variable argsort : list Q -> list nat.
  Variable csim : list pystr -> list pystr -> list pystr -> Q.
  Variable esim : list pystr -> pystr -> list pystr -> Q.
  Variables mxrows elements : list pystr.
  Local Notation rec := (recursion cse argsort csim esim mxrows elements).
  Local Notation rows_of := (major_rows mxrows elements).
  Lemma recursion_single s cpus sched eles r : rec s cpus false sched eles r <->
    r = rbind (rows_of eles) (fun rows => major_steps argsort csim esim mxrows elements (s_theta1 s) (s_theta2 s) (step1 (step1_call cse s rows) eles) eles).
  Proof.
    unfold recursion, step1_of. cbn [andb]. destruct (rows_of eles) as [rows|e]; cbn [rbind]; [|reflexivity]. split; [intros (r1 & -> & ->); reflexivity|intros ->; eexists; split; reflexivity].
  Qed.
  Lemma recursion_same s cpus multicore sched eles r : 2 <= cpus -> NoDup (map snd sched) -> (forall rows, rows_of eles = Ok rows -> told_by_score (step1 (step1_call cse s rows) eles)) ->
    rec s cpus multicore sched eles r -> rec s cpus false sched eles r.
  Proof.
    intros C ND T H. apply recursion_single. unfold recursion in H. destruct (rows_of eles) as [rows|e]; cbn [rbind]; [|exact H]. specialize (T rows eq_refl). destruct H as (r1 & S1 & ->).
    unfold step1_of in S1. destruct (multicore && (cpus - 1 <? length eles)).
    - apply multicore_same in S1 as (L & -> & P); [|lia|exact ND]. cbn [rbind]. symmetry. apply major_order; [now symmetry|exact T].
    - subst r1. reflexivity.
  Qed.
  Lemma recursion_small s cpus multicore sched eles r : length eles < cpus -> rec s cpus multicore sched eles r <-> rec s cpus false sched eles r.
  Proof.
    intros C. unfold recursion, step1_of. replace (cpus - 1 <? length eles) with false by (symmetry; apply Nat.ltb_ge; lia). rewrite andb_false_r. cbn [andb]. reflexivity.
  Qed.
  Lemma recursion_one_cpu s sched e eles r : rec s 1 true sched (e :: eles) r ->
    r = Err (match rows_of (e :: eles) with Ok _ => ZeroDivisionError | Err _ => AttributeError end).
  Proof.
    unfold recursion. destruct (rows_of (e :: eles)) as [rows|x] eqn:E.
    - intros (r1 & S1 & ->). unfold step1_of in S1. cbn in S1. subst r1. reflexivity.
    - intros ->. unfold major_rows in E. destruct (eqb elements _); [discriminate|]. destruct (filter _ _); congruence.
  Qed.
  Lemma recursion_ignores s s' cpus multicore sched eles r : s_k s = s_k s' -> s_theta1 s = s_theta1 s' -> s_theta2 s = s_theta2 s' -> s_prune s = s_prune s' -> s_t s = s_t s' -> s_metric s = s_metric s' ->
    rec s cpus multicore sched eles r <-> rec s' cpus multicore sched eles r.
  Proof.
    intros E1 E2 E3 E4 E5 E6. unfold recursion, step1_of. destruct (rows_of eles) as [rows|e]; [|reflexivity].
    assert (S : step1_call cse s rows = step1_call cse s' rows) by (unfold step1_call; now rewrite E1, E4, E5, E6). rewrite S, E2, E3. reflexivity.
  Qed.
End Recursion.
(** The whole loop depends on its recursions only. *)
Lemma cluster_ext {C} (f g : nat -> list pystr -> res (list C * list pystr)) num_iter elements num_eles : (forall i r, f i r = g i r) ->
  cluster f num_iter elements num_eles = cluster g num_iter elements num_eles.
Proof.
  intros E. unfold cluster. generalize (@nil (list C)) as Cs, (@nil (list pystr)) as Rs, 1 as i. generalize (if (0 <? num_eles)%Z then firstn (Z.to_nat num_eles) elements else elements) as r.
  induction num_iter as [|n IH]; intros; cbn [cluster_from]; [reflexivity|]. destruct r; [reflexivity|]. rewrite E. destruct (match g i _ with Ok x => x | Err _ => ([], []) end) as [cC cR].
  destruct (length cR <=? 2); [reflexivity|]. destruct (length cR =? _); [reflexivity|]. apply IH.
Qed.
