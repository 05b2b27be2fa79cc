(** * Proofs about dependency graphs: successors, trees, levels, depth. *)
From Coq Require Import String NArith ZArith Bool Arith Lia Permutation List.
From Verif Require Import Base BaseLemmas Str VocabModel CorpusModel MxModel MxProofs DepModel DepSpec.
Import ListNotations.

Lemma succs_In g v w : In w (succs g v) <-> edge g v w.
Proof.
  unfold succs, edge. rewrite in_map_iff. split.
  - intros ([a b] & <- & I). apply filter_In in I. destruct I as [I E]. apply eqb_true in E. cbn in *. subst. exact I.
  - intros I. exists (v, w). split; auto. apply filter_In. split; auto. apply eqb_refl.
Qed.
Lemma preds_In g v w : In w (preds g v) <-> edge g w v.
Proof.
  unfold preds, edge. rewrite in_map_iff. split.
  - intros ([a b] & <- & I). apply filter_In in I. destruct I as [I E]. apply eqb_true in E. cbn in *. subst. exact I.
  - intros I. exists (w, v). split; auto. apply filter_In. split; auto. apply eqb_refl.
Qed.
Lemma succs_NoDup g v : gwf g -> NoDup (succs g v).
Proof.
  intros (_ & W & _). unfold succs. apply nodup_map_inj.
  - intros [a b] [c d] I J E. apply filter_In in I, J. destruct I as [_ I], J as [_ J]. apply eqb_true in I, J. cbn in *. congruence.
  - apply NoDup_filter. exact W.
Qed.
Lemma edge_dec g a b : {edge g a b} + {~ edge g a b}.
Proof. apply in_dec. exact eqdec. Defined.
Lemma adjacent_edge g a b : adjacent g a b = true <-> edge g a b \/ edge g b a.
Proof. unfold adjacent. rewrite orb_true_iff, !mem_In. reflexivity. Qed.

Lemma edge_list_In g a b : gwf g -> In (a, b) (edge_list g) <-> edge g a b.
Proof.
  intros (_ & _ & W). unfold edge_list. rewrite in_flat_map. split.
  - intros (v & _ & I). apply in_map_iff in I. destruct I as (w & E & I). injection E as -> ->. now apply succs_In.
  - intros E. exists a. split; [now apply (W a b)|]. apply in_map_iff. exists b. split; auto. now apply succs_In.
Qed.
Lemma edge_list_NoDup g : gwf g -> NoDup (edge_list g).
Proof.
  intros W. unfold edge_list. destruct W as (W1 & W2). unfold dwf in W1. fold (nodes g) in W1.
  assert (S : forall v, NoDup (succs g v)) by (intros v; apply succs_NoDup; split; auto).
  clear W2. induction W1 as [|v l N W1 IH]; [constructor|]. cbn [flat_map]. apply NoDup_app'; auto.
  - apply nodup_map_inj; [|apply S]. congruence.
  - intros [a b] I J. apply in_map_iff in I. destruct I as (w & E & _). injection E as <- <-.
    apply in_flat_map in J. destruct J as (v' & J1 & J2). apply in_map_iff in J2. destruct J2 as (w' & E & _). injection E as -> ->. auto.
Qed.

(** ** Undirected connection *)
Lemma linked_trans g a b c : linked g a b -> linked g b c -> linked g a c.
Proof. intros H K. induction K as [|x y z K IH E]; auto. apply linked_step with y; auto. Qed.
Lemma linked_sym g a b : linked g a b -> linked g b a.
Proof.
  induction 1 as [|a b c H IH E]; [constructor|]. apply linked_trans with b; auto.
  apply linked_step with c; [constructor|]. tauto.
Qed.
Lemma linked_closed g (P : Z -> Prop) a b : (forall x y, edge g x y -> (P x <-> P y)) -> linked g a b -> P a -> P b.
Proof. intros C H. induction H as [|a b c H IH E]; auto. intros Pa. destruct E as [E|E]; apply C in E; apply E; auto. Qed.

Lemma grow_In g s v : In v (grow g s) <-> In v (nodes g) /\ (In v s \/ exists w, In w s /\ (edge g v w \/ edge g w v)).
Proof.
  unfold grow. rewrite filter_In, orb_true_iff, mem_In, existsb_exists. split; intros [A B]; split; auto.
  - destruct B as [B|(w & B & C)]; auto. right. exists w. split; auto. now apply adjacent_edge.
  - destruct B as [B|(w & B & C)]; auto. right. exists w. split; auto. now apply adjacent_edge.
Qed.
Lemma iter_linked g v k : forall w, In w (Nat.iter k (grow g) [v]) -> linked g v w.
Proof.
  induction k as [|k IH]; intros w I.
  - destruct I as [<-|[]]. constructor.
  - cbn [Nat.iter] in I. change (In w (grow g (Nat.iter k (grow g) [v]))) in I. apply grow_In in I.
    destruct I as [_ [I|(x & I & E)]]; auto. apply linked_step with x; auto. tauto.
Qed.
Lemma connected_linked g a b : weakly_connected g = true -> In a (nodes g) -> In b (nodes g) -> linked g a b.
Proof.
  unfold weakly_connected. destruct (nodes g) as [|v l] eqn:E; [discriminate|]. intros C I J. rewrite forallb_forall in C.
  apply linked_trans with v; [apply linked_sym|]; apply iter_linked with (k := length (v :: l)); apply mem_In, C; auto.
Qed.

(** The other direction: the closure is reached after as many rounds as there are nodes. *)
Lemma filter_le {A} (p q : A -> bool) l : (forall x, In x l -> p x = true -> q x = true) ->
  length (filter p l) <= length (filter q l) /\ (length (filter p l) = length (filter q l) -> filter p l = filter q l).
Proof.
  induction l as [|x l IH]; intros H; [auto|]. destruct IH as [IH1 IH2]; [intros; apply H; cbn; auto|]. cbn [filter].
  pose proof (H x (or_introl eq_refl)) as Hx. destruct (p x), (q x); cbn [length]; try (specialize (Hx eq_refl); discriminate); split; try lia.
  - intros E. f_equal. apply IH2. lia.
  - intros E. apply IH2. lia.
Qed.
Lemma grow_incl g s : incl s (nodes g) -> incl s (grow g s).
Proof. intros I v J. apply grow_In. auto. Qed.
Lemma grow_filter g s : grow g s = filter (fun v => mem v (grow g s)) (nodes g).
Proof.
  unfold grow at 1. apply filter_ext_in. intros v I.
  destruct (mem v (grow g s)) eqn:E.
  - apply mem_In in E. unfold grow in E. apply filter_In in E. apply E.
  - apply mem_nIn in E. destruct (_ || _) eqn:F; auto. exfalso. apply E. unfold grow. apply filter_In. auto.
Qed.
Lemma grow_length g s : (exists s', s = grow g s') \/ length s = 1 -> incl s (nodes g) ->
  length s <= length (grow g s) /\ (length s = length (grow g s) -> forall v, In v (grow g s) <-> In v s).
Proof.
  intros [(s' & E)|L] I.
  - assert (F : s = filter (fun v => mem v s) (nodes g)) by (rewrite E at 1; rewrite grow_filter, <- E; auto).
    assert (X : forall v, In v (nodes g) -> mem v s = true -> mem v s || existsb (fun w => adjacent g v w) s = true) by (intros v _ ->; auto).
    apply filter_le in X. fold (grow g s) in X. rewrite <- F in X. destruct X as [X1 X2]. split; auto.
    intros H v. rewrite <- X2; [reflexivity|auto].
  - destruct s as [|a [|b s]]; try discriminate. cbn [length]. pose proof (grow_incl g [a] I a (or_introl eq_refl)) as J.
    destruct (grow g [a]) as [|x [|y l]] eqn:G; [destruct J| |].
    + split; auto. destruct J as [<-|[]]. reflexivity.
    + cbn [length]. split; lia.
Qed.
Lemma iter_grows g v : In v (nodes g) -> forall k,
  let s := Nat.iter k (grow g) [v] in
  incl s (nodes g) /\ In v s /\ (length s > k \/ forall w, In w (grow g s) <-> In w s).
Proof.
  intros I. induction k as [|k IH]; cbv zeta.
  - cbn [Nat.iter]. change (Nat.iter 0 (grow g) [v]) with [v]. split; [intros x [<-|[]]; auto|]. split; cbn; auto.
  - cbv zeta in IH. change (Nat.iter (S k) (grow g) [v]) with (grow g (Nat.iter k (grow g) [v])).
    set (s := Nat.iter k (grow g) [v]) in *. destruct IH as (I1 & I2 & I3).
    assert (J : incl (grow g s) (nodes g)) by (intros x X; apply grow_In in X; tauto).
    split; auto. split; [apply grow_incl; auto|].
    assert (Y : (exists s', s = grow g s') \/ length s = 1).
    { subst s. destruct k; [right; auto|left]. exists (Nat.iter k (grow g) [v]). reflexivity. }
    destruct I3 as [L|Fix].
    + destruct (grow_length g s Y I1) as [G1 G2]. destruct (Nat.eq_dec (length s) (length (grow g s))) as [E|NE]; [|left; lia].
      right. specialize (G2 E). intros w. rewrite !grow_In. setoid_rewrite G2. rewrite <- G2 at 2. rewrite grow_In. tauto.
    + right. intros w. rewrite !grow_In. setoid_rewrite Fix. rewrite <- Fix at 2. rewrite grow_In. tauto.
Qed.
Lemma linked_connected g : gwf g -> nodes g <> [] -> (forall a b, In a (nodes g) -> In b (nodes g) -> linked g a b) -> weakly_connected g = true.
Proof.
  intros W NE C. unfold weakly_connected. destruct (nodes g) as [|v l] eqn:E; [congruence|]. rewrite <- E in *.
  assert (I : In v (nodes g)) by (rewrite E; left; auto).
  destruct (iter_grows g v I (length (nodes g))) as (I1 & I2 & I3). set (s := Nat.iter (length (nodes g)) (grow g) [v]) in *.
  apply forallb_forall. intros w J. apply mem_In.
  assert (D : NoDup s).
  { subst s. destruct (length (nodes g)); cbn [Nat.iter]; [repeat constructor; intros []|]. unfold grow. apply NoDup_filter. apply W. }
  destruct I3 as [L|Fix]; [apply NoDup_incl_length in I1; auto; lia|].
  apply (linked_closed g (fun x => In x s) v w); auto.
  intros x y Exy. pose proof (proj2 (proj2 W) x y Exy) as [Nx Ny]. split; intros H; apply Fix, grow_In; split; auto; right; eauto.
Qed.

(** ** Rooted trees *)
Lemma istree_rooted g : gwf g -> one_head g -> istree g = true -> exists r, rooted g r.
Proof.
  intros W H T. unfold istree in T. apply andb_true_iff in T. destruct T as [N C]. apply Nat.eqb_eq in N.
  destruct (filter (fun v => match preds g v with [] => true | _ => false end) (nodes g)) as [|r l] eqn:F.
  - exfalso. assert (I : incl (nodes g) (map snd (dkeys (gedges g)))).
    { intros v I. destruct (preds g v) as [|a t] eqn:P.
      - assert (X : In v []) by (rewrite <- F; apply filter_In; rewrite P; auto). destruct X.
      - assert (X : In a (preds g v)) by (rewrite P; left; auto). apply preds_In in X. apply in_map_iff. exists (a, v). split; auto. }
    apply NoDup_incl_length in I; [|apply W]. unfold dkeys in I. rewrite !map_length in I. lia.
  - exists r. assert (Ir : In r (r :: l)) by (left; auto). rewrite <- F in Ir. apply filter_In in Ir. destruct Ir as [Ir P].
    destruct (preds g r) eqn:Pr; [|discriminate]. clear P.
    assert (NH : forall a, ~ edge g a r) by (intros a E; apply preds_In in E; rewrite Pr in E; destruct E).
    split; auto. split; auto. split; auto. intros v Iv.
    apply (linked_closed g (fun x => exists k, below g r k x) r v).
    + intros x y E. split; intros (k & B).
      * exists (S k). econstructor; eauto.
      * inversion B; subst. { exfalso. eapply NH; eauto. } exists k0. rewrite <- (H a x y); auto.
    + apply connected_linked; auto.
    + exists 0. constructor.
Qed.

Section Rooted.
  Variables (g : graph) (r : Z).
  Hypothesis W : gwf g.
  Hypothesis R : rooted g r.

  Lemma below_inv k v : below g r (S k) v -> exists a, below g r k a /\ edge g a v.
  Proof. inversion 1; subst. eauto. Qed.
  Lemma below_node k v : below g r k v -> In v (nodes g).
  Proof. destruct 1; [apply R|]. eapply W; eauto. Qed.
  Lemma below_unique : forall k v, below g r k v -> forall j, below g r j v -> j = k.
  Proof.
    destruct R as (_ & NH & OH & _). induction 1 as [|k a b B IH E]; intros j Bj.
    - inversion Bj; subst; auto. exfalso. eapply NH; eauto.
    - inversion Bj; subst; [exfalso; eapply NH; eauto|]. f_equal. apply IH. rewrite (OH a a0 b); auto.
  Qed.
  Lemma below_chain : forall k v, below g r k v -> exists l, length l = S k /\ NoDup l /\ incl l (nodes g) /\ forall w, In w l -> exists j, j <= k /\ below g r j w.
  Proof.
    induction 1 as [|k a b B IH E].
    - exists [r]. split; auto. split; [repeat constructor; intros []|]. split.
      + intros x [<-|[]]. apply R.
      + intros w [<-|[]]. exists 0. split; auto. constructor.
    - destruct IH as (l & L1 & L2 & L3 & L4). assert (Bb : below g r (S k) b) by (econstructor; eauto). exists (b :: l). split; [cbn; lia|]. split.
      + constructor; auto. intros I. destruct (L4 b I) as (j & Lj & Bj). pose proof (below_unique _ _ Bb j Bj). lia.
      + split; [intros x [<-|I]; auto; eapply below_node; eauto|]. intros w [<-|I]; eauto. destruct (L4 w I) as (j & Lj & Bj). exists j. split; auto.
  Qed.
  Lemma below_bound k v : below g r k v -> k < length (nodes g).
  Proof. intros B. destruct (below_chain k v B) as (l & L1 & L2 & L3 & _). apply NoDup_incl_length in L3; auto. lia. Qed.

  Lemma climb_below : forall k v, below g r k v -> forall fuel, k <= fuel -> climb g fuel v = Some (r, k).
  Proof.
    destruct R as (_ & NH & OH & _). induction 1 as [|k a b B IH E]; intros fuel L.
    - assert (P : preds g r = []).
      { destruct (preds g r) as [|a l] eqn:P; auto. exfalso. apply (NH a). apply preds_In. rewrite P. left; auto. }
      destruct fuel; cbn [climb]; rewrite P; auto.
    - destruct fuel as [|f]; [lia|]. cbn [climb]. destruct (preds g b) as [|a' l] eqn:P.
      + exfalso. apply (proj2 (preds_In g b a)) in E. rewrite P in E. destruct E.
      + assert (a' = a). { apply (OH a' a b); auto. apply preds_In. rewrite P. left; auto. } subst a'. rewrite IH by lia. reflexivity.
  Qed.
  Lemma get_root_rooted : In 1%Z (nodes g) -> get_root g = Some r.
  Proof.
    intros I. destruct R as (_ & _ & _ & A). destruct (A _ I) as (k & B). unfold get_root.
    rewrite (climb_below k 1%Z B) by (pose proof (below_bound k _ B); lia). reflexivity.
  Qed.
  Lemma depth_of_node k v : below g r k v -> get_depth_of_node g v = Some (S k).
  Proof. intros B. unfold get_depth_of_node. rewrite (climb_below k v B) by (pose proof (below_bound k _ B); lia). reflexivity. Qed.
  Lemma leaf_below : forall n k v, below g r k v -> length (nodes g) - k <= n -> exists j w, k <= j /\ below g r j w /\ out_degree g w = 0.
  Proof.
    induction n as [|n IH]; intros k v B L.
    - apply below_bound in B. lia.
    - unfold out_degree. destruct (succs g v) as [|w l] eqn:E.
      + exists k, v. rewrite E. auto.
      + assert (Ew : edge g v w) by (apply succs_In; rewrite E; left; auto).
        destruct (IH (S k) w) as (j & x & L1 & B1 & O); [econstructor; eauto|lia|]. exists j, x. split; [lia|auto].
  Qed.
  Lemma get_depth_spec : exists d, get_depth g = Some d /\ 1 <= d /\ forall k v, below g r k v -> k < d.
  Proof.
    unfold get_depth. set (leaves := filter _ (nodes g)).
    assert (A : forall l m, incl l (nodes g) -> exists d, fold_left (fun acc v => match acc, get_depth_of_node g v with
                          | Some m, Some d => Some (if m <? d then d else m) | _, _ => None end) l (Some m) = Some d /\ m <= d /\
                 forall v k, In v l -> below g r k v -> k < d).
    { induction l as [|v l IH]; intros m I; [exists m; split; auto; split; auto; intros v k []|].
      destruct R as (_ & _ & _ & All). destruct (All v (I v (or_introl eq_refl))) as (k & B).
      cbn [fold_left]. rewrite (depth_of_node k v B). destruct (IH (if m <? S k then S k else m)) as (d & E & L & H).
      { intros x X. apply I. right; auto. }
      exists d. split; auto. assert (m <= (if m <? S k then S k else m) /\ S k <= (if m <? S k then S k else m)).
      { destruct (m <? S k) eqn:X; [apply Nat.ltb_lt in X|apply Nat.ltb_ge in X]; lia. }
      split; [lia|]. intros w j [<-|Iw] Bw; [|eauto]. pose proof (below_unique k v B j Bw). lia. }
    destruct (A leaves 1) as (d & E & L & H); [intros x X; apply filter_In in X; tauto|].
    exists d. split; auto. split; auto. intros k v B. destruct (leaf_below _ k v B (le_n _)) as (j & w & L1 & B1 & O).
    assert (In w leaves). { apply filter_In. split; [eapply below_node; eauto|]. rewrite O. reflexivity. }
    pose proof (H w j H0 B1). lia.
  Qed.

  (** The nodes [k] edges below the root, in the order of the level-wise search *)
  Fixpoint level (k : nat) : list Z := match k with O => [r] | S k => flat_map (succs g) (level k) end.
  Lemma level_In k : forall v, In v (level k) <-> below g r k v.
  Proof.
    induction k as [|k IH]; intros v; cbn [level].
    - split; [intros [<-|[]]; constructor|]. inversion 1; subst. left; auto.
    - rewrite in_flat_map. split.
      + intros (a & I & J). apply succs_In in J. econstructor; eauto. now apply IH.
      + intros B. destruct (below_inv _ _ B) as (a & Ba & E). exists a. split; [now apply IH|now apply succs_In].
  Qed.
  Lemma flat_succs_NoDup l : NoDup l -> NoDup (flat_map (succs g) l).
  Proof.
    destruct R as (_ & _ & OH & _). induction 1 as [|v l N D IH]; cbn [flat_map]; [constructor|]. apply NoDup_app'; auto.
    - apply succs_NoDup; auto.
    - intros x I J. apply succs_In in I. apply in_flat_map in J. destruct J as (w & J1 & J2). apply succs_In in J2.
      pose proof (OH _ _ _ I J2). subst. auto.
  Qed.
  Lemma level_NoDup k : NoDup (level k).
  Proof. induction k; cbn [level]; [repeat constructor; intros []|]. now apply flat_succs_NoDup. Qed.
  Lemma levels_NoDup d : NoDup (concat (map level (seq 0 d))).
  Proof.
    assert (A : forall s d, NoDup (concat (map level (seq s d)))).
    { intros s d0. revert s. induction d0 as [|d0 IH]; intros s; cbn [seq map concat]; [constructor|]. apply NoDup_app'; auto.
      - apply level_NoDup.
      - intros x I J. apply level_In in I. apply in_concat in J. destruct J as (l & J1 & J2). apply in_map_iff in J1.
        destruct J1 as (k & <- & J1). apply in_seq in J1. apply level_In in J2. pose proof (below_unique _ _ I _ J2). lia. }
    apply A.
  Qed.
  Lemma levels_nodes d v : get_depth g = Some d -> In v (concat (map level (seq 0 d))) <-> In v (nodes g).
  Proof.
    intros E. destruct get_depth_spec as (d' & E' & L & H). rewrite E in E'. injection E' as <-. split.
    - intros I. apply in_concat in I. destruct I as (l & I1 & I2). apply in_map_iff in I1. destruct I1 as (k & <- & _).
      apply level_In in I2. eapply below_node; eauto.
    - intros I. destruct R as (_ & _ & _ & A). destruct (A v I) as (k & B). apply in_concat. exists (level k). split; [|now apply level_In].
      apply in_map. apply in_seq. pose proof (H k v B). lia.
  Qed.
End Rooted.

(** A rooted tree is a tree for networkx. *)
Lemma rooted_istree g r : gwf g -> rooted g r -> istree g = true.
Proof.
  intros W R. pose proof R as (Ir & NH & OH & All). unfold istree. apply andb_true_iff. split.
  - apply Nat.eqb_eq. assert (P : Permutation (r :: map snd (dkeys (gedges g))) (nodes g)).
    { apply NoDup_Permutation.
      - constructor.
        + intros I. apply in_map_iff in I. destruct I as ([a b] & E & I). cbn in E. subst b. eapply NH; exact I.
        + apply nodup_map_inj; [|exact (proj1 (proj2 W))]. intros [a b] [c d] I J E. cbn in E. subst d. f_equal. eapply OH; eassumption.
      - exact (proj1 W).
      - intros x. split.
        + intros [<-|I]; auto. apply in_map_iff in I. destruct I as ([a b] & E & I). cbn in E. subst b. apply (proj2 (proj2 W) a x I).
        + intros I. destruct (All x I) as (k & B). destruct B as [|k a b B E]; [left; auto|right]. apply in_map_iff. exists (a, b). auto. }
    apply Permutation_length in P. cbn [length] in P. rewrite map_length in P. unfold dkeys in P. rewrite map_length in P. exact P.
  - apply linked_connected; auto; [intros E; rewrite E in Ir; destruct Ir|].
    assert (L : forall k v, below g r k v -> linked g r v) by (induction 1; [constructor|eapply linked_step; eauto]).
    intros a b Ia Ib. destruct (All a Ia) as (k & Ba), (All b Ib) as (j & Bb). apply linked_trans with r; [apply linked_sym|]; eauto.
Qed.
