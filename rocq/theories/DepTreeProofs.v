(** * Proofs: undirected trees have no cycles, so mappings that keep siblings apart are injective. *)
From Coq Require Import String NArith ZArith Bool Arith Lia Permutation List.
From Verif Require Import Base BaseLemmas Str VocabModel CorpusModel MxModel MxSpec MxProofs DepModel DepSpec DepGraphProofs.
Import ListNotations.

Definition touch (g : graph) (a b : Z) : Prop := edge g a b \/ edge g b a.
Lemma find_least (p : nat -> bool) n : forall a k, find p (seq a n) = Some k -> p k = true /\ a <= k /\ forall j, a <= j < k -> p j = false.
Proof.
  induction n as [|n IH]; intros a k E; [discriminate|]. cbn [seq find] in E. destruct (p a) eqn:Pa.
  - injection E as <-. repeat split; auto. intros; lia.
  - apply IH in E. destruct E as (A & B & C). repeat split; auto; [lia|]. intros j Hj. destruct (Nat.eq_dec j a) as [->|]; auto. apply C. lia.
Qed.
Lemma find_has {A} (p : A -> bool) l x : In x l -> p x = true -> exists y, find p l = Some y.
Proof. intros I P. destruct (find p l) eqn:F; eauto. eapply find_none in F; eauto. congruence. Qed.

Section Dist.
  Variable g : graph.
  Hypothesis W : gwf g.
  Hypothesis T : istree g = true.
  Variable r0 : Z.
  Hypothesis Ir : In r0 (nodes g).
  Definition it k := Nat.iter k (grow g) [r0].
  Definition dist v := match find (fun k => mem v (it k)) (seq 0 (S (length (nodes g)))) with Some k => k | None => 0 end.
  Lemma it_mono k v : In v (it k) -> In v (it (S k)).
  Proof. intros I. change (it (S k)) with (grow g (it k)). apply grow_incl; auto. apply (iter_grows g r0 Ir k). Qed.
  Lemma it_le j k v : j <= k -> In v (it j) -> In v (it k).
  Proof. induction 1; auto. intros I. apply it_mono; auto. Qed.
  Lemma it_all v : In v (nodes g) -> In v (it (length (nodes g))).
  Proof.
    intros Iv. destruct (iter_grows g r0 Ir (length (nodes g))) as (I1 & I2 & I3). fold (it (length (nodes g))) in *.
    assert (D : NoDup (it (length (nodes g)))).
    { unfold it. destruct (length (nodes g)); cbn [Nat.iter]; [repeat constructor; intros []|]. unfold grow. apply NoDup_filter. apply W. }
    destruct I3 as [L|Fix]; [apply NoDup_incl_length in I1; auto; lia|].
    unfold istree in T. apply andb_true_iff in T. destruct T as (_ & C).
    apply (linked_closed g (fun x => In x (it (length (nodes g)))) r0 v); [|apply connected_linked; auto|exact I2].
    intros x y Exy. pose proof (proj2 (proj2 W) x y Exy) as [Nx Ny]. split; intros H; apply Fix, grow_In; split; auto; right; eauto.
  Qed.
  Lemma dist_spec v : In v (nodes g) -> In v (it (dist v)) /\ forall j, j < dist v -> ~ In v (it j).
  Proof.
    intros Iv. unfold dist. destruct (find_has (fun k => mem v (it k)) (seq 0 (S (length (nodes g)))) (length (nodes g))) as (k & E).
    - apply in_seq. lia.
    - apply mem_In. now apply it_all.
    - rewrite E. apply find_least in E. destruct E as (A & _ & C). split; [now apply mem_In|]. intros j Hj. apply mem_nIn. apply C. lia.
  Qed.
  Lemma dist_root : dist r0 = 0.
  Proof. destruct (dist_spec r0 Ir) as (_ & B). destruct (dist r0) as [|k]; auto. exfalso. apply (B 0); [lia|]. cbn; auto. Qed.
  Lemma dist_parent v : In v (nodes g) -> v <> r0 -> exists w, touch g v w /\ S (dist w) = dist v.
  Proof.
    intros Iv Ne. destruct (dist_spec v Iv) as (A & B). destruct (dist v) as [|k]; [destruct A as [<-|[]]; congruence|].
    change (it (S k)) with (grow g (it k)) in A. apply grow_In in A. destruct A as (_ & [A|(w & Iw & E)]); [exfalso; apply (B k); auto; lia|].
    assert (Nw : In w (nodes g)) by (destruct W as (_ & _ & We); destruct E as [E|E]; apply We in E; tauto).
    exists w. split; [exact E|]. f_equal. destruct (dist_spec w Nw) as (Aw & Bw).
    assert (dist w <= k) by (destruct (le_lt_dec (dist w) k); auto; exfalso; eapply Bw; eauto).
    destruct (Nat.eq_dec (dist w) k) as [|Nk]; auto. exfalso. apply (B (S (dist w))); [lia|]. change (it (S (dist w))) with (grow g (it (dist w))). apply grow_In. split; auto. right. eauto.
  Qed.
  (** The edge towards [r0] *)
  Definition up (v : Z) (e : Z * Z) : bool := (eqb (fst e) v && (S (dist (snd e)) =? dist v)) || (eqb (snd e) v && (S (dist (fst e)) =? dist v)).
  Lemma up_iff v e : up v e = true <-> (fst e = v /\ S (dist (snd e)) = dist v) \/ (snd e = v /\ S (dist (fst e)) = dist v).
  Proof. unfold up. rewrite orb_true_iff, !andb_true_iff, !Nat.eqb_eq. split; intros [[A B]|[A B]]; [left|right|left|right]; split; auto; try (now apply eqb_true in A); subst; apply eqb_refl. Qed.
  Definition pe v := match find (up v) (dkeys (gedges g)) with Some e => e | None => (v, v) end.
  Lemma pe_spec v : In v (nodes g) -> v <> r0 -> In (pe v) (dkeys (gedges g)) /\ up v (pe v) = true.
  Proof.
    intros Iv Ne. unfold pe. destruct (dist_parent v Iv Ne) as (w & E & D).
    assert (exists e, find (up v) (dkeys (gedges g)) = Some e) as (e & F).
    { destruct E as [E|E]; [apply (find_has _ _ (v, w))|apply (find_has _ _ (w, v))]; auto; apply up_iff; cbn; auto. }
    rewrite F. apply find_some in F. exact F.
  Qed.
  Lemma up_one v w e : up v e = true -> up w e = true -> v = w.
  Proof. rewrite !up_iff. intros [[A B]|[A B]] [[C D]|[C D]]; subst; auto; lia. Qed.
  Lemma edge_up a b : edge g a b -> exists v, up v (a, b) = true /\ pe v = (a, b).
  Proof.
    intros E. set (l := filter (fun v => negb (eqb v r0)) (nodes g)).
    assert (Hl : forall v, In v l <-> In v (nodes g) /\ v <> r0). { intros v. unfold l. rewrite filter_In, negb_true_iff. rewrite eqb_neq. tauto. }
    assert (N : NoDup (map pe l)).
    { apply nodup_map_inj; [|apply NoDup_filter; apply W]. intros x y Ix Iy Exy. apply Hl in Ix, Iy. destruct (pe_spec x) as (_ & U1); try tauto. destruct (pe_spec y) as (_ & U2); try tauto. rewrite Exy in U1. eapply up_one; eauto. }
    assert (Inc : incl (map pe l) (dkeys (gedges g))). { intros e I. apply in_map_iff in I. destruct I as (v & <- & Iv). apply Hl in Iv. apply pe_spec; tauto. }
    assert (Len : length (dkeys (gedges g)) <= length (map pe l)).
    { unfold istree in T. apply andb_true_iff in T. destruct T as (Tn & _). apply Nat.eqb_eq in Tn. rewrite map_length. unfold dkeys. rewrite map_length.
      assert (P : Permutation (nodes g) (r0 :: l)).
      { apply NoDup_Permutation; [apply W| |]. - constructor; [rewrite Hl; tauto|apply NoDup_filter; apply W]. - intros x. cbn [In]. rewrite Hl. destruct (Z.eq_dec r0 x) as [->|]; [tauto|]. split; [intros I; right; split; auto|intros [->|[I _]]; tauto]. }
      apply Permutation_length in P. cbn [length] in P. unfold nodes in *. lia. }
    pose proof (NoDup_length_incl N Len Inc) as Sur. specialize (Sur _ E). apply in_map_iff in Sur. destruct Sur as (v & Ev & Iv). apply Hl in Iv. exists v. split; auto. rewrite <- Ev. apply pe_spec; tauto.
  Qed.
  Lemma touch_dist a b : touch g a b -> S (dist a) = dist b \/ S (dist b) = dist a.
  Proof. intros [E|E]; apply edge_up in E; destruct E as (v & U & _); apply up_iff in U; cbn in U; destruct U as [[-> U]|[-> U]]; auto. Qed.
  Lemma edge_pe a b : edge g a b -> (S (dist a) = dist b -> pe b = (a, b)) /\ (S (dist b) = dist a -> pe a = (a, b)).
  Proof. intros E. apply edge_up in E. destruct E as (v & U & P). apply up_iff in U. cbn in U. split; intros D; destruct U as [[-> U]|[-> U]]; auto; lia. Qed.
  Lemma up_unique x a b : touch g x a -> touch g x b -> S (dist a) = dist x -> S (dist b) = dist x -> a = b.
  Proof.
    intros [A|A] [B|B] Da Db; apply edge_pe in A, B; destruct A as (A1 & A2), B as (B1 & B2).
    - rewrite (A2 Da) in B2. specialize (B2 Db). congruence.
    - rewrite (A2 Da) in B1. specialize (B1 Db). injection B1 as -> ->. reflexivity.
    - rewrite (A1 Da) in B2. specialize (B2 Db). injection B2 as -> ->. reflexivity.
    - rewrite (A1 Da) in B1. specialize (B1 Db). congruence.
  Qed.
  Lemma no_opposite a b : edge g a b -> ~ edge g b a.
  Proof.
    intros E F. pose proof (edge_pe a b E) as (A1 & A2). pose proof (edge_pe b a F) as (B1 & B2). destruct (touch_dist a b (or_introl E)) as [D|D].
    - specialize (A1 D). specialize (B2 D). rewrite A1 in B2. injection B2 as ->. lia.
    - specialize (A2 D). specialize (B1 D). rewrite A2 in B1. injection B1 as ->. lia.
  Qed.
End Dist.

(** ** Walks that do not turn back, last node first *)
Inductive nbw (g : graph) (a : Z) : list Z -> Prop :=
| nb1 : nbw g a [a]
| nb2 : forall b, touch g a b -> nbw g a [b; a]
| nb3 : forall x y z l, nbw g a (y :: z :: l) -> touch g y x -> x <> z -> nbw g a (x :: y :: z :: l).
Lemma linked_nbw g a b : linked g a b -> exists l, nbw g a (b :: l).
Proof.
  induction 1 as [|a b c H (l & IH) E]; [exists []; constructor|]. inversion IH as [|? A|x y z l' N A Ne]; subst.
  - exists [b]. constructor. exact E.
  - destruct (Z.eq_dec c a) as [->|Ne]; [exists []; constructor|]. exists [b; a]. constructor; auto.
  - destruct (Z.eq_dec c y) as [->|Ne2]; [exists (z :: l'); auto|]. exists (b :: y :: z :: l'). constructor; auto.
Qed.
Lemma nbw_dist g a l : gwf g -> istree g = true -> In a (nodes g) -> nbw g a l ->
  match l with [] => True | x :: l' => dist g a x = length l' /\ match l' with [] => True | y :: _ => touch g x y /\ S (dist g a y) = dist g a x end end.
Proof.
  intros W T Ia. induction 1 as [|b A|x y z l N (D & A & U) E Ne].
  - split; auto. now apply dist_root.
  - pose proof (dist_root g W T a Ia) as D0. destruct (touch_dist g W T a Ia a b A) as [D|D]; [|lia]. cbn [length]. split; [lia|]. split; auto. destruct A; [right|left]; auto.
  - destruct (touch_dist g W T a Ia y x E) as [D'|D']; [cbn [length] in *; split; [lia|]; split; auto; destruct E; [right|left]; auto|].
    exfalso. apply Ne. apply (up_unique g W T a Ia y x z); auto.
Qed.

(** Mapping a rooted tree into a tree *)
Lemma locally_injective p s (f : Z -> Z) r : gwf p -> rooted p r -> gwf s -> istree s = true -> (forall v, In v (nodes p) -> In (f v) (nodes s)) ->
  (forall h t, edge p h t -> edge s (f h) (f t)) -> (forall h t t', edge p h t -> edge p h t' -> f t = f t' -> t = t') ->
  forall v w, In v (nodes p) -> In w (nodes p) -> f v = f w -> v = w.
Proof.
  intros Wp R Ws T Fn Fe Fs v w Iv Iw E. destruct (Z.eq_dec v w) as [|Ne]; auto. exfalso.
  assert (Lk : linked p v w).
  { pose proof (rooted_istree p r Wp R) as Tp. unfold istree in Tp. apply andb_true_iff in Tp. apply connected_linked; tauto. }
  destruct (linked_nbw p v w Lk) as (l & N).
  assert (Ft : forall a b, touch p a b -> touch s (f a) (f b)) by (intros a b [A|A]; [left|right]; auto).
  assert (K : forall l, nbw p v l -> nbw s (f v) (map f l)).
  { induction 1 as [|b A|x y z l0 N0 IH A Nx]; cbn [map]; constructor; auto. intros X.
    assert (Z0 : touch p y z) by (inversion N0 as [|? A0|? ? ? ? ? A0]; subst; destruct A0; [right|left|right|left]; auto).
    destruct A as [A|A], Z0 as [B|B].
    - apply Nx. eapply Fs; eauto.
    - apply (no_opposite s Ws T (f v) (Fn v Iv) (f y) (f x)); auto. rewrite X. auto.
    - apply (no_opposite s Ws T (f v) (Fn v Iv) (f y) (f z)); auto. rewrite <- X. auto.
    - apply Nx. destruct R as (_ & _ & OH & _). eapply OH; eauto. }
  pose proof (nbw_dist s (f v) _ Ws T (Fn v Iv) (K _ N)) as (D & _). rewrite <- E, dist_root in D; auto. rewrite map_length in D. destruct l as [|x l]; [|discriminate].
  inversion N; subst. now apply Ne.
Qed.
