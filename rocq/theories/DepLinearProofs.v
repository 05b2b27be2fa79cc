(** * Proofs about PatternGraph.islinear. *)
From Coq Require Import String NArith ZArith Bool Arith Permutation Lia List.
From Verif Require Import Base BaseLemmas Str VocabModel CorpusModel ParModel MxModel MxSpec DepModel DepSpec DepGraphProofs DepTreeProofs.
Import ListNotations.

Definition adj (g : graph) (a b : Z) : Prop := edge g a b \/ edge g b a.
Lemma adj_sym g a b : adj g a b -> adj g b a.
Proof. unfold adj. tauto. Qed.
Lemma adj_nodes g a b : gwf g -> adj g a b -> In a (nodes g) /\ In b (nodes g).
Proof. intros (_ & _ & W) [E|E]; apply W in E; tauto. Qed.
Lemma edge_list_In g a b : gwf g -> In (a, b) (edge_list g) <-> edge g a b.
Proof.
  intros (_ & _ & W). unfold edge_list, edge. rewrite in_flat_map. split.
  - intros (v & _ & I). apply in_map_iff in I. destruct I as (x & E & I). injection E as -> ->. unfold succs in I. apply in_map_iff in I. destruct I as ([c d] & E & I).
    cbn in E. subst d. apply filter_In in I. destruct I as (I & Ec). cbn [fst] in Ec. apply eqb_true in Ec. now subst.
  - intros I. exists a. split; [apply (proj1 (W a b I))|]. apply in_map. unfold succs. apply in_map_iff. exists (a, b). split; auto. apply filter_In. split; auto. cbn [fst]. apply eqb_refl.
Qed.
Lemma neighbors_In g x y : gwf g -> In y (neighbors g x) <-> adj g x y.
Proof.
  intros W. unfold neighbors, adj. rewrite dedup_In, in_flat_map. split.
  - intros ([a b] & I & J). apply edge_list_In in I; auto. cbn [fst snd] in J. destruct (eqb a x) eqn:E1.
    + apply eqb_true in E1. destruct J as [<-|[]]. subst. auto.
    + destruct (eqb b x) eqn:E2; [|destruct J]. apply eqb_true in E2. destruct J as [<-|[]]. subst. auto.
  - intros [E|E].
    + exists (x, y). split; [now apply edge_list_In|]. cbn [fst snd]. rewrite eqb_refl. cbn. auto.
    + exists (y, x). split; [now apply edge_list_In|]. cbn [fst snd]. destruct (eqb y x) eqn:E1; [apply eqb_true in E1; subst; cbn; auto|]. rewrite eqb_refl. cbn. auto.
Qed.
Lemma neighbors_NoDup g x : NoDup (neighbors g x).
Proof. apply dedup_NoDup. Qed.

(** ** Neighbours in a list *)
Lemma cons_cons (n h : Z) t a b : consecutive (n :: h :: t) a b <-> (a = n /\ b = h) \/ consecutive (h :: t) a b.
Proof.
  unfold consecutive. split.
  - intros (l1 & l2 & E). destruct l1 as [|x l1]; cbn in E; [injection E; auto|]. injection E as -> E. right. eauto.
  - intros [[-> ->]|(l1 & l2 & E)]; [exists [], t; auto|]. exists (n :: l1), l2. cbn. now rewrite E.
Qed.
Lemma cons_one (n : Z) a b : ~ consecutive [n] a b.
Proof. intros (l1 & l2 & E). destruct l1 as [|x [|y l1]]; discriminate. Qed.
Lemma cons_In l a b : consecutive l a b -> In a l /\ In b l.
Proof. intros (l1 & l2 & ->). split; apply in_app_iff; cbn; auto. Qed.
Lemma cons_next l : NoDup l -> forall a b c, consecutive l a b -> consecutive l a c -> b = c.
Proof.
  induction l as [|x l IH]; intros N a b c; [intros (l1 & ? & E); now destruct l1|]. destruct l as [|h t]; [intros H; now apply cons_one in H|].
  inversion N as [|? ? N1 N2]; subst. rewrite !cons_cons. intros [[-> ->]|H1] [[E ->]|H2]; auto.
  - apply cons_In in H2. tauto.
  - subst a. apply cons_In in H1. tauto.
  - eauto.
Qed.
Lemma cons_head h t a : NoDup (h :: t) -> ~ consecutive (h :: t) a h.
Proof.
  intros N. inversion N as [|? ? N1 N2]; subst. destruct t as [|h2 t]; [intros H; now apply cons_one in H|]. rewrite cons_cons. intros [[-> ->]|H]; [apply N1; cbn; auto|].
  apply cons_In in H. tauto.
Qed.
Lemma cons_prev l : NoDup l -> forall a b c, consecutive l b a -> consecutive l c a -> b = c.
Proof.
  induction l as [|x l IH]; intros N a b c; [intros (l1 & ? & E); now destruct l1|]. destruct l as [|h t]; [intros H; now apply cons_one in H|].
  inversion N as [|? ? N1 N2]; subst. rewrite !cons_cons. intros [[-> ->]|H1] [[-> E]|H2]; auto.
  - exfalso. eapply cons_head; eauto.
  - exfalso. subst a. eapply cons_head; eauto.
  - eauto.
Qed.
Lemma cons_irrefl l a : NoDup l -> ~ consecutive l a a.
Proof. intros N (l1 & l2 & ->). apply NoDup_remove_2 in N. apply N. apply in_app_iff. cbn. auto. Qed.

(** ** Closed sets of a connected graph *)
Lemma linked_closed g (s : list Z) : (forall a b, In a s -> adj g a b -> In b s) -> forall a b, linked g a b -> In a s -> In b s.
Proof. intros H a b. induction 1 as [|a b c _ IH E]; auto. intros I. eapply H; [apply IH; auto|]. exact E. Qed.
Lemma linked_neighbor g a b : linked g a b -> a <> b -> exists c, adj g b c.
Proof. intros H. destruct H as [a|a b c H E]; [congruence|]. intros _. exists b. unfold adj. tauto. Qed.

Section Walk.
  Variable g : graph.
  Hypothesis W : gwf g.
  Hypothesis Conn : forall a b, In a (nodes g) -> In b (nodes g) -> linked g a b.
  Hypothesis NoLoop : forall a, ~ edge g a a.
  Hypothesis Deg : forall v l, NoDup l -> (forall w, In w l -> edge g v w \/ edge g w v) -> length l <= 3.
  Lemma no_adj a : ~ adj g a a.
  Proof. intros [E|E]; eapply NoLoop; eauto. Qed.
  Lemma closed_all s a : NoDup s -> In a s -> incl s (nodes g) -> (forall a b, In a s -> adj g a b -> In b s) -> Permutation s (nodes g).
  Proof.
    intros N I Inc C. apply NoDup_Permutation; auto; [exact (proj1 W)|]. intros x. split; [apply Inc|]. intros Ix. eapply linked_closed; [exact C| |exact I]. apply Conn; auto.
  Qed.
  Record inv (nxt cur : Z) (tl : list Z) : Prop := {
    i_nd : NoDup (nxt :: cur :: tl);
    i_in : incl (nxt :: cur :: tl) (nodes g);
    i_ad : forall a b, consecutive (nxt :: cur :: tl) a b -> adj g a b;
    i_cl : forall a b, In a (cur :: tl) -> adj g a b -> consecutive (nxt :: cur :: tl) a b \/ consecutive (nxt :: cur :: tl) b a }.
  Lemma inv_step nxt cur tl n : inv nxt cur tl -> adj g nxt n -> n <> cur -> (forall y, adj g nxt y -> y = cur \/ y = n) -> inv n nxt (cur :: tl).
  Proof.
    intros [N Inc Ad Cl] A Nn Only.
    assert (Nin : ~ In n (nxt :: cur :: tl)).
    { intros [<-|I]; [now apply no_adj in A|]. destruct (Cl n nxt I (adj_sym _ _ _ A)) as [H|H]; [eapply cons_head; eauto|]. apply cons_cons in H. destruct H as [[_ H]|H]; [congruence|].
      apply cons_In in H. inversion N; tauto. }
    constructor.
    - constructor; auto.
    - intros x [<-|I]; [apply (adj_nodes g nxt n W A)|auto].
    - intros a b H. apply cons_cons in H. destruct H as [[-> ->]|H]; [now apply adj_sym|auto].
    - intros a b I H. rewrite (cons_cons n nxt (cur :: tl) a b), (cons_cons n nxt (cur :: tl) b a). destruct I as [<-|I].
      + destruct (Only b H) as [->| ->]; [left; right; apply cons_cons; auto|right; left; auto].
      + destruct (Cl a b I H) as [H'|H']; auto.
  Qed.
  Lemma inv_done nxt cur tl : inv nxt cur tl -> (forall y, adj g nxt y -> y = cur) -> simple_path g.
  Proof.
    intros [N Inc Ad Cl] Only. exists (nxt :: cur :: tl).
    assert (All : forall a b, In a (nxt :: cur :: tl) -> adj g a b -> consecutive (nxt :: cur :: tl) a b \/ consecutive (nxt :: cur :: tl) b a).
    { intros a b [<-|I] H; [|auto]. apply Only in H. subst b. left. apply cons_cons. auto. }
    assert (P : Permutation (nxt :: cur :: tl) (nodes g)).
    { apply (closed_all _ nxt); [auto|cbn; auto|auto|]. intros a b I H. destruct (All a b I H) as [H'|H']; apply cons_In in H'; tauto. }
    split; auto. intros a b. change (edge g a b \/ edge g b a) with (adj g a b). split; [|intros [H|H]; [auto|apply adj_sym; auto]].
    intros H. apply All; auto. eapply Permutation_in; [symmetry; exact P|]. apply (adj_nodes g a b W H).
  Qed.
  Lemma walk fuel : forall nxt cur tl, inv nxt cur tl -> length (nxt :: cur :: tl) + fuel = length (nodes g) + 2 ->
    exists b, il_walk g fuel cur nxt = Some b /\ (b = true -> simple_path g) /\ (b = false -> exists v, length (neighbors g v) = 3).
  Proof.
    induction fuel as [|fuel IH]; intros nxt cur tl I Hl.
    { pose proof (NoDup_incl_length (i_nd _ _ _ I) (i_in _ _ _ I)). lia. }
    cbn [il_walk]. destruct (length (neighbors g nxt) =? 3) eqn:L3.
    { apply Nat.eqb_eq in L3. exists false. split; auto. split; [discriminate|]. intros _. eauto. }
    assert (Ac : adj g nxt cur) by (apply (i_ad _ _ _ I); apply cons_cons; auto).
    pose proof (proj2 (neighbors_In g nxt cur W) Ac) as Ic. pose proof (neighbors_NoDup g nxt) as Nn.
    assert (L : length (neighbors g nxt) <= 3). { apply (Deg nxt); auto. intros w. apply neighbors_In; auto. }
    destruct (neighbors g nxt) as [|a [|b [|c nb]]] eqn:E; cbn [length] in *; try discriminate; [destruct Ic| | |apply Nat.eqb_neq in L3; lia].
    - exists true. split; auto. split; [|discriminate]. intros _. apply (inv_done nxt cur tl I). intros y Hy. apply neighbors_In in Hy; auto. rewrite E in Hy. destruct Ic as [<-|[]], Hy as [<-|[]]. auto.
    - cbn [Nat.eqb filter]. inversion Nn as [|? ? N1 N2]; subst.
      assert (exists n, adj g nxt n /\ n <> cur /\ (forall y, adj g nxt y -> y = cur \/ y = n) /\ filter (fun n => negb (eqb n cur)) [a; b] = [n]) as (n & An & Ne & Only & F).
      { assert (Y : forall y, adj g nxt y -> y = a \/ y = b). { intros y Hy. apply neighbors_In in Hy; auto. rewrite E in Hy. destruct Hy as [<-|[<-|[]]]; auto. }
        destruct Ic as [<-|[<-|[]]].
        - exists b. assert (b <> a) by (intros ->; apply N1; cbn; auto). repeat split; auto.
          + apply neighbors_In; auto. rewrite E. cbn; auto.
          + cbn [filter]. rewrite eqb_refl. rewrite (proj2 (eqb_neq b a)) by auto. reflexivity.
        - exists a. assert (a <> b) by (intros ->; apply N1; cbn; auto). repeat split; auto.
          + apply neighbors_In; auto. rewrite E. cbn; auto.
          + intros y Hy. destruct (Y y Hy); auto.
          + cbn [filter]. rewrite eqb_refl. rewrite (proj2 (eqb_neq a b)) by auto. reflexivity. }
      cbn [filter] in F. rewrite F. apply (IH n nxt (cur :: tl)); [|cbn [length] in *; lia]. eapply inv_step; eauto.
  Qed.

  Lemma path_degree v : simple_path g -> length (neighbors g v) <= 2.
  Proof.
    intros (l & P & H). assert (N : NoDup l) by (eapply Permutation_NoDup; [symmetry; exact P|exact (proj1 W)]).
    pose proof (neighbors_NoDup g v) as Nn. destruct (neighbors g v) as [|a [|b [|c nb]]] eqn:E; cbn; try lia. exfalso.
    assert (K : forall y, In y [a; b; c] -> consecutive l v y \/ consecutive l y v). { intros y I. apply H. change (adj g v y). apply neighbors_In; auto. rewrite E. cbn in *. tauto. }
    inversion Nn as [|? ? N1 N2]; subst. inversion N2 as [|? ? N3 N4]; subst. cbn in N1, N3.
    assert (a <> b /\ a <> c /\ b <> c) as (X1 & X2 & X3) by (repeat split; intros ->; tauto).
    destruct (K a) as [Ka|Ka], (K b) as [Kb|Kb], (K c) as [Kc|Kc]; cbn; auto;
      (apply X1; eapply (cons_next l N); eassumption) || (apply X2; eapply (cons_next l N); eassumption) || (apply X3; eapply (cons_next l N); eassumption) ||
      (apply X1; eapply (cons_prev l N); eassumption) || (apply X2; eapply (cons_prev l N); eassumption) || (apply X3; eapply (cons_prev l N); eassumption).
  Qed.
  Lemma udeg v : udegree g v = length (neighbors g v).
  Proof.
    unfold udegree. destruct (mem v (neighbors g v)) eqn:E; [|lia]. apply mem_In in E. apply neighbors_In in E; auto. now apply no_adj in E.
  Qed.
  Lemma path_leaf : simple_path g -> 2 <= length (nodes g) -> exists v, In v (nodes g) /\ udegree g v = 1.
  Proof.
    intros (l & P & H) Len. assert (N : NoDup l) by (eapply Permutation_NoDup; [symmetry; exact P|exact (proj1 W)]).
    rewrite <- (Permutation_length P) in Len. destruct l as [|x [|y l]]; cbn in Len; try lia. exists x. split; [eapply Permutation_in; [exact P|]; cbn; auto|].
    rewrite udeg. assert (K : forall z, In z (neighbors g x) <-> z = y).
    { intros z. rewrite neighbors_In by auto. unfold adj. rewrite H. split.
      - intros [C|C]; [|exfalso; eapply cons_head; eauto]. apply cons_cons in C. destruct C as [[_ ->]|C]; auto. apply cons_In in C. inversion N; tauto.
      - intros ->. left. apply cons_cons. auto. }
    pose proof (neighbors_NoDup g x) as Nn. destruct (neighbors g x) as [|a [|b nb]]; auto.
    - destruct (proj2 (K y) eq_refl).
    - exfalso. assert (a = y) by (apply K; cbn; auto). assert (b = y) by (apply K; cbn; auto). subst. inversion Nn as [|? ? N1 _]. apply N1. cbn. auto.
  Qed.
  Lemma has_neighbor v : 2 <= length (nodes g) -> In v (nodes g) -> 1 <= udegree g v.
  Proof.
    intros Len I. assert (exists w, In w (nodes g) /\ w <> v) as (w & Iw & Nw).
    { pose proof (proj1 W) as N. change (NoDup (nodes g)) in N. destruct (nodes g) as [|a [|b l]]; cbn in Len; try lia. destruct (Z.eq_dec a v) as [->|Ne]; [|exists a; cbn; auto].
      exists b. split; [cbn; auto|]. inversion N as [|? ? N1 _]; subst. intros ->. apply N1. cbn. auto. }
    destruct (linked_neighbor g w v (Conn w v Iw I) Nw) as (c & A). rewrite udeg. apply neighbors_In in A; auto. destruct (neighbors g v); [destruct A|cbn; lia].
  Qed.
  Lemma sum_ge (f : Z -> nat) l : (forall v, In v l -> 1 <= f v) -> length l <= sumn (map f l) /\ (sumn (map f l) = length l -> forall v, In v l -> f v = 1).
  Proof.
    induction l as [|x l IH]; intros H; cbn [map sumn length]; [split; [lia|intros _ ? []]|]. destruct IH as (A & B); [intros; apply H; cbn; auto|]. pose proof (H x (or_introl eq_refl)).
    split; [lia|]. intros E v [<-|I]; [lia|]. apply B; auto. lia.
  Qed.
  Lemma one_edge : 2 <= length (nodes g) -> n_uedges g = 1 -> simple_path g.
  Proof.
    intros Len E. unfold n_uedges in E. destruct (sum_ge (udegree g) (nodes g) (fun v => has_neighbor v Len)) as (A & B).
    assert (S3 : sumn (map (udegree g) (nodes g)) < 4). { destruct (le_lt_dec 4 (sumn (map (udegree g) (nodes g)))) as [H|H]; auto. assert (H2 := Nat.div_le_mono 4 _ 2 (fun x => Nat.neq_succ_0 1 x) H). change (4 / 2) with 2 in H2. lia. }
    pose proof (proj1 W) as N. change (NoDup (nodes g)) in N.
    remember (nodes g) as ns eqn:En in Len, A, B, S3, N. destruct ns as [|a [|b [|c [|d l]]]]; cbn [length] in *; try lia; symmetry in En.
    - exists [a; b]. rewrite En. split; auto. inversion N as [|? ? N1 N2]; subst. assert (Nab : b <> a) by (intros ->; apply N1; cbn; auto).
      assert (Ab : adj g a b).
      { destruct (linked_neighbor g b a) as (z & Az); [apply Conn; rewrite En; cbn; auto|auto|]. pose proof (adj_nodes g a z W Az) as (_ & Iz). rewrite En in Iz.
        destruct Iz as [<-|[<-|[]]]; auto. now apply no_adj in Az. }
      intros x y. change (edge g x y \/ edge g y x) with (adj g x y). rewrite !cons_cons. split.
      + intros H. pose proof (adj_nodes g x y W H) as (Ix & Iy). rewrite En in Ix, Iy. destruct Ix as [<-|[<-|[]]], Iy as [<-|[<-|[]]]; auto; now apply no_adj in H.
      + intros [[[-> ->]|H]|[[-> ->]|H]]; auto; [now apply cons_one in H|now apply adj_sym|now apply cons_one in H].
    - exfalso. assert (B' : forall v, In v (nodes g) -> udegree g v = 1) by (rewrite En; apply B; lia).
      assert (Ia : In a (nodes g)) by (rewrite En; cbn; auto).
      pose proof (B' a Ia) as D. rewrite udeg in D. destruct (neighbors g a) as [|x [|? ?]] eqn:Ea; try discriminate.
      assert (Ax : adj g a x) by (apply neighbors_In; auto; rewrite Ea; cbn; auto). pose proof (adj_nodes g a x W Ax) as (_ & Ix).
      pose proof (B' x Ix) as Dx. rewrite udeg in Dx. destruct (neighbors g x) as [|y [|? ?]] eqn:Ex; try discriminate.
      assert (Ha : forall z, adj g a z -> z = x) by (intros z Hz; apply neighbors_In in Hz; auto; rewrite Ea in Hz; destruct Hz as [<-|[]]; auto).
      assert (Hx : forall z, adj g x z -> z = a).
      { intros z Hz. apply neighbors_In in Hz; auto. rewrite Ex in Hz. destruct Hz as [<-|[]]. apply adj_sym in Ax. apply neighbors_In in Ax; auto. rewrite Ex in Ax. destruct Ax as [<-|[]]. auto. }
      assert (P : Permutation [a; x] (nodes g)).
      { apply (closed_all _ a).
        - constructor; [intros [->|[]]; now apply no_adj in Ax|]. constructor; [intros []|constructor].
        - cbn; auto.
        - intros z [<-|[<-|[]]]; auto.
        - intros p q [<-|[<-|[]]] H; [apply Ha in H|apply Hx in H]; subst; cbn; auto. }
      apply Permutation_length in P. rewrite En in P. discriminate.
  Qed.
  Lemma islinear_exact : 2 <= length (nodes g) -> ~ In 0%Z (nodes g) -> exists b, islinear g = Some b /\ (b = true <-> simple_path g).
  Proof.
    intros Len Nz. unfold islinear. destruct (n_uedges g =? 1) eqn:E1.
    { apply Nat.eqb_eq in E1. exists true. split; auto. split; auto. intros _. now apply one_edge. }
    destruct (filter (fun v => udegree g v =? 1) (nodes g)) as [|cur fl] eqn:F.
    { exists false. split; auto. split; [discriminate|]. intros P. destruct (path_leaf P Len) as (v & I & D). exfalso.
      assert (X : In v (filter (fun v => udegree g v =? 1) (nodes g))) by (apply filter_In; rewrite D; auto). rewrite F in X. destruct X. }
    assert (Ic : In cur (nodes g) /\ udegree g cur = 1).
    { assert (X : In cur (filter (fun v => udegree g v =? 1) (nodes g))) by (rewrite F; cbn; auto). apply filter_In in X. destruct X as (X & Y). apply Nat.eqb_eq in Y. auto. }
    destruct Ic as (Ic & Dc). destruct (Z.eqb_spec cur 0) as [->|_]; [contradiction|].
    rewrite udeg in Dc. destruct (neighbors g cur) as [|nxt [|? ?]] eqn:En; try discriminate.
    assert (A : adj g cur nxt) by (apply neighbors_In; auto; rewrite En; cbn; auto).
    assert (I : inv nxt cur []).
    { constructor.
      - constructor; [intros [->|[]]; now apply no_adj in A|]. constructor; [intros []|constructor].
      - intros x [<-|[<-|[]]]; auto. apply (adj_nodes g cur nxt W A).
      - intros a b H. apply cons_cons in H. destruct H as [[-> ->]|H]; [now apply adj_sym|now apply cons_one in H].
      - intros a b [<-|[]] H. apply neighbors_In in H; auto. rewrite En in H. destruct H as [<-|[]]. right. apply cons_cons. auto. }
    destruct (walk (length (nodes g)) nxt cur [] I) as (b & E & T & Fa); [cbn [length]; lia|]. exists b. split; auto. split; auto.
    intros P. destruct b; auto. destruct (Fa eq_refl) as (v & D). pose proof (path_degree v P). lia.
  Qed.
End Walk.

(** ** Trees with any numbers of neighbours: the walk gets farther away from the leaf with every step. *)
Section TreeWalk.
  Variable g : graph.
  Hypothesis W : gwf g.
  Hypothesis T : istree g = true.
  Variable r0 : Z.
  Hypothesis Ir : In r0 (nodes g).
  Lemma dist_le v : In v (nodes g) -> dist g r0 v <= length (nodes g).
  Proof.
    intros Iv. destruct (dist_spec g W T r0 Ir v Iv) as (_ & B). destruct (le_lt_dec (dist g r0 v) (length (nodes g))) as [H|H]; auto. exfalso. apply (B _ H). now apply it_all.
  Qed.
  Lemma tree_walk fuel : forall cur nxt, adj g cur nxt -> dist g r0 nxt = S (dist g r0 cur) -> length (nodes g) <= dist g r0 nxt + fuel ->
    exists b, il_walk g fuel cur nxt = Some b /\ (b = false -> exists v, length (neighbors g v) = 3).
  Proof.
    assert (Step : forall cur nxt n, adj g cur nxt -> dist g r0 nxt = S (dist g r0 cur) -> adj g nxt n -> n <> cur -> dist g r0 n = S (dist g r0 nxt)).
    { intros cur nxt n A D An Ne. destruct (touch_dist g W T r0 Ir nxt n An) as [H|H]; [lia|]. exfalso. apply Ne. apply (up_unique g W T r0 Ir nxt n cur); auto. now apply adj_sym. }
    induction fuel as [|fuel IH]; intros cur nxt A D Hf; cbn [il_walk];
      (destruct (length (neighbors g nxt) =? 3) eqn:L3; [exists false; split; auto; intros _; exists nxt; now apply Nat.eqb_eq|]);
      (destruct (length (neighbors g nxt) =? 1) eqn:L1; [exists true; split; auto; discriminate|]);
      assert (exists n l, filter (fun n => negb (eqb n cur)) (neighbors g nxt) = n :: l /\ adj g nxt n /\ n <> cur) as (n & l & F & An & Ne).
    1, 3: pose proof (proj2 (neighbors_In g nxt cur W) (adj_sym _ _ _ A)) as Ic; pose proof (neighbors_NoDup g nxt) as Nn; apply Nat.eqb_neq in L1;
      (destruct (filter (fun n => negb (eqb n cur)) (neighbors g nxt)) as [|n l] eqn:F;
       [exfalso; assert (H : incl (neighbors g nxt) [cur]);
        [intros x Ix; destruct (Z.eq_dec x cur) as [->|Nx]; [cbn; auto|]; assert (X : In x (filter (fun n => negb (eqb n cur)) (neighbors g nxt))) by (apply filter_In; split; auto; apply negb_true_iff, eqb_neq; auto); rewrite F in X; destruct X
        |apply NoDup_incl_length in H; auto; destruct (neighbors g nxt) as [|x [|y nb]]; cbn [length In] in *; [tauto|lia|lia]]
       |exists n, l; assert (X : In n (filter (fun n => negb (eqb n cur)) (neighbors g nxt))) by (rewrite F; cbn; auto); apply filter_In in X; destruct X as (X & Y);
        apply negb_true_iff, eqb_neq in Y; apply neighbors_In in X; auto]).
    - exfalso. pose proof (Step cur nxt n A D An Ne). assert (In n (nodes g)) by apply (adj_nodes g nxt n W An). pose proof (dist_le n). intuition lia.
    - rewrite F. apply IH; auto; rewrite (Step cur nxt n A D An Ne); lia.
  Qed.
End TreeWalk.
Lemma neighbours_3 g v : gwf g -> length (neighbors g v) = 3 -> has_neighbours g v 3.
Proof. intros W L. exists (neighbors g v). split; [apply neighbors_NoDup|]. split; auto. intros w. now apply neighbors_In. Qed.
Lemma islinear_tree g : gwf g -> istree g = true -> 2 <= length (nodes g) -> ~ In 0%Z (nodes g) ->
  exists b, islinear g = Some b /\ (simple_path g -> b = true) /\ (b = false -> exists v, has_neighbours g v 3).
Proof.
  intros W T Len Nz. assert (NoLoop : forall a, ~ edge g a a).
  { intros a E. assert (Ia : In a (nodes g)) by (now apply (proj2 (proj2 W)) in E). exact (no_opposite g W T a Ia a a E E). }
  assert (C : weakly_connected g = true) by (unfold istree in T; now apply andb_true_iff in T).
  assert (Conn : forall a b, In a (nodes g) -> In b (nodes g) -> linked g a b) by (intros; now apply connected_linked).
  assert (exists b, islinear g = Some b /\ (simple_path g -> b = true) /\ (b = false -> exists v, length (neighbors g v) = 3)) as (b & E & H1 & H2).
  { unfold islinear. destruct (n_uedges g =? 1) eqn:E1; [exists true; repeat split; auto; discriminate|].
    destruct (filter (fun v => udegree g v =? 1) (nodes g)) as [|cur fl] eqn:F.
    { exists false. split; auto. assert (K : exists v, In v (nodes g) /\ udegree g v = 1).
      { (* a node farthest from any other has one neighbour *)
        assert (exists r0, In r0 (nodes g)) as (r0 & Ir) by (clear - Len; destruct (nodes g) as [|r0 ns]; cbn in Len; [lia|exists r0; cbn; auto]).
        assert (Far : forall l, l <> [] -> exists v, In v l /\ forall w, In w l -> dist g r0 w <= dist g r0 v).
        { induction l as [|x l IHl]; [congruence|]. intros _. destruct l as [|y l]; [exists x; split; [cbn; auto|intros w [<-|[]]; lia]|]. destruct IHl as (v & Iv & Hv); [discriminate|].
          destruct (le_lt_dec (dist g r0 x) (dist g r0 v)); [exists v; split; [right; auto|intros w [<-|Iw]; auto]|exists x; split; [left; auto|intros w [<-|Iw]; [lia|specialize (Hv w Iw); lia]]]. }
        destruct (Far (nodes g)) as (v & Iv & Hv); [intros X; rewrite X in Ir; destruct Ir|]. exists v. split; auto.
        assert (One : forall x y, adj g v x -> adj g v y -> x = y).
        { intros x y Ax Ay. apply (up_unique g W T r0 Ir v x y); auto.
          - destruct (touch_dist g W T r0 Ir v x Ax); auto. pose proof (Hv x (proj2 (adj_nodes g v x W Ax))). lia.
          - destruct (touch_dist g W T r0 Ir v y Ay); auto. pose proof (Hv y (proj2 (adj_nodes g v y W Ay))). lia. }
        pose proof (has_neighbor g W Conn NoLoop v) as Hn. rewrite (udeg g W NoLoop) in Hn |- *. specialize (Hn Len Iv).
        pose proof (neighbors_NoDup g v) as Nn. destruct (neighbors g v) as [|x [|y nb]] eqn:Ev; cbn [length] in *; try lia. exfalso.
        assert (x = y) by (apply One; apply neighbors_In; auto; rewrite Ev; cbn; auto). subst. inversion Nn as [|? ? N1 _]. apply N1. cbn; auto. }
      exfalso. destruct K as (v & Iv & Dv). assert (X : In v (filter (fun v => udegree g v =? 1) (nodes g))) by (apply filter_In; rewrite Dv; auto). rewrite F in X. destruct X. }
    assert (X : In cur (filter (fun v => udegree g v =? 1) (nodes g))) by (rewrite F; cbn; auto). apply filter_In in X. destruct X as (Ic & Dc). apply Nat.eqb_eq in Dc.
    destruct (Z.eqb_spec cur 0) as [->|_]; [contradiction|].
    rewrite (udeg g W NoLoop) in Dc. destruct (neighbors g cur) as [|nxt [|? ?]] eqn:En; try discriminate.
    assert (A : adj g cur nxt) by (apply neighbors_In; auto; rewrite En; cbn; auto).
    assert (D : dist g cur nxt = S (dist g cur cur)).
    { pose proof (dist_root g W T cur Ic). destruct (touch_dist g W T cur Ic cur nxt A); lia. }
    destruct (tree_walk g W T cur Ic (length (nodes g)) cur nxt A D) as (b & E & H); [lia|]. exists b. split; auto. split; auto.
    intros P. destruct b; auto. destruct (H eq_refl) as (v & Dv). pose proof (path_degree g W v P). lia. }
  exists b. split; auto. split; auto. intros Hb. destruct (H2 Hb) as (v & Dv). exists v. now apply neighbours_3.
Qed.
