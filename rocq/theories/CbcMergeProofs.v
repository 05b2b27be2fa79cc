(** * Merging committees. *)
From Coq Require Import String NArith ZArith QArith Bool Arith Permutation Sorted Lia List.
From Verif Require Import Base BaseLemmas Str CbcModel CbcSpec.
Import ListNotations.
Local Open Scope nat_scope.

Lemma qlt_iff a b : qlt a b = true <-> (a < b)%Q.
Proof. unfold qlt. rewrite negb_true_iff. split; intros H. - apply Qnot_le_lt. intros C. apply Qle_bool_iff in C. congruence. - destruct (Qle_bool b a) eqn:E; auto. apply Qle_bool_iff in E. exfalso. eapply Qlt_not_le; eauto. Qed.
Lemma qlt_false a b : qlt a b = false <-> (b <= a)%Q.
Proof. unfold qlt. rewrite negb_false_iff. apply Qle_bool_iff. Qed.
Lemma indices_app a b : indices (a ++ b) = indices a ++ indices b.
Proof. apply flat_map_app. Qed.
Lemma fold_seq_ind {S} (f : S -> nat -> S) (P : nat -> S -> Prop) s : P 0 s -> forall n, (forall i st, i < n -> P i st -> P (Datatypes.S i) (f st i)) -> P n (fold_left f (seq 0 n) s).
Proof.
  intros H0. induction n as [|n IH]; intros H; auto. rewrite seq_S, fold_left_app. cbn [fold_left Nat.add]. apply H; [lia|]. apply IH. intros; apply H; [lia|auto].
Qed.
Lemma find_split {A} (p : A -> bool) l x : find p l = Some x -> exists l1 l2, l = l1 ++ x :: l2 /\ p x = true /\ forall y, In y l1 -> p y = false.
Proof.
  induction l as [|a l IH]; [discriminate|]. cbn [find]. destruct (p a) eqn:E.
  - intros X. injection X as <-. exists [], l. repeat split; auto. intros y [].
  - intros X. destruct (IH X) as (l1 & l2 & -> & P & N). exists (a :: l1), l2. repeat split; auto. intros y [<-|I]; auto.
Qed.
Lemma removelast_snoc {A} (l : list A) x : removelast (l ++ [x]) = l.
Proof. rewrite removelast_app by discriminate. cbn. apply app_nil_r. Qed.

Section Merge.
  Variables (argsort : list Q -> list nat) (simmx : list (list Q)) (theta : Q).
  Hypothesis Sq : square simmx.
  Hypothesis So : sorts_rows argsort simmx.
  Let n := length simmx.
  Let cands i := rev (removelast (tl (argsort (nth i simmx [])))).
  Let free i merged := fun t => (i <? t) && negb (mem t merged).
  Lemma row_in i : i < n -> In (nth i simmx []) simmx /\ length (nth i simmx []) = n.
  Proof. intros H. assert (I : In (nth i simmx []) simmx) by now apply nth_In. split; auto. Qed.
  Lemma cands_lt i t : i < n -> In t (cands i) -> t < n.
  Proof.
    intros H I. destruct (row_in i H) as [Ir Ln]. destruct (So _ Ir) as [P _]. rewrite Ln in P. unfold cands in I. apply in_rev in I.
    assert (J : In t (argsort (nth i simmx []))).
    { destruct (argsort (nth i simmx [])) as [|a l] eqn:E; [destruct I|]. cbn [tl] in I. right. clear - I. destruct l using rev_ind; [destruct I|]. rewrite removelast_snoc in I. apply in_app_iff; auto. }
    apply (Permutation_in _ P) in J. apply in_seq in J. lia.
  Qed.
  (** After the first i committees *)
  Definition inv (i : nat) (st : list (nat * option nat) * list nat) : Prop :=
    NoDup (indices (fst st)) /\ (forall x, In x (indices (fst st)) <-> x < i \/ In x (snd st)) /\ (forall x, In x (snd st) -> x < n) /\
    forall l1 k o l2, fst st = l1 ++ (k, o) :: l2 ->
      k < i /\ ~ In k (indices l1) /\
      match o with
      | Some j => find (fun t => (k <? t) && negb (mem t (indices l1))) (cands k) = Some j /\ (theta <= cell simmx k j)%Q
      | None => match find (fun t => (k <? t) && negb (mem t (indices l1))) (cands k) with None => True | Some j => (cell simmx k j < theta)%Q end
      end.
  Lemma find_ext {A} (p q : A -> bool) l : (forall x, p x = q x) -> find p l = find q l.
  Proof. intros H. induction l as [|a l IH]; auto. cbn [find]. now rewrite H, IH. Qed.
  Lemma snoc_split {A} (l l1 l2 : list A) x y : l ++ [x] = l1 ++ y :: l2 -> (l2 = [] /\ l1 = l /\ y = x) \/ exists l2', l2 = l2' ++ [x] /\ l = l1 ++ y :: l2'.
  Proof.
    intros E. destruct l2 as [|z l2 _] using rev_ind.
    - left. apply app_inj_tail in E. intuition.
    - right. exists l2. rewrite app_comm_cons, app_assoc in E. apply app_inj_tail in E as [-> ->]. auto.
  Qed.
  Lemma inv_step i st : i < n -> inv i st -> inv (S i) (gm_step argsort simmx theta st i).
  Proof.
    destruct st as [mc mg]. intros Hi (Nd & In_ & Lt & Sp). cbn [fst snd] in *. unfold gm_step. destruct (mem i mg) eqn:Mi.
    - apply mem_In in Mi. repeat split; cbn [fst snd]; auto.
      + intros [?|?]%In_; [left; lia|auto].
      + intros [H|H]; apply In_; auto. destruct (Nat.eq_dec x i) as [->|]; auto. left; lia.
      + destruct (Sp _ _ _ _ H) as (? & _). lia.
      + now destruct (Sp _ _ _ _ H) as (_ & ? & _).
      + now destruct (Sp _ _ _ _ H) as (_ & _ & ?).
    - apply mem_nIn in Mi.
      assert (Fx : find (fun t => (i <? t) && negb (mem t mg)) (cands i) = find (fun t => (i <? t) && negb (mem t (indices mc))) (cands i)).
      { apply find_ext. intros t. destruct (i <? t) eqn:E; auto. cbn [andb]. f_equal. apply Nat.ltb_lt in E. destruct (mem t mg) eqn:A, (mem t (indices mc)) eqn:B; auto.
        - apply mem_In in A. apply mem_nIn in B. exfalso. apply B, In_. auto.
        - apply mem_nIn in A. apply mem_In in B. apply In_ in B. exfalso. destruct B; [lia|auto]. }
      assert (Ni : ~ In i (indices mc)) by (intros C; apply In_ in C; destruct C; [lia|auto]).
      assert (Go : forall o mg', (match o with Some j => j < n /\ j <> i /\ ~ In j (indices mc) /\ mg' = mg ++ [j] | None => mg' = mg end) ->
        (match o with
          | Some j => find (fun t => (i <? t) && negb (mem t (indices mc))) (cands i) = Some j /\ (theta <= cell simmx i j)%Q
          | None => match find (fun t => (i <? t) && negb (mem t (indices mc))) (cands i) with None => True | Some j => (cell simmx i j < theta)%Q end
          end) -> inv (S i) (mc ++ [(i, o)], mg')).
      { intros o mg' Ho Hs. split; [|split; [|split]]; cbn [fst snd].
        - rewrite indices_app. apply NoDup_app'; auto.
          + destruct o as [j|]; cbn; [|repeat constructor; easy]. destruct Ho as (_ & Nj & _). constructor; [cbn; intuition|]. repeat constructor; easy.
          + intros x Hx Hy. destruct o as [j|]; cbn in Hy; [destruct Ho as (_ & _ & Nj & _); destruct Hy as [<-|[<-|[]]]|destruct Hy as [<-|[]]]; contradiction.
        - intros x. rewrite indices_app, in_app_iff, In_. destruct o as [j|]; cbn; [destruct Ho as (_ & _ & _ & ->)|subst mg']; rewrite ?in_app_iff; cbn; intuition (try lia); destruct (Nat.eq_dec x i); subst; auto; left; left; lia.
        - intros x Hx. destruct o as [j|]; [destruct Ho as (Hj & _ & _ & ->); apply in_app_iff in Hx; destruct Hx as [|[<-|[]]]; auto|subst mg'; auto].
        - intros l1 k o' l2 E. apply snoc_split in E. destruct E as [(-> & -> & E)|(l2' & -> & E)].
          + injection E as -> ->. repeat split; auto.
          + destruct (Sp _ _ _ _ E) as (A & B & C'). split; [lia|split; auto]. }
      fold (cands i). remember (find (fun t => (i <? t) && negb (mem t (indices mc))) (cands i)) as fo eqn:F in *. symmetry in F. rewrite Fx. destruct fo as [j|].
      + pose proof (find_some _ _ F) as [Ij Pj]. apply andb_true_iff in Pj as [Pi Pm]. apply Nat.ltb_lt in Pi. apply negb_true_iff, mem_nIn in Pm.
        destruct (qlt (cell simmx i j) theta) eqn:Qt.
        * apply (Go None mg); [reflexivity|]. cbn. now apply qlt_iff.
        * apply (Go (Some j)); [|split; auto; now apply qlt_false]. repeat split; auto; [now apply cands_lt in Ij|lia].
      + apply (Go None mg); [reflexivity|exact I].
  Qed.
  Lemma inv_end : exists mg, inv n (get_merged_committee argsort simmx theta, mg).
  Proof.
    unfold get_merged_committee. fold n. assert (H : inv n (fold_left (gm_step argsort simmx theta) (seq 0 n) ([], []))).
    { apply fold_seq_ind. - split; [constructor|]. split; [cbn; intuition lia|]. split; [easy|]. intros l1 k o l2 E. destruct l1; discriminate. - intros i st Hi. now apply inv_step. }
    destruct (fold_left _ _ _) as [mc mg]. eauto.
  Qed.
  Lemma merged_partition : Permutation (indices (get_merged_committee argsort simmx theta)) (seq 0 n).
  Proof.
    destruct inv_end as (mg & Nd & In_ & Lt & _). cbn [fst snd] in *. apply NoDup_Permutation; [auto|apply seq_NoDup|]. intros x. rewrite In_, in_seq. split; [intros [?|?%Lt]; lia|lia].
  Qed.
  (** The candidates: all committees except the last and the first in the order, from the most similar on. *)
  Lemma cands_split i : 2 <= n -> i < n -> exists lo hi, argsort (nth i simmx []) = lo :: rev (cands i) ++ [hi].
  Proof.
    intros Hn H. destruct (row_in i H) as [Ir Ln]. destruct (So _ Ir) as [P _]. rewrite Ln in P. apply Permutation_length in P. rewrite seq_length in P. unfold cands. rewrite rev_involutive.
    destruct (argsort (nth i simmx [])) as [|lo l]; [cbn in P; lia|]. exists lo. destruct l as [|hi l _] using rev_ind; [cbn in P; lia|]. exists hi. cbn [tl]. now rewrite removelast_snoc.
  Qed.
  Lemma sorted_app {A} (R : A -> A -> Prop) a b : StronglySorted R (a ++ b) -> StronglySorted R a /\ StronglySorted R b /\ forall x y, In x a -> In y b -> R x y.
  Proof.
    induction a as [|x a IH]; cbn [app]; intros H; [repeat split; [constructor|auto|easy]|]. inversion H as [|? ? S F]; subst. destruct (IH S) as (A1 & A2 & A3). rewrite Forall_forall in F. repeat split; auto.
    - constructor; auto. apply Forall_forall. intros y Iy. apply F, in_app_iff. auto.
    - intros y z [<-|Iy] Iz; [apply F, in_app_iff; auto|auto].
  Qed.
  Lemma sorted_rev_split {A} (R : A -> A -> Prop) l1 x l2 : StronglySorted R (rev (l1 ++ x :: l2)) -> forall y, In y l2 -> R y x.
  Proof.
    intros H y Iy. rewrite rev_app_distr in H. cbn [rev] in H. rewrite <- app_assoc in H. apply sorted_app in H as (_ & _ & H). apply H; [now apply -> in_rev|cbn; auto].
  Qed.
  (** When every committee is strictly most similar to itself: *)
  Hypothesis Self : forall i j, i < n -> j < n -> i <> j -> (cell simmx i j < cell simmx i i)%Q.
  Lemma last_self i : 2 <= n -> i < n -> exists lo, argsort (nth i simmx []) = lo :: rev (cands i) ++ [i].
  Proof.
    intros Hn H. destruct (cands_split i Hn H) as (lo & hi & E). exists lo. rewrite E. do 3 f_equal. destruct (row_in i H) as [Ir Ln]. destruct (So _ Ir) as [P S]. rewrite Ln in P.
    destruct (Nat.eq_dec hi i) as [|Ne]; auto. exfalso. rewrite E in P, S.
    assert (Hh : hi < n). { assert (In hi (seq 0 n)) as X by (apply (Permutation_in _ P); right; apply in_app_iff; cbn; auto). apply in_seq in X. lia. }
    assert (Ii : In i (lo :: rev (cands i))). { assert (In i (lo :: rev (cands i) ++ [hi])) as X by (apply (Permutation_in _ (Permutation_sym P)); apply in_seq; lia). destruct X as [X|X]; [cbn; auto|]. apply in_app_iff in X as [X|[X|[]]]; [cbn; auto|congruence]. }
    rewrite app_comm_cons in S. apply sorted_app in S as (_ & _ & S). specialize (S i hi Ii (or_introl eq_refl)). specialize (Self i hi H Hh ltac:(auto)). unfold cell in Self. eapply Qlt_not_le; eauto.
  Qed.
  Lemma merge_best l1 i o l2 : get_merged_committee argsort simmx theta = l1 ++ (i, o) :: l2 ->
    i < n /\ ~ In i (indices l1) /\
    match o with
    | Some j => i < j /\ j < n /\ ~ In j (indices l1) /\ (theta <= cell simmx i j)%Q /\
                forall j', i < j' -> j' < n -> ~ In j' (indices l1) -> (cell simmx i j' <= cell simmx i j)%Q
    | None => forall j', i < j' -> j' < n -> ~ In j' (indices l1) -> (cell simmx i j' < theta)%Q \/ forall j, j < n -> (cell simmx i j' <= cell simmx i j)%Q
    end.
  Proof.
    intros E. destruct inv_end as (mg & _ & _ & _ & Sp). cbn [fst] in Sp. destruct (Sp _ _ _ _ E) as (Hi & Ni & Ho). split; auto. split; auto. clear Sp E.
    destruct (Nat.lt_ge_cases n 2) as [N1|N2].
    - assert (n = 1) by lia. assert (i = 0) by lia. subst i. destruct o as [j|].
      + exfalso. destruct Ho as [F _]. apply find_some in F as [I P]. apply andb_true_iff in P as [P _]. apply Nat.ltb_lt in P. apply cands_lt in I; [lia|auto].
      + intros; lia.
    - destruct (last_self i N2 Hi) as (lo & Ea). destruct (row_in i Hi) as [Ir Ln]. destruct (So _ Ir) as [P S]. rewrite Ln, Ea in P. rewrite Ea in S.
      assert (Cov : forall j', j' < n -> j' <> i -> j' = lo \/ In j' (cands i)).
      { intros j' Hj Ne. assert (X : In j' (lo :: rev (cands i) ++ [i])) by (apply (Permutation_in _ (Permutation_sym P)); apply in_seq; lia). destruct X as [X|X]; auto.
        apply in_app_iff in X as [X|[X|[]]]; [right; now apply in_rev|congruence]. }
      assert (Lo : forall j, j < n -> (cell simmx i lo <= cell simmx i j)%Q).
      { intros j Hj. destruct (Nat.eq_dec j lo) as [->|Ne]; [apply Qle_refl|]. assert (X : In j (rev (cands i) ++ [i])) by (assert (In j (lo :: rev (cands i) ++ [i])) as X by (apply (Permutation_in _ (Permutation_sym P)); apply in_seq; lia); destruct X; [congruence|auto]).
        inversion S as [|? ? _ F]; subst. rewrite Forall_forall in F. now apply F. }
      apply StronglySorted_inv in S as [S _]. apply sorted_app in S as (S & _ & _).
      destruct o as [j|].
      + destruct Ho as [F T]. destruct (find_split _ _ _ F) as (a & b & Ec & Pj & Na). apply andb_true_iff in Pj as [Pj Pm]. apply Nat.ltb_lt in Pj. apply negb_true_iff, mem_nIn in Pm.
        assert (Hj : j < n) by (apply (cands_lt i); auto; rewrite Ec; apply in_app_iff; cbn; auto). repeat split; auto. intros j' Lj Hj' Nj.
        destruct (Cov j' Hj' ltac:(lia)) as [->|I]; [now apply Lo|]. rewrite Ec in I. apply in_app_iff in I as [I|[->|I]]; [|apply Qle_refl|].
        * apply Na in I. rewrite (proj2 (Nat.ltb_lt _ _) Lj), (proj2 (mem_nIn _ _) Nj) in I. discriminate.
        * rewrite Ec in S. eapply (sorted_rev_split _ a j b S). auto.
      + intros j' Lj Hj' Nj. destruct (Cov j' Hj' ltac:(lia)) as [->|I]; [right; now apply Lo|]. left.
        destruct (find _ (cands i)) as [j|] eqn:F.
        * destruct (find_split _ _ _ F) as (a & b & Ec & Pj & Na). eapply Qle_lt_trans; [|exact Ho]. rewrite Ec in I. apply in_app_iff in I as [I|[->|I]]; [|apply Qle_refl|].
          -- apply Na in I. rewrite (proj2 (Nat.ltb_lt _ _) Lj), (proj2 (mem_nIn _ _) Nj) in I. discriminate.
          -- rewrite Ec in S. eapply (sorted_rev_split _ a j b S). auto.
        * pose proof (find_none _ _ F _ I) as X. cbn beta in X. rewrite (proj2 (Nat.ltb_lt _ _) Lj), (proj2 (mem_nIn _ _) Nj) in X. discriminate.
  Qed.
End Merge.
(** Two committees are never merged. *)
Lemma two_never argsort a b theta : length (argsort a) = 2 -> length (argsort b) = 2 -> get_merged_committee argsort [a; b] theta = [(0, None); (1, None)].
Proof.
  intros Ha Hb. unfold get_merged_committee. cbn [length seq fold_left]. unfold gm_step. cbn [mem existsb nth].
  assert (H : forall l : list nat, length l = 2 -> removelast (tl l) = []). { intros [|x [|y [|z l]]]; try discriminate; reflexivity. }
  rewrite (H _ Ha). cbn [rev find mem existsb app]. rewrite (H _ Hb). reflexivity.
Qed.
