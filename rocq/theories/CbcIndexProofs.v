(** * Condensed indices. *)
From Coq Require Import String NArith ZArith QArith Bool Arith Permutation Lia Psatz List.
From Verif Require Import Base BaseLemmas Str CbcModel CbcSpec.
Import ListNotations.
Local Open Scope nat_scope.

Section Cond.
  Context {A : Type} (n : nat) (M : nat -> nat -> A).
  Let f := fun j => map (M j) (seq (S j) (n - 1 - j)).
  Lemma prefix_length j : j <= n -> (2 * Z.of_nat (length (flat_map f (seq 0 j))) = Z.of_nat j * (2 * Z.of_nat n - 1 - Z.of_nat j))%Z.
  Proof.
    induction j as [|j IH]; intros H; [reflexivity|]. rewrite seq_S, flat_map_app, app_length. cbn [flat_map Nat.add]. rewrite app_nil_r. unfold f at 2. rewrite map_length, seq_length.
    specialize (IH ltac:(lia)). rewrite Nat2Z.inj_add, Z.mul_add_distr_l, IH. replace (n - 1 - j) with (n - S j) by lia. rewrite Nat2Z.inj_sub by lia. nia.
  Qed.
  Lemma condensed_length : (Z.of_nat (length (condensed_of n M)) = Z.of_nat n * (Z.of_nat n - 1) / 2)%Z.
  Proof. unfold condensed_of. fold f. pose proof (prefix_length n (le_n _)) as H. apply Z.div_unique_exact; lia. Qed.
  Lemma condensed_nth j i : j < i -> i < n -> exists k, square_to_condensed (Z.of_nat i) (Z.of_nat j) (Z.of_nat n) = Ok (Z.of_nat k) /\ nth_error (condensed_of n M) k = Some (M j i).
  Proof.
    intros Hj Hi. exists (length (flat_map f (seq 0 j)) + (i - S j)). split.
    - unfold square_to_condensed. rewrite (proj2 (Z.eqb_neq _ _)) by lia. rewrite (proj2 (Z.ltb_ge _ _)) by lia. f_equal.
      pose proof (prefix_length j ltac:(lia)) as H. rewrite Nat2Z.inj_add, Nat2Z.inj_sub by lia.
      assert (E : (Z.of_nat j * (Z.of_nat j + 1) / 2 = Z.of_nat n * Z.of_nat j - Z.of_nat (length (flat_map f (seq 0 j))))%Z).
      { symmetry. apply Z.div_unique_exact; lia. }
      rewrite E. lia.
    - unfold condensed_of. fold f. replace (seq 0 n) with (seq 0 j ++ j :: seq (S j) (n - 1 - j)).
      2:{ replace n with (j + S (n - 1 - j)) at 2 by lia. rewrite seq_app. reflexivity. }
      rewrite flat_map_app. rewrite nth_error_app2 by lia. replace (_ + (i - S j) - _) with (i - S j) by lia. cbn [flat_map].
      rewrite nth_error_app1 by (unfold f; rewrite map_length, seq_length; lia). unfold f. rewrite nth_error_map.
      rewrite (nth_error_nth' _ 0) by (rewrite seq_length; lia). rewrite seq_nth by lia. cbn [option_map]. do 2 f_equal. lia.
  Qed.
  Lemma condensed_In x : In x (condensed_of n M) <-> exists j i, j < i /\ i < n /\ x = M j i.
  Proof.
    unfold condensed_of. rewrite in_flat_map. split.
    - intros (j & Hj & Hx). apply in_seq in Hj. apply in_map_iff in Hx as (i & <- & Hi). apply in_seq in Hi. exists j, i. repeat split; lia.
    - intros (j & i & H1 & H2 & ->). exists j. split; [apply in_seq; lia|]. apply in_map. apply in_seq. lia.
  Qed.
End Cond.
Lemma sq_sym i j n : square_to_condensed i j n = square_to_condensed j i n.
Proof.
  unfold square_to_condensed. rewrite (Z.eqb_sym j i). destruct (i =? j)%Z eqn:E; auto. apply Z.eqb_neq in E.
  destruct (i <? j)%Z eqn:A, (j <? i)%Z eqn:B; auto; [apply Z.ltb_lt in A; apply Z.ltb_lt in B|apply Z.ltb_ge in A; apply Z.ltb_ge in B]; lia.
Qed.
Lemma cond_pairs_NoDup n : NoDup (condensed_of n (fun j i => (j, i))).
Proof.
  unfold condensed_of. assert (H : forall l, NoDup l -> NoDup (flat_map (fun j => map (fun i => (j, i)) (seq (S j) (n - 1 - j))) l)).
  { induction 1 as [|j l Nj N IH]; [constructor|]. cbn [flat_map]. apply NoDup_app'; auto.
    - apply FinFun.Injective_map_NoDup; [|apply seq_NoDup]. intros a b E. congruence.
    - intros x Hx Hy. apply in_map_iff in Hx as (i & <- & _). apply in_flat_map in Hy as (j' & Hj & Hi). apply in_map_iff in Hi as (i' & E & _). congruence. }
  apply H, seq_NoDup.
Qed.
Lemma nth_error_NoDup {A} (l : list A) i j x : NoDup l -> nth_error l i = Some x -> nth_error l j = Some x -> i = j.
Proof. intros N Ei Ej. apply (proj1 (NoDup_nth_error l) N); [apply nth_error_Some; congruence|congruence]. Qed.
Lemma condensed_bijection n :
  (forall j i, j < i -> i < n -> exists k, square_to_condensed (Z.of_nat i) (Z.of_nat j) (Z.of_nat n) = Ok k /\ (0 <= k < Z.of_nat n * (Z.of_nat n - 1) / 2)%Z) /\
  (forall j i j' i' k, j < i -> i < n -> j' < i' -> i' < n -> square_to_condensed (Z.of_nat i) (Z.of_nat j) (Z.of_nat n) = Ok k ->
     square_to_condensed (Z.of_nat i') (Z.of_nat j') (Z.of_nat n) = Ok k -> j = j' /\ i = i') /\
  (forall k, (0 <= k < Z.of_nat n * (Z.of_nat n - 1) / 2)%Z -> exists j i, j < i /\ i < n /\ square_to_condensed (Z.of_nat i) (Z.of_nat j) (Z.of_nat n) = Ok k).
Proof.
  pose (P := fun j i : nat => (j, i)). rewrite <- (condensed_length n P). split; [|split].
  - intros j i Hj Hi. destruct (condensed_nth n P j i Hj Hi) as (k & E & Nk). exists (Z.of_nat k). split; auto. assert (X : nth_error (condensed_of n P) k <> None) by congruence; apply nth_error_Some in X. lia.
  - intros j i j' i' k Hj Hi Hj' Hi' E E'. destruct (condensed_nth n P j i Hj Hi) as (a & Ea & Na), (condensed_nth n P j' i' Hj' Hi') as (b & Eb & Nb).
    assert (a = b) by (apply Nat2Z.inj; congruence). subst b. assert (H : P j i = P j' i') by congruence. injection H as -> ->. auto.
  - intros k Hk. destruct (nth_error (condensed_of n P) (Z.to_nat k)) as [x|] eqn:E.
    2:{ apply nth_error_None in E. lia. }
    destruct (proj1 (condensed_In n P x) (nth_error_In _ _ E)) as (j & i & Hj & Hi & ->). destruct (condensed_nth n P j i Hj Hi) as (a & Ea & Na).
    assert (a = Z.to_nat k) by (eapply nth_error_NoDup; [apply cond_pairs_NoDup|exact Na|exact E]). exists j, i. repeat split; auto. rewrite Ea. f_equal. lia.
Qed.
Lemma items_recovered n : 1 <= n -> items_of_condensed (Z.of_nat n * (Z.of_nat n - 1) / 2) = Z.of_nat n.
Proof.
  intros H. unfold items_of_condensed. assert (X : exists M : nat -> nat -> unit, True) by (exists (fun _ _ => tt); auto). destruct X as (M & _).
  pose proof (condensed_length n M) as L. pose proof (prefix_length n M n (le_n _)) as P. unfold condensed_of in L. rewrite L in P.
  rewrite (Z.sqrt_unique _ (Z.of_nat n - 1)) by nia. lia.
Qed.

(** ** Averages *)
Lemma pairs_In {A} (l : list A) a b : In (a, b) (pairs l) -> In a l /\ In b l.
Proof. induction l as [|x l IH]; [easy|]. cbn [pairs]. rewrite in_app_iff, in_map_iff. intros [(y & E & I)|I]; [injection E as <- <-; cbn; auto|]. destruct (IH I). cbn; auto. Qed.
Lemma pairs_neq {A} (l : list A) a b : NoDup l -> In (a, b) (pairs l) -> a <> b.
Proof. induction 1 as [|x l N ND IH]; [easy|]. cbn [pairs]. rewrite in_app_iff, in_map_iff. intros [(y & E & I)|I]; [injection E as <- <-; congruence|]. auto. Qed.
Lemma pairs_map {A B} (f : A -> B) l : pairs (map f l) = map (fun ab => (f (fst ab), f (snd ab))) (pairs l).
Proof. induction l as [|x l IH]; auto. cbn [pairs map]. rewrite map_app, IH, !map_map. reflexivity. Qed.
Lemma pyget_nat {A} (l : list A) k x : nth_error l k = Some x -> pyget l (Z.of_nat k) = Ok x.
Proof.
  intros E. unfold pyget. rewrite (proj2 (Z.ltb_ge (Z.of_nat k) 0)) by lia. rewrite (proj2 (Z.ltb_ge (Z.of_nat k) 0)) by lia. rewrite Nat2Z.id, E. reflexivity.
Qed.
Lemma average_exact n M idx : 1 <= n -> NoDup idx -> (forall i, In i idx -> i < n) -> (forall i j, M i j = M j i) -> 2 <= length idx ->
  average_similarity (map Z.of_nat idx) (condensed_of n M) = Ok (qsum (map (fun ij => M (fst ij) (snd ij)) (pairs idx)) / inject_Z (Z.of_nat (length idx) * (Z.of_nat (length idx) - 1) / 2))%Q.
Proof.
  intros Hn Nd Lt Sym Sz. unfold average_similarity. rewrite condensed_length, items_recovered, map_length by auto.
  assert (F : forall l s, (forall ij, In ij l -> fst ij < n /\ snd ij < n /\ fst ij <> snd ij) ->
    rfold (fun s ij => rbind (square_to_condensed (fst ij) (snd ij) (Z.of_nat n)) (fun k => rmap (Qplus s) (pyget (condensed_of n M) k))) (map (fun ab => (Z.of_nat (fst ab), Z.of_nat (snd ab))) l) s
    = Ok (fold_left Qplus (map (fun ij => M (fst ij) (snd ij)) l) s)).
  { induction l as [|[i j] l IH]; intros s H; [reflexivity|]. cbn [map rfold fold_left fst snd]. destruct (H (i, j)) as (Hi & Hj & Ne); [cbn; auto|]. cbn [fst snd] in *.
    assert (G : exists k, square_to_condensed (Z.of_nat i) (Z.of_nat j) (Z.of_nat n) = Ok (Z.of_nat k) /\ nth_error (condensed_of n M) k = Some (M i j)).
    { destruct (Nat.lt_ge_cases j i); [|rewrite sq_sym]; [rewrite Sym|]; apply condensed_nth; lia. }
    destruct G as (k & -> & Nk). cbn [rbind]. rewrite (pyget_nat _ _ _ Nk). cbn [rmap rbind]. apply IH. intros; apply H; cbn; auto. }
  rewrite pairs_map, F. 2:{ intros [i j] I. cbn [fst snd]. pose proof (pairs_neq _ _ _ Nd I). apply pairs_In in I as [? ?]. auto. }
  cbn [rbind]. assert (H : (1 <= Z.of_nat (length idx) * (Z.of_nat (length idx) - 1) / 2)%Z) by (apply Z.div_le_lower_bound; nia).
  rewrite (proj2 (Z.eqb_neq _ _)) by lia. reflexivity.
Qed.
