(** * Similarities, ranks, token weights and token vectors: proofs. *)
From Coq Require Import String NArith ZArith Bool Arith Reals Lra Lia Psatz Permutation List.
From Verif Require Import Base BaseLemmas Str StrLemmas VocabModel MxModel MxSpec MxProofs MxTtmProofs MxOpsProofs MxCellProofs CalcModel CalcProofs CalcVecModel CalcVecSpec.
Import ListNotations.
Local Open Scope R_scope.

(** ** Sums *)
Lemma sumr_sumv l : sumr l = sumv l. Proof. reflexivity. Qed.
Lemma sumr_app a b : sumr (a ++ b) = sumr a + sumr b.
Proof. exact (sumv_app a b). Qed.
Lemma sumr_perm a b : Permutation a b -> sumr a = sumr b.
Proof. exact (@sumv_perm R _ a b). Qed.
Lemma sumr_scale {A} k (f : A -> R) l : sumr (map (fun x => k * f x) l) = k * sumr (map f l).
Proof. induction l as [|x l IH]; cbn; [ring|]. fold (sumr (map (fun x => k * f x) l)) (sumr (map f l)). rewrite IH. ring. Qed.
Lemma sumr_le {A} (f g : A -> R) l : (forall x, In x l -> f x <= g x) -> sumr (map f l) <= sumr (map g l).
Proof. induction l as [|x l IH]; cbn; intros H; [lra|]. apply Rplus_le_compat; [apply H; now left|apply IH; intros; apply H; now right]. Qed.
Lemma sumr_nonneg l : (forall x, In x l -> 0 <= x) -> 0 <= sumr l.
Proof. induction l as [|x l IH]; cbn; intros H; [lra|]. apply Rplus_le_le_0_compat; [apply H; now left|apply IH; intros; apply H; now right]. Qed.
Lemma sumr_zero l : (forall x, In x l -> x = 0) -> sumr l = 0.
Proof. exact (@sumv_zero R _ l). Qed.
Lemma sumr_nonneg_zero l : (forall x, In x l -> 0 <= x) -> sumr l = 0 -> forall x, In x l -> x = 0.
Proof.
  induction l as [|a l IH]; [easy|]. intros H E x. change (a + sumr l = 0) in E. pose proof (H a (or_introl eq_refl)). pose proof (sumr_nonneg l (fun y I => H y (or_intror I))).
  intros [<-|I]; [lra|]. apply IH; [intros; apply H; now right|lra|assumption].
Qed.

(** ** Cosine *)
Lemma dot_comm a b : dot a b = dot b a.
Proof. unfold dot. revert b. induction a as [|x a IH]; intros [|y b]; cbn; try reflexivity. unfold dot in IH. fold (sumr (map (fun xy => fst xy * snd xy) (combine a b))). rewrite IH. cbn. unfold sumr. ring. Qed.
Lemma dot_cons x a y b : dot (x :: a) (y :: b) = x * y + dot a b.
Proof. reflexivity. Qed.
Lemma dot_self_nonneg a : 0 <= dot a a.
Proof. induction a as [|x a IH]; [cbn; lra|]. rewrite dot_cons. nra. Qed.
Lemma dot_self_zero a : dot a a = 0 -> Forall (fun x => x = 0) a.
Proof.
  induction a as [|x a IH]; [constructor|]. rewrite dot_cons. intros E. pose proof (dot_self_nonneg a). assert (x * x = 0) by nra. constructor; [nra|]. apply IH. nra.
Qed.
Lemma dot_zero_l a b : Forall (fun x => x = 0) a -> dot a b = 0.
Proof. intros F. revert b. induction F as [|x a E F IH]; intros [|y b]; try reflexivity. rewrite dot_cons, IH. subst. ring. Qed.
Lemma dot_scale k a b : dot (map (fun x => x / k) a) b = dot a b / k.
Proof. revert b. induction a as [|x a IH]; intros [|y b]; cbn [map]; rewrite ?dot_cons; try (cbn; unfold Rdiv; ring). rewrite IH. unfold Rdiv. ring. Qed.
Lemma dot_mult k a b : dot (map (fun x => k * x) a) b = k * dot a b.
Proof. revert b. induction a as [|x a IH]; intros [|y b]; cbn [map]; rewrite ?dot_cons; try (cbn; ring). rewrite IH. ring. Qed.
(** Cauchy-Schwarz *)
Lemma cauchy a b : (dot a b) ^ 2 <= dot a a * dot b b.
Proof.
  revert b. induction a as [|x a IH]; intros [|y b].
  - cbn. nra.
  - unfold dot at 1 2. cbn [combine map sumr fold_right]. pose proof (dot_self_nonneg (y :: b)). lra.
  - rewrite (dot_comm (x :: a) []). unfold dot at 1 3. cbn [combine map sumr fold_right]. pose proof (dot_self_nonneg (x :: a)). lra.
  - rewrite !dot_cons. specialize (IH b). pose proof (dot_self_nonneg a) as A. pose proof (dot_self_nonneg b) as B. set (D := dot a b) in *. set (P := dot a a) in *. set (Q := dot b b) in *.
    assert (K : 2 * (x * y) * D <= x * x * Q + y * y * P).
    { assert (H : (2 * (x * y) * D) ^ 2 <= (x * x * Q + y * y * P) ^ 2).
      { assert ((2 * (x * y) * D) ^ 2 = 4 * (x * y) ^ 2 * D ^ 2) by ring. assert (0 <= (x * y) ^ 2) by nra.
        assert (4 * (x * y) ^ 2 * D ^ 2 <= 4 * (x * y) ^ 2 * (P * Q)) by nra.
        assert ((x * x * Q + y * y * P) ^ 2 - 4 * (x * y) ^ 2 * (P * Q) = (x * x * Q - y * y * P) ^ 2) by ring. pose proof (pow2_ge_0 (x * x * Q - y * y * P)). lra. }
      apply Rsqr_incr_0_var; [unfold Rsqr; lra|nra]. }
    nra.
Qed.
Lemma norm2_nonneg a : 0 <= norm2 a. Proof. apply sqrt_pos. Qed.
Lemma norm2_sq a : norm2 a * norm2 a = dot a a.
Proof. apply sqrt_sqrt, dot_self_nonneg. Qed.
Lemma norm2_zero a : norm2 a = 0 -> Forall (fun x => x = 0) a.
Proof. intros E. apply dot_self_zero. rewrite <- norm2_sq, E. ring. Qed.
Lemma unit_dot a b : dot (unit_row a) (unit_row b) = cos_of a b.
Proof.
  unfold unit_row, cos_of. rewrite dot_scale, (dot_comm a), dot_scale, (dot_comm b). destruct (Req_EM_T (norm2 a) 0) as [Ea|Na].
  - rewrite dot_zero_l by now apply norm2_zero. unfold Rdiv. ring.
  - destruct (Req_EM_T (norm2 b) 0) as [Eb|Nb]; [rewrite (dot_comm a), dot_zero_l by (now apply norm2_zero); unfold Rdiv; now rewrite !Rmult_0_l|]. field. auto.
Qed.
Lemma cos_sym a b : cos_of a b = cos_of b a.
Proof.
  unfold cos_of. destruct (Req_EM_T (norm2 a) 0); destruct (Req_EM_T (norm2 b) 0); try reflexivity. now rewrite dot_comm, (Rmult_comm (norm2 a)).
Qed.
Lemma cos_bounds a b : -1 <= cos_of a b <= 1.
Proof.
  unfold cos_of. destruct (Req_EM_T (norm2 a) 0); [lra|]. destruct (Req_EM_T (norm2 b) 0); [lra|].
  pose proof (norm2_nonneg a). pose proof (norm2_nonneg b). assert (P : 0 < norm2 a * norm2 b) by (apply Rmult_lt_0_compat; lra).
  pose proof (cauchy a b) as K. rewrite <- !norm2_sq in K. set (d := dot a b) in *. set (p := norm2 a * norm2 b) in *.
  assert (Q : d * d <= p * p) by (unfold p; nra). assert (-p <= d <= p) by (split; nra).
  split; [apply (Rmult_le_reg_r p); [assumption|]; replace (d / p * p) with d by (field; lra); lra|].
  apply (Rmult_le_reg_r p); [assumption|]. replace (d / p * p) with d by (field; lra). lra.
Qed.
Lemma norm2_scale k a : 0 < k -> norm2 (map (fun x => k * x) a) = k * norm2 a.
Proof.
  intros K. unfold norm2. rewrite dot_mult, dot_comm, dot_mult. rewrite <- Rmult_assoc. rewrite sqrt_mult_alt by nra. rewrite sqrt_square by lra. reflexivity.
Qed.
Lemma cos_scale k a b : 0 < k -> cos_of (map (fun x => k * x) a) b = cos_of a b.
Proof.
  intros K. unfold cos_of. rewrite norm2_scale by assumption. destruct (Req_EM_T (norm2 a) 0) as [E|N].
  - rewrite E, Rmult_0_r. destruct (Req_EM_T 0 0); [reflexivity|contradiction].
  - destruct (Req_EM_T (k * norm2 a) 0) as [E|_]; [apply Rmult_integral in E; lra|]. destruct (Req_EM_T (norm2 b) 0); [reflexivity|]. rewrite dot_mult. field. lra.
Qed.
Lemma cos_self a : norm2 a <> 0 -> cos_of a a = 1.
Proof.
  intros N. unfold cos_of. destruct (Req_EM_T (norm2 a) 0); [contradiction|]. rewrite norm2_sq. unfold norm2 in N.
  apply Rinv_r. intros E. apply N. rewrite E. apply sqrt_0.
Qed.

Lemma nth_map' {A B} (f : A -> B) l i d d' : (i < length l)%nat -> nth i (map f l) d' = f (nth i l d).
Proof. intros L. rewrite (nth_indep _ d' (f d)); [apply map_nth|now rewrite map_length]. Qed.
Lemma set_diag_cell v a i j : (i < length a)%nat -> (j < length (nth i a []))%nat -> cell (set_diag v a) i j = if (i =? j)%nat then v else cell a i j.
Proof.
  intros Li Lj. unfold cell, set_diag. rewrite (nth_map' _ _ _ (0%nat, [])) by (rewrite combine_length, seq_length; lia).
  rewrite combine_nth by now rewrite seq_length. cbn [fst snd]. rewrite seq_nth by assumption. cbn [plus].
  rewrite (nth_map' _ _ _ (0%nat, 0)) by (rewrite combine_length, seq_length; lia). rewrite combine_nth by now rewrite seq_length. cbn [fst snd].
  now rewrite seq_nth by assumption.
Qed.
Lemma set_diag_length v a : length (set_diag v a) = length a.
Proof. unfold set_diag. rewrite map_length, combine_length, seq_length. lia. Qed.
Lemma cosine_cell a i j : (i < length a)%nat -> (j < length a)%nat -> cell (cosine_similarity a) i j = cos_of (nth i a []) (nth j a []).
Proof.
  intros Li Lj. unfold cell, cosine_similarity. rewrite (nth_map' _ _ _ []) by now rewrite map_length. rewrite (nth_map' _ _ _ []) by now rewrite map_length.
  rewrite !(nth_map' _ _ _ []) by assumption. apply unit_dot.
Qed.
Lemma cosine_row_length a i : (i < length a)%nat -> length (nth i (cosine_similarity a) []) = length a.
Proof. intros L. unfold cosine_similarity. rewrite (nth_map' _ _ _ []) by now rewrite map_length. now rewrite !map_length. Qed.
Lemma cosine_length a : length (cosine_similarity a) = length a.
Proof. unfold cosine_similarity. now rewrite !map_length. Qed.
Lemma calc_cosine_cell a i j : (i < length a)%nat -> (j < length a)%nat -> cell (calc_cosine a) i j = if (i =? j)%nat then 1 else cos_of (nth i a []) (nth j a []).
Proof.
  intros Li Lj. unfold calc_cosine. rewrite set_diag_cell; [|now rewrite cosine_length|now rewrite cosine_row_length]. now rewrite cosine_cell.
Qed.
Lemma cosine_distance_cell a i j : (i < length a)%nat -> (j < length a)%nat -> cell (calc_cosine_distance a) i j = 1 - cell (calc_cosine a) i j.
Proof.
  intros Li Lj. rewrite calc_cosine_cell by assumption. unfold calc_cosine_distance. rewrite set_diag_cell.
  - destruct (i =? j)%nat; [lra|]. unfold cell. rewrite (nth_map' _ _ _ []) by now rewrite cosine_length. rewrite (nth_map' _ _ _ 0) by now rewrite cosine_row_length.
    fold (cell (cosine_similarity a) i j). rewrite cosine_cell by assumption. pose proof (cos_bounds (nth i a []) (nth j a [])).
    rewrite Rmin_right by lra. rewrite Rmax_right by lra. reflexivity.
  - now rewrite map_length, cosine_length.
  - rewrite (nth_map' _ _ _ []) by now rewrite cosine_length. now rewrite map_length, cosine_row_length.
Qed.

(** ** Ranks *)
Lemma set_nth_length l i v : length (set_nth l i v) = length l.
Proof. revert i. induction l as [|x l IH]; intros [|i]; cbn; auto. Qed.
Lemma set_nth_get l i v j : (i < length l)%nat -> nth j (set_nth l i v) 0%nat = if (j =? i)%nat then v else nth j l 0%nat.
Proof.
  revert i j. induction l as [|x l IH]; intros i j L; [cbn in L; lia|]. destruct i as [|i]; destruct j as [|j]; cbn; try reflexivity. apply IH. cbn in L. lia.
Qed.
Lemma rank_fold n (q : list (nat * nat)) r : length r = n -> Forall (fun kp => snd kp < n)%nat q -> NoDup (map snd q) ->
  let r' := fold_left (fun r kp => set_nth r (snd kp) (S (fst kp))) q r in
  length r' = n /\ (forall k p, In (k, p) q -> nth p r' 0%nat = S k) /\ (forall p, ~ In p (map snd q) -> nth p r' 0%nat = nth p r 0%nat).
Proof.
  revert r. induction q as [|[k p] q IH]; intros r L F ND; cbn [fold_left].
  - cbn. split; [assumption|]. split; [easy|reflexivity].
  - inversion F as [|? ? Lp F']; subst. inversion ND as [|? ? NI ND']; subst. cbn [fst snd] in *.
    destruct (IH (set_nth r p (S k))) as (A & B & C); [now rewrite set_nth_length|assumption|assumption|]. split; [assumption|]. split.
    + intros k' p' [E|I]; [inversion E; subst; rewrite C by assumption; rewrite set_nth_get by assumption; now rewrite Nat.eqb_refl|]. now apply B.
    + intros p' N. cbn in N. rewrite C by tauto. rewrite set_nth_get by assumption. destruct (Nat.eqb_spec p' p); [subst; tauto|reflexivity].
Qed.
Lemma rank_row_spec n p : Permutation p (seq 0 n) -> length (rank_row n p) = n /\ forall k, (k < n)%nat -> nth (nth k p 0%nat) (rank_row n p) 0%nat = S k.
Proof.
  intros P. assert (L : length p = n) by (rewrite (Permutation_length P); apply seq_length). unfold rank_row.
  assert (M : map snd (combine (seq 0 (length p)) p) = p) by (generalize 0%nat; clear; induction p as [|x p IH]; intros s; [reflexivity|]; cbn; now rewrite IH).
  destruct (rank_fold n (combine (seq 0 (length p)) p) (repeat 0%nat n)) as (A & B & _).
  - apply repeat_length.
  - apply Forall_forall. intros [k x] I. apply in_combine_r in I. cbn. apply (Permutation_in _ P) in I. apply in_seq in I. lia.
  - rewrite M. apply (Permutation_NoDup (Permutation_sym P)), seq_NoDup.
  - split; [assumption|]. intros k Lk. apply B. assert (E : nth k (seq 0 n) 0%nat = k) by now rewrite seq_nth. rewrite <- E at 1. rewrite L. rewrite <- (combine_nth (seq 0 n) p k 0%nat 0%nat) by now rewrite seq_length.
    apply nth_In. rewrite combine_length, seq_length. lia.
Qed.
Lemma rank_row_perm n p : Permutation p (seq 0 n) -> Permutation (rank_row n p) (seq 1 n).
Proof.
  intros P. destruct (rank_row_spec n p P) as (A & B). symmetry. apply NoDup_Permutation_bis; [apply seq_NoDup|rewrite A, seq_length; lia|].
  intros x I. apply in_seq in I. rewrite <- (Nat.succ_pred x) by lia. assert (Lk : (pred x < n)%nat) by lia. rewrite <- (B (pred x) Lk). apply nth_In. rewrite A.
  assert (J : In (nth (pred x) p 0%nat) p) by (apply nth_In; rewrite (Permutation_length P), seq_length; lia). apply (Permutation_in _ P) in J. apply in_seq in J. lia.
Qed.
Lemma rank_row_order row p i j : argsort row p -> (i < length row)%nat -> (j < length row)%nat -> nth i row 0 < nth j row 0 ->
  (nth i (rank_row (length row) p) 0 < nth j (rank_row (length row) p) 0)%nat.
Proof.
  intros (P & S) Li Lj Lt. destruct (rank_row_spec _ p P) as (A & B). assert (L : length p = length row) by (rewrite (Permutation_length P); apply seq_length).
  assert (EX : forall i, (i < length row)%nat -> exists k, (k < length row)%nat /\ nth k p 0%nat = i).
  { intros i0 L0. assert (J : In i0 p) by (apply (Permutation_in _ (Permutation_sym P)), in_seq; lia). apply (In_nth _ _ 0%nat) in J as (k & Lk & E). exists k. split; [lia|assumption]. }
  destruct (EX i Li) as (ki & Lki & Ei). destruct (EX j Lj) as (kj & Lkj & Ej). rewrite <- Ei, <- Ej. rewrite !B by assumption.
  destruct (Nat.lt_ge_cases ki kj) as [|G]; [lia|]. exfalso. destruct (Nat.eq_dec ki kj) as [->|N]; [subst; lra|].
  specialize (S kj ki). rewrite Ei, Ej in S. assert (nth j row 0 <= nth i row 0) by (apply S; lia). lra.
Qed.
