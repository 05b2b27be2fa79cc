(** * PMI, log likelihood, log ratio, entropy. *)
From Coq Require Import String NArith ZArith Bool Arith Reals Lra Lia Psatz List.
From Verif Require Import Base BaseLemmas VocabModel MxModel CalcModel CalcSpec CalcProofs.
Import ListNotations.
Local Open Scope R_scope.

Lemma ln_lt_pred x : 0 < x -> x <> 1 -> ln x < x - 1.
Proof.
  intros H E. assert (ln x <> 0) by (intros Z; apply E; rewrite <- (exp_ln x H), Z; apply exp_0).
  pose proof (exp_ineq1 (ln x) H0) as I. rewrite exp_ln in I by assumption. lra.
Qed.

Lemma Rabs_le_inv a b : Rabs a <= b -> - b <= a <= b.
Proof. intros H. unfold Rabs in H. destruct (Rcase_abs a); lra. Qed.

(** ** PMI *)

Lemma calc_pmi_eq o11 o21 o12 o22 : let N := o11 + o21 + o12 + o22 in let e := (o11 + o12) * (o11 + o21) / N in
  0 < N -> 0 <= e -> 0 <= o11 -> calc_pmi o11 o21 o12 o22 = Ok (ln (adjust_val (o11 / adjust_val e))).
Proof.
  intros N e H He Ho. unfold calc_pmi. fold N. rewrite fdiv_ok by lra. cbn [rbind]. fold e. pose proof (adjust_pos e He).
  rewrite fdiv_ok by lra. cbn [rbind]. apply flog_ok, adjust_pos, div_nonneg; lra.
Qed.
Lemma ln_adjust_close x : 0 < x -> Rabs (ln (adjust_val x) - ln x) <= 11 / 100000000000.
Proof.
  intros H. unfold adjust_val. destruct (Req_EM_T x 0); [lra|]. destruct (Req_EM_T x 1) as [->|].
  - rewrite ln_1. pose proof ln_eps1. apply Rabs_le. lra.
  - rewrite Rminus_diag_eq, Rabs_R0 by reflexivity. lra.
Qed.
Lemma pmi_close o11 o21 o12 o22 : let N := o11 + o21 + o12 + o22 in
  0 < N -> 0 < o11 + o12 -> 0 < o11 + o21 -> 0 < o11 ->
  exists p, calc_pmi o11 o21 o12 o22 = Ok p /\ Rabs (p - ideal_pmi o11 (o11 + o12) (o11 + o21) N) <= 22 / 100000000000.
Proof.
  intros N HN HR HC Ho. set (e := (o11 + o12) * (o11 + o21) / N). assert (He : 0 < e) by (apply div_pos; [nra|assumption]).
  eexists. split; [apply calc_pmi_eq; fold N; try fold e; lra|]. fold N. fold e.
  assert (Ha : 0 < adjust_val e) by (apply adjust_pos; lra).
  assert (Hx : 0 < o11 / adjust_val e) by now apply div_pos.
  pose proof (ln_adjust_close _ Hx) as A. pose proof (ln_adjust_close _ He) as B. rewrite ln_div in A by assumption.
  assert (E : ideal_pmi o11 (o11 + o12) (o11 + o21) N = ln o11 - ln e).
  { unfold ideal_pmi. rewrite <- ln_div by assumption. f_equal. unfold e. field. lra. }
  rewrite E. apply Rabs_le. apply Rabs_le_inv in A. apply Rabs_le_inv in B. lra.
Qed.
(** With nothing special about the table the value is exact. *)
Lemma pmi_exact o11 o21 o12 o22 : let N := o11 + o21 + o12 + o22 in
  0 < N -> 0 < o11 + o12 -> 0 < o11 + o21 -> 0 < o11 -> (o11 + o12) * (o11 + o21) <> N -> o11 * N <> (o11 + o12) * (o11 + o21) ->
  calc_pmi o11 o21 o12 o22 = Ok (ideal_pmi o11 (o11 + o12) (o11 + o21) N).
Proof.
  intros N HN HR HC Ho D1 D2. set (e := (o11 + o12) * (o11 + o21) / N). assert (He : 0 < e) by (apply div_pos; [nra|assumption]).
  assert (EN : e * N = (o11 + o12) * (o11 + o21)) by (unfold e; field; lra).
  rewrite calc_pmi_eq; fold N; fold e; try lra. rewrite (adjust_id e); [|lra|intros K; rewrite K in EN; lra].
  assert (Hx : 0 < o11 / e) by now apply div_pos.
  rewrite adjust_id; [|lra|intros K; assert (o11 = e) by (replace o11 with (o11 / e * e) by (field; lra); rewrite K; ring); rewrite <- H in EN; lra].
  unfold ideal_pmi. f_equal. f_equal. unfold e. field. lra.
Qed.
Lemma pmi_symmetric o11 o21 o12 o22 : calc_pmi o11 o21 o12 o22 = calc_pmi o11 o12 o21 o22.
Proof.
  unfold calc_pmi. replace (o11 + o21 + o12 + o22) with (o11 + o12 + o21 + o22) by ring.
  now rewrite (Rmult_comm (o11 + o12)).
Qed.
Lemma table_sums c r cc n : IZR c + IZR (r - c) = IZR r /\ IZR c + IZR (cc - c) = IZR cc /\
  IZR c + IZR (cc - c) + IZR (r - c) + IZR (n - r - cc + c) = IZR n.
Proof. rewrite <- !plus_IZR. repeat split; f_equal; ring. Qed.
Lemma pmi_table c r cc n : (0 < n)%Z -> (0 <= r)%Z -> (0 <= cc)%Z -> (0 <= c)%Z ->
  of_table calc_pmi c r cc n = Ok (ln (adjust_val (IZR c / adjust_val (IZR r * IZR cc / IZR n)))).
Proof.
  intros Hn Hr Hc Ho. destruct (table_sums c r cc n) as (A & B & C). unfold of_table. rewrite calc_pmi_eq.
  - now rewrite C, A, B.
  - rewrite C. now apply IZR_lt.
  - rewrite C, A, B. apply div_nonneg; [apply Rmult_le_pos; now apply IZR_le|now apply IZR_lt].
  - now apply IZR_le.
Qed.
Lemma pmi_increasing c c' r cc n p p' : (0 < n)%Z -> (0 < r)%Z -> (0 < cc)%Z -> (0 <= c < c')%Z ->
  (r * cc < 10000000000 * n)%Z ->
  of_table calc_pmi c r cc n = Ok p -> of_table calc_pmi c' r cc n = Ok p' -> p < p'.
Proof.
  intros Hn Hr Hc [Ho Hlt] Hb. rewrite !pmi_table by lia. intros [= <-] [= <-].
  set (e := IZR r * IZR cc / IZR n). assert (Hn' : 0 < IZR n) by now apply IZR_lt.
  assert (He : 0 < e) by (apply div_pos; [apply Rmult_lt_0_compat; now apply IZR_lt|assumption]).
  assert (He' : e < 10000000000).
  { unfold e. apply (Rmult_lt_reg_r (IZR n)); [assumption|]. unfold Rdiv. rewrite Rmult_assoc, Rinv_l, Rmult_1_r by lra.
    rewrite <- !mult_IZR. now apply IZR_lt. }
  set (a := adjust_val e). assert (Ha : 0 < a) by (apply adjust_pos; lra).
  assert (Ha' : a < 10000000000) by (unfold a, adjust_val; destruct (Req_EM_T e 0); [lra|destruct (Req_EM_T e 1); lra]).
  assert (G : IZR c + 1 <= IZR c') by (rewrite <- plus_IZR; apply IZR_le; lia). assert (G0 : 0 <= IZR c) by now apply IZR_le.
  assert (X0 : 0 <= IZR c / a) by now apply div_nonneg.
  assert (XX : IZR c / a + eps < IZR c' / a).
  { apply (Rmult_lt_reg_r a); [assumption|]. replace ((IZR c / a + eps) * a) with (IZR c + eps * a) by (field; lra).
    replace (IZR c' / a * a) with (IZR c') by (field; lra). nra. }
  apply ln_increasing; [now apply adjust_pos|].
  unfold adjust_val. repeat match goal with |- context [Req_EM_T ?x ?y] => destruct (Req_EM_T x y) end; lra.
Qed.

(** ** PPMI *)
Lemma ppmi_of_pmi o11 o21 o12 o22 : calc_ppmi o11 o21 o12 o22 = rmap (Rmax 0) (calc_pmi o11 o21 o12 o22).
Proof.
  unfold calc_ppmi. destruct (calc_pmi _ _ _ _) as [p|]; [|reflexivity]. cbn [rmap]. f_equal.
  destruct (Rlt_dec p 0); [rewrite Rmax_left by lra|rewrite Rmax_right by lra]; reflexivity.
Qed.
Lemma ppmi_table_close c r cc n : (0 < n)%Z -> (0 <= c <= r)%Z -> (c <= cc)%Z ->
  exists p, of_table calc_ppmi c r cc n = Ok p /\ 0 <= p /\ Rabs (p - ideal_ppmi (IZR c) (IZR r) (IZR cc) (IZR n)) <= 22 / 100000000000.
Proof.
  intros Hn Hr Hc. unfold of_table. rewrite ppmi_of_pmi. fold (of_table calc_pmi c r cc n).
  unfold ideal_ppmi. destruct (Rlt_dec 0 (IZR c)) as [P|P].
  - apply lt_IZR in P. destruct (table_sums c r cc n) as (A & B & C).
    destruct (pmi_close (IZR c) (IZR (cc - c)) (IZR (r - c)) (IZR (n - r - cc + c))) as (p & E & K).
    + rewrite C. now apply IZR_lt.
    + rewrite A. apply IZR_lt. lia.
    + rewrite B. apply IZR_lt. lia.
    + now apply IZR_lt.
    + unfold of_table. rewrite E. rewrite C, A, B in K. cbn [rmap]. eexists. split; [reflexivity|]. split; [apply Rmax_l|].
      set (q := ideal_pmi _ _ _ _) in *. apply Rabs_le_inv in K. apply Rabs_le. unfold Rmax. destruct (Rle_dec 0 p); destruct (Rle_dec 0 q); lra.
  - assert (c = 0%Z) by (destruct (Z.eq_dec c 0); [assumption|exfalso; apply P, IZR_lt; lia]). subst c.
    rewrite pmi_table by lia. cbn [rmap]. eexists. split; [reflexivity|]. split; [apply Rmax_l|].
    assert (Z0 : forall y, 0 / y = 0) by (intros; unfold Rdiv; apply Rmult_0_l). rewrite Z0, adjust_0. pose proof (ln_neg eps ltac:(lra)). rewrite Rmax_left by lra.
    rewrite Rminus_0_r, Rabs_R0. lra.
Qed.

(** ** Log likelihood *)
(** one column of the table *)
Definition col_exact (a b : R) : R := a * ln (a / (a + b)) + b * ln (b / (a + b)).
Definition col_code (a b : R) : R := let q := adjust_val (a / (a + b)) in a * ln q + b * ln (1 - q).
Lemma col_code_inner a b : 0 < a -> 0 < b -> col_code a b = col_exact a b.
Proof.
  intros A B. unfold col_code, col_exact.
  assert (K : 1 - a / (a + b) = b / (a + b)) by (field; lra).
  assert (0 < a / (a + b)) by (apply div_pos; lra). assert (0 < b / (a + b)) by (apply div_pos; lra).
  rewrite adjust_id by lra. now rewrite K.
Qed.
Lemma col_code_0l b : 0 < b -> col_code 0 b = b * ln eps1.
Proof.
  intros B. unfold col_code. replace (0 / (0 + b)) with 0 by (field; lra). rewrite adjust_0, Rmult_0_l, Rplus_0_l. do 2 f_equal. lra.
Qed.
Lemma col_code_0r a : 0 < a -> col_code a 0 = a * ln eps1.
Proof.
  intros B. unfold col_code. replace (a / (a + 0)) with 1 by (field; lra). rewrite adjust_1, Rmult_0_l, Rplus_0_r. reflexivity.
Qed.
Lemma col_exact_0l b : 0 < b -> col_exact 0 b = 0.
Proof. intros B. unfold col_exact. replace (b / (0 + b)) with 1 by (field; lra). rewrite ln_1. ring. Qed.
Lemma col_exact_0r b : 0 < b -> col_exact b 0 = 0.
Proof. intros B. unfold col_exact. replace (b / (b + 0)) with 1 by (field; lra). rewrite ln_1. ring. Qed.
Lemma col_code_close a b : 0 <= a -> 0 <= b -> 0 < a + b -> col_exact a b - 11 / 100000000000 * (a + b) <= col_code a b <= col_exact a b.
Proof.
  intros A B S. pose proof ln_eps1 as L. destruct A as [A| <-].
  - destruct B as [B| <-].
    + rewrite col_code_inner by assumption. nra.
    + rewrite col_code_0r, col_exact_0r by assumption. nra.
  - assert (0 < b) by lra. rewrite col_code_0l, col_exact_0l by assumption. nra.
Qed.
Lemma lik_eq o11 o21 o12 o22 : 0 <= o11 -> 0 <= o21 -> 0 <= o12 -> 0 <= o22 -> 0 < o11 + o21 -> 0 < o12 + o22 ->
  calc_lik o11 o21 o12 o22 = Ok (2 * (col_code o11 o21 + col_code o12 o22 - col_code (o11 + o12) (o21 + o22))).
Proof.
  intros A B C D E F. unfold calc_lik. rewrite !fdiv_ok by lra. cbn [rbind].
  assert (forall a b, 0 <= a -> 0 <= b -> 0 < a + b -> 0 < adjust_val (a / (a + b)) < 1) as K.
  { intros. apply adjust_prob. split; [apply div_nonneg; lra|apply div_le_1; lra]. }
  pose proof (K o11 o21 A B E). pose proof (K o12 o22 C D F). pose proof (K (o11 + o12) (o21 + o22) ltac:(lra) ltac:(lra) ltac:(lra)).
  rewrite <- Rplus_assoc in H1. rewrite !flog_ok by lra. cbn [rbind]. unfold col_code. f_equal. rewrite <- (Rplus_assoc (o11 + o12) o21 o22). ring.
Qed.
Lemma xln_split x y z : 0 <= x -> (0 < x -> 0 < y) -> (0 < x -> 0 < z) -> x * ln (y / z) = x * ln y - x * ln z.
Proof.
  intros [X| <-] Y Z; [|ring]. rewrite ln_div by auto. ring.
Qed.
Lemma G2_eq o11 o21 o12 o22 : 0 <= o11 -> 0 <= o21 -> 0 <= o12 -> 0 <= o22 -> 0 < o11 + o21 -> 0 < o12 + o22 ->
  G2 o11 o21 o12 o22 = 2 * (col_exact o11 o21 + col_exact o12 o22 - col_exact (o11 + o12) (o21 + o22)).
Proof.
  intros A B C D E F. unfold G2, col_exact. set (N := o11 + o21 + o12 + o22). replace (o11 + o12 + (o21 + o22)) with N by (unfold N; ring).
  assert (HN : 0 < N) by (unfold N; lra).
  assert (K : forall x r c, 0 <= x -> 0 < c -> (0 < x -> 0 < r) -> x * ln (x * N / (r * c)) = x * ln (x / c) - x * ln (r / N)).
  { intros x r c [X| <-] HC HR; [|ring]. rewrite <- Rmult_minus_distr_l, <- ln_div; [|apply div_pos; auto..]. do 2 f_equal. field. specialize (HR X). lra. }
  rewrite (K o11 (o11 + o12) (o11 + o21)), (K o21 (o21 + o22) (o11 + o21)), (K o12 (o11 + o12) (o12 + o22)), (K o22 (o21 + o22) (o12 + o22)) by (intros; lra).
  replace (o11 / (o11 + o21)) with (o11 / (o11 + o21)) by reflexivity. ring.
Qed.
Lemma lik_close o11 o21 o12 o22 : 0 <= o11 -> 0 <= o21 -> 0 <= o12 -> 0 <= o22 -> 0 < o11 + o21 -> 0 < o12 + o22 ->
  exists x, calc_lik o11 o21 o12 o22 = Ok x /\
    G2 o11 o21 o12 o22 - 22 / 100000000000 * (o11 + o21 + o12 + o22) <= x <= G2 o11 o21 o12 o22 /\
    (0 < o11 -> 0 < o21 -> 0 < o12 -> 0 < o22 -> x = G2 o11 o21 o12 o22).
Proof.
  intros A B C D E F. rewrite lik_eq, G2_eq by assumption. eexists. split; [reflexivity|].
  pose proof (col_code_close o11 o21 A B E). pose proof (col_code_close o12 o22 C D F).
  split; [|intros; rewrite !col_code_inner by lra; ring].
  destruct (Rle_lt_dec (o11 + o12) 0).
  { assert (o11 = 0) by lra. assert (o12 = 0) by lra. subst. rewrite Rplus_0_l. rewrite !col_code_0l, !col_exact_0l by lra. split; nra. }
  destruct (Rle_lt_dec (o21 + o22) 0).
  { assert (o21 = 0) by lra. assert (o22 = 0) by lra. subst. rewrite Rplus_0_l. rewrite !col_code_0r, !col_exact_0r by lra. split; nra. }
  rewrite (col_code_inner (o11 + o12) (o21 + o22)) by lra. lra.
Qed.
(** Gibbs' inequality: G2 >= 0, with equality exactly for independence. *)
Lemma gibbs_term x e : 0 <= x -> 0 < e -> x - e <= x * ln (x / e).
Proof.
  intros [X| <-] HE; [|lra]. pose proof (ln_ge (x / e) (div_pos _ _ X HE)) as H. replace (/ (x / e)) with (e / x) in H by (field; lra).
  apply (Rmult_le_compat_l x) in H; [|lra]. replace (x * (1 - e / x)) with (x - e) in H by (field; lra). exact H.
Qed.
Lemma gibbs_term_strict x e : 0 <= x -> 0 < e -> x <> e -> x - e < x * ln (x / e).
Proof.
  intros [X| <-] HE D; [|lra]. assert (P : 0 < e / x) by now apply div_pos.
  assert (e / x <> 1). { intros K. apply D. replace e with (e / x * x) by (field; lra). rewrite K. ring. }
  pose proof (ln_lt_pred _ P H) as L. replace (x / e) with (/ (e / x)) by (field; lra). rewrite ln_Rinv by assumption.
  apply (Rmult_lt_compat_l x) in L; [|lra]. replace (x * (e / x - 1)) with (e - x) in L by (field; lra). lra.
Qed.
Lemma G2_nonneg o11 o21 o12 o22 : 0 <= o11 -> 0 <= o21 -> 0 <= o12 -> 0 <= o22 ->
  0 < o11 + o21 -> 0 < o12 + o22 -> 0 < o11 + o12 -> 0 < o21 + o22 ->
  0 <= G2 o11 o21 o12 o22 /\ (G2 o11 o21 o12 o22 = 0 <-> o11 * (o11 + o21 + o12 + o22) = (o11 + o12) * (o11 + o21)).
Proof.
  intros A B C D C1 C2 R1 R2. unfold G2. set (N := o11 + o21 + o12 + o22). assert (HN : 0 < N) by (unfold N; lra).
  assert (Q : forall x r c, 0 < r -> 0 < c -> x * N / (r * c) = x / (r * c / N)) by (intros; field; lra).
  rewrite !Q by assumption.
  assert (P : forall r c, 0 < r -> 0 < c -> 0 < r * c / N) by (intros; apply div_pos; [nra|assumption]).
  set (e11 := (o11 + o12) * (o11 + o21) / N). set (e21 := (o21 + o22) * (o11 + o21) / N).
  set (e12 := (o11 + o12) * (o12 + o22) / N). set (e22 := (o21 + o22) * (o12 + o22) / N).
  assert (S : e11 + e21 + e12 + e22 = N) by (unfold e11, e21, e12, e22, N; field; lra).
  pose proof (P _ _ R1 C1) as P11. pose proof (P _ _ R2 C1) as P21. pose proof (P _ _ R1 C2) as P12. pose proof (P _ _ R2 C2) as P22.
  fold e11 in P11. fold e21 in P21. fold e12 in P12. fold e22 in P22.
  pose proof (gibbs_term o11 e11 A P11). pose proof (gibbs_term o21 e21 B P21). pose proof (gibbs_term o12 e12 C P12). pose proof (gibbs_term o22 e22 D P22).
  assert (SN : N = o11 + o21 + o12 + o22) by reflexivity.
  split; [lra|]. assert (EN : e11 * N = (o11 + o12) * (o11 + o21)) by (unfold e11; field; lra). split.
  - intros Z. destruct (Req_EM_T o11 e11) as [G|G]; [rewrite G at 1; exact EN|].
    pose proof (gibbs_term_strict o11 e11 A P11 G). exfalso. lra.
  - intros Z. assert (X11 : o11 = e11) by (apply (Rmult_eq_reg_r N); lra).
    assert (X21 : e11 + e21 = o11 + o21) by (unfold e11, e21, N; field; unfold N in HN; lra).
    assert (X12 : e11 + e12 = o11 + o12) by (unfold e11, e12, N; field; unfold N in HN; lra).
    assert (X22 : e21 + e22 = o21 + o22) by (unfold e21, e22, N; field; unfold N in HN; lra).
    replace e21 with o21 by lra. replace e12 with o12 by lra. replace e22 with o22 by lra. rewrite <- X11.
    assert (U : forall x, x * ln (x / x) = 0).
    { intros x. destruct (Req_EM_T x 0) as [->|V]; [ring|]. replace (x / x) with 1 by (field; lra). rewrite ln_1. ring. }
    rewrite !U. ring.
Qed.
Lemma lik_refuted : exists x, calc_lik 1 0 100000000000 1 = Ok x /\ x < 0.
Proof.
  rewrite lik_eq by lra. eexists. split; [reflexivity|].
  replace (0 + 1) with 1 by ring. rewrite col_code_0r by lra. rewrite !col_code_inner by lra. unfold col_exact.
  replace (1 + 100000000000 + 1) with 100000000002 by ring. replace (1 + 100000000000) with 100000000001 by ring. replace (100000000000 + 1) with 100000000001 by ring.
  rewrite !ln_div by lra. rewrite !ln_1. pose proof ln_eps1 as L. rewrite ln_div in L by lra.
  assert (I : ln 100000000002 - ln 100000000001 <= 1 / 100000000001).
  { rewrite <- ln_div by lra. pose proof (ln_le_pred (100000000002 / 100000000001) ltac:(apply div_pos; lra)). lra. }
  assert (J : ln 100000000000 + ln 100000000002 - 2 * ln 100000000001 <= 0).
  { replace (ln 100000000000 + ln 100000000002 - 2 * ln 100000000001) with (ln (100000000000 / 100000000001) - ln (100000000001 / 100000000002)).
    - assert (ln (100000000000 / 100000000001) <= ln (100000000001 / 100000000002)); [|lra]. apply ln_mono. split; [apply div_pos; lra|lra].
    - rewrite !ln_div by lra. ring. }
  lra.
Qed.

(** ** Log ratio *)
Lemma log_ratio_sign o11 o21 o12 o22 : 0 <= o11 -> 0 < o21 -> 0 <= o12 -> 0 <= o22 -> 0 < o11 + o12 ->
  exists x, calc_log_ratio o11 o21 o12 o22 = Ok x /\ (0 < x <-> o21 / (o21 + o22) < o11 / (o11 + o12)).
Proof.
  intros A B C D R1. unfold calc_log_ratio. destruct (Req_EM_T o21 0); [lra|].
  assert (0 < o21 / (o21 + o22)) by (apply div_pos; lra). rewrite !fdiv_ok by lra. cbn [rbind].
  rewrite fdiv_ok by lra. cbn [rbind]. set (b := o21 / (o21 + o22)) in *. set (a := o11 / (o11 + o12)).
  assert (Ha : 0 <= a) by (apply div_nonneg; lra). assert (K : a / b * b = a) by (field; lra).
  assert (Hr : 0 <= a / b) by (apply div_nonneg; lra).
  rewrite flog_ok by now apply adjust_pos. eexists. split; [reflexivity|]. split.
  - intros P. destruct (Rlt_le_dec b a) as [|Q]; [assumption|]. exfalso. assert (a / b <= 1) by now apply div_le_1.
    pose proof (adjust_prob (a / b) (conj Hr H0)) as W. pose proof (ln_neg _ W). lra.
  - intros P. assert (1 < a / b) by (apply (Rmult_lt_reg_r b); lra). rewrite adjust_id by lra. now apply ln_pos.
Qed.
Lemma log_ratio_exclusive o11 o12 o22 : exists x, calc_log_ratio o11 0 o12 o22 = Ok x /\ - (11 / 100000000000) <= x < 0.
Proof.
  unfold calc_log_ratio. destruct (Req_EM_T 0 0); [|lra]. cbn [rbind]. rewrite adjust_1, flog_ok by lra. eexists. split; [reflexivity|].
  pose proof ln_eps1. lra.
Qed.

(** ** Entropy *)
Lemma entropy_bounds (l : list R) : (forall v, In v l -> 0 <= v) -> sumR l = 1 ->
  exists e, entropy l = Ok e /\ 0 < e <= ln (INR (length l)) + 11 / 100000000000.
Proof.
  intros P S.
  assert (G : forall k l, 0 < k -> (forall v, In v l -> 0 <= v <= 1) ->
    exists e, entropy l = Ok e /\ 0 <= e /\ (0 < sumR l -> 0 < e) /\
      e <= sumR l * (11 / 100000000000 + ln k) + INR (length l) / k - sumR l).
  { intros k l' Hk. induction l' as [|v t IH]; intros Q; cbn [entropy sumR fold_right].
    - exists 0. split; [reflexivity|]. split; [lra|]. split; [lra|]. cbn. lra.
    - fold (sumR t). destruct IH as (e & E & E0 & E1 & E2); [intros; apply Q; now right|].
      assert (V : 0 <= v <= 1) by (apply Q; now left). pose proof (adjust_prob v V) as AP.
      rewrite flog_ok by lra. cbn [rbind]. rewrite E. cbn [rmap]. eexists. split; [reflexivity|].
      pose proof (ln_neg _ AP) as LN. set (a := adjust_val v) in *. split; [nra|]. split.
      { intros. destruct (Req_EM_T v 0) as [->|]; [rewrite Rmult_0_l; lra|].
        assert (0 <= e) by assumption. assert (0 < v) by lra. nra. }
      assert (T : - (v * ln a) <= v * (11 / 100000000000 + ln k) + 1 / k - v).
      { destruct (Req_EM_T v 0) as [->|V0].
        - assert (0 < 1 / k) by (apply div_pos; lra). lra.
        - assert (VP : 0 < v) by lra. pose proof (ln_adjust_close v VP) as C. fold a in C. apply Rabs_le_inv in C.
          assert (KP : 0 < 1 / k) by (apply div_pos; lra). pose proof (gibbs_term v (1 / k) ltac:(lra) KP) as GT.
          replace (v / (1 / k)) with (v * k) in GT by (field; lra). rewrite ln_mult in GT by lra. nra. }
      change (length (v :: t)) with (Datatypes.S (length t)). rewrite S_INR. replace ((INR (length t) + 1) / k) with (INR (length t) / k + 1 / k) by (field; lra). lra. }
  assert (P1 : forall v, In v l -> 0 <= v <= 1).
  { intros v Hv. split; [now apply P|]. rewrite <- S. clear S. induction l as [|w t IH]; [easy|]. cbn [sumR fold_right]. fold (sumR t).
    assert (0 <= sumR t). { clear - P. induction t as [|x t IH]; cbn [sumR fold_right]; [lra|]. fold (sumR t).
      assert (0 <= x) by (apply P; right; now left). assert (0 <= sumR t); [|lra]. apply IH. intros v [->|Hv]; apply P; [now left|right; now right]. }
    destruct Hv as [->|Hv]; [lra|]. assert (0 <= w) by (apply P; now left).
    assert (v <= sumR t); [|lra]. apply IH; [intros; apply P; now right|assumption]. }
  assert (L : 0 < INR (length l)). { apply lt_0_INR. destruct l; [cbn in S; lra|cbn; lia]. }
  destruct (G (INR (length l)) l L P1) as (e & E & _ & E1 & E2). exists e. split; [assumption|]. split; [apply E1; lra|].
  rewrite S in E2. replace (INR (length l) / INR (length l)) with 1 in E2 by (field; lra). lra.
Qed.
