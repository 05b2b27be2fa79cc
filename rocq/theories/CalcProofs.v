(** * Properties of the association measures. *)
From Coq Require Import String NArith ZArith Bool Arith Reals Lra Lia Psatz List.
From Verif Require Import Base BaseLemmas VocabModel MxModel CalcModel.
Import ListNotations.
Local Open Scope R_scope.

Notation eps := (1 / 10000000000).
Notation eps1 := (9999999999 / 10000000000).

Lemma fdiv_ok a b : b <> 0 -> fdiv a b = Ok (a / b).
Proof. unfold fdiv. destruct (Req_EM_T b 0); [contradiction|reflexivity]. Qed.
Lemma flog_ok x : 0 < x -> flog x = Ok (ln x).
Proof. unfold flog. destruct (Rlt_dec 0 x); [reflexivity|contradiction]. Qed.
Lemma fsqrt_ok x : 0 <= x -> fsqrt x = Ok (sqrt x).
Proof. unfold fsqrt. destruct (Rle_dec 0 x); [reflexivity|contradiction]. Qed.
Lemma adjust_id v : v <> 0 -> v <> 1 -> adjust_val v = v.
Proof. unfold adjust_val. destruct (Req_EM_T v 0); [contradiction|]. destruct (Req_EM_T v 1); [contradiction|reflexivity]. Qed.
Lemma adjust_0 : adjust_val 0 = eps.
Proof. unfold adjust_val. destruct (Req_EM_T 0 0); [reflexivity|contradiction]. Qed.
Lemma adjust_1 : adjust_val 1 = eps1.
Proof. unfold adjust_val. destruct (Req_EM_T 1 0); [lra|]. destruct (Req_EM_T 1 1); [reflexivity|contradiction]. Qed.
Lemma adjust_pos v : 0 <= v -> 0 < adjust_val v.
Proof. intros. unfold adjust_val. destruct (Req_EM_T v 0); [lra|]. destruct (Req_EM_T v 1); lra. Qed.
Lemma adjust_prob v : 0 <= v <= 1 -> 0 < adjust_val v < 1.
Proof. intros. unfold adjust_val. destruct (Req_EM_T v 0); [lra|]. destruct (Req_EM_T v 1); lra. Qed.

(** ** Facts about ln *)
Lemma ln_le_pred x : 0 < x -> ln x <= x - 1.
Proof.
  intros H. pose proof (exp_ineq1_le (ln x)) as E. rewrite exp_ln in E by assumption. lra.
Qed.
Lemma ln_ge x : 0 < x -> 1 - / x <= ln x.
Proof.
  intros H. pose proof (ln_le_pred (/ x) (Rinv_0_lt_compat _ H)) as E. rewrite ln_Rinv in E by assumption. lra.
Qed.
Lemma ln_div x y : 0 < x -> 0 < y -> ln (x / y) = ln x - ln y.
Proof. intros. unfold Rdiv. rewrite ln_mult, ln_Rinv; auto using Rinv_0_lt_compat; lra. Qed.
Lemma ln_pos x : 1 < x -> 0 < ln x.
Proof. intros. rewrite <- ln_1. apply ln_increasing; lra. Qed.
Lemma ln_neg x : 0 < x < 1 -> ln x < 0.
Proof. intros. rewrite <- ln_1. apply ln_increasing; lra. Qed.
Lemma ln_nonpos x : 0 < x <= 1 -> ln x <= 0.
Proof. intros H. pose proof (ln_le_pred x (proj1 H)). lra. Qed.
Lemma ln_mono x y : 0 < x <= y -> ln x <= ln y.
Proof. intros [H [L| ->]]; [left; now apply ln_increasing|lra]. Qed.
Lemma ln_eps1 : - (11 / 100000000000) <= ln eps1 <= - eps.
Proof.
  split; [|pose proof (ln_le_pred eps1 ltac:(lra)); lra].
  pose proof (ln_ge eps1 ltac:(lra)) as H. replace (/ eps1) with (10000000000 / 9999999999) in H by field. lra.
Qed.
Lemma div_pos a b : 0 < a -> 0 < b -> 0 < a / b.
Proof. intros. apply Rdiv_lt_0_compat; assumption. Qed.
Lemma div_le_1 a b : a <= b -> 0 < b -> a / b <= 1.
Proof. intros. apply (Rmult_le_reg_r b); [assumption|]. unfold Rdiv. rewrite Rmult_assoc, Rinv_l, Rmult_1_r by lra. lra. Qed.
Lemma div_nonneg a b : 0 <= a -> 0 < b -> 0 <= a / b.
Proof. intros. apply Rmult_le_pos; [assumption|]. left. now apply Rinv_0_lt_compat. Qed.

(** ** Dice, Delta-P, chi square *)
Section Tables.
  Variables o11 o21 o12 o22 : R.
  Hypothesis P11 : 0 <= o11. Hypothesis P21 : 0 <= o21. Hypothesis P12 : 0 <= o12. Hypothesis P22 : 0 <= o22.

  Lemma dice_bounds : 0 < o11 + o12 \/ 0 < o11 + o21 -> exists d, calc_dice o11 o21 o12 o22 = Ok d /\ 0 <= d <= 1 /\ (d = 1 <-> o12 = 0 /\ o21 = 0) /\ (d = 0 <-> o11 = 0).
  Proof.
    intros M. unfold calc_dice. rewrite fdiv_ok by lra. eexists. split; [reflexivity|].
    assert (Q : 0 < (o11 + o12) + (o11 + o21)) by lra. split; [split; [apply div_nonneg; lra|apply div_le_1; lra]|].
    split; split.
    - intros E. assert (2 * o11 = (o11 + o12) + (o11 + o21)).
      { apply (f_equal (fun z => z * ((o11 + o12) + (o11 + o21)))) in E. unfold Rdiv in E. rewrite Rmult_assoc, Rinv_l in E by lra. lra. }
      lra.
    - intros [-> ->]. field. lra.
    - intros E. apply (f_equal (fun z => z * ((o11 + o12) + (o11 + o21)))) in E. unfold Rdiv in E. rewrite Rmult_assoc, Rinv_l in E by lra. lra.
    - intros ->. field. lra.
  Qed.
  Lemma deltap_bounds : 0 < o11 + o12 -> 0 < o21 + o22 -> exists d, calc_deltap o11 o21 o12 o22 = Ok d /\ -1 <= d <= 1 /\
    (0 < d <-> (o11 + o12) * (o11 + o21) < o11 * (o11 + o21 + o12 + o22)).
  Proof.
    intros R1 R2. unfold calc_deltap. rewrite !fdiv_ok by lra. cbn [rbind]. eexists. split; [reflexivity|].
    assert (A : 0 <= o11 / (o11 + o12) <= 1) by (split; [apply div_nonneg; lra|apply div_le_1; lra]).
    assert (B : 0 <= o21 / (o21 + o22) <= 1) by (split; [apply div_nonneg; lra|apply div_le_1; lra]).
    split; [lra|]. replace (o11 / (o11 + o12) - o21 / (o21 + o22)) with ((o11 * o22 - o21 * o12) / ((o11 + o12) * (o21 + o22))) by (field; lra).
    assert (Q : 0 < (o11 + o12) * (o21 + o22)) by nra. split.
    - intros H. assert (0 < o11 * o22 - o21 * o12); [|nra].
      apply (Rmult_lt_compat_r _ _ _ Q) in H. unfold Rdiv in H. rewrite Rmult_assoc, Rinv_l in H by lra. lra.
    - intros H. apply div_pos; nra.
  Qed.
  Lemma deltap_coll_bounds : 0 < o11 + o21 -> 0 < o12 + o22 -> exists d, calc_deltap_coll o11 o21 o12 o22 = Ok d /\ -1 <= d <= 1 /\
    (0 < d <-> (o11 + o12) * (o11 + o21) < o11 * (o11 + o21 + o12 + o22)).
  Proof.
    intros R1 R2. unfold calc_deltap_coll. rewrite !fdiv_ok by lra. cbn [rbind]. eexists. split; [reflexivity|].
    assert (A : 0 <= o11 / (o11 + o21) <= 1) by (split; [apply div_nonneg; lra|apply div_le_1; lra]).
    assert (B : 0 <= o12 / (o12 + o22) <= 1) by (split; [apply div_nonneg; lra|apply div_le_1; lra]).
    split; [lra|]. replace (o11 / (o11 + o21) - o12 / (o12 + o22)) with ((o11 * o22 - o21 * o12) / ((o11 + o21) * (o12 + o22))) by (field; lra).
    assert (Q : 0 < (o11 + o21) * (o12 + o22)) by nra. split.
    - intros H. assert (0 < o11 * o22 - o21 * o12); [|nra].
      apply (Rmult_lt_compat_r _ _ _ Q) in H. unfold Rdiv in H. rewrite Rmult_assoc, Rinv_l in H by lra. lra.
    - intros H. apply div_pos; nra.
  Qed.
  Lemma chisq_bounds : 0 < o11 + o21 -> 0 < o11 + o12 -> 0 < o21 + o22 -> 0 < o12 + o22 ->
    exists x, calc_chisq o11 o21 o12 o22 = Ok x /\ 0 <= x <= o11 + o21 + o12 + o22 /\
      (x = 0 <-> o11 * (o11 + o21 + o12 + o22) = (o11 + o12) * (o11 + o21)).
  Proof.
    intros C1 R1 R2 C2. unfold calc_chisq. set (N := o11 + o21 + o12 + o22). set (D := (o11 + o21) * (o11 + o12) * (o21 + o22) * (o12 + o22)).
    assert (QD : 0 < D) by (unfold D; repeat apply Rmult_lt_0_compat; assumption). assert (QN : 0 < N) by (unfold N; lra).
    rewrite fdiv_ok by lra. eexists. split; [reflexivity|]. set (w := (o11 * o22 - o21 * o12)).
    assert (W : 0 <= w ^ 2) by apply pow2_ge_0.
    assert (WD : w ^ 2 <= D).
    { unfold w, D.
      assert (M : forall a b c d, 0 <= a -> 0 <= b -> 0 <= c -> 0 <= d -> 0 <= a * b * c * d) by (intros; repeat apply Rmult_le_pos; assumption).
      pose proof (M o11 o11 o21 o12). pose proof (M o11 o11 o21 o22). pose proof (M o11 o11 o12 o22).
      pose proof (M o11 o12 o21 o21). pose proof (M o11 o12 o12 o21). pose proof (M o11 o12 o21 o22).
      pose proof (M o11 o22 o21 o21). pose proof (M o11 o22 o22 o21). pose proof (M o11 o22 o12 o12). pose proof (M o11 o22 o22 o12).
      pose proof (M o21 o21 o12 o22). pose proof (M o12 o12 o21 o22). pose proof (M o21 o12 o22 o22). pose proof (M o11 o21 o12 o22).
      lra. }
    split; [split|].
    - apply div_nonneg; [|assumption]. apply Rmult_le_pos; lra.
    - apply (Rmult_le_reg_r D); [assumption|]. unfold Rdiv. rewrite Rmult_assoc, Rinv_l, Rmult_1_r by lra. apply Rmult_le_compat_l; lra.
    - assert (K : w = o11 * N - (o11 + o12) * (o11 + o21)) by (unfold w, N; ring). split.
      + intros E. apply (f_equal (fun z => z * D)) in E. unfold Rdiv in E. rewrite Rmult_assoc, Rinv_l, Rmult_1_r, Rmult_0_l in E by lra.
        apply Rmult_integral in E as [E|E]; [lra|]. replace (w ^ 2) with (w * w) in E by ring. apply Rmult_integral in E. lra.
      + intros E. replace w with 0 by lra. field. lra.
  Qed.
  (** z-score: Err only without margins; its sign compares the count with the expected count. *)
  Lemma zscore_sign : 0 < o11 + o21 -> 0 < o11 + o12 -> exists z, calc_zscore o11 o21 o12 o22 = Ok z /\
    (0 < z <-> (o11 + o12) * (o11 + o21) < o11 * (o11 + o21 + o12 + o22)) /\
    (z = 0 <-> (o11 + o12) * (o11 + o21) = o11 * (o11 + o21 + o12 + o22)).
  Proof.
    intros C1 R1. unfold calc_zscore. rewrite fdiv_ok by lra. cbn [rbind]. set (N := o11 + o21 + o12 + o22). assert (QN : 0 < N) by (unfold N; lra).
    set (e := (o11 + o21) * (o11 + o12) / N). assert (Qe : 0 < e) by (apply div_pos; [nra|assumption]).
    rewrite fsqrt_ok by lra. cbn [rbind]. assert (Qs : 0 < sqrt e) by now apply sqrt_lt_R0. rewrite fdiv_ok by lra. eexists. split; [reflexivity|].
    assert (EN : e * N = (o11 + o21) * (o11 + o12)) by (unfold e; field; lra).
    assert (K : (o11 - e) / sqrt e * sqrt e = o11 - e) by (field; lra).
    split; split.
    - intros H. assert (0 < o11 - e) by (rewrite <- K; now apply Rmult_lt_0_compat). nra.
    - intros H. apply div_pos; [|assumption]. nra.
    - intros H. rewrite H, Rmult_0_l in K. nra.
    - intros H. assert (o11 - e = 0) as E by nra. rewrite E. field. lra.
  Qed.
End Tables.
