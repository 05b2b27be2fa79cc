(** * Claims about committee vectors and the first version of step 3 (C146-C149). *)
From Coq Require Import String NArith ZArith Bool Arith Reals Permutation Sorted Lra Lia List.
From Verif Require Import Base BaseLemmas Str CalcModel CalcSpec CalcVecModel CalcVecSpec CalcVecProofs ComModel ComSpec ComProofs.
Import ListNotations.
Local Open Scope string_scope.
Local Open Scope list_scope.
Local Open Scope R_scope.

(** ** C146: the PPMI of one row against another *)
Theorem C146_meas_vec : forall t r, length t = length r -> (forall x, In x t -> 0 <= x) -> (forall x, In x r -> 0 <= x) ->
  (0 < sumr t + sumr r ->
     exists v, calc_meas_vec t r (u "ppmi") = Ok (Some v) /\ length v = length t /\
       forall i, (i < length t)%nat ->
         nth i v 0 = ideal_ppmi (nth i t 0) (sumr t) (nth i t 0 + nth i r 0) (sumr t + sumr r) /\ 0 <= nth i v 0) /\
  (sumr t + sumr r = 0 -> calc_meas_vec t r (u "ppmi") = Ok None) /\
  (forall meas, meas <> u "ppmi" -> calc_meas_vec t r meas = Ok (Some (repeat 0 (length t)))).
Proof. exact @meas_vec_exact. Qed.
Print Assumptions C146_meas_vec.
Example C146_ex : calc_meas_vec [4; 0; 1] [0; 4; 3] (u "ppmi") = Ok (Some [ln (48 / 20); 0; 0]) /\
  calc_meas_vec [4; 0; 1] [0; 4; 3] (u "pmi") = Ok (Some [0; 0; 0]) /\ calc_meas_vec [0; 0] [0; 0] (u "ppmi") = Ok None.
Proof.
  assert (P : forall x, In x [4; 0; 1] -> 0 <= x) by (cbn; intros x; intuition lra).
  assert (Q : forall x, In x [0; 4; 3] -> 0 <= x) by (cbn; intros x; intuition lra).
  split; [|split].
  - rewrite meas_vec_some; [|reflexivity|exact P|exact Q|cbn; lra]. cbn [combine map fst snd]. unfold ideal_ppmi, ideal_pmi.
    repeat f_equal.
    + destruct (Rlt_dec 0 4); [|lra]. replace (4 * (sumr [4; 0; 1] + sumr [0; 4; 3]) / (sumr [4; 0; 1] * (4 + 0))) with (48 / 20) by (cbn; field).
      apply Rmax_right. rewrite <- ln_1. left. apply ln_increasing; lra.
    + destruct (Rlt_dec 0 0); lra.
    + destruct (Rlt_dec 0 1); [|lra]. replace (1 * (sumr [4; 0; 1] + sumr [0; 4; 3]) / (sumr [4; 0; 1] * (1 + 3))) with (12 / 20) by (cbn; field).
      apply Rmax_left. rewrite <- ln_1. left. apply ln_increasing; lra.
  - apply (C146_meas_vec [4; 0; 1] [0; 4; 3]); auto. discriminate.
  - apply (C146_meas_vec [0; 0] [0; 0]); [reflexivity|cbn; intros x; intuition lra|cbn; intros x; intuition lra|cbn; lra].
Qed.

(** ** C147: the rows of the committee matrix *)
Theorem C147_committees : forall m f comms, freq_table m f -> 0 < table_total m f -> Forall (a_cluster f) comms ->
  calc_committee_vectors m comms f = Ok (map (fun cl => Some (map (committee_ppmi m f cl) (seq 0 m))) comms).
Proof. exact @committee_vectors_exact. Qed.
Print Assumptions C147_committees.
Theorem C147_single : forall m f i j, (i < length f)%nat -> freq_table m f ->
  committee_ppmi m f [i] j =
    ideal_ppmi (cell f i j) (sum_over (seq 0 m) (cell f i)) (sum_over (seq 0 (length f)) (fun k => cell f k j)) (table_total m f).
Proof. exact @committee_single. Qed.
Print Assumptions C147_single.
Theorem C147_order : forall m f a b, a_cluster f a -> Permutation a b -> committee_vec m f a = committee_vec m f b.
Proof. exact @committee_order. Qed.
Print Assumptions C147_order.
Theorem C147_failures : forall m f cl, cl = [] \/ (exists i, In i cl /\ (length f <= i)%nat) -> committee_vec m f cl = Err IndexError.
Proof. exact @committee_fails. Qed.
Print Assumptions C147_failures.

Definition ex_f : dense := [[4; 0]; [0; 4]; [2; 2]].
Lemma ex_f_table : freq_table 2 ex_f.
Proof. intros row [<- |[<- |[<- |[]]]]; (split; [reflexivity|]); cbn; intros x; intuition lra. Qed.
Lemma ex_f_total : table_total 2 ex_f = 12. Proof. unfold table_total, sum_over, cell, sumr. cbn. lra. Qed.
Lemma ex_cluster l : l = [0%nat] \/ l = [1%nat] \/ l = [2; 0]%nat -> a_cluster ex_f l.
Proof.
  intros H. split; [|split].
  - destruct H as [-> |[-> | ->]]; discriminate.
  - destruct H as [-> |[-> | ->]]; repeat constructor; cbn; intuition discriminate.
  - intros i I. destruct H as [-> |[-> | ->]]; cbn in *; intuition lia.
Qed.
Lemma max_ln x : 1 <= x -> Rmax 0 (ln x) = ln x.
Proof. intros H. apply Rmax_right. destruct H as [H| <-]; [rewrite <- ln_1; left; apply ln_increasing; lra|rewrite ln_1; lra]. Qed.
Lemma ex_vec0 : map (committee_ppmi 2 ex_f [0%nat]) (seq 0 2) = [ln 2; 0].
Proof.
  cbn [map seq]. rewrite !(C147_single 2 ex_f 0) by (cbn; try lia; exact ex_f_table). rewrite ex_f_total.
  unfold sum_over, cell, sumr, ideal_ppmi, ideal_pmi. cbn. repeat f_equal.
  - destruct (Rlt_dec 0 4); [|lra]. replace (4 * 12 / ((4 + (0 + 0)) * (4 + (0 + (2 + 0))))) with 2 by field. apply max_ln. lra.
  - destruct (Rlt_dec 0 0); lra.
Qed.
Lemma ex_vec1 : map (committee_ppmi 2 ex_f [1%nat]) (seq 0 2) = [0; ln 2].
Proof.
  cbn [map seq]. rewrite !(C147_single 2 ex_f 1) by (cbn; try lia; exact ex_f_table). rewrite ex_f_total.
  unfold sum_over, cell, sumr, ideal_ppmi, ideal_pmi. cbn. repeat f_equal.
  - destruct (Rlt_dec 0 0); lra.
  - destruct (Rlt_dec 0 4); [|lra]. replace (4 * 12 / ((0 + (4 + 0)) * (0 + (4 + (2 + 0))))) with 2 by field. apply max_ln. lra.
Qed.
(** The committee of rows 2 and 0: mean row (3, 1) against the other row (0, 4) *)
Lemma ex_vec20 : map (committee_ppmi 2 ex_f [2; 0]%nat) (seq 0 2) = [ln 2; 0].
Proof.
  cbn [map seq]. unfold committee_ppmi, rest_at. change (others ex_f [2; 0]%nat) with [1%nat]. unfold mean_at, sum_over, cell, sumr. cbn [map seq fold_right length].
  unfold ideal_ppmi, ideal_pmi. cbn [nth ex_f]. replace (INR 2) with 2 by reflexivity. f_equal; [|f_equal].
  - destruct (Rlt_dec 0 _); [|lra]. match goal with |- Rmax 0 (ln ?x) = _ => replace x with 2 by field end. apply max_ln. lra.
  - destruct (Rlt_dec 0 _); [|lra]. match goal with |- Rmax 0 (ln ?x) = _ => replace x with (2 / 5) by field end.
    apply Rmax_left. rewrite <- ln_1. left. apply ln_increasing; lra.
Qed.
Example C147_ex : calc_committee_vectors 2 [[0]; [1]; [2; 0]]%nat ex_f = Ok [Some [ln 2; 0]; Some [0; ln 2]; Some [ln 2; 0]] /\
  calc_committee_vectors 2 [[0]; []]%nat ex_f = Err IndexError /\ calc_committee_vectors 2 [[0; 3]]%nat ex_f = Err IndexError.
Proof.
  assert (T : 0 < table_total 2 ex_f) by (rewrite ex_f_total; lra).
  split; [|split].
  - rewrite C147_committees; [|exact ex_f_table|exact T|repeat (apply Forall_cons; [apply ex_cluster; auto|]); apply Forall_nil].
    cbn [map]. rewrite <- ex_vec0 at 1. rewrite <- ex_vec1. rewrite <- ex_vec20. reflexivity.
  - unfold calc_committee_vectors. cbn [rmapm]. rewrite committee_some; [|exact ex_f_table|exact T|apply ex_cluster; auto].
    rewrite (C147_failures 2 ex_f []) by auto. reflexivity.
  - unfold calc_committee_vectors. cbn [rmapm]. rewrite (C147_failures 2 ex_f [0; 3]%nat); [reflexivity|]. right. exists 3%nat. cbn. auto.
Qed.

(** ** C148: the committees kept by cbc_step3_old *)
Theorem C148_kept : forall m f lst theta, freq_table m f -> 0 < table_total m f -> Forall (fun sc => a_cluster f (snd sc)) lst -> lst <> [] ->
  let vec i := map (committee_ppmi m f (snd (nth i lst (0, [])))) (seq 0 m) in
  exists C, cbc_step3_old m lst f theta = Ok (map (fun i => nth i lst (0, [])) C, map vec C) /\
    Sorted lt C /\ (forall i, In i C -> (i < length lst)%nat) /\
    (forall i, (i < length lst)%nat -> (In i C <-> forall j, (j < i)%nat -> In j C -> cos_of (vec j) (vec i) < theta)).
Proof. exact @step3_old_exact. Qed.
Print Assumptions C148_kept.
Theorem C148_empty : forall m f theta, cbc_step3_old m [] f theta = Err ValueError.
Proof. exact @step3_old_empty. Qed.
Print Assumptions C148_empty.
Lemma ex_ln2 : ln 2 <> 0.
Proof. assert (0 < ln 2) by (rewrite <- ln_1; apply ln_increasing; lra). lra. Qed.
Lemma ex_norm : norm2 [ln 2; 0] <> 0.
Proof. intros E. apply norm2_zero in E. inversion E as [|x l A B]. apply ex_ln2, A. Qed.
(** The committee of rows 2 and 0 has the vector of the first one and is left out. *)
Example C148_ex : cbc_step3_old 2 [(9, [0%nat]); (8, [2; 0]%nat); (7, [1%nat])] ex_f (1 / 2) = Ok ([(9, [0%nat]); (7, [1%nat])], [[ln 2; 0]; [0; ln 2]]).
Proof.
  set (lst := [(9, [0%nat]); (8, [2; 0]%nat); (7, [1%nat])]).
  destruct (C148_kept 2 ex_f lst (1 / 2)) as (C & E & SC & B & K); [exact ex_f_table|rewrite ex_f_total; lra|repeat (apply Forall_cons; [apply ex_cluster; auto|]); apply Forall_nil|discriminate|].
  assert (I0 : In 0%nat C) by (apply K; [cbn; lia|]; intros j Hj; lia).
  assert (I1 : ~ In 1%nat C).
  { intros I. apply (K 1%nat) with (j := 0%nat) in I; [|cbn; lia|lia|exact I0]. unfold lst in I. cbn [nth snd] in I.
    rewrite ex_vec0, ex_vec20, cos_self in I by exact ex_norm. lra. }
  assert (I2 : In 2%nat C).
  { apply K; [cbn; lia|]. intros j Hj J. assert (j = 0%nat) as -> by (destruct j as [|[|j]]; [reflexivity|contradiction|lia]).
    unfold lst. cbn [nth snd]. rewrite ex_vec0, ex_vec1. unfold cos_of, dot. cbn. destruct (Req_EM_T _ 0); [lra|]. destruct (Req_EM_T _ 0); [lra|].
    unfold Rdiv. replace (ln 2 * 0 + (0 * ln 2 + 0)) with 0 by lra. lra. }
  assert (EC : C = [0; 2]%nat).
  { assert (ND : NoDup C) by (apply Sorted_StronglySorted in SC; [|intros x y z; lia]; clear - SC; induction SC as [|a l S0 IH F]; constructor; [|exact IH]; intros I; rewrite Forall_forall in F; specialize (F _ I); lia).
    apply Sorted_StronglySorted in SC; [|intros x y z; lia].
    assert (X : forall x, In x C -> x = 0%nat \/ x = 2%nat). { intros x I. pose proof (B x I) as Bx. cbn in Bx. destruct x as [|[|[|x]]]; auto; [contradiction|lia]. }
    clear - SC ND X I0 I2. destruct C as [|a [|b [|c C]]].
    - contradiction.
    - destruct I0 as [I0|[]], I2 as [I2|[]]. lia.
    - inversion SC as [|? ? _ F]; subst. inversion F; subst. destruct (X a); [left; reflexivity| |]; destruct (X b); [right; left; reflexivity| | |right; left; reflexivity| |]; try (subst; reflexivity); lia.
    - inversion ND as [|? ? N1 N2]; subst. inversion N2 as [|? ? N3 N4]; subst. cbn in *.
      destruct (X a), (X b), (X c); auto; subst; exfalso; intuition. }
  fold lst. rewrite E, EC. cbn [map]. f_equal. f_equal. unfold lst. cbn [nth snd]. rewrite ex_vec0, ex_vec1. reflexivity.
Qed.

(** ** C149: clusters of one level *)
Theorem C149_reverse : forall fcids lid,
  dwf (reverse_ids fcids lid) /\
  (forall c, dget (reverse_ids fcids lid) (lid, c) =
     if mem c fcids then Some (filter (fun i => (nth i fcids 0 =? c)%Z) (seq 0 (length fcids))) else None) /\
  (forall lid' c, lid' <> lid -> dget (reverse_ids fcids lid) (lid', c) = None).
Proof. exact @reverse_exact. Qed.
Print Assumptions C149_reverse.
Theorem C149_partition : forall fcids lid i, (i < length fcids)%nat ->
  forall k, (exists l, dget (reverse_ids fcids lid) k = Some l /\ In i l) <-> k = (lid, nth i fcids 0%Z).
Proof. exact @reverse_partition. Qed.
Print Assumptions C149_partition.
Example C149_ex : reverse_ids [1; 2; 1; 3; 2]%Z 4 = [((4, 1)%Z, [0; 2]%nat); ((4, 2)%Z, [1; 4]%nat); ((4, 3)%Z, [3]%nat)].
Proof. vm_compute. reflexivity. Qed.
