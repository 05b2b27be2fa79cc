(** * Lemmas about committee vectors. *)
From Coq Require Import String NArith ZArith Bool Arith Reals Permutation Sorted Lra Lia List.
From Verif Require Import Base BaseLemmas Str CalcModel CalcSpec CalcVecModel CalcVecSpec CalcVecProofs MxTtmProofs ComModel ComSpec.
Import ListNotations.
Local Open Scope string_scope.
Local Open Scope list_scope.
Local Open Scope R_scope.

Lemma meas_cell_ok t r T n : 0 <= t -> 0 <= r -> t <= T -> 0 < n -> meas_cell (u "ppmi") (T / n) n (t, r) = Ok (ideal_ppmi t T (t + r) n).
Proof.
  intros Ht Hr HT Hn. unfold meas_cell, ideal_ppmi, ideal_pmi. cbn [fst snd].
  destruct (Req_EM_T (t / n) 0) as [E|E].
  - assert (t = 0) as -> by (apply (Rmult_eq_reg_r (/ n)); [unfold Rdiv in E; lra | apply Rinv_neq_0_compat; lra]).
    destruct (Req_EM_T 0 0) as [_|C]; [|contradiction]. destruct (Rlt_dec 0 1); [|lra]. rewrite eqb_refl, ln_1.
    destruct (Rlt_dec 0 0); [lra|reflexivity].
  - assert (P : 0 < t). { destruct Ht as [P| <-]; [exact P|]. exfalso. apply E. unfold Rdiv. lra. }
    assert (Q : T / n * ((t + r) / n) <> 0).
    { apply Rmult_integral_contrapositive_currified; apply Rmult_integral_contrapositive_currified; try (apply Rinv_neq_0_compat); lra. }
    assert (X : t / n / (T / n * ((t + r) / n)) = t * n / (T * (t + r))) by (field; repeat split; lra).
    rewrite X. assert (Y : 0 < t * n / (T * (t + r))).
    { apply Rdiv_lt_0_compat; apply Rmult_lt_0_compat; lra. }
    destruct (Req_EM_T (t * n / (T * (t + r))) 0) as [Z0|_]; [lra|].
    destruct (Rlt_dec 0 (t * n / (T * (t + r)))) as [_|C]; [|contradiction]. rewrite eqb_refl.
    destruct (Rlt_dec 0 t); [|contradiction]. f_equal. unfold Rmax.
    destruct (Rlt_dec (ln (t * n / (T * (t + r)))) 0), (Rle_dec 0 (ln (t * n / (T * (t + r))))); lra.
Qed.

Lemma sumr_ge l x : (forall y, In y l -> 0 <= y) -> In x l -> x <= sumr l.
Proof.
  induction l as [|y l IH]; [contradiction|]. intros H [-> |I]; cbn.
  - assert (0 <= sumr l) by (apply sumr_nonneg; firstorder). unfold sumr in *. lra.
  - assert (x <= sumr l) by (apply IH; [firstorder|exact I]). assert (0 <= y) by (apply H; left; reflexivity). unfold sumr in *. lra.
Qed.

Definition nonneg (l : list R) : Prop := forall x, In x l -> 0 <= x.

Lemma meas_vec_some t r : length t = length r -> nonneg t -> nonneg r -> 0 < sumr t + sumr r ->
  calc_meas_vec t r (u "ppmi") =
    Ok (Some (map (fun tr => ideal_ppmi (fst tr) (sumr t) (fst tr + snd tr) (sumr t + sumr r)) (combine t r))).
Proof.
  intros Hl Ht Hr Hn. unfold calc_meas_vec. destruct (Req_EM_T (sumr t + sumr r) 0) as [C|_]; [lra|].
  rewrite (rmapm_map _ (fun tr => ideal_ppmi (fst tr) (sumr t) (fst tr + snd tr) (sumr t + sumr r))); [reflexivity|].
  intros [a b] I. cbn [fst snd]. apply meas_cell_ok; [apply Ht|apply Hr| |exact Hn].
  - exact (in_combine_l _ _ _ _ I).
  - exact (in_combine_r _ _ _ _ I).
  - apply sumr_ge; [exact Ht|exact (in_combine_l _ _ _ _ I)].
Qed.

Lemma combine_nth' {A B} (a : list A) (b : list B) i da db : length a = length b -> nth i (combine a b) (da, db) = (nth i a da, nth i b db).
Proof. apply combine_nth. Qed.

Theorem meas_vec_exact : forall t r, length t = length r -> (forall x, In x t -> 0 <= x) -> (forall x, In x r -> 0 <= x) ->
  (0 < sumr t + sumr r ->
     exists v, calc_meas_vec t r (u "ppmi") = Ok (Some v) /\ length v = length t /\
       forall i, (i < length t)%nat ->
         nth i v 0 = ideal_ppmi (nth i t 0) (sumr t) (nth i t 0 + nth i r 0) (sumr t + sumr r) /\ 0 <= nth i v 0) /\
  (sumr t + sumr r = 0 -> calc_meas_vec t r (u "ppmi") = Ok None) /\
  (forall meas, meas <> u "ppmi" -> calc_meas_vec t r meas = Ok (Some (repeat 0 (length t)))).
Proof.
  intros t r Hl Ht Hr. split; [|split].
  - intros Hn. eexists. split; [apply meas_vec_some; assumption|]. rewrite map_length, combine_length, <- Hl, Nat.min_id.
    split; [reflexivity|]. intros i Hi.
    rewrite (nth_map' _ _ _ (0, 0)) by (rewrite combine_length, <- Hl, Nat.min_id; exact Hi). rewrite combine_nth' by exact Hl. cbn [fst snd].
    split; [reflexivity|]. unfold ideal_ppmi. destruct (Rlt_dec 0 (nth i t 0)); [apply Rmax_l|lra].
  - intros Hn. unfold calc_meas_vec. destruct (Req_EM_T (sumr t + sumr r) 0) as [_|C]; [|contradiction]. rewrite eqb_refl. reflexivity.
  - intros meas Hm. assert (E : eqb meas (u "ppmi") = false) by (apply eqb_neq; exact Hm).
    assert (Z0 : forall l : list R, map (fun _ => 0) l = repeat 0 (length l)) by (intros l; induction l as [|x l IH]; cbn; [reflexivity|rewrite IH; reflexivity]).
    destruct (Req_EM_T (sumr t + sumr r) 0) as [C|C].
    + unfold calc_meas_vec. destruct (Req_EM_T (sumr t + sumr r) 0) as [_|D]; [|contradiction]. rewrite E, Z0. reflexivity.
    + assert (P : 0 < sumr t + sumr r) by (pose proof (sumr_nonneg t Ht); pose proof (sumr_nonneg r Hr); lra).
      unfold calc_meas_vec. destruct (Req_EM_T (sumr t + sumr r) 0) as [D|_]; [contradiction|].
      rewrite (rmapm_map _ (fun _ => 0)).
      * cbn [rmap]. f_equal. f_equal. rewrite <- Z0. revert r Hl Ht Hr C P. clear. induction t as [|x t IH]; intros [|y r] Hl; try discriminate; [reflexivity|].
        intros. cbn [combine map]. f_equal. clear - Hl. cbn in Hl. injection Hl as Hl. revert r Hl. induction t as [|z t IH]; intros [|w r] Hl; try discriminate; [reflexivity|]. cbn. f_equal. apply IH. cbn in Hl. lia.
      * intros [a b] I. pose proof (meas_cell_ok a b (sumr t) (sumr t + sumr r) (Ht a (in_combine_l _ _ _ _ I)) (Hr b (in_combine_r _ _ _ _ I))
          (sumr_ge t a Ht (in_combine_l _ _ _ _ I)) P) as M.
        unfold meas_cell in M |- *. rewrite E. rewrite eqb_refl in M.
        destruct (Rlt_dec 0 _) in M |- *; [reflexivity|discriminate].
Qed.

(** ** The rows of a cluster *)
Lemma rmapm_rows (data : dense) cl : (forall i, In i cl -> (i < length data)%nat) ->
  rmapm (fun i => match nth_error data i with Some r => Ok r | None => Err IndexError end) cl = Ok (map (fun i => nth i data []) cl).
Proof.
  intros H. apply rmapm_map. intros i I. rewrite (nth_error_nth' data [] (H i I)). reflexivity.
Qed.
Lemma rmapm_rows_err (data : dense) cl : (exists i, In i cl /\ (length data <= i)%nat) ->
  rmapm (fun i => match nth_error data i with Some r => Ok r | None => Err IndexError end) cl = Err IndexError.
Proof.
  induction cl as [|c cl IH]; intros (i & I & Hi); [contradiction|]. cbn [rmapm].
  destruct (nth_error data c) eqn:E.
  - cbn [rbind]. rewrite IH; [reflexivity|]. destruct I as [-> |I]; [|exists i; auto].
    apply nth_error_None in Hi. rewrite Hi in E. discriminate.
  - reflexivity.
Qed.
Lemma col_sum_pick data cl j : col_sum (map (fun i => nth i data []) cl) j = sum_over cl (fun i => cell data i j).
Proof. unfold col_sum, sum_over, cell. rewrite map_map. reflexivity. Qed.
Lemma col_sum_all data j : col_sum data j = sum_over (seq 0 (length data)) (fun i => cell data i j).
Proof.
  unfold col_sum, sum_over, cell. f_equal. rewrite <- (map_map (fun i => nth i data []) (fun r => nth j r 0)). f_equal.
  apply nth_ext with (d := []) (d' := []); [rewrite map_length, seq_length; reflexivity|]. intros n Hn.
  rewrite (nth_map' _ _ _ 0%nat) by (rewrite seq_length; exact Hn). rewrite seq_nth by exact Hn. reflexivity.
Qed.
Lemma sum_over_perm a b f : Permutation a b -> sum_over a f = sum_over b f.
Proof. intros P. unfold sum_over. apply sumr_perm, Permutation_map, P. Qed.
Lemma sum_over_app a b f : sum_over (a ++ b) f = sum_over a f + sum_over b f.
Proof. unfold sum_over. rewrite map_app. apply sumr_app. Qed.
Lemma sum_over_ext l f g : (forall i, In i l -> f i = g i) -> sum_over l f = sum_over l g.
Proof. intros H. unfold sum_over. f_equal. apply map_ext_in, H. Qed.

Lemma cluster_split f cl : a_cluster f cl -> Permutation (seq 0 (length f)) (cl ++ others f cl).
Proof.
  intros (_ & ND & B). apply NoDup_Permutation.
  - apply seq_NoDup.
  - apply NoDup_app'; [exact ND|apply NoDup_filter, seq_NoDup|]. intros x I J. apply filter_In in J. destruct J as [_ J].
    apply mem_In in I. rewrite I in J. discriminate.
  - intros x. rewrite in_app_iff. unfold others. rewrite filter_In, in_seq. split.
    + intros H. destruct (mem x cl) eqn:E; [left; apply mem_In; exact E|right; split; [lia|reflexivity]].
    + intros [H|[H _]]; [apply B in H; lia|lia].
Qed.
Lemma rest_eq f cl j : a_cluster f cl -> col_sum f j - sum_over cl (fun i => cell f i j) = rest_at f cl j.
Proof.
  intros H. rewrite col_sum_all, (sum_over_perm _ _ _ (cluster_split f cl H)), sum_over_app. unfold rest_at. lra.
Qed.

Lemma vsub_map (f g : nat -> R) l : vsub (map f l) (map g l) = map (fun j => f j - g j) l.
Proof. unfold vsub. induction l as [|x l IH]; cbn; [reflexivity|rewrite IH; reflexivity]. Qed.

Lemma committee_parts m f cl : a_cluster f cl ->
  committee_vec m f cl = calc_meas_vec (map (mean_at f cl) (seq 0 m)) (map (rest_at f cl) (seq 0 m)) (u "ppmi").
Proof.
  intros H. pose proof H as (N0 & ND & B). unfold committee_vec, centroid_of_cluster, sum_of_cluster, rows_of, pick_rows.
  destruct cl as [|c0 cl']; [contradiction|]. set (cl := c0 :: cl') in *. rewrite (rmapm_rows f cl B). cbn [rmap rbind].
  assert (E : col_means m (map (fun i => nth i f []) cl) = Some (map (mean_at f cl) (seq 0 m))).
  { unfold col_means. unfold cl at 1. cbn [map]. f_equal. unfold col_sums. rewrite map_map. apply map_ext. intros j.
    change (nth c0 f [] :: map (fun i => nth i f []) cl') with (map (fun i => nth i f []) cl).
    rewrite map_length, col_sum_pick. reflexivity. }
  rewrite E. f_equal. unfold col_sums. rewrite vsub_map. apply map_ext. intros j. rewrite col_sum_pick. apply rest_eq, H.
Qed.

Lemma cell_nonneg m f i j : freq_table m f -> 0 <= cell f i j.
Proof.
  intros H. unfold cell. destruct (Nat.lt_ge_cases i (length f)) as [Hi|Hi].
  - destruct (H (nth i f []) (nth_In _ _ Hi)) as [L P]. destruct (Nat.lt_ge_cases j m) as [Hj|Hj].
    + apply P, nth_In. lia.
    + rewrite nth_overflow by lia. lra.
  - rewrite (nth_overflow f) by exact Hi. destruct j; cbn; lra.
Qed.
Lemma sum_over_nonneg l f : (forall i, In i l -> 0 <= f i) -> 0 <= sum_over l f.
Proof. intros H. apply sumr_nonneg. intros x I. apply in_map_iff in I. destruct I as (i & <- & I). apply H, I. Qed.
Lemma INR_pos_len {A} (l : list A) : l <> [] -> 0 < INR (length l).
Proof. intros H. destruct l; [contradiction|]. apply lt_0_INR. cbn. lia. Qed.
Lemma mean_nonneg m f cl j : freq_table m f -> cl <> [] -> 0 <= mean_at f cl j.
Proof.
  intros H N0. unfold mean_at, Rdiv. apply Rmult_le_pos; [apply sum_over_nonneg; intros; eapply cell_nonneg, H|].
  left. apply Rinv_0_lt_compat, INR_pos_len, N0.
Qed.
Lemma rest_nonneg m f cl j : freq_table m f -> 0 <= rest_at f cl j.
Proof. intros H. apply sum_over_nonneg. intros. eapply cell_nonneg, H. Qed.

Lemma sum_over_swap a b (f : nat -> nat -> R) : sum_over a (fun i => sum_over b (f i)) = sum_over b (fun j => sum_over a (fun i => f i j)).
Proof.
  induction a as [|x a IH]; unfold sum_over in *; cbn.
  - induction b as [|y b IHb]; cbn; [reflexivity|]. unfold sumr in *. cbn. rewrite <- IHb. lra.
  - fold (sumr (map (fun i => sumr (map (f i) b)) a)). rewrite IH. clear IH.
    induction b as [|y b IHb]; cbn; [lra|]. fold (sumr (map (f x) b)) in *. unfold sumr in *. cbn in *. lra.
Qed.
Lemma sum_over_div l f k : sum_over l (fun j => f j / k) = sum_over l f / k.
Proof. unfold sum_over, Rdiv. rewrite Rmult_comm, <- sumr_scale. f_equal. apply map_ext. intros. lra. Qed.

Lemma total_split m f cl : a_cluster f cl ->
  table_total m f = INR (length cl) * sum_over (seq 0 m) (mean_at f cl) + sum_over (seq 0 m) (rest_at f cl).
Proof.
  intros H. unfold table_total. rewrite sum_over_swap, (sum_over_ext _ _ (fun j => sum_over cl (fun i => cell f i j) + rest_at f cl j)).
  - unfold mean_at. rewrite sum_over_div. assert (INR (length cl) <> 0) by (pose proof (INR_pos_len cl (proj1 H)); lra).
    rewrite <- (Rmult_comm (_ / _)). unfold Rdiv. rewrite Rmult_assoc, Rinv_l, Rmult_1_r by assumption.
    generalize (seq 0 m). intros l. induction l as [|x l IH]; unfold sum_over in *; cbn; [lra|]. unfold sumr in *. cbn in *. lra.
  - intros j _. rewrite <- (rest_eq f cl j H), col_sum_all. lra.
Qed.
Lemma parts_total m f cl : freq_table m f -> a_cluster f cl -> 0 < table_total m f ->
  0 < sum_over (seq 0 m) (mean_at f cl) + sum_over (seq 0 m) (rest_at f cl).
Proof.
  intros Hf Hc Ht. rewrite (total_split m f cl Hc) in Ht. pose proof (INR_pos_len cl (proj1 Hc)) as K.
  assert (A : 0 <= sum_over (seq 0 m) (mean_at f cl)) by (apply sum_over_nonneg; intros; eapply mean_nonneg; [exact Hf|exact (proj1 Hc)]).
  assert (B : 0 <= sum_over (seq 0 m) (rest_at f cl)) by (apply sum_over_nonneg; intros; eapply rest_nonneg; exact Hf).
  destruct A as [A|A]; [lra|]. rewrite <- A in Ht |- *. lra.
Qed.

Lemma map_combine2 {A B C D} (h : B * C -> D) (f : A -> B) (g : A -> C) l : map h (combine (map f l) (map g l)) = map (fun x => h (f x, g x)) l.
Proof. induction l as [|x l IH]; cbn; [reflexivity|rewrite IH; reflexivity]. Qed.

Lemma committee_some m f cl : freq_table m f -> 0 < table_total m f -> a_cluster f cl ->
  committee_vec m f cl = Ok (Some (map (committee_ppmi m f cl) (seq 0 m))).
Proof.
  intros Hf Ht Hc. rewrite committee_parts by exact Hc. rewrite meas_vec_some.
  - f_equal. f_equal. rewrite map_combine2. reflexivity.
  - rewrite !map_length. reflexivity.
  - intros x I. apply in_map_iff in I. destruct I as (j & <- & _). eapply mean_nonneg; [exact Hf|exact (proj1 Hc)].
  - intros x I. apply in_map_iff in I. destruct I as (j & <- & _). eapply rest_nonneg; exact Hf.
  - apply parts_total; assumption.
Qed.

(** ** calc_committee_vectors *)
Theorem committee_vectors_exact : forall m f comms, freq_table m f -> 0 < table_total m f -> Forall (a_cluster f) comms ->
  calc_committee_vectors m comms f = Ok (map (fun cl => Some (map (committee_ppmi m f cl) (seq 0 m))) comms).
Proof.
  intros m f comms Hf Ht Hc. unfold calc_committee_vectors. apply rmapm_map. intros cl I. rewrite Forall_forall in Hc. apply committee_some; auto.
Qed.

(** A committee of one element: the PPMI of the element's row in the table *)
Lemma sum_over_one i f : sum_over [i] f = f i.
Proof. unfold sum_over, sumr. cbn. lra. Qed.
Theorem committee_single : forall m f i j, (i < length f)%nat -> freq_table m f ->
  committee_ppmi m f [i] j =
    ideal_ppmi (cell f i j) (sum_over (seq 0 m) (cell f i)) (sum_over (seq 0 (length f)) (fun k => cell f k j)) (table_total m f).
Proof.
  intros m f i j Hi Hf. assert (Hc : a_cluster f [i]).
  { split; [discriminate|]. split; [constructor; [easy|constructor]|]. intros k [<- |[]]. exact Hi. }
  assert (E : forall k, mean_at f [i] k = cell f i k) by (intros k; unfold mean_at; rewrite sum_over_one; cbn; lra).
  unfold committee_ppmi. rewrite (total_split m f [i] Hc), E. rewrite (sum_over_ext (seq 0 m) (mean_at f [i]) (cell f i)) by (intros; apply E).
  rewrite <- (rest_eq f [i] j Hc), sum_over_one, col_sum_all. cbn [length]. replace (INR 1) with 1 by reflexivity. rewrite Rmult_1_l. f_equal. lra.
Qed.
Lemma others_perm f a b : Permutation a b -> others f a = others f b.
Proof.
  intros P. unfold others. apply filter_ext. intros i. f_equal. destruct (mem i a) eqn:A, (mem i b) eqn:B; try reflexivity.
  - apply mem_In in A. apply (Permutation_in _ P) in A. apply mem_In in A. congruence.
  - apply mem_In in B. apply (Permutation_in _ (Permutation_sym P)) in B. apply mem_In in B. congruence.
Qed.
(** The order of the members does not matter *)
Theorem committee_order : forall m f a b, a_cluster f a -> Permutation a b -> committee_vec m f a = committee_vec m f b.
Proof.
  intros m f a b Ha P. assert (Hb : a_cluster f b).
  { destruct Ha as (A1 & A2 & A3). split; [|split].
    - intros ->. apply A1, Permutation_nil, Permutation_sym, P.
    - exact (Permutation_NoDup P A2).
    - intros i I. apply A3, (Permutation_in _ (Permutation_sym P)), I. }
  rewrite !committee_parts by assumption. f_equal; apply map_ext; intros j.
  - unfold mean_at. rewrite (sum_over_perm _ _ _ P), (Permutation_length P). reflexivity.
  - unfold rest_at. rewrite (others_perm f a b P). reflexivity.
Qed.
(** Failures: an empty committee, and a position that is not a row *)
Theorem committee_fails : forall m f cl, cl = [] \/ (exists i, In i cl /\ (length f <= i)%nat) -> committee_vec m f cl = Err IndexError.
Proof.
  intros m f cl H. unfold committee_vec, centroid_of_cluster, rows_of, pick_rows. destruct cl as [|c cl]; [reflexivity|].
  destruct H as [H|H]; [discriminate|]. rewrite (rmapm_rows_err f _ H). reflexivity.
Qed.

(** ** cbc_step3_old: the clusters that are kept *)
Definition is_kept (sim : nat -> nat -> R) (theta : R) (C : list nat) (k : nat) : Prop :=
  Sorted lt C /\ (forall i, In i C -> (i < k)%nat) /\
  forall i, (i < k)%nat -> (In i C <-> forall j, (j < i)%nat -> In j C -> sim j i < theta).

Lemma sorted_snoc C x : Sorted lt C -> (forall i, In i C -> (i < x)%nat) -> Sorted lt (C ++ [x]).
Proof.
  induction 1 as [|y C SC IH HR]; intros B; cbn; [constructor; constructor|]. constructor.
  - apply IH. intros i I. apply B. right. exact I.
  - destruct C; cbn; constructor; [apply B; left; reflexivity|inversion HR; assumption].
Qed.
Lemma keep_step_kept a theta C k : is_kept (cell a) theta C k -> is_kept (cell a) theta (keep_step a theta C k) (S k).
Proof.
  intros (SC & B & K). unfold keep_step.
  destruct (existsb _ C) eqn:E.
  - apply existsb_exists in E. destruct E as (j & J & E). destruct (Rle_dec theta (cell a j k)) as [L0|]; [|discriminate].
    split; [exact SC|]. split; [intros i I; specialize (B i I); lia|]. intros i Hi. destruct (Nat.eq_dec i k) as [-> |Ne].
    + split; [intros I; specialize (B k I); lia|]. intros H. specialize (H j (B j J) J). lra.
    + apply K. lia.
  - assert (F : forall j, In j C -> cell a j k < theta).
    { intros j J. destruct (Rle_dec theta (cell a j k)) as [L0|L0]; [|lra]. exfalso.
      assert (X : existsb (fun j => if Rle_dec theta (cell a j k) then true else false) C = true).
      { apply existsb_exists. exists j. split; [exact J|]. destruct (Rle_dec theta (cell a j k)); [reflexivity|contradiction]. }
      rewrite E in X. discriminate. }
    split; [apply sorted_snoc; assumption|]. split.
    + intros i I. apply in_app_iff in I. destruct I as [I|[<- |[]]]; [specialize (B i I)|]; lia.
    + intros i Hi. destruct (Nat.eq_dec i k) as [-> |Ne].
      * split; [|intros _; apply in_app_iff; right; left; reflexivity]. intros _ j Hj J. apply in_app_iff in J.
        destruct J as [J|[J|[]]]; [apply F, J|lia].
      * assert (Hk : (i < k)%nat) by lia. specialize (K i Hk). split.
        -- intros I j Hj J. apply in_app_iff in I. apply in_app_iff in J. destruct I as [I|[I|[]]]; [|lia]. destruct J as [J|[J|[]]]; [|lia].
           apply (proj1 K I j Hj J).
        -- intros H. apply in_app_iff. left. apply K. intros j Hj J. apply H; [exact Hj|apply in_app_iff; left; exact J].
Qed.
Lemma keep_kept a theta : a <> [] -> is_kept (cell a) theta (keep a theta) (length a).
Proof.
  intros N0. unfold keep. assert (G : forall n, is_kept (cell a) theta (fold_left (keep_step a theta) (seq 1 n) [0%nat]) (S n)).
  { induction n as [|n IH].
    - cbn. split; [constructor; constructor|]. split; [intros i [<- |[]]; lia|]. intros i Hi. assert (i = 0)%nat as -> by lia.
      split; [intros _ j Hj; lia|intros _; left; reflexivity].
    - rewrite seq_S, fold_left_app. cbn [fold_left]. apply keep_step_kept. exact IH. }
  specialize (G (length a - 1)%nat). destruct a; [contradiction|]. cbn [length] in *. rewrite Nat.sub_succ, Nat.sub_0_r in *. exact G.
Qed.

Theorem step3_old_exact : forall m f lst theta, freq_table m f -> 0 < table_total m f -> Forall (fun sc => a_cluster f (snd sc)) lst -> lst <> [] ->
  let vec i := map (committee_ppmi m f (snd (nth i lst (0, [])))) (seq 0 m) in
  exists C, cbc_step3_old m lst f theta = Ok (map (fun i => nth i lst (0, [])) C, map vec C) /\
    Sorted lt C /\ (forall i, In i C -> (i < length lst)%nat) /\
    (forall i, (i < length lst)%nat -> (In i C <-> forall j, (j < i)%nat -> In j C -> cos_of (vec j) (vec i) < theta)).
Proof.
  intros m f lst theta Hf Ht Hc N0 vec. set (vecs := map (fun sc => map (committee_ppmi m f (snd sc)) (seq 0 m)) lst).
  assert (V : forall i, (i < length lst)%nat -> nth i vecs [] = vec i).
  { intros i Hi. unfold vecs, vec. rewrite (nth_map' _ _ _ (0, [])) by exact Hi. reflexivity. }
  exists (keep (cosine_similarity vecs) theta).
  assert (LN : length (cosine_similarity vecs) = length lst) by (rewrite cosine_length; unfold vecs; apply map_length).
  assert (K : is_kept (cell (cosine_similarity vecs)) theta (keep (cosine_similarity vecs) theta) (length lst)).
  { rewrite <- LN. apply keep_kept. intros E. rewrite E in LN. cbn in LN. destruct lst; [contradiction|discriminate]. }
  destruct K as (K1 & K2 & K3). split; [|split; [exact K1|split; [exact K2|]]].
  - unfold cbc_step3_old. rewrite committee_vectors_exact.
    + cbn [rbind]. rewrite map_map.
      assert (CC : checked_cosine (map (fun sc => Some (map (committee_ppmi m f (snd sc)) (seq 0 m))) lst) = Ok (cosine_similarity vecs)).
      { unfold checked_cosine. destruct lst as [|sc0 lst']; [contradiction|]. cbn [map]. 
        assert (X : forall l, rmapm (fun o : option (list R) => match o with Some v => Ok v | None => Err ValueError end) (map (fun sc : R * list nat => Some (map (committee_ppmi m f (snd sc)) (seq 0 m))) l)
                    = Ok (map (fun sc => map (committee_ppmi m f (snd sc)) (seq 0 m)) l)).
        { induction l as [|x l IH]; cbn [map rmapm]; [reflexivity|]. rewrite IH. reflexivity. }
        specialize (X (sc0 :: lst')). cbn [map] in X. rewrite X. reflexivity. }
      rewrite CC. cbn [rbind]. f_equal. f_equal. apply map_ext_in. intros i I. apply K2 in I.
      rewrite (nth_map' _ _ _ (0, [])) by exact I. reflexivity.
    + exact Hf.
    + exact Ht.
    + rewrite Forall_forall in Hc |- *. intros cl I. apply in_map_iff in I. destruct I as (sc & <- & I). apply Hc, I.
  - assert (LV : length vecs = length lst) by (unfold vecs; apply map_length).
    intros i Hi. rewrite (K3 i Hi). split; intros H j Hj J; specialize (H j Hj J).
    + rewrite cosine_cell in H by lia. rewrite (V j), (V i) in H by lia. exact H.
    + rewrite cosine_cell by lia. rewrite (V j), (V i) by lia. exact H.
Qed.
Theorem step3_old_empty : forall m f theta, cbc_step3_old m [] f theta = Err ValueError.
Proof. reflexivity. Qed.

(** ** reverse *)
Definition rev_step (lid : Z) (d : dict (Z * Z) (list nat)) (ic : nat * Z) : dict (Z * Z) (list nat) :=
  dset d (lid, snd ic) (match dget d (lid, snd ic) with Some l => l | None => [] end ++ [fst ic]).
Lemma reverse_fold lid l : forall d, dwf d ->
  dwf (fold_left (rev_step lid) l d) /\
  forall k, dget (fold_left (rev_step lid) l d) k =
    match filter (fun ic => eqb (lid, snd ic) k) l with
    | [] => dget d k
    | _ => Some (match dget d k with Some x => x | None => [] end ++ map fst (filter (fun ic => eqb (lid, snd ic) k) l)) end.
Proof.
  induction l as [|[i c] l IH]; intros d W; cbn [fold_left filter]; [split; [exact W|reflexivity]|].
  destruct (IH (rev_step lid d (i, c)) (dwf_dset _ _ _ W)) as [W' G]. split; [exact W'|]. intros k. rewrite G. unfold rev_step. cbn [fst snd].
  rewrite dget_dset. destruct (eqdec k (lid, c)) as [E|E].
  - subst k. rewrite eqb_refl. destruct (filter _ l) eqn:F; cbn [map fst]; [reflexivity|]. rewrite <- app_assoc. reflexivity.
  - assert (X : eqb (lid, c) k = false) by (apply eqb_neq; congruence). rewrite X. reflexivity.
Qed.

Lemma positions_filter (fcids : list Z) c : forall s,
  map fst (filter (fun ic => (snd ic =? c)%Z) (combine (seq s (length fcids)) fcids)) = filter (fun i => (nth (i - s) fcids 0 =? c)%Z) (seq s (length fcids)).
Proof.
  induction fcids as [|x l IH]; intros s; [reflexivity|]. cbn [length seq combine filter]. rewrite Nat.sub_diag. change (nth 0 (x :: l) 0%Z) with x. cbn [snd].
  assert (E : filter (fun i => (nth (i - s) (x :: l) 0 =? c)%Z) (seq (S s) (length l)) = filter (fun i => (nth (i - S s) l 0 =? c)%Z) (seq (S s) (length l))).
  { apply filter_ext_in. intros i I. apply in_seq in I. replace (i - s)%nat with (S (i - S s)) by lia. reflexivity. }
  destruct (x =? c)%Z; cbn [map fst]; rewrite IH, E; reflexivity.
Qed.
Theorem reverse_exact : forall fcids lid,
  dwf (reverse_ids fcids lid) /\
  (forall c, dget (reverse_ids fcids lid) (lid, c) =
     if mem c fcids then Some (filter (fun i => (nth i fcids 0 =? c)%Z) (seq 0 (length fcids))) else None) /\
  (forall lid' c, lid' <> lid -> dget (reverse_ids fcids lid) (lid', c) = None).
Proof.
  intros fcids lid. change (reverse_ids fcids lid) with (fold_left (rev_step lid) (combine (seq 0 (length fcids)) fcids) []).
  destruct (reverse_fold lid (combine (seq 0 (length fcids)) fcids) []) as [W G]; [constructor|]. split; [exact W|]. split.
  - intros c. rewrite G. rewrite (filter_ext (fun ic : nat * Z => eqb (lid, snd ic) (lid, c)) (fun ic => (snd ic =? c)%Z)).
    + pose proof (positions_filter fcids c 0) as P. rewrite (filter_ext _ (fun i => (nth i fcids 0 =? c)%Z)) in P by (intros; rewrite Nat.sub_0_r; reflexivity).
      destruct (mem c fcids) eqn:M.
      * apply mem_In in M. destruct (filter (fun ic : nat * Z => (snd ic =? c)%Z) _) eqn:F.
        -- exfalso. destruct (In_nth _ _ 0%Z M) as (i & Hi & <-).
           assert (X : In i (filter (fun j => (nth j fcids 0 =? nth i fcids 0)%Z) (seq 0 (length fcids)))).
           { apply filter_In. split; [apply in_seq; lia|apply Z.eqb_refl]. }
           rewrite <- P in X. contradiction.
        -- rewrite <- P. reflexivity.
      * destruct (filter (fun ic : nat * Z => (snd ic =? c)%Z) _) as [|[i x] l] eqn:F; [reflexivity|]. exfalso.
        assert (X : In (i, x) (filter (fun ic : nat * Z => (snd ic =? c)%Z) (combine (seq 0 (length fcids)) fcids))) by (rewrite F; left; reflexivity).
        apply filter_In in X. destruct X as [X E]. cbn in E. apply Z.eqb_eq in E. subst x. apply in_combine_r in X. apply mem_In in X. congruence.
    + intros [i x]. cbn [snd]. destruct (Z.eqb_spec x c) as [-> |Ne]; [apply eqb_refl|]. apply eqb_neq. congruence.
  - intros lid' c Ne. rewrite G. rewrite (filter_ext _ (fun _ => false)).
    + assert (X : forall l : list (nat * Z), filter (fun _ => false) l = []) by (induction l; auto). rewrite X. reflexivity.
    + intros [i x]. apply eqb_neq. congruence.
Qed.
Corollary reverse_partition : forall fcids lid i, (i < length fcids)%nat ->
  forall k, (exists l, dget (reverse_ids fcids lid) k = Some l /\ In i l) <-> k = (lid, nth i fcids 0%Z).
Proof.
  intros fcids lid i Hi [a c]. destruct (reverse_exact fcids lid) as (_ & G & H). split.
  - intros (l & E & I). destruct (Z.eq_dec a lid) as [-> |Ne]; [|rewrite H in E by exact Ne; discriminate].
    rewrite G in E. destruct (mem c fcids); [|discriminate]. injection E as <-. apply filter_In in I. destruct I as [_ I].
    apply Z.eqb_eq in I. congruence.
  - injection 1 as -> ->. rewrite G. assert (M : mem (nth i fcids 0%Z) fcids = true) by (apply mem_In, nth_In, Hi). rewrite M.
    eexists. split; [reflexivity|]. apply filter_In. split; [apply in_seq; lia|apply Z.eqb_refl].
Qed.
