(** * Claims about several processes and the settings of clustering: C58 (exact outcome), C176 and C177. *)
From Coq Require Import String NArith ZArith QArith Bool Arith Permutation Sorted Lia List.
From Verif Require Import Base BaseLemmas Str CbcModel CbcSpec CbcMoreProofs CbcProps CbcOrdModel CbcOrdSpec CbcOrdProofs.
Import ListNotations.
Local Open Scope nat_scope.

(** ** C58: what is left of the tasks when a process takes several: exactly the last one of each process *)
Theorem C58_exact : forall cse m elements sched r, m <> 0 -> step1_multicore cse m elements sched r ->
  exists L, r = Ok L /\ Permutation L (flat_map (fun t => step1 cse (nth t (data_group m elements) [])) (last_tasks sched)).
Proof. exact @multicore_exact. Qed.
Print Assumptions C58_exact.
(** The clusters are those of the single version exactly when the overwritten tasks found none. *)
Theorem C58_same_iff : forall cse m elements sched L, m <> 0 -> step1_multicore cse m elements sched (Ok L) ->
  (Permutation L (step1 cse elements) <-> forall t, t < m -> ~ In t (last_tasks sched) -> step1 cse (nth t (data_group m elements) []) = []).
Proof. exact @multicore_same_iff. Qed.
Print Assumptions C58_same_iff.
Example C58_exact_ex : exists L, step1_multicore ex_cse 3 [b; c; d] [(0, 11); (2, 12); (1, 11)] (Ok L) /\
  last_tasks [(0, 11); (2, 12); (1, 11)] = [2; 1] /\ L = [((1 # 2)%Q, [d; a]); ((1 # 2)%Q, [c; a])].
Proof.
  eexists. split; [split; [|eexists; split; [apply perm_swap|reflexivity]]|]; [|split; reflexivity]. cbn. apply perm_skip, perm_swap.
Qed.

(** ** C176: one recursion with and without several processes *)
(** Missing: processes with several tasks, a single CPU, and different clusters with equal scores. *)
Theorem C176_same_partial : forall cse argsort csim esim mxrows elements s cpus multicore sched eles r,
  2 <= cpus -> NoDup (map snd sched) ->
  (forall rows, major_rows mxrows elements eles = Ok rows -> told_by_score (step1 (step1_call cse s rows) eles)) ->
  recursion cse argsort csim esim mxrows elements s cpus multicore sched eles r ->
  recursion cse argsort csim esim mxrows elements s cpus false sched eles r.
Proof. exact @recursion_same. Qed.
Print Assumptions C176_same_partial.
(** The single version is a function. *)
Theorem C176_single : forall cse argsort csim esim mxrows elements s cpus sched eles r,
  recursion cse argsort csim esim mxrows elements s cpus false sched eles r <->
  r = rbind (major_rows mxrows elements eles) (fun rows =>
    major_steps argsort csim esim mxrows elements (s_theta1 s) (s_theta2 s) (step1 (step1_call cse s rows) eles) eles).
Proof. exact @recursion_single. Qed.
Print Assumptions C176_single.
(** What the order of the clusters is does not matter as long as scores tell them apart. *)
Theorem C176_order_partial : forall argsort csim esim mxrows elements t1 t2 L L' eles, Permutation L L' -> told_by_score L ->
  major_steps argsort csim esim mxrows elements t1 t2 L eles = major_steps argsort csim esim mxrows elements t1 t2 L' eles.
Proof. exact @major_order. Qed.
Print Assumptions C176_order_partial.
(** Fewer elements than CPUs: no processes are used. *)
Theorem C176_small : forall cse argsort csim esim mxrows elements s cpus multicore sched eles r, length eles < cpus ->
  (recursion cse argsort csim esim mxrows elements s cpus multicore sched eles r <->
   recursion cse argsort csim esim mxrows elements s cpus false sched eles r).
Proof. exact @recursion_small. Qed.
Print Assumptions C176_small.
(** The whole of CBC.cluster: [multi] and [single] are the outcomes of its recursions. *)
Theorem C176_cluster_partial : forall cse argsort csim esim mxrows elements s cpus sched multi single num_iter num_eles, 2 <= cpus ->
  (forall i eles, NoDup (map snd (sched i eles)) /\ (forall rows, major_rows mxrows elements eles = Ok rows -> told_by_score (step1 (step1_call cse s rows) eles))) ->
  (forall i eles, recursion cse argsort csim esim mxrows elements s cpus true (sched i eles) eles (multi i eles)) ->
  (forall i eles, recursion cse argsort csim esim mxrows elements s cpus false (sched i eles) eles (single i eles)) ->
  cluster multi num_iter elements num_eles = cluster single num_iter elements num_eles.
Proof.
  intros * C H M S1. apply cluster_ext. intros i eles. destruct (H i eles) as [N T]. specialize (M i eles). specialize (S1 i eles).
  apply C176_same_partial in M; auto. apply C176_single in M, S1. congruence.
Qed.
Print Assumptions C176_cluster_partial.
Definition set0 (highest : bool) : cbc_settings := Settings 100 (1 # 2) (1 # 2) (u "distance") (TStr (u "median")) (u "without_size") highest (-1).
(** Neighbours a and b, and c and d, with different scores *)
Definition cse_pairs (eles : list pystr) (k : Q) (p : pystr) (t : thr) (m : pystr) (h : bool) (e : pystr) : res (list scored) :=
  Ok (if mem e [a; b] then [((9 # 10)%Q, [a; b])] else [((4 # 5)%Q, [c; d])]).
(** The same with equal scores *)
Definition cse_ties (eles : list pystr) (k : Q) (p : pystr) (t : thr) (m : pystr) (h : bool) (e : pystr) : res (list scored) :=
  Ok (if mem e [a; b] then [((9 # 10)%Q, [a; b])] else [((9 # 10)%Q, [c; d])]).
Definition four : list pystr := [a; c; b; d].
Example C176_ex : told_by_score (step1 (step1_call cse_pairs (set0 false) four) four) /\
  recursion cse_pairs argsort_std ex_csim ex_esim four four (set0 false) 3 true [(1, 12); (0, 11)] four (Ok ([[a; b]; [c; d]], [])) /\
  recursion cse_pairs argsort_std ex_csim ex_esim four four (set0 false) 3 false [] four (Ok ([[a; b]; [c; d]], [])).
Proof.
  split; [|split].
  - intros x y Ix Iy _. vm_compute in Ix, Iy. destruct Ix as [<-|[<-|[<-|[<-|[]]]]], Iy as [<-|[<-|[<-|[<-|[]]]]]; cbn [fst snd]; intros E; try reflexivity; discriminate E.
  - eexists. split; [|shelve]. cbn [step1_of andb Nat.sub length four Nat.ltb Nat.leb]. split; [apply perm_swap|]. eexists. split; [reflexivity|reflexivity].
    Unshelve. vm_compute. reflexivity.
  - apply C176_single. vm_compute. reflexivity.
Qed.
(** Full statement: the committees do not depend on the use of several processes. *)
Definition multicore_agrees : Prop := forall cse argsort csim esim mxrows elements s cpus sched eles r, 2 <= cpus -> NoDup (map snd sched) ->
  recursion cse argsort csim esim mxrows elements s cpus true sched eles r ->
  recursion cse argsort csim esim mxrows elements s cpus false sched eles r.
(** Two pairs of equal score, found once for each element: the single version meets them in turn and drops both, the
    processes meet each pair twice in a row and keep both. *)
Theorem C176_ties_refuted : ~ multicore_agrees.
Proof.
  intros H. specialize (H cse_ties argsort_std ex_csim ex_esim four four (set0 false) 3 [(0, 11); (1, 12)] four (Ok ([[a; b]; [c; d]], []))).
  assert (M : recursion cse_ties argsort_std ex_csim ex_esim four four (set0 false) 3 true [(0, 11); (1, 12)] four (Ok ([[a; b]; [c; d]], []))).
  { eexists. split; [|shelve]. cbn [step1_of andb Nat.sub length four Nat.ltb Nat.leb]. split; [reflexivity|]. eexists. split; [reflexivity|reflexivity].
    Unshelve. vm_compute. reflexivity. }
  apply H in M; [|lia|repeat constructor; cbn; intuition discriminate]. apply C176_single in M. vm_compute in M. discriminate.
Qed.
Print Assumptions C176_ties_refuted.
(** The single version finds no committees at all in that case. *)
Theorem C176_ties_single_refuted : recursion cse_ties argsort_std ex_csim ex_esim four four (set0 false) 3 false [] four (Err ValueError).
Proof. apply C176_single. vm_compute. reflexivity. Qed.
Print Assumptions C176_ties_single_refuted.
(** On a machine with one CPU the default multicore=True fails for every element list. *)
Theorem C176_one_cpu_refuted : forall cse argsort csim esim mxrows elements s sched e eles r,
  recursion cse argsort csim esim mxrows elements s 1 true sched (e :: eles) r ->
  r = Err (match major_rows mxrows elements (e :: eles) with Ok _ => ZeroDivisionError | Err _ => AttributeError end).
Proof. exact @recursion_one_cpu. Qed.
Print Assumptions C176_one_cpu_refuted.

(** ** C177: the settings highest_score and workers *)
(** Nothing but k, theta1, theta2, prune_method, t and score_metric has an effect. *)
Theorem C177_ignored : forall cse argsort csim esim mxrows elements s s' cpus multicore sched eles r,
  s_k s = s_k s' -> s_theta1 s = s_theta1 s' -> s_theta2 s = s_theta2 s' -> s_prune s = s_prune s' -> s_t s = s_t s' -> s_metric s = s_metric s' ->
  (recursion cse argsort csim esim mxrows elements s cpus multicore sched eles r <->
   recursion cse argsort csim esim mxrows elements s' cpus multicore sched eles r).
Proof. exact @recursion_ignores. Qed.
Print Assumptions C177_ignored.
(** How the settings are used *)
Theorem C177_used : forall cse argsort csim esim mxrows elements s cpus sched eles r,
  recursion cse argsort csim esim mxrows elements s cpus false sched eles r <->
  r = rbind (major_rows mxrows elements eles) (fun rows =>
    let k := if Qlt_le_dec (s_k s) 1 then inject_Z (Z.quot (Qnum (s_k s) * Z.of_nat (length rows)) (Zpos (Qden (s_k s)))) else s_k s in
    major_steps argsort csim esim mxrows elements (s_theta1 s) (s_theta2 s) (step1 (cse rows k (s_prune s) (s_t s) (s_metric s) false) eles) eles).
Proof.
  intros *. rewrite recursion_single. destruct (major_rows mxrows elements eles) as [rows|e]; cbn [rbind]; [|reflexivity]. unfold step1_call, num_similar.
  destruct (s_k s) as [n q]. cbn [Qnum Qden Qmult inject_Z]. rewrite Pos.mul_1_r. unfold qlt. destruct (Qlt_le_dec (n # q) 1) as [L|L].
  - replace (Qle_bool 1 (n # q)) with false; [reflexivity|]. symmetry. apply not_true_iff_false. intros C. apply Qle_bool_iff in C. eapply Qlt_not_le; eauto.
  - apply Qle_bool_iff in L. rewrite L. reflexivity.
Qed.
Print Assumptions C177_used.
(** k of one and more is used as it is; below one it is a share of the rows, rounded towards zero. *)
Theorem C177_share : forall k n, (forall (z : Z), (1 <= inject_Z z)%Q -> num_similar (inject_Z z) n = inject_Z z) /\
  (forall p q, k = (Z.of_nat p # q)%Q -> (k < 1)%Q -> num_similar k n = inject_Z (Z.of_nat (p * n / Pos.to_nat q))).
Proof.
  intros k n. split.
  - intros z H. unfold num_similar. replace (qlt (inject_Z z) 1) with false; [reflexivity|]. symmetry. unfold qlt. apply negb_false_iff. now apply Qle_bool_iff.
  - intros p q -> H. unfold num_similar. replace (qlt (Z.of_nat p # q) 1) with true.
    + cbn [Qnum Qden Qmult inject_Z]. rewrite Pos.mul_1_r. rewrite Z.quot_div_nonneg by lia. rewrite <- Nat2Z.inj_mul, <- positive_nat_Z, <- Nat2Z.inj_div. reflexivity.
    + symmetry. unfold qlt. apply negb_true_iff. apply not_true_iff_false. intros C. apply Qle_bool_iff in C. eapply Qlt_not_le; eauto.
Qed.
Print Assumptions C177_share.
Example C177_share_ex : num_similar (1 # 4) 10 = inject_Z 2 /\ num_similar (inject_Z 3) 10 = inject_Z 3 /\ num_similar 1 10 = inject_Z 1.
Proof. repeat split; reflexivity. Qed.
(** Full statement: with highest_score one cluster is kept for each element. *)
Definition highest_used : Prop := forall cse argsort csim esim mxrows elements s cpus sched eles r, s_highest s = true ->
  recursion cse argsort csim esim mxrows elements s cpus false sched eles r ->
  r = rbind (major_rows mxrows elements eles) (fun rows => major_steps argsort csim esim mxrows elements (s_theta1 s) (s_theta2 s)
        (step1 (cse rows (num_similar (s_k s) (length rows)) (s_prune s) (s_t s) (s_metric s) true) eles) eles).
(** Two clusters for a, of which the highest is wanted *)
Definition cse_high (eles : list pystr) (k : Q) (p : pystr) (t : thr) (m : pystr) (h : bool) (e : pystr) : res (list scored) :=
  Ok (if h then [((9 # 10)%Q, [a; b])] else [((9 # 10)%Q, [a; b]); ((4 # 5)%Q, [c; d])]).
Theorem C177_highest_refuted : ~ highest_used.
Proof.
  intros H. specialize (H cse_high argsort_std ex_csim ex_esim four four (set0 true) 3 [] four (Ok ([[a; b]; [c; d]], [])) eq_refl).
  assert (M : recursion cse_high argsort_std ex_csim ex_esim four four (set0 true) 3 false [] four (Ok ([[a; b]; [c; d]], []))) by (apply C176_single; vm_compute; reflexivity).
  apply H in M. vm_compute in M. discriminate.
Qed.
Print Assumptions C177_highest_refuted.
