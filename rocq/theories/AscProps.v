(** * Claims about association measures with default arguments: C168, C169. *)
From Coq Require Import String NArith ZArith Bool Arith Reals Lra Lia List.
From Verif Require Import Base BaseLemmas VocabModel MxModel MxSpec MxProofs CalcModel CalcSpec CalcProofs CalcProofs2 CalcVecModel AscModel AscSpec AscProofs.
Import ListNotations.
Local Open Scope nat_scope.

(** ** C168 *)
(** With the total of the matrix and its own sums: the measure of the table made of the cell, the rest of its column, the rest of
    its row and all other cells, for every stored cell of a matrix with several rows and columns. *)
Theorem C168_own_sums : forall (m : sp Z) meas f, spwf m -> nrows m <> 1 -> ncols m <> 1 -> dget func_dict meas = Some f ->
  (forall i j, stored m i j -> exists x, own_table f m i j = Ok x) ->
  exists s, association m None None (Some (sum_where m (fun _ => true))) meas = Ok s /\ spwf s /\ nrows s = nrows m /\ ncols s = ncols m /\
    (forall i j, stored s i j <-> stored m i j) /\ forall i j, stored m i j -> own_table f m i j = Ok (spget s i j).
Proof.
  intros m meas f W N1 N2 F H. assert (E : sum_where m (fun _ => true) = sp_sum m).
  { rewrite sum_where_pick by assumption. unfold sp_sum, pick. do 2 f_equal. clear. induction (entries m) as [|e l IH]; [reflexivity|]. cbn. now rewrite IH. }
  rewrite E. destruct (own_ok m meas f W N1 N2 F H) as [s Es]. exists s. split; [exact Es|]. exact (own_cells m meas f s W N1 N2 F Es).
Qed.
Print Assumptions C168_own_sums.
(** Given arrays and a total: what compute_association computes (C35, C36). *)
Theorem C168_given : forall m rsum csum N meas, association m (Some rsum) (Some csum) (Some N) meas = calc_association m rsum csum N meas.
Proof. exact given_same. Qed.
Print Assumptions C168_given.
(** Without a total every matrix with a stored cell fails, whatever the measure; the exception depends on the shape. *)
Theorem C168_no_total : forall (m : sp Z) nf cf meas f, spwf m -> dget func_dict meas = Some f -> entries m <> [] ->
  (forall l, nf = Some l -> length l = nrows m) -> (forall l, cf = Some l -> length l = ncols m) ->
  association m nf cf None meas =
    Err (if (match nf with None => nrows m =? 1 | _ => false end) || (match cf with None => ncols m =? 1 | _ => false end) then IndexError else TypeError).
Proof. exact no_total. Qed.
Print Assumptions C168_no_total.
(** With its own sums a matrix of one row or one column fails, whatever the total. *)
Theorem C168_single_line : forall (m : sp Z) nf cf N meas f, dget func_dict meas = Some f -> entries m <> [] -> (forall l, nf = Some l -> length l = nrows m) -> spwf m ->
  (nf = None /\ nrows m = 1) \/ (cf = None /\ ncols m = 1) -> association m nf cf N meas = Err IndexError.
Proof. exact single_line. Qed.
Print Assumptions C168_single_line.
Theorem C168_nothing_stored : forall (m : sp Z) nf cf N meas f, dget func_dict meas = Some f -> entries m = [] ->
  exists s, association m nf cf N meas = Ok s /\ nrows s = nrows m /\ ncols s = ncols m /\ forall i j, spget s i j = 0%R.
Proof. exact nothing_stored. Qed.
Print Assumptions C168_nothing_stored.
Theorem C168_unknown : forall (m : sp Z) nf cf N meas, ~ In meas (dkeys func_dict) -> association m nf cf N meas = Err NotImplementedError.
Proof. intros m nf cf N meas H. unfold association. destruct (dget func_dict meas) eqn:E; [|reflexivity]. exfalso. apply H. eapply dget_Some_key. exact E. Qed.
Print Assumptions C168_unknown.

(** The example: [[3, 1], [., 4]]. *)
Definition am : sp Z := Sp Csr [[(0, 3%Z); (1, 1%Z)]; [(1, 4%Z)]] 2.
Lemma am_wf : spwf am.
Proof. repeat constructor; cbn; intuition discriminate. Qed.
Lemma am_dice : forall i j, stored am i j -> exists x, own_table calc_dice am i j = Ok x.
Proof.
  intros i j S. vm_compute in S. unfold own_table, calc_dice.
  destruct S as [E|[E|[E|[]]]]; injection E as <- <-; match goal with |- exists x, fdiv (2 * IZR ?a) (IZR ?a + IZR ?b + (IZR ?a + IZR ?c)) = Ok x =>
    let a' := eval vm_compute in a in let b' := eval vm_compute in b in let c' := eval vm_compute in c in
    change (exists x, fdiv (2 * IZR a') (IZR a' + IZR b' + (IZR a' + IZR c')) = Ok x) end; eexists; apply fdiv_ok; lra.
Qed.
Example C168_ex : spwf am /\ nrows am <> 1 /\ ncols am <> 1 /\ dget func_dict (u "dice") = Some calc_dice /\ entries am <> [] /\
  (forall i j, stored am i j -> exists x, own_table calc_dice am i j = Ok x) /\
  sum_where am (fun _ => true) = 8%Z /\ own_table (fun a b c d => (a, b, c, d)) am 0 1 = (IZR 1, IZR 4, IZR 3, IZR 0).
Proof.
  split; [exact am_wf|]. split; [discriminate|]. split; [discriminate|]. split; [reflexivity|]. split; [discriminate|]. split; [exact am_dice|]. split; [reflexivity|].
  unfold own_table. repeat f_equal.
Qed.
(** The documentation: nfreq, cfreq and N may be left out.  They may not. *)
Theorem C168_defaults_refuted : ~ (forall (m : sp Z) meas f, spwf m -> dget func_dict meas = Some f ->
  (forall i j, stored m i j -> exists x, own_table f m i j = Ok x) -> exists s, association m None None None meas = Ok s).
Proof. intros H. destruct (H am (u "dice") calc_dice am_wf eq_refl am_dice) as [s E]. discriminate. Qed.
Print Assumptions C168_defaults_refuted.

(** ** C169 *)
(** pairwise_association: the measures of calc_association by name, except llik. *)
Theorem C169_pairwise : forall o11 o21 o12 o22 meas f, dget func_dict meas = Some f -> meas <> u "llik" -> pairwise_association o11 o21 o12 o22 meas = f o11 o21 o12 o22.
Proof.
  intros o11 o21 o12 o22 meas f E N. unfold pairwise_association.
  pose proof (dget_Some_key func_dict meas f E) as I. cbn [func_dict dkeys map fst] in I.
  repeat (destruct I as [<- |I]; [first [vm_compute in E; injection E as <-; reflexivity|contradiction N; reflexivity]|]). destruct I.
Qed.
Print Assumptions C169_pairwise.
(** Mutual information to the base of 2: no smoothing, so that tables without co-occurrence fail. *)
Theorem C169_mi : forall o11 o21 o12 o22, let N := (o11 + o21 + o12 + o22)%R in (0 < N -> 0 < o11 + o12 -> 0 < o11 + o21 -> 0 < o11 ->
  calc_mi o11 o21 o12 o22 = Ok (ideal_pmi o11 (o11 + o12) (o11 + o21) N / ln 2) /\
  exists p, calc_pmi o11 o21 o12 o22 = Ok p /\ Rabs (p - ideal_pmi o11 (o11 + o12) (o11 + o21) N) <= 22 / 100000000000)%R.
Proof. intros o11 o21 o12 o22 N HN H1 H2 H. split; [now apply mi_value|now apply pmi_close]. Qed.
Print Assumptions C169_mi.
Theorem C169_mi_errors : forall o11 o21 o12 o22, (o11 = 0 -> 0 < o21 -> 0 < o12 -> 0 <= o22 -> calc_mi o11 o21 o12 o22 = Err ValueError)%R /\
  ((o11 + o21 = 0 \/ o11 + o12 = 0 \/ o11 + o21 + o12 + o22 = 0)%R -> calc_mi o11 o21 o12 o22 = Err ZeroDivisionError).
Proof. intros o11 o21 o12 o22. split; [intros ->; apply mi_zero|apply mi_no_margin]. Qed.
Print Assumptions C169_mi_errors.
(** The constructor of CBC with given matrices keeps them, and computes distances from the measures if none are given. *)
Theorem C169_cbc : forall {D} (pairwise : sp R -> pystr -> res D) freqmx mx d workers cpus,
  cbc_init pairwise freqmx (Some mx) (Some d) workers cpus = Ok {| c_freq := freqmx; c_meas := mx; c_dist := d; c_workers := if (0 <? workers)%Z then workers else (cpus - 1)%Z |} /\
  cbc_init pairwise freqmx (Some mx) None workers cpus = rbind (pairwise mx (u "cosine")) (fun d => cbc_init pairwise freqmx (Some mx) (Some d) workers cpus).
Proof. intros. split; [reflexivity|]. unfold cbc_init, calc_distance. cbn [rbind]. destruct (pairwise mx (u "cosine")); reflexivity. Qed.
Print Assumptions C169_cbc.
(** Its documentation: measmx is optional.  Without it nothing can be built, unless the matrix stores nothing. *)
Theorem C169_cbc_refuted : forall {D} (pairwise : sp R -> pystr -> res D) freqmx distmx workers cpus, spwf freqmx -> entries freqmx <> [] ->
  cbc_init pairwise freqmx None distmx workers cpus = Err (if (nrows freqmx =? 1) || (ncols freqmx =? 1) then IndexError else TypeError).
Proof. intros D pairwise freqmx distmx workers cpus W E. unfold cbc_init. rewrite (no_total freqmx None None (u "ppmi") calc_ppmi W eq_refl E) by discriminate. reflexivity. Qed.
Print Assumptions C169_cbc_refuted.
(** "llik can be used for a single table as for a matrix": it cannot. *)
Theorem C169_llik_refuted : dget func_dict (u "llik") = Some calc_lik /\ forall o11 o21 o12 o22, pairwise_association o11 o21 o12 o22 (u "llik") = Err NotImplementedError.
Proof. split; reflexivity. Qed.
Print Assumptions C169_llik_refuted.
(** TypeVectorizer.vectorize never gives vectors. *)
Theorem C169_vectorize_refuted : forall freqmx meas m, vectorize freqmx meas <> Ok m.
Proof. intros [?|] meas m; discriminate. Qed.
Print Assumptions C169_vectorize_refuted.
Example C169_ex : dget func_dict (u "chisq") = Some calc_chisq /\ u "chisq" <> u "llik" /\ spwf am /\ entries am <> [] /\
  (calc_mi 4 1 1 2 = Ok (ideal_pmi 4 (4 + 1) (4 + 1) (4 + 1 + 1 + 2) / ln 2))%R.
Proof. split; [reflexivity|]. split; [discriminate|]. split; [exact am_wf|]. split; [discriminate|]. apply mi_value; lra. Qed.
