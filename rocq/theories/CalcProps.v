(** * Claims C35-C40 and C77-C80: association measures. *)
From Coq Require Import String NArith ZArith Bool Arith Lia Reals Lra Permutation List.
From Verif Require Import Base BaseLemmas VocabModel MxModel MxSpec MxProofs MxTtmProofs MxOpsProofs MxCellProofs MxElemProofs
  CalcModel CalcSpec CalcProofs CalcProofs2 CalcCellProofs.
Import ListNotations.
Local Open Scope R_scope.

(** Matrices for the examples: ex_m is the part of ex_ref with row b and columns y, x.
<<
      x y z             y x
   a  3 1 .          b  4 .
   b  . 4 2     >> *)
Definition ex_ref : ttm Z := Ttm (Sp Csr [[(0, 3%Z); (1, 1%Z)]; [(1, 4%Z); (2, 2%Z)]]%nat 3) [u "a"; u "b"] [u "x"; u "y"; u "z"].
Definition ex_m : ttm Z := Ttm (Sp Csr [[(0, 4%Z)]]%nat 2) [u "b"] [u "y"; u "x"].
Definition ex_nf : vocab := vocab_init false [(u "a", 4%Z); (u "b", 6%Z)].
Definition ex_cf : vocab := vocab_init false [(u "x", 3%Z); (u "y", 5%Z); (u "z", 2%Z)].
Ltac good := constructor; cbn; [unfold spwf; cbn; repeat (apply Forall_cons || apply Forall_nil); (split; [repeat constructor; cbn; intuition discriminate|repeat constructor])|reflexivity|reflexivity|repeat constructor; cbn; intuition discriminate|repeat constructor; cbn; intuition discriminate].
Example ex_ref_good : tgood ex_ref. Proof. good. Qed.
Example ex_m_good : tgood ex_m. Proof. good. Qed.
Example ex_sums : tt_sum ex_ref true = Ok (fd ex_nf) /\ tt_sum ex_ref false = Ok (fd ex_cf) /\ tt_total ex_ref = 10%Z.
Proof. vm_compute. auto. Qed.
Lemma ex_m_stored r c : tstored ex_m r c -> r = u "b" /\ c = u "y".
Proof.
  intros (Ir & Ic & S). cbn [trows tcols ex_m] in *. destruct Ir as [<-|[]]. split; [reflexivity|]. destruct Ic as [<-|[<-|[]]]; [reflexivity|].
  vm_compute in S. intuition discriminate.
Qed.
Lemma ex_m_by : tstored ex_m (u "b") (u "y") /\ val ex_m (u "b") (u "y") = 4%Z.
Proof. split; [|vm_compute; reflexivity]. split; [now left|]. split; [now left|]. vm_compute. now left. Qed.

(** ** C35: the contingency tables *)
(** The four numbers that reach the measure, whichever it is. *)
Theorem C35_table_sums : forall (rsum csum : list Z) (N : Z) (i j : nat) (c R1 C1 : Z),
  nth_error rsum i = Some R1 -> nth_error csum j = Some C1 ->
  exists o11 o21 o12 o22 : Z,
    (forall f : measure, calc_cell f rsum csum N (i, j, c) = rmap (fun x => (i, j, x)) (f (IZR o11) (IZR o21) (IZR o12) (IZR o22))) /\
    (o11 = c /\ o11 + o12 = R1 /\ o11 + o21 = C1 /\ o11 + o21 + o12 + o22 = N)%Z /\
    (0 <= c -> c <= R1 -> c <= C1 -> R1 + C1 - c <= N -> 0 <= o11 /\ 0 <= o21 /\ 0 <= o12 /\ 0 <= o22)%Z.
Proof.
  intros rsum csum N i j c R1 C1 E1 E2. exists c, (C1 - c)%Z, (R1 - c)%Z, (N - (R1 - c) - (C1 - c) - c)%Z.
  split; [|lia]. intros f. unfold calc_cell, at_. cbn [fst snd]. now rewrite E1, E2.
Qed.
Print Assumptions C35_table_sums.
(** A matrix that is part of a non-negative reference matrix, with the sums of the reference matrix as marginals and no total
    given: all tables are non-negative and describe the reference matrix. *)
Theorem C35_reference_matrix : forall (ref m : ttm Z) (d1 d2 : dict pystr Z) meas f m',
  tgood ref -> tgood m -> (forall r c, 0 <= val ref r c)%Z ->
  incl (trows m) (trows ref) -> incl (tcols m) (tcols ref) -> (forall r c, In r (trows m) -> In c (tcols m) -> val m r c = val ref r c) ->
  tt_sum ref true = Ok d1 -> tt_sum ref false = Ok d2 -> dget func_dict meas = Some f ->
  compute_association m (vocab_init false d1) (vocab_init false d2) None meas = Ok m' ->
  forall r c, tstored m r c -> exists o11 o21 o12 o22 : Z,
    (0 <= o11 /\ 0 <= o21 /\ 0 <= o12 /\ 0 <= o22)%Z /\ o11 = val ref r c /\
    (o11 + o12 = row_total ref r /\ o11 + o21 = col_total ref c /\ o11 + o21 + o12 + o22 = tt_total ref)%Z /\
    f (IZR o11) (IZR o21) (IZR o12) (IZR o22) = Ok (val m' r c).
Proof. exact reference_tables. Qed.
Print Assumptions C35_reference_matrix.
Lemma ex_ref_pos : (forall r c, 0 <= val ex_ref r c)%Z.
Proof.
  intros r c. unfold val. destruct (index_of r _) as [i|]; [|cbn; lia]. destruct (index_of c _) as [j|]; [|cbn; lia].
  unfold spget, mget, ex_ref. cbn [tmx sfmt lanes]. destruct i as [|[|i]]; cbn [nth]; unfold lane_get; cbn [filter fst snd].
  - destruct (0 =? j)%nat; destruct (1 =? j)%nat; cbn; lia.
  - destruct (1 =? j)%nat; destruct (2 =? j)%nat; cbn; lia.
  - destruct i; cbn; lia.
Qed.
Example C35_ex : tgood ex_ref /\ tgood ex_m /\ (forall r c, 0 <= val ex_ref r c)%Z /\
  incl (trows ex_m) (trows ex_ref) /\ incl (tcols ex_m) (tcols ex_ref) /\ (forall r c, In r (trows ex_m) -> In c (tcols ex_m) -> val ex_m r c = val ex_ref r c) /\
  tt_sum ex_ref true = Ok (fd ex_nf) /\ tt_sum ex_ref false = Ok (fd ex_cf) /\ dget func_dict (u "dice") = Some calc_dice /\
  exists m', compute_association ex_m ex_nf ex_cf None (u "dice") = Ok m' /\ val m' (u "b") (u "y") = 8 / 11.
Proof.
  split; [apply ex_ref_good|]. split; [apply ex_m_good|]. split; [apply ex_ref_pos|]. split; [intros x [<-|[]]; cbn; auto|].
  split; [intros x [<-|[<-|[]]]; cbn; auto|]. split; [intros r c [<-|[]] [<-|[<-|[]]]; reflexivity|]. split; [apply ex_sums|]. split; [apply ex_sums|].
  split; [reflexivity|].
  destruct (association_ok ex_m ex_nf ex_cf (fun _ => 6%Z) (fun c => if eqb c (u "y") then 5%Z else 3%Z) ex_m_good) with
    (N := @None Z) (meas := u "dice") (f := calc_dice) (score := fun (_ _ : pystr) => 8 / 11) as (m' & E & _ & _ & _ & _ & V & _).
  - intros r [<-|[]]. reflexivity.
  - intros c [<-|[<-|[]]]; reflexivity.
  - reflexivity.
  - intros r c S. destruct (ex_m_stored _ _ S) as [-> ->]. rewrite (proj2 ex_m_by). change (of_table calc_dice 4 6 5 10 = Ok (8 / 11)). unfold of_table, calc_dice. cbn. rewrite fdiv_ok by lra. f_equal. lra.
  - exists m'. split; [exact E|]. apply V, ex_m_by.
Qed.

(** ** C36: scores are attached to the right cells *)
Theorem C36_scores : forall (m : ttm Z) (nf cf : vocab) (F C : pystr -> Z), tgood m ->
  (forall r, In r (trows m) -> freq_of nf r = Some (F r)) -> (forall c, In c (tcols m) -> freq_of cf c = Some (C c)) ->
  forall (N : option Z) meas f (score : pystr -> pystr -> R), dget func_dict meas = Some f ->
  (forall r c, tstored m r c -> of_table f (val m r c) (F r) (C c)
     (match N with Some n => if (n =? 0)%Z then Z.max (v_sum nf) (v_sum cf) else n | None => Z.max (v_sum nf) (v_sum cf) end) = Ok (score r c)) ->
  exists m', compute_association m nf cf N meas = Ok m' /\ tgood m' /\ trows m' = trows m /\ tcols m' = tcols m /\
    (forall r c, tstored m' r c <-> tstored m r c) /\
    (forall r c, tstored m r c -> val m' r c = score r c) /\ (forall r c, ~ tstored m r c -> val m' r c = 0).
Proof. exact association_ok. Qed.
Print Assumptions C36_scores.
(** The score under each name is the textbook's, exactly, on every table of positive counts on which no smoothing applies. *)
Theorem C36_textbook : forall meas g, In (meas, g) textbook -> exists f, dget func_dict meas = Some f /\
  forall o11 o21 o12 o22, 0 < o11 -> 0 < o21 -> 0 < o12 -> 0 < o22 ->
  let N := o11 + o21 + o12 + o22 in
  o11 * N <> (o11 + o12) * (o11 + o21) -> (o11 + o12) * (o11 + o21) <> N ->
  f o11 o21 o12 o22 = Ok (g o11 o21 o12 o22).
Proof. exact textbook_scores. Qed.
Print Assumptions C36_textbook.
(** One table on which the measure raises makes the whole call raise. *)
Theorem C36_failing_table : forall (m : ttm Z) (nf cf : vocab) (F C : pystr -> Z), tgood m ->
  (forall r, In r (trows m) -> freq_of nf r = Some (F r)) -> (forall c, In c (tcols m) -> freq_of cf c = Some (C c)) ->
  forall (N : option Z) meas f r c e, dget func_dict meas = Some f -> tstored m r c ->
  of_table f (val m r c) (F r) (C c)
     (match N with Some n => if (n =? 0)%Z then Z.max (v_sum nf) (v_sum cf) else n | None => Z.max (v_sum nf) (v_sum cf) end) = Err e ->
  exists e', compute_association m nf cf N meas = Err e'.
Proof. exact association_fails. Qed.
Print Assumptions C36_failing_table.
Theorem C36_unknown_measure : forall (m : ttm Z) (nf cf : vocab) (N : option Z) meas, dget func_dict meas = None ->
  (forall r, In r (trows m) -> freq_of nf r <> None) -> (forall c, In c (tcols m) -> freq_of cf c <> None) ->
  compute_association m nf cf N meas = Err NotImplementedError.
Proof. exact association_unknown. Qed.
Print Assumptions C36_unknown_measure.
Theorem C36_missing_marginal : forall (m : ttm Z) (nf cf : vocab) (N : option Z) meas,
  (exists r, In r (trows m) /\ freq_of nf r = None) \/ (exists c, In c (tcols m) /\ freq_of cf c = None) ->
  compute_association m nf cf N meas = Err KeyError.
Proof. exact association_missing. Qed.
Print Assumptions C36_missing_marginal.
Theorem C36_vocabulary_order : forall (m : ttm Z) (nf nf' cf cf' : vocab) (N : option Z) meas, dwf (fd nf) -> dwf (fd cf) ->
  Permutation (fd nf) (fd nf') -> Permutation (fd cf) (fd cf') -> isdef nf = isdef nf' -> isdef cf = isdef cf' ->
  compute_association m nf cf N meas = compute_association m nf' cf' N meas.
Proof. exact association_order. Qed.
Print Assumptions C36_vocabulary_order.
Example C36_ex_textbook : exists f, dget func_dict (u "zscore") = Some f /\ f 4 1 2 3 = Ok (1 / sqrt 3).
Proof.
  destruct (C36_textbook (u "zscore") _ ltac:(do 5 right; left; reflexivity)) as (f & E & H). exists f. split; [exact E|].
  rewrite H by lra. cbv zeta. unfold expected. f_equal. replace ((4 + 2) * (4 + 1) / (4 + 1 + 2 + 3)) with 3 by field. f_equal. lra.
Qed.
(** See C35_ex for a call that meets the hypotheses of C36_scores. *)
Example C36_ex : dget func_dict (u "mi") = None /\ compute_association ex_m ex_nf ex_cf None (u "mi") = Err NotImplementedError /\
  compute_association ex_m ex_cf ex_cf None (u "pmi") = Err KeyError /\
  exists m', compute_association ex_m ex_nf (vocab_init false [(u "z", 2%Z); (u "y", 5%Z); (u "x", 3%Z)]) None (u "dice") = Ok m' /\ val m' (u "b") (u "y") = 8 / 11.
Proof.
  split; [reflexivity|]. split; [apply C36_unknown_measure; [reflexivity|intros r [<-|[]]; discriminate|intros r [<-|[<-|[]]]; discriminate]|].
  split; [apply C36_missing_marginal; left; exists (u "b"); split; [now left|reflexivity]|].
  rewrite <- (C36_vocabulary_order ex_m ex_nf ex_nf ex_cf).
  - apply C35_ex.
  - repeat constructor; cbn; intuition discriminate.
  - repeat constructor; cbn; intuition discriminate.
  - apply Permutation_refl.
  - cbn. apply (Permutation_trans (perm_swap _ _ _)). apply (Permutation_trans (perm_skip _ (perm_swap _ _ _))). apply (Permutation_trans (perm_swap _ _ _)). apply Permutation_refl.
  - reflexivity.
  - reflexivity.
Qed.
Example C36_ex_fails : exists e, compute_association ex_m ex_nf ex_cf (Some (-6)%Z) (u "zscore") = Err e.
Proof.
  apply (C36_failing_table ex_m ex_nf ex_cf (fun _ => 6%Z) (fun c => if eqb c (u "y") then 5%Z else 3%Z) ex_m_good) with (f := calc_zscore) (r := u "b") (c := u "y") (e := ValueError).
  - intros r [<-|[]]. reflexivity.
  - intros c [<-|[<-|[]]]; reflexivity.
  - reflexivity.
  - apply ex_m_by.
  - rewrite (proj2 ex_m_by). change (of_table calc_zscore 4 6 5 (-6) = Err ValueError). unfold of_table, calc_zscore. cbn. rewrite fdiv_ok by lra. cbn [rbind]. unfold fsqrt. destruct (Rle_dec 0 _); [exfalso; lra|reflexivity].
Qed.

(** ** C37: compute_ppmi *)
(** Column marginals from a vocabulary, or, when none is given, the column sums of the matrix (which needs at least two columns). *)
Definition column_marginals (m : ttm Z) (cfreq : option vocab) (C : pystr -> Z) : Prop :=
  match cfreq with
  | Some cf => forall c, In c (tcols m) -> freq_of cf c = Some (C c)
  | None => length (tcols m) <> 1%nat /\ forall c, C c = col_total m c
  end.
Theorem C37_ppmi_values : forall (m : ttm Z) (nf : vocab) (cfreq : option vocab) (F C : pystr -> Z), tgood m ->
  (forall r, In r (trows m) -> freq_of nf r = Some (F r)) -> column_marginals m cfreq C ->
  forall positive, (forall r c, tstored m r c -> 0 <= val m r c * v_sum nf)%Z ->
  exists m', compute_ppmi m (Some nf) cfreq positive = Ok m' /\ tgood m' /\ trows m' = trows m /\ tcols m' = tcols m /\
    (forall r c, tstored m' r c <-> tstored m r c) /\ (forall r c, ~ tstored m r c -> val m' r c = 0) /\
    forall r c, tstored m r c -> val m' r c =
      if (0 <? val m r c * v_sum nf)%Z && (0 <? F r * C c)%Z
      then let pmi := ln (IZR (val m r c) * IZR (v_sum nf) / (IZR (F r) * IZR (C c))) in if positive then Rmax 0 pmi else pmi
      else 0.
Proof. exact compute_ppmi_ok. Qed.
Print Assumptions C37_ppmi_values.
(** No value is negative, and a value is positive exactly when the count exceeds the expected count. *)
Theorem C37_ppmi_sign : forall (m : ttm Z) (nf : vocab) (cfreq : option vocab) (F C : pystr -> Z) m', tgood m ->
  (forall r, In r (trows m) -> freq_of nf r = Some (F r)) -> column_marginals m cfreq C ->
  (forall r c, tstored m r c -> 0 <= val m r c * v_sum nf /\ 0 <= F r /\ 0 <= C c)%Z ->
  compute_ppmi m (Some nf) cfreq true = Ok m' ->
  (forall r c, 0 <= val m' r c) /\
  forall r c, tstored m r c -> (0 < val m' r c <-> (F r * C c < val m r c * v_sum nf /\ 0 < F r /\ 0 < C c)%Z).
Proof.
  intros m nf cfreq F C m' G HF HC P E. destruct (compute_ppmi_ok m nf cfreq F C G HF HC true) as (m1 & E1 & _ & _ & _ & _ & Z & V); [apply P|].
  rewrite E in E1. inversion E1; subst m1. split.
  - intros r c. destruct (tstored_dec m r c) as [S|S]; [rewrite V by assumption; apply pmi_value_nonneg|rewrite Z by assumption; lra].
  - intros r c S. rewrite V by assumption. destruct (P r c S) as (_ & PF & PC). now apply pmi_value_pos.
Qed.
Print Assumptions C37_ppmi_sign.
Example C37_ex : column_marginals ex_m (Some ex_cf) (fun c => if eqb c (u "y") then 5%Z else 3%Z) /\ column_marginals ex_m None (col_total ex_m) /\
  exists m', compute_ppmi ex_m (Some ex_nf) (Some ex_cf) true = Ok m' /\ 0 < val m' (u "b") (u "y").
Proof.
  assert (HC : column_marginals ex_m (Some ex_cf) (fun c => if eqb c (u "y") then 5%Z else 3%Z)) by (intros c [<-|[<-|[]]]; reflexivity).
  split; [assumption|]. split; [split; [discriminate|reflexivity]|].
  assert (HF : forall r, In r (trows ex_m) -> freq_of ex_nf r = Some 6%Z) by (intros r [<-|[]]; reflexivity).
  destruct (C37_ppmi_values ex_m ex_nf (Some ex_cf) (fun _ => 6%Z) _ ex_m_good HF HC true) as (m' & E & _).
  { intros r c S. destruct (ex_m_stored _ _ S) as [-> ->]. vm_compute. discriminate. }
  exists m'. split; [exact E|].
  destruct (C37_ppmi_sign ex_m ex_nf (Some ex_cf) (fun _ => 6%Z) _ m' ex_m_good HF HC) as (_ & V); [|exact E|].
  - intros r c S. destruct (ex_m_stored _ _ S) as [-> ->]. vm_compute. repeat split; discriminate.
  - apply (V (u "b") (u "y")); [apply ex_m_by|]. vm_compute. auto.
Qed.
(** The documented default nfreq=None, and cfreq=None with one column. *)
Definition ppmi_defaults : Prop := forall (m : ttm Z) nfreq cfreq positive, tgood m -> (forall nf, nfreq = Some nf -> forall r, In r (trows m) -> freq_of nf r <> None) ->
  (forall cf, cfreq = Some cf -> forall c, In c (tcols m) -> freq_of cf c <> None) -> exists m', compute_ppmi m nfreq cfreq positive = Ok m'.
Theorem C77_no_row_marginals : forall (m : ttm Z) cfreq positive, compute_ppmi m None cfreq positive = Err AttributeError.
Proof. reflexivity. Qed.
Print Assumptions C77_no_row_marginals.
Theorem C77_one_column : forall (m : ttm Z) nf positive c, tgood m -> (forall r, In r (trows m) -> freq_of nf r <> None) ->
  tcols m = [c] -> entries (tmx m) <> [] -> compute_ppmi m (Some nf) None positive = Err IndexError.
Proof.
  intros m nf positive c G HF EC NE. unfold compute_ppmi.
  rewrite (marginals_ok nf _ (fun r => match freq_of nf r with Some x => x | None => 0%Z end)) by (intros k I; specialize (HF k I); now destruct (freq_of nf k)).
  cbn [rbind]. rewrite (tg_cols _ G), EC. cbn [length Nat.eqb]. destruct (entries (tmx m)) as [|[[i j] v] l] eqn:E; [contradiction|]. cbn [rmapm]. unfold ppmi_cell at 1. cbn [fst snd].
  pose proof (entries_range _ (tg_wf _ G)) as R. rewrite E in R. inversion R as [|? ? (L & _)]; subst. cbn in L. rewrite (tg_rows _ G) in L.
  unfold at_ at 1. rewrite nth_error_map. destruct (nth_error (trows m) i) eqn:Q; [|apply nth_error_None in Q; lia]. reflexivity.
Qed.
Print Assumptions C77_one_column.
Theorem C77_ppmi_defaults_refuted : ~ ppmi_defaults.
Proof. intros H. destruct (H ex_m None None true ex_m_good) as (m' & E); [discriminate|discriminate|]. discriminate. Qed.
Print Assumptions C77_ppmi_defaults_refuted.
Definition ex_one : ttm Z := Ttm (Sp Csr [[(0, 4%Z)]; []]%nat 1) [u "b"; u "a"] [u "y"].
Example C77_ex : tgood ex_one /\ tcols ex_one = [u "y"] /\ entries (tmx ex_one) <> [] /\ (forall r, In r (trows ex_one) -> freq_of ex_nf r <> None).
Proof. split; [good|]. split; [reflexivity|]. split; [discriminate|]. intros r [<-|[<-|[]]]; discriminate. Qed.

(** ** C38: the two PPMI implementations agree *)
Theorem C38_ppmi_agree : forall (m : ttm Z) (nf cf : vocab) (F C : pystr -> Z) (N : option Z), tgood m ->
  (forall r, In r (trows m) -> freq_of nf r = Some (F r)) -> (forall c, In c (tcols m) -> freq_of cf c = Some (C c)) ->
  (0 < v_sum nf)%Z -> N = Some (v_sum nf) \/ N = None /\ (v_sum cf <= v_sum nf)%Z ->
  (forall r c, tstored m r c -> 0 <= val m r c <= F r /\ val m r c <= C c)%Z ->
  exists m1 m2, compute_ppmi m (Some nf) (Some cf) true = Ok m1 /\ compute_association m nf cf N (u "ppmi") = Ok m2 /\
    trows m1 = trows m2 /\ tcols m1 = tcols m2 /\ forall r c, Rabs (val m2 r c - val m1 r c) <= 22 / 100000000000.
Proof.
  intros m nf cf F C N G HF HC T HN B.
  assert (TN : total_of nf cf N = v_sum nf).
  { unfold total_of. destruct HN as [->|[-> L]]; [|lia]. destruct (Z.eqb_spec (v_sum nf) 0); [lia|reflexivity]. }
  destruct (compute_ppmi_ok m nf (Some cf) F C G HF HC true) as (m1 & E1 & _ & R1 & C1 & _ & Z1 & V1).
  { intros r c S. destruct (B r c S). nia. }
  set (score := fun r c => match of_table calc_ppmi (val m r c) (F r) (C c) (v_sum nf) with Ok p => p | Err _ => 0 end).
  destruct (association_ok m nf cf F C G HF HC N (u "ppmi") calc_ppmi score eq_refl) as (m2 & E2 & _ & R2 & C2 & _ & V2 & Z2).
  { intros r c S. rewrite TN. unfold score. destruct (B r c S) as (B1 & B2). destruct (ppmi_table_close _ _ _ _ T B1 B2) as (p & E & _). now rewrite E. }
  exists m1, m2. split; [assumption|]. split; [assumption|]. split; [congruence|]. split; [congruence|]. intros r c.
  destruct (tstored_dec m r c) as [S|S].
  - rewrite V1, V2 by assumption. destruct (B r c S) as (B1 & B2). destruct (ppmi_table_close _ _ _ _ T B1 B2) as (p & E & _ & Q).
    unfold score. rewrite E. now rewrite pmi_value_ideal.
  - rewrite Z1, Z2 by assumption. rewrite Rminus_0_r, Rabs_R0. lra.
Qed.
Print Assumptions C38_ppmi_agree.
Example C38_ex : (0 < v_sum ex_nf)%Z /\ (v_sum ex_cf <= v_sum ex_nf)%Z /\ (forall r c, tstored ex_m r c -> 0 <= val ex_m r c <= 6 /\ val ex_m r c <= if eqb c (u "y") then 5 else 3)%Z.
Proof. split; [reflexivity|]. split; [discriminate|]. intros r c S. destruct (ex_m_stored _ _ S) as [-> ->]. vm_compute. intuition discriminate. Qed.
(** The unclipped variants (positive=False and meas='pmi') agree for positive counts, but not for a stored zero. *)
Theorem C38_pmi_agree_partial : forall c r cc n : Z, (0 < n)%Z -> (0 < c <= r)%Z -> (c <= cc)%Z ->
  exists p, of_table calc_pmi c r cc n = Ok p /\ Rabs (p - pmi_value false c r cc n) <= 22 / 100000000000.
Proof.
  intros c r cc n Hn Hr Hc. destruct (table_sums c r cc n) as (A & B & D).
  destruct (pmi_close (IZR c) (IZR (cc - c)) (IZR (r - c)) (IZR (n - r - cc + c))) as (p & E & K).
  - rewrite D. now apply IZR_lt.
  - rewrite A. apply IZR_lt. lia.
  - rewrite B. apply IZR_lt. lia.
  - now apply IZR_lt.
  - exists p. split; [exact E|]. unfold pmi_value. rewrite D, A, B in K.
    assert (X : (0 < c * n)%Z) by nia. assert (Y : (0 < r * cc)%Z) by nia. apply Z.ltb_lt in X, Y. now rewrite X, Y.
Qed.
Print Assumptions C38_pmi_agree_partial.
Theorem C38_pmi_of_zero_refuted : ~ (forall c r cc n : Z, (0 < n)%Z -> (0 <= c <= r)%Z -> (c <= cc)%Z ->
  exists p, of_table calc_pmi c r cc n = Ok p /\ Rabs (p - pmi_value false c r cc n) <= 1).
Proof.
  intros H. destruct (H 0 3 4 10)%Z as (p & E & K); try lia. rewrite pmi_table in E by lia. inversion E; subst p; clear E H.
  replace (pmi_value false 0 3 4 10) with 0 in K by reflexivity. replace (0 / adjust_val (3 * 4 / 10)) with 0 in K.
  - rewrite adjust_0 in K. apply Rabs_le_inv in K. assert (L : ln eps < -1); [|lra]. replace (-1) with (- (1)) by lra. rewrite <- (ln_exp (- (1))). apply ln_increasing; [lra|].
    rewrite exp_Ropp. apply (Rmult_lt_reg_r (exp 1)); [apply exp_pos|]. rewrite Rinv_l by (pose proof (exp_pos 1); lra). pose proof exp_le_3. lra.
  - unfold Rdiv. now rewrite Rmult_0_l.
Qed.
Print Assumptions C38_pmi_of_zero_refuted.
Example C38_ex_pmi : (0 < 10)%Z /\ (0 < 3 <= 4)%Z /\ (3 <= 5)%Z. Proof. lia. Qed.

(** ** C39: ranges of the measures *)
Theorem C39_dice : forall o11 o21 o12 o22, 0 <= o11 -> 0 <= o21 -> 0 <= o12 -> 0 < o11 + o12 \/ 0 < o11 + o21 ->
  exists d, calc_dice o11 o21 o12 o22 = Ok d /\ 0 <= d <= 1 /\ (d = 1 <-> o12 = 0 /\ o21 = 0) /\ (d = 0 <-> o11 = 0).
Proof. exact dice_bounds. Qed.
Print Assumptions C39_dice.
Theorem C39_delta_p : forall o11 o21 o12 o22, 0 <= o11 -> 0 <= o21 -> 0 <= o12 -> 0 <= o22 -> 0 < o11 + o12 -> 0 < o21 + o22 ->
  exists d, calc_deltap o11 o21 o12 o22 = Ok d /\ -1 <= d <= 1 /\ (0 < d <-> (o11 + o12) * (o11 + o21) < o11 * (o11 + o21 + o12 + o22)).
Proof. exact deltap_bounds. Qed.
Print Assumptions C39_delta_p.
Theorem C39_delta_p_coll : forall o11 o21 o12 o22, 0 <= o11 -> 0 <= o21 -> 0 <= o12 -> 0 <= o22 -> 0 < o11 + o21 -> 0 < o12 + o22 ->
  exists d, calc_deltap_coll o11 o21 o12 o22 = Ok d /\ -1 <= d <= 1 /\ (0 < d <-> (o11 + o12) * (o11 + o21) < o11 * (o11 + o21 + o12 + o22)).
Proof. exact deltap_coll_bounds. Qed.
Print Assumptions C39_delta_p_coll.
Theorem C39_chi_square : forall o11 o21 o12 o22, 0 <= o11 -> 0 <= o21 -> 0 <= o12 -> 0 <= o22 ->
  0 < o11 + o21 -> 0 < o11 + o12 -> 0 < o21 + o22 -> 0 < o12 + o22 ->
  exists x, calc_chisq o11 o21 o12 o22 = Ok x /\ 0 <= x <= o11 + o21 + o12 + o22 /\
    (x = 0 <-> o11 * (o11 + o21 + o12 + o22) = (o11 + o12) * (o11 + o21)).
Proof. exact chisq_bounds. Qed.
Print Assumptions C39_chi_square.
(** The log likelihood is the G2 statistic up to a small multiple of the total, exactly so when no count is zero. *)
Theorem C39_log_likelihood : forall o11 o21 o12 o22, 0 <= o11 -> 0 <= o21 -> 0 <= o12 -> 0 <= o22 -> 0 < o11 + o21 -> 0 < o12 + o22 ->
  exists x, calc_lik o11 o21 o12 o22 = Ok x /\
    G2 o11 o21 o12 o22 - 22 / 100000000000 * (o11 + o21 + o12 + o22) <= x <= G2 o11 o21 o12 o22 /\
    (0 < o11 -> 0 < o21 -> 0 < o12 -> 0 < o22 -> x = G2 o11 o21 o12 o22).
Proof. exact lik_close. Qed.
Print Assumptions C39_log_likelihood.
Theorem C39_G2 : forall o11 o21 o12 o22, 0 <= o11 -> 0 <= o21 -> 0 <= o12 -> 0 <= o22 ->
  0 < o11 + o21 -> 0 < o12 + o22 -> 0 < o11 + o12 -> 0 < o21 + o22 ->
  0 <= G2 o11 o21 o12 o22 /\ (G2 o11 o21 o12 o22 = 0 <-> o11 * (o11 + o21 + o12 + o22) = (o11 + o12) * (o11 + o21)).
Proof. exact G2_nonneg. Qed.
Print Assumptions C39_G2.
(** So it is non-negative when no count is zero.  In general it is not: a zero count costs up to 1.1e-10 per token. *)
Theorem C39_log_likelihood_nonneg_partial : forall o11 o21 o12 o22, 0 < o11 -> 0 < o21 -> 0 < o12 -> 0 < o22 ->
  exists x, calc_lik o11 o21 o12 o22 = Ok x /\ 0 <= x /\ (x = 0 <-> o11 * (o11 + o21 + o12 + o22) = (o11 + o12) * (o11 + o21)).
Proof.
  intros. destruct (lik_close o11 o21 o12 o22) as (x & E & _ & Q); try lra. exists x. split; [assumption|]. rewrite Q by assumption. apply G2_nonneg; lra.
Qed.
Print Assumptions C39_log_likelihood_nonneg_partial.
Definition log_likelihood_nonneg : Prop := forall o11 o21 o12 o22, 0 <= o11 -> 0 <= o21 -> 0 <= o12 -> 0 <= o22 -> 0 < o11 + o21 -> 0 < o12 + o22 ->
  exists x, calc_lik o11 o21 o12 o22 = Ok x /\ 0 <= x.
Theorem C39_log_likelihood_nonneg_refuted : ~ log_likelihood_nonneg.
Proof.
  intros H. destruct (H 1 0 100000000000 1) as (x & E & P); try lra. destruct lik_refuted as (y & E' & Q). rewrite E in E'. inversion E'. lra.
Qed.
Print Assumptions C39_log_likelihood_nonneg_refuted.
(** All scores of a matrix: Dice and Delta-P with marginals from a non-negative reference matrix. *)
Theorem C39_dice_matrix : forall (ref m : ttm Z) (d1 d2 : dict pystr Z) m',
  tgood ref -> tgood m -> (forall r c, 0 <= val ref r c)%Z ->
  incl (trows m) (trows ref) -> incl (tcols m) (tcols ref) -> (forall r c, In r (trows m) -> In c (tcols m) -> val m r c = val ref r c) ->
  tt_sum ref true = Ok d1 -> tt_sum ref false = Ok d2 ->
  compute_association m (vocab_init false d1) (vocab_init false d2) None (u "dice") = Ok m' ->
  forall r c, tstored m r c -> 0 <= val m' r c <= 1.
Proof.
  intros ref m d1 d2 m' GR GM P IR IC EV E1 E2 E r c S.
  destruct (reference_tables ref m d1 d2 (u "dice") calc_dice m' GR GM P IR IC EV E1 E2 eq_refl E r c S) as (a & b & d & e & (A & B & D & F) & _ & _ & Q).
  apply IZR_le in A, B, D, F. destruct (Req_EM_T (IZR a + IZR d + (IZR a + IZR b)) 0) as [Z|NZ].
  - unfold calc_dice, fdiv in Q. destruct (Req_EM_T _ 0); [discriminate|contradiction].
  - destruct (dice_bounds (IZR a) (IZR b) (IZR d) (IZR e) A B D) as (x & E' & K & _); [lra|]. rewrite E' in Q. now inversion Q; subst.
Qed.
Print Assumptions C39_dice_matrix.
Example C39_ex : calc_chisq 3 0 1 6 = Ok (10 * (3 * 6 - 0 * 1) ^ 2 / ((3 + 0) * (3 + 1) * (0 + 6) * (1 + 6))) /\
  (exists d, calc_dice 3 0 1 6 = Ok d /\ d = 6 / 7) /\ (exists d, calc_deltap 3 0 1 6 = Ok d /\ d = 3 / 4) /\ (0 < 3 /\ 0 < 2 /\ 0 < 1 /\ 0 < 6).
Proof.
  split; [unfold calc_chisq; rewrite fdiv_ok by lra; f_equal; lra|].
  split; [eexists; split; [unfold calc_dice; rewrite fdiv_ok by lra; reflexivity|lra]|].
  split; [eexists; split; [unfold calc_deltap; rewrite !fdiv_ok by lra; reflexivity|lra]|lra].
Qed.

(** ** C40: PMI *)
Theorem C40_symmetric : forall o11 o21 o12 o22, calc_pmi o11 o21 o12 o22 = calc_pmi o11 o12 o21 o22.
Proof. exact pmi_symmetric. Qed.
Print Assumptions C40_symmetric.
(** The textbook value, up to 2.2e-10; exact unless the count or the product of the marginals hits a special value. *)
Theorem C40_value : forall o11 o21 o12 o22, let N := o11 + o21 + o12 + o22 in 0 < N -> 0 < o11 + o12 -> 0 < o11 + o21 -> 0 < o11 ->
  exists p, calc_pmi o11 o21 o12 o22 = Ok p /\ Rabs (p - ideal_pmi o11 (o11 + o12) (o11 + o21) N) <= 22 / 100000000000 /\
    ((o11 + o12) * (o11 + o21) <> N -> o11 * N <> (o11 + o12) * (o11 + o21) -> p = ideal_pmi o11 (o11 + o12) (o11 + o21) N).
Proof.
  intros o11 o21 o12 o22 N HN HR HC Ho. destruct (pmi_close o11 o21 o12 o22 HN HR HC Ho) as (p & E & K). exists p. split; [assumption|]. split; [assumption|].
  intros D1 D2. pose proof (pmi_exact o11 o21 o12 o22 HN HR HC Ho D1 D2) as X. rewrite E in X. now inversion X.
Qed.
Print Assumptions C40_value.
(** Strictly increasing in the count, for given marginals whose expected count is below 1e10. *)
Theorem C40_increasing_partial : forall c c' r cc n p p', (0 < n)%Z -> (0 < r)%Z -> (0 < cc)%Z -> (0 <= c < c')%Z ->
  (r * cc < 10000000000 * n)%Z ->
  of_table calc_pmi c r cc n = Ok p -> of_table calc_pmi c' r cc n = Ok p' -> p < p'.
Proof. exact pmi_increasing. Qed.
Print Assumptions C40_increasing_partial.
Definition pmi_increases : Prop := forall c c' r cc n p p', (0 < n)%Z -> (0 < r)%Z -> (0 < cc)%Z -> (0 <= c < c')%Z -> (c' <= r)%Z -> (c' <= cc)%Z -> (r + cc - c <= n)%Z ->
  of_table calc_pmi c r cc n = Ok p -> of_table calc_pmi c' r cc n = Ok p' -> p < p'.
(** Expected count 2e10: the count that equals it scores below the count one less. *)
Theorem C40_increasing_refuted : ~ pmi_increases.
Proof.
  intros H. specialize (H 19999999999 20000000000 40000000000 40000000000 80000000000)%Z. rewrite !pmi_table in H by lia.
  specialize (H _ _ ltac:(lia) ltac:(lia) ltac:(lia) ltac:(lia) ltac:(lia) ltac:(lia) ltac:(lia) eq_refl eq_refl).
  replace (40000000000 * 40000000000 / 80000000000) with 20000000000 in H by field.
  rewrite (adjust_id 20000000000) in H by lra. replace (20000000000 / 20000000000) with 1 in H by field.
  rewrite adjust_1 in H. rewrite adjust_id in H by lra. apply ln_lt_inv in H; lra.
Qed.
Print Assumptions C40_increasing_refuted.
Example C40_ex : (exists p, of_table calc_pmi 4 6 5 10 = Ok p /\ p = ln (4 / 3)) /\ (exists p, of_table calc_pmi 3 6 5 10 = Ok p /\ p < ln (4 / 3)).
Proof.
  assert (A : exists p, of_table calc_pmi 4 6 5 10 = Ok p /\ p = ln (4 / 3)).
  { rewrite pmi_table by lia. eexists. split; [reflexivity|]. replace (6 * 5 / 10) with 3 by field. rewrite (adjust_id 3) by lra. now rewrite adjust_id by lra. }
  split; [assumption|]. destruct A as (p & E & ->). assert (B : exists q, of_table calc_pmi 3 6 5 10 = Ok q) by (rewrite pmi_table by lia; eauto).
  destruct B as (q & E'). exists q. split; [assumption|]. apply (C40_increasing_partial 3 4 6 5 10)%Z; auto; lia.
Qed.

(** ** C78: z-score *)
Theorem C78_zscore_sign : forall o11 o21 o12 o22, 0 <= o12 -> 0 <= o22 -> 0 < o11 + o21 -> 0 < o11 + o12 ->
  exists z, calc_zscore o11 o21 o12 o22 = Ok z /\
    (0 < z <-> (o11 + o12) * (o11 + o21) < o11 * (o11 + o21 + o12 + o22)) /\
    (z = 0 <-> (o11 + o12) * (o11 + o21) = o11 * (o11 + o21 + o12 + o22)).
Proof. exact zscore_sign. Qed.
Print Assumptions C78_zscore_sign.
Example C78_ex : exists z, calc_zscore 3 0 1 6 = Ok z /\ 0 < z.
Proof. destruct (C78_zscore_sign 3 0 1 6) as (z & E & P & _); try lra. exists z. split; [assumption|]. apply P. lra. Qed.

(** ** C79: log ratio *)
Theorem C79_log_ratio_sign_partial : forall o11 o21 o12 o22, 0 <= o11 -> 0 < o21 -> 0 <= o12 -> 0 <= o22 -> 0 < o11 + o12 ->
  exists x, calc_log_ratio o11 o21 o12 o22 = Ok x /\ (0 < x <-> o21 / (o21 + o22) < o11 / (o11 + o12)).
Proof. exact log_ratio_sign. Qed.
Print Assumptions C79_log_ratio_sign_partial.
(** A collocate that occurs with the target only, whatever its count, scores just below zero. *)
Theorem C79_exclusive_collocate : forall o11 o12 o22, exists x, calc_log_ratio o11 0 o12 o22 = Ok x /\ - (11 / 100000000000) <= x < 0.
Proof. exact log_ratio_exclusive. Qed.
Print Assumptions C79_exclusive_collocate.
Theorem C79_log_ratio_sign_refuted : ~ (forall o11 o21 o12 o22, 0 <= o11 -> 0 <= o21 -> 0 <= o12 -> 0 <= o22 -> 0 < o11 + o12 -> 0 < o21 + o22 ->
  exists x, calc_log_ratio o11 o21 o12 o22 = Ok x /\ (0 < x <-> o21 / (o21 + o22) < o11 / (o11 + o12))).
Proof.
  intros H. destruct (H 50 0 50 900) as (x & E & P); try lra. destruct (C79_exclusive_collocate 50 50 900) as (y & E' & Q). rewrite E in E'. inversion E'; subst y.
  assert (0 < x); [|lra]. apply P. lra.
Qed.
Print Assumptions C79_log_ratio_sign_refuted.
Example C79_ex : exists x, calc_log_ratio 50 1 50 899 = Ok x /\ 0 < x.
Proof. destruct (C79_log_ratio_sign_partial 50 1 50 899) as (x & E & P); try lra. exists x. split; [assumption|]. apply P. lra. Qed.

(** ** C80: entropy *)
Theorem C80_entropy_bounds : forall l : list R, (forall v, In v l -> 0 <= v) -> sumR l = 1 ->
  exists e, entropy l = Ok e /\ 0 < e <= ln (INR (length l)) + 11 / 100000000000.
Proof. exact entropy_bounds. Qed.
Print Assumptions C80_entropy_bounds.
Example C80_ex : (forall v, In v [1/2; 1/4; 0; 1/4] -> 0 <= v) /\ sumR [1/2; 1/4; 0; 1/4] = 1.
Proof. split; [intros v [<-|[<-|[<-|[<-|[]]]]]; lra|cbn; lra]. Qed.
