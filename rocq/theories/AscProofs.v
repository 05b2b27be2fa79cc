(** * Proofs about association measures with default arguments. *)
From Coq Require Import String NArith ZArith Bool Arith Reals Lra Lia List.
From Verif Require Import Base BaseLemmas VocabModel MxModel MxSpec MxProofs MxTtmProofs MxCellProofs CalcModel CalcSpec CalcProofs CalcProofs2 CalcCellProofs
  AscModel AscSpec.
Import ListNotations.
Local Open Scope nat_scope.

Section Sums.
  Context {V : Type} {NV : Num V}.
  Lemma sumv_filter {A} (f : A -> V) (p : A -> bool) l : sumv (map f (filter p l)) = sumv (map (fun x => if p x then f x else zero) l).
  Proof.
    induction l as [|x l IH]; [reflexivity|]. cbn [filter map]. change (sumv ((if p x then f x else zero) :: map (fun x => if p x then f x else zero) l)) with (add (if p x then f x else zero) (sumv (map (fun x => if p x then f x else zero) l))).
    rewrite <- IH. destruct (p x); [reflexivity|]. now rewrite add_0.
  Qed.
  Lemma sumv_prod (f : nat * nat -> V) l l' : sumv (map f (list_prod l l')) = sumv (map (fun i => sumv (map (fun j => f (i, j)) l')) l).
  Proof. induction l as [|x l IH]; [reflexivity|]. cbn [list_prod]. rewrite map_app, sumv_app, IH, map_map. reflexivity. Qed.
  Lemma sum_where_pick (m : sp V) p : spwf m -> sum_where m p = pick p (entries m).
  Proof.
    intros W. pose proof (entries_range m W) as R. unfold in_range in R. rewrite Forall_forall in R.
    unfold sum_where. rewrite sumv_filter, sumv_prod. rewrite (pick_split fst _ _ (nrows m)) by (intros e I; apply (R _ I)).
    apply sumv_map_ext. intros i _. rewrite (pick_split snd _ _ (ncols m)) by (intros e I; apply (R _ I)).
    apply sumv_map_ext. intros j _. cbn [fst snd]. rewrite <- entries_get. destruct (p (i, j)) eqn:P.
    - apply pick_ext. intros [[x y] v] _. unfold ij. cbn [fst snd]. destruct (Nat.eqb_spec x i), (Nat.eqb_spec y j); subst; cbn [andb]; rewrite ?andb_true_r, ?andb_false_r; auto.
    - symmetry. apply pick_none. intros [[x y] v] _. cbn [fst snd]. destruct (Nat.eqb_spec x i), (Nat.eqb_spec y j); subst; rewrite ?andb_false_r; auto. now rewrite P.
  Qed.
  Lemma pick_parts {K} (p q : K -> bool) (l : list (K * V)) : pick p l = add (pick (fun k => p k && q k) l) (pick (fun k => p k && negb (q k)) l).
  Proof.
    rewrite <- !pick_filter. induction l as [|[k v] l IH]; [cbn; now rewrite add_0|]. cbn [filter fst]. rewrite pick_cons. destruct (p k); [|exact IH].
    rewrite !pick_cons, IH. destruct (q k); cbn [negb]; [now rewrite add_assoc|].
    rewrite !add_assoc. f_equal. apply add_comm.
  Qed.
End Sums.

(** ** Own tables *)
Lemma at_seq (F : nat -> Z) n i : i < n -> at_ (map F (seq 0 n)) i = Ok (F i).
Proof. intros L. unfold at_. rewrite nth_error_map, (nth_error_nth' _ 0) by (rewrite seq_length; lia). rewrite seq_nth by lia. reflexivity. Qed.
Lemma addZ (a b : Z) : add a b = (a + b)%Z.
Proof. reflexivity. Qed.
Lemma own_cell f (m : sp Z) e : spwf m -> nrows m <> 1 -> ncols m <> 1 -> In e (entries m) ->
  assoc_cell f m None None (Some (sp_sum m)) e = rmap (fun x => (fst e, x)) (own_table f m (fst (fst e)) (snd (fst e))).
Proof.
  intros W N1 N2 I. destruct e as [[i j] v]. cbn [fst snd]. pose proof (entries_value m i j v W I) as Ev.
  pose proof (entries_range m W) as R. unfold in_range in R. rewrite Forall_forall in R. specialize (R _ I). cbn [fst snd] in R.
  unfold assoc_cell, row_marginal, col_marginal. cbn [fst snd]. apply Nat.eqb_neq in N1, N2. rewrite N1, N2, !at_seq by tauto. cbn [rbind].
  unfold own_table. rewrite !sum_where_pick by assumption. f_equal.
  assert (Er : row_sum m i = (v + pick (fun k : nat * nat => (fst k =? i)%nat && negb (snd k =? j)%nat) (entries m))%Z).
  { change (row_sum m i) with (pick (fun k : nat * nat => fst k =? i) (entries m)). rewrite (pick_parts _ (fun k => snd k =? j)), addZ. f_equal.
    rewrite <- Ev, <- entries_get. reflexivity. }
  assert (Ec : col_sum m j = (v + pick (fun k : nat * nat => negb (fst k =? i)%nat && (snd k =? j)%nat) (entries m))%Z).
  { change (col_sum m j) with (pick (fun k : nat * nat => snd k =? j) (entries m)). rewrite (pick_parts _ (fun k => fst k =? i)), addZ. f_equal.
    - rewrite <- Ev, <- entries_get. apply pick_ext. intros. unfold ij. apply andb_comm.
    - apply pick_ext. intros. apply andb_comm. }
  assert (Et : sp_sum m = (row_sum m i + pick (fun k : nat * nat => negb (fst k =? i)%nat && (snd k =? j)%nat) (entries m) + pick (fun k : nat * nat => negb (fst k =? i)%nat && negb (snd k =? j)%nat) (entries m))%Z).
  { assert (E : sp_sum m = pick (fun _ : nat * nat => true) (entries m)).
    { unfold sp_sum, pick. do 2 f_equal. clear. induction (entries m) as [|e l IH]; [reflexivity|]. cbn. now rewrite <- IH. }
    rewrite E, (pick_parts _ (fun k => fst k =? i)), addZ. change (row_sum m i) with (pick (fun k : nat * nat => fst k =? i) (entries m)). rewrite <- Z.add_assoc. f_equal.
    cbn [andb]. rewrite (pick_parts (fun k => negb (fst k =? i)%nat) (fun k => snd k =? j)). reflexivity. }
  rewrite Ev. f_equal; f_equal; lia.
Qed.
Lemma assoc_keep f m nf cf N e e' : assoc_cell f m nf cf N e = Ok e' -> fst e' = fst e.
Proof.
  unfold assoc_cell. destruct (row_marginal _ _ _); [|discriminate]. destruct (col_marginal _ _ _); [|discriminate]. cbn [rbind]. destruct N; [|discriminate].
  destruct (f _ _ _ _); [|discriminate]. cbn [rmap]. now intros [= <-].
Qed.
Lemma assoc_cells f m nf cf N es : spwf m -> rmapm (assoc_cell f m nf cf N) (entries m) = Ok es ->
  let s := of_coo (nrows m) (ncols m) es in
  spwf s /\ nrows s = nrows m /\ ncols s = ncols m /\ (forall i j, stored s i j <-> stored m i j) /\
  forall i j, stored m i j -> assoc_cell f m nf cf N (i, j, spget m i j) = Ok (i, j, spget s i j).
Proof.
  intros W E s. destruct (rmapm_keep _ (assoc_keep f m nf cf N) _ _ E) as (K & B). destruct (of_coo_shape (nrows m) (ncols m) es) as (S1 & S2). fold s in S1, S2.
  assert (RG : in_range (nrows m) (ncols m) es).
  { pose proof (entries_range _ W) as R. unfold in_range in *. rewrite Forall_forall in *. intros e' I.
    assert (J : In (fst e') (map fst (entries m))) by (rewrite <- K; now apply in_map). apply in_map_iff in J as (e & Ee & Ie). rewrite <- Ee. now apply R. }
  assert (Ws : spwf s) by now apply of_coo_wf. split; [exact Ws|]. split; [exact S1|]. split; [exact S2|].
  split; [intros i j; unfold s; rewrite of_coo_stored by assumption; unfold stored; now rewrite K|].
  intros i j S. unfold stored in S. rewrite <- K in S. apply in_map_iff in S as ([k w] & Ee & I). cbn in Ee. subst k.
  destruct (B _ I) as ([k v] & Ie & Ge). pose proof (assoc_keep _ _ _ _ _ _ _ Ge) as Ke. cbn in Ke. subst k.
  rewrite (entries_value _ _ _ v W Ie). assert (VW : spget s i j = w).
  { apply entries_value; [exact Ws|]. unfold s. apply of_coo_In; [assumption| |assumption]. rewrite K. now apply entries_NoDup. }
  now rewrite VW.
Qed.
Lemma stored_entry (m : sp Z) i j : spwf m -> stored m i j -> In (i, j, spget m i j) (entries m).
Proof. intros W S. unfold stored in S. apply in_map_iff in S as ([k v] & E & I). cbn in E. subst k. now rewrite (entries_value _ _ _ v W I). Qed.
Lemma own_ok (m : sp Z) meas f : spwf m -> nrows m <> 1 -> ncols m <> 1 -> dget func_dict meas = Some f ->
  (forall i j, stored m i j -> exists x, own_table f m i j = Ok x) ->
  exists s, association m None None (Some (sp_sum m)) meas = Ok s.
Proof.
  intros W N1 N2 F H. unfold association. rewrite F.
  assert (A : forall e, In e (entries m) -> exists y, assoc_cell f m None None (Some (sp_sum m)) e = Ok y).
  { intros e I. rewrite own_cell by assumption. destruct (H (fst (fst e)) (snd (fst e))) as [x ->]; [|cbn; eauto]. unfold stored. apply in_map_iff. exists e. destruct e as [[? ?] ?]. auto. }
  clear H F. enough (exists es, rmapm (assoc_cell f m None None (Some (sp_sum m))) (entries m) = Ok es) as [es ->] by (cbn; eauto).
  induction (entries m) as [|e l IH]; [cbn; eauto|]. cbn. destruct (A e) as (y & ->); [now left|]. cbn. destruct IH as (es & ->); [intros; apply A; now right|]. cbn. eauto.
Qed.
Lemma own_cells (m : sp Z) meas f s : spwf m -> nrows m <> 1 -> ncols m <> 1 -> dget func_dict meas = Some f ->
  association m None None (Some (sp_sum m)) meas = Ok s ->
  spwf s /\ nrows s = nrows m /\ ncols s = ncols m /\ (forall i j, stored s i j <-> stored m i j) /\
  forall i j, stored m i j -> own_table f m i j = Ok (spget s i j).
Proof.
  intros W N1 N2 F E. unfold association in E. rewrite F in E. destruct (rmapm _ (entries m)) as [es|] eqn:Es; [|discriminate]. injection E as <-.
  destruct (assoc_cells _ _ _ _ _ _ W Es) as (A & B & C & D & G). do 4 (split; [assumption|]).
  intros i j S. specialize (G i j S). rewrite own_cell in G by (try assumption; now apply stored_entry). cbn [fst snd] in G.
  destruct (own_table f m i j) as [x|]; [|discriminate]. cbn [rmap] in G. injection G as ->. reflexivity.
Qed.
(** Given marginals and a given total: as in compute_association. *)
Lemma given_same m rsum csum N meas : association m (Some rsum) (Some csum) (Some N) meas = calc_association m rsum csum N meas.
Proof. reflexivity. Qed.
(** Without a total nothing is computed. *)
Lemma no_total (m : sp Z) nf cf meas f : spwf m -> dget func_dict meas = Some f -> entries m <> [] ->
  (forall l, nf = Some l -> length l = nrows m) -> (forall l, cf = Some l -> length l = ncols m) ->
  association m nf cf None meas = Err (if (match nf with None => nrows m =? 1 | _ => false end) || (match cf with None => ncols m =? 1 | _ => false end) then IndexError else TypeError).
Proof.
  intros W F Ne Hr Hc. unfold association. rewrite F. destruct (entries m) as [|e l] eqn:E; [now contradiction Ne|].
  pose proof (entries_range m W) as R. unfold in_range in R. rewrite Forall_forall in R. specialize (R e). rewrite E in R. specialize (R (or_introl eq_refl)).
  assert (A : assoc_cell f m nf cf None e = Err (if (match nf with None => nrows m =? 1 | _ => false end) || (match cf with None => ncols m =? 1 | _ => false end) then IndexError else TypeError)).
  { assert (G : forall (l : list Z) k, k < length l -> exists x, at_ l k = Ok x).
    { intros l0 k L. unfold at_. destruct (nth_error l0 k) eqn:X; [eauto|]. apply nth_error_None in X. lia. }
    assert (Gr : row_marginal m nf (fst (fst e)) = Err IndexError /\ (match nf with None => nrows m =? 1 | _ => false end) = true \/
                 (exists x, row_marginal m nf (fst (fst e)) = Ok x) /\ (match nf with None => nrows m =? 1 | _ => false end) = false).
    { unfold row_marginal. destruct nf as [l0|]; [right; split; [apply G; rewrite (Hr _ eq_refl); tauto|reflexivity]|]. destruct (nrows m =? 1); [auto|]. right. split; [|reflexivity]. apply G. rewrite map_length, seq_length. tauto. }
    assert (Gc : col_marginal m cf (snd (fst e)) = Err IndexError /\ (match cf with None => ncols m =? 1 | _ => false end) = true \/
                 (exists x, col_marginal m cf (snd (fst e)) = Ok x) /\ (match cf with None => ncols m =? 1 | _ => false end) = false).
    { unfold col_marginal. destruct cf as [l0|]; [right; split; [apply G; rewrite (Hc _ eq_refl); tauto|reflexivity]|]. destruct (ncols m =? 1); [auto|]. right. split; [|reflexivity]. apply G. rewrite map_length, seq_length. tauto. }
    unfold assoc_cell. destruct Gr as [[-> ->]|[[x ->] ->]]; [reflexivity|]. cbn [rbind orb]. destruct Gc as [[-> ->]|[[y ->] ->]]; reflexivity. }
  cbn [rmapm]. rewrite A. reflexivity.
Qed.
Lemma nothing_stored (m : sp Z) nf cf N meas f : dget func_dict meas = Some f -> entries m = [] ->
  exists s, association m nf cf N meas = Ok s /\ nrows s = nrows m /\ ncols s = ncols m /\ forall i j, spget s i j = 0%R.
Proof.
  intros F E. unfold association. rewrite F, E. cbn [rmapm rmap]. eexists. split; [reflexivity|]. destruct (of_coo_shape (nrows m) (ncols m) (@nil (nat * nat * R))) as (-> & ->).
  split; [reflexivity|]. split; [reflexivity|]. intros i j. rewrite of_coo_get. destruct (i <? nrows m); reflexivity.
Qed.
(** With the sums of the matrix, one row (or column) is an IndexError whatever the total. *)
Lemma single_line (m : sp Z) nf cf N meas f : dget func_dict meas = Some f -> entries m <> [] -> (forall l, nf = Some l -> length l = nrows m) -> spwf m ->
  (nf = None /\ nrows m = 1) \/ (cf = None /\ ncols m = 1) -> association m nf cf N meas = Err IndexError.
Proof.
  intros F Ne Hr W H. unfold association. rewrite F. destruct (entries m) as [|e l] eqn:E; [now contradiction Ne|].
  pose proof (entries_range m W) as R. unfold in_range in R. rewrite Forall_forall in R. specialize (R e). rewrite E in R. specialize (R (or_introl eq_refl)).
  enough (A : assoc_cell f m nf cf N e = Err IndexError) by (cbn [rmapm]; now rewrite A).
  unfold assoc_cell. destruct (row_marginal m nf (fst (fst e))) as [x|y] eqn:Er; cbn [rbind].
  - destruct H as [[-> H]|[-> H]]; [unfold row_marginal in Er; rewrite H in Er; discriminate|]. unfold col_marginal. now rewrite H.
  - f_equal. unfold row_marginal in Er. destruct nf as [l0|]; [|destruct (nrows m =? 1)]; try congruence; unfold at_ in Er; destruct (nth_error _ _); congruence.
Qed.

(** ** calc_mi *)
Local Open Scope R_scope.
Lemma mi_value o11 o21 o12 o22 : let N := o11 + o21 + o12 + o22 in 0 < N -> 0 < o11 + o12 -> 0 < o11 + o21 -> 0 < o11 ->
  calc_mi o11 o21 o12 o22 = Ok (ideal_pmi o11 (o11 + o12) (o11 + o21) N / ln 2).
Proof.
  intros N HN H1 H2 H. unfold calc_mi. fold N. rewrite fdiv_ok by lra. cbn [rbind].
  assert (E : 0 < (o11 + o21) * (o11 + o12) / N) by (apply div_pos; [now apply Rmult_lt_0_compat|assumption]).
  rewrite fdiv_ok by lra. cbn [rbind]. rewrite flog_ok by now apply div_pos. cbn [rmap]. do 2 f_equal. unfold ideal_pmi. f_equal. field. lra.
Qed.
Lemma mi_zero o21 o12 o22 : 0 < o21 -> 0 < o12 -> 0 <= o22 -> calc_mi 0 o21 o12 o22 = Err ValueError.
Proof.
  intros H1 H2 H3. unfold calc_mi. rewrite fdiv_ok by lra. cbn [rbind].
  assert (E : 0 < (0 + o21) * (0 + o12) / (0 + o21 + o12 + o22)) by (apply div_pos; [apply Rmult_lt_0_compat; lra|lra]).
  rewrite fdiv_ok by lra. cbn [rbind]. unfold flog. destruct (Rlt_dec 0 _) as [L|L]; [|reflexivity]. exfalso. unfold Rdiv in L. rewrite Rmult_0_l in L. lra.
Qed.
Lemma mi_no_margin o11 o21 o12 o22 : (o11 + o21 = 0 \/ o11 + o12 = 0 \/ o11 + o21 + o12 + o22 = 0) -> calc_mi o11 o21 o12 o22 = Err ZeroDivisionError.
Proof.
  intros H. unfold calc_mi. unfold fdiv at 1. destruct (Req_EM_T (o11 + o21 + o12 + o22) 0); [reflexivity|]. cbn [rbind].
  replace ((o11 + o21) * (o11 + o12) / (o11 + o21 + o12 + o22)) with 0; [|destruct H as [E|[E|E]]; [rewrite E; unfold Rdiv; ring|rewrite E; unfold Rdiv; ring|contradiction]].
  unfold fdiv. destruct (Req_EM_T 0 0); [reflexivity|lra].
Qed.
