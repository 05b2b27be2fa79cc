(** * Proofs about processing one segment and one file. *)
From Coq Require Import NArith ZArith Bool Arith Lia Permutation List.
From Verif Require Import Base BaseLemmas VocabModel VocabSpec VocabProofs CorpusModel CorpusSpec CorpusProofs.
Import ListNotations.

(** ** Files are processed segment by segment *)
Section File.
  Context {L M D : Type} (match_line : L -> option M) (separator : L -> bool).
  Variables (one : D -> window (M * nat) -> D) (flush : D -> window (M * nat) -> res D) (l r : nat).

  Definition seg_loop (xs : list (M * nat)) (st : window (M * nat) * D) :=
    fold_left (fun st x => let w := win_update (fst st) (Some x) in (w, one (snd st) w)) xs st.
  Definition seg_res (d : D) (xs : list (M * nat)) : res D :=
    let st := seg_loop xs (win_init l r, d) in flush (snd st) (fst st).

  Lemma segments_from_cons lid lines : exists seg segs, segments_from match_line separator lid lines = seg :: segs.
  Proof.
    revert lid. induction lines as [|x lines IH]; intros lid; cbn; eauto.
    destruct (IH (S lid)) as (seg & segs & ->). destruct (match_line x); [eauto|]. destruct (separator x); eauto.
  Qed.

  Lemma seg_loop_snoc cur x st : seg_loop (cur ++ [x]) st =
    (win_update (fst (seg_loop cur st)) (Some x),
     one (snd (seg_loop cur st)) (win_update (fst (seg_loop cur st)) (Some x))).
  Proof. unfold seg_loop. rewrite fold_left_app. reflexivity. Qed.

  Lemma update_one_file_segments lines d :
    update_one_file match_line separator one flush l r lines d =
    rfold seg_res (segments match_line separator lines) d.
  Proof.
    unfold update_one_file, segments.
    assert (G : forall lines lid cur d0,
      rbind (rfold (file_step match_line separator one flush l r) lines
               (lid, fst (seg_loop cur (win_init l r, d0)), snd (seg_loop cur (win_init l r, d0))))
            (fun st => let '(_, win, data) := st in flush data win) =
      rfold seg_res (match segments_from match_line separator lid lines with
                     | seg :: segs => (cur ++ seg) :: segs | [] => [] end) d0).
    { clear. induction lines as [|x lines IH]; intros lid cur d0.
      - cbn. rewrite app_nil_r. unfold seg_res. destruct (flush _ _); auto.
      - cbn [rfold segments_from]. unfold file_step at 1. destruct (match_line x) as [m|].
        + specialize (IH (S lid) (cur ++ [(m, S lid)]) d0). rewrite seg_loop_snoc in IH.
          etransitivity; [exact IH|].
          destruct (segments_from_cons (S lid) lines) as (seg & segs & ->). rewrite <- app_assoc. auto.
        + destruct (separator x).
          * destruct (segments_from_cons (S lid) lines) as (seg & segs & E).
            cbn [rfold]. rewrite app_nil_r. unfold seg_res at 1. cbn.
            destruct (flush _ _) as [d'|e]; cbn; auto.
            specialize (IH (S lid) [] d'). rewrite E in IH. etransitivity; [exact IH|]. rewrite E. reflexivity.
          * cbn [rbind]. apply IH. }
    etransitivity; [exact (G lines 0 [] d)|]. destruct (segments_from_cons 0 lines) as (seg & segs & ->). reflexivity.
  Qed.
End File.

(** ** One segment: which windows are visited *)
Section Visits.
  Context {A D : Type} (step : D -> window A -> D).
  Hypothesis step_none : forall d w, node w = None -> step d w = d.
  Variables (l r : nat) (xs : list A).
  Let n := length xs.
  Let s := map Some xs.
  Definition foc (d : D) (i : nat) : D := step d (winat l r (map Some xs) (Z.of_nat i)).
  Let step_none' : forall d w, node w = None -> step d w = d := step_none.

  Lemma node_some i : i < n -> exists x, node (winat l r s (Z.of_nat i)) = Some x.
  Proof.
    intros H. unfold s. cbn. rewrite at_pos_Some. destruct (nth_error xs i) eqn:E; eauto.
    apply nth_error_None in E. fold n in E. lia.
  Qed.
  Lemma node_none z : (z < 0 \/ Z.of_nat n <= z)%Z -> node (winat l r s z) = None.
  Proof.
    intros [H|H]; cbn; [apply at_pos_neg; auto|apply at_pos_ge]. unfold s. rewrite map_length. auto.
  Qed.
  Lemma step_past z : (Z.of_nat n <= z + 1 + Z.of_nat r)%Z -> win_update (winat l r s z) None = winat l r s (z + 1).
  Proof.
    intros H. rewrite <- winat_step. f_equal. symmetry. apply at_pos_ge. unfold s. rewrite map_length. auto.
  Qed.
  Lemma step_past_nat f : n <= f + 1 + r -> win_update (winat l r s (Z.of_nat f)) None = winat l r s (Z.of_nat (S f)).
  Proof. intros H. rewrite step_past by lia. f_equal. lia. Qed.

  Lemma loop_run d :
    fold_left (fun st x => let w := win_update (fst st) (Some x) in (w, step (snd st) w)) xs (win_init l r, d) =
    (winat l r s (Z.of_nat n - 1 - Z.of_nat r), fold_left foc (seq 0 (n - r)) d).
  Proof.
    assert (G : forall t v, xs = t ++ v ->
      fold_left (fun st x => let w := win_update (fst st) (Some x) in (w, step (snd st) w)) t (win_init l r, d) =
      (winat l r s (Z.of_nat (length t) - 1 - Z.of_nat r), fold_left foc (seq 0 (length t - r)) d)).
    { intros t. induction t as [|x t IH] using rev_ind; intros v E.
      - cbn [fold_left length Nat.sub seq]. f_equal. apply winat_init. lia.
      - rewrite fold_left_app, (IH ([x] ++ v)) by (rewrite E, <- app_assoc; auto). cbn [fold_left fst snd].
        assert (Ex : Some x = at_pos s (Z.of_nat (length t) - 1 - Z.of_nat r + 1 + Z.of_nat r)).
        { replace (Z.of_nat (length t) - 1 - Z.of_nat r + 1 + Z.of_nat r)%Z with (Z.of_nat (length t)) by lia.
          unfold s. rewrite at_pos_Some, E, <- app_assoc, nth_error_app2, Nat.sub_diag by lia. reflexivity. }
        rewrite Ex at 1 2. rewrite winat_step. rewrite app_length. cbn [length].
        replace (Z.of_nat (length t) - 1 - Z.of_nat r + 1)%Z with (Z.of_nat (length t) - Z.of_nat r)%Z by lia.
        replace (Z.of_nat (length t + 1) - 1 - Z.of_nat r)%Z with (Z.of_nat (length t) - Z.of_nat r)%Z by lia.
        f_equal. destruct (Nat.le_gt_cases r (length t)) as [H|H].
        + replace (length t + 1 - r) with (length t - r + 1) by lia. rewrite seq_app, fold_left_app. cbn.
          unfold foc at 2. f_equal. fold s. f_equal. lia.
        + replace (length t + 1 - r) with 0 by lia. replace (length t - r) with 0 by lia. cbn.
          apply step_none'. apply node_none. lia. }
    rewrite (G xs []) by (rewrite app_nil_r; auto). reflexivity.
  Qed.

  (** update, then process, while there is a focus *)
  Lemma drain_normal : forall k f d fuel, f + k = n -> n <= f + 1 + r -> k <= fuel ->
    while_fuel fuel (fun st : window A * D => is_some (node (fst st)))
      (fun st => let w := win_update (fst st) None in (w, step (snd st) w)) (winat l r s (Z.of_nat f), d) =
    Some (winat l r s (Z.of_nat n), fold_left foc (seq (S f) (k - 1)) d).
  Proof.
    induction k as [|k IH]; intros f d fuel E1 E2 E3.
    - replace f with n by lia. destruct fuel; cbn [while_fuel fst]; rewrite node_none by lia; reflexivity.
    - destruct fuel as [|fuel]; [lia|]. cbn [while_fuel fst snd].
      destruct (node_some f ltac:(lia)) as [x ->]. cbn [is_some].
      rewrite step_past_nat by lia.
      replace (step d (winat l r s (Z.of_nat (S f)))) with (foc d (S f)) by reflexivity.
      rewrite IH by lia. f_equal. f_equal. cbn [Nat.sub]. rewrite Nat.sub_0_r.
      destruct k as [|k].
      + cbn. replace (S f) with n by lia. unfold foc. rewrite step_none'; auto. apply node_none. lia.
      + cbn. rewrite Nat.sub_0_r. auto.
  Qed.
  (** process, then update, while there is a focus *)
  Lemma drain_special : forall k f d fuel, f + k = n -> n <= f + 1 + r -> k <= fuel ->
    while_fuel fuel (fun st : window A * D => is_some (node (fst st)))
      (fun st => (win_update (fst st) None, step (snd st) (fst st))) (winat l r s (Z.of_nat f), d) =
    Some (winat l r s (Z.of_nat n), fold_left foc (seq f k) d).
  Proof.
    induction k as [|k IH]; intros f d fuel E1 E2 E3.
    - replace f with n by lia. destruct fuel; cbn [while_fuel fst]; rewrite node_none by lia; reflexivity.
    - destruct fuel as [|fuel]; [lia|]. cbn [while_fuel fst snd].
      destruct (node_some f ltac:(lia)) as [x ->]. cbn [is_some].
      rewrite step_past_nat by lia.
      replace (step d (winat l r s (Z.of_nat f))) with (foc d f) by reflexivity.
      rewrite IH by lia. auto.
  Qed.
  (** process, then update, at most [r - i] times *)
  Lemma drain_bounded : forall k f i d fuel, f + k <= n -> n <= f + 1 + r -> i + k = r -> k <= fuel ->
    option_map (fun st => snd st) (while_fuel fuel (fun st : nat * window A * D => is_some (node (snd (fst st))) && (fst (fst st) <? r))
      (fun st => let '(i, w, d) := st in (S i, win_update w None, step d w)) (i, winat l r s (Z.of_nat f), d)) =
    Some (fold_left foc (seq f k) d).
  Proof.
    induction k as [|k IH]; intros f i d fuel E1 E2 E3 E4.
    - destruct fuel; cbn [while_fuel fst snd]; destruct (Nat.ltb_spec i r); try lia; rewrite andb_false_r; reflexivity.
    - destruct fuel as [|fuel]; [lia|]. cbn [while_fuel fst snd].
      destruct (Nat.ltb_spec i r); [|lia]. destruct (node_some f ltac:(lia)) as [x ->]. cbn [is_some andb].
      rewrite step_past_nat by lia.
      replace (step d (winat l r s (Z.of_nat f))) with (foc d f) by reflexivity.
      rewrite IH by lia. auto.
  Qed.
  (** empty updates until the first token is the focus *)
  Lemma shift_bounded : 0 < n -> forall j i fuel, i + j <= r -> n <= r -> n + i + j = r + 1 -> j <= fuel ->
    while_fuel fuel (fun st : nat * window A => negb (is_some (node (snd st))) && (fst st <? r))
      (fun st => (S (fst st), win_update (snd st) None)) (i, winat l r s (- Z.of_nat j)) =
    Some (i + j, winat l r s 0).
  Proof.
    intros Hn. induction j as [|j IH]; intros i fuel H1 H2 H3 H4.
    - change (- Z.of_nat 0)%Z with (Z.of_nat 0). destruct (node_some 0 Hn) as [x E].
      destruct fuel; cbn [while_fuel fst snd]; rewrite E; cbn; rewrite Nat.add_0_r; auto.
    - destruct fuel as [|fuel]; [lia|]. cbn [while_fuel fst snd]. rewrite node_none by lia.
      destruct (Nat.ltb_spec i r); [|lia]. cbn [is_some negb andb]. rewrite step_past by lia.
      replace (- Z.of_nat (S j) + 1)%Z with (- Z.of_nat j)%Z by lia. rewrite IH by lia. do 2 f_equal. lia.
  Qed.
  Lemma shift_unbounded : 0 < n -> forall j fuel, n + j <= r + 1 -> (Z.of_nat n <= - Z.of_nat j + 1 + Z.of_nat r)%Z -> j <= fuel ->
    while_fuel fuel (fun w : window A => negb (is_some (node w))) (fun w => win_update w None) (winat l r s (- Z.of_nat j)) =
    Some (winat l r s 0).
  Proof.
    intros Hn. induction j as [|j IH]; intros fuel H1 H2 H4.
    - change (- Z.of_nat 0)%Z with (Z.of_nat 0). destruct (node_some 0 Hn) as [x E].
      destruct fuel; cbn [while_fuel]; rewrite E; reflexivity.
    - destruct fuel as [|fuel]; [lia|]. cbn [while_fuel]. rewrite node_none by lia.
      cbn [is_some negb]. rewrite step_past by lia.
      replace (- Z.of_nat (S j) + 1)%Z with (- Z.of_nat j)%Z by lia. apply IH; lia.
  Qed.
  Lemma shift_empty : n = 0 -> forall j i z fuel, (0 <= z + 1 + Z.of_nat r)%Z -> i + j = r -> j <= fuel ->
    while_fuel fuel (fun st : nat * window A => negb (is_some (node (snd st))) && (fst st <? r))
      (fun st => (S (fst st), win_update (snd st) None)) (i, winat l r s z) =
    Some (r, winat l r s (z + Z.of_nat j)).
  Proof.
    intros Hn. induction j as [|j IH]; intros i z fuel H1 H2 H3.
    - destruct fuel; cbn [while_fuel fst snd]; destruct (Nat.ltb_spec i r); try lia; rewrite andb_false_r;
        (replace (z + Z.of_nat 0)%Z with z by lia; replace i with r by lia; reflexivity).
    - destruct fuel as [|fuel]; [lia|]. cbn [while_fuel fst snd]. rewrite node_none by lia.
      destruct (Nat.ltb_spec i r); [|lia]. cbn [is_some negb andb]. rewrite step_past by lia.
      rewrite IH by lia. do 3 f_equal; lia.
  Qed.
End Visits.
