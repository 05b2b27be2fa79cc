(** * Proofs about the sliding window, the file template method and the per-file handlers. *)
From Coq Require Import NArith ZArith Bool Arith Lia Permutation List.
From Verif Require Import Base BaseLemmas VocabModel VocabSpec VocabProofs CorpusModel CorpusSpec.
Import ListNotations.

Lemma app_inj_len {A} (a b c d : list A) : length a = length c -> a ++ b = c ++ d -> a = c /\ b = d.
Proof.
  revert c; induction a as [|x a IH]; intros [|y c] L E; cbn in *; try discriminate; auto.
  injection E as -> E. destruct (IH c ltac:(lia) E) as [-> ->]. auto.
Qed.

(** ** The window as a tape *)
Section Win.
  Context {A : Type}.
  Definition tape (w : window A) : list (option A) := left w ++ node w :: right w.
  Definition wok (l r : nat) (w : window A) : Prop :=
    left_span w = l /\ right_span w = r /\ length (left w) = l /\ length (right w) = r.

  Lemma wok_init l r : wok l r (win_init l r).
  Proof. repeat split; cbn; apply repeat_length. Qed.
  Lemma dq_append_full m (l : list (option A)) x : length l = m -> 0 < m -> dq_append m l x = tl l ++ [x].
  Proof. unfold dq_append. intros E Hm. replace (length l + 1 - m) with 1 by lia. destruct l; cbn in *; [lia|auto]. Qed.

  Lemma win_update_tape l r w x : wok l r w ->
    wok l r (win_update w x) /\ tape (win_update w x) = tl (tape w) ++ [x].
  Proof.
    intros (E1 & E2 & E3 & E4). unfold win_update. rewrite E1, E2.
    assert (LL : (if 0 <? l then dq_append l (left w) (node w) else left w) = tl (left w ++ [node w])).
    { destruct (Nat.ltb_spec 0 l).
      - rewrite dq_append_full by auto. destruct (left w); cbn in *; [lia|auto].
      - destruct (left w); cbn in *; [auto|lia]. }
    rewrite LL. assert (Ll : length (tl (left w ++ [node w])) = l).
    { destruct (left w); cbn in *; auto. rewrite app_length. cbn. lia. }
    destruct (Nat.ltb_spec 0 r).
    - rewrite dq_append_full by auto. destruct (right w) as [|y rr] eqn:R; cbn in E4; [lia|].
      split.
      + repeat split; cbn; auto. rewrite app_length. cbn. lia.
      + unfold tape; cbn. rewrite R. destruct (left w); cbn; auto. rewrite <- !app_assoc; auto.
    - destruct (right w) as [|y rr] eqn:R; cbn in E4; [|lia]. split.
      + repeat split; cbn; auto.
      + unfold tape; cbn. rewrite R. destruct (left w); cbn; auto.
  Qed.
  Lemma tape_inj l r w w' : wok l r w -> wok l r w' -> tape w = tape w' -> w = w'.
  Proof.
    destruct w as [a b c d e], w' as [a' b' c' d' e']. unfold wok, tape; cbn. intros (-> & -> & L1 & L2) (-> & -> & L3 & L4) E.
    apply app_inj_len in E; [|lia]. destruct E as [-> E]. injection E as -> ->. reflexivity.
  Qed.

  (** The window whose focus is position [f] of the sequence [s]. *)
  Definition winat (l r : nat) (s : list (option A)) (f : Z) : window A :=
    {| left_span := l; right_span := r;
       left := map (fun i => at_pos s (f - Z.of_nat l + Z.of_nat i)) (seq 0 l);
       node := at_pos s f;
       right := map (fun i => at_pos s (f + 1 + Z.of_nat i)) (seq 0 r) |}.
  Lemma winat_ok l r s f : wok l r (winat l r s f).
  Proof. repeat split; cbn; rewrite map_length, seq_length; auto. Qed.
  Lemma map_seq_shift {B} (g : nat -> B) a n : map g (seq a n) = map (fun i => g (a + i)) (seq 0 n).
  Proof.
    revert g a. induction n; intros g a; cbn; auto. rewrite Nat.add_0_r. f_equal.
    rewrite IHn, (IHn _ 1). apply map_ext. intros; f_equal; lia.
  Qed.
  Lemma winat_tape l r s f :
    tape (winat l r s f) = map (fun i => at_pos s (f - Z.of_nat l + Z.of_nat i)) (seq 0 (l + 1 + r)).
  Proof.
    unfold tape; cbn. rewrite !seq_app, !map_app, <- app_assoc. f_equal. cbn.
    f_equal; [f_equal; lia|]. rewrite (map_seq_shift _ (l + 1)). apply map_ext. intros; f_equal; lia.
  Qed.
  Lemma winat_step l r s f : win_update (winat l r s f) (at_pos s (f + 1 + Z.of_nat r)) = winat l r s (f + 1).
  Proof.
    destruct (win_update_tape l r _ (at_pos s (f + 1 + Z.of_nat r)) (winat_ok l r s f)) as [W T].
    apply tape_inj with (l := l) (r := r); auto using winat_ok. rewrite T, !winat_tape.
    replace (l + 1 + r) with (S (l + r)) at 1 by lia. cbn [seq map tl].
    replace (l + 1 + r) with (l + r + 1) by lia. rewrite (seq_app (l + r) 1 0), map_app, (map_seq_shift _ 1 (l + r)).
    f_equal; [apply map_ext; intros; f_equal; lia|]. cbn. do 2 f_equal. lia.
  Qed.
  Lemma at_pos_neg s z : (z < 0)%Z -> @at_pos A s z = None.
  Proof. intros H. unfold at_pos. destruct (Z.ltb_spec z 0); [auto|lia]. Qed.
  Lemma at_pos_ge s z : (Z.of_nat (length s) <= z)%Z -> @at_pos A s z = None.
  Proof.
    intros H. unfold at_pos. destruct (Z.ltb_spec z 0); auto.
    destruct (nth_error s (Z.to_nat z)) eqn:E; auto. assert (C : nth_error s (Z.to_nat z) <> None) by congruence.
    apply nth_error_Some in C. lia.
  Qed.
  Lemma at_pos_nat s i : @at_pos A s (Z.of_nat i) = match nth_error s i with Some x => x | None => None end.
  Proof. unfold at_pos. destruct (Z.ltb_spec (Z.of_nat i) 0); [lia|]. rewrite Nat2Z.id. auto. Qed.

  Lemma winat_init l r s f : (f + Z.of_nat r < 0)%Z -> win_init l r = winat l r s f.
  Proof.
    intros H. apply tape_inj with (l := l) (r := r); auto using wok_init, winat_ok. rewrite winat_tape.
    unfold tape; cbn. unfold init_span. replace (None :: repeat None r) with (repeat (@None A) 1 ++ repeat None r) by auto.
    rewrite <- !repeat_app. replace (l + (1 + r)) with (l + 1 + r) by lia.
    assert (G : forall a n, a + n <= l + 1 + r -> repeat None n = map (fun i => at_pos s (f - Z.of_nat l + Z.of_nat i)) (seq a n)).
    { intros a n; revert a; induction n; intros a Hn; cbn; auto. rewrite at_pos_neg by lia. f_equal. apply IHn. lia. }
    apply G. lia.
  Qed.

  (** Feeding the elements of [s] one by one, from the start. *)
  Lemma win_run_prefix l r s : forall t u, s = t ++ u ->
    fold_left win_update t (win_init l r) = winat l r s (Z.of_nat (length t) - 1 - Z.of_nat r).
  Proof.
    intros t. induction t as [|x t IH] using rev_ind; intros u E.
    - apply winat_init. cbn [length]. lia.
    - rewrite fold_left_app. cbn. rewrite (IH ([x] ++ u)) by (rewrite E, <- app_assoc; auto).
      replace x with (at_pos s (Z.of_nat (length t) - 1 - Z.of_nat r + 1 + Z.of_nat r)).
      + rewrite winat_step. rewrite app_length. cbn. f_equal. lia.
      + replace (Z.of_nat (length t) - 1 - Z.of_nat r + 1 + Z.of_nat r)%Z with (Z.of_nat (length t)) by lia.
        rewrite at_pos_nat, E, <- app_assoc, nth_error_app2, Nat.sub_diag by lia. reflexivity.
  Qed.

  Lemma nth_error_map_seq {B} (g : nat -> B) n i : i < n -> nth_error (map g (seq 0 n)) i = Some (g i).
  Proof.
    intros Hi. rewrite nth_error_map, nth_error_nth' with (d := 0) by (rewrite seq_length; auto).
    rewrite seq_nth; auto.
  Qed.
  Lemma window_contents l r (s : list (option A)) : let w := fold_left win_update s (win_init l r) in
    let f := (Z.of_nat (length s) - 1 - Z.of_nat r)%Z in
    length (left w) = l /\ length (right w) = r /\ node w = at_pos s f /\
    (forall i, i < l -> nth_error (left w) i = Some (at_pos s (f - Z.of_nat l + Z.of_nat i))) /\
    (forall i, i < r -> nth_error (right w) i = Some (at_pos s (f + 1 + Z.of_nat i))).
  Proof.
    intros w f. unfold w. rewrite (win_run_prefix l r s s []) by (rewrite app_nil_r; auto). fold f. cbn.
    rewrite !map_length, !seq_length. repeat split; auto.
    - intros i Hi. apply (nth_error_map_seq (fun i => at_pos s (_ + Z.of_nat i))); auto.
    - intros i Hi. apply (nth_error_map_seq (fun i => at_pos s (_ + Z.of_nat i))); auto.
  Qed.

  (** The non-empty slots of the window at [i] are the contexts of [i]. *)
  Lemma at_pos_Some (xs : list A) i : at_pos (map Some xs) (Z.of_nat i) = nth_error xs i.
  Proof. rewrite at_pos_nat, nth_error_map. destruct (nth_error xs i); auto. Qed.
  Lemma somes_app {B} (a b : list (option B)) : somes (a ++ b) = somes a ++ somes b.
  Proof. apply flat_map_app. Qed.
  Lemma somes_map_nth (xs : list A) a n : somes (map (nth_error xs) (seq a n)) = firstn n (skipn a xs).
  Proof.
    revert a. induction n; intros a; [reflexivity|]. cbn [seq map]. unfold somes in *. cbn [flat_map]. rewrite IHn.
    destruct (nth_error xs a) eqn:E.
    - clear IHn. revert xs E. induction a; intros [|y xs] E; cbn in *; try discriminate; [congruence|apply IHa; auto].
    - apply nth_error_None in E. rewrite !skipn_all2 by lia. rewrite !firstn_nil. auto.
  Qed.
  Lemma firstn_skipn_swap {B} (xs : list B) a b : a <= b -> skipn a (firstn b xs) = firstn (b - a) (skipn a xs).
  Proof. intros H. rewrite firstn_skipn_comm. f_equal. f_equal. lia. Qed.
  Lemma winat_left l r (xs : list A) i :
    somes (left (winat l r (map Some xs) (Z.of_nat i))) = left_ctx l xs i.
  Proof.
    cbn [winat left]. unfold left_ctx. rewrite firstn_skipn_swap by lia.
    destruct (Nat.le_gt_cases l i) as [H|H].
    - rewrite map_ext with (g := fun k => nth_error xs (i - l + k)).
      + rewrite <- (map_seq_shift (nth_error xs) (i - l)), somes_map_nth. f_equal. lia.
      + intros k. rewrite <- at_pos_Some. f_equal. lia.
    - replace l with ((l - i) + i) at 1 by lia. rewrite seq_app, map_app, somes_app.
      replace (somes (map _ (seq 0 (l - i)))) with (@nil A).
      + rewrite Nat.add_0_l, map_seq_shift. rewrite map_ext with (g := nth_error xs).
        * rewrite somes_map_nth. replace (i - l) with 0 by lia. rewrite Nat.sub_0_r. auto.
        * intros k. rewrite <- at_pos_Some. f_equal. lia.
      + symmetry. assert (G : forall a n, a + n <= l - i ->
          somes (map (fun k => at_pos (map Some xs) (Z.of_nat i - Z.of_nat l + Z.of_nat k)) (seq a n)) = []).
        { intros a n; revert a; induction n; intros a Hn; [reflexivity|]. cbn [seq map]. unfold somes in *. cbn [flat_map].
          rewrite IHn by lia. rewrite at_pos_neg by lia. auto. }
        apply G. lia.
  Qed.
  Lemma winat_right l r (xs : list A) i :
    somes (right (winat l r (map Some xs) (Z.of_nat i))) = right_ctx r xs i.
  Proof.
    cbn [winat right]. unfold right_ctx. rewrite map_ext with (g := fun k => nth_error xs (S i + k)).
    - rewrite <- (map_seq_shift (nth_error xs) (S i)), somes_map_nth. auto.
    - intros k. rewrite <- at_pos_Some. f_equal. lia.
  Qed.
End Win.
