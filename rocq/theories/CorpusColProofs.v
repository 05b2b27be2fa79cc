(** * Proofs about ColFreqHandler: what one segment and one file contribute. *)
From Coq Require Import NArith ZArith Bool Arith Lia Permutation List.
From Verif Require Import Base BaseLemmas VocabModel VocabSpec VocabProofs CorpusModel CorpusSpec CorpusProofs CorpusSegProofs.
Import ListNotations.

(** ** Counting lemmas *)
Section Counting.
  Context {A : Type} (co : A -> pystr).

  Lemma filter_app' {B} (p : B -> bool) a b : filter p (a ++ b) = filter p a ++ filter p b.
  Proof. apply filter_app. Qed.
  Lemma filter_none {B} (p : B -> bool) l : (forall x, In x l -> p x = false) -> filter p l = [].
  Proof. induction l; cbn; intros H; auto. rewrite H by auto. apply IHl. auto. Qed.
  Lemma filter_ext_in' {B} (p q : B -> bool) l : (forall x, In x l -> p x = q x) -> filter p l = filter q l.
  Proof. induction l; cbn; intros H; auto. rewrite H by auto. rewrite IHl; auto. Qed.

  Lemma filter_has_seq (xs : list A) c : forall m a,
    length (filter (fun j => has co xs j c) (seq a m)) = count c (map co (firstn m (skipn a xs))).
  Proof.
    induction m as [|m IH]; intros a; [reflexivity|]. cbn [seq filter]. unfold has at 1.
    destruct (nth_error xs a) as [x|] eqn:E.
    - assert (S1 : skipn a xs = x :: skipn (S a) xs).
      { clear - E. revert a E. induction xs as [|y xs IHx]; intros [|a] E; cbn in *; try discriminate; [congruence|].
        rewrite (IHx a E). destruct xs; auto. }
      rewrite S1. cbn [firstn map count]. rewrite <- IH. unfold eqb. destruct (eqdec (co x) c), (eqdec c (co x)); cbn; congruence.
    - apply nth_error_None in E. rewrite !skipn_all2 by lia. rewrite firstn_nil. cbn.
      rewrite filter_none; auto. intros j Hj. apply in_seq in Hj. unfold has.
      destruct (nth_error xs j) eqn:E'; auto. assert (N : nth_error xs j <> None) by congruence.
      apply nth_error_Some in N. lia.
  Qed.

  Lemma ctx_count (l r i : nat) (xs : list A) c : i < length xs ->
    length (filter (fun j => has co xs j c && in_window l r i j) (seq 0 (length xs))) =
    count c (map co (left_ctx l xs i)) + count c (map co (right_ctx r xs i)).
  Proof.
    intros Hi. set (n := length xs) in *. set (a := i - l). set (b := Nat.min r (n - i - 1)).
    replace n with (a + (i - a) + 1 + b + (n - i - 1 - b)) at 1 by (subst a b; lia).
    rewrite !seq_app, !filter_app', !app_length.
    rewrite (filter_none _ (seq 0 a)), (filter_none _ (seq (0 + (a + (i - a))) 1)),
      (filter_none _ (seq (0 + (a + (i - a) + 1 + b)) (n - i - 1 - b))).
    2-4: intros j Hj; apply in_seq in Hj; rewrite andb_comm; unfold in_window;
         destruct (Nat.eqb_spec i j), (Nat.leb_spec i (j + l)), (Nat.leb_spec j (i + r)); cbn; auto; subst a b; lia.
    rewrite (filter_ext_in' _ (fun j => has co xs j c) (seq (0 + a) (i - a))),
            (filter_ext_in' _ (fun j => has co xs j c) (seq (0 + (a + (i - a) + 1)) b)).
    2-3: intros j Hj; apply in_seq in Hj; unfold in_window;
         destruct (Nat.eqb_spec i j), (Nat.leb_spec i (j + l)), (Nat.leb_spec j (i + r)); cbn;
         rewrite ?andb_true_r; auto; subst a b; lia.
    rewrite !filter_has_seq. cbn [length]. rewrite !Nat.add_0_r. cbn [Nat.add]. f_equal.
    - f_equal. f_equal. unfold left_ctx. rewrite firstn_skipn_swap by lia. reflexivity.
    - f_equal. f_equal. unfold right_ctx. replace (a + (i - a) + 1) with (S i) by (subst a; lia).
      subst b. rewrite <- firstn_firstn. f_equal. rewrite firstn_all2; auto. rewrite skipn_length. fold n. lia.
  Qed.

  Lemma npairs_sum n (P : nat -> nat -> bool) :
    npairs n P = sumn (map (fun i => length (filter (P i) (seq 0 n))) (seq 0 n)).
  Proof.
    unfold npairs.
    assert (G : forall is js, length (filter (fun ij => P (fst ij) (snd ij)) (list_prod is js)) =
      sumn (map (fun i => length (filter (P i) js)) is)); [|apply G].
    clear. induction is as [|i is IH]; intros js; [reflexivity|].
    cbn [list_prod map sumn]. rewrite filter_app', app_length, IH. f_equal. clear.
    induction js as [|j js IH]; cbn; auto. destruct (P i j); cbn; rewrite IH; auto.
  Qed.

  Lemma sumn_map_add {B} (f g : B -> nat) l : sumn (map (fun x => f x + g x) l) = sumn (map f l) + sumn (map g l).
  Proof. induction l; cbn; lia. Qed.
  Lemma sumn_map_ext {B} (f g : B -> nat) l : (forall x, In x l -> f x = g x) -> sumn (map f l) = sumn (map g l).
  Proof. induction l; cbn; intros H; auto. Qed.

  (** Co-occurrences, focus by focus. *)
  Lemma cooc_upto_sum (ty : A -> pystr) k l r (xs : list A) t c : k <= length xs ->
    cooc_upto k ty co l r xs t c =
    sumn (map (fun i => if has ty xs i t
                        then count c (map co (left_ctx l xs i)) + count c (map co (right_ctx r xs i)) else 0) (seq 0 k)).
  Proof.
    intros Hk. unfold cooc_upto. rewrite npairs_sum.
    match goal with |- sumn (map ?F _) = _ => set (FF := F) end.
    replace (length xs) with (k + (length xs - k)) by lia. rewrite seq_app, map_app, sumn_app. subst FF.
    assert (Z0 : sumn (map (fun i => length (filter (fun j => (i <? k) && has ty xs i t && has co xs j c && in_window l r i j)
                     (seq 0 (length xs)))) (seq (0 + k) (length xs - k))) = 0).
    { rewrite sumn_map_ext with (g := fun _ => 0).
      - clear. induction (seq _ _); cbn; auto.
      - intros i Hi. apply in_seq in Hi. rewrite filter_none; auto. intros j _. destruct (Nat.ltb_spec i k); [lia|reflexivity]. }
    rewrite Z0, Nat.add_0_r. apply sumn_map_ext. intros i Hi. apply in_seq in Hi.
    destruct (Nat.ltb_spec i k); [|lia]. destruct (has ty xs i t); cbn [andb].
    - apply ctx_count. lia.
    - rewrite filter_none; auto.
  Qed.
  Lemma cooc_upto_all (ty : A -> pystr) l r (xs : list A) t c :
    cooc_upto (length xs) ty co l r xs t c = cooc ty co l r xs t c.
  Proof.
    unfold cooc_upto, cooc, npairs. f_equal. apply filter_ext_in'. intros [i j] Hi. apply in_prod_iff in Hi.
    destruct Hi as [Hi _]. apply in_seq in Hi. cbn [fst snd]. destruct (Nat.ltb_spec i (length xs)); [reflexivity|lia].
  Qed.
  (** A segment of one token has no pair. *)
  Lemma cooc_single (ty : A -> pystr) l r (xs : list A) t c : length xs <= 1 -> cooc ty co l r xs t c = 0.
  Proof.
    unfold cooc, npairs. destruct xs as [|x [|y xs]]; cbn; intros H; auto; try lia.
    unfold in_window. cbn. rewrite andb_false_r. auto.
  Qed.
End Counting.

(** ** The nested dict of counts *)
Lemma cell_bump m t c t' c' : cell (bump m t c) t' c' = (cell m t' c' + if eqb t t' && eqb c c' then 1 else 0)%Z.
Proof.
  unfold cell, bump. rewrite dget_dset. unfold eqb. destruct (eqdec t' t) as [->|N].
  - destruct (eqdec t t) as [_|F]; [|congruence]. rewrite dget_dset. cbn [andb].
    destruct (eqdec c' c) as [->|Nc].
    + destruct (eqdec c c) as [_|F]; [|congruence]. destruct (dget m t) as [row|]; auto.
    + destruct (eqdec c c') as [E|_]; [congruence|]. destruct (dget m t) as [row|]; cbn; lia.
  - destruct (eqdec t t') as [E|_]; [congruence|]. cbn. lia.
Qed.

Section Col.
  Context {M : Type} (get_type get_colloc : M -> pystr) (rv : vocab).
  Notation wn := (@wnode M).
  Let ty (x : wn) := get_type (fst x).
  Let co (x : wn) := get_colloc (fst x).

  Lemma col_slot_allowed t st x c : allowed (c_col (col_slot get_colloc t st x)) c = allowed (c_col st) c.
  Proof.
    destruct x as [[m li]|]; cbn; auto. destruct (filt (c_col st)) eqn:F; cbn.
    - destruct (v_contains (c_col st) (get_colloc m)); auto.
    - unfold allowed. cbn. rewrite F. auto.
  Qed.
  Lemma slots_allowed t slots : forall st c, allowed (c_col (fold_left (col_slot get_colloc t) slots st)) c = allowed (c_col st) c.
  Proof. induction slots; cbn; intros; auto. rewrite IHslots. apply col_slot_allowed. Qed.
  Lemma col_slot_cell t st (x : option wn) t' c' :
    cell (c_mtx (col_slot get_colloc t st x)) t' c' =
    (cell (c_mtx st) t' c' + if eqb t t' && allowed (c_col st) c' then Z.of_nat (count c' (map co (somes [x]))) else 0)%Z.
  Proof.
    destruct x as [[m li]|]; cbn; [|destruct (_ && _); lia]. unfold co. cbn.
    replace (if eqdec c' (get_colloc m) then 1 else 0) with (if eqb (get_colloc m) c' then 1 else 0)
      by (unfold eqb; destruct (eqdec (get_colloc m) c'), (eqdec c' (get_colloc m)); congruence).
    unfold allowed. destruct (filt (c_col st)) eqn:F; cbn.
    - destruct (v_contains (c_col st) (get_colloc m)) eqn:C; cbn.
      + rewrite cell_bump. destruct (eqb t t'); cbn; [|lia].
        destruct (eqb (get_colloc m) c') eqn:E; [apply eqb_true in E; subst; rewrite C; lia|].
        destruct (v_contains _ c'); cbn; lia.
      + destruct (eqb t t'); cbn; [|lia].
        destruct (eqb (get_colloc m) c') eqn:E; [apply eqb_true in E; subst; rewrite C; lia|].
        destruct (v_contains _ c'); cbn; lia.
    - rewrite cell_bump. destruct (eqb t t'); cbn; [|lia]. destruct (eqb (get_colloc m) c'); cbn; lia.
  Qed.
  Lemma slots_cell t slots : forall st t' c',
    cell (c_mtx (fold_left (col_slot get_colloc t) slots st)) t' c' =
    (cell (c_mtx st) t' c' + if eqb t t' && allowed (c_col st) c' then Z.of_nat (count c' (map co (somes slots))) else 0)%Z.
  Proof.
    induction slots as [|x slots IH]; intros st t' c'; [cbn; destruct (_ && _); lia|].
    cbn [fold_left]. rewrite IH, col_slot_allowed, col_slot_cell.
    replace (somes (x :: slots)) with (somes [x] ++ somes slots) by (unfold somes; cbn; rewrite app_nil_r; auto).
    rewrite map_app, count_app. destruct (eqb t t' && allowed (c_col st) c'); lia.
  Qed.

  Lemma col_match_none st w : node w = None -> col_match get_type get_colloc rv st w = st.
  Proof. unfold col_match. intros ->. auto. Qed.
  Lemma col_match_allowed st w c : allowed (c_col (col_match get_type get_colloc rv st w)) c = allowed (c_col st) c.
  Proof.
    unfold col_match. destruct (node w) as [[m li]|]; auto. destruct (if filt rv then _ else _); auto.
    rewrite !slots_allowed. auto.
  Qed.

  (** Contribution of focus [i]. *)
  Lemma foc_cell l r (xs : list wn) st i t c :
    cell (c_mtx (foc (col_match get_type get_colloc rv) l r xs st i)) t c =
    (cell (c_mtx st) t c +
     if allowed rv t && allowed (c_col st) c then
       Z.of_nat (if has ty xs i t then count c (map co (left_ctx l xs i)) + count c (map co (right_ctx r xs i)) else 0)
     else 0)%Z.
  Proof.
    unfold foc, col_match, has. cbn [winat node]. rewrite at_pos_Some.
    destruct (nth_error xs i) as [[m li]|]; [|destruct (_ && _); lia].
    change (if filt rv then v_contains rv (get_type m) else true) with (allowed rv (get_type m)).
    unfold ty; cbn [fst]. destruct (allowed rv (get_type m)) eqn:R.
    - rewrite !slots_cell, slots_allowed.
      change (map (fun k => at_pos (map Some xs) (Z.of_nat i - Z.of_nat l + Z.of_nat k)) (seq 0 l))
        with (left (winat l r (map Some xs) (Z.of_nat i))).
      change (map (fun k => at_pos (map Some xs) (Z.of_nat i + 1 + Z.of_nat k)) (seq 0 r))
        with (right (winat l r (map Some xs) (Z.of_nat i))).
      rewrite winat_left, winat_right. destruct (eqb (get_type m) t) eqn:E.
      + apply eqb_true in E. subst t. rewrite R. cbn [andb]. destruct (allowed (c_col st) c); lia.
      + cbn [andb]. destruct (allowed rv t && allowed (c_col st) c); lia.
    - destruct (eqb (get_type m) t) eqn:E; [apply eqb_true in E; subst; rewrite R; cbn; lia|].
      destruct (_ && _); lia.
  Qed.
  Lemma foc_allowed l r xs st i c :
    allowed (c_col (foc (col_match get_type get_colloc rv) l r xs st i)) c = allowed (c_col st) c.
  Proof. apply col_match_allowed. Qed.
  Lemma focs_cell l r (xs : list wn) is : forall st t c,
    cell (c_mtx (fold_left (foc (col_match get_type get_colloc rv) l r xs) is st)) t c =
    (cell (c_mtx st) t c +
     if allowed rv t && allowed (c_col st) c then
       Z.of_nat (sumn (map (fun i => (if has ty xs i t
            then count c (map co (left_ctx l xs i)) + count c (map co (right_ctx r xs i)) else 0)%nat) is))
     else 0)%Z.
  Proof.
    induction is as [|i is IH]; intros st t c; cbn [fold_left map sumn]; [destruct (_ && _); lia|].
    rewrite IH, foc_allowed, foc_cell. destruct (_ && _); lia.
  Qed.
  Lemma focs_allowed l r xs is : forall st c,
    allowed (c_col (fold_left (foc (col_match get_type get_colloc rv) l r xs) is st)) c = allowed (c_col st) c.
  Proof. induction is; cbn; intros; auto. rewrite IHis. apply foc_allowed. Qed.

  (** Number of leading tokens of a segment of [n] tokens that are processed as focus. *)
  Definition nfoci (r n : nat) : nat := if n <=? r then n - 1 else n.

  Lemma col_flush_seg l r (xs : list wn) st :
    col_flush get_type get_colloc rv st (winat l r (map Some xs) (Z.of_nat (length xs) - 1 - Z.of_nat r)) =
    Some (fold_left (foc (col_match get_type get_colloc rv) l r xs) (seq (length xs - r) (nfoci r (length xs) - (length xs - r))) st).
  Proof.
    set (n := length xs). unfold nfoci. destruct (Nat.leb_spec n r) as [H|H].
    - unfold col_flush. rewrite node_none by (fold n; lia). cbn [winat right_span].
      destruct (Nat.eq_dec n 0) as [N0|N0].
      + fold (winat l r (map Some xs) (Z.of_nat n - 1 - Z.of_nat r)).
        rewrite (shift_empty l r xs N0 r) by lia.
        replace (n - 1 - (n - r)) with 0 by lia. cbn [seq fold_left].
        destruct r; cbn [while_fuel fst snd]; [rewrite andb_false_r|]; cbn [option_map snd]; auto.
        rewrite node_none by (fold n; lia). reflexivity.
      + fold (winat l r (map Some xs) (Z.of_nat n - 1 - Z.of_nat r)).
        replace (Z.of_nat n - 1 - Z.of_nat r)%Z with (- Z.of_nat (r + 1 - n))%Z by lia.
        rewrite (shift_bounded l r xs) by (fold n; lia).
        change 0%Z with (Z.of_nat 0). rewrite (drain_bounded _ l r xs (n - 1)) by (fold n; lia).
        replace (n - r) with 0 by lia. rewrite Nat.sub_0_r. auto.
    - replace (Z.of_nat n - 1 - Z.of_nat r)%Z with (Z.of_nat (n - 1 - r)) by lia.
      unfold col_flush. destruct (node_some l r xs (n - 1 - r)) as [x E]; [fold n; lia|].
      rewrite E. cbn [winat right_span]. fold (winat l r (map Some xs) (Z.of_nat (n - 1 - r))).
      rewrite (drain_normal _ col_match_none l r xs (S r) (n - 1 - r)) by (fold n; lia).
      cbn [option_map snd]. do 3 f_equal; lia.
  Qed.

  Lemma nfoci_le r n : nfoci r n <= n.
  Proof. unfold nfoci. destruct (n <=? r); lia. Qed.
  Lemma nfoci_ge r n : n - r <= nfoci r n.
  Proof. unfold nfoci. destruct (Nat.leb_spec n r); lia. Qed.

  Lemma col_seg l r (xs : list wn) st :
    seg_res (col_match get_type get_colloc rv) (col_flush_res get_type get_colloc rv) l r st xs =
    Ok (fold_left (foc (col_match get_type get_colloc rv) l r xs) (seq 0 (nfoci r (length xs))) st).
  Proof.
    unfold seg_res, seg_loop. rewrite (loop_run _ col_match_none). cbn [fst snd]. unfold col_flush_res.
    rewrite col_flush_seg, <- fold_left_app. do 2 f_equal.
    replace (nfoci r (length xs)) with ((length xs - r) + (nfoci r (length xs) - (length xs - r))) at 2
      by (pose proof (nfoci_ge r (length xs)); lia).
    rewrite seq_app. auto.
  Qed.

  Lemma col_segs l r segs : forall st, exists st',
    rfold (seg_res (col_match get_type get_colloc rv) (col_flush_res get_type get_colloc rv) l r) segs st = Ok st' /\
    (forall c, allowed (c_col st') c = allowed (c_col st) c) /\
    (forall t c, cell (c_mtx st') t c =
      (cell (c_mtx st) t c +
       if allowed rv t && allowed (c_col st) c
       then Z.of_nat (sumn (map (fun xs => cooc_upto (nfoci r (length xs)) ty co l r xs t c) segs)) else 0)%Z).
  Proof.
    induction segs as [|xs segs IH]; intros st; cbn [rfold].
    - eexists; split; [reflexivity|]. split; auto. intros t c. cbn. destruct (_ && _); lia.
    - rewrite col_seg. cbn [rbind]. destruct (IH (fold_left (foc (col_match get_type get_colloc rv) l r xs) (seq 0 (nfoci r (length xs))) st)) as (st' & E & A' & C).
      exists st'. split; auto. split.
      + intros c. rewrite A', focs_allowed. auto.
      + intros t c. rewrite C, focs_allowed, focs_cell. cbn [map sumn].
        rewrite (cooc_upto_sum co ty (nfoci r (length xs))) by apply nfoci_le. destruct (_ && _); lia.
  Qed.
End Col.

(** ** One file *)
Section ColFile.
  Context {L M : Type} (match_line : L -> option M) (separator : L -> bool) (get_type get_colloc : M -> pystr).

  Lemma col_file (rv : vocab) l r lines st : exists st',
    col_update_one_file match_line separator get_type get_colloc rv l r lines st = Ok st' /\
    (forall c, allowed (c_col st') c = allowed (c_col st) c) /\
    (forall t c, cell (c_mtx st') t c =
      (cell (c_mtx st) t c +
       if allowed rv t && allowed (c_col st) c
       then Z.of_nat (sumn (map (fun xs => cooc_upto (nfoci r (length xs)) (fun x => get_type (fst x)) (fun x => get_colloc (fst x))
                                             l r xs t c) (segments match_line separator lines))) else 0)%Z).
  Proof. unfold col_update_one_file. rewrite update_one_file_segments. apply col_segs. Qed.
End ColFile.
