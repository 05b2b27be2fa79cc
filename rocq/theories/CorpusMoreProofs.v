(** * Row totals, symmetry, separators, and the statements closed in CorpusProps.v. *)
From Coq Require Import NArith ZArith Bool Arith Lia Permutation List.
From Verif Require Import Base BaseLemmas VocabModel VocabSpec VocabProofs CorpusModel CorpusSpec CorpusProofs CorpusSegProofs
  CorpusColProofs CorpusTokProofs.
Import ListNotations.

Lemma sumZ_dset (row : dict pystr Z) c v :
  sumZ (dvals (dset row c v)) = (sumZ (dvals row) + v - match dget row c with Some n => n | None => 0 end)%Z.
Proof.
  unfold dvals. induction row as [|[k n] row IH]; cbn; [lia|].
  destruct (eqdec c k); cbn; [lia|]. rewrite IH. lia.
Qed.
Lemma row_total_bump m t c t' : row_total (bump m t c) t' = (row_total m t' + if eqb t t' then 1 else 0)%Z.
Proof.
  unfold row_total, bump. rewrite dget_dset. unfold eqb. destruct (eqdec t' t) as [->|N].
  - destruct (eqdec t t); [|congruence]. rewrite sumZ_dset. destruct (dget m t) as [row|]; cbn; lia.
  - destruct (eqdec t t'); [congruence|]. lia.
Qed.

Section Rows.
  Context {M : Type} (get_type get_colloc : M -> pystr) (rv : vocab).
  Notation wn := (@wnode M).
  Let ty (x : wn) := get_type (fst x).

  Lemma col_slot_row t st (x : option wn) t' :
    (row_total (c_mtx st) t' <= row_total (c_mtx (col_slot get_colloc t st x)) t' <=
     row_total (c_mtx st) t' + if eqb t t' then 1 else 0)%Z.
  Proof.
    destruct x as [[m li]|]; cbn; [|destruct (eqb t t'); lia].
    destruct (negb (filt (c_col st))); cbn; [rewrite row_total_bump; destruct (eqb t t'); lia|].
    destruct (v_contains _ _); cbn; [rewrite row_total_bump|]; destruct (eqb t t'); lia.
  Qed.
  Lemma slots_row t slots : forall st t',
    (row_total (c_mtx st) t' <= row_total (c_mtx (fold_left (col_slot get_colloc t) slots st)) t' <=
     row_total (c_mtx st) t' + if eqb t t' then Z.of_nat (length slots) else 0)%Z.
  Proof.
    induction slots as [|x slots IH]; intros st t'; cbn [fold_left length]; [destruct (eqb t t'); lia|].
    specialize (IH (col_slot get_colloc t st x) t'). pose proof (col_slot_row t st x t'). destruct (eqb t t'); lia.
  Qed.
  Lemma foc_row l r (xs : list wn) st i t :
    (row_total (c_mtx st) t <= row_total (c_mtx (foc (col_match get_type get_colloc rv) l r xs st i)) t <=
     row_total (c_mtx st) t + if has ty xs i t then Z.of_nat (l + r) else 0)%Z.
  Proof.
    unfold foc, col_match, has. cbn [winat node]. rewrite at_pos_Some.
    destruct (nth_error xs i) as [[m li]|]; [|lia]. unfold ty; cbn [fst].
    destruct (if filt rv then _ else _); [|destruct (eqb _ _); lia].
    match goal with |- context [fold_left _ ?R (fold_left _ ?Lf st)] =>
      pose proof (slots_row (get_type m) R (fold_left (col_slot get_colloc (get_type m)) Lf st) t) as S1;
      pose proof (slots_row (get_type m) Lf st t) as S2 end.
    cbn [winat left right] in S1, S2 |- *. rewrite map_length, seq_length in S1, S2. destruct (eqb (get_type m) t); lia.
  Qed.
  Lemma focs_row l r (xs : list wn) is t : forall st,
    (row_total (c_mtx st) t <= row_total (c_mtx (fold_left (foc (col_match get_type get_colloc rv) l r xs) is st)) t <=
     row_total (c_mtx st) t + Z.of_nat (l + r) * Z.of_nat (length (filter (fun i => has ty xs i t) is)))%Z.
  Proof.
    induction is as [|i is IH]; intros st; cbn [fold_left filter length]; [lia|].
    specialize (IH (foc (col_match get_type get_colloc rv) l r xs st i)). pose proof (foc_row l r xs st i t).
    destruct (has ty xs i t); cbn [length]; nia.
  Qed.
  Lemma has_count (xs : list wn) k t : k <= length xs ->
    length (filter (fun i => has ty xs i t) (seq 0 k)) <= count t (map ty xs).
  Proof.
    intros Hk. rewrite (filter_has_seq ty xs t k 0). cbn [skipn].
    rewrite <- (firstn_skipn k xs) at 2. rewrite map_app, count_app. lia.
  Qed.
  Lemma col_segs_row l r (segs : list (list wn)) t : forall st st',
    rfold (seg_res (col_match get_type get_colloc rv) (col_flush_res get_type get_colloc rv) l r) segs st = Ok st' ->
    (row_total (c_mtx st) t <= row_total (c_mtx st') t <=
     row_total (c_mtx st) t + Z.of_nat (l + r) * Z.of_nat (count t (map ty (concat segs))))%Z.
  Proof.
    induction segs as [|xs segs IH]; intros st st' E; cbn [rfold] in E.
    - injection E as <-. cbn. lia.
    - rewrite col_seg in E. cbn [rbind] in E. specialize (IH _ _ E).
      pose proof (focs_row l r xs (seq 0 (nfoci r (length xs))) t st) as F.
      pose proof (has_count xs (nfoci r (length xs)) t (nfoci_le _ _)) as C.
      cbn [concat]. rewrite map_app, count_app.
      pose proof (Z.mul_le_mono_nonneg_l _ _ (Z.of_nat (l + r)) (Zle_0_nat _) (inj_le _ _ C)).
      rewrite (Nat2Z.inj_add (count _ _)), Z.mul_add_distr_l. lia.
  Qed.
End Rows.

(** ** Segments *)
Section Segs.
  Context {L M : Type} (match_line : L -> option M) (separator : L -> bool).
  Lemma segments_concat lid lines : map fst (concat (segments_from match_line separator lid lines)) = matches_of match_line lines.
  Proof.
    revert lid. induction lines as [|x lines IH]; intros lid; cbn [segments_from]; [reflexivity|].
    unfold matches_of. cbn [flat_map]. fold (matches_of match_line lines). rewrite <- (IH (S lid)).
    destruct (match_line x) as [m|].
    - destruct (segments_from_cons match_line separator (S lid) lines) as (seg & segs & ->). reflexivity.
    - destruct (separator x); reflexivity.
  Qed.
  Lemma segments_app lid a s b : match_line s = None -> separator s = true ->
    segments_from match_line separator lid (a ++ s :: b) =
    segments_from match_line separator lid a ++ segments_from match_line separator (lid + length a + 1) b.
  Proof.
    intros Hm Hs. revert lid. induction a as [|x a IH]; intros lid.
    - cbn [app segments_from length]. rewrite Hm, Hs. cbn. do 2 f_equal. lia.
    - cbn [app segments_from length]. rewrite IH.
      replace (S lid + length a + 1) with (lid + S (length a) + 1) by lia.
      destruct (match_line x).
      + destruct (segments_from_cons match_line separator (S lid) a) as (seg & segs & ->). reflexivity.
      + destruct (separator x); reflexivity.
  Qed.
  Lemma segments_shift lid lid' lines :
    map (map fst) (segments_from match_line separator lid lines) = map (map fst) (segments_from match_line separator lid' lines).
  Proof.
    revert lid lid'. induction lines as [|x lines IH]; intros lid lid'; [reflexivity|]. cbn [segments_from].
    specialize (IH (S lid) (S lid')).
    destruct (segments_from_cons match_line separator (S lid) lines) as (seg & segs & E).
    destruct (segments_from_cons match_line separator (S lid') lines) as (seg' & segs' & E'). rewrite E, E' in *.
    destruct (match_line x); [|destruct (separator x)]; cbn in *; congruence.
  Qed.
  Lemma segments_skip lid a x b : match_line x = None -> separator x = false ->
    map (map fst) (segments_from match_line separator lid (a ++ x :: b)) = map (map fst) (segments_from match_line separator lid (a ++ b)).
  Proof.
    intros Hm Hs. revert lid. induction a as [|y a IH]; intros lid; cbn [app segments_from].
    - rewrite Hm, Hs. apply segments_shift.
    - specialize (IH (S lid)).
      destruct (segments_from_cons match_line separator (S lid) (a ++ x :: b)) as (seg & segs & E).
      destruct (segments_from_cons match_line separator (S lid) (a ++ b)) as (seg' & segs' & E'). rewrite E, E' in *.
      destruct (match_line y); [|destruct (separator y)]; cbn in *; congruence.
  Qed.
End Segs.

(** Counts do not depend on line numbers. *)
Lemma has_map {A B} (f : A -> B) (g : B -> pystr) xs i t : has (fun x => g (f x)) xs i t = has g (map f xs) i t.
Proof. unfold has. rewrite nth_error_map. destruct (nth_error xs i); auto. Qed.
Lemma cooc_upto_map {A B} (f : A -> B) (ty co : B -> pystr) k l r xs t c :
  cooc_upto k (fun x => ty (f x)) (fun x => co (f x)) l r xs t c = cooc_upto k ty co l r (map f xs) t c.
Proof.
  unfold cooc_upto, npairs. rewrite map_length. f_equal. apply filter_ext. intros [i j]. cbn [fst snd].
  rewrite (has_map f ty), (has_map f co). auto.
Qed.
Lemma cooc_map {A B} (f : A -> B) (ty co : B -> pystr) l r xs t c :
  cooc (fun x => ty (f x)) (fun x => co (f x)) l r xs t c = cooc ty co l r (map f xs) t c.
Proof. rewrite <- !cooc_upto_all, cooc_upto_map, map_length. auto. Qed.

(** ** Symmetry of the pair count *)
Lemma npairs_swap n P : npairs n P = npairs n (fun i j => P j i).
Proof.
  unfold npairs. rewrite <- (map_length (fun ij => (snd ij, fst ij)) (filter (fun ij => P (fst ij) (snd ij)) _)).
  apply Permutation_length. apply NoDup_Permutation.
  - apply FinFun.Injective_map_NoDup; [intros [a b] [c d] E; cbn in E; congruence|].
    apply NoDup_filter. apply NoDup_list_prod; apply seq_NoDup.
  - apply NoDup_filter. apply NoDup_list_prod; apply seq_NoDup.
  - intros [i j]. rewrite in_map_iff, filter_In, in_prod_iff. cbn [fst snd]. split.
    + intros ([a b] & E & H). cbn in E. injection E as <- <-. apply filter_In in H. rewrite in_prod_iff in H. cbn in H. tauto.
    + intros [[H1 H2] H3]. exists (j, i). split; auto. apply filter_In. rewrite in_prod_iff. cbn. tauto.
Qed.
Lemma cooc_sym {A} (ty : A -> pystr) s xs t c : cooc ty ty s s xs t c = cooc ty ty s s xs c t.
Proof.
  unfold cooc. rewrite npairs_swap. unfold npairs. f_equal. apply filter_ext. intros [i j]. cbn [fst snd].
  unfold in_window. rewrite Nat.eqb_sym. 
  destruct (has ty xs j t), (has ty xs i c), (Nat.leb_spec j (i + s)), (Nat.leb_spec i (j + s)); cbn; auto;
    destruct (i =? j); auto.
Qed.

(** Foci actually processed, in the words of the property. *)
Lemma cooc_upto_nfoci {A} (ty co : A -> pystr) l r xs t c :
  cooc_upto (nfoci r (length xs)) ty co l r xs t c = cooc_upto (foci_spec r (length xs)) ty co l r xs t c.
Proof.
  unfold nfoci, foci_spec. destruct (Nat.leb_spec (length xs) r) as [H|H].
  - destruct (Nat.leb_spec 2 (length xs)) as [H2|H2]; cbn [andb]; auto.
    rewrite cooc_upto_all, cooc_single by lia.
    destruct (length xs) as [|[|]] eqn:E; try lia; unfold cooc_upto; rewrite E; reflexivity.
  - rewrite andb_false_r. auto.
Qed.

(** ** Closed statements about one file *)
Section Closed.
  Context {L M : Type} (match_line : L -> option M) (separator : L -> bool) (get_type get_colloc : M -> pystr).
  Notation segs := (segments match_line separator).
  Notation col_run := (col_update_one_file match_line separator get_type get_colloc).
  Notation pairs k l r xs t c := (cooc_upto k (fun x : M * nat => get_type (fst x)) (fun x => get_colloc (fst x)) l r xs t c).
  Notation allpairs l r xs t c := (cooc (fun x : M * nat => get_type (fst x)) (fun x => get_colloc (fst x)) l r xs t c).

  Lemma counts_exact rv l r lines st : exists st', col_run rv l r lines st = Ok st' /\
    forall t c, cell (c_mtx st') t c = (cell (c_mtx st) t c +
      if allowed rv t && allowed (c_col st) c
      then Z.of_nat (sumn (map (fun xs => pairs (foci_spec r (length xs)) l r xs t c) (segs lines))) else 0)%Z.
  Proof.
    destruct (col_file match_line separator get_type get_colloc rv l r lines st) as (st' & E & _ & C).
    exists st'. split; auto. intros t c. rewrite C. destruct (_ && _); auto. do 2 f_equal.
    apply sumn_map_ext. intros xs _. apply cooc_upto_nfoci.
  Qed.
  Lemma counts_long rv l r lines st :
    (forall xs, In xs (segs lines) -> length xs <= 1 \/ r < length xs) ->
    exists st', col_run rv l r lines st = Ok st' /\
    forall t c, cell (c_mtx st') t c = (cell (c_mtx st) t c +
      if allowed rv t && allowed (c_col st) c then Z.of_nat (sumn (map (fun xs => allpairs l r xs t c) (segs lines))) else 0)%Z.
  Proof.
    intros H. destruct (counts_exact rv l r lines st) as (st' & E & C). exists st'. split; auto.
    intros t c. rewrite C. destruct (_ && _); auto. do 2 f_equal. apply sumn_map_ext. intros xs I.
    unfold foci_spec. destruct (H xs I) as [H1|H1].
    - destruct (Nat.leb_spec 2 (length xs)); [lia|]. apply cooc_upto_all.
    - destruct (Nat.leb_spec (length xs) r); [lia|]. rewrite andb_false_r. apply cooc_upto_all.
  Qed.
  (** Never more than the number of pairs. *)
  Lemma counts_upper rv l r lines st : exists st', col_run rv l r lines st = Ok st' /\
    forall t c, (cell (c_mtx st) t c <= cell (c_mtx st') t c <= cell (c_mtx st) t c +
       Z.of_nat (sumn (map (fun xs => allpairs l r xs t c) (segs lines))))%Z.
  Proof.
    destruct (counts_exact rv l r lines st) as (st' & E & C). exists st'. split; auto.
    intros t c. rewrite C. assert (LE : sumn (map (fun xs => pairs (foci_spec r (length xs)) l r xs t c) (segs lines)) <=
      sumn (map (fun xs => allpairs l r xs t c) (segs lines))).
    { clear. induction (segs lines) as [|xs xss IH]; cbn [map sumn]; auto. apply Nat.add_le_mono; auto.
      unfold cooc_upto, cooc, npairs. clear. induction (list_prod _ _) as [|[i j] ps IH]; cbn [filter]; auto. cbn [fst snd].
      destruct (i <? foci_spec r (length xs)); cbn [andb].
      - destruct (_ && in_window l r i j); cbn [length]; lia.
      - destruct (_ && in_window l r i j); cbn [length]; lia. }
    destruct (_ && _); lia.
  Qed.
  Lemma filter_restricts rv cv l r lines st stu :
    col_run rv l r lines (ColSt [] cv) = Ok st ->
    col_run (vocab_init false []) l r lines (ColSt [] (vocab_init false [])) = Ok stu ->
    forall t c, cell (c_mtx st) t c = if allowed rv t && allowed cv c then cell (c_mtx stu) t c else 0%Z.
  Proof.
    intros E1 E2 t c.
    destruct (counts_exact rv l r lines (ColSt [] cv)) as (s1 & F1 & C1).
    destruct (counts_exact (vocab_init false []) l r lines (ColSt [] (vocab_init false []))) as (s2 & F2 & C2).
    assert (s1 = st) by congruence. assert (s2 = stu) by congruence. subst s1 s2. rewrite C1, C2. cbn.
    destruct (allowed rv t && allowed cv c); lia.
  Qed.
  Lemma separator_isolates rv cv l r a s b sa sb sab : match_line s = None -> separator s = true ->
    col_run rv l r a (ColSt [] cv) = Ok sa -> col_run rv l r b (ColSt [] cv) = Ok sb ->
    col_run rv l r (a ++ s :: b) (ColSt [] cv) = Ok sab ->
    forall t c, cell (c_mtx sab) t c = (cell (c_mtx sa) t c + cell (c_mtx sb) t c)%Z.
  Proof.
    intros Hm Hs E1 E2 E3 t c.
    destruct (counts_exact rv l r a (ColSt [] cv)) as (s1 & F1 & C1).
    destruct (counts_exact rv l r b (ColSt [] cv)) as (s2 & F2 & C2).
    destruct (counts_exact rv l r (a ++ s :: b) (ColSt [] cv)) as (s3 & F3 & C3).
    assert (s1 = sa) by congruence. assert (s2 = sb) by congruence. assert (s3 = sab) by congruence. subst s1 s2 s3.
    rewrite C1, C2, C3. unfold segments. rewrite segments_app by auto. rewrite map_app, sumn_app.
    assert (SH : forall lid, sumn (map (fun xs => pairs (foci_spec r (length xs)) l r xs t c) (segments_from match_line separator lid b)) =
                 sumn (map (fun xs => pairs (foci_spec r (length xs)) l r xs t c) (segments_from match_line separator 0 b))).
    { intros lid.
      assert (G : forall lid, map (fun xs => pairs (foci_spec r (length xs)) l r xs t c) (segments_from match_line separator lid b) =
        map (fun xs => cooc_upto (foci_spec r (length xs)) get_type get_colloc l r xs t c) (map (map fst) (segments_from match_line separator lid b))).
      { intros z. rewrite map_map. apply map_ext. intros xs. rewrite map_length. apply (cooc_upto_map fst get_type get_colloc). }
      rewrite !G. do 2 f_equal. apply segments_shift. }
    rewrite SH. cbn [c_mtx c_col]. destruct (_ && _); cbn; lia.
  Qed.
  Lemma other_line_ignored rv cv l r a x b sa sb : match_line x = None -> separator x = false ->
    col_run rv l r (a ++ x :: b) (ColSt [] cv) = Ok sa -> col_run rv l r (a ++ b) (ColSt [] cv) = Ok sb ->
    forall t c, cell (c_mtx sa) t c = cell (c_mtx sb) t c.
  Proof.
    intros Hm Hs E1 E2 t c.
    destruct (counts_exact rv l r (a ++ x :: b) (ColSt [] cv)) as (s1 & F1 & C1).
    destruct (counts_exact rv l r (a ++ b) (ColSt [] cv)) as (s2 & F2 & C2).
    assert (s1 = sa) by congruence. assert (s2 = sb) by congruence. subst s1 s2. rewrite C1, C2.
    cbn [c_mtx c_col]. destruct (_ && _); [|lia]. do 3 f_equal.
    assert (G : forall ls, map (fun xs => pairs (foci_spec r (length xs)) l r xs t c) (segs ls) =
        map (fun xs => cooc_upto (foci_spec r (length xs)) get_type get_colloc l r xs t c) (map (map fst) (segs ls))).
    { intros ls. rewrite map_map. apply map_ext. intros xs. rewrite map_length. apply (cooc_upto_map fst get_type get_colloc). }
    rewrite !G. f_equal. apply segments_skip; auto.
  Qed.
  Lemma row_bound rv cv l r lines st t : col_run rv l r lines (ColSt [] cv) = Ok st ->
    (row_total (c_mtx st) t <= Z.of_nat (l + r) * Z.of_nat (count t (map get_type (matches_of match_line lines))))%Z.
  Proof.
    unfold col_update_one_file. rewrite update_one_file_segments. intros E.
    pose proof (col_segs_row get_type get_colloc rv l r _ t _ _ E) as H.
    rewrite <- (segments_concat match_line separator 0). rewrite map_map.
    eapply Z.le_trans; [apply H|]. apply Z.eq_le_incl. reflexivity.
  Qed.

  (** Tokens *)
  Lemma tok_init_get qs t : dget (@tok_init M qs) t = if mem t qs then Some [] else None.
  Proof.
    unfold tok_init, dict_of. assert (G : forall d : @tokdict M, (forall k v, dget d k = Some v -> v = []) ->
      dget (fold_left (fun d kv => dset d (fst kv) (snd kv)) (map (fun q => (q, [])) qs) d) t =
      if mem t qs then Some [] else dget d t).
    { induction qs as [|q qs IH]; intros d H; cbn [map fold_left]; [reflexivity|]. rewrite IH; cbn [fst snd].
      - unfold mem. cbn [existsb]. unfold mem in *. destruct (existsb (eqb t) qs); [rewrite orb_true_r; auto|].
        rewrite orb_false_r, dget_dset. unfold eqb. destruct (eqdec t q); auto.
      - intros k v. rewrite dget_dset. destruct (eqdec k q); [congruence|apply H]. }
    rewrite G by (cbn; congruence). cbn. auto.
  Qed.
  Lemma tokens_exact cv l r lines qs : 0 < r ->
    exists d, tok_update_one_file match_line separator get_type get_colloc cv l r lines (tok_init qs) = Ok d /\
      forall t, dget d t =
        if mem t qs
        then Some (flat_map (seg_tokens get_type (fun x => if v_len cv =? 0 then true else v_contains cv (get_colloc (fst x))) l r t) (segs lines))
        else None.
  Proof.
    intros R. destruct (tok_file match_line separator get_type get_colloc cv l r lines (tok_init qs)) as (d & E & _ & G); [lia|].
    exists d. split; auto. intros t. rewrite G, tok_init_get. destruct (mem t qs); auto.
  Qed.
  Lemma seg_tokens_nodes keep l r t xs :
    map tk_node (seg_tokens get_type keep l r t xs) = filter (fun x => eqb (get_type (fst x)) t) xs.
  Proof.
    unfold seg_tokens. set (F := fun i => _).
    assert (G : forall pre post, xs = pre ++ post -> map tk_node (flat_map F (seq (length pre) (length post))) =
      filter (fun x => eqb (get_type (fst x)) t) post).
    { intros pre post. revert pre. induction post as [|x post IH]; intros pre E; [reflexivity|].
      cbn [length seq flat_map filter]. rewrite map_app. 
      specialize (IH (pre ++ [x])). rewrite app_length in IH. cbn [length] in IH.
      replace (length pre + 1) with (S (length pre)) in IH by lia. rewrite IH by (rewrite <- app_assoc; auto).
      unfold F. rewrite E, nth_error_app2, Nat.sub_diag by lia. cbn [nth_error].
      destruct (eqb (get_type (fst x)) t); auto. }
    apply (G [] xs). auto.
  Qed.
  Lemma tokens_each_once cv l r lines qs d t toks : 0 < r ->
    tok_update_one_file match_line separator get_type get_colloc cv l r lines (tok_init qs) = Ok d ->
    dget d t = Some toks ->
    map tk_node toks = filter (fun x => eqb (get_type (fst x)) t) (concat (segs lines)) /\
    length toks = count t (map get_type (matches_of match_line lines)).
  Proof.
    intros R E G. destruct (tokens_exact cv l r lines qs R) as (d' & E' & G'). assert (d' = d) by congruence. subst d'.
    rewrite G' in G. destruct (mem t qs); [|discriminate]. injection G as <-.
    assert (N : map tk_node (flat_map (seg_tokens get_type (fun x => if v_len cv =? 0 then true else v_contains cv (get_colloc (fst x))) l r t) (segs lines)) =
       filter (fun x => eqb (get_type (fst x)) t) (concat (segs lines))).
    { clear. induction (segs lines) as [|xs xss IH]; [reflexivity|]. cbn [flat_map concat].
      rewrite map_app, filter_app, IH, seg_tokens_nodes. auto. }
    split; auto. rewrite <- (map_length tk_node), N. rewrite <- (segments_concat match_line separator 0). fold (segs lines).
    clear. induction (concat (segs lines)) as [|x xs IH]; [reflexivity|]. cbn [filter map count].
    unfold eqb at 1. destruct (eqdec (get_type (fst x)) t), (eqdec t (get_type (fst x))); try congruence; cbn [length]; rewrite IH; auto.
  Qed.

  (** Item frequencies *)
  Lemma item_freq files : forall k,
    dget (if_process_results (map (if_do_process_job match_line get_type) files)) k =
    let n := count k (map get_type (matches_of match_line (concat files))) in
    if n =? 0 then None else Some (Z.of_nat n).
  Proof.
    intros k. unfold if_process_results. rewrite if_results.
    2:{ rewrite Forall_forall. intros d I. apply in_map_iff in I. destruct I as (f & <- & _).
        unfold if_do_process_job. apply if_file_wf. constructor. }
    cbn [dget]. cbv zeta.
    assert (M1 : forall f fs, matches_of match_line (f ++ fs) = matches_of match_line f ++ matches_of match_line fs)
      by (intros; apply flat_map_app).
    assert (G : forall fs, sumZ (flat_map (fun d : dict pystr Z => match dget d k with Some f => [f] | None => [] end)
        (map (if_do_process_job match_line get_type) fs)) = Z.of_nat (count k (map get_type (matches_of match_line (concat fs)))) /\
      (flat_map (fun d : dict pystr Z => match dget d k with Some f => [f] | None => [] end)
        (map (if_do_process_job match_line get_type) fs) = [] <-> count k (map get_type (matches_of match_line (concat fs))) = 0)).
    { induction fs as [|f fs [IH1 IH2]]; [cbn; intuition|]. cbn [map flat_map concat].
      rewrite M1, map_app, count_app, sumZ_app, IH1. clear IH1.
      pose proof (if_file match_line get_type (vocab_init false []) f k) as V. cbv zeta in V. unfold vget at 1 in V.
      fold (if_do_process_job match_line get_type f) in V. rewrite V. clear V.
      destruct (Nat.eqb_spec (count k (map get_type (matches_of match_line f))) 0) as [N|N].
      - change (vget (vocab_init false []) k) with (@None Z). cbn [app]. rewrite N. split; [cbn; lia|].
        rewrite IH2. lia.
      - change (sval (vget (vocab_init false [])) k) with 0%Z. split; [cbn; lia|]. cbn [app]. split; [discriminate|lia]. }
    destruct (G files) as [G1 G2]. clear G M1.
    destruct (flat_map _ _) as [|f fs] eqn:E.
    - destruct (Nat.eqb_spec (count k (map get_type (matches_of match_line (concat files)))) 0) as [N|N]; auto.
      exfalso. apply N. apply G2. auto.
    - destruct (Nat.eqb_spec (count k (map get_type (matches_of match_line (concat files)))) 0) as [N|N].
      + apply G2 in N. discriminate.
      + rewrite <- G1. f_equal.
  Qed.
End Closed.

Lemma counts_symmetric {L M} (match_line : L -> option M) separator (ty : M -> pystr) v s lines st :
  (forall xs, In xs (segments match_line separator lines) -> length xs <= 1 \/ s < length xs) ->
  col_update_one_file match_line separator ty ty v s s lines (ColSt [] v) = Ok st ->
  forall t c, cell (c_mtx st) t c = cell (c_mtx st) c t.
Proof.
  intros H E t c. destruct (counts_long match_line separator ty ty v s s lines (ColSt [] v) H) as (st' & E' & C).
  assert (st' = st) by congruence. subst st'. rewrite !C. cbn [c_mtx c_col]. rewrite (andb_comm (allowed v c)).
  destruct (_ && _); [|reflexivity]. cbn. f_equal. f_equal. apply map_ext. intros xs. apply cooc_sym.
Qed.
