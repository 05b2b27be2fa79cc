(** * Proofs about ItemFreqHandler, TokenHandler and derived facts about ColFreqHandler, one file. *)
From Coq Require Import NArith ZArith Bool Arith Lia Permutation List.
From Verif Require Import Base BaseLemmas VocabModel VocabSpec VocabProofs CorpusModel CorpusSpec CorpusProofs CorpusSegProofs CorpusColProofs.
Import ListNotations.

(** ** Tokens *)
Section Tok.
  Context {M : Type} (get_type get_colloc : M -> pystr) (cv : vocab).
  Notation wn := (@wnode M).
  Definition tok_keep (x : wn) : bool := if v_len cv =? 0 then true else v_contains cv (get_colloc (fst x)).

  Lemma tok_match_none d w : node w = None -> tok_match get_type get_colloc cv d w = d.
  Proof. unfold tok_match. intros ->. auto. Qed.

  Definition foc_token (l r : nat) (xs : list wn) (i : nat) (t : pystr) : list (@token M) :=
    match nth_error xs i with
    | Some x => if eqb (get_type (fst x)) t
                then [{| tk_node := x; tk_left := filter tok_keep (left_ctx l xs i); tk_right := filter tok_keep (right_ctx r xs i) |}]
                else []
    | None => []
    end.

  Lemma foc_tok l r (xs : list wn) d i t :
    dget (foc (tok_match get_type get_colloc cv) l r xs d i) t =
    match dget d t with Some toks => Some (toks ++ foc_token l r xs i t) | None => None end.
  Proof.
    unfold foc, tok_match, foc_token. cbn [winat node]. rewrite at_pos_Some.
    destruct (nth_error xs i) as [[m li]|]; [|destruct (dget d t); rewrite ?app_nil_r; auto]. cbn [fst].
    destruct (dget d (get_type m)) as [toks|] eqn:E.
    - rewrite dget_dset.
      change (map (fun k => at_pos (map Some xs) (Z.of_nat i - Z.of_nat l + Z.of_nat k)) (seq 0 l))
        with (left (winat l r (map Some xs) (Z.of_nat i))).
      change (map (fun k => at_pos (map Some xs) (Z.of_nat i + 1 + Z.of_nat k)) (seq 0 r))
        with (right (winat l r (map Some xs) (Z.of_nat i))).
      rewrite winat_left, winat_right.
      assert (K : forall ys, filter (if v_len cv =? 0 then fun _ => true else fun x : wn => v_contains cv (get_colloc (fst x))) ys = filter tok_keep ys).
      { intros ys. apply filter_ext. intros x. unfold tok_keep. destruct (v_len cv =? 0); auto. }
      rewrite !K. unfold eqb. destruct (eqdec t (get_type m)) as [->|N].
      + rewrite E. destruct (eqdec (get_type m) (get_type m)); [auto|congruence].
      + destruct (eqdec (get_type m) t); [congruence|]. destruct (dget d t); rewrite ?app_nil_r; auto.
    - destruct (eqb (get_type m) t) eqn:T; [apply eqb_true in T; subst; rewrite E; auto|].
      destruct (dget d t); rewrite ?app_nil_r; auto.
  Qed.
  Lemma focs_tok l r (xs : list wn) is : forall d t,
    dget (fold_left (foc (tok_match get_type get_colloc cv) l r xs) is d) t =
    match dget d t with Some toks => Some (toks ++ flat_map (fun i => foc_token l r xs i t) is) | None => None end.
  Proof.
    induction is as [|i is IH]; intros d t; cbn [fold_left flat_map].
    - destruct (dget d t); rewrite ?app_nil_r; auto.
    - rewrite IH, foc_tok. destruct (dget d t); auto. rewrite app_assoc. auto.
  Qed.
  Lemma tok_match_keys d w : dkeys (tok_match get_type get_colloc cv d w) = dkeys d.
  Proof.
    unfold tok_match. destruct (node w) as [[m li]|]; auto. destruct (dget d (get_type m)) eqn:E; auto.
    rewrite dkeys_dset. unfold dmem. rewrite E. auto.
  Qed.
  Lemma focs_keys l r xs is : forall d, dkeys (fold_left (foc (tok_match get_type get_colloc cv) l r xs) is d) = dkeys d.
  Proof. induction is; cbn [fold_left]; intros; auto. rewrite IHis. apply tok_match_keys. Qed.

  Lemma tok_seg l r (xs : list wn) d :
    seg_res (tok_match get_type get_colloc cv) (tok_flush get_type get_colloc cv) l r d xs =
    if (r =? 0) && (length xs =? 0) then Err IndexError
    else Ok (fold_left (foc (tok_match get_type get_colloc cv) l r xs) (seq 0 (length xs)) d).
  Proof.
    unfold seg_res, seg_loop. rewrite (loop_run _ tok_match_none). cbn [fst snd]. set (n := length xs).
    unfold tok_flush. destruct (Nat.leb_spec n r) as [H|H].
    - rewrite node_none by (fold n; lia). replace (n - r) with 0 by lia. cbn [seq fold_left].
      unfold last_right. cbn [winat right]. destruct r as [|r'] eqn:R.
      + assert (n = 0) by lia. replace n with 0 by lia. cbn. auto.
      + rewrite <- R in *. replace (r =? 0) with false by (destruct (Nat.eqb_spec r 0); lia). cbn [andb].
        replace r with (r' + 1) at 1 by lia. rewrite seq_app, map_app, rev_app_distr. cbn [seq map rev app rbind].
        fold (winat l r (map Some xs) (Z.of_nat n - 1 - Z.of_nat r)).
        replace (Z.of_nat n - 1 - Z.of_nat r + 1 + Z.of_nat (0 + r'))%Z with (Z.of_nat n - 1)%Z by lia.
        destruct (Nat.eq_dec n 0) as [N0|N0].
        * rewrite at_pos_neg by lia. unfold tok_flush_normal. cbn [winat right_span].
          fold (winat l r (map Some xs) (Z.of_nat n - 1 - Z.of_nat r)).
          cbn [while_fuel fst]. rewrite node_none by (fold n; lia). cbn [is_some option_map snd].
          rewrite N0. cbn. auto.
        * replace (Z.of_nat n - 1)%Z with (Z.of_nat (n - 1)) by lia. rewrite at_pos_Some.
          destruct (nth_error xs (n - 1)) eqn:E; [|apply nth_error_None in E; fold n in E; lia].
          unfold tok_flush_special. cbn [winat right_span].
          fold (winat l r (map Some xs) (Z.of_nat n - 1 - Z.of_nat r)).
          replace (Z.of_nat (n - 1) - Z.of_nat r)%Z with (- Z.of_nat (r + 1 - n))%Z by lia.
          replace (Z.of_nat n - 1 - Z.of_nat r)%Z with (- Z.of_nat (r + 1 - n))%Z by lia.
          rewrite (shift_unbounded l r xs) by (fold n; lia).
          change 0%Z with (Z.of_nat 0). cbn [winat right_span].
          fold (winat l r (map Some xs) (Z.of_nat 0)).
          rewrite (drain_special _ l r xs n) by (fold n; lia). reflexivity.
    - replace (n =? 0) with false by (destruct (Nat.eqb_spec n 0); lia). rewrite andb_false_r.
      replace (Z.of_nat n - 1 - Z.of_nat r)%Z with (Z.of_nat (n - 1 - r)) by lia.
      destruct (node_some l r xs (n - 1 - r)) as [x E]; [fold n; lia|]. rewrite E.
      unfold tok_flush_normal. cbn [winat right_span]. fold (winat l r (map Some xs) (Z.of_nat (n - 1 - r))).
      rewrite (drain_normal _ tok_match_none l r xs (S r) (n - 1 - r)) by (fold n; lia).
      cbn [option_map snd]. rewrite <- fold_left_app. do 2 f_equal.
      replace (seq 0 n) with (seq 0 ((n - r) + r)) by (f_equal; lia). rewrite seq_app. do 2 f_equal; lia.
  Qed.

  Lemma foc_tokens_seg l r xs t :
    flat_map (fun i => foc_token l r xs i t) (seq 0 (length xs)) = seg_tokens get_type tok_keep l r t xs.
  Proof. reflexivity. Qed.

  Lemma tok_segs l r (segs : list (list wn)) : forall d,
    (r = 0 -> ~ In [] segs) ->
    exists d', rfold (seg_res (tok_match get_type get_colloc cv) (tok_flush get_type get_colloc cv) l r) segs d = Ok d' /\
      dkeys d' = dkeys d /\
      forall t, dget d' t = match dget d t with
                            | Some toks => Some (toks ++ flat_map (seg_tokens get_type tok_keep l r t) segs)
                            | None => None
                            end.
  Proof.
    induction segs as [|xs segs IH]; intros d H; cbn [rfold].
    - exists d. split; auto. split; auto. intros t. destruct (dget d t); cbn; rewrite ?app_nil_r; auto.
    - rewrite tok_seg. destruct ((r =? 0) && (length xs =? 0)) eqn:E.
      + apply andb_true_iff in E. destruct E as [E1 E2]. apply Nat.eqb_eq in E1, E2. exfalso. apply (H E1).
        destruct xs; [left; auto|discriminate].
      + cbn [rbind]. destruct (IH (fold_left (foc (tok_match get_type get_colloc cv) l r xs) (seq 0 (length xs)) d)) as (d' & E1 & E2 & E3).
        { intros R I. apply (H R). right; auto. }
        exists d'. split; auto. split; [rewrite E2; apply focs_keys|]. intros t. rewrite E3, focs_tok, foc_tokens_seg.
        destruct (dget d t); auto. cbn [flat_map]. rewrite app_assoc. auto.
  Qed.
  Lemma tok_segs_err l r (segs : list (list wn)) : forall d, r = 0 -> In [] segs ->
    rfold (seg_res (tok_match get_type get_colloc cv) (tok_flush get_type get_colloc cv) l r) segs d = Err IndexError.
  Proof.
    induction segs as [|xs segs IH]; intros d H I; cbn [rfold]; [destruct I|].
    rewrite tok_seg, H. cbn [Nat.eqb andb]. destruct (Nat.eqb_spec (length xs) 0) as [E|E]; auto.
    cbn [rbind]. subst r. apply IH; auto. destruct I as [->|I]; auto. cbn in E. lia.
  Qed.
End Tok.

Section TokFile.
  Context {L M : Type} (match_line : L -> option M) (separator : L -> bool) (get_type get_colloc : M -> pystr).
  Lemma tok_file (cv : vocab) l r lines d :
    (r = 0 -> ~ In [] (segments match_line separator lines)) ->
    exists d', tok_update_one_file match_line separator get_type get_colloc cv l r lines d = Ok d' /\
      dkeys d' = dkeys d /\
      forall t, dget d' t = match dget d t with
        | Some toks => Some (toks ++ flat_map (seg_tokens get_type (tok_keep get_colloc cv) l r t) (segments match_line separator lines))
        | None => None
        end.
  Proof. unfold tok_update_one_file. rewrite update_one_file_segments. apply tok_segs. Qed.
  Lemma tok_file_fails (cv : vocab) l r lines d :
    tok_update_one_file match_line separator get_type get_colloc cv l r lines d = Err IndexError <->
    r = 0 /\ In [] (segments match_line separator lines).
  Proof.
    split.
    - intros E. destruct (Nat.eq_dec r 0) as [R|R].
      + split; auto. destruct (in_dec (list_eq_dec (fun a b : nat => Nat.eq_dec a b)) [] (map (map snd) (segments match_line separator lines))) as [I|I].
        * apply in_map_iff in I. destruct I as (xs & E1 & I). destruct xs; [auto|discriminate].
        * destruct (tok_file cv l r lines d) as (d' & E' & _); [|congruence].
          intros _ C. apply I. apply in_map_iff. exists []. auto.
      + destruct (tok_file cv l r lines d) as (d' & E' & _); [intros; lia|congruence].
    - intros [R I]. unfold tok_update_one_file. rewrite update_one_file_segments. apply tok_segs_err; auto.
  Qed.
End TokFile.

(** ** Item frequencies *)
Section Item.
  Context {L M : Type} (match_line : L -> option M) (get_type : M -> pystr).
  Lemma v_incr_get v k i k' : vget (v_incr v k i) k' = if eqdec k' k then Some (sval (vget v) k + i)%Z else vget v k'.
  Proof.
    unfold vget, v_incr, sval. cbn. destruct (dget (fd v) k) as [f|]; rewrite dget_dset; destruct (eqdec k' k); auto.
  Qed.
  Lemma if_file v lines : forall k,
    vget (if_update_one_file match_line get_type lines v) k =
    let n := count k (map get_type (matches_of match_line lines)) in
    if n =? 0 then vget v k else Some (sval (vget v) k + Z.of_nat n)%Z.
  Proof.
    unfold if_update_one_file. revert v. induction lines as [|x lines IH]; intros v k; cbn [fold_left]; [reflexivity|].
    rewrite IH. unfold matches_of. cbn [flat_map]. fold (matches_of match_line lines).
    destruct (match_line x) as [m|]; [|reflexivity]. cbn [map app count]. cbv zeta.
    set (n := count k (map get_type (matches_of match_line lines))).
    destruct (eqdec k (get_type m)) as [E|E].
    - subst k. cbn [Nat.add Nat.eqb]. destruct (Nat.eqb_spec n 0) as [N|N]; unfold sval; rewrite v_incr_get; destruct (eqdec (get_type m) (get_type m)); try congruence.
      + rewrite N. f_equal. 
      + f_equal. unfold sval. lia.
    - cbn [Nat.add]. unfold sval. rewrite v_incr_get. destruct (eqdec k (get_type m)); [congruence|]. reflexivity.
  Qed.
  Lemma if_file_wf v lines : dwf (fd v) -> dwf (fd (if_update_one_file match_line get_type lines v)).
  Proof.
    unfold if_update_one_file. revert v. induction lines as [|x lines IH]; intros v W; cbn [fold_left]; auto.
    apply IH. destruct (match_line x); auto. unfold v_incr. cbn. destruct (dget _ _); apply dwf_dset; auto.
  Qed.

  Lemma if_add_get r : dwf r -> forall v k, dget (if_add v r) k =
    match dget r k with
    | Some f => Some (match dget v k with Some n => n | None => 0 end + f)%Z
    | None => dget v k
    end.
  Proof.
    unfold if_add, dwf, dkeys. induction r as [|[k0 f0] r IH]; intros W v k; cbn [fold_left]; [reflexivity|].
    cbn in W. inversion W as [|? ? NI W']; subst. rewrite IH by auto. cbn [fst snd dget].
    set (v1 := if dmem v k0 then v else dset v k0 0%Z).
    assert (G : dget v1 k0 = Some (match dget v k0 with Some n => n | None => 0 end)%Z).
    { unfold v1, dmem. destruct (dget v k0) eqn:E; auto. rewrite dget_dset. destruct (eqdec k0 k0); congruence. }
    rewrite G. rewrite !dget_dset. destruct (eqdec k k0) as [->|N].
    - destruct (dget r k0) eqn:E; auto. exfalso. apply NI. apply dget_Some_In in E. apply in_map_iff. exists (k0, z). auto.
    - assert (G' : dget v1 k = dget v k).
      { unfold v1. destruct (dmem v k0); auto. rewrite dget_dset. destruct (eqdec k k0); congruence. }
      rewrite G'. auto.
  Qed.
  Lemma if_add_wf r : forall v, dwf v -> dwf (if_add v r).
  Proof.
    unfold if_add. induction r as [|[k0 f0] r IH]; intros v W; cbn [fold_left]; auto. apply IH. cbn [fst snd].
    assert (W1 : dwf (if dmem v k0 then v else dset v k0 0%Z)) by (destruct (dmem v k0); [auto|apply dwf_dset; auto]).
    destruct (dget _ _); auto. apply dwf_dset; auto.
  Qed.
  Lemma if_results results : Forall dwf results -> forall v k,
    dget (fold_left if_add results v) k =
    match flat_map (fun r => match dget r k with Some f => [f] | None => [] end) results with
    | [] => dget v k
    | fs => Some (match dget v k with Some n => n | None => 0 end + sumZ fs)%Z
    end.
  Proof.
    induction results as [|r results IH]; intros F v k; cbn [fold_left flat_map]; [reflexivity|].
    inversion F; subst. rewrite IH by auto. rewrite if_add_get by auto.
    destruct (dget r k) as [f|]; cbn [app].
    - destruct (flat_map _ results); cbn; f_equal; lia.
    - reflexivity.
  Qed.
End Item.
