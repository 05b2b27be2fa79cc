(** * From a corpus to scores *)
From Coq Require Import String NArith ZArith Bool Arith Lia Permutation Reals Lra List.
From Verif Require Import Base BaseLemmas VocabModel CorpusModel CorpusSpec CorpusColProofs CorpusMoreProofs MxModel MxSpec MxElemProofs MxCellProofs CalcModel CalcSpec CalcProofs CalcProofs2 CalcCellProofs
  ParModel ParProofs ParColModel ParColSpec ParColProofs PipeModel EndModel EndSpec.
Import ListNotations.
Local Open Scope nat_scope.

(** ** Counting in lists *)
Section Lists.
  Context {A : Type}.
  Lemma length_flat_map {B} (f : A -> list B) xs : length (flat_map f xs) = sumn (map (fun x => length (f x)) xs).
  Proof. induction xs as [|x xs IH]; cbn; [reflexivity|]. now rewrite app_length, IH. Qed.
  Lemma filter_flat_map {B} (p : B -> bool) (f : A -> list B) xs : filter p (flat_map f xs) = flat_map (fun x => filter p (f x)) xs.
  Proof. induction xs as [|x xs IH]; cbn; [reflexivity|]. now rewrite filter_app, IH. Qed.
  Lemma flat_map_length_filter (q : A -> bool) {B} (f : A -> list B) (p : B -> bool) xs :
    (forall x, In x xs -> length (filter p (f x)) = if q x then 1 else 0) -> length (filter p (flat_map f xs)) = length (filter q xs).
  Proof.
    induction xs as [|x xs IH]; intros H; [reflexivity|]. cbn [flat_map]. rewrite filter_app, app_length, H by now left. cbn [filter].
    rewrite IH by (intros; apply H; now right). destruct (q x); reflexivity.
  Qed.
  (** One filter for each of several different values adds up to one filter for all of them. *)
  Lemma count_split (p : A -> bool) (g : A -> pystr) (cols : list pystr) (xs : list A) : NoDup cols -> (forall x, In x xs -> p x = true -> In (g x) cols) ->
    sumZ (map (fun c => Z.of_nat (length (filter (fun x => p x && eqb (g x) c) xs))) cols) = Z.of_nat (length (filter p xs)).
  Proof.
    intros N. induction xs as [|x xs IH]; intros H.
    - cbn. clear. induction cols; cbn; lia.
    - assert (E : sumZ (map (fun c => Z.of_nat (length (filter (fun y => p y && eqb (g y) c) (x :: xs)))) cols) =
        (sumZ (map (fun c => if p x && eqb (g x) c then 1 else 0)%Z cols) + sumZ (map (fun c => Z.of_nat (length (filter (fun y => p y && eqb (g y) c) xs))) cols))%Z).
      { clear. induction cols as [|c cols IH]; [reflexivity|]. cbn [map sumZ]. cbn [map sumZ] in IH. rewrite IH. cbn [filter]. destruct (p x && eqb (g x) c); cbn [length]; lia. }
      rewrite E, IH by (intros; apply H; [now right|assumption]). cbn [filter]. clear IH E. destruct (p x) eqn:P.
      + assert (I : In (g x) cols) by (apply H; [now left|assumption]). cbn [length andb]. rewrite Nat2Z.inj_succ.
        enough (sumZ (map (fun c => if eqb (g x) c then 1 else 0)%Z cols) = 1)%Z by lia. clear H P.
        induction cols as [|c cols IH]; [contradiction|]. inversion N as [|? ? N1 N2]; subst. cbn [map sumZ]. destruct I as [->|I].
        * rewrite eqb_refl. enough (sumZ (map (fun c => if eqb (g x) c then 1 else 0)%Z cols) = 0)%Z by lia. clear - N1. induction cols as [|c cols IH]; [reflexivity|]. cbn [map sumZ].
          rewrite (proj2 (eqb_neq (g x) c)) by (intros Q; apply N1; now left). rewrite IH by (intros K; apply N1; now right). lia.
        * rewrite (proj2 (eqb_neq (g x) c)) by (intros Q; apply N1; now rewrite <- Q). rewrite IH by assumption. lia.
      + cbn [andb]. clear. enough (sumZ (map (fun _ : pystr => 0%Z) cols) = 0)%Z by lia. induction cols; cbn; lia.
  Qed.
End Lists.

(** ** Pairs *)
Section Pairs.
  Context {L M : Type} (match_line : L -> option M) (separator : L -> bool) (get_type get_colloc : M -> pystr) (rv cv : vocab) (l r : nat).
  Notation NP := (n_pairs match_line separator l r).
  Notation WP := (window_pairs match_line separator l r).
  Notation pairs := (corpus_pairs match_line separator get_type get_colloc rv cv l r).
  Notation tgt := (target get_type rv).
  Notation fea := (feature get_colloc cv).
  Notation ist := (is_target get_type rv).
  Notation isf := (is_feature get_colloc cv).

  Lemma seg_pairs_count (p : M * M -> bool) (xs : list M) :
    length (filter p (seg_pairs l r xs)) = npairs (length xs) (fun i j => (i <? foci_spec r (length xs)) && in_window l r i j &&
      match nth_error xs i, nth_error xs j with Some x, Some y => p (x, y) | _, _ => false end).
  Proof.
    unfold seg_pairs. rewrite npairs_sum, filter_flat_map, length_flat_map. f_equal. apply map_ext. intros i.
    apply flat_map_length_filter. intros j _. destruct ((i <? foci_spec r (length xs)) && in_window l r i j); cbn [andb]; [|reflexivity].
    destruct (nth_error xs i), (nth_error xs j); try reflexivity. cbn [filter]. destruct (p _); reflexivity.
  Qed.
  Lemma seg_pairs_cooc xs t c : length (filter (fun xy => eqb (get_type (fst xy)) t && eqb (get_colloc (snd xy)) c) (seg_pairs l r xs)) =
    cooc_upto (foci_spec r (length xs)) get_type get_colloc l r xs t c.
  Proof.
    rewrite seg_pairs_count. unfold cooc_upto, npairs. f_equal. apply filter_ext. intros [i j]. cbn [fst snd]. unfold has.
    destruct (nth_error xs i), (nth_error xs j); cbn [fst snd]; destruct (i <? _), (in_window l r i j); cbn [andb]; try reflexivity; rewrite ?andb_false_r, ?andb_true_r; reflexivity.
  Qed.
  Lemma n_pairs_files P Q contents : NP P Q contents = sumZ (map (fun f => NP P Q [f]) contents).
  Proof.
    unfold n_pairs, window_pairs. induction contents as [|f cs IH]; [reflexivity|]. cbn [map sumZ flat_map]. rewrite app_nil_r, flat_map_app, filter_app, app_length, Nat2Z.inj_add, IH. reflexivity.
  Qed.
  Lemma eqb_and t (x : M) : ist t x = dmem (fd rv) t && eqb (get_type x) t.
  Proof. unfold is_target, target. destruct (eqb (get_type x) t) eqn:E; [apply eqb_true in E; now subst|]. now rewrite !andb_false_r. Qed.
  Lemma eqb_andf c (y : M) : isf c y = (any_column cv || dmem (fd cv) c) && eqb (get_colloc y) c.
  Proof. unfold is_feature, feature. destruct (eqb (get_colloc y) c) eqn:E; [apply eqb_true in E; now subst|]. now rewrite !andb_false_r. Qed.
  Lemma file_pairs_count f t c : file_pairs match_line separator get_type get_colloc rv cv l r f t c = NP (ist t) (isf c) [f].
  Proof.
    unfold file_pairs, n_pairs, window_pairs. cbn [flat_map]. rewrite app_nil_r. unfold file_segs, wanted.
    rewrite (filter_ext _ (fun xy => (dmem (fd rv) t && (any_column cv || dmem (fd cv) c)) && (eqb (get_type (fst xy)) t && eqb (get_colloc (snd xy)) c))).
    2: { intros [x y]. cbn [fst snd]. rewrite eqb_and, eqb_andf. destruct (dmem (fd rv) t), (any_column cv || dmem (fd cv) c), (eqb (get_type x) t); reflexivity. }
    destruct (dmem (fd rv) t && (any_column cv || dmem (fd cv) c)).
    - f_equal. cbn [andb]. rewrite filter_flat_map, length_flat_map, map_map. f_equal. apply map_ext. intros xs. rewrite seg_pairs_cooc, map_length, <- (cooc_upto_map fst). reflexivity.
    - cbn [andb]. clear. induction (flat_map _ _); cbn; [reflexivity|assumption].
  Qed.
  Lemma corpus_pairs_count contents t c : pairs contents t c = NP (ist t) (isf c) contents.
  Proof. rewrite n_pairs_files. unfold corpus_pairs. f_equal. apply map_ext. intros f. apply file_pairs_count. Qed.
  Lemma n_pairs_nonneg P Q contents : (0 <= NP P Q contents)%Z. Proof. unfold n_pairs. lia. Qed.
  Lemma n_pairs_mono (P P' Q Q' : M -> bool) contents : (forall x, P x = true -> P' x = true) -> (forall y, Q y = true -> Q' y = true) -> (NP P Q contents <= NP P' Q' contents)%Z.
  Proof.
    intros HP HQ. unfold n_pairs. apply inj_le. induction (WP contents) as [|[x y] xs IH]; [cbn; lia|]. cbn [filter fst snd].
    specialize (HP x). specialize (HQ y). destruct (P x), (Q y); cbn [andb]; destruct (P' x), (Q' y); cbn [andb length]; try lia; try (specialize (HP eq_refl); discriminate); specialize (HQ eq_refl); discriminate.
  Qed.
  Lemma n_pairs_pos P Q contents : (0 < NP P Q contents)%Z <-> exists x y, In (x, y) (WP contents) /\ P x = true /\ Q y = true.
  Proof.
    unfold n_pairs. split.
    - intros H. destruct (filter _ (WP contents)) as [|[x y] xs] eqn:E; [cbn in H; lia|]. assert (I : In (x, y) (filter (fun xy => P (fst xy) && Q (snd xy)) (WP contents))) by (rewrite E; now left).
      apply filter_In in I as (I & B). apply andb_true_iff in B. exists x, y. tauto.
    - intros (x & y & I & A & B). assert (K : In (x, y) (filter (fun xy => P (fst xy) && Q (snd xy)) (WP contents))) by (apply filter_In; cbn [fst snd]; now rewrite A, B).
      destruct (filter _ _); [contradiction|cbn [length]; lia].
  Qed.

  Lemma some_pair contents : NP tgt fea contents <> 0%Z <-> exists t c, pairs contents t c <> 0%Z.
  Proof.
    split.
    - intros N. assert (P : (0 < NP tgt fea contents)%Z) by (pose proof (n_pairs_nonneg tgt fea contents); lia). apply n_pairs_pos in P as (x & y & I & A & B).
      exists (get_type x), (get_colloc y). rewrite corpus_pairs_count. enough (0 < NP (ist (get_type x)) (isf (get_colloc y)) contents)%Z by lia.
      apply n_pairs_pos. exists x, y. split; [exact I|]. unfold is_target, is_feature. rewrite A, B, !eqb_refl. auto.
    - intros (t & c & N) E. apply N. rewrite corpus_pairs_count. pose proof (n_pairs_nonneg (ist t) (isf c) contents). enough (NP (ist t) (isf c) contents <= NP tgt fea contents)%Z by lia.
      apply n_pairs_mono; intros x; unfold is_target, is_feature; intros B; now apply andb_true_iff in B.
  Qed.
  Lemma holds_items contents m : holds_counts rv cv (Some m) (pairs contents) ->
    corpus_rows rv (trows m) /\ corpus_cols match_line separator l r get_type get_colloc rv cv contents (tcols m).
  Proof.
    cbn [holds_counts]. intros (G & R & (C1 & C2 & C3) & V & NZ). split; [exact R|]. split; [exact C1|]. split; [exact C2|]. intros c. rewrite C3. destruct (any_column cv) eqn:A; [|reflexivity]. split.
    - intros (t & P). rewrite corpus_pairs_count in P. enough (NP (ist t) (isf c) contents <= NP tgt (isf c) contents)%Z by lia.
      apply n_pairs_mono; intros x; [unfold is_target; intros B; now apply andb_true_iff in B|auto].
    - intros P. apply n_pairs_pos in P as (x & y & I & B & D). exists (get_type x). rewrite corpus_pairs_count. apply n_pairs_pos. exists x, y. split; [exact I|]. unfold is_target. now rewrite B, D, eqb_refl.
  Qed.

  (** ** Marginals of the matrix of a corpus *)
  Variables (contents : list (list L)) (rows cols : list pystr).
  Hypothesis RS : corpus_rows rv rows.
  Hypothesis CS : corpus_cols match_line separator l r get_type get_colloc rv cv contents cols.
  Lemma feature_in x y : In (x, y) (WP contents) -> tgt x = true -> fea y = true -> In (get_colloc y) cols.
  Proof.
    intros I T F. apply CS. unfold feature in F. destruct (any_column cv) eqn:A.
    - apply n_pairs_pos. exists x, y. split; [exact I|]. split; [exact T|]. unfold is_feature, feature. rewrite A, eqb_refl. reflexivity.
    - exact F.
  Qed.
  Lemma row_marginal t : sumZ (map (fun c => pairs contents t c) cols) = NP (ist t) fea contents.
  Proof.
    rewrite (map_ext _ (fun c => NP (ist t) (isf c) contents)) by (intros; apply corpus_pairs_count). unfold n_pairs.
    rewrite (map_ext _ (fun c => Z.of_nat (length (filter (fun xy => (ist t (fst xy) && fea (snd xy)) && eqb (get_colloc (snd xy)) c) (WP contents))))).
    2: { intros c. do 2 f_equal. apply filter_ext. intros [x y]. cbn [fst snd]. unfold is_feature. apply andb_assoc. }
    apply (count_split (fun xy => ist t (fst xy) && fea (snd xy)) (fun xy => get_colloc (snd xy))); [apply CS|]. intros [x y] I B. cbn [fst snd] in *. apply andb_true_iff in B as (B1 & B2).
    apply (feature_in x); try assumption. unfold is_target in B1. now apply andb_true_iff in B1.
  Qed.
  Lemma col_marginal c : sumZ (map (fun t => pairs contents t c) rows) = NP tgt (isf c) contents.
  Proof.
    rewrite (map_ext _ (fun t => NP (ist t) (isf c) contents)) by (intros; apply corpus_pairs_count). unfold n_pairs.
    rewrite (map_ext _ (fun t => Z.of_nat (length (filter (fun xy => (tgt (fst xy) && isf c (snd xy)) && eqb (get_type (fst xy)) t) (WP contents))))).
    2: { intros t. do 2 f_equal. apply filter_ext. intros [x y]. cbn [fst snd]. unfold is_target. destruct (tgt x), (isf c y), (eqb (get_type x) t); reflexivity. }
    apply (count_split (fun xy => tgt (fst xy) && isf c (snd xy)) (fun xy => get_type (fst xy))); [apply RS|]. intros [x y] I B. cbn [fst snd] in *. apply andb_true_iff in B as (B1 & B2).
    apply RS. exact B1.
  Qed.
  Lemma all_marginal : sumZ (map (fun t => NP (ist t) fea contents) rows) = NP tgt fea contents.
  Proof.
    unfold n_pairs. rewrite (map_ext _ (fun t => Z.of_nat (length (filter (fun xy => (tgt (fst xy) && fea (snd xy)) && eqb (get_type (fst xy)) t) (WP contents))))).
    2: { intros t. do 2 f_equal. apply filter_ext. intros [x y]. cbn [fst snd]. unfold is_target. destruct (tgt x), (fea y), (eqb (get_type x) t); reflexivity. }
    apply (count_split (fun xy => tgt (fst xy) && fea (snd xy)) (fun xy => get_type (fst xy))); [apply RS|]. intros [x y] I B. cbn [fst snd] in *. apply andb_true_iff in B as (B1 & B2).
    apply RS. exact B1.
  Qed.

  (** ** The matrix of a corpus *)
  Lemma holds_cases o : holds_counts rv cv o (pairs contents) ->
    match o with
    | None => NP tgt fea contents = 0%Z
    | Some m => NP tgt fea contents <> 0%Z /\ tgood m /\ trows m = rows /\ tcols m = cols /\ (forall t c, val m t c = NP (ist t) (isf c) contents) /\
        (forall t, row_total m t = NP (ist t) fea contents) /\ (forall c, col_total m c = NP tgt (isf c) contents) /\ tt_total m = NP tgt fea contents
    end.
  Proof.
    intros H. pose proof (some_pair contents) as Z0. destruct o as [m|].
    - destruct (holds_items contents m H) as (R & C). cbn [holds_counts] in H. destruct H as (G & _ & _ & V & NZ). split; [now apply Z0|]. split; [exact G|]. assert (ER : trows m = rows) by (eapply sorted_set_unique; [exact R|exact RS]).
      assert (EC : tcols m = cols) by (eapply sorted_set_unique; [exact C|exact CS]).
      split; [exact ER|]. split; [exact EC|]. split; [intros; rewrite V; apply corpus_pairs_count|].
      assert (RT : forall t, row_total m t = NP (ist t) fea contents).
      { intros t. rewrite <- row_marginal. unfold row_total. rewrite EC, sumv_Z. f_equal. apply map_ext. intros c. apply V. }
      split; [exact RT|]. split.
      { intros c. rewrite <- col_marginal. unfold col_total. rewrite ER, sumv_Z. f_equal. apply map_ext. intros t. apply V. }
      rewrite (proj1 (tt_total_ok m G)), sumv_Z, <- all_marginal, ER. f_equal. apply map_ext. intros t. apply RT.
    - destruct (Z.eq_dec (NP tgt fea contents) 0) as [|N]; [assumption|]. apply Z0 in N as (t & c & N). exfalso. apply N. apply H.
  Qed.
End Pairs.
