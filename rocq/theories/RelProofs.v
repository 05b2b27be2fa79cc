(** * Relations between runs over the same corpus: roles exchanged, fewer items, other names, other spans *)
From Coq Require Import String NArith ZArith Bool Arith Lia Permutation Reals Lra List.
From Verif Require Import Base BaseLemmas VocabModel CorpusModel CorpusSpec CorpusColProofs CorpusMoreProofs MxModel MxSpec CalcModel CalcSpec
  ParModel ParColModel ParColSpec ParColProofs PipeModel EndModel EndSpec EndProofs EndProofs2.
Import ListNotations.
Local Open Scope nat_scope.

(** ** Pairs of one segment *)
Lemma npairs_mono n (P Q : nat -> nat -> bool) : (forall i j, i < n -> j < n -> P i j = true -> Q i j = true) -> npairs n P <= npairs n Q.
Proof.
  intros H. unfold npairs. assert (K : forall ij, In ij (list_prod (seq 0 n) (seq 0 n)) -> P (fst ij) (snd ij) = true -> Q (fst ij) (snd ij) = true).
  { intros [i j] I. apply in_prod_iff in I as (I & J). apply in_seq in I, J. exact (H i j ltac:(lia) ltac:(lia)). }
  induction (list_prod _ _) as [|x xs IH]; [cbn; lia|]. cbn [filter]. assert (IH' := IH (fun ij I => K ij (or_intror I))). specialize (K x (or_introl eq_refl)).
  destruct (P (fst x) (snd x)); [rewrite K by reflexivity|destruct (Q (fst x) (snd x))]; cbn [length]; lia.
Qed.
Lemma npairs_add n (P Q R : nat -> nat -> bool) : (forall i j, i < n -> j < n -> P i j = (Q i j || R i j) /\ Q i j && R i j = false) -> npairs n P = npairs n Q + npairs n R.
Proof.
  intros H. unfold npairs. assert (K : forall ij, In ij (list_prod (seq 0 n) (seq 0 n)) -> P (fst ij) (snd ij) = Q (fst ij) (snd ij) || R (fst ij) (snd ij) /\ Q (fst ij) (snd ij) && R (fst ij) (snd ij) = false).
  { intros [i j] I. apply in_prod_iff in I as (I & J). apply in_seq in I, J. exact (H i j ltac:(lia) ltac:(lia)). }
  induction (list_prod _ _) as [|x xs IH]; [reflexivity|]. cbn [filter]. assert (IH' := IH (fun ij I => K ij (or_intror I))). destruct (K x (or_introl eq_refl)) as (E & D). rewrite E.
  destruct (Q (fst x) (snd x)), (R (fst x) (snd x)); try discriminate; cbn [orb length]; lia.
Qed.
Lemma npairs_same n (P Q : nat -> nat -> bool) : (forall i j, i < n -> j < n -> P i j = Q i j) -> npairs n P = npairs n Q.
Proof. intros H. apply Nat.le_antisymm; apply npairs_mono; intros i j I J; rewrite (H i j I J); auto. Qed.

Section Seg.
  Context {M : Type}.
  Definition seg_count (l r : nat) (P Q : M -> bool) (xs : list M) : nat := length (filter (fun xy => P (fst xy) && Q (snd xy)) (seg_pairs l r xs)).
  Lemma seg_swap l r P Q xs : foci_spec l (length xs) = length xs -> foci_spec r (length xs) = length xs -> seg_count l r P Q xs = seg_count r l Q P xs.
  Proof.
    intros Fl Fr. unfold seg_count. rewrite !seg_pairs_count, npairs_swap, Fl, Fr. apply npairs_same. intros i j I J.
    rewrite (proj2 (Nat.ltb_lt i _) I), (proj2 (Nat.ltb_lt j _) J). cbn [andb]. f_equal.
    - unfold in_window. apply eq_true_iff_eq. repeat rewrite ?andb_true_iff, ?orb_true_iff, ?Nat.ltb_lt, ?Nat.leb_le, ?negb_true_iff, ?Nat.eqb_neq. lia.
    - destruct (nth_error xs j), (nth_error xs i); try reflexivity. cbn [fst snd]. apply andb_comm.
  Qed.
  Lemma seg_spans l r P Q xs : foci_spec r (length xs) = length xs -> seg_count l r P Q xs = seg_count l 0 P Q xs + seg_count 0 r P Q xs.
  Proof.
    intros Fr. assert (F0 : foci_spec 0 (length xs) = length xs) by (unfold foci_spec; destruct (Nat.leb_spec 2 (length xs)), (Nat.leb_spec (length xs) 0); cbn; lia).
    unfold seg_count. rewrite !seg_pairs_count, F0, Fr. apply npairs_add. intros i j I J. rewrite (proj2 (Nat.ltb_lt i _) I). cbn [andb].
    destruct (match nth_error xs i, nth_error xs j with Some x, Some y => _ | _, _ => _ end); rewrite ?andb_true_r, ?andb_false_r; [|auto].
    split.
    - unfold in_window. apply eq_true_iff_eq. repeat rewrite ?andb_true_iff, ?orb_true_iff, ?Nat.ltb_lt, ?Nat.leb_le, ?negb_true_iff, ?Nat.eqb_neq. lia.
    - apply not_true_is_false. unfold in_window. repeat rewrite ?andb_true_iff, ?orb_true_iff, ?Nat.ltb_lt, ?Nat.leb_le, ?negb_true_iff, ?Nat.eqb_neq. lia.
  Qed.
  Lemma seg_wider l l' r r' P Q xs : l <= l' -> r <= r' -> foci_spec r (length xs) <= foci_spec r' (length xs) -> seg_count l r P Q xs <= seg_count l' r' P Q xs.
  Proof.
    intros Hl Hr F. unfold seg_count. rewrite !seg_pairs_count. apply npairs_mono. intros i j I J. rewrite !andb_true_iff, !Nat.ltb_lt. intros ((A & B) & C). split; [|exact C]. split; [lia|].
    revert B. unfold in_window. repeat rewrite ?andb_true_iff, ?orb_true_iff, ?Nat.ltb_lt, ?Nat.leb_le, ?negb_true_iff, ?Nat.eqb_neq. lia.
  Qed.
End Seg.

(** ** Pairs of a corpus *)
Section Corpus.
  Context {L M : Type} (match_line : L -> option M) (separator : L -> bool).
  Notation segs contents := (flat_map (file_segs match_line separator) contents).
  Lemma n_pairs_segs l r P Q contents : n_pairs match_line separator l r P Q contents = Z.of_nat (sumn (map (seg_count l r P Q) (segs contents))).
  Proof. unfold n_pairs, window_pairs. now rewrite filter_flat_map, length_flat_map. Qed.
  Lemma in_segs contents xs : In xs (segs contents) <-> exists lines, In lines contents /\ In xs (file_segs match_line separator lines).
  Proof. apply in_flat_map. Qed.
  Lemma n_pairs_swap l r P Q contents : (forall xs, In xs (segs contents) -> foci_spec l (length xs) = length xs /\ foci_spec r (length xs) = length xs) ->
    n_pairs match_line separator l r P Q contents = n_pairs match_line separator r l Q P contents.
  Proof. intros H. rewrite !n_pairs_segs. f_equal. f_equal. apply map_ext_in. intros xs I. apply seg_swap; now apply H. Qed.
  Lemma n_pairs_spans l r P Q contents : (forall xs, In xs (segs contents) -> foci_spec r (length xs) = length xs) ->
    n_pairs match_line separator l r P Q contents = (n_pairs match_line separator l 0 P Q contents + n_pairs match_line separator 0 r P Q contents)%Z.
  Proof.
    intros H. rewrite !n_pairs_segs, <- Nat2Z.inj_add. f_equal. induction (segs contents) as [|xs ys IH]; [reflexivity|]. cbn [map sumn]. rewrite IH by (intros; apply H; now right).
    rewrite (seg_spans l r) by (apply H; now left). lia.
  Qed.
  Lemma n_pairs_wider l l' r r' P Q contents : l <= l' -> r <= r' -> (forall xs, In xs (segs contents) -> foci_spec r (length xs) <= foci_spec r' (length xs)) ->
    (n_pairs match_line separator l r P Q contents <= n_pairs match_line separator l' r' P Q contents)%Z.
  Proof.
    intros Hl Hr H. rewrite !n_pairs_segs. apply inj_le. induction (segs contents) as [|xs ys IH]; [cbn; lia|]. cbn [map sumn].
    assert (seg_count l r P Q xs <= seg_count l' r' P Q xs) by (apply seg_wider; auto; apply H; now left). specialize (IH (fun zs I => H zs (or_intror I))). lia.
  Qed.
  Lemma n_pairs_ext l r (P P' Q Q' : M -> bool) contents : (forall x, P x = P' x) -> (forall y, Q y = Q' y) ->
    n_pairs match_line separator l r P Q contents = n_pairs match_line separator l r P' Q' contents.
  Proof. intros HP HQ. unfold n_pairs. do 2 f_equal. apply filter_ext. intros [x y]. cbn [fst snd]. now rewrite HP, HQ. Qed.
End Corpus.

(** The cells of what build_col_freq returns *)
Lemma cell_count {L M} (match_line : L -> option M) separator (get_type get_colloc : M -> pystr) rv cv l r contents o :
  holds_counts rv cv o (corpus_pairs match_line separator get_type get_colloc rv cv l r contents) ->
  forall t c, cell_of o t c = n_tc match_line separator l r get_type get_colloc rv cv contents t c.
Proof. intros H t c. unfold n_tc. rewrite <- corpus_pairs_count. destruct o as [m|]; cbn in *; [apply H|now rewrite H]. Qed.
Lemma full_foci n k : k <= 1 \/ n < k -> foci_spec n k = k.
Proof. intros H. unfold foci_spec. destruct (Nat.leb_spec 2 k), (Nat.leb_spec k n); cbn; lia. Qed.

(** ** Scores determined by the numbers of pairs *)
Lemma nodup_map_inj {A B} (f : A -> B) xs : (forall x y, f x = f y -> x = y) -> NoDup xs -> NoDup (map f xs).
Proof.
  intros I. induction 1 as [|x xs N _ IH]; [constructor|]. cbn. constructor; [|exact IH]. intros H. apply in_map_iff in H as (y & E & Q). apply I in E. congruence.
Qed.
Lemma same_card {A B} (f : A -> B) xs ys : (forall x y, f x = f y -> x = y) -> NoDup xs -> NoDup ys -> (forall y, In y ys <-> exists x, y = f x /\ In x xs) -> length ys = length xs.
Proof.
  intros I N N' H. rewrite <- (map_length f xs). apply Permutation_length. apply NoDup_Permutation; [exact N'|now apply nodup_map_inj|].
  intros y. rewrite H, in_map_iff. split; intros (x & E & K); exists x; split; congruence.
Qed.
