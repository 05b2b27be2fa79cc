(** * What the scores of a corpus should be: the pairs of lines in each other's windows, and how many of them there are. *)
From Coq Require Import NArith ZArith Bool Arith Reals List.
From Verif Require Import Base VocabModel CorpusModel CorpusSpec MxModel MxSpec CalcModel CalcSpec ParColSpec.
Import ListNotations.
Local Open Scope nat_scope.

Section Spec.
  Context {L M : Type} (match_line : L -> option M) (separator : L -> bool) (l r : nat).

  (** (line, line in its window), for one segment and for a corpus; which lines are targets: see C05. *)
  Definition seg_pairs (xs : list M) : list (M * M) :=
    flat_map (fun i => flat_map (fun j =>
      if (i <? foci_spec r (length xs)) && in_window l r i j
      then match nth_error xs i, nth_error xs j with Some x, Some y => [(x, y)] | _, _ => [] end
      else []) (seq 0 (length xs))) (seq 0 (length xs)).
  Definition file_segs (lines : list L) : list (list M) := map (map fst) (segments match_line separator lines).
  Definition window_pairs (contents : list (list L)) : list (M * M) := flat_map seg_pairs (flat_map file_segs contents).
  (** Number of pairs whose target satisfies P and whose context satisfies Q. *)
  Definition n_pairs (P Q : M -> bool) (contents : list (list L)) : Z :=
    Z.of_nat (length (filter (fun xy => P (fst xy) && Q (snd xy)) (window_pairs contents))).

  Section Voc.
    Context (get_type get_colloc : M -> pystr) (rv cv : vocab).
    Definition target (x : M) : bool := dmem (fd rv) (get_type x).
    Definition feature (y : M) : bool := any_column cv || dmem (fd cv) (get_colloc y).
    Definition is_target (t : pystr) (x : M) : bool := target x && eqb (get_type x) t.
    Definition is_feature (c : pystr) (y : M) : bool := feature y && eqb (get_colloc y) c.
    (** The rows and the columns of the matrix of a corpus *)
    Definition corpus_rows (rows : list pystr) : Prop := sorted_set rows (fun t => dmem (fd rv) t = true).
    Definition corpus_cols (contents : list (list L)) (cols : list pystr) : Prop :=
      sorted_set cols (fun c => if any_column cv then (0 < n_pairs target (is_feature c) contents)%Z else dmem (fd cv) c = true).
    (** Pairs of a target and a line in its window: n(t, c), n(t, any), n(any, c), n(any, any) *)
    Context (contents : list (list L)).
    Definition n_tc (t c : pystr) : Z := n_pairs (is_target t) (is_feature c) contents.
    Definition n_row (t : pystr) : Z := n_pairs (is_target t) feature contents.
    Definition n_col (c : pystr) : Z := n_pairs target (is_feature c) contents.
    Definition n_all : Z := n_pairs target feature contents.
    (** The outcome of scoring a corpus: no pair at all, one row or one column, or a matrix of the rows and columns of the corpus with
        the right values. *)
    Definition scored (score : res (ttm R)) (value : pystr -> pystr -> R -> Prop) : Prop :=
      exists rows cols, corpus_rows rows /\ corpus_cols contents cols /\
        (n_all = 0%Z -> score = Err AttributeError) /\
        (n_all <> 0%Z -> length rows = 1 \/ length cols = 1 -> score = Err TypeError) /\
        (n_all <> 0%Z -> length rows <> 1 -> length cols <> 1 -> exists m, score = Ok m /\ tgood m /\ trows m = rows /\ tcols m = cols /\
           forall t c, In t rows -> In c cols -> value t c (val m t c)).
    (** PPMI of the textbook of the pairs of the corpus *)
    Definition ppmi_tc (t c : pystr) : R := ideal_ppmi (IZR (n_tc t c)) (IZR (n_row t)) (IZR (n_col c)) (IZR n_all).
  End Voc.
End Spec.
(** k copies of a corpus *)
Definition copies {A} (k : nat) (contents : list A) : list A := concat (repeat contents k).
