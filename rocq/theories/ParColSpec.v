(** * What the pool counting co-occurrences should return. *)
From Coq Require Import NArith ZArith Bool Arith Sorted List.
From Verif Require Import Base VocabModel CorpusModel CorpusSpec MxModel MxSpec.
Import ListNotations.

Section Spec.
  Context {L M : Type} (match_line : L -> option M) (separator : L -> bool) (get_type get_colloc : M -> pystr) (rv cv : vocab) (l r : nat).

  (** No column vocabulary was given; [c] is a wanted column. *)
  Definition any_column : bool := match fd cv with [] => true | _ => false end.
  Definition wanted (t c : pystr) : bool := dmem (fd rv) t && (any_column || dmem (fd cv) c).
  (** Co-occurrences of t with c in one file (targets as in C05) and in a corpus. *)
  Definition file_pairs (lines : list L) (t c : pystr) : Z :=
    if wanted t c
    then Z.of_nat (sumn (map (fun xs => cooc_upto (foci_spec r (length xs)) (fun x => get_type (fst x)) (fun x => get_colloc (fst x)) l r xs t c)
                             (segments match_line separator lines)))
    else 0%Z.
  Definition corpus_pairs (contents : list (list L)) (t c : pystr) : Z := sumZ (map (fun f => file_pairs f t c) contents).
  (** The same whether or not t and c are wanted *)
  Definition all_pairs (contents : list (list L)) (t c : pystr) : Z :=
    sumZ (map (fun f => Z.of_nat (sumn (map (fun xs => cooc_upto (foci_spec r (length xs)) (fun x => get_type (fst x)) (fun x => get_colloc (fst x)) l r xs t c)
                                              (segments match_line separator f)))) contents).

  (** The matrix that holds exactly the counts [f]: None if there are none; rows: all row items in alphabetical order;
      columns: all items of the column vocabulary, or the collocates that were counted, in alphabetical order. *)
  Definition sorted_set (xs : list pystr) (P : pystr -> Prop) : Prop :=
    NoDup xs /\ StronglySorted (fun x y => sleb x y = true) xs /\ forall x, In x xs <-> P x.
  Definition holds_counts (o : option (ttm Z)) (f : pystr -> pystr -> Z) : Prop :=
    match o with
    | None => forall t c, f t c = 0%Z
    | Some m =>
        tgood m /\ sorted_set (trows m) (fun t => dmem (fd rv) t = true) /\
        sorted_set (tcols m) (fun c => if any_column then exists t, (0 < f t c)%Z else dmem (fd cv) c = true) /\
        (forall t c, val m t c = f t c) /\ exists t c, f t c <> 0%Z
    end.
End Spec.
