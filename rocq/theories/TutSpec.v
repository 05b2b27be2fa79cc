(** * What the token vectors of the tutorial should be. *)
From Coq Require Import String NArith ZArith Bool Arith Reals List.
From Verif Require Import Base Str VocabModel MxModel MxSpec MxTtmProofs MxCellProofs MxElemProofs CalcModel CalcSpec CalcVecModel CalcVecSpec PipeSpec.
Import ListNotations.
Local Open Scope R_scope.

(** A frequency matrix with marginal frequencies: at least two rows and two columns, counts that are not negative, one that is positive. *)
Record scorable (freq : ttm Z) : Prop := {
  sb_good : tgood freq;
  sb_counts : forall r c, (0 <= val freq r c)%Z;
  sb_some : (0 < tt_total freq)%Z;
  sb_rows : (2 <= length (trows freq))%nat;
  sb_cols : (2 <= length (tcols freq))%nat
}.
(** [P] is the positive pointwise mutual information of the cells of a frequency matrix, up to the accuracy of compute_association. *)
Definition ppmi_of (freq : ttm Z) (P : pystr -> pystr -> R) : Prop :=
  forall r c, 0 <= P r c /\ (val freq r c = 0%Z -> P r c = 0) /\
    (In r (trows freq) -> In c (tcols freq) ->
     Rabs (P r c - ideal_ppmi (IZR (val freq r c)) (IZR (row_total freq r)) (IZR (col_total freq c)) (IZR (tt_total freq))) <= 22 / 100000000000).

Section Tokens.
  Variables (P : pystr -> pystr -> R) (freq toks : ttm Z) (queries : list pystr).
  (** The context word is counted with some query. *)
  Definition counted (c : pystr) : Prop := exists q, In q queries /\ val freq q c <> 0%Z.
  Definition shared (c : pystr) : Prop := In c (tcols toks) /\ In c (tcols freq).
  Definition query_row : Prop := exists q, In q queries /\ In q (trows freq).
  Definition several : Prop := exists c c', c <> c' /\ shared c /\ shared c'.
  Definition all_counted : Prop := forall c, In c (tcols toks) -> counted c.
  Definition informative : Prop := exists c f, In c (tcols toks) /\ P c f <> 0.
  (** When vectors come out *)
  Definition has_vectors : Prop := several /\ all_counted /\ (forall c, In c (tcols toks) -> In c (trows freq)) /\ informative /\ trows toks <> [].
  (** Why they do not, in the order in which the program finds out *)
  Inductive fails : err -> Prop :=
  | no_query : ~ query_row -> fails AttributeError
  | no_context : (forall c, ~ shared c) -> fails AttributeError
  | one_context c : query_row -> shared c -> (forall c', shared c' -> c' = c) -> fails IndexError
  | none_counted : query_row -> several -> (forall c, In c (tcols toks) -> ~ counted c) -> fails AttributeError
  | not_all_counted c c' : several -> In c (tcols toks) -> counted c -> In c' (tcols toks) -> ~ counted c' -> fails ValueError
  | no_row : several -> all_counted -> (forall c, In c (tcols toks) -> ~ In c (trows freq)) -> fails AttributeError
  | no_information c : several -> all_counted -> In c (tcols toks) -> In c (trows freq) -> ~ informative -> fails AssertionError
  | not_all_rows c : several -> all_counted -> informative -> In c (tcols toks) -> ~ In c (trows freq) -> fails ValueError
  | no_token : several -> all_counted -> (forall c, In c (tcols toks) -> In c (trows freq)) -> informative -> trows toks = [] -> fails ValueError.
  (** The vector of the token [t] of the type [s]: the rows of its context words, each times its weight for [s], added up; divided by
      the sum of all components. *)
  Definition tok_weight (s t c : pystr) : R := if (val toks t c =? 0)%Z then 0 else if mem s queries then P s c else 0.
  Definition tok_sum (s t f : pystr) : R := sumr (map (fun c => tok_weight s t c * P c f) (tcols toks)).
  Definition tok_vector (s t f : pystr) : R :=
    let n := sumr (map (tok_sum s t) (tcols freq)) in if Req_EM_T n 0 then 0 else tok_sum s t f / n.
  Record vectors_are (m : ttm R) : Prop := {
    vc_good : tgood m;
    vc_rows : trows m = trows toks;
    vc_cols : forall f, In f (tcols m) <-> exists c, In c (tcols toks) /\ P c f <> 0;
    vc_order : exists keep, tcols m = filter keep (tcols freq);
    vc_cells : forall s rest f, lemma_pos s -> In (s ++ slash :: rest) (trows toks) -> val m (s ++ slash :: rest) f = tok_vector s (s ++ slash :: rest) f
  }.
End Tokens.

(** ** A corpus *)
From Verif Require Import CorpusModel CorpusSpec TokMxModel TokMxSpec TokMxPipeProofs ParColSpec EndSpec.
Section Corpus.
  Context {L M : Type} (match_line : L -> option M) (separator : L -> bool) (get_type get_colloc : M -> pystr) (l r : nat) (queries : list pystr) (files : list (pystr * list L)).
  (** An occurrence of a query: file, segment, position, line *)
  Definition occurrence (f : pystr * list L) (xs : list (M * nat)) (i : nat) (x : M * nat) : Prop :=
    In f files /\ In xs (segments match_line separator (snd f)) /\ nth_error xs i = Some x /\ In (get_type (fst x)) queries.
  (** [c] is a context word of some occurrence. *)
  Definition context_word (c : pystr) : Prop := exists f xs i x j, occurrence f xs i x /\ seen_at get_colloc l r xs i c j.
  (** All lines of the corpus are in the vocabularies; the lines are written in the same way as types and as collocates. *)
  Definition covered (rv cv : vocab) : Prop := forall f m, In f files -> In m (matches_of match_line (snd f)) ->
    get_colloc m = get_type m /\ dmem (fd rv) (get_type m) = true /\ feature get_colloc cv m = true.
  (** The written forms of the lines, each once *)
  Definition forms_of (items : list pystr) : Prop := NoDup items /\ forall c, In c items <-> exists f m, In f files /\ In m (matches_of match_line (snd f)) /\ get_type m = c.
  (** [P] is the positive pointwise mutual information of the pairs of the corpus. *)
  Definition corpus_ppmi_of (rv cv : vocab) (P : pystr -> pystr -> R) : Prop :=
    let n := n_tc match_line separator l r get_type get_colloc rv cv (map snd files) in
    forall t c, 0 <= P t c /\ (n t c = 0%Z -> P t c = 0) /\
      ((0 < n t c)%Z -> Rabs (P t c - ppmi_tc match_line separator l r get_type get_colloc rv cv (map snd files) t c) <= 22 / 100000000000).
  (** The vector of an occurrence of the type [s] with the context words [sees] *)
  Definition occ_sum (P : pystr -> pystr -> R) (items : list pystr) (sees : pystr -> bool) (s f : pystr) : R :=
    sumr (map (fun c => if sees c then P s c * P c f else 0) items).
  Definition occ_vector (P : pystr -> pystr -> R) (items : list pystr) (sees : pystr -> bool) (s f : pystr) : R :=
    let n := sumr (map (occ_sum P items sees s) items) in if Req_EM_T n 0 then 0 else occ_sum P items sees s f / n.
  (** The outcome: a matrix with one row for each occurrence and a column for each word that informs a context word; an assertion fails
      if there is no such word. *)
  Definition corpus_vectors_are (name : pystr * list L -> list (M * nat) -> nat -> M * nat -> res pystr) (P : pystr -> pystr -> R) (out : res (ttm R)) : Prop :=
    let informs c g := context_word c /\ P c g <> 0 in
    ((exists c g, informs c g) -> exists m, out = Ok m /\ tgood m /\
      length (trows m) = sumn (map (fun f => length (filter (fun x => mem (get_type x) queries) (matches_of match_line (snd f)))) files) /\
      (forall g, In g (tcols m) <-> exists c, informs c g) /\
      forall items f xs i x sees g, forms_of items -> occurrence f xs i x -> (forall c, sees c = true <-> exists j, seen_at get_colloc l r xs i c j) ->
        exists s, name f xs i x = Ok s /\ In s (trows m) /\ val m s g = occ_vector P items sees (get_type (fst x)) g) /\
    (~ (exists c g, informs c g) -> out = Err AssertionError).
End Corpus.
