(** * What the claims about the pipelines mean: measures of a frequency matrix, weights of collocates, contexts of tokens. *)
From Coq Require Import String NArith ZArith Bool Arith Reals List.
From Verif Require Import Base Str VocabModel TermsModel MxModel MxSpec MxTtmProofs MxCellProofs MxElemProofs CalcModel CalcSpec CalcVecModel CalcVecSpec TokMxModel TokMxSpec PipeModel.
Import ListNotations.
Local Open Scope R_scope.

(** Totals of a row, of a column and of the whole table are [row_total], [col_total], [tt_total] (see C20). *)

(** [P] and [L] are the positive pointwise mutual information and the log likelihood ratio of the cells of a frequency matrix,
    with the totals of the whole matrix, up to the accuracy of the library's formulas. *)
Record measures (freq : ttm Z) (P L : pystr -> pystr -> R) : Prop := {
  ms_ppmi : forall r c, In r (trows freq) -> In c (tcols freq) -> 0 <= P r c /\
    Rabs (P r c - ideal_ppmi (IZR (val freq r c)) (IZR (row_total freq r)) (IZR (col_total freq c)) (IZR (tt_total freq))) <= 22 / 100000000000;
  ms_zero : forall r c, val freq r c = 0%Z -> P r c = 0;
  ms_lik : forall r c, (0 < val freq r c)%Z ->
    let g := of_table G2 (val freq r c) (row_total freq r) (col_total freq c) (tt_total freq) in
    g - 22 / 100000000000 * IZR (tt_total freq) <= L r c <= g
}.
(** The weight of the collocate [c] for the type [v]: its mutual information, if count, information and likelihood ratio are
    each above their cutoff, and 0 otherwise. *)
Definition weight (freq : ttm Z) (P L : pystr -> pystr -> R) (fc : Z) (pc lc : R) (v c : pystr) : R :=
  if (fc <? val freq v c)%Z then (if Rlt_dec pc (P v c) then (if Rlt_dec lc (L v c) then P v c else 0) else 0) else 0.

(** The token with the string [t] (the last one, should there be several) has [c] among its collocates. *)
Definition seen (variants : list (tnode ctok)) (t c : pystr) : Prop :=
  exists a tk b ls rs, flat_map tn_tokens variants = a ++ tk :: b /\ ct_str tk = Ok t /\ (forall t', In t' b -> ct_str t' <> Ok t) /\
    collocs_are (Some (u "lemma/pos")) tk ls rs /\ In c (ls ++ rs).
(** [t] is the string of a token of the variant whose type is [s]. *)
Definition token_of (variants : list (tnode ctok)) (s t : pystr) : Prop :=
  exists n tk, In n variants /\ tn_type n = Ok s /\ In tk (tn_tokens n) /\ ct_str tk = Ok t.
(** A type written as lemma/pos, where neither contains a slash. *)
Definition lemma_pos (s : pystr) : Prop := exists l p, ~ In slash l /\ ~ In slash p /\ s = l ++ slash :: p.
(** Variants with distinct types in the form lemma/pos, all tokens written as their type and something after a slash, all
    collocates with a lemma and a part of speech. *)
Record variants_ok (variants : list (tnode ctok)) (strs : list pystr) : Prop := {
  vo_types : Forall2 (fun n s => tn_type n = Ok s) variants strs;
  vo_distinct : NoDup strs;
  vo_form : forall s, In s strs -> lemma_pos s;
  vo_tokens : forall s t, token_of variants s t -> exists rest, t = s ++ slash :: rest;
  vo_print : forall tk, In tk (flat_map tn_tokens variants) -> printable (Some (u "lemma/pos")) tk
}.

(** The context features of a concept: collocates with a weight that is not 0 for some variant, which some token has in its context. *)
Definition near (variants : list (tnode ctok)) (c : pystr) : Prop :=
  exists tk ls rs, In tk (flat_map tn_tokens variants) /\ collocs_are (Some (u "lemma/pos")) tk ls rs /\ In c (ls ++ rs).
Section Concept.
  Variables (freq : ttm Z) (P L : pystr -> pystr -> R) (fc : Z) (pc lc : R) (variants : list (tnode ctok)) (strs : list pystr).
  Definition feature (c : pystr) : Prop := (exists v, In v strs /\ weight freq P L fc pc lc v c <> 0) /\ near variants c.
  (** The token [t] of the type [s] has a collocate with a weight for [s] that is not 0. *)
  Definition weighted (s t : pystr) : Prop := token_of variants s t /\ exists c, seen variants t c /\ weight freq P L fc pc lc s c <> 0.
  (** The vector of the token [t] of the type [s]: the sum of the rows of its collocates, each times its weight for [s]. *)
  Definition vector (sees : pystr -> pystr -> bool) (s t f : pystr) : R :=
    sumr (map (fun c => (if sees t c then weight freq P L fc pc lc s c else 0) * P c f) (tcols freq)).
  Record vectors_are (m : ttm R) : Prop := {
    va_good : tgood m;
    va_cols : tcols m = tcols freq;
    va_rows : forall t, In t (trows m) <-> exists s, weighted s t;
    va_order : exists ss keep, Forall2 (fun tk s => ct_str tk = Ok s) (flat_map tn_tokens variants) ss /\ trows m = filter keep (dedup ss);
    va_cells : exists sees, (forall t c, sees t c = true <-> seen variants t c) /\
      forall s t f, weighted s t -> In f (tcols freq) -> val m t f = norm_by (u "l1") (map (vector sees s t) (tcols freq)) (vector sees s t f)
  }.
End Concept.

(** A frequency matrix that the measures can handle: counts that are not negative, at least two rows and two columns, and no
    column that contains all of the counts. *)
Record table_ok (freq : ttm Z) : Prop := {
  tb_good : tgood freq;
  tb_counts : forall r c, (0 <= val freq r c)%Z;
  tb_rows : (2 <= length (trows freq))%nat;
  tb_cols : (2 <= length (tcols freq))%nat;
  tb_totals : forall c, In c (tcols freq) -> (col_total freq c < tt_total freq)%Z
}.
(** Why no vectors come out for a concept, in the order in which the program finds out, and what it then raises. *)
Inductive no_vectors (freq : ttm Z) (P L : pystr -> pystr -> R) (fc : Z) (pc lc : R) (variants : list (tnode ctok)) (strs : list pystr) : err -> Prop :=
| nv_weights : (forall v c, In v strs -> weight freq P L fc pc lc v c = 0) -> no_vectors freq P L fc pc lc variants strs AttributeError
| nv_tokens : (exists v c, In v strs /\ weight freq P L fc pc lc v c <> 0) -> (forall t c, ~ seen variants t c) ->
    no_vectors freq P L fc pc lc variants strs ValueError
| nv_features : (exists t c, seen variants t c) -> (forall c, ~ feature freq P L fc pc lc variants strs c) ->
    no_vectors freq P L fc pc lc variants strs AttributeError
| nv_rows : (exists t c, seen variants t c) -> (forall c, feature freq P L fc pc lc variants strs c -> ~ In c (trows freq)) ->
    no_vectors freq P L fc pc lc variants strs AttributeError
| nv_own : (exists t c, seen variants t c) -> (exists c, feature freq P L fc pc lc variants strs c /\ In c (trows freq)) ->
    (forall s t, ~ weighted freq P L fc pc lc variants s t) -> no_vectors freq P L fc pc lc variants strs AssertionError
| nv_missing : (exists s t, weighted freq P L fc pc lc variants s t) -> (exists c, feature freq P L fc pc lc variants strs c /\ In c (trows freq)) ->
    (exists c, feature freq P L fc pc lc variants strs c /\ ~ In c (trows freq)) -> no_vectors freq P L fc pc lc variants strs ValueError.
(** Every collocate that matters is also a row of the frequency matrix, and some token has one of its own. *)
Definition has_vectors (freq : ttm Z) (P L : pystr -> pystr -> R) (fc : Z) (pc lc : R) (variants : list (tnode ctok)) (strs : list pystr) : Prop :=
  (exists s t, weighted freq P L fc pc lc variants s t) /\ forall c, feature freq P L fc pc lc variants strs c -> In c (trows freq).

(** ** build_tc_weight_matrix *)
(** The weight that belongs to the token [t] and the collocate [c]: that of its type, if [c] is stored for the token. *)
Definition tc_weight (pos tw : ttm R) (ty t c : pystr) : R := if tstored_dec pos t c then val tw ty c else 0.
(** [t] is written as the type [ty], a file and a line. *)
Definition token_with_type (t ty : pystr) : Prop := exists f l, ~ In slash f /\ ~ In slash l /\ t = ty ++ slash :: f ++ slash :: l.

(** ** The class TypeToken *)
(** What a call on a model answers, whatever was called before: only similarities, distances and ranks of a matrix passed as an
    argument are ever computed. *)
Inductive answers (distances : pystr -> dense -> res dense) (ranks : bool -> simmx -> list (list nat)) : call -> res value -> Prop :=
| an_vocab : answers distances ranks GetVocab (Err AttributeError)
| an_build_vocab : answers distances ranks BuildVocab (Err NameError)
| an_build_list : answers distances ranks BuildFrequencyList (Err NameError)
| an_col_freq row col : answers distances ranks (BuildColFreq row col) (Err NameError)
| an_association m meas : answers distances ranks (ComputeAssociation m meas) (Err TypeError)
| an_cosine m metric rank axis r : (metric = u "cos" \/ metric = u "cosine") -> (axis = 0%Z \/ axis = 1%Z) -> compute_cosine m axis = r ->
    answers distances ranks (ComputeSimilarity (Some m) metric rank axis) (rmap VSim r)
| an_cosine_axis m metric rank axis : (metric = u "cos" \/ metric = u "cosine") -> axis <> 0%Z -> axis <> 1%Z ->
    answers distances ranks (ComputeSimilarity m metric rank axis) (Err ValueError)
| an_cosine_none metric rank axis : (metric = u "cos" \/ metric = u "cosine") -> (axis = 0%Z \/ axis = 1%Z) ->
    answers distances ranks (ComputeSimilarity None metric rank axis) (Err AttributeError)
| an_metric m metric rank axis : metric <> u "cos" -> metric <> u "cosine" -> answers distances ranks (ComputeSimilarity m metric rank axis) (Err NotImplementedError)
| an_distance m metric r : compute_distance distances m 0 metric = r -> answers distances ranks (ComputeDistance (Some m) metric) (rmap VSim r)
| an_distance_none metric : answers distances ranks (ComputeDistance None metric) (Err AttributeError)
| an_rank s reverse : answers distances ranks (ComputeSimrank (Some s) reverse) (Ok (VRank (ranks reverse s)))
| an_rank_none reverse : answers distances ranks (ComputeSimrank None reverse) (Err AttributeError)
| an_types q : answers distances ranks (SelectTypes q) (Err ValueError)
| an_retrieve_value q row col : q <> QNone /\ q <> QList [] \/ usable row = false -> answers distances ranks (RetrieveTokens q row col) (Err ValueError)
| an_retrieve_name q row col : q = QNone \/ q = QList [] -> usable row = true -> answers distances ranks (RetrieveTokens q row col) (Err NameError)
| an_weights_none pos : answers distances ranks (BuildTokenWeights pos None) (Err ValueError)
| an_weights pos tw : answers distances ranks (BuildTokenWeights pos (Some tw)) (Err NameError)
| an_vectors w soc o : answers distances ranks (BuildTokenVectors (Some w) (Some soc) o) (Err NameError)
| an_vectors_none w soc o : w = None \/ soc = None -> answers distances ranks (BuildTokenVectors w soc o) (Err ValueError)
| an_fetch q : answers distances ranks (FetchTokens q) (Err AttributeError)
| an_sample n : answers distances ranks (SampleTokens n) (Err AttributeError).
(** The last matrix of similarities or distances, and the last ranks, that the calls gave back. *)
Fixpoint last_sim (before : option simmx) (rs : list (res value)) : option simmx :=
  match rs with [] => before | Ok (VSim s) :: rs => last_sim (Some s) rs | _ :: rs => last_sim before rs end.
Fixpoint last_rank (ranks : bool -> simmx -> list (list nat)) (before : option (list (list nat))) (crs : list (call * res value)) : option (list (list nat)) :=
  match crs with
  | [] => before
  | (ComputeSimilarity _ _ true _, Ok (VSim s)) :: crs => last_rank ranks (Some (ranks false s)) crs
  | (_, Ok (VRank r)) :: crs => last_rank ranks (Some r) crs
  | _ :: crs => last_rank ranks before crs
  end.
(** The attributes that stay unset. *)
Definition nothing_built (st : model) : Prop :=
  m_vocab st = None /\ m_freqmx st = None /\ m_measmx st = None /\ m_distmx st = None /\ m_tcmx st = None /\ m_weights st = None /\ m_vectors st = None /\ m_nodes st = None.
