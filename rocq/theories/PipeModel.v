(** * The pipelines of nephosem/models/typetoken.py: TokenVectorizer.generate_vectors, build_tc_weight_matrix and the class TypeToken.

    Matrices are those of MxModel, measures those of CalcModel, weights and vectors those of CalcVecModel, token matrices those of
    TokMxModel.  Orders of Python sets are parameters that permute. *)
From Coq Require Import String NArith ZArith Bool Arith Reals List.
From Verif Require Import Base Str VocabModel TermsModel MxModel CalcModel CalcVecModel TokMxModel.
Import ListNotations.
Local Open Scope nat_scope.

(** Counts as floating point numbers, where numpy mixes them *)
Definition sp_map {V W} (f : V -> W) (m : sp V) : sp W := Sp (sfmt m) (map (map (fun e => (fst e, f (snd e)))) (lanes m)) (nminor m).
Definition ttm_map {V W} (f : V -> W) (m : ttm V) : ttm W := Ttm (sp_map f (tmx m)) (trows m) (tcols m).

(** A method called on the value that submatrix or drop_empty returned: None has no attributes. *)
Definition deref {A} (r : res (option A)) : res A :=
  rbind r (fun o => match o with Some x => Ok x | None => Err AttributeError end).

(** ** TokenVectorizer.generate_vectors, typetoken.py:859-892: the body of the loop *)
Section Generate.
  (** orders of the set of collocates in transform_nodes_to_matrix and of the intersection, typetoken.py:878 *)
  Variables order1 order2 : list pystr -> list pystr.

  (** typetoken.py:864-866: the rows of the variants, cells above freq_cutoff, columns that are not empty *)
  Definition concept_freq (freq : ttm Z) (strs : list pystr) (freq_cutoff : Z) : res (ttm Z) :=
    rbind (deref (tt_submatrix freq (Some strs) None)) (fun cep =>
    rbind (tt_cmp CGt cep freq_cutoff) (fun mask =>
    rbind (tt_multiply cep mask) (fun cut =>
    deref (tt_drop_empty cut true false)))).
  (** typetoken.py:870-874: the weights of the collocates *)
  Definition concept_weights (cut : ttm Z) (nf cf : vocab) (ppmi_cutoff llr_cutoff : R) : res (ttm R) :=
    rbind (compute_association cut nf cf None (u "ppmi")) (fun ppmi =>
    rbind (compute_association cut nf cf None (u "lik")) (fun llr =>
    rbind (tt_cmp CGt ppmi ppmi_cutoff) (fun mask1 =>
    rbind (tt_multiply ppmi mask1) (fun p1 =>
    rbind (tt_cmp CGt llr llr_cutoff) (fun mask2 =>
    rbind (tt_multiply p1 mask2) (fun p2 =>
    deref (tt_drop_empty p2 true false))))))).
  (** [list(set(a).intersection(set(b)))] *)
  Definition intersect (a b : list pystr) : list pystr := order2 (filter (fun c => mem c b) (dedup a)).
  (** typetoken.py:876-891: from the weights and the tokens to the vectors *)
  Definition vectors_from (freq : ttm Z) (nf cf : vocab) (weights : ttm R) (tok : ttm Z) : res (ttm R) :=
    let collocs := intersect (tcols weights) (tcols tok) in
    rbind (tt_submatrix weights None (Some collocs)) (fun final_ppmi =>
    rbind (tt_submatrix tok None (Some collocs)) (fun final_tok =>
    rbind (match final_ppmi, final_tok with
           | Some tw, Some pos => compute_token_weights (ttm_map IZR pos) tw true (u "lemma/pos")
           | _, _ => Err AttributeError
           end) (fun tokweights =>
    rbind (tt_drop_empty tokweights false false) (fun final_weights =>
    rbind (deref (tt_submatrix freq (Some collocs) None)) (fun colloc_freq =>
    rbind (compute_association colloc_freq nf cf None (u "ppmi")) (fun soc =>
    match final_weights with
    | Some w => compute_token_vectors w soc (u "addition") (u "l1")
    | None => Err AssertionError
    end)))))).
  Definition concept_vectors (freq : ttm Z) (freq_cutoff : Z) (ppmi_cutoff llr_cutoff : R) (variants : list (tnode ctok)) : res (ttm R) :=
    rbind (rmapm tn_type variants) (fun strs =>
    rbind (concept_freq freq strs freq_cutoff) (fun cut =>
    rbind (rmap (vocab_init false) (tt_sum freq true)) (fun nf =>
    rbind (rmap (vocab_init false) (tt_sum freq false)) (fun cf =>
    rbind (concept_weights cut nf cf ppmi_cutoff llr_cutoff) (fun weights =>
    rbind (nodes_list_to_matrix order1 (Some (u "lemma/pos")) variants) (fun tok =>
    vectors_from freq nf cf weights tok)))))).
  (** typetoken.py:859-892 *)
  Definition generate_vectors (freq : ttm Z) (freq_cutoff : Z) (ppmi_cutoff llr_cutoff : R) (concepts : dict pystr (list (tnode ctok)))
      : res (dict pystr (ttm R)) :=
    rfold (fun d cv => rbind (concept_vectors freq freq_cutoff ppmi_cutoff llr_cutoff (snd cv)) (fun m => Ok (dset d (fst cv) m))) concepts [].
End Generate.

(** ** build_tc_weight_matrix, typetoken.py:1213-1243 *)
(** ['/'.join(tok.split('/')[:-2])] *)
Definition token_type (tok : pystr) : pystr := let ps := split slash tok in join slash (firstn (length ps - 2) ps).
(** typetoken.py:1220-1228 *)
Definition type2token (types : list pystr) (tokens : list pystr) : dict pystr (list pystr) :=
  fold_left (fun d tok =>
    let ty := token_type tok in
    if negb (mem ty types) then d
    else let d := if dmem d ty then d else dset d ty [] in
         dset d ty (match dget d ty with Some l => l | None => [] end ++ [tok])) tokens [].
(** typetoken.py:1230-1239: one token *)
Definition token_row (ctx tw_row : dict pystr R) (d : dict pystr (dict pystr R)) (tok : pystr) : dict pystr (dict pystr R) :=
  fold_left (fun d feat => match dget tw_row feat with None => d | Some v => dput d tok feat v end) (dkeys ctx) d.
Definition weight_dict (tok_ctx type_w : dict pystr (dict pystr R)) (t2t : dict pystr (list pystr)) : res (dict pystr (dict pystr R)) :=
  rfold (fun d tt =>
    match dget type_w (fst tt) with
    | None => Err KeyError
    | Some tw_row => rfold (fun d tok => match dget tok_ctx tok with None => Err KeyError | Some ctx => Ok (token_row ctx tw_row d tok) end) (snd tt) d
    end) t2t [].
Definition build_tc_weight_matrix (pos tw : ttm R) : res (ttm R) :=
  rbind (sp_to_dict (tmx pos) (trows pos) (tcols pos)) (fun tok_ctx =>
  rbind (sp_to_dict (tmx tw) (trows tw) (tcols tw)) (fun type_w =>
  rbind (weight_dict tok_ctx type_w (type2token (dkeys type_w) (trows pos))) (fun d =>
  rbind (dict_to_sp d (trows pos) (tcols tw)) (fun m =>
  mk_ttm m (trows pos) (tcols pos))))).

(** ** The class TypeToken, typetoken.py:895-1175 *)
(** The name of the corpus in the three constructors, typetoken.py:746, 835, 914: [corpus_name if not corpus_name else corpus_path.split(os.sep)[-1]] *)
Definition corpus_name (name path : option pystr) : res (option pystr) :=
  if truthy name then match path with None => Err AttributeError | Some p => Ok (Some (last (split slash p) [])) end else Ok name.

Section TypeToken.
  (** A dense matrix with the same items on both axes: similarities, distances *)
  Definition simmx := (dense * list pystr)%type.
  (** sklearn's distances other than the cosine, and one outcome of numpy's argsort *)
  Variable distances : pystr -> dense -> res dense.
  Variable ranks : bool -> simmx -> list (list nat).

  (** The attributes, typetoken.py:918-925; rankmx and type_nodes are not set by the constructor *)
  Record model := Model { m_vocab : option vocab; m_freqmx : option (ttm Z); m_measmx : option (ttm R); m_simmx : option simmx;
                          m_distmx : option simmx; m_rankmx : option (list (list nat)); m_tcmx : option (ttm Z);
                          m_weights : option (ttm R); m_vectors : option (ttm R); m_nodes : option (dict pystr (tnode ctok)) }.
  Definition fresh : model := Model None None None None None None None None None None.

  (** What is passed as queries: None, a list, or something else that is not empty *)
  Inductive queries := QNone | QList (l : list pystr) | QOther.
  Inductive call :=
  | GetVocab
  | BuildVocab
  | BuildFrequencyList
  | BuildColFreq (row col : option vocab)
  | ComputeAssociation (freq : option (ttm Z)) (meas : pystr)
  | ComputeSimilarity (meas : option (ttm R)) (metric : pystr) (rank : bool) (axis : Z)
  | ComputeDistance (meas : option (ttm R)) (metric : pystr)
  | ComputeSimrank (sim : option simmx) (reverse : bool)
  | SelectTypes (q : queries)
  | RetrieveTokens (q : queries) (row col : option vocab)
  | BuildTokenWeights (pos : option (ttm Z)) (tw : option (ttm R))
  | BuildTokenVectors (w soc : option (ttm R)) (operation : pystr)
  | FetchTokens (q : queries)
  | SampleTokens (n : nat).
  (** What a call gives back: a matrix of similarities or distances, or one of ranks. *)
  Inductive value := VSim (s : simmx) | VRank (r : list (list nat)) | VVocab (v : vocab) | VFreq (m : ttm Z) | VMeas (m : ttm R)
                   | VNodes (d : dict pystr (tnode ctok)).

  Definition given {A} (a b : option A) : option A := match a with Some _ => a | None => b end.
  Definition with_sim (st : model) (s : simmx) : model :=
    Model (m_vocab st) (m_freqmx st) (m_measmx st) (Some s) (m_distmx st) (m_rankmx st) (m_tcmx st) (m_weights st) (m_vectors st) (m_nodes st).
  Definition with_rank (st : model) (r : list (list nat)) : model :=
    Model (m_vocab st) (m_freqmx st) (m_measmx st) (m_simmx st) (m_distmx st) (Some r) (m_tcmx st) (m_weights st) (m_vectors st) (m_nodes st).
  (** A matrix given as None: no attribute matrix, once the axis has been checked *)
  Definition on_axis (m : option (ttm R)) (axis : Z) : res (ttm R) :=
    if (axis =? 0)%Z || (axis =? 1)%Z then match m with Some x => Ok x | None => Err AttributeError end else Err ValueError.
  (** select_types, typetoken.py:1047-1063 *)
  Definition select_types (st : model) (q : queries) : res vocab :=
    match q with
    | QList l =>
        match m_vocab st with
        | None => Err ValueError
        | Some v => if v_len v =? 0 then Err ValueError else Ok (v_subvocab v l)
        end
    | _ => Err ValueError
    end.
  Definition asked (q : queries) : bool := match q with QNone => false | QList [] => false | _ => true end.
  Definition usable (v : option vocab) : bool := match v with Some v => negb (v_len v =? 0) | None => false end.

  (** One call: the state after it (also when it raises) and its outcome.  The classes ItemFreqManager, ColFreqManager, TokenManager,
      TokenScanner and the functions build_token_weights, build_token_vectors are defined nowhere in the package: using one is a
      NameError.  compute_association is called without the two required arguments nfreq and cfreq: a TypeError. *)
  Definition step (st : model) (c : call) : model * res value :=
    match c with
    (** typetoken.py:930-931 *)
    | GetVocab => (st, match m_vocab st with Some v => Ok (VVocab (v_deepcopy v)) | None => Err AttributeError end)
    (** typetoken.py:933-964 *)
    | BuildVocab | BuildFrequencyList => (st, Err NameError)
    (** typetoken.py:966-972 *)
    | BuildColFreq _ _ => (st, Err NameError)
    (** typetoken.py:974-989 *)
    | ComputeAssociation _ _ => (st, Err TypeError)
    (** typetoken.py:991-1011 *)
    | ComputeSimilarity m metric rank axis =>
        if eqb metric (u "cos") || eqb metric (u "cosine")
        then match rbind (on_axis (given m (m_measmx st)) axis) (fun x => compute_cosine x axis) with
             | Err e => (st, Err e)
             | Ok s => let st := with_sim st s in (if rank then with_rank st (ranks false s) else st, Ok (VSim s))
             end
        else (st, Err NotImplementedError)
    (** typetoken.py:1013-1028 *)
    | ComputeDistance m metric =>
        match rbind (on_axis (given m (m_measmx st)) 0) (fun x => compute_distance distances x 0 metric) with
        | Err e => (st, Err e)
        | Ok s => (with_sim st s, Ok (VSim s))
        end
    (** typetoken.py:1030-1045 *)
    | ComputeSimrank sim reverse =>
        match sim with None => (st, Err AttributeError) | Some s => let r := ranks reverse s in (with_rank st r, Ok (VRank r)) end
    | SelectTypes q => (st, rmap VVocab (select_types st q))
    (** typetoken.py:1065-1074 *)
    | RetrieveTokens q row col =>
        (st, if asked q then (if usable row then Err ValueError else rbind (select_types st q) (fun _ => Err NameError))
             else if usable row then Err NameError else Err ValueError)
    (** typetoken.py:1076-1107 *)
    | BuildTokenWeights _ tw => (st, match tw with None => Err ValueError | Some _ => Err NameError end)
    (** typetoken.py:1109-1131 *)
    | BuildTokenVectors w soc _ =>
        (st, match given w (m_weights st), soc with Some _, Some _ => Err NameError | _, _ => Err ValueError end)
    (** typetoken.py:1141-1147 *)
    | FetchTokens q => (st, match m_vocab st, q with None, _ => Err AttributeError | Some _, QNone => Err TypeError | Some _, _ => Err NameError end)
    (** typetoken.py:1149-1154: no attribute type_nodes; see TokMxModel for TypeNode.sample *)
    | SampleTokens _ => (st, match m_nodes st with None => Err AttributeError | Some d => Ok (VNodes d) end)
    end.
  Fixpoint run (st : model) (cs : list call) : model * list (res value) :=
    match cs with
    | [] => (st, [])
    | c :: cs => let (st1, r) := step st c in let (st2, rs) := run st1 cs in (st2, r :: rs)
    end.
End TypeToken.
