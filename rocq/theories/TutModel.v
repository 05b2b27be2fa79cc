(** * The token level of docs/tutorials/all-in-one.ipynb (sections 4 to 7).

    tokens = TokenHandler(query, settings=settings).retrieve_tokens()
    subMTX = freqMTX.submatrix(row = query.get_item_list(), col = tokens.col_items).drop(axis = 1)
    weighter = compute_association(subMTX, nfreq=nfreq, cfreq=cfreq, meas = 'ppmi')
    weighted = compute_token_weights(tokens, weighter)
    socMTX = ppmiMTX.submatrix(row = weighted.col_items).drop(axis = 1)
    tokvecs = compute_token_vectors(weighted, socMTX, operation='weightedmean')
    tokdists = compute_distance(tokvecs)

    nfreq, cfreq, ppmiMTX are those of EndModel.  submatrix and drop (matrix.py:872-937, 1132-1163) are those of MxModel, the rest
    (mxcalc.py:86-123, 340-385, 462-599) those of CalcModel and CalcVecModel, with the arguments that the notebook leaves out. *)
From Coq Require Import String NArith ZArith Bool Arith Reals List.
From Verif Require Import Base VocabModel MxModel CalcModel CalcVecModel PipeModel EndModel.
Import ListNotations.

(** x.submatrix(row, col).drop(axis=1); None has no method drop *)
Definition cut_columns {V} {NV : Num V} (m : ttm V) (row col : option (list pystr)) : res (option (ttm V)) :=
  rbind (deref (tt_submatrix m row col)) (fun s => tt_drop s true 0).
(** weighted: compute_association(None, ...) fails at None.row_items *)
Definition tutorial_weights (freq toks : ttm Z) (queries : list pystr) (nf cf : vocab) : res (ttm R) :=
  rbind (deref (cut_columns freq (Some queries) (Some (tcols toks)))) (fun sub =>
  rbind (compute_association sub nf cf None (u "ppmi")) (fun weighter =>
  compute_token_weights (ttm_map IZR toks) weighter true (u "lemma/pos"))).
(** tokvecs: the classes of the two matrices are compared first, mxcalc.py:561 *)
Definition tutorial_vectors (freq toks : ttm Z) (queries : list pystr) : res (ttm R) :=
  with_marginals freq (fun nf cf =>
  rbind (compute_association freq nf cf None (u "ppmi")) (fun ppmi =>
  rbind (tutorial_weights freq toks queries nf cf) (fun weighted =>
  rbind (cut_columns ppmi (Some (tcols weighted)) None) (fun soc =>
  match soc with
  | Some soc => compute_token_vectors weighted soc (u "weightedmean") (u "l1")
  | None => Err AssertionError
  end)))).
(** tokdists; compute_distance(tokvecs) is the cosine distance of the rows *)
Definition tutorial_distances (other : pystr -> dense -> res dense) (freq toks : ttm Z) (queries : list pystr) : res (dense * list pystr) :=
  rbind (tutorial_vectors freq toks queries) (fun v => compute_distance other v 0 (u "cosine")).
