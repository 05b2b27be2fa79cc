(** * From a corpus to scores: the program of docs/tutorials/all-in-one.ipynb.

    freqMTX = ColFreqHandler(settings, row_vocab, col_vocab).build_col_freq()
    nfreq = Vocab(freqMTX.sum(axis=1));  cfreq = Vocab(freqMTX.sum(axis=0))
    ppmiMTX = compute_association(freqMTX, nfreq=nfreq, cfreq=cfreq, meas='ppmi')

    The pool of build_col_freq (typetoken.py:219-334) is that of ParColModel, sum (matrix.py:836-870) that of MxModel, the scores
    (mxcalc.py:40-123) those of CalcModel.  build_col_freq returns None when nothing was counted, which has no method sum. *)
From Coq Require Import String NArith ZArith Bool Arith Reals List.
From Verif Require Import Base VocabModel CorpusModel MxModel CalcModel CalcVecModel ParModel ParColModel PipeModel.
Import ListNotations.

Section End.
  Context {A : Type}.
  (** The two vocabularies of marginal frequencies of a matrix. *)
  Definition with_marginals (m : ttm Z) (k : vocab -> vocab -> res A) : res A :=
    rbind (rmap (vocab_init false) (tt_sum m true)) (fun nfreq =>
    rbind (rmap (vocab_init false) (tt_sum m false)) (fun cfreq => k nfreq cfreq)).
End End.
(** compute_association(freqMTX, nfreq, cfreq, meas=meas) and compute_ppmi(freqMTX, nfreq, cfreq) for the outcome of build_col_freq *)
Definition corpus_scores (meas : pystr) (built : res (option (ttm Z))) : res (ttm R) :=
  rbind (deref built) (fun m => with_marginals m (fun nf cf => compute_association m nf cf None meas)).
Definition corpus_ppmi (built : res (option (ttm Z))) : res (ttm R) :=
  rbind (deref built) (fun m => with_marginals m (fun nf cf => compute_ppmi m (Some nf) (Some cf) true)).
(** [built] is an outcome of build_col_freq over readable files, with some number of workers and some schedule. *)
Definition build_col_freq {L M} (match_line : L -> option M) (separator : L -> bool) (get_type get_colloc : M -> pystr) (rv cv : vocab) (l r : nat)
    (contents : list (list L)) (built : res (option (ttm Z))) : Prop :=
  exists nw sched st, 1 <= nw /\
    ParModel.run (cf_job match_line separator get_type get_colloc rv l r) (cf_finish rv cv) (cf_start cv nw (map Ok contents)) sched = Some st /\
    joined st = true /\ built = cf_result st.
