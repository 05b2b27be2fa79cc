(** * Association measures with default arguments, single tables, and who calls them: mxcalc.py:126-222, 287-292, 388-395;
    models/cbc.py:63-146; models/typetoken.py:805-818. *)
From Coq Require Import String NArith ZArith Bool Arith Reals List.
From Verif Require Import Base VocabModel MxModel CalcModel CalcVecModel.
Import ListNotations.
Local Open Scope R_scope.

(** The marginals, mxcalc.py:154-165.  Without a given array they are the sums of the matrix; np.squeeze makes an array without
    dimensions of a single sum, which cannot be indexed. *)
Definition row_marginal (m : sp Z) (nfreq : option (list Z)) (i : nat) : res Z :=
  match nfreq with
  | Some l => at_ l i
  | None => if (nrows m =? 1)%nat then Err IndexError else at_ (map (row_sum m) (seq 0 (nrows m))) i
  end.
Definition col_marginal (m : sp Z) (cfreq : option (list Z)) (j : nat) : res Z :=
  match cfreq with
  | Some l => at_ l j
  | None => if (ncols m =? 1)%nat then Err IndexError else at_ (map (col_sum m) (seq 0 (ncols m))) j
  end.
(** calc_association, mxcalc.py:126-201, with any arguments; N = None is used as it is: None minus a number is a TypeError, raised
    after the marginals have been looked up. *)
Definition assoc_cell (f : measure) (m : sp Z) (nfreq cfreq : option (list Z)) (N : option Z) (e : nat * nat * Z) : res (nat * nat * R) :=
  rbind (row_marginal m nfreq (fst (fst e))) (fun r1 => rbind (col_marginal m cfreq (snd (fst e))) (fun c1 =>
    let c_a_b := snd e in
    let c_a_nb := (r1 - c_a_b)%Z in
    let c_na_b := (c1 - c_a_b)%Z in
    match N with
    | None => Err TypeError
    | Some n => rmap (fun x => (fst e, x)) (f (IZR c_a_b) (IZR c_na_b) (IZR c_a_nb) (IZR (n - c_a_nb - c_na_b - c_a_b)))
    end)).
Definition association (m : sp Z) (nfreq cfreq : option (list Z)) (N : option Z) (meas : pystr) : res (sp R) :=
  match dget func_dict meas with
  | None => Err NotImplementedError
  | Some f => rmap (of_coo (nrows m) (ncols m)) (rmapm (assoc_cell f m nfreq cfreq N) (entries m))
  end.

(** pairwise_association, mxcalc.py:205-222: the same measures, except llik. *)
Definition pair_dict : dict pystr measure :=
  [(u "pmi", calc_pmi); (u "ppmi", calc_ppmi); (u "lik", calc_lik); (u "chisq", calc_chisq);
   (u "zscore", calc_zscore); (u "dice", calc_dice); (u "deltap", calc_deltap); (u "deltapColl", calc_deltap_coll);
   (u "logratio", calc_log_ratio)].
Definition pairwise_association (o11 o21 o12 o22 : R) (meas : pystr) : res R :=
  match dget pair_dict meas with None => Err NotImplementedError | Some f => f o11 o21 o12 o22 end.
(** calc_mi, mxcalc.py:287-292: math.log(x, 2) is the quotient of two logarithms. *)
Definition calc_mi : measure := fun o11 o21 o12 o22 =>
  let N := o11 + o21 + o12 + o22 in
  rbind (fdiv ((o11 + o21) * (o11 + o12)) N) (fun e11 => rbind (fdiv o11 e11) (fun q => rmap (fun l => l / ln 2) (flog q))).

(** calc_distance, mxcalc.py:388-391, and compute_cos, 394-395; [pairwise] is sklearn's pairwise_distances. *)
Definition calc_distance {A B} (pairwise : A -> pystr -> res B) (measmx : A) (metric : pystr) : res B := pairwise measmx metric.
Definition compute_cos (m : ttm R) (axis : Z) : res (dense * list pystr) := compute_cosine m axis.

(** CBC.__init__, cbc.py:63-146: the three matrices and the number of workers; the other arguments are stored as they are.
    [pairwise] is pairwise_distances on the sparse matrix. *)
Section Cbc.
  Context {D : Type}.
  Variable pairwise : sp R -> pystr -> res D.
  Record cbc := Cbc { c_freq : sp Z; c_meas : sp R; c_dist : D; c_workers : Z }.
  Definition cbc_init (freqmx : sp Z) (measmx : option (sp R)) (distmx : option D) (workers cpus : Z) : res cbc :=
    rbind (match measmx with Some x => Ok x | None => association freqmx None None None (u "ppmi") end) (fun mx =>
    rbind (match distmx with Some d => Ok d | None => calc_distance pairwise mx (u "cosine") end) (fun d =>
    Ok {| c_freq := freqmx; c_meas := mx; c_dist := d; c_workers := if (0 <? workers)%Z then workers else (cpus - 1)%Z |})).
End Cbc.
Arguments cbc : clear implicits.

(** TypeVectorizer.vectorize, typetoken.py:805-818: compute_association is called without its arguments nfreq and cfreq, which
    have no default values; [freqmx] is what fit left: a matrix or None; before fit there is no attribute (the outer None). *)
Definition vectorize (freqmx : option (option (ttm Z))) (meas : pystr) : res (ttm R) :=
  match freqmx with None => Err AttributeError | Some _ => Err TypeError end.
