(** * Vocabulary of the claims about association measures. *)
From Coq Require Import String NArith ZArith Bool Arith Reals List.
From Verif Require Import Base VocabModel MxModel MxSpec.
Import ListNotations.
Local Open Scope R_scope.

(** The frequency that [v[k]] gives, or None if it raises. *)
Definition freq_of (v : vocab) (k : pystr) : option Z :=
  match dget (fd v) k with Some f => Some f | None => if isdef v then Some 0%Z else None end.

(** The table of a count c with row marginal r, column marginal cc and total n, as the four arguments of a measure. *)
Definition of_table {A} (f : R -> R -> R -> R -> A) (c r cc n : Z) : A :=
  f (IZR c) (IZR (cc - c)) (IZR (r - c)) (IZR (n - r - cc + c)).

(** Pointwise mutual information of the textbook, ln (O / E) with E = R * C / N *)
Definition ideal_pmi (c r cc n : R) : R := ln (c * n / (r * cc)).
Definition ideal_ppmi (c r cc n : R) : R := if Rlt_dec 0 c then Rmax 0 (ideal_pmi c r cc n) else 0.
(** G2 = 2 * sum of O * ln (O / E), where 0 * ln _ is 0 *)
Definition G2 (o11 o21 o12 o22 : R) : R :=
  let N := o11 + o21 + o12 + o22 in
  2 * (o11 * ln (o11 * N / ((o11 + o12) * (o11 + o21))) + o21 * ln (o21 * N / ((o21 + o22) * (o11 + o21))) +
       o12 * ln (o12 * N / ((o11 + o12) * (o12 + o22))) + o22 * ln (o22 * N / ((o21 + o22) * (o12 + o22)))).
Definition sumR (l : list R) : R := fold_right Rplus 0 l.
(** The measures of the textbook by name, on a table o11 o21 o12 o22 with row marginal o11 + o12 and column marginal o11 + o21. *)
Definition expected (r c n : R) : R := r * c / n.
Definition textbook : list (pystr * (R -> R -> R -> R -> R)) := [
  (u "pmi", fun o11 o21 o12 o22 => ideal_pmi o11 (o11 + o12) (o11 + o21) (o11 + o21 + o12 + o22));
  (u "ppmi", fun o11 o21 o12 o22 => Rmax 0 (ideal_pmi o11 (o11 + o12) (o11 + o21) (o11 + o21 + o12 + o22)));
  (u "lik", G2); (u "llik", G2);
  (u "chisq", fun o11 o21 o12 o22 => let N := o11 + o21 + o12 + o22 in
     let term o e := (o - e) ^ 2 / e in
     term o11 (expected (o11 + o12) (o11 + o21) N) + term o21 (expected (o21 + o22) (o11 + o21) N) +
     term o12 (expected (o11 + o12) (o12 + o22) N) + term o22 (expected (o21 + o22) (o12 + o22) N));
  (u "zscore", fun o11 o21 o12 o22 => let e := expected (o11 + o12) (o11 + o21) (o11 + o21 + o12 + o22) in (o11 - e) / sqrt e);
  (u "dice", fun o11 o21 o12 o22 => 2 * o11 / ((o11 + o12) + (o11 + o21)));
  (u "deltap", fun o11 o21 o12 o22 => o11 / (o11 + o12) - o21 / (o21 + o22));
  (u "deltapColl", fun o11 o21 o12 o22 => o11 / (o11 + o21) - o12 / (o12 + o22));
  (u "logratio", fun o11 o21 o12 o22 => ln ((o11 / (o11 + o12)) / (o21 / (o21 + o22)))) ].
