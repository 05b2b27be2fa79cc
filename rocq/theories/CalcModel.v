(** * Association measures: nephosem/specutils/mxcalc.py:41-337.

    Python floats are modelled by real numbers: rounding, overflow, NaN and the float32 result arrays are not modelled.
    Division by zero, log of a number <= 0 and sqrt of a negative number raise, as in Python.  Counts are integers. *)
From Coq Require Import String NArith ZArith Bool Arith Reals List.
From Verif Require Import Base VocabModel MxModel.
Import ListNotations.
Local Open Scope R_scope.

#[export] Instance Num_R : Num R.
Proof.
  refine {| zero := 0; one := 1; add := Rplus; mul := Rmult; vleb := fun a b => if Rle_dec a b then true else false |}; intros.
  - apply Rplus_comm. - symmetry. apply Rplus_assoc. - apply Rplus_0_l. - apply Rmult_1_r. - apply Rmult_0_l. - apply Rmult_0_r.
  - apply R1_neq_R0.
  - destruct (Rle_dec a b); [now left|right]. destruct (Rle_dec b a); [reflexivity|]. exfalso. apply n0, Rlt_le, Rnot_le_lt. assumption.
  - destruct (Rle_dec a b); [|discriminate]. destruct (Rle_dec b a); [|discriminate]. now apply Rle_antisym.
  - destruct (Rle_dec a b); [|discriminate]. destruct (Rle_dec b c); [|discriminate]. destruct (Rle_dec a c) as [|N]; [reflexivity|].
    exfalso. apply N. eapply Rle_trans; eassumption.
Defined.

(** a / b, math.log(x), math.sqrt(x) *)
Definition fdiv (a b : R) : res R := if Req_EM_T b 0 then Err ZeroDivisionError else Ok (a / b).
Definition flog (x : R) : res R := if Rlt_dec 0 x then Ok (ln x) else Err ValueError.
Definition fsqrt (x : R) : res R := if Rle_dec 0 x then Ok (sqrt x) else Err ValueError.
(** adjust_val, mxcalc.py:331-337 *)
Definition adjust_val (v : R) : R :=
  if Req_EM_T v 0 then 1 / 10000000000 else if Req_EM_T v 1 then 9999999999 / 10000000000 else v.

(** Arguments in the order of the source: c_a_b, c_na_b, c_a_nb, c_na_nb = o11, o21, o12, o22. *)
Definition measure := R -> R -> R -> R -> res R.
(** calc_pmi, mxcalc.py:225-238 *)
Definition calc_pmi : measure := fun o11 o21 o12 o22 =>
  let N := o11 + o21 + o12 + o22 in
  rbind (fdiv ((o11 + o12) * (o11 + o21)) N) (fun e11 =>
  rbind (fdiv o11 (adjust_val e11)) (fun x => flog (adjust_val x))).
(** calc_ppmi, mxcalc.py:241-245 *)
Definition calc_ppmi : measure := fun o11 o21 o12 o22 =>
  rmap (fun pmi => if Rlt_dec pmi 0 then 0 else pmi) (calc_pmi o11 o21 o12 o22).
(** calc_lik, mxcalc.py:248-264 *)
Definition calc_lik : measure := fun o11 o21 o12 o22 =>
  rbind (fdiv o11 (o11 + o21)) (fun p1 => let p1 := adjust_val p1 in
  rbind (fdiv o12 (o12 + o22)) (fun p2 => let p2 := adjust_val p2 in
  rbind (fdiv (o11 + o12) (o11 + o12 + o21 + o22)) (fun p => let p := adjust_val p in
  rbind (flog p1) (fun l1 => rbind (flog (1 - p1)) (fun l1' =>
  rbind (flog p2) (fun l2 => rbind (flog (1 - p2)) (fun l2' =>
  rbind (flog p) (fun l => rbind (flog (1 - p)) (fun l' =>
  Ok (2 * (o11 * l1 + o21 * l1' + o12 * l2 + o22 * l2' - o11 * l - o21 * l' - o12 * l - o22 * l'))))))))))).
(** calc_chisq, mxcalc.py:267-274 *)
Definition calc_chisq : measure := fun o11 o21 o12 o22 =>
  fdiv ((o11 + o21 + o12 + o22) * (o11 * o22 - o21 * o12) ^ 2) ((o11 + o21) * (o11 + o12) * (o21 + o22) * (o12 + o22)).
(** calc_zscore, mxcalc.py:277-284 *)
Definition calc_zscore : measure := fun o11 o21 o12 o22 =>
  rbind (fdiv ((o11 + o21) * (o11 + o12)) (o11 + o21 + o12 + o22)) (fun e11 =>
  rbind (fsqrt e11) (fun s => fdiv (o11 - e11) s)).
(** calc_dice, mxcalc.py:295-300 *)
Definition calc_dice : measure := fun o11 o21 o12 o22 => fdiv (2 * o11) ((o11 + o12) + (o11 + o21)).
(** calc_deltap, mxcalc.py:303-306 *)
Definition calc_deltap : measure := fun o11 o21 o12 o22 =>
  rbind (fdiv o11 (o11 + o12)) (fun a => rbind (fdiv o21 (o21 + o22)) (fun b => Ok (a - b))).
(** calc_deltap_coll, mxcalc.py:309-312 *)
Definition calc_deltap_coll : measure := fun o11 o21 o12 o22 =>
  rbind (fdiv o11 (o11 + o21)) (fun a => rbind (fdiv o12 (o12 + o22)) (fun b => Ok (a - b))).
(** calc_log_ratio, mxcalc.py:315-320 *)
Definition calc_log_ratio : measure := fun o11 o21 o12 o22 =>
  rbind (if Req_EM_T o21 0 then Ok 1
         else rbind (fdiv o11 (o11 + o12)) (fun a => rbind (fdiv o21 (o21 + o22)) (fun b => fdiv a b)))
        (fun ratio => flog (adjust_val ratio)).
(** func_dict, mxcalc.py:170-181 *)
Definition func_dict : dict pystr measure :=
  [(u "pmi", calc_pmi); (u "ppmi", calc_ppmi); (u "lik", calc_lik); (u "llik", calc_lik); (u "chisq", calc_chisq);
   (u "zscore", calc_zscore); (u "dice", calc_dice); (u "deltap", calc_deltap); (u "deltapColl", calc_deltap_coll);
   (u "logratio", calc_log_ratio)].

(** [[v[e] for e in items]]; the zeros that a defaultdict inserts change neither the later lookups nor the sums. *)
Definition marginals (v : vocab) (items : list pystr) : res (list Z) := rmapm (fun e => fst (v_lookup v e)) items.

(** calc_association, mxcalc.py:126-201, as called by compute_association (both marginal arrays given). *)
Definition calc_cell (f : measure) (rsum csum : list Z) (N : Z) (e : nat * nat * Z) : res (nat * nat * R) :=
  rbind (at_ rsum (fst (fst e))) (fun r1 => rbind (at_ csum (snd (fst e))) (fun c1 =>
    let c_a_b := snd e in
    let c_a_nb := (r1 - c_a_b)%Z in
    let c_na_b := (c1 - c_a_b)%Z in
    let c_na_nb := (N - c_a_nb - c_na_b - c_a_b)%Z in
    rmap (fun x => (fst e, x)) (f (IZR c_a_b) (IZR c_na_b) (IZR c_a_nb) (IZR c_na_nb)))).
Definition calc_association (m : sp Z) (rsum csum : list Z) (N : Z) (meas : pystr) : res (sp R) :=
  match dget func_dict meas with
  | None => Err NotImplementedError
  | Some f => rmap (of_coo (nrows m) (ncols m)) (rmapm (calc_cell f rsum csum N) (entries m))
  end.
(** compute_association, mxcalc.py:86-123; N = None or 0 means not given *)
Definition compute_association (m : ttm Z) (nfreq cfreq : vocab) (N : option Z) (meas : pystr) : res (ttm R) :=
  let total := match N with
               | Some n => if (n =? 0)%Z then Z.max (v_sum nfreq) (v_sum cfreq) else n
               | None => Z.max (v_sum nfreq) (v_sum cfreq)
               end in
  rbind (marginals nfreq (trows m)) (fun rsum =>
  rbind (marginals cfreq (tcols m)) (fun csum =>
  rbind (calc_association (tmx m) rsum csum total meas) (fun s => mk_ttm s (trows m) (tcols m)))).

(** compute_ppmi, mxcalc.py:40-83.  Without nfreq the first line fails.  Without cfreq the column sums of the matrix are used;
    for a single column np.squeeze gives an array without dimensions, which cannot be indexed. *)
Definition ppmi_cell (positive : bool) (rsum : list Z) (csum : nat -> res Z) (tot : Z) (e : nat * nat * Z) : res (nat * nat * R) :=
  rbind (at_ rsum (fst (fst e))) (fun r1 => rbind (csum (snd (fst e))) (fun c1 =>
    let e11 := (r1 * c1)%Z in
    let x := if (0 <? e11)%Z then IZR (snd e) * IZR tot / IZR e11 else 0 in
    rmap (fun pmi => (fst e, if positive then (if Rlt_dec pmi 0 then 0 else pmi) else pmi))
         (flog (if Req_EM_T x 0 then 1 else x)))).
Definition compute_ppmi (m : ttm Z) (nfreq cfreq : option vocab) (positive : bool) : res (ttm R) :=
  match nfreq with
  | None => Err AttributeError
  | Some nf =>
      rbind (marginals nf (trows m)) (fun rsum =>
      rbind (match cfreq with
             | None => Ok (fun j => if (ncols (tmx m) =? 1)%nat then Err IndexError else at_ (map (col_sum (tmx m)) (seq 0 (ncols (tmx m)))) j)
             | Some cf => rmap (fun l => at_ l) (marginals cf (tcols m))
             end) (fun csum =>
      rbind (rmapm (ppmi_cell positive rsum csum (v_sum nf)) (entries (tmx m))) (fun es =>
      mk_ttm (of_coo (nrows (tmx m)) (ncols (tmx m)) es) (trows m) (tcols m))))
  end.

(** entropy, mxcalc.py:323-328 *)
Fixpoint entropy (values : list R) : res R :=
  match values with
  | [] => Ok 0
  | val :: t => rbind (flog (adjust_val val)) (fun l => rmap (fun e => - (val * l) + e) (entropy t))
  end.
