(** * Committee vectors and the first version of step 3: nephosem/models/cbc.py:704-795, 1150-1202 and
    nephosem/specutils/mxutils.py:315-342.

    Values are real numbers: rounding and overflow are not modelled.  0 / 0 gives NaN in numpy: a vector in which every cell is
    NaN is [None].  Frequencies are taken not to be negative, so no other division by zero occurs.
    Positions in a cluster are natural numbers (negative ones would count from the end). *)
From Coq Require Import String NArith ZArith Bool Arith Reals List.
From Verif Require Import Base Str CalcModel CalcVecModel.
Import ListNotations.
Local Open Scope string_scope.
Local Open Scope list_scope.
Local Open Scope R_scope.

(** [data] has [m] columns.  np.sum(data, axis=0) *)
Definition col_sum (data : dense) (j : nat) : R := sumr (map (fun row => nth j row 0) data).
Definition col_sums (m : nat) (data : dense) : list R := map (col_sum data) (seq 0 m).
(** np.mean(data, axis=0); without rows every cell is NaN *)
Definition col_means (m : nat) (data : dense) : option (list R) :=
  match data with [] => None | _ => Some (map (fun s => s / INR (length data)) (col_sums m data)) end.
(** mtx[np.array(cluster), :], mxutils.py:330-331.  np.array([]) is an array of floats, which is not an index. *)
Definition pick_rows (data : dense) (cluster : list nat) : res dense :=
  match cluster with
  | [] => Err IndexError
  | _ => rmapm (fun i => match nth_error data i with Some r => Ok r | None => Err IndexError end) cluster
  end.
Definition rows_of (data : dense) (cluster : option (list nat)) : res dense :=
  match cluster with None => Ok data | Some c => pick_rows data c end.
(** centroid_of_cluster, mxutils.py:315-333 *)
Definition centroid_of_cluster (m : nat) (data : dense) (cluster : option (list nat)) : res (option (list R)) :=
  rmap (col_means m) (rows_of data cluster).
(** sum_of_cluster, mxutils.py:336-342 *)
Definition sum_of_cluster (m : nat) (data : dense) (cluster : option (list nat)) : res (list R) :=
  rmap (col_sums m) (rows_of data cluster).

(** calc_meas_vec, cbc.py:1150-1180, for two vectors of the same length *)
Definition vsub (a b : list R) : list R := map (fun xy => fst xy - snd xy) (combine a b).
Definition meas_cell (meas : pystr) (row_sum tot : R) (tr : R * R) : res R :=
  let nt := fst tr / tot in
  let x := if Req_EM_T nt 0 then 0 else nt / (row_sum * ((fst tr + snd tr) / tot)) in
  let y := if Req_EM_T x 0 then 1 else x in
  if Rlt_dec 0 y then
    let pmi := ln y in
    if eqb meas (u "ppmi") then Ok (if Rlt_dec pmi 0 then 0 else pmi) else Ok 0
  else Err ValueError.
Definition calc_meas_vec (target_vec rest_vec : list R) (meas : pystr) : res (option (list R)) :=
  let target_sum := sumr target_vec in
  let tot_sum := target_sum + sumr rest_vec in
  if Req_EM_T tot_sum 0 then
    (* every normalised cell is NaN, and so is its logarithm *)
    Ok (if eqb meas (u "ppmi") then None else Some (map (fun _ => 0) target_vec))
  else rmap Some (rmapm (meas_cell meas (target_sum / tot_sum) tot_sum) (combine target_vec rest_vec)).

(** One row of the committee matrix, cbc.py:726-736 and 768-778 *)
Definition committee_vec (m : nat) (freqmx : dense) (clust : list nat) : res (option (list R)) :=
  rbind (centroid_of_cluster m freqmx (Some clust)) (fun cent =>
  rbind (sum_of_cluster m freqmx (Some clust)) (fun sum_clust_vec =>
  match cent with
  | None => Ok None
  | Some centroid_vec => calc_meas_vec centroid_vec (vsub (col_sums m freqmx) sum_clust_vec) (u "ppmi")
  end)).
(** calc_committee_vectors, cbc.py:704-738.  [clust] is a list, or the sorted list of a set. *)
Definition calc_committee_vectors (m : nat) (committees : list (list nat)) (freqmx : dense) : res (list (option (list R))) :=
  rmapm (committee_vec m freqmx) committees.

(** sklearn's cosine_similarity refuses an array without rows and an array with a NaN *)
Definition checked_cosine (commx : list (option (list R))) : res dense :=
  match commx with
  | [] => Err ValueError
  | _ => rmap cosine_similarity (rmapm (fun o => match o with Some v => Ok v | None => Err ValueError end) commx)
  end.
(** cbc_step3_old, cbc.py:741-795: the positions that are kept *)
Definition keep_step (simmx : dense) (theta : R) (C : list nat) (i : nat) : list nat :=
  if existsb (fun j => if Rle_dec theta (cell simmx j i) then true else false) C then C else C ++ [i].
Definition keep (simmx : dense) (theta : R) : list nat :=
  fold_left (keep_step simmx theta) (seq 1 (length simmx - 1)) [0%nat].
Definition cbc_step3_old (m : nat) (L : list (R * list nat)) (freqmx : dense) (theta : R) : res (list (R * list nat) * dense) :=
  rbind (calc_committee_vectors m (map snd L) freqmx) (fun commx =>
  rbind (checked_cosine commx) (fun simmx =>
  let C := keep simmx theta in
  Ok (map (fun i => nth i L (0, [])) C, map (fun i => match nth i commx None with Some v => v | None => [] end) C))).

(** reverse, cbc.py:1183-1202: a set of positions is the list of them in the order of insertion *)
Definition reverse_ids (fcids : list Z) (lid : Z) : dict (Z * Z) (list nat) :=
  fold_left (fun d ic => dset d (lid, snd ic) (match dget d (lid, snd ic) with Some l => l | None => [] end ++ [fst ic]))
            (combine (seq 0 (length fcids)) fcids) [].
