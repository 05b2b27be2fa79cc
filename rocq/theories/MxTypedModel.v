(** * transform_dict_to_spmatrix with values of different number types, mxutils.py:37-98.

    The three arrays row, col and data are all created with the type of the first value (lines 74, 90-92), so that later values
    and the indices are converted to it: a float is truncated to int, anything but zero becomes True, an index becomes 0 or 1. *)
From Coq Require Import NArith ZArith Bool Arith QArith Qcanon List.
From Verif Require Import Base MxModel.
Import ListNotations.
Local Open Scope Qc_scope.

#[export] Instance Num_Qc : Num Qc.
Proof.
  refine {| zero := 0; one := 1; add := Qcplus; mul := Qcmult; vleb := fun a b => Qle_bool (this a) (this b) |}; intros.
  - apply Qcplus_comm. - apply Qcplus_assoc. - apply Qcplus_0_l. - apply Qcmult_1_r. - apply Qcmult_0_l. - apply Qcmult_0_r.
  - discriminate.
  - destruct (Qlt_le_dec b a); [right|left]; apply Qle_bool_iff; [now apply Qlt_le_weak|assumption].
  - apply Qle_bool_iff in H, H0. now apply Qcle_antisym.
  - apply Qle_bool_iff in H, H0. apply Qle_bool_iff. eapply Qle_trans; eassumption.
Defined.

Inductive numty := TBool | TInt | TFloat.
#[export] Instance EqDec_numty : EqDec numty. Proof. intros x y. decide equality. Defined.
(** int(x): towards zero *)
Definition truncate (q : Qc) : Qc := Q2Qc (inject_Z (Z.quot (Qnum q) (Zpos (Qden q)))).
Definition conv (t : numty) (q : Qc) : Qc :=
  match t with TBool => if Qc_eq_dec q 0 then 0 else 1 | TInt => truncate q | TFloat => q end.
Definition conv_index (t : numty) (i : nat) : nat := match t with TBool => Nat.min i 1 | _ => i end.
(** A number as the Python program holds it: a type and a value that the type has. *)
Definition tnum := (numty * Qc)%type.
Definition tvalid (x : tnum) : Prop := conv (fst x) (snd x) = snd x.
Definition d2s_typed (d : dict pystr (dict pystr tnum)) (rows cols : list pystr) : res (sp Qc) :=
  let r2i := item2id rows in
  let c2i := item2id cols in
  rbind (rmap (@concat _) (rmapm (fun rv => rmapm (fun cv =>
    rbind (lookup r2i (fst rv)) (fun i => rbind (lookup c2i (fst cv)) (fun j => Ok (i, j, snd cv))))
    (isort kleb (snd rv))) (isort kleb d))) (fun es =>
  match es with
  | [] => Err ValueError
  | (_, _, (t, _)) :: _ =>
      checked_of_coo (length r2i) (length c2i)
        (map (fun e => (conv_index t (fst (fst e)), conv_index t (snd (fst e)), conv t (snd (snd e)))) es)
  end).
(** The dict of the values alone *)
Definition untyped (d : dict pystr (dict pystr tnum)) : dict pystr (dict pystr Qc) :=
  map (fun rv => (fst rv, map (fun cv => (fst cv, snd (snd cv))) (snd rv))) d.
