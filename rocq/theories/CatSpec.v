(** * What concatenated matrices should be. *)
From Coq Require Import String NArith ZArith Bool Arith List.
From Verif Require Import Base VocabModel MxModel MxSpec IdxSpec CatModel.
Import ListNotations.
Local Open Scope nat_scope.

Section Spec.
  Context {V : Type} {NV : Num V}.
  (** The cell at a position. *)
  Definition scell (m : smx V) (i j : nat) : V :=
    match m with
    | Comp m => spget m i j
    | Coo _ _ es => sumv (map snd (filter (fun e => (fst (fst e) =? i) && (snd (fst e) =? j)) es))
    end.
  Definition swf (m : smx V) : Prop :=
    match m with
    | Comp m => spwf m
    | Coo nr nc es => Forall (fun e => fst (fst e) < nr /\ snd (fst e) < nc) es
    end.
  (** A matrix whose items fit its shape. *)
  Definition sgood (a : stm V) : Prop := swf (smat a) /\ srows (smat a) = length (strows a) /\ scols (smat a) = length (stcols a).
  Definition is_fmt (f : sformat) (m : smx V) : Prop := match m with Comp m => sfmt m = f | Coo _ _ _ => False end.
  Definition subscriptable (m : smx V) : Prop := match m with Comp _ => True | Coo _ _ _ => False end.
  (** Many matrices, one after the other: ((a + b1) + b2) + ... *)
  Fixpoint concat_all (a : stm V) (bs : list (stm V)) (axis : Z) : res (stm V) :=
    match bs with [] => Ok a | b :: bs => rbind (concatenate a b axis) (fun c => concat_all c bs axis) end.
  (** All cells, row by row. *)
  Definition cells_of (a : stm V) : list (list V) := map (fun i => map (scell (smat a) i) (seq 0 (scols (smat a)))) (seq 0 (srows (smat a))).
End Spec.
(** The int [z] stands for position [k] among [n]: counted from the end if negative. *)
Definition points (n : nat) (z : Z) (k : nat) : Prop := k < n /\ from_end n z = Z.of_nat k.
