(** * Vocabulary of the matrix claims: the value of a pair of items, well formed matrices, nested dicts. *)
From Coq Require Import NArith ZArith Bool Arith List.
From Verif Require Import Base MxModel.
Import ListNotations.

Section MxSpec.
  Context {V : Type} {NV : Num V}.

  (** A scipy matrix as the library's own functions build it: minor indices in range, none stored twice in a lane. *)
  Definition spwf (m : sp V) : Prop :=
    Forall (fun ln => NoDup (map fst ln) /\ Forall (fun e => fst e < nminor m) ln) (lanes m).
  (** Position (i, j) is stored, possibly with the value zero. *)
  Definition stored (m : sp V) (i j : nat) : Prop := In (i, j) (map fst (entries m)).

  (** The value for a pair of items; zero when an item is absent. *)
  Definition val (m : ttm V) (r c : pystr) : V :=
    match index_of r (trows m), index_of c (tcols m) with
    | Some i, Some j => spget (tmx m) i j
    | _, _ => zero
    end.
  (** A TypeTokenMatrix with distinct row items and distinct column items. *)
  Record tgood (m : ttm V) : Prop := {
    tg_wf : spwf (tmx m);
    tg_rows : nrows (tmx m) = length (trows m);
    tg_cols : ncols (tmx m) = length (tcols m);
    tg_nr : NoDup (trows m);
    tg_nc : NoDup (tcols m)
  }.

  (** d[r][c] if present *)
  Definition dget2 (d : dict pystr (dict pystr V)) (r c : pystr) : option V :=
    match dget d r with Some row => dget row c | None => None end.
  (** Cells of a result triple (matrix, row items, column items) *)
  Definition oz (o : option V) : V := match o with Some v => v | None => zero end.
  (** A nested dict all of whose rows and columns are among the given items. *)
  Definition mxwf (d : dict pystr (dict pystr V)) (rows cols : list pystr) : Prop :=
    dwf d /\ forall r row, In (r, row) d -> In r rows /\ dwf row /\ incl (dkeys row) cols.
End MxSpec.
