(** * Vocabulary of the claims about saved objects. *)
From Coq Require Import String NArith ZArith Bool Arith List.
From Verif Require Import Base Str SavModel.
Import ListNotations.
Local Open Scope string_scope.
Local Open Scope nat_scope.
Local Open Scope list_scope.

(** The four attributes that saving adds to an object *)
Definition added : list pystr := [u "__numpys"; u "__scipys"; u "__ignoreds"; u "__recursive_saveloads"].

Section SavSpec.
  Context {A K Oth : Type}.
  Variable size : A -> nat.
  Variable nnz : K -> A -> A -> A -> nat.
  Variable contig : A -> A.

  (** All objects have the attributes they had *)
  Definition same_attrs (h h' : heap A K Oth) : Prop :=
    forall b x, ~ In x added -> dget (nth b h' []) x = dget (nth b h []) x.
  (** Object [a] and the objects below it form a tree of depth at most n at the addresses [l]: different attributes lead to different objects *)
  Fixpoint tree (n : nat) (h : heap A K Oth) (a : nat) (l : list nat) : Prop :=
    match n with
    | O => False
    | S n => a < length h /\ In a l /\
        exists sub : pystr -> list nat,
          (forall x b, dget (nth a h []) x = Some (VRef b) -> tree n h b (sub x) /\ incl (sub x) l /\ ~ In a (sub x)) /\
          (forall x y b c, dget (nth a h []) x = Some (VRef b) -> dget (nth a h []) y = Some (VRef c) -> x <> y -> forall z, In z (sub x) -> ~ In z (sub y))
    end.
  (** Attribute names are distinct and have no dots; the added ones, if there, hold lists of names *)
  Definition good_obj (o : obj A K Oth) : Prop :=
    dwf o /\ (forall x v, dget o x = Some v -> ~ In 46%N x) /\ (forall x v, In x added -> dget o x = Some v -> exists l, v = VNames l).

  (** An attribute goes to a file of its own: the listed ones, or without a list those that are large arrays *)
  Definition apart (separately : option (list pystr)) (lim : nat) (x : pystr) (v : val A K Oth) : bool :=
    match separately with
    | Some l => mem x l
    | None => match v with VArr y => lim <=? size y | VSp k d p i => lim <=? nnz k d p i | _ => false end
    end.
  (** What an attribute is after loading *)
  Definition comes_back (ignore : list pystr) (separately : option (list pystr)) (lim : nat) (x : pystr) (v : val A K Oth) : val A K Oth :=
    if mem x ignore then VNone
    else if apart separately lim x v then match v with VArr y => VArr (contig y) | VSp k d p i => VSp k d p i | _ => VNone end
    else v.
  (** The loaded object has the attributes of the saved one, and so have the objects below it *)
  Fixpoint back (n lim : nat) (ignore : list pystr) (separately : option (list pystr)) (h : heap A K Oth) (a : nat) (h' : heap A K Oth) : Prop :=
    match n with
    | O => False
    | S n => forall x, ~ In x added ->
        dget (nth a h' []) x = option_map (comes_back ignore separately lim x) (dget (nth a h []) x) /\
        forall b, option_map (comes_back ignore separately lim x) (dget (nth a h []) x) = Some (VRef b) -> back n lim ignore None h b h'
    end.
End SavSpec.
