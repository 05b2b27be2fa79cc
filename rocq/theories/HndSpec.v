(** * Which vocabularies a call of a ColFreqHandler should use. *)
From Coq Require Import String NArith ZArith Bool Arith List.
From Verif Require Import Base VocabModel HndModel.
Import ListNotations.

Section Spec.
  Context {L : Type}.
  Notation event := (@event L).
  (** The construction is written as the first action of a history, before the events. *)
  Inductive action := New (row col : option nat) | Ev (e : event).

  Definition nonempty (v : vocab) : Prop := fd v <> [].
  (** An empty vocabulary, or one made from a dict (not filled afterwards by increment: C76). *)
  Definition usable (v : vocab) : Prop := fd v = [] \/ (filt v = true /\ dwf (fd v)).
  (** The objects after some actions. *)
  Fixpoint objs_after (h : objs) (acts : list action) : objs :=
    match acts with
    | [] => h
    | Ev (Change i v) :: acts => objs_after (put h i v) acts
    | _ :: acts => objs_after h acts
    end.
  (** The action hands over the vocabulary i as rows (as columns), and i has items at that time; a call whose file names cannot
      be prepared hands over nothing. *)
  Definition gives_rows (h : objs) (a : action) (i : nat) : Prop :=
    nonempty (h i) /\ match a with
                      | New row _ => row = Some i
                      | Ev (Call _ _ (Ok _) row _) => row = Some i
                      | _ => False
                      end.
  Definition gives_cols (h : objs) (a : action) (i : nat) : Prop :=
    nonempty (h i) /\ match a with
                      | New _ col => col = Some i
                      | Ev (Call _ _ (Ok _) _ col) => col = Some i
                      | _ => False
                      end.
  (** The last i that some action gave in the sense of P (which may look at the actions before it); none was given. *)
  Definition last_of (P : list action -> action -> nat -> Prop) (acts : list action) (i : nat) : Prop :=
    exists a1 a a2, acts = a1 ++ a :: a2 /\ P a1 a i /\ forall b1 b b2 j, a2 = b1 ++ b :: b2 -> ~ P (a1 ++ a :: b1) b j.
  Definition none_of (P : list action -> action -> nat -> Prop) (acts : list action) : Prop :=
    forall a1 a a2 i, acts = a1 ++ a :: a2 -> ~ P a1 a i.
  (** i is the last vocabulary with items that was handed over as rows; none was. *)
  Definition last_rows (h : objs) : list action -> nat -> Prop := last_of (fun a1 a i => gives_rows (objs_after h a1) a i).
  Definition no_rows (h : objs) : list action -> Prop := none_of (fun a1 a i => gives_rows (objs_after h a1) a i).
  (** Rows with items are known after the actions: handed over and not emptied since. *)
  Definition rows_known (h : objs) (acts : list action) : Prop :=
    exists i, last_rows h acts i /\ nonempty (objs_after h acts i).
  (** i is handed over as columns and kept: on construction, or by a call that knows its rows. *)
  Definition keeps_cols (h : objs) (a1 : list action) (a : action) (i : nat) : Prop :=
    gives_cols (objs_after h a1) a i /\ match a with New _ _ => True | _ => rows_known h (a1 ++ [a]) end.
  Definition last_cols (h : objs) : list action -> nat -> Prop := last_of (keeps_cols h).
  Definition no_cols (h : objs) : list action -> Prop := none_of (keeps_cols h).
End Spec.
Arguments action : clear implicits.
