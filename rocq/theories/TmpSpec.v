(** * Vocabulary of the claims about simultaneous processes. *)
From Coq Require Import NArith ZArith Bool Arith List.
From Verif Require Import Base Str ConfModel TmpModel.
Import ListNotations.

(** [p] is [d] or one of the directories above it. *)
Definition above (p d : path) : Prop := exists q, d = p ++ q.
(** The directory exists. *)
Definition there (fs : list path) (d : path) : Prop := d = [] \/ In d fs.
(** Calls of make_dir for the directories [ds] start together. *)
Definition calls (fs : list path) (ds : list path) : mworld := MW fs (map Test ds).

(** The calls are for directories none of which is another or above another. *)
Definition apart (ds : list path) : Prop := forall i j d d', nth_error ds i = Some d -> nth_error ds j = Some d' -> i <> j -> ~ above d d'.
(** Events of other workers and other runs than the worker [w]'s *)
Definition not_of {D} (w : nat) (e : event D) : Prop := match e with Init => True | Mk v | Save v _ | Load v => v <> w end.
