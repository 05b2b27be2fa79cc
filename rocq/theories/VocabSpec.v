(** * What the Vocab theorems mean: specification vocabulary, independent of the model's algorithms. *)
From Coq Require Import NArith ZArith Bool List.
From Verif Require Import Base Str VocabModel VocabFileModel.
Import ListNotations.
Local Open Scope Z_scope.

(** ** Specification side: finite maps as functions *)
Definition smap := pystr -> option Z.
Definition supd (m : smap) (k : pystr) (f : Z) : smap := fun k' => if eqdec k' k then Some f else m k'.
Definition sval (m : smap) (k : pystr) : Z := match m k with Some f => f | None => 0 end.
(** What one call means for the abstract map. *)
Definition s_step (m : smap) (o : vop) : smap :=
  match o with
  | VSet k f => supd m k f
  | VIncr k i => supd m k (sval m k + i)
  | VLookup k => m
  end.
Definition s_run (m : smap) (ops : list vop) : smap := fold_left s_step ops m.
(** [l] enumerates the domain of [m] without repetition. *)
Definition enumerates (l : list pystr) (m : smap) : Prop := NoDup l /\ forall k, In k l <-> m k <> None.

Definition vget (v : vocab) : smap := dget (fd v).

(** Specification of the order of the frequency list: higher frequency first, ties alphabetically. *)
Definition before (a b : pystr * Z) : Prop :=
  snd a > snd b \/ (snd a = snd b /\ sltb (fst a) (fst b) = true).

(** [word] is the part of the item before its last '/', or the item itself when it has none. *)
Definition is_word_of (word item : pystr) : Prop :=
  (exists tail, item = word ++ slash :: tail /\ ~ In slash tail) \/ (item = word /\ ~ In slash item).
(** An item survives the file format iff it is not empty, does not start with white space and contains
    neither a tab nor a line boundary. *)
Definition safe_item (k : pystr) : Prop :=
  (exists c k', k = c :: k' /\ is_ws c = false) /\ ~ In tab k /\ forall c, In c k -> is_break c = false.


(** Position [p] of a sequence of length [n] lies in the Python slice [a:b]: a negative bound counts from the end. *)
Definition in_slice (n : nat) (a b : option Z) (p : nat) : bool :=
  match a with None => true | Some a => (if a <? 0 then Z.of_nat n + a else a) <=? Z.of_nat p end &&
  match b with None => true | Some b => Z.of_nat p <? (if b <? 0 then Z.of_nat n + b else b) end.
(** The elements of [l] whose position satisfies [P], in order. *)
Definition at_positions {A} (P : nat -> bool) (l : list A) : list A :=
  map snd (filter (fun px => P (fst px)) (combine (seq 0 (length l)) l)).
