(** * What the theorems about logging mean. *)
From Coq Require Import String NArith ZArith Bool Arith List.
From Verif Require Import Base Str LogModel.
Import ListNotations.
Local Open Scope string_scope.
Local Open Scope nat_scope.
Local Open Scope list_scope.

Section LogSpec.
  Context {A : Type} (merge : pystr -> A -> res pystr) (can_open : pystr -> bool).
  Notation rec := (@lrec A).
  Notation op := (@lop A).

  (** The level the logger has after some operations, and the log file in use *)
  Fixpoint level_after (l : Z) (ops : list op) : Z :=
    match ops with [] => l | OLevel l' :: ops' => level_after l' ops' | _ :: ops' => level_after l ops' end.
  Fixpoint file_after (f : pystr) (ops : list op) : pystr :=
    match ops with [] => f | OChange f' :: ops' => file_after f' ops' | _ :: ops' => file_after f ops' end.

  (** A record is let through: it reaches the level of the logger it is made on if that is set, else the level of 'nephosem' if
      that is set, else WARNING. *)
  Definition enabled (pre : list op) (r : rec) : Prop :=
    (r_own r <> 0 /\ r_own r <= r_lev r)%Z \/
    (r_own r = 0 /\ level_after 20 pre <> 0 /\ level_after 20 pre <= r_lev r)%Z \/
    (r_own r = 0 /\ level_after 20 pre = 0 /\ 30 <= r_lev r)%Z.

  (** The message of a record, its arguments put in *)
  Definition message (r : rec) (m : pystr) : Prop :=
    (r_args r = None /\ m = r_msg r) \/ (exists a, r_args r = Some a /\ merge (r_msg r) a = Ok m).

  (** A line of output: the text, then the text of the exception (if any) on a line of its own *)
  Definition output (r : rec) (s : pystr) : pystr :=
    match r_exc r with
    | None | Some [] => s ++ [10%N]
    | Some x => (if N.eqb (last s 0%N) 10 then s else s ++ [10%N]) ++ x ++ [10%N]
    end.

  (** The prefixes on the console for the four levels that have one *)
  Definition named (l : Z) (r : rec) (p : pystr) : Prop :=
    (l = 40%Z /\ p = u "ERROR: ") \/ (l = 30%Z /\ p = u "WARNING: ") \/ (l = 20%Z /\ p = []) \/
    (l = 10%Z /\ p = u "DEBUG: " ++ r_module r ++ u ": " ++ str_of_Z (r_line r) ++ u ": ").
  Definition four (l : Z) : Prop := (l = 10 \/ l = 20 \/ l = 30 \/ l = 40)%Z.

  (** A record of one of the four levels whose arguments do not fit its message *)
  Definition misfit (pre : list op) (r : rec) : Prop := enabled pre r /\ four (r_lev r) /\ ~ exists m, message r m.
  (** [l] is the level of the last such record. *)
  Definition last_misfit (pre : list op) (l : Z) : Prop :=
    exists a r b, pre = a ++ OLog r :: b /\ misfit a r /\ r_lev r = l /\
                  forall a' r' b', b = a' ++ OLog r' :: b' -> ~ misfit (a ++ OLog r :: a') r'.

  (** The prefix of a record on the console *)
  Definition prefix (pre : list op) (r : rec) (p : pystr) : Prop :=
    (four (r_lev r) /\ named (r_lev r) r p) \/
    (~ four (r_lev r) /\ (exists l, last_misfit pre l /\ named l r p)) \/
    (~ four (r_lev r) /\ (forall l, ~ last_misfit pre l) /\ p = str_of_Z (r_lev r) ++ u ": ").

  (** Every log file of the history can be opened. *)
  Definition openable (pre : list op) : Prop := forall f, In (OChange f) pre -> can_open f = true.
  (** ... and no handler of a user is attached while the log file is changed. *)
  Definition calm (pre : list op) : Prop :=
    openable pre /\ forall a f b, pre = a ++ OChange f :: b -> forall a1 i l a2, a = a1 ++ OAdd i l :: a2 -> In (ORemove i) a2.

  (** All handlers of users have been removed again. *)
  Definition no_users (pre : list op) : Prop := forall a1 i l a2, pre = a1 ++ OAdd i l :: a2 -> In (ORemove i) a2.

  (** The handler [i] of a user is attached with level [l]: it was added with this level when it was not attached, and has not
      been removed since. *)
  Definition is_attached (pre : list op) (i : nat) (l : Z) : Prop :=
    exists a b, pre = a ++ OAdd i l :: b /\ ~ In (ORemove i) b /\ forall a1 l' a2, a = a1 ++ OAdd i l' :: a2 -> In (ORemove i) a2.

  (** A line of the log file *)
  Definition level_word (l : Z) (w : pystr) : Prop :=
    (l = 50%Z /\ w = u "CRITICAL") \/ (l = 40%Z /\ w = u "ERROR") \/ (l = 30%Z /\ w = u "WARNING") \/
    (l <> 50 /\ l <> 40 /\ l <> 30 /\ w = u "Level " ++ str_of_Z l)%Z.
  Definition file_line (r : rec) (s : pystr) : Prop :=
    exists m w, message r m /\ level_word (r_lev r) w /\ s = output r (r_time r ++ u " [" ++ w ++ u "]: " ++ m).

  (** Setting the level is left out. *)
  Definition without_levels (ops : list op) : list op := filter (fun o => match o with OLevel _ => false | _ => true end) ops.
End LogSpec.
