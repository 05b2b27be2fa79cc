(** * Vocabulary of the claims about sizes and collocates. *)
From Coq Require Import String NArith ZArith Bool Arith List.
From Verif Require Import Base Str UtlModel.
Import ListNotations.
Local Open Scope string_scope.
Local Open Scope nat_scope.
Local Open Scope list_scope.

(** The unit letters and what they stand for *)
Definition unit_names : list pystr := map u [""; "K"; "M"; "G"; "T"; "P"; "E"; "Z"; "Y"].
(** [num] is shown as [t] tenths of the [k]th unit. *)
Definition shown (num : N) (suffix : pystr) (t : N) (k : nat) : Prop := exists unit, nth_error unit_names k = Some unit /\
  sizeof_fmt num suffix = str_of_Z (Z.of_N (t / 10)) ++ u "." ++ str_of_Z (Z.of_N (t mod 10)) ++ unit ++ suffix.
(** All the collocates of all the tokens *)
Definition all_collocs {C} (toks : list (ctoken C)) : list (cnode C) := flat_map (fun t => c_l t ++ c_r t) toks.
(** An object has one content. *)
Definition objects {C} (l : list (cnode C)) : Prop := forall m n, In m l -> In n l -> n_obj m = n_obj n -> m = n.
