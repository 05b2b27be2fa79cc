(** * Vocabulary of the claims about printing and CSV files. *)
From Coq Require Import String NArith ZArith Bool Arith Permutation Sorted List.
From Verif Require Import Base Str VocabModel MxModel MxSpec.
Import ListNotations.
Local Open Scope string_scope.
Local Open Scope nat_scope.
Local Open Scope list_scope.

(** The number of rows or columns shown of [len]: all for None and 0, else at most n *)
Definition shown (n : option Z) (len : nat) : nat :=
  match n with None => len | Some z => if (z =? 0)%Z then len else Nat.min (Z.to_nat z) len end.
Definition not_negative (n : option Z) : Prop := match n with Some z => (0 <= z)%Z | None => True end.
(** The table of the first [sr] of [r] rows and the first [sc] of [c] columns: a first line with the shape and the column items, a
    line per row that starts with the row item, a last field "..." when columns are left out and a last line of "..." when rows are *)
Definition a_table (r c sr sc : nat) (rows cols : list pystr) (text : nat -> nat -> pystr) : list (list pystr) :=
  let more := if sc <? c then [u "..."] else [] in
  ((u "[" ++ str_of_Z (Z.of_nat r) ++ u ", " ++ str_of_Z (Z.of_nat c) ++ u "]") :: firstn sc cols ++ more) ::
  map (fun i => nth i rows [] :: map (text i) (seq 0 sc) ++ more) (seq 0 sr) ++
  (if sr <? r then [repeat (u "...") (S sc + length more)] else []).
(** Sorted by frequency, highest first; items with the same frequency stay in their order *)
Definition by_freq (l s : list (pystr * Z)) : Prop :=
  Permutation l s /\ StronglySorted (fun a b => (snd b <= snd a)%Z) s /\
  forall f, filter (fun a => (snd a =? f)%Z) s = filter (fun a => (snd a =? f)%Z) l.
