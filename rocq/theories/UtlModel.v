(** * Sizes in words and collocates of a type: sizeof_fmt (nephosem/utils.py:113-119) and TypeNode.get_collocs (terms.py:207-220). *)
From Coq Require Import String NArith ZArith Bool Arith List.
From Verif Require Import Base Str.
Import ListNotations.
Local Open Scope string_scope.
Local Open Scope nat_scope.
Local Open Scope list_scope.

(** ** sizeof_fmt
    For a whole number that is not negative (sizeof passes os.path.getsize).  Dividing by 1024.0 is exact for floats as long as the number has
    at most 53 bits; [num] and [den] are the number divided so far. *)
Section Sizeof.
  Local Open Scope N_scope.
  (** Ten times num/den, to the nearest whole number and to the even one of two as near: the digits of "{:.1f}" *)
  Definition tenths (num den : N) : N :=
    let q := 10 * num / den in
    let r := 10 * num mod den in
    if 2 * r <? den then q else if den <? 2 * r then q + 1 else if N.even q then q else q + 1.
  Definition units : list pystr := map u [""; "K"; "M"; "G"; "T"; "P"; "E"; "Z"].
  (** The loop, utils.py:114-119: digits and unit *)
  Fixpoint size_loop (us : list pystr) (num den : N) : N * pystr :=
    match us with
    | [] => (tenths num den, u "Y")
    | unit :: us => if num <? 1024 * den then (tenths num den, unit) else size_loop us num (1024 * den)
    end.
  Definition fixed1 (t : N) : pystr := str_of_Z (Z.of_N (t / 10)) ++ u "." ++ str_of_Z (Z.of_N (t mod 10)).
  Definition sizeof_fmt (num : N) (suffix : pystr) : pystr := let (t, unit) := size_loop units num 1 in fixed1 t ++ unit ++ suffix.
End Sizeof.

(** ** TypeNode.get_collocs
    Collocates are ItemNode objects, which have neither __eq__ nor __hash__: a set takes two of them for the same one when they are the same object.
    A node is the object's number and its content. *)
Section Collocs.
  Context {C : Type}.
  Record cnode := CNode { n_obj : nat; n_item : C }.
  Record ctoken := CToken { c_l : list cnode; c_r : list cnode }.
  (** set.update *)
  Definition set_add (s : list cnode) (n : cnode) : list cnode := if existsb (fun m => n_obj m =? n_obj n) s then s else s ++ [n].
  Definition get_collocs (toks : list ctoken) : list cnode := fold_left (fun s t => fold_left set_add (c_r t) (fold_left set_add (c_l t) s)) toks [].
End Collocs.
Arguments cnode : clear implicits.
Arguments ctoken : clear implicits.
