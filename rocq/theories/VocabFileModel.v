(** * Model of the plain text format of frequency lists:
      nephosem/utils.py save_dict_plain / load_dict_plain and Vocab.save / Vocab.load with fmt='plain'. *)
From Coq Require Import NArith ZArith Bool Arith List.
From Verif Require Import Base Str VocabModel.
Import ListNotations.

Definition tab : N := 9%N.
Definition newline : N := 10%N.
Definition dot : N := 46%N.

(** utils.save_dict_plain, utils.py:227-250 with order='freq' (the only order Vocab.save uses,
    vocab.py:401-413): the decoded text written to the file.  Simplified: the encoding is assumed able
    to represent the text. *)
Definition save_plain (d : dict pystr Z) : pystr :=
  match d with
  | [] => []
  | _ => concat (map (fun kv => fst kv ++ tab :: str_of_Z (snd kv) ++ [newline])
                  (isort (fun a b => Z.leb (snd b) (snd a)) (isort (fun a b => sleb (fst a) (fst b)) d)))
  end.

(** A value read back: an int, or the float denoted by a text. *)
Inductive fval := FInt (z : Z) | FFloat (text : pystr).

Section Load.
  (** Texts accepted by Python's [float()]; arbitrary. *)
  Variable float_ok : pystr -> bool.

  (** [float(p) if '.' in p else int(p)], utils.py:270 *)
  Definition read_val (p : pystr) : res fval :=
    if mem dot p then (if float_ok p then Ok (FFloat p) else Err ValueError)
    else rmap FInt (int_of_str p).

  (** One iteration of the loop of load_dict_plain, utils.py:266-270.  Line terminators are white space
      and disappear with [strip], so lines are taken without them. *)
  Definition load_line (d : dict pystr fval) (line : pystr) : res (dict pystr fval) :=
    match split tab (strip line) with
    | p0 :: p1 :: _ => rmap (dset d p0) (read_val p1)
    | _ => Ok d
    end.

  (** utils.load_dict_plain, utils.py:260-271 *)
  Definition load_plain (text : pystr) : res (dict pystr fval) :=
    rfold load_line (splitlines text) [].
End Load.
