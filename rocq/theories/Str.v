(** * Python string methods used by nephosem: split, join, strip, splitlines, int(), str(). *)
From Coq Require Import Decimal NArith ZArith Bool Arith List.
From Verif Require Import Base.
Import ListNotations.

(** [s.split(c)] for a one-character separator: never empty. *)
Fixpoint split (c : N) (s : pystr) : list pystr :=
  match s with
  | [] => [[]]
  | x :: s' =>
      if eqdec x c then [] :: split c s'
      else match split c s' with
           | [] => [[x]]
           | p :: ps => (x :: p) :: ps
           end
  end.

(** [c.join(l)] for a one-character separator. *)
Fixpoint join (c : N) (l : list pystr) : pystr :=
  match l with
  | [] => []
  | [p] => p
  | p :: l' => p ++ c :: join c l'
  end.

(** [str.isspace] per code point (Unicode White_Space plus 0x1C..0x1F, as in CPython). *)
Definition is_ws (c : N) : bool :=
  ((9 <=? c) && (c <=? 13))%N || ((28 <=? c) && (c <=? 32))%N ||
  (c =? 133)%N || (c =? 160)%N || (c =? 5760)%N || ((8192 <=? c) && (c <=? 8202))%N ||
  (c =? 8232)%N || (c =? 8233)%N || (c =? 8239)%N || (c =? 8287)%N || (c =? 12288)%N.

(** Line boundaries of [str.splitlines], which the codecs stream reader uses for line iteration. *)
Definition is_break (c : N) : bool :=
  ((10 <=? c) && (c <=? 13))%N || ((28 <=? c) && (c <=? 30))%N ||
  (c =? 133)%N || (c =? 8232)%N || (c =? 8233)%N.

Fixpoint lstrip (s : pystr) : pystr :=
  match s with [] => [] | x :: s' => if is_ws x then lstrip s' else s end.
Definition rstrip (s : pystr) : pystr := rev (lstrip (rev s)).
Definition strip (s : pystr) : pystr := rstrip (lstrip s).

(** [s.splitlines()]: "\r\n" is one boundary, no empty last line. [cur] is the reversed current line. *)
Fixpoint splitlines_aux (cur : pystr) (s : pystr) : list pystr :=
  match s with
  | [] => match cur with [] => [] | _ => [rev cur] end
  | c :: s' =>
      if is_break c then
        rev cur :: match s' with
                   | d :: s'' => if ((c =? 13) && (d =? 10))%N then splitlines_aux [] s'' else splitlines_aux [] s'
                   | [] => splitlines_aux [] s'
                   end
      else splitlines_aux (c :: cur) s'
  end.
Definition splitlines (s : pystr) : list pystr := splitlines_aux [] s.

(** [str(z)] for an int. *)
Fixpoint uint_str (d : uint) : pystr :=
  match d with
  | Nil => []
  | D0 d => 48%N :: uint_str d | D1 d => 49%N :: uint_str d | D2 d => 50%N :: uint_str d
  | D3 d => 51%N :: uint_str d | D4 d => 52%N :: uint_str d | D5 d => 53%N :: uint_str d
  | D6 d => 54%N :: uint_str d | D7 d => 55%N :: uint_str d | D8 d => 56%N :: uint_str d
  | D9 d => 57%N :: uint_str d
  end.
Definition minus : N := 45%N.
Definition plus : N := 43%N.
Definition str_of_Z (z : Z) : pystr :=
  match Z.to_int z with
  | Pos d => uint_str d
  | Neg d => minus :: uint_str d
  end.

(** [int(s)]: surrounding whitespace, optional sign, decimal digits.  Simplified: underscores and
    non-ASCII digits, which Python also accepts, are treated as errors. *)
Fixpoint digits (s : pystr) : option uint :=
  match s with
  | [] => Some Nil
  | c :: s' =>
      match digits s' with
      | None => None
      | Some d =>
          if (c =? 48)%N then Some (D0 d) else if (c =? 49)%N then Some (D1 d) else
          if (c =? 50)%N then Some (D2 d) else if (c =? 51)%N then Some (D3 d) else
          if (c =? 52)%N then Some (D4 d) else if (c =? 53)%N then Some (D5 d) else
          if (c =? 54)%N then Some (D6 d) else if (c =? 55)%N then Some (D7 d) else
          if (c =? 56)%N then Some (D8 d) else if (c =? 57)%N then Some (D9 d) else None
      end
  end.
Definition int_of_str (s : pystr) : res Z :=
  match strip s with
  | [] => Err ValueError
  | c :: s' =>
      if (c =? minus)%N then
        match s' with [] => Err ValueError | _ => match digits s' with Some d => Ok (Z.of_int (Neg d)) | None => Err ValueError end end
      else if (c =? plus)%N then
        match s' with [] => Err ValueError | _ => match digits s' with Some d => Ok (Z.of_int (Pos d)) | None => Err ValueError end end
      else match digits (c :: s') with Some d => Ok (Z.of_int (Pos d)) | None => Err ValueError end
  end.
