(** * Model of frequency lists in JSON: utils.save_dict_json and load_dict_json (nephosem/utils.py:220-223, 253-257), which
      Vocab.save and Vocab.load use by default, and Vocab.make_type_file (nephosem/core/vocab.py:293-310).

    The text is what Python's json.dump(..., ensure_ascii=False, indent=4) writes for a dict of strings and ints.  The reader
    is json.load as an automaton that takes one character at a time.  Simplified: values other than integers are treated as
    errors, and two escapes that form a surrogate pair are not joined; the writer makes neither. *)
From Coq Require Import String NArith ZArith Bool Arith List.
From Verif Require Import Base Str VocabModel.
Import ListNotations.
Local Open Scope list_scope.

Definition quote : N := 34%N.
Definition backslash : N := 92%N.
Definition hexdigit (n : N) : N := (if n <? 10 then 48 + n else 87 + n)%N.
(** json.encoder.ESCAPE_DCT; other control characters are written \u00xx *)
Definition esc (c : N) : pystr :=
  if (c =? 34)%N then [92; 34]%N else if (c =? 92)%N then [92; 92]%N else
  if (c =? 8)%N then [92; 98]%N else if (c =? 12)%N then [92; 102]%N else if (c =? 10)%N then [92; 110]%N else
  if (c =? 13)%N then [92; 114]%N else if (c =? 9)%N then [92; 116]%N else
  if (c <? 32)%N then [92; 117; 48; 48; hexdigit (c / 16); hexdigit (c mod 16)]%N else [c].
Definition jstring (s : pystr) : pystr := quote :: flat_map esc s ++ [quote].
(** newline and four spaces *)
Definition nlindent : pystr := [10; 32; 32; 32; 32]%N.
Definition jitem (kv : pystr * Z) : pystr := jstring (fst kv) ++ [58; 32]%N ++ str_of_Z (snd kv).
(** save_dict_json, utils.py:220-223 *)
Definition save_json (d : dict pystr Z) : pystr :=
  match d with
  | [] => [123; 125]%N
  | kv :: d' => 123%N :: nlindent ++ jitem kv ++ flat_map (fun kv => 44%N :: nlindent ++ jitem kv) d' ++ [10; 125]%N
  end.

(** White space of JSON *)
Definition jws (c : N) : bool := ((c =? 32) || (c =? 9) || (c =? 10) || (c =? 13))%N.
Definition unhex (c : N) : option N :=
  (if (48 <=? c) && (c <=? 57) then Some (c - 48) else if (97 <=? c) && (c <=? 102) then Some (c - 87)
   else if (65 <=? c) && (c <=? 70) then Some (c - 55) else None)%N.
Definition unesc (c : N) : option N :=
  if (c =? 34)%N then Some 34%N else if (c =? 92)%N then Some 92%N else if (c =? 47)%N then Some 47%N else
  if (c =? 98)%N then Some 8%N else if (c =? 102)%N then Some 12%N else if (c =? 110)%N then Some 10%N else
  if (c =? 114)%N then Some 13%N else if (c =? 116)%N then Some 9%N else None.
(** json.scanner.NUMBER_RE without fraction and exponent: a minus sign or not, then 0 or digits that do not begin with 0 *)
Definition jdigits (s : pystr) : bool :=
  match s with
  | [] => false
  | c :: s' => forallb (fun c => (48 <=? c) && (c <=? 57))%N s && (negb (c =? 48)%N || match s' with [] => true | _ => false end)
  end.
Definition jint (s : pystr) : res Z :=
  if (match s with c :: s' => if (c =? minus)%N then jdigits s' else jdigits s | [] => false end) then int_of_str s else Err ValueError.

(** The reader's states; [d] the pairs read so far, [acc] the reversed text of a string or number. *)
Inductive jstate :=
| JStart                                                   (* before the opening brace *)
| JOpen                                                    (* after it: a key or the closing brace *)
| JNext (d : dict pystr Z)                                 (* after a comma: a key *)
| JKey (d : dict pystr Z) (acc : pystr)                    (* in a key *)
| JEsc (d : dict pystr Z) (acc : pystr)                    (* after a backslash *)
| JHex (d : dict pystr Z) (acc : pystr) (n : nat) (x : N)  (* n more hexadecimal digits *)
| JColon (d : dict pystr Z) (k : pystr)                    (* after a key *)
| JVal (d : dict pystr Z) (k : pystr)                      (* before a value *)
| JNum (d : dict pystr Z) (k : pystr) (acc : pystr)        (* in a value *)
| JAfter (d : dict pystr Z)                                (* after a value: comma or closing brace *)
| JDone (d : dict pystr Z)                                 (* only white space may follow *)
| JFail.
Definition jafter (d : dict pystr Z) (c : N) : jstate :=
  if jws c then JAfter d else if (c =? 44)%N then JNext d else if (c =? 125)%N then JDone d else JFail.
Definition jstep (st : jstate) (c : N) : jstate :=
  match st with
  | JStart => if jws c then JStart else if (c =? 123)%N then JOpen else JFail
  | JOpen => if jws c then JOpen else if (c =? quote)%N then JKey [] [] else if (c =? 125)%N then JDone [] else JFail
  | JNext d => if jws c then JNext d else if (c =? quote)%N then JKey d [] else JFail
  | JKey d acc => if (c =? quote)%N then JColon d (rev acc) else if (c =? backslash)%N then JEsc d acc
                  else if (c <? 32)%N then JFail else JKey d (c :: acc)
  | JEsc d acc => if (c =? 117)%N then JHex d acc 4 0 else match unesc c with Some x => JKey d (x :: acc) | None => JFail end
  | JHex d acc n x => match unhex c with
                      | None => JFail
                      | Some h => let x' := (x * 16 + h)%N in match n with S (S n') => JHex d acc (S n') x' | _ => JKey d (x' :: acc) end
                      end
  | JColon d k => if jws c then JColon d k else if (c =? 58)%N then JVal d k else JFail
  | JVal d k => if jws c then JVal d k else JNum d k [c]
  | JNum d k acc => if jws c || (c =? 44)%N || (c =? 125)%N
                    then match jint (rev acc) with Ok z => jafter (dset d k z) c | Err _ => JFail end
                    else JNum d k (c :: acc)
  | JAfter d => jafter d c
  | JDone d => if jws c then JDone d else JFail
  | JFail => JFail
  end.
Definition jrun (st : jstate) (s : pystr) : jstate := fold_left jstep s st.
(** load_dict_json, utils.py:253-257 *)
Definition load_json (s : pystr) : res (dict pystr Z) := match jrun JStart s with JDone d => Ok d | _ => Err ValueError end.

(** Vocab.make_type_file, vocab.py:293-310 *)
Definition type_dict (v : vocab) (types : list pystr) : dict pystr Z :=
  fold_left (fun d t => dset d t (if dmem (fd v) t then match dget (fd v) t with Some f => f | None => 0%Z end else 0%Z)) types [].
Definition make_type_file (v : vocab) (types : list pystr) : pystr := save_json (type_dict v types).
