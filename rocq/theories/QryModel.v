(** * Model of word queries and concordances: read_word_queries, get_word_str and save_concordance (nephosem/utils.py), and of
      Vocab.match, Vocab.load/save by format, Vocab.select_subsets, == and missing attributes (nephosem/core/vocab.py). *)
From Coq Require Import String NArith ZArith QArith Bool Arith List.
From Verif Require Import Base Str VocabModel VocabFileModel JsonModel TermsModel TokMxModel.
Import ListNotations.
Local Open Scope nat_scope.
Local Open Scope list_scope.

(** ** Queries *)
Definition hash : N := 35%N.
Definition colon : N := 58%N.
(** A query: a string, or a dict of words; None only for the default key *)
Inductive query := QStr (s : pystr) | QDict (d : dict pystr (option pystr)).
(** One field of a line, utils.py:430-438.  [def] is the default key. *)
Definition query_field (def : pystr) (d : dict pystr (option pystr)) (field : pystr) : dict pystr (option pystr) :=
  match split colon field with
  | [name; word] =>
      let d := dset d (strip name) (Some (strip word)) in
      match dget d def with
      | Some None => dset d def (Some (strip word))
      | _ => d
      end
  | _ => d
  end.
(** One line, utils.py:418-439: nothing for empty lines and comments *)
Definition query_line (def : pystr) (line : pystr) : list query :=
  let line := strip line in
  match line with
  | [] => []
  | c :: _ => if (c =? hash)%N then []
              else if mem tab line then [QDict (fold_left (query_field def) (split tab line) [(def, None)])]
              else [QStr line]
  end.
(** read_word_queries, utils.py:346-439; [None] when there is no such file *)
Definition read_queries (def : pystr) (text : option pystr) : list query :=
  match text with
  | None => []
  | Some text => flat_map (query_line def) (splitlines text)
  end.
(** get_word_str, utils.py:442-469; [def_key] None is the default argument, which is no key of a query *)
Definition get_word_str (q : query) (specific : bool) (corpus_name : pystr) (def_key : option pystr) : res (option pystr) :=
  match q with
  | QStr s => Ok (Some s)
  | QDict d =>
      if specific && dmem d corpus_name then match dget d corpus_name with Some w => Ok w | None => Err KeyError end
      else match def_key with
           | None => Err KeyError
           | Some k => match dget d k with Some w => Ok w | None => Err KeyError end
           end
  end.

(** ** Concordances *)
Definition space : N := 32%N.
(** save_concordance, utils.py:274-304: one line for a token *)
Definition conc_line (fmt : option pystr) (own : option pystr) (t : ctok) : res pystr :=
  rbind (rmapm (fun c => to_colloc c fmt) (ct_l t)) (fun ls =>
  rbind (rmapm (fun c => to_colloc c fmt) (ct_r t)) (fun rs =>
  rbind (ct_str t) (fun s =>
  rbind (to_colloc (INode (kn_attrs (ct_node t)) None own) fmt) (fun w =>
    Ok (s ++ tab :: join space ls ++ tab :: w ++ tab :: join space rs ++ [newline]))))).
(** The text of the file for a dict of type nodes.  [own]: the collocate format of the token nodes.  Simplified: an
    exception leaves the lines before it in the file; here it is the result. *)
Definition concordance (fmt : option pystr) (own : option pystr) (d : dict pystr (tnode ctok)) : res pystr :=
  rmap (@concat N) (rmapm (conc_line fmt own) (flat_map tn_tokens (dvals d))).

(** ** Vocab *)
Section Match.
  (** re.match(pattern, s) succeeds; arbitrary *)
  Variable re_match : pystr -> pystr -> bool.
  Inductive mcolumn := MItem | MFreq | MOther.
  (** Vocab.match, vocab.py:328-344.  A frequency is no string; apply calls nothing on an empty table. *)
  Definition v_match (v : vocab) (col : mcolumn) (pattern : pystr) : res (list pystr) :=
    match col with
    | MItem => Ok (map fst (filter (fun kv => re_match pattern (fst kv)) (v_dataframe v)))
    | MFreq => match v_dataframe v with [] => Ok [] | _ => Err TypeError end
    | MOther => Err KeyError
    end.
End Match.
(** Vocab.save, vocab.py:381-416, and load, vocab.py:418-447: the formats.  None: the file does not exist. *)
Definition v_save (v : vocab) (fmt : pystr) (old : option pystr) : option pystr * res unit :=
  if eqb fmt (u "json") then (Some (save_json (fd v)), Ok tt)
  else if eqb fmt (u "plain") || eqb fmt (u "txt") then (Some (save_plain (fd v)), Ok tt)
  else (old, Err KeyError).
Definition as_int (d : dict pystr Z) : dict pystr fval := map (fun kv => (fst kv, FInt (snd kv))) d.
Definition v_load (float_ok : pystr -> bool) (fmt : pystr) (file : option pystr) : res (dict pystr fval) :=
  if eqb fmt (u "json") then match file with None => Err IOError | Some s => rmap as_int (load_json s) end
  else if eqb fmt (u "plain") || eqb fmt (u "txt") then match file with None => Err IOError | Some s => load_plain float_ok s end
  else Err KeyError.

Section Subsets.
  (** random.sample(range(f), k) *)
  Variable pick : nat -> nat -> list nat.
  (** The names of the module; WordDict is none of them. *)
  Variable defined : pystr -> bool.
  (** A WordDict after the loop: the set selected, n_sel and n_found *)
  Record wordsel := WordSel { ws_sel : list nat; ws_n : Z; ws_found : nat }.
  Definition call_name (name : pystr) : res unit := if defined name then Ok tt else Err NameError.
  (** vocab.py:493-514; a negative number of draws is a ValueError *)
  Definition select_one (v : vocab) (n : Z) (random : bool) (sw : pystr) : res wordsel :=
    let val := match dget (fd v) sw with Some f => f | None => 0%Z end in
    if (val =? 0)%Z then Ok (WordSel [] 0 0)
    else let n_sel := Z.min n val in
         if random
         then if (n_sel <? 0)%Z then Err ValueError
              else Ok (WordSel (map S (pick (Z.to_nat val) (Z.to_nat n_sel))) n_sel 0)
         else Ok (WordSel (map S (seq 0 (Z.to_nat n_sel))) n_sel 0).
  (** Vocab.select_subsets, vocab.py:470-515; the two loops *)
  Definition select_subsets (v : vocab) (words : list pystr) (n : Z) (random : bool) : res (dict pystr wordsel) :=
    rbind (rfold (fun d sw => rmap (fun _ => dset d sw (WordSel [] 0 0)) (call_name (u "WordDict"))) words []) (fun d =>
    rfold (fun d sw => rmap (dset d sw) (select_one v n random sw)) words d).
End Subsets.

(** [v == x] and [v != x], vocab.py:202-204: a list of items for a number (a bool counts as one), None for anything else;
    != negates the truth of what == returns. *)
Inductive other := ONum (q : Q) | OVocab (v : vocab) | OElse.
Definition v_dunder_eq (v : vocab) (x : other) : option (list pystr) :=
  match x with ONum q => Some (v_eq v q) | _ => None end.
Definition py_true (r : option (list pystr)) : bool := match r with Some (_ :: _) => true | _ => false end.
Definition v_dunder_ne (v : vocab) (x : other) : bool := negb (py_true (v_dunder_eq v x)).
(** Vocab.__getattr__, vocab.py:179-184, for a name that is no attribute otherwise: the vocabulary itself or None *)
Inductive gotten := GSelf | GNone.
Definition v_getattr (name : pystr) : gotten := if eqb name (u "freq") then GSelf else GNone.
(** v.name(...) for such a name: neither a Vocab nor None can be called *)
Definition v_call_missing (name : pystr) : res unit := match v_getattr name with GSelf | GNone => Err TypeError end.
