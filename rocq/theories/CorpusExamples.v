(** * Concrete corpora used as witnesses and to show that hypotheses can be met. *)
From Coq Require Import String NArith ZArith Bool Arith List.
From Verif Require Import Base VocabModel CorpusModel CorpusSpec.
Import ListNotations.

(** Lines are strings; "</s>" is the separator, "#" matches nothing, everything else is a token whose
    type and collocate string are the line itself. *)
Definition ex_sep : pystr := u "</s>".
Definition ex_match (x : pystr) : option pystr := if eqb x ex_sep || eqb x (u "#") then None else Some x.
Definition ex_is_sep (x : pystr) : bool := eqb x ex_sep.
Definition ex_id (x : pystr) : pystr := x.
Definition no_vocab : vocab := vocab_init false [].
Definition ex_col (l r : nat) (lines : list pystr) : res colst :=
  col_update_one_file ex_match ex_is_sep ex_id ex_id no_vocab l r lines (ColSt [] no_vocab).
Definition ex_tok (l r : nat) (lines : list pystr) (qs : list pystr) :=
  tok_update_one_file ex_match ex_is_sep ex_id ex_id no_vocab l r lines (tok_init qs).
(** the </s> cat ... : a long first sentence and a one-token second one *)
Definition ex_lines : list pystr := map u ["the"; "cat"; "sat"; "on"; "the"; "#"; "mat"; "</s>"; "yes"; "</s>"]%string.
Definition ex_short : list pystr := map u ["a"; "b"; "</s>"]%string.
