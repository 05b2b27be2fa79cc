(** * What the claims about token matrices mean: the collocates of a token and their positions. *)
From Coq Require Import NArith ZArith Bool Arith List.
From Verif Require Import Base Str VocabModel CorpusModel CorpusSpec TermsModel TokMxModel.
Import ListNotations.

(** [c] stands at position [z] of a context: 1, 2, ... to the right, -1, -2, ... to the left ([ls] in text order). *)
Definition occurs (ls rs : list pystr) (c : pystr) (z : Z) : Prop :=
  (exists i, nth_error ls i = Some c /\ z = (Z.of_nat i - Z.of_nat (length ls))%Z) \/
  (exists i, nth_error rs i = Some c /\ z = (Z.of_nat i + 1)%Z).
Definition rightmost (ls rs : list pystr) (c : pystr) (z : Z) : Prop :=
  occurs ls rs c z /\ forall z', occurs ls rs c z' -> (z' <= z)%Z.
Definition nearest (ls rs : list pystr) (c : pystr) (z : Z) : Prop :=
  occurs ls rs c z /\ forall z', occurs ls rs c z' -> (Z.abs z <= Z.abs z')%Z.

(** Attributes written in a format: the values of its fields, none of them None, joined by slashes. *)
Definition written (a : attrs) (f s : pystr) : Prop :=
  f <> [] /\ exists vs, Forall2 (fun c v => dget a c = Some (Some v)) (split slash f) vs /\ s = join slash vs.
(** A collocate written in the format given, or in its own format when none (or an empty one) is given. *)
Definition colloc_string (fmt : option pystr) (n : inode) (s : pystr) : Prop :=
  (exists f, fmt = Some f /\ written (in_attrs n) f s) \/
  ((fmt = None \/ fmt = Some []) /\ exists f, in_cfmt n = Some f /\ written (in_attrs n) f s).
(** [ls] and [rs] are the collocate strings of a token's left and right context. *)
Definition collocs_are (fmt : option pystr) (t : ctok) (ls rs : list pystr) : Prop :=
  Forall2 (colloc_string fmt) (ct_l t) ls /\ Forall2 (colloc_string fmt) (ct_r t) rs.
(** Every token and every collocate can be written as a string. *)
Definition printable (fmt : option pystr) (t : ctok) : Prop :=
  (exists s, ct_str t = Ok s) /\ exists ls rs, collocs_are fmt t ls rs.

(** All tokens of a dict of type nodes. *)
Definition toks_of (d : dict pystr (tnode ctok)) : list ctok := flat_map tn_tokens (dvals d).
(** [t] is the last of the tokens with the string [s]. *)
Definition last_with (d : dict pystr (tnode ctok)) (t : ctok) (s : pystr) : Prop :=
  ct_str t = Ok s /\ exists a b, toks_of d = a ++ t :: b /\ forall t', In t' b -> ct_str t' <> Ok s.

(** The collocate [c] stands at position [j] of the segment [xs], within the spans around position [i]. *)
Definition seen_at {M} (get_colloc : M -> pystr) (l r : nat) (xs : list (M * nat)) (i : nat) (c : pystr) (j : nat) : Prop :=
  in_window l r i j = true /\ exists x, nth_error xs j = Some x /\ get_colloc (fst x) = c.

(** ** Reading with spans *)
(** The positions that read_token_colloc looks at: at most [lspan] to the left and [rspan] to the right. *)
Definition within (lspan rspan : nat) (z : Z) : Prop := (- Z.of_nat lspan <= z <= Z.of_nat rspan)%Z.
(** The collocate is in the vocabulary, if there is a vocabulary and it is not empty. *)
Definition kept (v : option vocab) (c : pystr) : Prop :=
  forall w, v = Some w -> dkeys (fd w) <> [] -> In c (dkeys (fd w)).
(** The position farthest from the token on the right side, or on the left side if there is none on the right. *)
Definition farthest_right_else_left (ls rs : list pystr) (lspan rspan : nat) (c : pystr) (z : Z) : Prop :=
  occurs ls rs c z /\ within lspan rspan z /\
  forall z', occurs ls rs c z' -> within lspan rspan z' -> ((0 < z)%Z /\ (z' <= z)%Z) \/ ((z < 0)%Z /\ (z <= z' < 0)%Z).

(** ** TypeVectorizer.fit *)
(** All co-occurrences of [t] with [c] in the files (targets as in C05), whatever the vocabulary. *)
Definition all_pairs {L M} (match_line : L -> option M) (separator : L -> bool) (get_type get_colloc : M -> pystr) (l r : nat)
    (contents : list (list L)) (t c : pystr) : Z :=
  sumZ (map (fun lines => Z.of_nat (sumn (map (fun xs => cooc_upto (foci_spec r (length xs)) (fun x => get_type (fst x)) (fun x => get_colloc (fst x)) l r xs t c)
                                              (segments match_line separator lines)))) contents).
