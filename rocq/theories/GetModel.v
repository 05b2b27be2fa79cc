(** * The older corpus line reader, sentences and found paths: terms.py:476-568, 690-706, 737-770. *)
From Coq Require Import String NArith ZArith Bool Arith List.
From Verif Require Import Base Str VocabModel ConfModel.
Import ListNotations.
Local Open Scope string_scope.
Local Open Scope nat_scope.
Local Open Scope list_scope.

Section Getter.
  (** [re.compile], [pattern.match] and [match.group(i)]: arbitrary; a group that took no part in the match is None. *)
  Context {RX M : Type}.
  Variable compile : pystr -> res RX.
  Variable rx_match : RX -> pystr -> option M.
  Variable group : M -> Z -> res (option pystr).

  (** Getter, terms.py:476-495.  The closures of get_func are represented by their numbers. *)
  Record getter := Getter {
    g_form : pystr; g_match : option M;
    g_tokenline : RX; g_wordline : RX; g_sep : RX; g_left : RX; g_right : RX; g_single : RX;
    g_word : list Z; g_pos : list Z; g_lemma : list Z; g_colloc : list Z; g_node : list Z }.

  (** get_func, terms.py:533-551: the numbers, and what the closure gives for a match. *)
  Definition get_func (v : value) : res (list Z) := rbind (vsplit comma v) (rmapm int_of_str).
  Definition form_getter (nums : list Z) (m : M) : res pystr := rbind (rmapm (group m) nums) join_groups.

  (** Getter.__init__, terms.py:478-495.  A form that is no string cannot be appended to 'get-'. *)
  Definition getter_init (s : settings) : res getter :=
    rbind (sget s (u "form")) (fun form =>
    rbind (compile_key compile s (u "token-line-machine")) (fun tl =>
    rbind (compile_key compile s (u "word-line-machine")) (fun wl =>
    rbind (compile_key compile s (u "separator-line-machine")) (fun sep =>
    rbind (compile_key compile s (u "left-boundary-machine")) (fun lb =>
    rbind (compile_key compile s (u "right-boundary-machine")) (fun rb =>
    rbind (compile_key compile s (u "single-boundary-machine")) (fun sb =>
    rbind (rbind (sget s (u "get-word")) get_func) (fun w =>
    rbind (rbind (sget s (u "get-pos")) get_func) (fun p =>
    rbind (rbind (sget s (u "get-lemma")) get_func) (fun le =>
    rbind (rbind (sget s (u "get-colloc")) get_func) (fun co =>
    rbind (match form with VStr f => Ok f | _ => Err TypeError end) (fun f =>
    rbind (rbind (sget s (u "get-" ++ f)) get_func) (fun n =>
    Ok {| g_form := f; g_match := None; g_tokenline := tl; g_wordline := wl; g_sep := sep; g_left := lb; g_right := rb; g_single := sb;
          g_word := w; g_pos := p; g_lemma := le; g_colloc := co; g_node := n |}))))))))))))).

  (** init_machine, terms.py:497-498; word_line_machine, 500-501 *)
  Definition init_machine (g : getter) (line : pystr) : getter :=
    {| g_form := g_form g; g_match := rx_match (g_wordline g) line; g_tokenline := g_tokenline g; g_wordline := g_wordline g;
       g_sep := g_sep g; g_left := g_left g; g_right := g_right g; g_single := g_single g;
       g_word := g_word g; g_pos := g_pos g; g_lemma := g_lemma g; g_colloc := g_colloc g; g_node := g_node g |}.
  Definition word_line_machine (g : getter) (line : pystr) : option M := rx_match (g_wordline g) line.
  (** token_line_machine, terms.py:503-506: list.extend returns None, so that join gets None. *)
  Definition list_extend (l more : list pystr) : option (list pystr) := None.
  Definition join_any (c : N) (o : option (list pystr)) : res pystr := match o with Some l => Ok (join c l) | None => Err TypeError end.
  Definition token_line_machine (g : getter) (line fid lid : pystr) : res (option M) :=
    rmap (rx_match (g_tokenline g)) (join_any 9 (list_extend (split 9 line) [fid; lid])).
  (** separator_line_machine 508-509, left_bound_machine 511-512, right_bound_machine 514-515, single_bound_machine 517-518 *)
  Definition g_separator (g : getter) (line : pystr) : option M := rx_match (g_sep g) line.
  Definition g_left_bound (g : getter) (line : pystr) : option M := rx_match (g_left g) line.
  Definition g_right_bound (g : getter) (line : pystr) : option M := rx_match (g_right g) line.
  Definition g_single_bound (g : getter) (line : pystr) : option M := rx_match (g_single g) line.
  (** The properties word, pos and lemma, terms.py:520-530: of the match of the last init_machine.  None has no attribute group;
      the attribute is not looked up if there are no numbers, but there is always at least one. *)
  Definition of_match (g : getter) (nums : list Z) : res pystr :=
    match g_match g with Some m => form_getter nums m | None => match nums with [] => Ok [] | _ => Err AttributeError end end.
  Definition p_word (g : getter) := of_match g (g_word g).
  Definition p_pos (g : getter) := of_match g (g_pos g).
  Definition p_lemma (g : getter) := of_match g (g_lemma g).
  (** get_type 553-554, get_token 556-557 (which takes the word for the lemma), get_item 559-568 *)
  Definition g_get_type (g : getter) (m : M) : res pystr :=
    rbind (form_getter (g_lemma g) m) (fun l => rmap (fun p => l ++ slash :: p) (form_getter (g_pos g) m)).
  Definition g_get_token (g : getter) (m : M) (fid lid : pystr) : res pystr :=
    rbind (form_getter (g_word g) m) (fun l => rmap (fun p => l ++ slash :: p ++ slash :: fid ++ slash :: lid) (form_getter (g_pos g) m)).
  Definition g_get_item (g : getter) (m : M) (form : pystr) : res pystr :=
    if eqdec form (u "type") then g_get_type g m
    else if eqdec form (u "word") then form_getter (g_word g) m
    else if eqdec form (u "lemma") then form_getter (g_lemma g) m
    else Err ValueError.
End Getter.

(** Sentence, terms.py:690-706: text and content. *)
Record sentence := Sentence { s_text : pystr; s_content : list pystr }.
(** parse, terms.py:696-703 *)
Definition is_tag (line : pystr) : bool := match line with c :: _ => N.eqb c 60 | [] => false end.
Definition sent_parse (s : sentence) (o : option pystr) : sentence :=
  let t := match o with None => s_text s | Some t => t end in
  {| s_text := s_text s; s_content := fold_left (fun acc line => if is_tag line then acc else acc ++ [line]) (split 10 t) (s_content s) |}.
(** __init__ 691-694, get_content 705-706 *)
Definition sent_init (t : pystr) : sentence := sent_parse {| s_text := t; s_content := [] |} None.
Definition get_content (s : sentence) : list pystr := s_content s.

(** Path, terms.py:737-770.  The lists of matches are objects; [p_matches] is a reference into the store. *)
Definition match_store := nat -> list (list pystr).
Record fpath {T : Type} := FPath { p_template : T; p_matches : nat }.
Arguments fpath : clear implicits.
(** __init__, terms.py:739-741: an empty list is false, so that a new one is made; [fresh] is the reference of the new list. *)
Definition path_init {T} (st : match_store) (fresh : nat) (template : T) (matches : option nat) : match_store * fpath T :=
  let new := (fun j => if Nat.eqb j fresh then [] else st j, {| p_template := template; p_matches := fresh |}) in
  match matches with
  | Some i => match st i with [] => new | _ => (st, {| p_template := template; p_matches := i |}) end
  | None => new
  end.
(** size, terms.py:750-753; add_path, 755-763 *)
Definition path_size {T} (st : match_store) (p : fpath T) : nat := List.length (st (p_matches p)).
Definition add_path {T} (st : match_store) (p : fpath T) (m : list pystr) : match_store :=
  fun j => if Nat.eqb j (p_matches p) then st j ++ [m] else st j.
Definition add_paths {T} (st : match_store) (p : fpath T) (ms : list (list pystr)) : match_store := fold_left (fun st m => add_path st p m) ms st.
