(** * Token matrices and token nodes: ItemNode.to_type/to_colloc, TypeNode.sample/save/load (nephosem/core/terms.py),
      transform_nodes_to_matrix (nephosem/specutils/mxutils.py), read_token_colloc, make_token_colloc and
      TokenVectorizer.retrieve_tokens (nephosem/models/typetoken.py).

    The order of a Python set of strings is arbitrary: a parameter [order] that permutes. *)
From Coq Require Import String NArith ZArith Bool Arith List.
From Verif Require Import Base Str VocabModel TermsModel CorpusModel MxModel.
Import ListNotations.
Local Open Scope nat_scope.

(** ItemNode, terms.py:49-90: attributes and the two formats (None unless made from a match and a formatter). *)
Record inode := INode { in_attrs : attrs; in_tfmt : option pystr; in_cfmt : option pystr }.
(** [fmt if fmt else self.fmt]; then the join, or ValueError when there is none *)
Definition to_fmt (n : inode) (own given : option pystr) : res pystr :=
  match (if truthy given then given else own) with
  | Some (x :: f) => fmt_join (in_attrs n) (x :: f)
  | _ => Err ValueError
  end.
(** ItemNode.to_type, terms.py:92-105, and to_colloc, terms.py:107-120 *)
Definition to_type (n : inode) (fmt : option pystr) : res pystr := to_fmt n (in_tfmt n) fmt.
Definition to_colloc (n : inode) (fmt : option pystr) : res pystr := to_fmt n (in_cfmt n) fmt.
(** ItemNode.__str__, terms.py:122-126 *)
Definition tab : N := 9%N.
Definition some_str (o : option (option pystr)) : res pystr :=
  match o with Some (Some s) => Ok s | Some None => Err TypeError | None => Err AttributeError end.
Definition item_str (n : inode) : res pystr :=
  rmap (join tab) (rmapm (fun f => some_str (dget (in_attrs n) f)) [f_word; f_pos; f_lemma]).

(** TokenNode with its collocates, terms.py:305-381 *)
Record ctok := CTok { ct_node : knode; ct_l : list inode; ct_r : list inode }.
Definition ct_str (t : ctok) : res pystr := kn_token (ct_node t).

Definition enum {A} (l : list A) : list (nat * A) := combine (seq 0 (length l)) l.
(** [{colloc.to_colloc(fmt): pos(i) for i, colloc in enumerate(l)}] *)
Definition posdict (fmt : option pystr) (pos : nat -> Z) (l : list inode) : res (dict pystr Z) :=
  rfold (fun d ic => rbind (to_colloc (snd ic) fmt) (fun s => Ok (dset d s (pos (fst ic))))) (enum l) [].
(** mxutils.py:157-161 *)
Definition tok_row (fmt : option pystr) (t : ctok) : res (dict pystr Z) :=
  rbind (posdict fmt (fun i => (Z.of_nat i - Z.of_nat (length (ct_l t)))%Z) (ct_l t)) (fun cleft =>
  rbind (posdict fmt (fun i => (Z.of_nat i + 1)%Z) (ct_r t)) (fun cright => Ok (dupdate cleft cright))).
(** mxutils.py:152-162: tok2collocs and the set of collocates (in order of insertion) *)
Definition tok2collocs (fmt : option pystr) (nodes : list (tnode ctok)) : res (dict pystr (dict pystr Z) * list pystr) :=
  rfold (fun st t => rbind (tok_row fmt t) (fun row => rbind (ct_str t) (fun s =>
           Ok (dset (fst st) s row, dedup (snd st ++ dkeys row)))))
        (flat_map tn_tokens nodes) ([], []).
(** transform_nodes_to_matrix, mxutils.py:135-167, for a dict; only its values are used *)
Definition nodes_to_matrix (order : list pystr -> list pystr) (fmt : option pystr) (d : dict pystr (tnode ctok)) : res (ttm Z) :=
  rbind (tok2collocs fmt (dvals d)) (fun st =>
    let rows := dkeys (fst st) in
    let cols := order (snd st) in
    rbind (dict_to_sp (fst st) rows cols) (fun m => mk_ttm m rows cols)).
(** The same for a list of type nodes: [{str(tp): tp for tp in type2toks}], mxutils.py:148-151 *)
Definition nodes_list_dict (l : list (tnode ctok)) : res (dict pystr (tnode ctok)) :=
  rfold (fun d n => rbind (tn_type n) (fun s => Ok (dset d s n))) l [].
Definition nodes_list_to_matrix (order : list pystr -> list pystr) (fmt : option pystr) (l : list (tnode ctok)) : res (ttm Z) :=
  rbind (nodes_list_dict l) (nodes_to_matrix order fmt).

(** ** From the tokens of the corpus model to token nodes, typetoken.py:604-616 *)
Section FromCorpus.
  Context {M : Type} (word lemma pos : M -> option pystr) (tfmt kfmt cfmt : pystr).
  (** ItemNode(match=..., formatter=...), terms.py:70-87 *)
  Definition inode_of (m : M) : inode := INode (item_attrs (word m) (lemma m) (pos m)) (Some tfmt) (Some cfmt).
  (** TokenNode(fid, lid, match, formatter, lcollocs, rcollocs), terms.py:334-368 *)
  Definition ctok_of (fid : pystr) (t : @token M) : ctok :=
    CTok (KNode (item_attrs (word (fst (tk_node t))) (lemma (fst (tk_node t))) (pos (fst (tk_node t)))
                 ++ [(f_fid, Some fid); (f_lid, Some (str_of_Z (Z.of_nat (snd (tk_node t)))))]) kfmt)
         (map (fun x => inode_of (fst x)) (tk_left t)) (map (fun x => inode_of (fst x)) (tk_right t)).
  (** The type nodes of one file.  Simplified: the type node's own attributes do not matter here. *)
  Definition nodes_of (fid : pystr) (d : @tokdict M) : dict pystr (tnode ctok) :=
    map (fun kv => (fst kv, TNode [] tfmt (map (ctok_of fid) (snd kv)))) d.
  (** The type nodes of several files, merged by type (each worker's type2toks holds all queries, typetoken.py:645-656) *)
  Definition nodes_of_files (fs : list (pystr * @tokdict M)) : dict pystr (tnode ctok) :=
    match fs with
    | [] => []
    | f0 :: _ => map (fun k => (k, TNode [] tfmt (flat_map (fun f => map (ctok_of (fst f)) (match dget (snd f) k with Some l => l | None => [] end)) fs)))
                     (dkeys (snd f0))
    end.
  (** TokenHandler.retrieve_tokens, typetoken.py:511-533, on files given by their id and their lines.  The reading of one
      file is CorpusModel.tok_update_one_file; every worker starts from the queries without tokens. *)
  Definition retrieve_tokens {L} (match_line : L -> option M) (separator : L -> bool) (get_type get_colloc : M -> pystr)
      (order : list pystr -> list pystr) (cv : vocab) (lspan rspan : nat) (queries : list pystr) (files : list (pystr * list L)) : res (ttm Z) :=
    rbind (rmapm (fun f => rmap (fun d => (fst f, d))
                                (tok_update_one_file match_line separator get_type get_colloc cv lspan rspan (snd f) (tok_init queries))) files)
          (fun ds => nodes_to_matrix order (Some cfmt) (nodes_of_files ds)).
End FromCorpus.

(** ** read_token_colloc, typetoken.py:1178-1209 *)
(** [matrix[tok_str][colloc_str] = position] on the nested defaultdict *)
Definition ncset (d : dict pystr (dict pystr Z)) (s c : pystr) (z : Z) : dict pystr (dict pystr Z) :=
  dset d s (dset (match dget d s with Some row => row | None => [] end) c z).
(** [not colloc_vocab or colloc_str in colloc_vocab] *)
Definition vocab_ok (v : option vocab) (c : pystr) : bool :=
  match v with None => true | Some v => (v_len v =? 0) || v_contains v c end.
(** The items visited for one token with their positions: tok.lcollocs[-(i+1)] for i below the left span, then
    tok.rcollocs[i] for i below the right span *)
Definition visited (lspan rspan : nat) (t : ctok) : list (inode * Z) :=
  map (fun ix => (snd ix, (- (Z.of_nat (fst ix) + 1))%Z)) (enum (firstn (Nat.min lspan (length (ct_l t))) (rev (ct_l t)))) ++
  map (fun ix => (snd ix, (Z.of_nat (fst ix) + 1)%Z)) (enum (firstn (Nat.min rspan (length (ct_r t))) (ct_r t))).
Definition read_token (v : option vocab) (lspan rspan : nat) (fmt : option pystr) (d : dict pystr (dict pystr Z)) (t : ctok)
  : res (dict pystr (dict pystr Z)) :=
  rbind (ct_str t) (fun s =>
    rfold (fun d xz => rbind (to_colloc (fst xz) fmt) (fun c => Ok (if vocab_ok v c then ncset d s c (snd xz) else d)))
          (visited lspan rspan t) d).
Definition read_token_colloc (v : option vocab) (lspan rspan : nat) (fmt : option pystr) (n : tnode ctok) : res (dict pystr (dict pystr Z)) :=
  rfold (read_token v lspan rspan fmt) (tn_tokens n) [].
(** make_token_colloc, typetoken.py:1156-1175, for one type node.  [get_item_list] of the vocabulary sorts its items. *)
Definition token_colloc_matrix (v : option vocab) (lspan rspan : nat) (fmt : option pystr) (n : tnode ctok) : res (ttm Z) :=
  rbind (read_token_colloc v lspan rspan fmt n) (fun d =>
    let rows := isort sleb (dkeys d) in
    let cols := match v with
                | Some v => if v_len v =? 0 then isort sleb (dedup (flat_map (fun r => dkeys (snd r)) d)) else isort sleb (dkeys (fd v))
                | None => isort sleb (dedup (flat_map (fun r => dkeys (snd r)) d))
                end in
    rbind (dict_to_sp d rows cols) (fun m => mk_ttm m rows cols)).

(** ** TypeNode.sample, terms.py:241-262 *)
(** The attribute type_fmt that ItemNode.__init__ leaves on a type node: settings['type'] in case 1 (match and formatter),
    None in cases 2 and 3, and no attribute at all when the parent constructor is not called (empty type string). *)
Inductive tfmt_attr := TfUnset | TfNone | TfIs (f : pystr).
Section Sample.
  Context {T : Type} (pick : nat -> nat -> list nat).  (* random.sample(range(freq), n) *)
  Inductive smethod := SRandom | SFirst.
  Definition sample_tokens (tokens : list T) (n : nat) (m : smethod) : res (list T) :=
    match m with
    | SRandom => if length tokens <? n then Err ValueError
                 else Ok (map snd (filter (fun it => mem (fst it) (pick (length tokens) n)) (enum tokens)))
    | SFirst => Ok (firstn n tokens)
    end.
  Definition tn_sample (node : tnode T) (tf : tfmt_attr) (n : nat) (m : smethod) : res (tnode T) :=
    rbind (sample_tokens (tn_tokens node) n m) (fun toks =>
    rbind (tn_type node) (fun s =>
      match tf with
      | TfUnset => Err AttributeError
      | TfNone => Err ValueError  (* TypeNode(type_str=s, type_fmt=None) *)
      | TfIs f => tn_of_str s f toks
      end)).
End Sample.
(** The type_fmt attribute of nodes built from a string (case 2), also by merge and sample *)
Definition tf_of_str (type_str : pystr) : tfmt_attr := match type_str with [] => TfUnset | _ => TfNone end.
(** TypeNode(match=m, formatter=f), terms.py:163-165: type_format and settings['type'] are the same string *)
Definition tn_of_match {T} (word lemma pos : option pystr) (tfmt : pystr) (tokens : list T) : tnode T := TNode (item_attrs word lemma pos) tfmt tokens.

(** ** TypeNode.save and load, terms.py:222-239, TokenNode.json_data and gen_token_from_json_data, terms.py:383-405 *)
(** What JSON keeps: strings and None, lists of strings *)
Record jtok := JTok { j_word : option pystr; j_pos : option pystr; j_lemma : option pystr; j_fid : pystr; j_lid : pystr;
                      j_left : list pystr; j_right : list pystr }.
Record jtype := JType { jt_lemma : option pystr; jt_pos : option pystr; jt_tokens : list jtok }.
Definition attr (a : attrs) (f : pystr) : res (option pystr) := match dget a f with Some v => Ok v | None => Err AttributeError end.
Definition json_data (t : ctok) : res jtok :=
  let a := kn_attrs (ct_node t) in
  rbind (attr a f_word) (fun w => rbind (attr a f_pos) (fun p => rbind (attr a f_lemma) (fun l =>
  rbind (some_str (dget a f_fid)) (fun fid => rbind (some_str (dget a f_lid)) (fun lid =>
  rbind (rmapm item_str (ct_l t)) (fun ls => rbind (rmapm item_str (ct_r t)) (fun rs => Ok (JTok w p l fid lid ls rs)))))))).
Definition tn_save (n : tnode ctok) : res jtype :=
  rbind (attr (tn_attrs n) f_lemma) (fun l => rbind (attr (tn_attrs n) f_pos) (fun p =>
  rbind (rmapm json_data (tn_tokens n)) (fun ts => Ok (JType l p ts)))).
(** cls(word, pos, lemma, fid, lid, ...) in TokenNode: the positions are token_str, token_fmt, match, formatter, fid, so
    that lemma is taken as the match and fid as the formatter.  A string has no attribute token_format. *)
Definition gen_token (j : jtok) (lcollocs rcollocs : list inode) : res ctok :=
  if truthy (j_lemma j) && truthy (Some (j_fid j)) then Err AttributeError
  else rmap (fun k => CTok k lcollocs rcollocs)
            (match j_pos j with
             | Some (x :: f) =>
                 match j_word j with
                 | Some (y :: w) => kn_of_str (y :: w) (x :: f) (j_lid j) (u "-1")
                 | _ => kn_of_attrs None None None (j_lid j) (u "-1") (x :: f)
                 end
             | _ => Err ValueError
             end).
(** ItemNode(item=[...]): every attribute None, item itself left out *)
Definition jitem : inode := INode (item_attrs None None None) None None.
(** cls(lemma, pos, tokens=...) in TypeNode: lemma is taken as the match and pos as the formatter; no type format. *)
Definition tn_load (j : jtype) : res (tnode ctok) :=
  rbind (rmapm (fun t => gen_token t (map (fun _ => jitem) (j_left t)) (map (fun _ => jitem) (j_right t))) (jt_tokens j)) (fun _ =>
    if truthy (jt_lemma j) && truthy (jt_pos j) then Err AttributeError else Err ValueError).

(** ** TokenVectorizer.retrieve_tokens, typetoken.py:843-857 *)
(** [query_dict.update({l: 0 for l in variants})] for every concept *)
Definition queries_of (concepts : dict pystr (list pystr)) : dict pystr Z :=
  fold_left (fun d cv => dupdate d (dict_of (map (fun v => (v, 0%Z)) (snd cv)))) concepts [].
(** [typenodes[v]] is a row of the token matrix that TokenHandler.retrieve_tokens returns: an array of numbers *)
Definition row_of (m : ttm Z) (v : pystr) : res (list Z) :=
  rmap (fun i => map (fun j => spget (tmx m) i j) (seq 0 (length (tcols m)))) (lookup (item2id (trows m)) v).
Definition vectorizer_tokens (retrieve : dict pystr Z -> res (ttm Z)) (concepts : dict pystr (list pystr)) : res (dict pystr (list (list Z))) :=
  rbind (retrieve (queries_of concepts)) (fun m =>
    rfold (fun d cv => rbind (rmapm (row_of m) (snd cv)) (fun l => Ok (dset d (fst cv) l))) concepts []).

(** ** TypeVectorizer.fit without vocabularies, typetoken.py:777-802: the row vocabulary is the item list of the files, the
    column vocabulary a copy of it.  (The two pools are ParModel and ParColModel.) *)
Definition fit_rows (isdef : bool) (items : dict pystr Z) : vocab := vocab_init isdef items.
Definition fit_cols (rv : vocab) : vocab := v_deepcopy rv.
