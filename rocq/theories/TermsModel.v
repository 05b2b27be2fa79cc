(** * Model of TypeNode and TokenNode, nephosem/core/terms.py. *)
From Coq Require Import String NArith ZArith Bool Arith List.
From Verif Require Import Base Str VocabModel.
Import ListNotations.

(** Instance attributes that hold strings or None: [__dict__] restricted to word, lemma, pos, fid, lid.
    Simplified: the other attributes (format, tokens, type_fmt, ...) are record fields or left out, so a
    format that names one of them is treated like any unknown name. *)
Definition attrs := dict pystr (option pystr).
Definition f_word := u "word". Definition f_lemma := u "lemma". Definition f_pos := u "pos".
Definition f_fid := u "fid". Definition f_lid := u "lid".

(** ItemNode.__init__, terms.py:49-87, as called with word, lemma, pos. *)
Definition item_attrs (word lemma pos : option pystr) : attrs :=
  [(f_word, word); (f_lemma, lemma); (f_pos, pos)].

(** [self.connector.join([self.__dict__[c] for c in fmt.split('/')])]: TypeNode.type (terms.py:197-200),
    TokenNode.token (378-381).  KeyError for a name that is not an attribute, TypeError when joining None. *)
Definition fmt_join (a : attrs) (fmt : pystr) : res pystr :=
  rbind (rmapm (fun c => match dget a c with Some v => Ok v | None => Err KeyError end) (split slash fmt))
        (fun vs => rmap (join slash) (rmapm (fun v => match v with Some s => Ok s | None => Err TypeError end) vs)).

(** The field loop of the constructors, terms.py:177-186 (TypeNode) and 342-355 (TokenNode): [known] lists the
    accepted field names; later fields override earlier ones; any other name raises ValueError. *)
Fixpoint fields (known : list pystr) (eles fmts : list pystr) (a : attrs) : res attrs :=
  match eles, fmts with
  | e :: eles', f :: fmts' => if mem f known then fields known eles' fmts' (dset a f (Some e)) else Err ValueError
  | _, _ => Ok a
  end.

Section Nodes.
  Context {T : Type}.
  (** TypeNode: attributes, format and tokens. *)
  Record tnode := TNode { tn_attrs : attrs; tn_format : pystr; tn_tokens : list T }.

  (** TypeNode.__init__ case 2 (type string and format), terms.py:166-195.  An empty type string is falsy: the
      parent constructor is not called and no attribute is set. *)
  Definition tn_of_str (type_str type_fmt : pystr) (tokens : list T) : res tnode :=
    match type_fmt with
    | [] => Err ValueError
    | _ =>
        match type_str with
        | [] => Ok (TNode [] type_fmt tokens)
        | _ =>
            let eles := split slash type_str in
            let fmts := split slash type_fmt in
            if negb (length eles =? length fmts) then Err ValueError
            else rbind (fields [f_word; f_lemma; f_pos] eles fmts (item_attrs None None None))
                       (fun a => Ok (TNode a type_fmt tokens))
        end
    end.
  (** TypeNode.__init__ case 3 (attributes and format), terms.py:188-195; None and '' are falsy. *)
  Definition truthy (o : option pystr) : bool := match o with Some (_ :: _) => true | _ => false end.
  Definition tn_of_attrs (word lemma pos : option pystr) (type_fmt : pystr) (tokens : list T) : res tnode :=
    match type_fmt with
    | [] => Err ValueError
    | _ => Ok (TNode (if truthy word || truthy lemma || truthy pos then item_attrs word lemma pos else []) type_fmt tokens)
    end.
  (** TypeNode.type / __str__, terms.py:197-200, 286-287 *)
  Definition tn_type (n : tnode) : res pystr := fmt_join (tn_attrs n) (tn_format n).
  (** TypeNode.freq, terms.py:202-205 *)
  Definition tn_freq (n : tnode) : nat := length (tn_tokens n).
  (** TypeNode.append_token, terms.py:211-212 *)
  Definition tn_append (n : tnode) (t : T) : tnode := TNode (tn_attrs n) (tn_format n) (tn_tokens n ++ [t]).

  (** TypeNode.merge, terms.py:264-284; [None] for the empty list. *)
  Definition tn_merge (tns : list tnode) : res (option tnode) :=
    match tns with
    | [] => Ok None
    | t0 :: _ =>
        rbind (tn_type t0) (fun type_str =>
        rbind (rfold (fun tokens tn =>
                 rbind (tn_type tn) (fun s =>
                   if negb (eqb s type_str) || negb (eqb (tn_format t0) (tn_format tn)) then Err ValueError
                   else Ok (tokens ++ tn_tokens tn))) tns [])
              (fun tokens => rmap Some (tn_of_str type_str (tn_format t0) tokens)))
    end.
End Nodes.
Arguments tnode : clear implicits.

(** TokenNode without collocates: attributes and format. *)
Record knode := KNode { kn_attrs : attrs; kn_format : pystr }.
(** TokenNode.__init__ case 2 (token string and format), terms.py:336-368; fid and lid always set. *)
Definition kn_of_str (token_str token_fmt : pystr) (fid lid : pystr) : res knode :=
  match token_fmt with
  | [] => Err ValueError
  | _ =>
      match token_str with
      | [] => Ok (KNode [(f_fid, Some fid); (f_lid, Some lid)] token_fmt)
      | _ =>
          let eles := split slash token_str in
          let fmts := split slash token_fmt in
          if negb (length eles =? length fmts) then Err ValueError
          else rbind (fields [f_word; f_lemma; f_pos; f_fid; f_lid] eles fmts
                        (item_attrs None None None ++ [(f_fid, Some fid); (f_lid, Some lid)]))
                     (fun a => Ok (KNode a token_fmt))
      end
  end.
(** TokenNode.__init__ case 3 (attributes and format), terms.py:357-368. *)
Definition kn_of_attrs (word lemma pos : option pystr) (fid lid : pystr) (token_fmt : pystr) : res knode :=
  match token_fmt with
  | [] => Err ValueError
  | _ => Ok (KNode ((if truthy word || truthy lemma || truthy pos then item_attrs word lemma pos else [])
                    ++ [(f_fid, Some fid); (f_lid, Some lid)]) token_fmt)
  end.
(** TokenNode.token / __str__ *)
Definition kn_token (n : knode) : res pystr := fmt_join (kn_attrs n) (kn_format n).
