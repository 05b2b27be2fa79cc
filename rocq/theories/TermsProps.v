(** * Claims about TypeNode and TokenNode. *)
From Coq Require Import String NArith ZArith Bool Arith Lia List.
From Verif Require Import Base BaseLemmas Str StrLemmas VocabModel TermsModel TermsProofs.
Import ListNotations.

(** C15.  [l] is any non-empty list of type nodes that the constructor built from a non-empty type string. *)
Theorem C15_merge_keeps_tokens : forall {T} (l : list (tnode T)) (t f : pystr), l <> [] ->
  (forall n, In n l -> (exists s, s <> [] /\ tn_of_str s (tn_format n) (tn_tokens n) = Ok n) /\ tn_type n = Ok t /\ tn_format n = f) ->
  exists m, tn_merge l = Ok (Some m) /\ tn_type m = Ok t /\ tn_format m = f /\
    tn_tokens m = concat (map tn_tokens l) /\ tn_freq m = sumn (map tn_freq l).
Proof. exact @merge_ok. Qed.
Print Assumptions C15_merge_keeps_tokens.
Theorem C15_merge_raises : forall {T} (l : list (tnode T)), (forall n, In n l -> exists s, tn_type n = Ok s) ->
  (exists a b, In a l /\ In b l /\ (tn_type a <> tn_type b \/ tn_format a <> tn_format b)) -> tn_merge l = Err ValueError.
Proof. exact @merge_err. Qed.
Print Assumptions C15_merge_raises.

Definition ex_node (s : pystr) (toks : list nat) : tnode nat :=
  match tn_of_str s (u "lemma/pos") toks with Ok n => n | Err _ => TNode [] [] [] end.
Example C15_ex : (forall n, In n [ex_node (u "be/verb") [1; 2]; ex_node (u "be/verb") []; ex_node (u "be/verb") [3]] ->
    (exists s, s <> [] /\ tn_of_str s (tn_format n) (tn_tokens n) = Ok n) /\ tn_type n = Ok (u "be/verb") /\ tn_format n = u "lemma/pos") /\
  rmap (option_map tn_tokens) (tn_merge [ex_node (u "be/verb") [1; 2]; ex_node (u "be/verb") []; ex_node (u "be/verb") [3]])
    = Ok (Some [1; 2; 3]).
Proof.
  split; [|reflexivity]. intros n H. cbn [In] in H.
  destruct H as [<-|[<-|[<-|[]]]]; (split; [exists (u "be/verb"); split; [discriminate|reflexivity]|split; reflexivity]).
Qed.
Example C15_ex_raises : tn_merge [ex_node (u "be/verb") [1]; ex_node (u "be/noun") [2]] = Err ValueError.
Proof. reflexivity. Qed.

(** C16, parse then format, for type strings and token strings. *)
Theorem C16_type_string_roundtrip : forall {T} (s fmt : pystr) (toks : list T), s <> [] -> fmt <> [] ->
  NoDup (split slash fmt) -> (forall f, In f (split slash fmt) -> In f [f_word; f_lemma; f_pos]) ->
  length (split slash s) = length (split slash fmt) ->
  exists n, tn_of_str s fmt toks = Ok n /\ tn_type n = Ok s /\ tn_tokens n = toks.
Proof. exact @type_roundtrip. Qed.
Print Assumptions C16_type_string_roundtrip.
Theorem C16_type_string_raises : forall {T} (s fmt : pystr) (toks : list T), s <> [] -> fmt <> [] ->
  length (split slash s) <> length (split slash fmt) -> tn_of_str s fmt toks = Err ValueError.
Proof. exact @type_bad_count. Qed.
Print Assumptions C16_type_string_raises.
Theorem C16_token_string_roundtrip : forall (s fmt fid lid : pystr), s <> [] -> fmt <> [] ->
  NoDup (split slash fmt) -> (forall f, In f (split slash fmt) -> In f [f_word; f_lemma; f_pos; f_fid; f_lid]) ->
  length (split slash s) = length (split slash fmt) ->
  exists n, kn_of_str s fmt fid lid = Ok n /\ kn_token n = Ok s.
Proof. exact token_roundtrip. Qed.
Print Assumptions C16_token_string_roundtrip.
(** C16, format then parse: attributes named by the format and free of '/' come back. *)
Theorem C16_type_attributes_roundtrip : forall {T} (w l p : option pystr) fmt (toks : list T) n,
  tn_of_attrs w l p fmt toks = Ok n -> NoDup (split slash fmt) ->
  (forall f, In f (split slash fmt) -> In f [f_word; f_lemma; f_pos] /\ exists v, dget (tn_attrs n) f = Some (Some v) /\ ~ In slash v) ->
  forall s, tn_type n = Ok s -> s <> [] ->
  exists n', tn_of_str s fmt toks = Ok n' /\ (forall f, In f (split slash fmt) -> dget (tn_attrs n') f = dget (tn_attrs n) f).
Proof. exact @type_parse_format. Qed.
Print Assumptions C16_type_attributes_roundtrip.
(** The string of a type node made of attributes: those that the format names, if one of the three is there and not empty. *)
Theorem C16_type_attributes : forall {T} (w l p : option pystr) fmt (toks : list T) x vs, fmt <> [] ->
  x <> [] -> w = Some x \/ l = Some x \/ p = Some x ->
  Forall2 (fun f v => f = f_word /\ w = Some v \/ f = f_lemma /\ l = Some v \/ f = f_pos /\ p = Some v) (split slash fmt) vs ->
  exists n, tn_of_attrs w l p fmt toks = Ok n /\ tn_type n = Ok (join slash vs) /\ tn_tokens n = toks.
Proof. exact @type_of_attrs. Qed.
Print Assumptions C16_type_attributes.
Example C16_ex_attributes : exists n, tn_of_attrs None (Some (u "be")) (Some []) (u "pos/lemma") [7] = Ok n /\ tn_type n = Ok (u "/be") /\ tn_tokens n = [7].
Proof.
  apply (C16_type_attributes None (Some (u "be")) (Some []) (u "pos/lemma") [7] (u "be") [[]; u "be"]); try discriminate; [now right; left|].
  vm_compute. constructor; [now right; right|]. constructor; [now right; left|]. constructor.
Qed.
(** It is a TypeError when one of those is missing. *)
Theorem C16_type_none : forall {T} (w l p : option pystr) fmt (toks : list T) x, fmt <> [] -> x <> [] -> w = Some x \/ l = Some x \/ p = Some x ->
  (forall f, In f (split slash fmt) -> In f [f_word; f_lemma; f_pos]) ->
  (exists f, In f (split slash fmt) /\ (f = f_word /\ w = None \/ f = f_lemma /\ l = None \/ f = f_pos /\ p = None)) ->
  exists n, tn_of_attrs w l p fmt toks = Ok n /\ tn_type n = Err TypeError.
Proof. exact @type_none. Qed.
Print Assumptions C16_type_none.
Example C16_ex_none : exists n, tn_of_attrs None (Some (u "be")) None (u "lemma/pos") [7] = Ok n /\ tn_type n = Err TypeError.
Proof.
  apply (C16_type_none None (Some (u "be")) None (u "lemma/pos") [7] (u "be")); try discriminate; [now right; left| |].
  - vm_compute. intros f [<-|[<-|[]]]; auto.
  - exists f_pos. split; [vm_compute; auto|auto].
Qed.
(** Without a format no node is made. *)
Theorem C16_empty_format : forall {T} s (w l p : option pystr) (toks : list T) (fid lid : pystr),
  tn_of_str s [] toks = Err ValueError /\ tn_of_attrs w l p [] toks = Err ValueError /\
  kn_of_str s [] fid lid = Err ValueError /\ kn_of_attrs w l p fid lid [] = Err ValueError.
Proof. intros. repeat split; reflexivity. Qed.
Print Assumptions C16_empty_format.
Theorem C16_token_attributes_roundtrip : forall (w l p : option pystr) (fid lid : pystr) fmt n,
  kn_of_attrs w l p fid lid fmt = Ok n -> NoDup (split slash fmt) ->
  (forall f, In f (split slash fmt) -> In f [f_word; f_lemma; f_pos; f_fid; f_lid] /\ exists v, dget (kn_attrs n) f = Some (Some v) /\ ~ In slash v) ->
  forall s, kn_token n = Ok s -> s <> [] -> forall fid' lid',
  exists n', kn_of_str s fmt fid' lid' = Ok n' /\ (forall f, In f (split slash fmt) -> dget (kn_attrs n') f = dget (kn_attrs n) f).
Proof. exact token_parse_format. Qed.
Print Assumptions C16_token_attributes_roundtrip.
(** The string of a token node made of attributes: also the names of its file and line. *)
Theorem C16_token_attributes : forall (w l p : option pystr) (fid lid : pystr) fmt x vs, fmt <> [] -> x <> [] -> w = Some x \/ l = Some x \/ p = Some x ->
  Forall2 (fun f v => f = f_word /\ w = Some v \/ f = f_lemma /\ l = Some v \/ f = f_pos /\ p = Some v \/ f = f_fid /\ fid = v \/ f = f_lid /\ lid = v)
    (split slash fmt) vs ->
  exists n, kn_of_attrs w l p fid lid fmt = Ok n /\ kn_token n = Ok (join slash vs).
Proof. exact token_of_attrs. Qed.
Print Assumptions C16_token_attributes.
Example C16_ex_token_attributes : exists n, kn_of_attrs None (Some (u "be")) (Some []) (u "a.txt") (u "7") (u "lemma/fid/lid") = Ok n /\
  kn_token n = Ok (u "be/a.txt/7").
Proof.
  apply (C16_token_attributes None (Some (u "be")) (Some []) (u "a.txt") (u "7") (u "lemma/fid/lid") (u "be") [u "be"; u "a.txt"; u "7"]); try discriminate;
    [now right; left|].
  vm_compute. constructor; [now right; left|]. constructor; [now right; right; right; left|]. constructor; [now right; right; right; right|]. constructor.
Qed.

Example C16_ex_type : NoDup (split slash (u "lemma/pos")) /\ length (split slash (u "be/verb")) = length (split slash (u "lemma/pos")) /\
  rbind (tn_of_str (u "be/verb") (u "lemma/pos") (@nil nat)) tn_type = Ok (u "be/verb") /\
  rmap (fun n => dget (tn_attrs n) f_lemma) (tn_of_str (u "be/verb") (u "lemma/pos") (@nil nat)) = Ok (Some (Some (u "be"))).
Proof. repeat split; try reflexivity. vm_compute. repeat (constructor; [cbn; intuition discriminate|]). constructor. Qed.
(** The number of fields has to match: an item that contains '/' is rejected. *)
Example C16_ex_slash : tn_of_str (u "and/or/conj") (u "lemma/pos") (@nil nat) = Err ValueError.
Proof. reflexivity. Qed.
Example C16_ex_token : rbind (kn_of_str (u "is/verb/f1/12") (u "word/pos/fid/lid") (u "unknown") (u "-1")) kn_token = Ok (u "is/verb/f1/12") /\
  rmap (fun n => dget (kn_attrs n) f_lid) (kn_of_str (u "is/verb/f1/12") (u "word/pos/fid/lid") (u "unknown") (u "-1")) = Ok (Some (Some (u "12"))).
Proof. split; reflexivity. Qed.
(** Formatting attributes that contain '/' and parsing back assigns the wrong field values. *)
Example C16_ex_attr_slash : rbind (rbind (tn_of_attrs (Some (u "a/b")) None (Some (u "c")) (u "word/pos") (@nil nat)) tn_type)
  (fun s => tn_of_str s (u "word/pos") (@nil nat)) = Err ValueError.
Proof. reflexivity. Qed.
(** The same type in two formats *)
Example C15_ex_formats : let n f := match tn_of_str (u "be/verb") f [1] with Ok n => n | Err _ => TNode [] [] [] end in
  tn_merge [n (u "lemma/pos"); n (u "word/pos")] = Err ValueError.
Proof. vm_compute. reflexivity. Qed.
