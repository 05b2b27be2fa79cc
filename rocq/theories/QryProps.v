(** * Claims about word queries, frequency lists in JSON, concordances and the vocabulary's other methods. *)
From Coq Require Import String NArith ZArith QArith Bool Arith Lia Permutation Sorted List.
From Verif Require Import Base BaseLemmas Str VocabModel VocabSpec VocabFileModel VocabFileProofs JsonModel JsonProofs
  TermsModel TermsProofs TokMxModel TokMxSpec TokMxProofs QryModel QrySpec QryProofs.
Import ListNotations.
Local Open Scope string_scope.
Local Open Scope nat_scope.
Local Open Scope list_scope.

(** Examples of texts: lines, and fields between tabs *)
Definition lines (l : list pystr) : pystr := concat (map (fun s => s ++ [newline]) l).
Definition tabbed (l : list string) : pystr := join tab (map u l).
Definition dk : pystr := u "_DEFAULT_".

(** ** C124: reading word queries *)
Theorem C124_queries_partial : forall def,
  (forall texts, Forall (fun l => forall c, In c l -> is_break c = false) texts ->
     read_queries def (Some (lines texts)) = flat_map (fun l => read_queries def (Some l)) texts) /\
  (forall line, strip line = [] \/ (exists s, strip line = hash :: s) -> (forall c, In c line -> is_break c = false) -> read_queries def (Some line) = []) /\
  (forall line c s, strip line = c :: s -> c <> hash -> ~ In tab (strip line) -> (forall c, In c line -> is_break c = false) ->
     read_queries def (Some line) = [QStr (strip line)]) /\
  (forall line c s, strip line = c :: s -> c <> hash -> In tab (strip line) -> (forall c, In c line -> is_break c = false) ->
     let fs := split tab (strip line) in
     exists d, read_queries def (Some line) = [QDict d] /\
       (forall n w, n <> def -> (dget d n = Some (Some w) <-> last_given fs n w)) /\
       (forall n, n <> def -> dget d n <> Some None) /\
       (forall w, last_given fs def w -> dget d def = Some (Some w)) /\
       (~ names fs def -> forall w, dget d def = Some (Some w) <-> first_given fs w) /\
       ((forall n, ~ names fs n) -> dget d def = Some None)) /\
  read_queries def None = [].
Proof. exact @read_queries_spec. Qed.
Print Assumptions C124_queries_partial.
(** A word with a colon in it is lost, and with it the word for the corpus; a line with tabs but without a field of the
    expected form is a query without any word. *)
Theorem C124_queries_refuted :
  read_queries dk (Some (tabbed ["A:12:30/time"; "B:half/time"])) = [QDict [(dk, Some (u "half/time")); (u "B", Some (u "half/time"))]] /\
  read_queries dk (Some (tabbed ["half/time"; "thirty/num"])) = [QDict [(dk, None)]].
Proof. split; vm_compute; reflexivity. Qed.
Print Assumptions C124_queries_refuted.
Example C124_ex : read_queries dk (Some (lines [u "# comment"; []; u " apple/noun "; tabbed ["A: oak/n"; "B:elm/n "; "A:fir/n"]]))
  = [QStr (u "apple/noun"); QDict [(dk, Some (u "oak/n")); (u "A", Some (u "fir/n")); (u "B", Some (u "elm/n"))]].
Proof. vm_compute. reflexivity. Qed.

(** ** C125: the word of a query for a corpus *)
Theorem C125_word_partial : forall def line n d, read_queries def (Some line) = [QDict d] -> (forall c, In c line -> is_break c = false) ->
  let fs := split tab (strip line) in
  (forall w, n <> def -> last_given fs n w -> get_word_str (QDict d) true n (Some def) = Ok (Some w)) /\
  (forall b, b = false \/ ~ names fs n -> ~ names fs def -> forall w, first_given fs w -> get_word_str (QDict d) b n (Some def) = Ok (Some w)) /\
  (forall b w, b = false \/ ~ names fs n \/ n = def -> last_given fs def w -> get_word_str (QDict d) b n (Some def) = Ok (Some w)) /\
  (forall b, (forall n, ~ names fs n) -> get_word_str (QDict d) b n (Some def) = Ok None).
Proof. exact @get_word_read. Qed.
Print Assumptions C125_word_partial.
(** The default of the parameter def_key is no key that read_word_queries uses: KeyError for every dict query, unless it is
    asked for a corpus that it has. *)
Theorem C125_default_key_refuted : forall d b n, b = false \/ dmem d n = false -> get_word_str (QDict d) b n None = Err KeyError.
Proof. exact @get_word_nokey. Qed.
Print Assumptions C125_default_key_refuted.
Example C125_ex : exists d, read_queries dk (Some (tabbed ["A:oak/n"; "B:elm/n"])) = [QDict d] /\
  get_word_str (QDict d) true (u "B") (Some dk) = Ok (Some (u "elm/n")) /\ get_word_str (QDict d) true (u "C") (Some dk) = Ok (Some (u "oak/n")) /\
  get_word_str (QDict d) false (u "B") (Some dk) = Ok (Some (u "oak/n")) /\ get_word_str (QDict d) false (u "B") None = Err KeyError.
Proof. eexists. split; [vm_compute; reflexivity|]. vm_compute. auto. Qed.

(** ** C126: Vocab.match *)
Theorem C126_match : forall re v pattern, dwf (fd v) ->
  exists es, v_match re v MItem pattern = Ok (map fst es) /\ StronglySorted before es /\
    forall k f, In (k, f) es <-> vget v k = Some f /\ re pattern k = true.
Proof. exact @match_spec. Qed.
Print Assumptions C126_match.
(** The column 'freq' of the documentation never works. *)
Theorem C126_freq_refuted : forall re v pattern, fd v <> [] -> v_match re v MFreq pattern = Err TypeError.
Proof. exact @match_freq. Qed.
Print Assumptions C126_freq_refuted.
Example C126_ex : dwf (fd (vocab_init false [(u "oak", 2%Z); (u "elm", 5%Z); (u "ox", 2%Z); (u "ape", 7%Z)])) /\
  v_match (fun p s => match p, s with c :: _, d :: _ => (c =? d)%N | _, _ => false end) (vocab_init false [(u "ox", 2%Z); (u "elm", 5%Z); (u "oak", 2%Z); (u "ape", 7%Z)]) MItem (u "o")
    = Ok [u "oak"; u "ox"].
Proof. split; [|vm_compute; reflexivity]. unfold dwf. cbn [fd vocab_init dkeys map fst]. repeat constructor; cbn; intuition discriminate. Qed.

(** ** C127: make_type_file *)
Theorem C127_type_file : forall float_ok v types,
  exists d, v_load float_ok (u "json") (Some (make_type_file v types)) = Ok (as_int d) /\ dwf d /\
    (forall t, In t (dkeys d) <-> In t types) /\ (forall t, In t types -> dget d t = Some (match vget v t with Some f => f | None => 0%Z end)).
Proof. exact @type_file_spec. Qed.
Print Assumptions C127_type_file.
Example C127_ex : v_load (fun _ => false) (u "json") (Some (make_type_file (vocab_init false [(u "oak", 2%Z); (u "elm", 5%Z)]) [u "ash"; u "oak"; u "ash"]))
  = Ok [(u "ash", FInt 0); (u "oak", FInt 2)].
Proof. vm_compute. reflexivity. Qed.

(** ** C128: JSON frequency lists *)
Theorem C128_json_round_trip : forall float_ok v old, dwf (fd v) ->
  exists file, v_save v (u "json") old = (Some file, Ok tt) /\ v_load float_ok (u "json") (Some file) = Ok (as_int (fd v)).
Proof. exact @json_save_load. Qed.
Print Assumptions C128_json_round_trip.
Theorem C128_other_format : forall float_ok v fmt old, fmt <> u "json" -> fmt <> u "plain" -> fmt <> u "txt" ->
  v_save v fmt old = (old, Err KeyError) /\ v_load float_ok fmt old = Err KeyError.
Proof. exact @other_format. Qed.
Print Assumptions C128_other_format.
(** Items that the plain format loses *)
Definition odd_items : dict pystr Z := [(tabbed ["a"; "b"], 3%Z); ([], 2%Z); (u "say ""hi"" \", (-1)%Z); ([10; 13; 8232; 0; 31]%N, 0%Z)].
Example C128_ex : dwf odd_items /\ load_json (save_json odd_items) = Ok odd_items /\ load_plain (fun _ => false) (save_plain odd_items) <> Ok (as_int odd_items).
Proof.
  split; [|split; [vm_compute; reflexivity|vm_compute; discriminate]].
  unfold dwf, odd_items. cbn [dkeys map fst]. repeat constructor; vm_compute; intuition discriminate.
Qed.

(** ** C129: a file that was cut off *)
Theorem C129_json_detected : forall float_ok v p q, dwf (fd v) -> fst (v_save v (u "json") None) = Some (p ++ q) -> q <> [] ->
  v_load float_ok (u "json") (Some p) = Err ValueError.
Proof. exact @json_cut_load. Qed.
Print Assumptions C129_json_detected.
(** In the plain format the cut is noticed nowhere; only a frequency can be wrong, and only the last one. *)
Theorem C129_plain_partial : forall float_ok v p q, dwf (fd v) -> (forall k, In k (v_keys v) -> safe_item k) -> (forall k f, vget v k = Some f -> (0 <= f)%Z) ->
  fst (v_save v (u "plain") None) = Some (p ++ q) ->
  exists d, v_load float_ok (u "plain") (Some p) = Ok d /\ cut_reading (v_dataframe v) d.
Proof. exact @plain_cut_load. Qed.
Print Assumptions C129_plain_partial.
Theorem C129_plain_refuted : exists v p q, dwf (fd v) /\ (forall k, In k (v_keys v) -> safe_item k) /\ q <> [] /\
  fst (v_save v (u "plain") None) = Some (p ++ q) /\
  v_load (fun _ => false) (u "plain") (Some p) = Ok [(u "cat", FInt 1)] /\ vget v (u "cat") = Some 12%Z.
Proof.
  exists (vocab_init false [(u "cat", 12%Z); (u "dog", 3%Z)]), (tabbed ["cat"; "1"]). eexists. split; [|split; [|split; [|split; [vm_compute; reflexivity|split; vm_compute; reflexivity]]]].
  - unfold dwf. cbn [fd vocab_init dkeys map fst]. repeat constructor; cbn; intuition discriminate.
  - intros k [<-|[<-|[]]]; (split; [eexists; eexists; split; reflexivity|split; [intros X; vm_compute in X; intuition discriminate|]]);
      intros c X; vm_compute in X; intuition (subst; reflexivity).
  - discriminate.
Qed.
Print Assumptions C129_plain_refuted.
Example C129_ex : exists p q, save_json [(u "cat", 12%Z); (u "dog", 3%Z)] = p ++ q /\ q <> [] /\ load_json p = Err ValueError.
Proof. exists (firstn 20 (save_json [(u "cat", 12%Z); (u "dog", 3%Z)])), (skipn 20 (save_json [(u "cat", 12%Z); (u "dog", 3%Z)])). vm_compute. repeat split. discriminate. Qed.
Example C129_ex2 : v_load (fun _ => false) (u "plain") (Some (firstn 11 (save_plain [(u "dog", 3%Z); (u "cat", 12%Z); (u "emu", 1%Z)]))) = Ok [(u "cat", FInt 12)].
Proof. vm_compute. reflexivity. Qed.

(** ** C130: concordances *)
Theorem C130_concordance_partial : forall fmt own d,
  (forall text, concordance fmt own d = Ok text <-> exists rows, Forall2 (row_is fmt own) (toks_of d) rows /\
     text = lines (map (fun r => match r with (s, ls, w, rs) => s ++ tab :: join space ls ++ tab :: w ++ tab :: join space rs end) rows)) /\
  (forall text rows, concordance fmt own d = Ok text -> Forall2 (row_is fmt own) (toks_of d) rows -> Forall solid_row rows ->
     map read_row (splitlines text) = map Some rows).
Proof. exact @concordance_spec. Qed.
Print Assumptions C130_concordance_partial.
Definition lm : pystr := u "lemma".
Definition c_item (s : string) : inode := INode (item_attrs (Some (u s)) (Some (u s)) (Some (u "n"))) None None.
Definition c_node (ls rs : list string) : tnode ctok :=
  TNode (item_attrs None (Some (u "dog")) (Some (u "n"))) lm
    [CTok (KNode (item_attrs (Some (u "dog")) (Some (u "dog")) (Some (u "n"))) lm) (map c_item ls) (map c_item rs)].
(** Two different contexts with one text *)
Theorem C130_concordance_refuted : exists text,
  concordance (Some lm) None [(u "dog", c_node ["new york"] ["barks"])] = Ok text /\
  concordance (Some lm) None [(u "dog", c_node ["new"; "york"] ["barks"])] = Ok text.
Proof. eexists. split; vm_compute; reflexivity. Qed.
Print Assumptions C130_concordance_refuted.
Example C130_ex : exists text rows, concordance (Some lm) None [(u "dog", c_node ["a"; "big"] []); (u "cat", c_node [] ["ran"; "off"])] = Ok text /\
  Forall2 (row_is (Some lm) None) (toks_of [(u "dog", c_node ["a"; "big"] []); (u "cat", c_node [] ["ran"; "off"])]) rows /\ Forall solid_row rows /\
  text = lines [tabbed ["dog"; "a big"; "dog"; ""]; tabbed ["dog"; ""; "dog"; "ran off"]].
Proof.
  eexists. exists [(u "dog", [u "a"; u "big"], u "dog", []); (u "dog", [], u "dog", [u "ran"; u "off"])]. split; [vm_compute; reflexivity|]. split; [|split].
  - unfold toks_of. cbn [flat_map snd tn_tokens c_node app].
    repeat (apply Forall2_cons || apply Forall2_nil); (split; [vm_compute; reflexivity|]); (split; [split; cbn [ct_l ct_r map]|]);
      repeat (apply Forall2_cons || apply Forall2_nil); apply to_colloc_string; vm_compute; reflexivity.
  - assert (So : forall s, forallb (fun c => negb (is_ws c)) s = true -> s <> [] -> solid s).
    { intros s H N. split; [exact N|]. intros c I. rewrite forallb_forall in H. apply H in I. now destruct (is_ws c). }
    repeat constructor; try (apply So; [reflexivity|discriminate]).
  - vm_compute. reflexivity.
Qed.

(** ** C131: select_subsets *)
(** WordDict is not defined, so there is no result. *)
Theorem C131_subsets_refuted : forall pick defined, defined (u "WordDict") = false ->
  forall v words n random, words <> [] -> select_subsets pick defined v words n random = Err NameError.
Proof. exact @subsets_error. Qed.
Print Assumptions C131_subsets_refuted.
(** If it were: as many occurrences of each word as asked for, or all of them. *)
Theorem C131_subsets_partial : forall pick defined, (forall f k, k <= f -> sample_of f k (pick f k)) -> defined (u "WordDict") = true ->
  forall v words n random, (0 <= n)%Z -> (forall w f, vget v w = Some f -> (0 <= f)%Z) ->
  exists d, select_subsets pick defined v words n random = Ok d /\ (forall w, In w (dkeys d) <-> In w words) /\
    forall w, In w words -> exists s, dget d w = Some s /\ ws_found s = 0 /\
      let f := match vget v w with Some f => f | None => 0%Z end in
      ws_n s = Z.min n f /\ NoDup (ws_sel s) /\ Z.of_nat (length (ws_sel s)) = Z.min n f /\
      (forall i, In i (ws_sel s) -> 1 <= i /\ (Z.of_nat i <= f)%Z) /\
      (random = false -> forall i, In i (ws_sel s) <-> 1 <= i /\ (Z.of_nat i <= Z.min n f)%Z).
Proof. exact @subsets_spec. Qed.
Print Assumptions C131_subsets_partial.
(** A negative number of random draws is a ValueError as soon as a word with occurrences is among the words. *)
Theorem C131_negative : forall pick defined v words n w f, defined (u "WordDict") = true -> (n < 0)%Z -> In w words -> vget v w = Some f -> f <> 0%Z ->
  select_subsets pick defined v words n true = Err ValueError.
Proof. exact @subsets_negative. Qed.
Print Assumptions C131_negative.
Example C131_negative_ex : select_subsets (fun _ _ => []) (fun _ => true) (vocab_init false [(u "oak", 5%Z)]) [u "ash"; u "oak"] (-1) true = Err ValueError.
Proof. apply (C131_negative _ _ _ _ _ (u "oak") 5%Z); [reflexivity|reflexivity|right; now left|vm_compute; reflexivity|discriminate]. Qed.
Example C131_ex : (forall f k, k <= f -> sample_of f k (map (fun i => f - 1 - i) (seq 0 k))) /\ rmap (map (fun kv => (fst kv, ws_sel (snd kv)))) (select_subsets (fun f k => map (fun i => f - 1 - i) (seq 0 k)) (fun _ => true)
    (vocab_init false [(u "oak", 5%Z); (u "elm", 1%Z)]) [u "oak"; u "ash"; u "elm"] 2 true) = Ok [(u "oak", [5; 4]); (u "ash", []); (u "elm", [1])].
Proof.
  split; [|vm_compute; reflexivity]. intros f k H. split; [|split].
  - apply (@NoDup_map_inv _ _ (fun i => f - 1 - i)). rewrite map_map. rewrite (map_ext_in _ (fun i => i)); [rewrite map_id; apply seq_NoDup|].
    intros i I. apply in_seq in I. lia.
  - now rewrite map_length, seq_length.
  - intros i I. apply in_map_iff in I as (j & <- & I). apply in_seq in I. lia.
Qed.

(** ** C132: equality and attributes *)
(** No vocabulary is equal to itself; two are always unequal. *)
Theorem C132_equal_refuted : forall v w, v_dunder_eq v (OVocab w) = None /\ v_dunder_ne v (OVocab w) = true.
Proof. split; reflexivity. Qed.
Print Assumptions C132_equal_refuted.
(** A misspelt attribute is no error; a call of it is a TypeError. *)
Theorem C132_attribute_refuted : forall name, name <> u "freq" -> v_getattr name = GNone /\ v_call_missing name = Err TypeError.
Proof. exact @missing_attr. Qed.
Print Assumptions C132_attribute_refuted.
Example C132_ex : v_dunder_eq (vocab_init false [(u "a", 2%Z); (u "b", 3%Z)]) (ONum 3) = Some [u "b"] /\ v_getattr (u "frq") = GNone /\ v_getattr (u "freq") = GSelf.
Proof. repeat split; vm_compute; reflexivity. Qed.

(** ** Computed cases *)
Example C124_values : read_queries dk None = [] /\
  read_queries dk (Some (tabbed [" A :oak/n"; "B : elm/n"; "C:x:y"; "D"])) = [QDict [(dk, Some (u "oak/n")); (u "A", Some (u "oak/n")); (u "B", Some (u "elm/n"))]] /\
  read_queries dk (Some (tabbed ["A"; "B"])) = [QDict [(dk, None)]].
Proof. vm_compute. repeat split. Qed.
Example C126_values : v_match (fun _ _ => true) (vocab_init false [(u "a", 2%Z)]) MFreq (u "o") = Err TypeError /\
  v_match (fun _ _ => true) (vocab_init false []) MFreq (u "o") = Ok [] /\ v_match (fun _ _ => true) (vocab_init false [(u "a", 2%Z)]) MOther (u "o") = Err KeyError.
Proof. vm_compute. repeat split. Qed.
Example C128_values : let v := vocab_init false [(u "dog", 3%Z)] in
  v_save v (u "json") None = (Some (u "{" ++ nlindent ++ [quote] ++ u "dog" ++ [quote] ++ u ": 3" ++ [newline] ++ u "}"), Ok tt) /\
  v_save v (u "txt") None = (Some (tabbed ["dog"; "3"] ++ [newline]), Ok tt) /\ v_save v (u "csv") (Some (u "old")) = (Some (u "old"), Err KeyError) /\
  v_load (fun _ => false) (u "csv") (Some (u "{}")) = Err KeyError /\ v_load (fun _ => false) (u "json") None = Err IOError.
Proof. vm_compute. repeat split. Qed.
Definition q (s : string) : pystr := map (fun c => if (c =? 39)%N then quote else c) (u s).
Example C129_values : load_json (q "{'a': 1, 'b': 2 ") = Err ValueError /\ load_json (q "{'a': 1 x") = Err ValueError /\ load_json (q " {'a':1 , 'a': -2} ") = Ok [(u "a", (-2)%Z)] /\
  load_json (q "{'a': 1,}") = Err ValueError /\ load_json (q "{'a': 01}") = Err ValueError /\ load_json (q "{'A\n': 1}") = Ok [([65; 10]%N, 1%Z)] /\ load_json (q "{'a': 1}}") = Err ValueError.
Proof. vm_compute. repeat split. Qed.
Example C130_values : conc_line None (Some lm) (CTok (KNode (item_attrs (Some (u "dogs")) (Some (u "dog")) (Some (u "n"))) lm) [] [])
  = Ok (tabbed ["dog"; ""; "dog"; ""] ++ [newline]).
Proof. vm_compute. repeat split. Qed.
Example C131_values : let v := vocab_init false [(u "oak", 5%Z); (u "elm", 1%Z)] in
  rmap (map (fun kv => (fst kv, ws_sel (snd kv)))) (select_subsets (fun _ _ => []) (fun _ => true) v [u "oak"; u "ash"; u "elm"] 2 false) = Ok [(u "oak", [1; 2]); (u "ash", []); (u "elm", [1])] /\
  select_subsets (fun _ _ => []) (fun n => negb (eqb n (u "WordDict"))) v [u "oak"] 2 false = Err NameError /\
  select_subsets (fun _ _ => []) (fun _ => false) v [] 2 false = Ok [].
Proof. vm_compute. repeat split. Qed.
