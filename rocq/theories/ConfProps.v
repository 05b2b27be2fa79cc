(** * Claims C59, C60 and C97-C105: configuration, formatter, handlers and file lists. *)
From Coq Require Import String NArith ZArith Bool Arith Permutation Lia List.
From Verif Require Import Base BaseLemmas Str VocabModel ConfModel ConfSpec ConfProofs ConfFilesProofs.
Import ListNotations.
Local Open Scope string_scope.
Local Open Scope nat_scope.
Local Open Scope list_scope.

(** ** C59: the settings returned by update_config. *)
(** The last section offering an option gives its value; other options keep the default; no existing dict changes. *)
Theorem C59_override : forall interp files h self fname c h' r, files fname = Some (Ok c) -> self < length h ->
  update_config interp files h self fname = (h', Ok r) ->
  (forall k pre s post, i_sects c = pre ++ s :: post -> offers c s k -> (forall s', In s' post -> ~ offers c s' k) ->
     exists v, sect_value interp c s k v /\ dget (deref h' r) k = Some v) /\
  (forall k, (forall s, In s (i_sects c) -> ~ offers c s k) -> dget (deref h' r) k = dget (deref h self) k) /\
  (length h <= r /\ r < length h' /\ forall i, i < length h -> deref h' i = deref h i).
Proof. exact @override. Qed.
Print Assumptions C59_override.
(** The call succeeds exactly when every option has a value. *)
Theorem C59_succeeds : forall interp files h self fname c, files fname = Some (Ok c) -> self < length h ->
  (forall s k, In s (i_sects c) -> offers c s k -> exists v, sect_value interp c s k v) ->
  exists h' r, update_config interp files h self fname = (h', Ok r).
Proof. exact @update_succeeds. Qed.
Print Assumptions C59_succeeds.
Theorem C59_fails : forall interp files h self fname c s k, files fname = Some (Ok c) -> In s (i_sects c) -> offers c s k ->
  (forall v, ~ sect_value interp c s k v) -> exists e, update_config interp files h self fname = (h, Err e).
Proof. exact @update_fails. Qed.
Print Assumptions C59_fails.
Definition no_interp (c : ini) (sect v : pystr) : res pystr := Ok v.
Definition ex_defaults : settings := [(u "left-span", VInt 10); (u "type", VStr (u "lemma/pos")); (u "token", VStr (u "word/pos/fid/lid"))].
Definition ex_ini : ini := {| i_default := []; i_sects := [(u "Corpus-Format", [(u "type", u "lemma")]); (u "Span", [(u "left-span", u " 4")]); (u "Extra", [(u "type", u "word")])] |}.
Definition ex_files (f : pystr) : option (res ini) := if eqdec f (u "my.ini") then Some (Ok ex_ini) else None.
Example C59_ex : let (h, r) := update_config no_interp ex_files [ex_defaults] 0 (u "my.ini") in
  r = Ok 3 /\ deref h 3 = [(u "left-span", VInt 4); (u "type", VStr (u "word")); (u "token", VStr (u "word/pos/fid/lid"))] /\ deref h 0 = ex_defaults.
Proof. vm_compute. auto. Qed.
Example C59_ex_hyp : offers ex_ini (u "Extra", [(u "type", u "word")]) (u "type") /\ sect_value no_interp ex_ini (u "Extra", [(u "type", u "word")]) (u "type") (VStr (u "word")).
Proof. split; [left; vm_compute; auto|]. eapply sv_str; [left; vm_compute; reflexivity|reflexivity|discriminate]. Qed.
Example C59_ex_fails : update_config no_interp (fun _ => Some (Ok (Ini [] [(u "Span", [(u "left-span", u "four")])]))) [ex_defaults] 0 (u "x") = ([ex_defaults], Err ValueError).
Proof. vm_compute. reflexivity. Qed.
(** Refuted: with a DEFAULT section, a later section that does not mention an option resets it to the DEFAULT value. *)
Theorem C59_default_section_refuted : exists c k s s', i_sects c = [s; s'] /\ dget (snd s) k = Some (u "lemma") /\ ~ In k (dkeys (snd s')) /\
  forall files fname, files fname = Some (Ok c) -> forall h self, self < length h ->
    exists h' r, update_config no_interp files h self fname = (h', Ok r) /\ dget (deref h' r) k = Some (VStr (u "word")).
Proof.
  exists {| i_default := [(u "type", u "word")]; i_sects := [(u "Corpus-Format", [(u "type", u "lemma")]); (u "Data", [(u "corpus-path", u "/c")])] |}, (u "type"),
    (u "Corpus-Format", [(u "type", u "lemma")]), (u "Data", [(u "corpus-path", u "/c")]).
  split; [reflexivity|]. split; [reflexivity|]. split; [cbn; intuition discriminate|]. intros files fname F h self Hs.
  destruct (update_succeeds no_interp files h self fname _ F Hs) as (h' & r & U).
  - intros s k [<-|[<-|[]]] O.
    + destruct O as [[<-|[]]|[<-|[]]]; eexists; (eapply sv_str; [left; vm_compute; reflexivity|reflexivity|discriminate]).
    + destruct O as [[<-|[]]|[<-|[]]]; eexists; (eapply sv_str; [|reflexivity|discriminate]); [left; vm_compute; reflexivity|right; split; [cbn; intuition discriminate|vm_compute; reflexivity]].
  - exists h', r. split; auto. destruct (override _ _ _ _ _ _ _ _ F Hs U) as (A & _). destruct (A (u "type") [(u "Corpus-Format", [(u "type", u "lemma")])] (u "Data", [(u "corpus-path", u "/c")]) []) as (v & V & ->).
    + reflexivity.
    + right. left. reflexivity.
    + intros s' [].
    + f_equal. eapply (sect_value_fun _ files); [exact V|]. eapply sv_str; [right; split; [cbn; intuition discriminate|vm_compute; reflexivity]|reflexivity|discriminate].
Qed.
Print Assumptions C59_default_section_refuted.

(** ** C97: a configuration file that cannot be read.  Refuted: the defaults are returned without an error. *)
Theorem C97_missing_file_refuted : forall interp files h self fname, files fname = None -> self < length h ->
  exists h' r, update_config interp files h self fname = (h', Ok r) /\ deref h' r = deref h self.
Proof. exact @missing_file. Qed.
Print Assumptions C97_missing_file_refuted.
Example C97_ex : let (h, r) := update_config no_interp ex_files [ex_defaults] 0 (u "typo.ini") in r = Ok 3 /\ deref h 3 = ex_defaults.
Proof. vm_compute. auto. Qed.

(** ** Formatter examples: a line is a list of fields, a regular expression is a name or a literal line, group 0 is the whole line. *)
Definition ex_compile (s : pystr) : res pystr := Ok s.
Definition ex_match (r : pystr) (l : pystr) : option pystr :=
  if eqdec r (u "fields") then if mem 9%N l then Some l else None else if eqdec r l then Some l else None.
Definition ex_group (m : pystr) (i : nat) : res (option pystr) :=
  match i with 0 => Ok (Some m) | S j => match nth_error (split 9%N m) j with Some x => Ok (Some x) | None => Err IndexError end end.
Definition tabs (l : list pystr) : pystr := join 9%N l.
Definition ex_line : pystr := tabs [u "Cats"; u "N"; u "cat"].
Definition ex_sett : settings :=
  [(u "line-machine", VStr (u "fields")); (u "boundary-detection-mechanism", VStr (u "single")); (u "separator-line-machine", VStr (u "</artikel>"));
   (u "single-boundary-machine", VStr (u "</artikel>")); (u "line-format", VStr (u "word,pos,lemma")); (u "type", VStr (u "lemma/pos"));
   (u "token", VStr (u "word/pos/fid/lid"))].
Definition ex_fmt : fmt := match fst (fmt_init ex_compile ex_sett) with Ok f => f | Err _ => Fmt (RX:=pystr) None None None None None None None [] [] [] [] end.
Lemma ex_fmt_ok : fmt_init ex_compile ex_sett = (Ok ex_fmt, dset ex_sett (u "colloc") (VStr (u "lemma/pos"))).
Proof. vm_compute. reflexivity. Qed.
Lemma ex_has : has_fields ex_group ex_line [u "Cats"; u "N"; u "cat"].
Proof. intros [|[|[|i]]] v E; vm_compute in E |- *; try (injection E as <-; reflexivity); destruct i; discriminate. Qed.

(** ** C98: with boundary mechanism 'single' the separators are the lines matching single-boundary-machine. *)
(** What is true: both keys must be set, and the expression used is the one under separator-line-machine. *)
Theorem C98_single_partial : forall RX L M compile rx_match s (f : fmt (RX:=RX)) s', fmt_init compile s = (Ok f, s') -> dget s (u "boundary-detection-mechanism") = Some (VStr (u "single")) ->
  exists x y r, dget s (u "single-boundary-machine") = Some x /\ dget s (u "separator-line-machine") = Some (VStr y) /\ compile y = Ok r /\
    forall line : L, separator_line_machine (M:=M) rx_match f line = Ok (rx_match r line).
Proof. exact @single_both. Qed.
Print Assumptions C98_single_partial.
(** Refuted: with only one of the two keys the constructor fails. *)
Theorem C98_one_key_refuted : forall RX (compile : pystr -> res RX) s, dget s (u "boundary-detection-mechanism") = Some (VStr (u "single")) ->
  (exists l, init_lines compile s = Ok l) ->
  dget s (u "single-boundary-machine") = None \/ dget s (u "separator-line-machine") = None ->
  fmt_init compile s = (Err KeyError, s).
Proof. exact @single_missing. Qed.
Print Assumptions C98_one_key_refuted.
(** Refuted: an own single-boundary-machine is ignored. *)
Theorem C98_ignored_refuted : exists s f s' x, dget s (u "single-boundary-machine") = Some (VStr x) /\ dget s (u "boundary-detection-mechanism") = Some (VStr (u "single")) /\
  fmt_init ex_compile s = (Ok f, s') /\ ex_match x (u "<s>") = Some (u "<s>") /\ separator_line_machine ex_match f (u "<s>") = Ok None.
Proof.
  exists (dset ex_sett (u "single-boundary-machine") (VStr (u "<s>"))). eexists _, _, (u "<s>"). vm_compute. repeat split; reflexivity.
Qed.
Print Assumptions C98_ignored_refuted.
Example C98_ex : separator_line_machine ex_match ex_fmt (u "</artikel>") = Ok (Some (u "</artikel>")).
Proof. vm_compute. reflexivity. Qed.
Example C98_ex_one : fmt_init ex_compile (filter (fun kv => negb (eqb (fst kv) (u "single-boundary-machine"))) ex_sett) =
  (Err KeyError, filter (fun kv => negb (eqb (fst kv) (u "single-boundary-machine"))) ex_sett).
Proof. vm_compute. reflexivity. Qed.

(** ** C99: types, collocates, tokens and columns are made of the columns named in the settings. *)
Theorem C99_type : forall RX M (compile : pystr -> res RX) group s f s' cols fields (m : M), fmt_init compile s = (Ok f, s') -> columns_of s cols ->
  length fields = length cols -> has_fields group m fields ->
  forall ty, dget s (u "type") = Some (VStr ty) ->
  exists vs, Forall2 (field_of cols fields) (split slash ty) vs /\ get_type group f m = Ok (join slash vs).
Proof. exact @type_fields. Qed.
Print Assumptions C99_type.
Theorem C99_colloc : forall RX M (compile : pystr -> res RX) group s f s' cols fields (m : M), fmt_init compile s = (Ok f, s') -> columns_of s cols ->
  length fields = length cols -> has_fields group m fields ->
  forall co, dget s (u "colloc") = Some (VStr co) \/ (dget s (u "colloc") = None /\ dget s (u "type") = Some (VStr co)) ->
  exists vs, Forall2 (field_of cols fields) (split slash co) vs /\ get_colloc group f m = Ok (join slash vs).
Proof. exact @colloc_fields. Qed.
Print Assumptions C99_colloc.
Theorem C99_column : forall RX M (compile : pystr -> res RX) group s f s' cols fields (m : M), fmt_init compile s = (Ok f, s') -> columns_of s cols ->
  length fields = length cols -> has_fields group m fields ->
  forall c fid lid, In c cols -> ~ In c [u "type"; u "colloc"; u "token"] ->
  exists v, field_of cols fields c v /\ fmt_get group f m c fid lid = Ok (Some v).
Proof. exact @column_field. Qed.
Print Assumptions C99_column.
(** Formats can only name known columns. *)
Theorem C99_known : forall RX (compile : pystr -> res RX) s f s' cols, fmt_init compile s = (Ok f, s') -> columns_of s cols ->
  (forall ty, dget s (u "type") = Some (VStr ty) -> incl (split slash ty) cols) /\
  (forall co, dget s (u "colloc") = Some (VStr co) -> incl (split slash co) cols) /\
  (forall tk names a b, dget s (u "token") = Some (VStr tk) -> split slash tk = names ++ [a; b] -> incl names cols).
Proof. exact @formats_known. Qed.
Print Assumptions C99_known.
(** A type format that names an unknown column is a KeyError, whatever else is set properly. *)
Theorem C99_unknown_name : forall RX (compile : pystr -> res RX) s f s' cols ty, fmt_init compile s = (Ok f, s') -> columns_of s cols ->
  ~ incl (split slash ty) cols -> fmt_init compile (dset s (u "type") (VStr ty)) = (Err KeyError, dset s (u "type") (VStr ty)).
Proof. exact @type_unknown. Qed.
Print Assumptions C99_unknown_name.
(** Tokens: all parts of the format but the last two, then file and line number.  Partial: the last two parts are not looked at. *)
Theorem C99_token_partial : forall RX M (compile : pystr -> res RX) group s f s' cols fields (m : M), fmt_init compile s = (Ok f, s') -> columns_of s cols ->
  length fields = length cols -> has_fields group m fields ->
  forall tk fid lid names a b, dget s (u "token") = Some (VStr tk) -> split slash tk = names ++ [a; b] ->
  exists vs, Forall2 (field_of cols fields) names vs /\ get_token group f m (Some fid) (Some lid) = Ok (join slash (vs ++ [fid; lid])).
Proof. exact @token_fields. Qed.
Print Assumptions C99_token_partial.
(** Refuted: with the token format "word/pos" both columns are lost, whatever the line. *)
Theorem C99_token_format_refuted : exists s f s', dget s (u "token") = Some (VStr (u "word/pos")) /\ fmt_init ex_compile s = (Ok f, s') /\
  forall m fid lid, get_token ex_group f m (Some fid) (Some lid) = Ok (join slash [fid; lid]).
Proof. exists (dset ex_sett (u "token") (VStr (u "word/pos"))). eexists _, _. split; [reflexivity|]. split; [vm_compute; reflexivity|]. intros. reflexivity. Qed.
Print Assumptions C99_token_format_refuted.
(** Refuted: a column that does not exist gives the whole match instead of an error. *)
Theorem C99_unknown_column_refuted : forall RX M (compile : pystr -> res RX) group s f s' cols (m : M), fmt_init compile s = (Ok f, s') -> columns_of s cols ->
  forall c fid lid, ~ In c cols -> ~ In c [u "type"; u "colloc"; u "token"] -> fmt_get group f m c fid lid = group m 0.
Proof. exact @unknown_column. Qed.
Print Assumptions C99_unknown_column_refuted.
Example C99_ex_columns : columns_of ex_sett [u "word"; u "pos"; u "lemma"].
Proof. split; [discriminate|]. split; [|right; split; [left|]; vm_compute; reflexivity]. repeat apply Forall_cons; try apply Forall_nil; cbn; intuition discriminate. Qed.
Example C99_ex :  get_type ex_group ex_fmt ex_line = Ok (u "cat/N") /\ get_colloc ex_group ex_fmt ex_line = Ok (u "cat/N") /\
  get_token ex_group ex_fmt ex_line (Some (u "f1")) (Some (u "7")) = Ok (u "Cats/N/f1/7") /\ fmt_get ex_group ex_fmt ex_line (u "lemma") None None = Ok (Some (u "cat")) /\
  fmt_get ex_group ex_fmt ex_line (u "lema") None None = Ok (Some ex_line).
Proof. vm_compute. repeat split; reflexivity. Qed.
Example C99_ex_unknown : fst (fmt_init ex_compile (dset ex_sett (u "type") (VStr (u "lema/pos")))) = Err KeyError.
Proof. vm_compute. reflexivity. Qed.

(** ** C100: reading the lines of a corpus file. *)
(** With a line-machine and the mechanism 'single' every line is a match, a separator or skipped, and nothing is raised.  This is what the
    model of the handlers (CorpusModel) takes for granted. *)
Theorem C100_single_partial : forall RX L M (compile : pystr -> res RX) (rx_match : RX -> L -> option M) s f s' lines, fmt_init compile s = (Ok f, s') ->
  dget s (u "boundary-detection-mechanism") = Some (VStr (u "single")) -> In (u "line-machine") (dkeys s) ->
  exists rl rs, f_line f = Some rl /\ f_single f = Some rs /\
    file_events rx_match f lines = Ok (map (fun l => match rx_match rl l with Some m => EMatch m | None => if rx_match rs l then ESep else ESkip end) lines).
Proof. exact @single_lines. Qed.
Print Assumptions C100_single_partial.
(** Refuted: with the mechanism 'left-right' any line that is no word, such as a boundary, is an AttributeError. *)
Theorem C100_left_right_refuted : forall RX L M (compile : pystr -> res RX) (rx_match : RX -> L -> option M) s f s' lines, fmt_init compile s = (Ok f, s') ->
  dget s (u "boundary-detection-mechanism") = Some (VStr (u "left-right")) -> In (u "line-machine") (dkeys s) ->
  exists rl, f_line f = Some rl /\ ((exists l, In l lines /\ rx_match rl l = None) -> file_events rx_match f lines = Err AttributeError).
Proof. exact @left_right_lines. Qed.
Print Assumptions C100_left_right_refuted.
(** Refuted: a type-, colloc- or token-line-machine alone is accepted, but no file can be read with it. *)
Theorem C100_other_machines_refuted : forall RX L M (compile : pystr -> res RX) (rx_match : RX -> L -> option M) s f s' lines, fmt_init compile s = (Ok f, s') ->
  ~ In (u "line-machine") (dkeys s) -> lines <> [] -> file_events rx_match f lines = Err AttributeError.
Proof. exact @other_machine_lines. Qed.
Print Assumptions C100_other_machines_refuted.
(** Refuted: beside a line-machine, the other machines are never compiled. *)
Theorem C100_forms_refuted : forall RX L M (compile : pystr -> res RX) (rx_match : RX -> L -> option M) s f s' line x, fmt_init compile s = (Ok f, s') ->
  In (u "line-machine") (dkeys s) -> In x [u "type"; u "colloc"; u "token"] -> match_line rx_match f line (Some x) = Err AttributeError.
Proof. exact @form_lines. Qed.
Print Assumptions C100_forms_refuted.
Example C100_ex : file_events ex_match ex_fmt [u "<artikel>"; ex_line; u "</artikel>"] = Ok [ESkip; EMatch ex_line; ESep].
Proof. vm_compute. reflexivity. Qed.
Definition ex_sett_lr : settings := dset (dset (dset ex_sett (u "boundary-detection-mechanism") (VStr (u "left-right"))) (u "left-boundary-machine") (VStr (u "<artikel>"))) (u "right-boundary-machine") (VStr (u "</artikel>")).
Example C100_ex_left_right : match fst (fmt_init ex_compile ex_sett_lr) with Ok f => file_events ex_match f [ex_line; u "<artikel>"] = Err AttributeError | Err _ => False end.
Proof. vm_compute. reflexivity. Qed.
Definition ex_sett_type : settings := (u "type-line-machine", VStr (u "fields")) :: filter (fun kv => negb (eqb (fst kv) (u "line-machine"))) ex_sett.
Example C100_ex_other : match fst (fmt_init ex_compile ex_sett_type) with Ok f => file_events ex_match f [ex_line] = Err AttributeError | Err _ => False end.
Proof. vm_compute. reflexivity. Qed.

(** ** C101: constructing a formatter leaves the settings alone. *)
Theorem C101_others_partial : forall RX (compile : pystr -> res RX) s k, k <> u "colloc" -> dget (snd (fmt_init compile s)) k = dget s k.
Proof. exact @settings_kept. Qed.
Print Assumptions C101_others_partial.
Theorem C101_colloc_partial : forall RX (compile : pystr -> res RX) s, In (u "colloc") (dkeys s) -> snd (fmt_init compile s) = s.
Proof. exact @settings_kept_colloc. Qed.
Print Assumptions C101_colloc_partial.
(** Refuted: without 'colloc' the type format is written into the dict that was passed. *)
Theorem C101_colloc_refuted : forall RX (compile : pystr -> res RX) s f s', fmt_init compile s = (Ok f, s') -> ~ In (u "colloc") (dkeys s) ->
  exists ty, dget s (u "type") = Some (VStr ty) /\ dget s' (u "colloc") = Some (VStr ty) /\ dget s (u "colloc") = None.
Proof. exact @settings_changed. Qed.
Print Assumptions C101_colloc_refuted.
(** A formatter built later from the same dict, after changing the type format to word/pos, still counts collocates as lemma/pos. *)
Example C101_ex : let s' := dset (snd (fmt_init ex_compile ex_sett)) (u "type") (VStr (u "word/pos")) in
  match fst (fmt_init ex_compile s') with Ok f => get_type ex_group f ex_line = Ok (u "Cats/N") /\ get_colloc ex_group f ex_line = Ok (u "cat/N") | Err _ => False end.
Proof. vm_compute. auto. Qed.

(** ** C60: lists of file names. *)
Theorem C60_read_fnames : forall read_lines dirn n dirname enc lines, (dirn = [] \/ exists d, dirn = d ++ [slash]) -> good_name n -> ~ In dot n ->
  read_lines (dirn ++ n ++ u ".fnames") enc = Ok lines ->
  exists r, reads dirname lines r /\ read_fnames read_lines (dirn ++ n) dirname enc = Ok r /\ read_fnames read_lines (dirn ++ n ++ u ".fnames") dirname enc = Ok r.
Proof. exact (fun rl => @read_fnames_both rl (fun _ => None)). Qed.
Print Assumptions C60_read_fnames.
Theorem C60_functional : forall d lines r r', reads d lines r -> reads d lines r' -> r = r'.
Proof. exact @reads_fun. Qed.
Print Assumptions C60_functional.
(** Refuted for handlers: prepare_fnames(str) puts base names into a directory named like the file encoding, and the list is
    always decoded as UTF-8. *)
Theorem C60_prepare_refuted : forall read_lines lookup cp enc filename lines, snd (splitext filename) = u ".fnames" -> read_lines filename (u "utf-8") = Ok lines ->
  exists r, prepare_fnames read_lines lookup cp enc (FStr filename) = Ok r /\ reads enc lines r /\
    ((exists l, In l lines /\ strip l <> [] /\ hd_error (strip l) <> Some 35%N /\ ~ In slash (strip l)) -> forall d, d <> enc -> ~ reads d lines r).
Proof.
  intros rl lk cp enc filename lines E R. destruct (prepare_reads rl lk cp enc filename lines E R) as (r & A & B). exists r. split; [auto|]. split; [auto|].
  intros X d N C. apply N. eapply reads_dir; eauto.
Qed.
Print Assumptions C60_prepare_refuted.
(** Given a list, or nothing, the files are those of the list or of the corpus directory. *)
Theorem C60_prepare_other : forall read_lines lookup p enc l, prepare_fnames read_lines lookup (Some p) enc (FList l) = Ok l /\
  (forall d, lookup p = Some d -> exists r, prepare_fnames read_lines lookup (Some p) enc FNone = Ok r /\ forall x, In x r <-> exists q, file_in d q /\ x = path_str p q) /\
  (* neither a list nor a string; no list and no corpus path *)
  (forall cp, prepare_fnames read_lines lookup cp enc FOther = Err ValueError) /\ prepare_fnames read_lines lookup None enc FNone = Err TypeError.
Proof.
  intros. split; [reflexivity|]. split; [|now split]. intros d E. unfold prepare_fnames, read_fnames_of_corpus. rewrite E. eexists. split; [reflexivity|]. apply walk_In.
Qed.
Print Assumptions C60_prepare_other.
Definition ex_lines : list pystr := [u "# my files"; u " a.txt "; u ""; u "/data/b.txt"; u "c.txt"].
Definition ex_read (f enc : pystr) : res (list pystr) := if eqdec f (u "lists/l1.fnames") then Ok ex_lines else Err IOError.
Example C60_ex : read_fnames ex_read (u "lists/l1") (u "/corpus") (u "utf-8") = Ok [u "/corpus/a.txt"; u "/data/b.txt"; u "/corpus/c.txt"] /\
  prepare_fnames ex_read (fun _ => None) (Some (u "/corpus")) (u "latin1") (FStr (u "lists/l1.fnames")) = Ok [u "latin1/a.txt"; u "/data/b.txt"; u "latin1/c.txt"] /\
  read_fnames ex_read (u "lists/l1") (u "") (u "utf-8") = Ok [u "/a.txt"; u "/data/b.txt"; u "/c.txt"].
Proof. vm_compute. auto. Qed.

(** ** C104: the files of a corpus directory. *)
Theorem C104_files : forall root d x, In x (walk_files root d) <-> exists p, file_in d p /\ x = path_str root p.
Proof. exact @walk_In. Qed.
Print Assumptions C104_files.
Theorem C104_once : forall root d, good_dir d -> NoDup (walk_files root d).
Proof. exact @walk_NoDup. Qed.
Print Assumptions C104_once.
(** Files of a directory whose path is smaller come first. *)
Theorem C104_order : forall root d q1 f1 q2 f2 i j, good_dir d -> file_in d (q1 ++ [f1]) -> file_in d (q2 ++ [f2]) ->
  nth_error (walk_files root d) i = Some (path_str root (q1 ++ [f1])) -> nth_error (walk_files root d) j = Some (path_str root (q2 ++ [f2])) ->
  sltb (path_str root q1) (path_str root q2) = true -> i < j.
Proof. exact @walk_order. Qed.
Print Assumptions C104_order.
(** The order in which the system lists subdirectories does not matter... *)
Theorem C104_listing_partial : forall root d d', good_dir d -> same_dir eq d d' -> walk_files root d = walk_files root d'.
Proof. exact @same_files_eq. Qed.
Print Assumptions C104_listing_partial.
Theorem C104_listing_set_partial : forall root d d', same_dir (@Permutation pystr) d d' -> Permutation (walk_files root d) (walk_files root d').
Proof. exact @same_files_perm. Qed.
Print Assumptions C104_listing_set_partial.
(** ... but that of files does: the list is not the same on every machine. *)
Theorem C104_listing_refuted : exists root d d', good_dir d /\ same_dir (@Permutation pystr) d d' /\ walk_files root d <> walk_files root d'.
Proof.
  exists (u "/c"), (Dir [u "a"; u "b"] []), (Dir [u "b"; u "a"] []). split; [|split].
  - constructor.
    + cbn [map app]. constructor; [|constructor; [|constructor]]; cbn; intuition discriminate.
    + cbn [map app]. constructor; [|constructor; [|constructor]]; (split; [discriminate|cbn; intuition discriminate]).
    + intros ? ? [].
  - econstructor; [apply perm_swap|constructor|constructor].
  - vm_compute. discriminate.
Qed.
Print Assumptions C104_listing_refuted.
(** Refuted: a corpus path that does not exist is an empty corpus. *)
Theorem C104_missing_refuted : forall read_lines lookup p enc, lookup p = None -> prepare_fnames read_lines lookup (Some p) enc FNone = Ok [].
Proof. intros read_lines lookup p enc E. unfold prepare_fnames, read_fnames_of_corpus. rewrite E. reflexivity. Qed.
Print Assumptions C104_missing_refuted.
Definition ex_dir : dir := Dir [u "readme"] [(u "y2", Dir [u "d"; u "c"] []); (u "y1", Dir [u "a"] [(u "z", Dir [u "b"] [])])].
Example C104_ex : walk_files (u "/c") ex_dir = [u "/c/readme"; u "/c/y1/a"; u "/c/y1/z/b"; u "/c/y2/d"; u "/c/y2/c"].
Proof. vm_compute. reflexivity. Qed.
Example C104_ex_good : good_dir ex_dir.
Proof.
  assert (G : forall n, In n [u "readme"; u "y1"; u "y2"; u "a"; u "b"; u "c"; u "d"; u "z"] -> good_name n) by (intros n Hn; cbn in Hn; repeat destruct Hn as [<-|Hn]; try contradiction; split; [discriminate|cbn; intuition discriminate|..]; try discriminate; cbn; intuition discriminate).
  assert (Nd2 : forall a b : pystr, a <> b -> NoDup [a; b]) by (intros a b N; constructor; [intros [X|[]]; congruence|constructor; [easy|constructor]]).
  assert (Nd1 : forall a : pystr, NoDup [a]) by (intros a; constructor; [easy|constructor]).
  unfold ex_dir. constructor.
  - cbn [map app fst]. constructor; [cbn; intuition discriminate|]. apply Nd2. discriminate.
  - cbn [map app fst]. repeat apply Forall_cons; try apply Forall_nil; apply G; cbn; tauto.
  - intros n d [E|[E|[]]]; injection E as <- <-.
    + constructor; [cbn [map app]; apply Nd2; discriminate|cbn [map app]; repeat apply Forall_cons; try apply Forall_nil; apply G; cbn; tauto|intros ? ? []].
    + constructor; [cbn [map app fst]; apply Nd2; discriminate|cbn [map app fst]; repeat apply Forall_cons; try apply Forall_nil; apply G; cbn; tauto|].
      intros n d [E|[]]; injection E as <- <-. constructor; [cbn [map app]; apply Nd1|cbn [map app]; repeat apply Forall_cons; try apply Forall_nil; apply G; cbn; tauto|intros ? ? []].
Qed.

(** ** C105: tokens of different files have different file identifiers. *)
Theorem C105_extension_partial : forall a b, fid_of a = fid_of b -> a <> b -> snd (splitext a) <> snd (splitext b).
Proof. exact @fid_equal. Qed.
Print Assumptions C105_extension_partial.
(** Refuted: files that differ in the extension only have the same identifier. *)
Theorem C105_same_stem_refuted : forall dirn n e e', (dirn = [] \/ exists d, dirn = d ++ [slash]) -> ~ In slash n -> (exists c, In c n /\ c <> dot) ->
  ~ In dot e -> ~ In slash e -> ~ In dot e' -> ~ In slash e' -> fid_of (dirn ++ n ++ dot :: e) = fid_of (dirn ++ n ++ dot :: e').
Proof. exact @fid_same_stem. Qed.
Print Assumptions C105_same_stem_refuted.
Example C105_ex : fid_of (u "y1/a.b.txt") = u "y1/a.b" /\ fid_of (u "y1/a.b.xml") = u "y1/a.b" /\ fid_of (u "y.1/.hid") = u "y.1/.hid" /\ fid_of (u "plain") = u "plain".
Proof. vm_compute. auto. Qed.

(** ** C102: where a handler keeps its temporary files. *)
Theorem C102_tmp_path_partial : forall RX (compile : pystr -> res RX) tmpdir tmpcomps indicator s fs h t, fst (handler_init compile tmpdir tmpcomps indicator s fs) = Ok h ->
  dget s (u "tmp-path") = Some (VStr t) -> h_tmp h = path_join t indicator.
Proof. exact @tmp_given. Qed.
Print Assumptions C102_tmp_path_partial.
(** Refuted: with an output path only, the default directory is used and not a subdirectory of the output path. *)
Theorem C102_output_path_refuted : forall RX (compile : pystr -> res RX) tmpdir tmpcomps indicator s fs h o, fst (handler_init compile tmpdir tmpcomps indicator s fs) = Ok h ->
  dget s (u "tmp-path") = None -> dget s (u "output-path") = Some (VStr o) -> h_tmp h = path_join tmpdir indicator /\ h_output h = o.
Proof. exact @output_only. Qed.
Print Assumptions C102_output_path_refuted.
(** Refuted: with neither path, as in the default configuration, no handler can be constructed. *)
Theorem C102_no_path_refuted : forall RX (compile : pystr -> res RX) tmpdir tmpcomps indicator s fs f s', fmt_init compile s = (Ok f, s') ->
  dget s (u "tmp-path") = None -> dget s (u "output-path") = None -> fst (handler_init compile tmpdir tmpcomps indicator s fs) = Err KeyError.
Proof. exact @no_paths. Qed.
Print Assumptions C102_no_path_refuted.
Definition ex_handler (s : settings) := handler_init ex_compile (u "/home/me/tmp") [u "home"; u "me"; u "tmp"] (u "col.freq") s [[u "home"; u "me"; u "tmp"; u "thesis.doc"]; [u "home"; u "me"; u "tmp.txt"]].
Example C102_ex : rmap h_tmp (fst (ex_handler (dset ex_sett (u "tmp-path") (VStr (u "/scratch"))))) = Ok (u "/scratch/col.freq") /\
  rmap h_tmp (fst (ex_handler (dset ex_sett (u "output-path") (VStr (u "/out"))))) = Ok (u "/home/me/tmp/col.freq") /\ rmap h_tmp (fst (ex_handler ex_sett)) = Err KeyError.
Proof. vm_compute. auto. Qed.

(** ** C103: constructing a handler leaves files alone.  Refuted: all files below ~/tmp are removed, whatever the settings and
    even if the construction fails; exactly those. *)
Theorem C103_construct_refuted : forall RX (compile : pystr -> res RX) tmpdir tmpcomps indicator s fs p,
  In p (snd (handler_init compile tmpdir tmpcomps indicator s fs)) <-> In p fs /\ ~ (exists q, q <> [] /\ p = tmpcomps ++ q).
Proof. exact @construct_files. Qed.
Print Assumptions C103_construct_refuted.
Example C103_ex : snd (ex_handler (dset ex_sett (u "tmp-path") (VStr (u "/scratch")))) = [[u "home"; u "me"; u "tmp.txt"]] /\ snd (ex_handler []) = [[u "home"; u "me"; u "tmp.txt"]].
Proof. vm_compute. auto. Qed.
