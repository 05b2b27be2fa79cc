(** * Model of configuration loading (nephosem/conf.py), the corpus formatter (nephosem/core/terms.py),
      the construction of handlers and the choice of corpus files (nephosem/core/handler.py,
      nephosem/utils.py). *)
From Coq Require Import String NArith ZArith Bool Arith List.
From Verif Require Import Base Str VocabModel.
Import ListNotations.
Local Open Scope string_scope.
Local Open Scope nat_scope.
Local Open Scope list_scope.

(** Values of a settings dict. *)
Inductive value := VStr (s : pystr) | VInt (z : Z) | VNone.
Notation settings := (dict pystr value).

(** ** ConfigLoader, conf.py:39-104 *)
(** Contents of a parsed INI file: the options of the section DEFAULT and the other sections in order.
    Section names are distinct (configparser raises DuplicateSectionError). *)
Record ini := Ini { i_default : dict pystr pystr; i_sects : list (pystr * dict pystr pystr) }.
Definition ini_empty : ini := {| i_default := []; i_sects := [] |}.

(** [config.options(sect)]: own options first, then those of DEFAULT (configparser copies and updates). *)
Definition options (c : ini) (opts : dict pystr pystr) : list pystr := dkeys (dupdate opts (i_default c)).
(** The raw value behind [config.get(sect, opt)]: the section's own value, else the DEFAULT one. *)
Definition raw (c : ini) (opts : dict pystr pystr) (o : pystr) : option pystr :=
  match dget opts o with Some v => Some v | None => dget (i_default c) o end.

Section Config.
  (** configparser's interpolation of percent signs: arbitrary, may raise. *)
  Variable interp : ini -> pystr -> pystr -> res pystr.
  (** The file system seen by [config.read]: [None] for a file that cannot be opened, which is skipped;
      [Some (Err e)] for a file that is not in INI format. *)
  Variable files : pystr -> option (res ini).

  (** [config.get(sect, opt)] *)
  Definition cfg_get (c : ini) (opts : dict pystr pystr) (sect o : pystr) : res pystr :=
    match raw c opts o with None => Err KeyError | Some v => interp c sect v end.

  (** ConfigLoader.read_params, conf.py:67-75.  The comparison with -1 has no effect. *)
  Definition read_params (c : ini) (opts : dict pystr pystr) (sect o : pystr) (sett : settings) : res settings :=
    match cfg_get c opts sect o with
    | Ok v => Ok (dset sett o (VStr v))
    | Err ValueError => Ok (dset sett o VNone)
    | Err e => Err e
    end.

  (** [int(v)] *)
  Definition to_int (v : option value) : res value :=
    match v with
    | Some (VStr s) => rmap VInt (int_of_str s)
    | Some (VInt z) => Ok (VInt z)
    | Some VNone => Err TypeError
    | None => Err KeyError
    end.

  (** Body of the loops at conf.py:88-93. *)
  Definition load_option (c : ini) (sect : pystr) (opts : dict pystr pystr) (sett : settings) (o : pystr) : res settings :=
    rbind (read_params c opts sect o sett) (fun sett =>
      if eqdec sect (u "Span") then rmap (dset sett o) (to_int (dget sett o)) else Ok sett).
  Definition load_section (c : ini) (sett : settings) (s : pystr * dict pystr pystr) : res settings :=
    rfold (load_option c (fst s) (snd s)) (options c (snd s)) sett.

  (** ConfigLoader.load_config, conf.py:77-95 *)
  Definition load_config (fname : pystr) : res settings :=
    match files fname with
    | None => Ok []
    | Some (Err e) => Err e
    | Some (Ok c) => rfold (load_section c) (i_sects c) []
    end.

  (** Python dicts are mutable objects: a heap of settings dicts, addressed by position. *)
  Definition heap := list settings.
  Definition deref (h : heap) (r : nat) : settings := nth r h [].
  Definition alloc (h : heap) (s : settings) : heap * nat := (h ++ [s], length h).
  Definition assign (h : heap) (r : nat) (k : pystr) (v : value) : heap :=
    firstn r h ++ match skipn r h with [] => [] | s :: t => dset s k v :: t end.

  (** The [settings] property, conf.py:63-65: a copy. *)
  Definition loader_settings (h : heap) (self : nat) : heap * nat := alloc h (deref h self).

  (** ConfigLoader.update_config, conf.py:97-104.  Keys and values are immutable, so that [deepcopy]
      is a copy of the dict. *)
  Definition update_config (h : heap) (self : nat) (fname : pystr) : heap * res nat :=
    match load_config fname with
    | Err e => (h, Err e)
    | Ok sett =>
        let (h, sett_ref) := alloc h sett in
        let (h, r0) := loader_settings h self in
        let (h, r) := alloc h (deref h r0) in
        (fold_left (fun h kv => assign h r (fst kv) (snd kv)) (deref h sett_ref) h, Ok r)
    end.
End Config.

(** ** CorpusFormatter, terms.py:571-687 *)
(** [settings[k]] *)
Definition sget (s : settings) (k : pystr) : res value := match dget s k with Some v => Ok v | None => Err KeyError end.
(** [v.split(c)] *)
Definition vsplit (c : N) (v : value) : res (list pystr) := match v with VStr x => Ok (split c x) | _ => Err AttributeError end.
Definition comma : N := 44%N.

Section Formatter.
  (** [re.compile], [pattern.match] and [match.group]: arbitrary.  A group that took no part in the match
      is [None]. *)
  Context {RX L M : Type}.
  Variable compile : pystr -> res RX.
  Variable rx_match : RX -> L -> option M.
  Variable group : M -> nat -> res (option pystr).

  Definition vcompile (v : value) : res RX := match v with VStr x => compile x | _ => Err TypeError end.
  Definition compile_key (s : settings) (k : pystr) : res RX := rbind (sget s k) vcompile.

  Record fmt := Fmt {
    f_line : option RX; f_tline : option RX; f_cline : option RX; f_kline : option RX;
    f_single : option RX; f_left : option RX; f_right : option RX;
    f_cols : dict pystr nat;
    f_type : list nat; f_token : list nat; f_colloc : list nat }.

  (** terms.py:576-585 *)
  Definition init_lines (s : settings) : res (option RX * option RX * option RX * option RX) :=
    if dmem s (u "line-machine") then rmap (fun r => (Some r, None, None, None)) (compile_key s (u "line-machine"))
    else if dmem s (u "type-line-machine") then rmap (fun r => (None, Some r, None, None)) (compile_key s (u "type-line-machine"))
    else if dmem s (u "colloc-line-machine") then rmap (fun r => (None, None, Some r, None)) (compile_key s (u "colloc-line-machine"))
    else if dmem s (u "token-line-machine") then rmap (fun r => (None, None, None, Some r)) (compile_key s (u "token-line-machine"))
    else Err ValueError.

  (** terms.py:587-606 *)
  Definition init_bounds (s : settings) : res (option RX * option RX * option RX) :=
    rbind (sget s (u "boundary-detection-mechanism")) (fun mech =>
      match mech with
      | VStr m =>
          if eqdec m (u "single") then
            if dmem s (u "single-boundary-machine") then
              rmap (fun r => (Some r, None, None)) (compile_key s (u "separator-line-machine"))
            else if dmem s (u "separator-line-machine") then
              rmap (fun r => (Some r, None, None)) (compile_key s (u "single-boundary-machine"))
            else Err KeyError
          else if eqdec m (u "left-right") then
            if negb (dmem s (u "left-boundary-machine")) then Err KeyError
            else if negb (dmem s (u "right-boundary-machine")) then Err KeyError
            else rbind (compile_key s (u "left-boundary-machine")) (fun l =>
                 rmap (fun r => (None, Some l, Some r)) (compile_key s (u "right-boundary-machine")))
          else Err ValueError
      | _ => Err ValueError
      end).

  (** terms.py:608-614; [settings.get(k, None)] gives None both for an absent key and a None value. *)
  Definition get_opt (s : settings) (k : pystr) : option value :=
    match dget s k with None | Some VNone => None | Some v => Some v end.
  Definition init_columns (s : settings) : res (list pystr) :=
    match get_opt s (u "global-columns") with
    | Some v => vsplit comma v
    | None => match get_opt s (u "line-format") with
              | Some v => vsplit comma v
              | None => Err ValueError
              end
    end.
  (** terms.py:615: dict comprehension, so that of two equal column names the last one counts. *)
  Definition col2id (cols : list pystr) : dict pystr nat := dict_of (combine cols (seq 1 (length cols))).
  Definition col_ids (ids : dict pystr nat) (names : list pystr) : res (list nat) :=
    rmapm (fun e => match dget ids e with Some i => Ok i | None => Err KeyError end) names.

  (** [l[:-2]] *)
  Definition drop_last2 {A} (l : list A) : list A := firstn (length l - 2) l.

  (** CorpusFormatter.__init__, terms.py:574-638.  Also returns the settings dict, which gets a key
      'colloc'.  Simplified: the node and edge attributes and the stored copy of the settings are left
      out; a column whose name collides with an attribute of the object ("single_bound_machine") is not
      considered. *)
  Definition fmt_init (s : settings) : res fmt * settings :=
    match (rbind (init_lines s) (fun ls => rbind (init_bounds s) (fun bs =>
           rbind (init_columns s) (fun cols =>
           let ids := col2id cols in
           rbind (sget s (u "type")) (fun ty => rbind (vsplit slash ty) (fun tyl =>
           rbind (col_ids ids tyl) (fun tyi =>
           rbind (sget s (u "token")) (fun tk => rbind (vsplit slash tk) (fun tkl =>
           rbind (col_ids ids (drop_last2 tkl)) (fun tki => Ok (ls, bs, ids, ty, tyi, tki)))))))))))
    with
    | Err e => (Err e, s)
    | Ok (ls, bs, ids, ty, tyi, tki) =>
        let s := if dmem s (u "colloc") then s else dset s (u "colloc") ty in
        (rbind (sget s (u "colloc")) (fun co => rbind (vsplit slash co) (fun col =>
         rmap (fun coi =>
           let '(l1, l2, l3, l4) := ls in let '(b1, b2, b3) := bs in
           {| f_line := l1; f_tline := l2; f_cline := l3; f_kline := l4;
              f_single := b1; f_left := b2; f_right := b3;
              f_cols := ids; f_type := tyi; f_token := tki; f_colloc := coi |}) (col_ids ids col))), s)
    end.

  Definition rx_attr (o : option RX) (line : L) : res (option M) :=
    match o with Some r => Ok (rx_match r line) | None => Err AttributeError end.

  (** CorpusFormatter.match_line, terms.py:640-650; [form] None or the empty string takes the first branch. *)
  Definition match_line (f : fmt) (line : L) (form : option pystr) : res (option M) :=
    match form with
    | None | Some [] => rx_attr (f_line f) line
    | Some x =>
        if eqdec x (u "type") then rx_attr (f_tline f) line
        else if eqdec x (u "colloc") then rx_attr (f_cline f) line
        else if eqdec x (u "token") then rx_attr (f_kline f) line
        else Err NotImplementedError
    end.

  (** separator_line_machine, terms.py:652-653 (and single_bound_machine, 661-662). *)
  Definition separator_line_machine (f : fmt) (line : L) : res (option M) := rx_attr (f_single f) line.

  (** [self.connector.join(l)] on groups: None is no string. *)
  Definition join_groups (l : list (option pystr)) : res pystr :=
    rmap (join slash) (rmapm (fun o => match o with Some s => Ok s | None => Err TypeError end) l).
  (** get_type 676-678, get_colloc 685-687 *)
  Definition get_type (f : fmt) (m : M) : res pystr := rbind (rmapm (group m) (f_type f)) join_groups.
  Definition get_colloc (f : fmt) (m : M) : res pystr := rbind (rmapm (group m) (f_colloc f)) join_groups.
  (** get_token 680-683; [fid] and [lid] are passed as strings or as None. *)
  Definition get_token (f : fmt) (m : M) (fid lid : option pystr) : res pystr :=
    rbind (rmapm (group m) (f_token f)) (fun g => join_groups (g ++ [fid; lid])).
  (** CorpusFormatter.get, terms.py:664-674: an unknown column is taken as group 0, the whole match. *)
  Definition fmt_get (f : fmt) (m : M) (column : pystr) (fid lid : option pystr) : res (option pystr) :=
    if eqdec column (u "type") then rmap Some (get_type f m)
    else if eqdec column (u "colloc") then rmap Some (get_colloc f m)
    else if eqdec column (u "token") then rmap Some (get_token f m fid lid)
    else group m (match dget (f_cols f) column with Some i => i | None => 0 end).

  (** What update_one_file makes of each line, handler.py:325-338: a match, a separator or neither. *)
  Inductive event := EMatch (m : M) | ESep | ESkip.
  Definition line_event (f : fmt) (line : L) : res event :=
    rbind (match_line f line None) (fun o =>
      match o with
      | Some m => Ok (EMatch m)
      | None => rmap (fun o => match o with Some _ => ESep | None => ESkip end) (separator_line_machine f line)
      end).
  Definition file_events (f : fmt) (lines : list L) : res (list event) := rmapm (line_event f) lines.
End Formatter.

(** ** os.path *)
Definition dot : N := 46%N.
(** [os.path.join(a, b)], posixpath *)
Definition path_join (a b : pystr) : pystr :=
  match b with
  | c :: _ => if eqdec c slash then b else
      match rev a with [] => b | d :: _ => if eqdec d slash then a ++ b else a ++ slash :: b end
  | [] => match rev a with [] => b | d :: _ => if eqdec d slash then a ++ b else a ++ slash :: b end
  end.
(** [s.rfind(c)] *)
Definition rfind (c : N) (s : pystr) : option nat :=
  match index_of c (rev s) with Some i => Some (length s - 1 - i) | None => None end.
(** [os.path.splitext(p)] (genericpath._splitext): the dot must come after the last slash and after a
    character of the file name other than a dot. *)
Definition splitext (p : pystr) : pystr * pystr :=
  match rfind dot p with
  | None => (p, [])
  | Some d =>
      let start := match rfind slash p with Some i => S i | None => 0 end in
      if start <=? d then
        if existsb (fun c => negb (c =? dot)%N) (firstn (d - start) (skipn start p)) then (firstn d p, skipn d p)
        else (p, [])
      else (p, [])
  end.

(** ** File name lists *)
Section Fnames.
  (** Lines of a text file decoded with the given encoding. *)
  Variable read_lines : pystr -> pystr -> res (list pystr).

  Definition hash : N := 35%N.
  (** read_fnames, utils.py:121-158.  Any failure to open the file is an IOError. *)
  Definition keep_line (l : pystr) : bool := match l with [] => false | c :: _ => negb (c =? hash)%N end.
  Definition read_fnames (filename dirname encoding : pystr) : res (list pystr) :=
    let filename := if eqdec (snd (splitext filename)) (u ".fnames") then filename else filename ++ u ".fnames" in
    rbind (read_lines filename encoding) (fun lines =>
      Ok (map (fun f => if mem slash f then f else dirname ++ slash :: f) (filter keep_line (map strip lines)))).

  (** A directory as os.walk sees it: files and subdirectories in the order the system lists them. *)
  Inductive dir := Dir (files : list pystr) (subs : list (pystr * dir)).
  (** [os.walk(root)]: the directory itself, then its subdirectories; the lists of subdirectory names are
      left out, they are never compared because roots are distinct. *)
  Fixpoint os_walk (root : pystr) (d : dir) : list (pystr * list pystr) :=
    match d with
    | Dir files subs =>
        (root, files) :: flat_map (fun s => os_walk (path_join root (fst s)) (snd s)) subs
    end.
  (** read_fnames_of_corpus, utils.py:161-175; [lookup] gives the directory at a path, if there is one.
      os.walk of something that is not a directory yields nothing. *)
  Variable lookup : pystr -> option dir.
  Definition walk_files (root : pystr) (d : dir) : list pystr :=
    flat_map (fun rf => map (path_join (fst rf)) (snd rf))
             (isort (fun a b => sleb (fst a) (fst b)) (os_walk root d)).
  Definition read_fnames_of_corpus (corpus_path : pystr) : list pystr :=
    match lookup corpus_path with None => [] | Some d => walk_files corpus_path d end.

  (** The argument of prepare_fnames. *)
  Inductive fnames_arg := FNone | FList (l : list pystr) | FStr (s : pystr) | FOther.
  (** BaseHandler.prepare_fnames, handler.py:275-299.  [corpus_path] None: os.walk(None) is a TypeError. *)
  Definition prepare_fnames (corpus_path : option pystr) (encoding : pystr) (a : fnames_arg) : res (list pystr) :=
    match a with
    | FNone => match corpus_path with Some p => Ok (read_fnames_of_corpus p) | None => Err TypeError end
    | FList l => Ok l
    | FStr f => read_fnames f encoding (u "utf-8")
    | FOther => Err ValueError
    end.

  (** handler.py:321: the file identifier is the path relative to the corpus without extension.
      [rel] is os.path.relpath of the file name. *)
  Definition fid_of (rel : pystr) : pystr := fst (splitext rel).
End Fnames.

(** ** Construction of a handler *)
Section Handler.
  Context {RX : Type}.
  Variable compile : pystr -> res RX.
  (** nephosem.tmpdir, __init__.py:30, as a string and as path components. *)
  Variable tmpdir : pystr.
  Variable tmpcomps : list pystr.

  (** Files of the file system as lists of path components. *)
  Notation path := (list pystr).
  Fixpoint is_prefix (d p : path) : bool :=
    match d, p with
    | [], _ => true
    | x :: d, y :: p => if eqdec x y then is_prefix d p else false
    | _ :: _, [] => false
    end.
  (** [p] lies in the directory [d] or below it. *)
  Definition under (d p : path) : bool := is_prefix d p && (length d <? length p).
  (** clean_dir, utils.py:93-105; simplified: all removals succeed. *)
  Definition clean_dir (d : path) (fs : list path) : list path := filter (fun p => negb (under d p)) fs.

  Record handler := Handler { h_fmt : fmt (RX:=RX); h_output : pystr; h_tmp : pystr; h_corpus : option pystr; h_encoding : pystr }.

  Definition vstr (v : value) : res pystr := match v with VStr s => Ok s | _ => Err TypeError end.
  Definition sget_str (s : settings) (k : pystr) : res pystr := rbind (sget s k) vstr.

  (** handler.py:251-268; values are taken to be strings. *)
  Definition choose_tmp (indicator : pystr) (s : settings) : res pystr :=
    rmap (fun d => path_join d indicator)
      (if negb (dmem s (u "tmp-path")) then
         if negb (dmem s (u "output-path")) then rmap (fun o => path_join o (u "tmp")) (sget_str s (u "output-path"))
         else Ok tmpdir
       else sget_str s (u "tmp-path")).

  Definition opt_str (s : settings) (k : pystr) (dflt : pystr) : res pystr :=
    if dmem s k then sget_str s k else Ok dflt.

  (** Paralleler.__init__ (handler.py:86-94) and BaseHandler.__init__ (handler.py:244-273): the result and
      the files left.  The settings are copied first, so that the caller's dict is unchanged. *)
  Definition handler_init (indicator : pystr) (s : settings) (fs : list path) : res handler * list path :=
    let fs := clean_dir tmpcomps fs in
    (let (f, s) := fmt_init compile s in
     rbind f (fun f =>
     rbind (opt_str s (u "output-path") tmpdir) (fun out =>
     rbind (choose_tmp indicator s) (fun tmp =>
     rbind (opt_str s (u "file-encoding") (u "utf-8")) (fun enc =>
     rmap (fun cp => {| h_fmt := f; h_output := out; h_tmp := tmp; h_corpus := cp; h_encoding := enc |})
       (if dmem s (u "corpus-path") then rmap Some (sget_str s (u "corpus-path")) else Ok None))))), fs).
End Handler.
