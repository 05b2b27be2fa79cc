(** * Logging: nephosem/logging.py.

    Modelled: the logger 'nephosem' with its console handler, log file handlers and handlers added by users, a record passing
    through them, [setLevel], [init_logging] and [change_log_file].
    The part of Python's own [logging] package that is involved is modelled from its documented behaviour:
    [Logger.isEnabledFor], [callHandlers], [addHandler], [removeHandler], [Formatter.format], [PercentStyle] and
    [StreamHandler.emit] (an exception while a record is formatted is reported on stderr and the record is not written).
    Simplified: messages are strings; handlers of the root logger, stderr, [logging.disable] and filters are left out; the root
    logger has its default level; file names are compared as given; writing to an open file never fails; the moment of a record
    is given as the text that [asctime] shows. *)
From Coq Require Import String NArith ZArith Bool Arith List.
From Verif Require Import Base Str.
Import ListNotations.
Local Open Scope string_scope.
Local Open Scope nat_scope.
Local Open Scope list_scope.

(** ** The [%] operator on a format and the attributes of a record (PercentStyle) *)
Inductive rval := RStr (x : pystr) | RInt (z : Z).
Inductive fmode := FText | FPct | FName (acc : pystr) | FConv (name : pystr).
(** [conv] % value; only the conversions that logging.py uses: %(name)s of a string and %(name)d of an integer. *)
Definition fconv (c : N) (v : rval) : res pystr :=
  match v with
  | RStr x => if N.eqb c 115 then Ok x else if N.eqb c 100 then Err TypeError else Err ValueError
  | RInt z => if N.eqb c 115 || N.eqb c 100 then Ok (str_of_Z z) else Err ValueError
  end.
Fixpoint expand (d : dict pystr rval) (m : fmode) (s : pystr) : res pystr :=
  match s with
  | [] => match m with FText => Ok [] | _ => Err ValueError end
  | c :: s' =>
      match m with
      | FText => if N.eqb c 37 then expand d FPct s' else rmap (cons c) (expand d FText s')
      | FPct => if N.eqb c 40 then expand d (FName []) s'
                else if N.eqb c 37 then rmap (cons 37%N) (expand d FText s') else Err ValueError
      | FName acc => if N.eqb c 41 then expand d (FConv acc) s' else expand d (FName (acc ++ [c])) s'
      | FConv k => match dget d k with
                   | None => Err KeyError
                   | Some v => rbind (fconv c v) (fun x => rmap (app x) (expand d FText s'))
                   end
      end
  end.

(** ** Records *)
Section Log.
  (** Arguments of a logging call, [msg % args], and which files can be opened for appending *)
  Context {A : Type} (merge : pystr -> A -> res pystr) (can_open : pystr -> bool).

  (** [r_own]: the level set on the logger the call is made on, 0 for the logger 'nephosem' itself and for the loggers of its
      modules; [r_exc]: the text of the exception ([logger.exception]). *)
  Record lrec := LRec { r_own : Z; r_lev : Z; r_msg : pystr; r_args : option A; r_module : pystr; r_line : Z;
                        r_time : pystr; r_exc : option pystr }.

  (** LogRecord.getMessage *)
  Definition get_message (r : lrec) : res pystr :=
    match r_args r with None => Ok (r_msg r) | Some a => merge (r_msg r) a end.

  (** logging.getLevelName *)
  Definition level_name (l : Z) : pystr :=
    if (l =? 50)%Z then u "CRITICAL" else if (l =? 40)%Z then u "ERROR" else if (l =? 30)%Z then u "WARNING"
    else if (l =? 20)%Z then u "INFO" else if (l =? 10)%Z then u "DEBUG" else if (l =? 0)%Z then u "NOTSET"
    else u "Level " ++ str_of_Z l.

  (** The attributes of a record that formats refer to, once [message] and [asctime] are set *)
  Definition rdict (r : lrec) (message : pystr) : dict pystr rval :=
    [(u "msg", RStr (r_msg r)); (u "levelname", RStr (level_name (r_lev r))); (u "levelno", RInt (r_lev r));
     (u "module", RStr (r_module r)); (u "lineno", RInt (r_line r)); (u "message", RStr message);
     (u "asctime", RStr (r_time r))].

  (** logging.Formatter.format: the message is put together first, then the format is applied, then the text of the exception
      follows on a line of its own. *)
  Definition fmt_format (fmt : pystr) (r : lrec) : res pystr :=
    rbind (get_message r) (fun message => rbind (expand (rdict r message) FText fmt) (fun s =>
      match r_exc r with
      | None => Ok s
      | Some [] => Ok s
      | Some x => Ok ((if N.eqb (last s 0%N) 10 then s else s ++ [10%N]) ++ x)
      end)).

  (** ** DefaultFormatter, logging.py:40-91 (the branch for Python 3) *)
  (** 43-46 *)
  Definition err_fmt := u "ERROR: %(msg)s".
  Definition wrn_fmt := u "WARNING: %(msg)s".
  Definition dbg_fmt := u "DEBUG: %(module)s: %(lineno)d: %(msg)s".
  Definition info_fmt := u "%(msg)s".
  (** 49 *)
  Definition init_fmt := u "%(levelno)d: %(msg)s".
  (** 55-91; the second component is the format the object holds afterwards: when formatting fails it is not put back. *)
  Definition default_format (fmt : pystr) (r : lrec) : res pystr * pystr :=
    let fmt' := if (r_lev r =? 10)%Z then dbg_fmt else if (r_lev r =? 30)%Z then wrn_fmt
                else if (r_lev r =? 20)%Z then info_fmt else if (r_lev r =? 40)%Z then err_fmt else fmt in
    match fmt_format fmt' r with
    | Ok s => (Ok s, fmt)
    | Err e => (Err e, fmt')
    end.

  (** ** Handlers and the logger *)
  (** The console handler holds its formatter (whose format changes); file handlers are known by the name of their file,
      handlers added by users by a number, with a level of their own. *)
  Inductive handler := HConsole (fmt : pystr) | HFile (fname : pystr) | HUser (id : nat) (level : Z).
  (** The level of a handler: 115, 130 and 159 *)
  Definition hlevel (h : handler) : Z := match h with HConsole _ => 10 | HFile _ => 30 | HUser _ l => l end%Z.
  (** 127 and 156 *)
  Definition file_fmt := u "%(asctime)s [%(levelname)s]: %(message)s".

  Record lstate := LState { l_level : Z; l_handlers : list handler; l_console : pystr; l_files : dict pystr pystr;
                            l_sinks : dict nat (list lrec) }.

  Definition contents (st : lstate) (f : pystr) : pystr := match dget (l_files st) f with Some x => x | None => [] end.
  Definition sink (st : lstate) (i : nat) : list lrec := match dget (l_sinks st) i with Some x => x | None => [] end.

  (** StreamHandler.emit: the handler afterwards, and the state whose outputs have grown. *)
  Definition emit (h : handler) (r : lrec) (st : lstate) : handler * lstate :=
    match h with
    | HConsole fmt =>
        let (x, fmt') := default_format fmt r in
        (HConsole fmt', match x with
                        | Ok s => LState (l_level st) (l_handlers st) (l_console st ++ s ++ [10%N]) (l_files st) (l_sinks st)
                        | Err _ => st
                        end)
    | HFile f =>
        (h, match fmt_format file_fmt r with
            | Ok s => LState (l_level st) (l_handlers st) (l_console st)
                             (dset (l_files st) f (contents st f ++ s ++ [10%N])) (l_sinks st)
            | Err _ => st
            end)
    | HUser i _ => (h, LState (l_level st) (l_handlers st) (l_console st) (l_files st) (dset (l_sinks st) i (sink st i ++ [r])))
    end.

  (** Logger.callHandlers: all handlers whose level the record reaches, in order *)
  Fixpoint call_handlers (hs : list handler) (r : lrec) (st : lstate) : list handler * lstate :=
    match hs with
    | [] => ([], st)
    | h :: hs' => let (h1, st1) := if (hlevel h <=? r_lev r)%Z then emit h r st else (h, st) in
                  let (hs2, st2) := call_handlers hs' r st1 in (h1 :: hs2, st2)
    end.

  (** Logger.getEffectiveLevel: the level of the logger, of 'nephosem', of the root logger (WARNING), whichever is set first *)
  Definition effective (own level : Z) : Z := if (own =? 0)%Z then (if (level =? 0)%Z then 30 else level)%Z else own.

  (** Logger.log: logger.debug, .info, .warning, .error, .critical, .exception *)
  Definition log (r : lrec) (st : lstate) : lstate :=
    if (effective (r_own r) (l_level st) <=? r_lev r)%Z then
      let (hs, st') := call_handlers (l_handlers st) r st in
      LState (l_level st') hs (l_console st') (l_files st') (l_sinks st')
    else st.

  Definition set_level (l : Z) (st : lstate) : lstate :=
    LState l (l_handlers st) (l_console st) (l_files st) (l_sinks st).
  Definition set_handlers (hs : list handler) (st : lstate) : lstate :=
    LState (l_level st) hs (l_console st) (l_files st) (l_sinks st).

  (** Logger.addHandler and removeHandler of a handler of the user *)
  Definition is_user (i : nat) (h : handler) : bool := match h with HUser j _ => i =? j | _ => false end.
  Definition add_user (i : nat) (l : Z) (st : lstate) : lstate :=
    if existsb (is_user i) (l_handlers st) then st else set_handlers (l_handlers st ++ [HUser i l]) st.
  Definition remove_user (i : nat) (st : lstate) : lstate :=
    set_handlers (filter (fun h => negb (is_user i h)) (l_handlers st)) st.

  (** logging.FileHandler(fname): the file is opened for appending at once, hence created when it does not exist. *)
  Definition open_file (f : pystr) (st : lstate) : res lstate :=
    if can_open f then Ok (LState (l_level st) (l_handlers st) (l_console st) (dset (l_files st) f (contents st f)) (l_sinks st))
    else Err IOError.

  (** create_file_handler, logging.py:142-160 *)
  Definition create_file_handler (f : pystr) (st : lstate) : res (handler * lstate) :=
    rmap (pair (HFile f)) (open_file f st).

  (** init_logging, logging.py:94-139; [home] is expanduser('~'). Simplified: ~/tmp exists or can be made whenever the file in it can be
      opened; 134-136 together: the list of handlers is emptied. *)
  Definition init_logging (home : pystr) (st : lstate) : lstate * res unit :=
    match open_file (home ++ u "/tmp/nephosem.log") st with
    | Err e => (st, Err e)
    | Ok st1 => (set_level 20 (set_handlers ([] ++ [HConsole init_fmt] ++ [HFile (home ++ u "/tmp/nephosem.log")]) st1), Ok tt)
    end.

  (** change_log_file, logging.py:163-182 *)
  Definition change_log_file (f : pystr) (st : lstate) : lstate * res unit :=
    match l_handlers st with
    | [] => (st, Err IndexError)                                                  (* 180: pop from empty list *)
    | _ => let st1 := set_handlers (removelast (l_handlers st)) st in             (* 180 *)
           match create_file_handler f st1 with                                   (* 181 *)
           | Err e => (st1, Err e)
           | Ok (h, st2) => (set_handlers (l_handlers st2 ++ [h]) st2, Ok tt)     (* 182 *)
           end
    end.

  (** What a program can do *)
  Inductive lop := OLog (r : lrec) | OLevel (l : Z) | OAdd (id : nat) (l : Z) | ORemove (id : nat) | OChange (f : pystr).
  Definition lstep (st : lstate) (o : lop) : lstate :=
    match o with
    | OLog r => log r st
    | OLevel l => set_level l st
    | OAdd i l => add_user i l st
    | ORemove i => remove_user i st
    | OChange f => fst (change_log_file f st)
    end.
  Definition lrun (ops : list lop) (st : lstate) : lstate := fold_left lstep ops st.
End Log.
Arguments LRec {A}.
Arguments LState {A}.
