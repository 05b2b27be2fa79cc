(** * Temporary directories of simultaneous processes: make_dir (utils.py:86-90), Paralleler.__init__ (handler.py:86-94),
      subtmpdir (handler.py:100-107) and the files of the workers (typetoken.py:276-283, 322-329 and 448-473).

    Paths are lists of components; the root [] always exists.  One step is one call of the operating system, and nothing is said
    about which process goes next. *)
From Coq Require Import String NArith ZArith Bool Arith List.
From Verif Require Import Base Str ConfModel.
Import ListNotations.
Local Open Scope string_scope.
Local Open Scope nat_scope.
Local Open Scope list_scope.

Notation path := (list pystr).
Definition exists_dir (fs : list path) (p : path) : bool := match p with [] => true | _ => mem p fs end.
(** Where a call of make_dir(d) is.  os.makedirs looks for the first existing parent and then makes the missing directories one by
    one, the last one being d; FileExistsError is ignored for all but d (os.py of CPython 3). *)
Inductive mstate :=
| Test (d : path)               (* os.path.exists(d) comes next *)
| Up (todo : list path)         (* os.path.exists(parent of the first) comes next *)
| Down (todo : list path)       (* os.mkdir(the first) comes next *)
| Done
| Raised (e : err).
Definition mk_step (fs : list path) (s : mstate) : option (list path * mstate) :=
  match s with
  | Test d => Some (fs, if exists_dir fs d then Done else Up [d])
  | Up [] => None
  | Up (p :: todo) => Some (fs, if exists_dir fs (removelast p) then Down (p :: todo) else Up (removelast p :: p :: todo))
  | Down [] => None
  | Down (p :: todo) =>
      if exists_dir fs p then Some (fs, match todo with [] => Raised IOError | _ => Down todo end)
      else if exists_dir fs (removelast p) then Some (p :: fs, match todo with [] => Done | _ => Down todo end)
      else Some (fs, Raised IOError)
  | Done | Raised _ => None
  end.
(** Several calls at once *)
Record mworld := MW { mw_fs : list path; mw_calls : list mstate }.
Fixpoint set_nth {A} (l : list A) (i : nat) (x : A) : list A :=
  match l, i with [], _ => [] | _ :: l, O => x :: l | y :: l, S i => y :: set_nth l i x end.
Inductive mw_step : mworld -> mworld -> Prop :=
| mws : forall fs cs i s fs' s', nth_error cs i = Some s -> mk_step fs s = Some (fs', s') -> mw_step (MW fs cs) (MW fs' (set_nth cs i s')).
(** Runs of so many steps *)
Inductive mw_run : nat -> mworld -> mworld -> Prop :=
| mwr_refl : forall w, mw_run 0 w w
| mwr_step : forall n w w' w'', mw_run n w w' -> mw_step w' w'' -> mw_run (S n) w w''.

(** ** Runs of the library at the same time *)
Section Runs.
  Context {D : Type}.
  (** nephosem.tmpdir (~/tmp), which every construction of a handler empties, and the temporary directory of the run to which the worker
      with a process number belongs (h_tmp in ConfModel: below ~/tmp unless the settings have a tmp-path) *)
  Variable tmp : path.
  Variable base : nat -> path.
  (** Steps: some run constructs its handler (make_dir and clean_dir, taken as one step); the worker with the process number w asks
      for its directory; the worker saves its matrix; the main process of its run reads it. *)
  Inductive event := Init | Mk (w : nat) | Save (w : nat) (x : D) | Load (w : nat).
  Definition wdir (w : nat) : path := base w ++ [str_of_Z (Z.of_nat w)].
  Definition wfile (w : nat) : path := wdir w ++ [u "sub.0"].
  Record tfs := TFS { t_dirs : list path; t_files : dict path D }.
  (** What a step does to the file system, and what it returns; saving needs the directory, loading the file. *)
  Definition t_step (fs : tfs) (e : event) : tfs * res (option D) :=
    match e with
    | Init => (TFS (tmp :: clean_dir tmp (t_dirs fs)) (filter (fun kv => negb (under tmp (fst kv))) (t_files fs)), Ok None)
    | Mk w => (TFS (wdir w :: t_dirs fs) (t_files fs), Ok None)
    | Save w x => if mem (wdir w) (t_dirs fs) then (TFS (t_dirs fs) (dset (t_files fs) (wfile w) x), Ok None) else (fs, Err IOError)
    | Load w => (fs, match dget (t_files fs) (wfile w) with Some x => Ok (Some x) | None => Err IOError end)
    end.
  Definition t_run (fs : tfs) (evs : list event) : tfs := fold_left (fun fs e => fst (t_step fs e)) evs fs.
End Runs.
Arguments event : clear implicits.
Arguments tfs : clear implicits.
