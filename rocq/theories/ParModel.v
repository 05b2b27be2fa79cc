(** * Model of the process pool, nephosem/core/handler.py Paralleler, and of the three worker programs.

    Processes interact only through two FIFO queues of a multiprocessing manager; every [put] and [get] is one
    atomic step.  The work between two queue operations is local to a process, so it is fused with the preceding
    [get].  The scheduler is arbitrary: an execution is any list of actors, each taking one enabled step. *)
From Coq Require Import String NArith ZArith Bool Arith List.
From Verif Require Import Base VocabModel CorpusModel.
Import ListNotations.

Definition olist {A} (o : option A) : list A := match o with Some x => [x] | None => [] end.

Section Pool.
  (** [J] jobs (file names, here: file contents), [S] a worker's local state, [R] items put on the result queue. *)
  Context {J S R : Type}.
  (** State of the handler object at the time the workers are started: each worker gets its own copy. *)
  Variable s0 : S.
  (** Processing one job: new state and the item put afterwards, if any; [Err] is an uncaught exception. *)
  Variable job : S -> J -> res (S * option R).
  (** After the None job: the item put before the worker exits, if any. *)
  Variable finish : S -> res (option R).

  (** A worker: in its loop with an item still to be put, after the loop with an item still to be put, exited, or
      killed by an uncaught exception. *)
  Inductive wstate := WLoop (s : S) (out : option R) | WEnd (out : option R) | WExit | WDead.
  Record pstate := PState { todo : list (option J); jobs : list (option J); workers : list wstate; results : list R }.
  Inductive actor := Producer | Worker (i : nat).

  Fixpoint setnth {A} (l : list A) (i : nat) (x : A) : list A :=
    match l, i with
    | [], _ => []
    | _ :: l', 0 => x :: l'
    | y :: l', Datatypes.S i' => y :: setnth l' i' x
    end.

  (** One step of a worker: new worker state, job queue and result queue; [None] when it is blocked or gone. *)
  Definition wstep (w : wstate) (q : list (option J)) (rs : list R) : option (wstate * list (option J) * list R) :=
    match w with
    | WLoop s (Some r) => Some (WLoop s None, q, rs ++ [r])               (* res_queue.put *)
    | WLoop s None =>
        match q with
        | [] => None                                                      (* job_queue.get blocks *)
        | Some j :: q' => match job s j with
                          | Ok (s', out) => Some (WLoop s' out, q', rs)
                          | Err _ => Some (WDead, q', rs)
                          end
        | None :: q' => match finish s with
                        | Ok out => Some (WEnd out, q', rs)
                        | Err _ => Some (WDead, q', rs)
                        end
        end
    | WEnd (Some r) => Some (WEnd None, q, rs ++ [r])
    | WEnd None => Some (WExit, q, rs)
    | WExit | WDead => None
    end.

  (** Paralleler.process up to the joins (handler.py:124-149): the main process puts the jobs (156-177) while the
      workers run. *)
  Definition pstep (st : pstate) (a : actor) : option pstate :=
    match a with
    | Producer => match todo st with
                  | [] => None
                  | x :: t => Some (PState t (jobs st ++ [x]) (workers st) (results st))
                  end
    | Worker i => match nth_error (workers st) i with
                  | None => None
                  | Some w => match wstep w (jobs st) (results st) with
                              | None => None
                              | Some (w', q', rs') => Some (PState (todo st) q' (setnth (workers st) i w') rs')
                              end
                  end
    end.
  Fixpoint run (st : pstate) (sched : list actor) : option pstate :=
    match sched with
    | [] => Some st
    | a :: sched' => match pstep st a with Some st' => run st' sched' | None => None end
    end.

  (** Paralleler._job_producer, handler.py:156-177: every file name, then one None per worker. *)
  Definition start (nworkers : nat) (files : list J) : pstate :=
    PState (map Some files ++ repeat None nworkers) [] (repeat (WLoop s0 None) nworkers) [].

  Definition gone (w : wstate) : bool := match w with WExit | WDead => true | _ => false end.
  Definition alive_ok (w : wstate) : bool := match w with WDead => false | _ => true end.
  (** The main process has put all jobs and its joins return. *)
  Definition joined (st : pstate) : bool := match todo st with [] => forallb gone (workers st) | _ => false end.
  (** [for _ in range(n): res_queue.get()] once all workers are gone: [None] means blocked for ever. *)
  Definition read_n (n : nat) (st : pstate) : option (list R) :=
    if n <=? length (results st) then Some (firstn n (results st)) else None.
End Pool.
Arguments pstate : clear implicits.
Arguments wstate : clear implicits.

(** Paralleler.__init__, handler.py:86-88 *)
Definition n_workers (cpu_count workers : nat) : nat :=
  if (0 <? workers) && (workers <? cpu_count) then workers else cpu_count - 1.

Section Programs.
  Context {L M : Type}.
  Variable match_line : L -> option M.
  Variable separator : L -> bool.
  Variable get_type : M -> pystr.
  Variable get_colloc : M -> pystr.
  (** A job: the content of the file, or the exception raised by opening or decoding it.  Simplified: a decoding
      error in the middle of a file is raised before any of its lines is processed; since a failing job kills the
      worker, whose local data is lost, this makes no difference. *)
  Notation file := (res (list L)).

  (** ItemFreqHandler._worker_loop, typetoken.py:106-124 *)
  Definition if_job (s : unit) (f : file) : res (unit * option (dict pystr Z)) :=
    rmap (fun lines => (tt, Some (if_do_process_job match_line get_type lines))) f.
  Definition if_finish (s : unit) : res (option (dict pystr Z)) := Ok None.
  (** ItemFreqHandler.process: reads n = number of files items, then merges them. *)
  Definition if_result (n : nat) (st : pstate file unit (dict pystr Z)) : option (dict pystr Z) :=
    option_map if_process_results (read_n n st).

  (** TokenHandler._worker_loop, typetoken.py:537-562: the item -1 is [None]. *)
  Variable cv : vocab.
  Variables l r : nat.
  Definition tk_job (s : bool * @tokdict M) (f : file) : res ((bool * @tokdict M) * option (option (@tokdict M))) :=
    rbind f (fun lines =>
    rmap (fun d => ((false, d), if fst s then None else Some None))
         (tok_update_one_file match_line separator get_type get_colloc cv l r lines (snd s))).
  Definition tk_finish (s : bool * @tokdict M) : res (option (option (@tokdict M))) := Ok (Some (Some (snd s))).
  (** TokenHandler._process_results, typetoken.py:643-658.  TypeNode.merge of the nodes collected for one type is
      concatenation of their tokens (C15). *)
  Definition tk_merge (acc : @tokdict M) (x : option (@tokdict M)) : @tokdict M :=
    match x with
    | Some d => fold_left (fun a kv => dset a (fst kv) (match dget a (fst kv) with Some ts => ts | None => [] end ++ snd kv)) d acc
    | None => acc
    end.
  Definition tk_result (n : nat) (st : pstate file (bool * @tokdict M) (option (@tokdict M))) : option (@tokdict M) :=
    option_map (fun items => fold_left tk_merge items []) (read_n n st).
  (** The pool started by TokenHandler.retrieve_tokens on a handler whose type2toks is [d]. *)
  Definition tk_start (d : @tokdict M) (nworkers : nat) (files : list file) := start (R:=option (@tokdict M)) (true, d) nworkers files.
End Programs.
