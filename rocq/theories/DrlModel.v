(** * Model of the older dependency code: nephosem/deprel/deputils.py and the DepRelManager of deprel/dephandler.py.

    Files are lists of lines; what is written is returned.  The matching that both files were meant to call is missing
    in them: [Graph], [id2node], [paths] (deprel/deputils.py) and [update_dep_rel] (dephandler.py) are never defined,
    and no class has a method do_job_multicore; those calls are the exceptions Python raises there. *)
From Coq Require Import String NArith ZArith Bool Arith List.
From Verif Require Import Base Str VocabModel.
Import ListNotations.

Fixpoint starts_with (a x : pystr) : bool :=
  match a, x with
  | [], _ => true
  | _ :: _, [] => false
  | c :: a', d :: x' => if eqdec c d then starts_with a' x' else false
  end.
(** [a in x] for strings *)
Fixpoint inside (a x : pystr) : bool := starts_with a x || match x with [] => false | _ :: x' => inside a x' end.

(** split_large_file, deprel/deputils.py:34-53: state of the loop: the files written so far, chunk, num_sents. [n] is 100000. *)
Definition split_step (n : N) (st : list pystr * list pystr * N) (line : pystr) : list pystr * list pystr * N :=
  let '(files, chunk, num) := st in
  let chunk := chunk ++ [strip line] in
  if starts_with (u "</s") line then
    if ((num + 1) mod n =? 0)%N then (files ++ [join 10%N chunk], [], (num + 1)%N) else (files, chunk, (num + 1)%N)
  else (files, chunk, num).
Definition split_every (n : N) (lines : list pystr) : list pystr := fst (fst (fold_left (split_step n) lines ([], [], 0%N))).
(** deprel/deputils.py:34-53: the contents of the files basename.0, basename.1, ... *)
Definition split_large_file (lines : list pystr) : list pystr := split_every 100000%N lines.

(** read_nodes, deprel/deputils.py:87-101 *)
Definition read_node (st : dict pystr pystr * dict pystr pystr) (line : pystr) : res (dict pystr pystr * dict pystr pystr) :=
  match split 9%N (strip line) with
  | [s; idx] => Ok (dset (fst st) s idx, dset (snd st) idx s)
  | _ => Err ValueError
  end.
Definition read_nodes (lines : list pystr) : res (dict pystr pystr * dict pystr pystr) := rfold read_node lines ([], []).

(** The first lines of process_sentence, judgeOut, judgeIn and judgeIn_v1, deprel/deputils.py:104-208: the line is
    unpacked into two parts, then Graph(edges, id2node) is a NameError. *)
Definition on_sentence (line : pystr) : res unit := match split 58%N line with [_; _] => Err NameError | _ => Err ValueError end.
Definition process_sentence (line : pystr) : res unit := on_sentence line.
Definition judge_out (line : pystr) : res unit := on_sentence line.
Definition judge_in (line : pystr) : res unit := on_sentence line.
Definition judge_in_v1 (line : pystr) : res unit := on_sentence line.

(** itertools.product, for cartesian_product, deprel/deputils.py:131-144 *)
Fixpoint product {A} (ls : list (list A)) : list (list A) :=
  match ls with [] => [[]] | l :: ls' => flat_map (fun x => map (cons x) (product ls')) l end.
Definition cartesian_product {K V} `{EqDec K} (mapping : dict K (list V)) : list (dict K V) :=
  map dict_of (product (map (fun ks => map (pair (fst ks)) (snd ks)) mapping)).

(** group, deprel/deputils.py:210-215; the sets are lists without repetition in order of first occurrence *)
Definition group_step {P S} `{EqDec P} `{EqDec S} (d : dict P (list S)) (ps : P * S) : dict P (list S) :=
  let s := match dget d (fst ps) with Some s => s | None => [] end in
  dset d (fst ps) (if mem (snd ps) s then s else s ++ [snd ps]).
Definition group {W P S} `{EqDec P} `{EqDec S} (nodemap : W * list (P * S)) : W * dict P (list S) :=
  (fst nodemap, fold_left group_step (snd nodemap) []).
(** outMap, deprel/deputils.py:218-221: dict.iteritems is gone in Python 3. *)
Definition out_map {I} (item : I) : res pystr := Err AttributeError.

(** ** DepRelManager *)
(** PathTemplate, basic.py:159-184 *)
Record ptemplate := PT { pt_nodes : list pystr; pt_edges : list pystr }.
(** range(0, len(l), 2) and range(1, len(l) - 1, 2), dephandler.py:64-68 *)
Fixpoint evens {A} (l : list A) : list A := match l with [] => [] | x :: l' => x :: match l' with [] => [] | _ :: l'' => evens l'' end end.
Definition odds {A} (l : list A) : list A := evens (tl (removelast l)).
Definition template_of (line : pystr) : ptemplate := let eles := split 58%N (strip line) in PT (evens eles) (odds eles).
(** PathTemplate.__str__, basic.py:179-184 *)
Fixpoint pt_pairs (es ns : list pystr) : res (list pystr) :=
  match es, ns with
  | [], _ => Ok []
  | _ :: _, [] => Err IndexError
  | e :: es', n :: ns' => rmap (fun l => e :: n :: l) (pt_pairs es' ns')
  end.
Definition pt_str (p : ptemplate) : res pystr :=
  match pt_nodes p with [] => Err IndexError | n :: ns => rmap (fun l => join 58%N (n :: l)) (pt_pairs (pt_edges p) ns) end.

(** A feature: matched_nodes and matched_edges, basic.py FeatureGraph *)
Section Manager.
  Context {MN ME : Type}.
  Definition feature : Type := (list MN * list ME)%type.
  Record manager := Mgr { m_templates : list ptemplate; m_features : list feature }.

  (** read_template, dephandler.py:53-72; [lines]: the lines of the named file, None without name *)
  Definition read_template (lines : option (list pystr)) (features : list feature) (m : manager) : manager * res (list feature + list ptemplate) :=
    match features, lines with
    | _ :: _, _ => (Mgr (m_templates m) features, Ok (inl features))
    | [], Some ls => let ts := map template_of ls in (Mgr ts (m_features m), Ok (inr ts))
    | [], None => (m, Err ValueError)
    end.
  (** read_features, dephandler.py:74-81; a name is not read and nothing is returned *)
  Definition read_features (fname : bool) (features : list feature) (m : manager) : manager * res (option (list feature)) :=
    match features with
    | _ :: _ => (Mgr (m_templates m) features, Ok (Some features))
    | [] => (m, if fname then Ok None else Err ValueError)
    end.

  (** update_dep_rel: no such name in dephandler.py *)
  Definition update_dep_rel (fname : pystr) (fs : list feature) : list feature * res unit := (fs, Err NameError).
  (** The loop over files of do_job_single, dephandler.py:195-202, and of update_dep_rel_caller 267-273: features and exceptions logged *)
  Fixpoint over_files (fnames : list pystr) (fs : list feature) : list feature * list err :=
    match fnames with
    | [] => (fs, [])
    | f :: fnames' => let (fs1, r) := update_dep_rel f fs in
                      let (fs2, log) := over_files fnames' fs1 in
                      (fs2, match r with Ok _ => log | Err e => e :: log end)
    end.
  (** build_dep_rel, dephandler.py:143-184: the manager, the file path.template.super if written, what is logged, what is
      returned.  [fnames]: result of prepare_fnames. *)
  Definition build_dep_rel (multicore : bool) (fnames : res (list pystr)) (m : manager) : manager * option (list feature) * list err * res unit :=
    match fnames with
    | Err e => (m, None, [], Err e)
    | Ok fn => if multicore then (m, Some (m_features m), [AttributeError], Ok tt)
               else let (fs, log) := over_files fn (m_features m) in (Mgr (m_templates m) fs, None, log, Ok tt)
    end.
  (** update_dep_rel_caller, dephandler.py:235-275: the file matches.sub.pid if written and what is logged.  [super]: what
      unpickling path.template.super gives *)
  Definition update_dep_rel_caller (fnames : list pystr) (settings : bool) (super : res (list feature)) : res (option (list feature) * list err) :=
    if settings then
      match super with
      | Err e => Ok (None, [e])
      | Ok fs => let (fs', log) := over_files fnames fs in Ok (Some fs', log)
      end
    else Err ValueError.

  (** merge_results, dephandler.py:204-223: a listing of the directory, names with what unpickling gives.  First loop: files
      left, features read *)
  Fixpoint read_subs (dir : list (pystr * res (list feature))) : list (pystr * res (list feature)) * list (list feature) * res unit :=
    match dir with
    | [] => ([], [], Ok tt)
    | (f, c) :: dir' =>
        if inside (u "super") f then let '(kept, fs, r) := read_subs dir' in ((f, c) :: kept, fs, r)
        else match c with
             | Err e => ((f, c) :: dir', [], Err e)
             | Ok feats => let '(kept, fs, r) := read_subs dir' in (kept, feats :: fs, r)
             end
    end.
  (** self.features[i].matched_nodes.extend(...), dephandler.py:220-223 *)
  Fixpoint extend_at (own : list feature) (i : nat) (f : feature) : res (list feature) :=
    match own, i with
    | [], _ => Err IndexError
    | o :: own', 0 => Ok ((fst o ++ fst f, snd o ++ snd f) :: own')
    | o :: own', S i' => rmap (cons o) (extend_at own' i' f)
    end.
  Fixpoint extend_from (i : nat) (feats own : list feature) : list feature * res unit :=
    match feats with
    | [] => (own, Ok tt)
    | f :: feats' => match extend_at own i f with Ok own' => extend_from (S i) feats' own' | Err e => (own, Err e) end
    end.
  Fixpoint extend_all (subs : list (list feature)) (own : list feature) : list feature * res unit :=
    match subs with
    | [] => (own, Ok tt)
    | feats :: subs' => match extend_from 0 feats own with
                        | (own', Ok _) => extend_all subs' own'
                        | (own', Err e) => (own', Err e)
                        end
    end.
  (** dephandler.py:204-223: files left, features, result *)
  Definition merge_results (dir : list (pystr * res (list feature))) (own : list feature)
    : list (pystr * res (list feature)) * list feature * res unit :=
    let '(kept, subs, r) := read_subs dir in
    match r with
    | Err e => (kept, own, Err e)
    | Ok _ => let (own', r') := extend_all subs own in (kept, own', r')
    end.
End Manager.
Arguments feature : clear implicits.
Arguments manager : clear implicits.

(** ** Threads of DepRelManager.process, dephandler.py:83-138 *)
(** One producer and identical workers on a queue of bounded size: what the producer still has to put, the queue, the
    workers that are in their loop, the files whose processing ended a worker, the workers that left their loop. *)
Record tstate := TS { t_todo : list (option pystr); t_queue : list (option pystr); t_idle : nat; t_dead : list pystr; t_left : nat }.
Inductive thread := TProducer | TWorker.
(** _do_process_job, dephandler.py:137-138: update_dep_rel is a NameError. *)
Definition do_process_job (fname : pystr) : res unit := Err NameError.
(** One step of a thread, _worker_loop dephandler.py:113-126; [None]: it is blocked or has ended.  put blocks when 0 < maxsize <= qsize, get on an empty queue. *)
Definition thread_step (maxsize : Z) (st : tstate) (t : thread) : option tstate :=
  match t with
  | TProducer =>
      match t_todo st with
      | [] => None
      | x :: todo => if ((0 <? maxsize) && (maxsize <=? Z.of_nat (length (t_queue st))))%Z then None
                     else Some (TS todo (t_queue st ++ [x]) (t_idle st) (t_dead st) (t_left st))
      end
  | TWorker =>
      match t_idle st, t_queue st with
      | 0, _ | _, [] => None
      | S k, None :: q => Some (TS (t_todo st) q k (t_dead st) (S (t_left st)))
      | S k, Some f :: q => match do_process_job f with
                            | Ok _ => Some (TS (t_todo st) q (S k) (t_dead st) (t_left st))
                            | Err _ => Some (TS (t_todo st) q k (t_dead st ++ [f]) (t_left st))
                            end
      end
  end.
Fixpoint thread_run (maxsize : Z) (st : tstate) (sched : list thread) : option tstate :=
  match sched with
  | [] => Some st
  | t :: sched' => match thread_step maxsize st t with Some st' => thread_run maxsize st' sched' | None => None end
  end.
(** process, dephandler.py:83-111, and _job_producer 128-135 *)
Definition process_start (workers : nat) (fnames : list pystr) : tstate :=
  TS (map Some fnames ++ repeat None workers) [] workers [] 0.
Definition process_size (workers : nat) (queue_factor : Z) : Z := (queue_factor * Z.of_nat workers)%Z.
