(** * Model of copying and sending objects that hold a Vocab: copy.deepcopy and pickle of objects with Vocab.__getattr__
      (nephosem/core/vocab.py), Vocab.copy / deepcopy / get_dict / isEmpty / setFILTER, DepRelHandler.read_templates and
      the worker loop of DepRelHandler (nephosem/models/deprel.py). *)
From Coq Require Import String NArith ZArith Bool Arith List.
From Verif Require Import Base Str VocabModel DepModel PatModel QryModel.
Import ListNotations.
Local Open Scope nat_scope.
Local Open Scope list_scope.

(** ** Values, as far as copying distinguishes them.  [PObj vocab attrs]: an instance with the attributes [attrs] in its
    __dict__, of the class Vocab or of a class that does not define __getattr__ nor any of the special methods below.
    Simplified: no sharing and no cycles (the memo of deepcopy). *)
Inductive pv :=
| PNone
| PBool (b : bool)
| PInt (z : Z)
| PStr (s : pystr)
| PList (l : list pv)
| PDict (d : list (pystr * pv))
| PObj (is_vocab : bool) (attrs : list (pystr * pv)).

(** Truth of a value; a Vocab has __len__, vocab.py:215-216, other instances are true *)
Definition truthy (x : pv) : bool :=
  match x with
  | PNone => false
  | PBool b => b
  | PInt z => negb (z =? 0)%Z
  | PStr s => match s with [] => false | _ => true end
  | PList l => match l with [] => false | _ => true end
  | PDict d => match d with [] => false | _ => true end
  | PObj true a => match dget a (u "freq_dict") with Some (PDict []) => false | _ => true end
  | PObj false _ => true
  end.

(** getattr(x, name) for a special name that the class does not define: the instance's __dict__, then Vocab.__getattr__
    (vocab.py:179-184); [None]: AttributeError *)
Definition special (is_vocab : bool) (attrs : list (pystr * pv)) (name : pystr) : option pv :=
  match dget attrs name with
  | Some x => Some x
  | None => if is_vocab then match v_getattr name with GSelf => Some (PObj is_vocab attrs) | GNone => Some PNone end else None
  end.
(** x(...): none of the values can be called *)
Definition call_value (x : pv) : res pv := Err TypeError.

(** object.__reduce_ex__, the state: __getstate__() if there is one (before Python 3.11 only if getattr finds one; since 3.11
    object has one, so that __dict__ is taken: [newer]) *)
Definition state_of (newer : bool) (is_vocab : bool) (attrs : list (pystr * pv)) : res (list (pystr * pv)) :=
  if newer then Ok attrs
  else match special is_vocab attrs (u "__getstate__") with
       | None => Ok attrs
       | Some x => rmap (fun _ => attrs) (call_value x)
       end.
(** copy._reconstruct and pickle's BUILD: __setstate__(state) of the new, empty instance if getattr finds one *)
Definition set_state (is_vocab : bool) (st : list (pystr * pv)) : res pv :=
  match special is_vocab [] (u "__setstate__") with
  | None => Ok (PObj is_vocab st)
  | Some x => call_value x
  end.

(** copy.deepcopy *)
Fixpoint py_deepcopy (newer : bool) (x : pv) : res pv :=
  match x with
  | PNone | PBool _ | PInt _ | PStr _ => Ok x
  | PList l => rmap PList ((fix go l := match l with [] => Ok [] | x :: l => rbind (py_deepcopy newer x) (fun y => rmap (cons y) (go l)) end) l)
  | PDict d => rmap PDict ((fix go d := match d with [] => Ok [] | (k, x) :: d => rbind (py_deepcopy newer x) (fun y => rmap (cons (k, y)) (go d)) end) d)
  | PObj voc attrs =>
      let copy_state :=
        rbind (state_of newer voc attrs) (fun st =>
        rbind ((fix go d := match d with [] => Ok [] | (k, x) :: d => rbind (py_deepcopy newer x) (fun y => rmap (cons (k, y)) (go d)) end) attrs)
              (fun st' => set_state voc st')) in
      match special voc attrs (u "__deepcopy__") with
      | Some f => if truthy f then call_value f else copy_state
      | None => copy_state
      end
  end.

(** pickle.dumps followed by pickle.loads: no __deepcopy__ *)
Fixpoint py_send (newer : bool) (x : pv) : res pv :=
  match x with
  | PNone | PBool _ | PInt _ | PStr _ => Ok x
  | PList l => rmap PList ((fix go l := match l with [] => Ok [] | x :: l => rbind (py_send newer x) (fun y => rmap (cons y) (go l)) end) l)
  | PDict d => rmap PDict ((fix go d := match d with [] => Ok [] | (k, x) :: d => rbind (py_send newer x) (fun y => rmap (cons (k, y)) (go d)) end) d)
  | PObj voc attrs =>
      rbind (state_of newer voc attrs) (fun st =>
      rbind ((fix go d := match d with [] => Ok [] | (k, x) :: d => rbind (py_send newer x) (fun y => rmap (cons (k, y)) (go d)) end) attrs)
            (fun st' => set_state voc st'))
  end.

(** ** The vocabulary as such a value: __init__, vocab.py:66-75.  The encoding is the default one. *)
Definition freqs (d : dict pystr Z) : pv := PDict (map (fun kv => (fst kv, PInt (snd kv))) d).
Definition pv_of_vocab (v : vocab) : pv :=
  PObj true [(u "freq_dict", freqs (fd v)); (u "raw_vocab", PNone); (u "FILTERPRESENT", PBool (filt v)); (u "encoding", PStr (u "utf-8"))].
(** Vocab.copy, vocab.py:370-372; deepcopy, 374-376: the dict is copied, then a new Vocab made of it (_construct copies it again) *)
Definition ints (x : pv) : res (dict pystr Z) :=
  match x with
  | PDict d => rmapm (fun kv => match snd kv with PInt z => Ok (fst kv, z) | _ => Err TypeError end) d
  | _ => Err TypeError
  end.
Definition vocab_deepcopy (newer : bool) (v : vocab) : res vocab :=
  rbind (py_deepcopy newer (freqs (fd v))) (fun d => rbind (py_deepcopy newer d) (fun d => rmap (vocab_init (isdef v)) (ints d))).
Definition vocab_copy := vocab_deepcopy.
(** get_dict, vocab.py:241-243 *)
Definition get_dict (newer : bool) (v : vocab) : res (dict pystr Z) := rbind (py_deepcopy newer (freqs (fd v))) ints.
(** isEmpty, vocab.py:245-246; setFILTER, 248-249 *)
Definition is_empty (v : vocab) : bool := (length (dkeys (fd v)) =? 0)%nat.
Definition set_filter (v : vocab) (b : bool) : vocab := {| fd := fd v; isdef := isdef v; filt := b |}.

(** ** Templates *)
(** A macro given to read_templates: what DepModel has of it, and the value of its attribute target_filter.  The rest of the
    instance (a networkx graph, dicts of strings and numbers, lists of matches) is copied as it is. *)
Record given := Given { g_macro : macro; g_filter : pv }.
(** The keys that `in` looks at, deputils.py:250-257: None for the value None, otherwise the keys of a dict or Vocab or the
    strings of a list *)
Definition filter_keys (x : pv) : option (list pystr) :=
  match x with
  | PNone => None
  | PDict d => Some (dkeys d)
  | PObj true a => match dget a (u "freq_dict") with Some (PDict d) => Some (dkeys d) | _ => Some [] end
  | PList l => Some (flat_map (fun x => match x with PStr s => [s] | _ => [] end) l)
  | _ => Some []
  end.
Definition plain (g : given) : macro := with_filter (g_macro g) (filter_keys (g_filter g)).
Definition copy_given (newer : bool) (g : given) : res given := rmap (Given (g_macro g)) (py_deepcopy newer (g_filter g)).
(** DepRelHandler.read_templates, deprel.py:62-103: what self.macros is afterwards.  [rows fname] are the columns that
    pandas reads; MacroGraph.read_csv returns no macro, see C135. *)
Definition read_templates_py (newer : bool) (rows : pystr -> res (list (pystr * pystr))) (fname : option pystr) (macros : option (list given))
  : res (list given) :=
  let from_file :=
    match fname with
    | Some ((_ :: _) as f) => rbind (rows f) (fun rs => rmap (fun _ => []) (macro_csv rs))
    | _ => Err ValueError
    end in
  match macros with
  | Some ((_ :: _) as ms) => rmap (map (fun g => Given (with_matched (g_macro g) []) (g_filter g))) (rmapm (copy_given newer) ms)
  | _ => from_file
  end.

(** ** Results of a worker, deprel.py:172-216 *)
(** _do_process_job, deprel.py:208-214: copies of the macros whose filter is a copy of the targets *)
Definition job_macros (newer : bool) (targets : vocab) (macros : list given) : res (list given) :=
  rbind (rmapm (copy_given newer) macros) (fun ms =>
  rmapm (fun g => rmap (fun v => Given (g_macro g) (pv_of_vocab v)) (vocab_deepcopy newer targets)) ms).
(** A macro as an instance: the attributes that do not hold a Vocab are [rest] *)
Definition macro_obj (rest : macro -> list (pystr * pv)) (g : given) : pv :=
  PObj false (rest (g_macro g) ++ [(u "target_filter", g_filter g)]).
(** `del macro.target_filter`, deprel.py:188-189: AttributeError without it (and a TypeError for what is no instance) *)
Definition del_attr (name : pystr) (x : pv) : res pv :=
  match x with
  | PObj voc a => if dmem a name then Ok (PObj voc (filter (fun kv => negb (eqb (fst kv) name)) a)) else Err AttributeError
  | _ => Err AttributeError
  end.
(** res_queue.put(tally), deprel.py:186-190, with the result as the other process gets it.  [del]: whether the filters are
    deleted first, which they are. *)
Definition put_tally_with (del newer : bool) (tally : list pv) : res pv :=
  rbind (if del then rmapm (del_attr (u "target_filter")) tally else Ok tally) (fun t => py_send newer (PList t)).
Definition put_tally := put_tally_with true.
