(** * Model of nephosem/core/vocab.py (class Vocab) and the dict helpers of nephosem/utils.py it uses. *)
From Coq Require Import String NArith ZArith QArith Bool Arith List.
From Verif Require Import Base.
Import ListNotations.
Local Open Scope Z_scope.

(** Vocab object, vocab.py:54-75.  [fd] is [freq_dict]; [isdef] tells whether it is a
    [defaultdict(int)] (vocab.py:97-101 deep-copies the argument, keeping its class); [filt] is
    [FILTERPRESENT].  Simplified: [raw_vocab] (unused) and [encoding] are left out; frequencies are
    integers. *)
Record vocab := Vocab { fd : dict pystr Z; isdef : bool; filt : bool }.

(** Vocab.__init__ with a dict / defaultdict, vocab.py:56-75 and _construct 89-109: the dict is deep
    copied and FILTERPRESENT is set iff it is not empty.  [Vocab()] is [vocab_init false []]. *)
Definition vocab_init (isdef : bool) (d : dict pystr Z) : vocab :=
  {| fd := d; isdef := isdef; filt := match d with [] => false | _ => true end |}.

(** Vocab(dataframe), vocab.py:111-119: [{k: v for k, v in zip(items, freqs)}]. *)
Definition vocab_of_df (df : list (pystr * Z)) : vocab := vocab_init false (dict_of df).

(** Vocab.__contains__, vocab.py:122-123 *)
Definition v_contains (v : vocab) (k : pystr) : bool := dmem (fd v) k.

(** vocab[str], vocab.py:147-148: [self.freq_dict[arg]]; raises KeyError on a dict, inserts 0 on a
    defaultdict(int).  Returns the value and the vocabulary after the lookup. *)
Definition v_lookup (v : vocab) (k : pystr) : res Z * vocab :=
  match dget (fd v) k with
  | Some f => (Ok f, v)
  | None => if isdef v then (Ok 0, {| fd := dset (fd v) k 0; isdef := isdef v; filt := filt v |})
            else (Err KeyError, v)
  end.

(** Vocab.__setitem__, vocab.py:176-177 *)
Definition v_set (v : vocab) (k : pystr) (f : Z) : vocab :=
  {| fd := dset (fd v) k f; isdef := isdef v; filt := filt v |}.

(** Vocab.increment, vocab.py:251-256 *)
Definition v_incr (v : vocab) (k : pystr) (inc : Z) : vocab :=
  {| fd := match dget (fd v) k with
           | Some f => dset (fd v) k (f + inc)
           | None => dset (fd v) k inc
           end;
     isdef := isdef v; filt := filt v |}.

(** Vocab.__len__, vocab.py:215-216 *)
Definition v_len (v : vocab) : nat := length (dkeys (fd v)).
(** Vocab.keys / values / items, vocab.py:231-239 *)
Definition v_keys (v : vocab) : list pystr := dkeys (fd v).
Definition v_values (v : vocab) : list Z := dvals (fd v).
Definition v_items (v : vocab) : list (pystr * Z) := fd v.
(** Vocab.sum_freq, vocab.py:352-354 (and sum, 346-350) *)
Definition v_sum (v : vocab) : Z := sumZ (dvals (fd v)).

(** Comparison methods, vocab.py:186-213: the list of keys whose frequency compares with the
    (int or float) argument, a rational number here. *)
Definition v_lt (v : vocab) (q : Q) : list pystr := map fst (filter (fun kv => negb (Qle_bool q (inject_Z (snd kv)))) (fd v)).
Definition v_le (v : vocab) (q : Q) : list pystr := map fst (filter (fun kv => Qle_bool (inject_Z (snd kv)) q) (fd v)).
Definition v_eq (v : vocab) (q : Q) : list pystr := map fst (filter (fun kv => Qeq_bool (inject_Z (snd kv)) q) (fd v)).
Definition v_gt (v : vocab) (q : Q) : list pystr := map fst (filter (fun kv => negb (Qle_bool (inject_Z (snd kv)) q)) (fd v)).
Definition v_ge (v : vocab) (q : Q) : list pystr := map fst (filter (fun kv => Qle_bool q (inject_Z (snd kv))) (fd v)).

(** Vocab._select_by_items, vocab.py:218-222 *)
Definition v_select_items (v : vocab) (items : list pystr) : vocab :=
  vocab_init false (filter (fun kv => mem (fst kv) items) (fd v)).
(** Vocab._select_by_freqs, vocab.py:224-228 *)
Definition v_select_freqs (v : vocab) (freqs : list Z) : vocab :=
  vocab_init false (filter (fun kv => mem (snd kv) freqs) (fd v)).

(** Vocab.dataframe, vocab.py:78-86: sort by item ascending, then (stably) by frequency descending. *)
Definition v_dataframe (v : vocab) : list (pystr * Z) :=
  isort (fun a b => snd b <=? snd a) (isort (fun a b => sleb (fst a) (fst b)) (fd v)).

(** Python slice [start:stop] of a sequence of length [n] (step omitted): negative bounds count from
    the end and everything is clipped. *)
Definition slice_bound (n : nat) (b : Z) : nat :=
  if b <? 0 then Z.to_nat (Z.max 0 (b + Z.of_nat n)) else Nat.min n (Z.to_nat b).
Definition py_slice {A} (l : list A) (start stop : option Z) : list A :=
  let n := length l in
  let a := match start with Some b => slice_bound n b | None => 0%nat end in
  let z := match stop with Some b => slice_bound n b | None => n end in
  firstn (z - a) (skipn a l).

(** Arguments of Vocab.__getitem__ other than a single string, vocab.py:125-174.
    [AItems]: list of str; [AFreqs]: list of int; [ASlice]: slice object with step omitted;
    [ATuple]: tuple of arguments applied one after the other; [AOther]: anything else. *)
Inductive arg :=
| AItems (l : list pystr)
| AFreqs (l : list Z)
| ASlice (start stop : option Z)
| ATuple (l : list arg)
| AOther.

Fixpoint v_getitem (a : arg) (v : vocab) : res vocab :=
  match a with
  | AItems [] => Ok (vocab_init false [])
  | AItems l => Ok (v_select_items v l)
  | AFreqs [] => Ok (vocab_init false [])
  | AFreqs l => Ok (v_select_freqs v l)
  | ATuple l =>
      (fix go (l : list arg) (d : vocab) : res vocab :=
         match l with
         | [] => Ok d
         | c :: l' => rbind (v_getitem c d) (go l')
         end) l v
  | ASlice start stop => Ok (vocab_of_df (py_slice (v_dataframe v) start stop))
  | AOther => Err NotImplementedError
  end.

(** utils.sort_dict, utils.py:186-217; Vocab.get_item_list, vocab.py:258-276. *)
Inductive sorting := ByFreq | ByAlpha | ByOther.
Definition sort_dict (d : dict pystr Z) (s : sorting) (descending : bool) : res (list pystr) :=
  match s with
  | ByFreq =>
      let t := isort (fun a b => sleb (fst a) (fst b)) d in
      let t := isort (fun a b => if descending then snd b <=? snd a else snd a <=? snd b) t in
      Ok (map fst t)
  | ByAlpha => Ok (isort (fun a b => if descending then sleb b a else sleb a b) (dkeys d))
  | ByOther => Err ValueError
  end.
(** get_item_list() with its default arguments ('alpha', ascending). *)
Definition v_item_list (v : vocab) : list pystr := isort sleb (dkeys (fd v)).

(** [item.rsplit('/', 1)[0]]: everything before the last '/', the whole string if there is none. *)
Fixpoint before_last (c : N) (s : pystr) : option pystr :=
  match s with
  | [] => None
  | x :: s' => match before_last c s' with
               | Some p => Some (x :: p)
               | None => if eqdec x c then Some [] else None
               end
  end.
Definition slash : N := 47%N.
Definition rsplit1_head (s : pystr) : pystr :=
  match before_last slash s with Some p => p | None => s end.
(** Vocab.select_items, vocab.py:278-291 *)
Definition v_select_word (v : vocab) (word : pystr) : vocab :=
  vocab_init false (filter (fun kv => eqb word (rsplit1_head (fst kv))) (fd v)).

(** Vocab.subvocab, vocab.py:312-319 *)
Definition v_subvocab (v : vocab) (items : list pystr) : vocab :=
  vocab_init false
    (fold_left (fun d it => dset d it (match dget (fd v) it with Some f => f | None => 0 end)) items []).

(** Vocab.equal, vocab.py:356-368: Python dict equality, i.e. same number of keys and every key of the
    first has an equal value in the second. *)
Definition dict_eq {V} `{EqDec V} (d1 d2 : dict pystr V) : bool :=
  Nat.eqb (length d1) (length d2) &&
  forallb (fun kv => match dget d2 (fst kv) with Some v => eqb v (snd kv) | None => false end) d1.
Definition v_equal (v1 v2 : vocab) : bool := dict_eq (fd v1) (fd v2).

(** Vocab.deepcopy / copy, vocab.py:370-376: rebuilt through __init__, so FILTERPRESENT is recomputed. *)
Definition v_deepcopy (v : vocab) : vocab := vocab_init (isdef v) (fd v).

(** Histories of mutating calls on one Vocab object. *)
Inductive vop := VSet (k : pystr) (f : Z) | VIncr (k : pystr) (inc : Z) | VLookup (k : pystr).
Definition v_step (v : vocab) (o : vop) : vocab :=
  match o with
  | VSet k f => v_set v k f
  | VIncr k i => v_incr v k i
  | VLookup k => snd (v_lookup v k)
  end.
Definition v_run (v : vocab) (ops : list vop) : vocab := fold_left v_step ops v.
