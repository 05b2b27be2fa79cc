(** * The calls of a ColFreqHandler and the vocabularies it keeps: typetoken.py:188-223. *)
From Coq Require Import String NArith ZArith Bool Arith List.
From Verif Require Import Base VocabModel CorpusModel ParModel MxModel ParColModel.
Import ListNotations.

(** The Vocab objects of the caller, by reference; the handler keeps references to them, not copies. *)
Definition objs := nat -> vocab.
Definition put (h : objs) (i : nat) (v : vocab) : objs := fun j => if Nat.eqb j i then v else h j.

(** self.row_vocab and self.col_vocab; None is the empty Vocab() made by the handler, which nothing else refers to. *)
Record hnd := Hnd { hrow : option nat; hcol : option nat }.
Definition deref (h : objs) (o : option nat) : vocab := match o with None => vocab_init false [] | Some i => h i end.
(** [x if x else y] for a Vocab x or None: a Vocab has __len__ (vocab.py:215-216) and no __bool__, so an empty one is false. *)
Definition or_else (h : objs) (x y : option nat) : option nat :=
  match x with Some i => if v_len (h i) =? 0 then y else Some i | None => y end.

(** ColFreqHandler.__init__, typetoken.py:188-192 *)
Definition cf_new (h : objs) (row col : option nat) : hnd := Hnd (or_else h row None) (or_else h col None).

Section Call.
  Context {L M : Type}.
  Variable match_line : L -> option M.
  Variable separator : L -> bool.
  Variables get_type get_colloc : M -> pystr.
  Variables l r : nat.
  Notation file := (res (list L)).

  (** build_col_freq, typetoken.py:198-223.  [fnames] is what prepare_fnames (213) gives: the files, or the exception it raises;
      process runs the pool of ParColModel with [nw] workers under the schedule [sched].  None: [sched] is not a whole run.
      The workers are processes: what they do to the vocabularies is not seen by the caller. *)
  Definition build_col_freq (h : objs) (nw : nat) (sched : list actor) (fnames : res (list file)) (row col : option nat) (o : hnd)
      : option (hnd * res (option (ttm Z))) :=
    match fnames with
    | Err e => Some (o, Err e)
    | Ok files =>
        let o1 := Hnd (or_else h row (hrow o)) (hcol o) in
        if v_len (deref h (hrow o1)) =? 0 then Some (o1, Ok None)
        else
          let o2 := Hnd (hrow o1) (or_else h col (hcol o1)) in
          let rv := deref h (hrow o2) in
          let cv := deref h (hcol o2) in
          match run (cf_job match_line separator get_type get_colloc rv l r) (cf_finish rv cv) (cf_start cv nw files) sched with
          | Some st => if joined st then Some (o2, cf_result st) else None
          | None => None
          end
    end.

  (** What happens after the construction: a call, or the caller changes one of the Vocab objects. *)
  Inductive event :=
  | Call (nw : nat) (sched : list actor) (fnames : res (list file)) (row col : option nat)
  | Change (i : nat) (v : vocab).
  Definition event_step (s : objs * hnd) (e : event) : option (objs * hnd * option (res (option (ttm Z)))) :=
    match e with
    | Call nw sched fnames row col =>
        match build_col_freq (fst s) nw sched fnames row col (snd s) with
        | Some (o, x) => Some (fst s, o, Some x)
        | None => None
        end
    | Change i v => Some (put (fst s) i v, snd s, None)
    end.
  Fixpoint history (s : objs * hnd) (es : list event) : option (objs * hnd) :=
    match es with
    | [] => Some s
    | e :: es => match event_step s e with Some (s', _) => history s' es | None => None end
    end.
End Call.
Arguments Call {L}.
Arguments Change {L}.
