(** * Objects saved with their large arrays in separate files: class SaveLoad, nephosem/utils.py:307-343 and 472-777.

    Objects live in a heap: the list of their instance attributes by address.  Only instance attributes are modelled (an attribute
    of the class that is listed in [separately] or [ignore] could not be deleted).  Pickling an object writes a copy of the heap and its
    address, unpickling gives that copy.  An address outside the heap is an object without attributes. *)
From Coq Require Import String NArith ZArith Bool Arith List.
From Verif Require Import Base Str.
Import ListNotations.
Local Open Scope string_scope.
Local Open Scope nat_scope.
Local Open Scope list_scope.

Section Sav.
  (** numpy arrays; what is left of a sparse matrix without its three arrays; all other values *)
  Context {A K Oth : Type}.
  Inductive val := VRef (a : nat) | VArr (x : A) | VSp (k : K) (data indptr indices : A) | VNames (l : list pystr) | VNone | VOther (o : Oth).
  Definition obj := dict pystr val.
  Definition heap := list obj.
  Inductive file := FObj (h : heap) (a : nat) | FArr (x : A) | FNpz (l : dict pystr A) | FHollow (k : K) | FCut.
  Record st := St { hp : heap; fs : pystr -> option file }.

  (** val.size, val.nnz, np.ascontiguousarray *)
  Variable size : A -> nat.
  Variable nnz : K -> A -> A -> A -> nat.
  Variable contig : A -> A.
  (** Whether a file can be written, and whether an object can be pickled *)
  Variable writable : pystr -> bool.
  Variable picklable : heap -> nat -> bool.

  Definition attrs (h : heap) (a : nat) : obj := nth a h [].
  Fixpoint upd (h : heap) (a : nat) (o : obj) : heap :=
    match h, a with [], _ => [] | _ :: h', O => o :: h' | x :: h', S a' => x :: upd h' a' o end.
  Definition ddel (o : obj) (x : pystr) : obj := filter (fun kv => negb (eqb (fst kv) x)) o.
  Definition put (f : pystr -> option file) (p : pystr) (x : file) : pystr -> option file := fun q => if eqb q p then Some x else f q.
  Definition write (s : st) (p : pystr) (x : file) : st * res unit :=
    if writable p then (St (hp s) (put (fs s) p x), Ok tt) else (s, Err IOError).

  (** '.'.join(args) and _adapt_by_suffix, utils.py:583-598 *)
  Definition dot : N := 46%N.
  Definition names (fname : pystr) (l : list pystr) : pystr := join dot (fname :: l).
  Definition ends_with (suffix s : pystr) : bool := eqb (skipn (length s - length suffix) s) suffix && (length suffix <=? length s).
  Definition compressed (fname : pystr) : bool := ends_with (u ".gz") fname || ends_with (u ".bz2") fname.
  Definition suffix (compress : bool) : pystr := if compress then u "npz" else u "npy".
  Definition subname (compress : bool) (fname : pystr) (l : list pystr) : pystr := names fname (l ++ [suffix compress]).

  Definition k_numpys := u "__numpys".
  Definition k_scipys := u "__scipys".
  Definition k_ignoreds := u "__ignoreds".
  Definition k_rec := u "__recursive_saveloads".

  (** Several files one after the other *)
  Fixpoint writes (s : st) (l : list (pystr * file)) : st * res unit :=
    match l with
    | [] => (s, Ok tt)
    | (p, x) :: r => match write s p x with (s, Ok _) => writes s r | (s, Err e) => (s, Err e) end
    end.
  (** The files of one attribute, utils.py:694-726; None: the attribute is not stored *)
  Definition files_of (compress : bool) (fname x : pystr) (v : val) : option (list (pystr * file)) :=
    match v with
    | VArr y => Some [(subname compress fname [x], if compress then FNpz [(u "val", contig y)] else FArr (contig y))]
    | VSp k d p i =>
        Some ((if compress then [(subname compress fname [x; u "sparse"], FNpz [(u "data", d); (u "indptr", p); (u "indices", i)])]
               else [(subname compress fname [x; u "data"], FArr d); (subname compress fname [x; u "indptr"], FArr p);
                     (subname compress fname [x; u "indices"], FArr i)])
              ++ [(subname compress fname [x], FHollow k)])
    | _ => None
    end.
  Definition is_sp (v : val) : bool := match v with VSp _ _ _ _ => true | _ => false end.
  (** The loop over the attributes that were set aside, utils.py:690-729: the names of numpy, scipy and ignored attributes *)
  Fixpoint store (compress : bool) (fname : pystr) (ignore : list pystr) (s : st) (asides : obj) : st * res (list pystr * list pystr * list pystr) :=
    match asides with
    | [] => (s, Ok ([], [], []))
    | (x, v) :: r =>
        match (if mem x ignore then None else files_of compress fname x v) with
        | None => match store compress fname ignore s r with
                  | (s, Ok (np, sc, ig)) => (s, Ok (np, sc, x :: ig))
                  | e => e
                  end
        | Some l => match writes s l with
                    | (s, Ok _) => match store compress fname ignore s r with
                                   | (s, Ok (np, sc, ig)) => (s, Ok (if is_sp v then (np, x :: sc, ig) else (x :: np, sc, ig)))
                                   | e => e
                                   end
                    | (s, Err e) => (s, Err e)
                    end
        end
    end.
  (** Large arrays, utils.py:669-675 *)
  Definition large (lim : nat) (v : val) : bool :=
    match v with VArr y => lim <=? size y | VSp k d p i => lim <=? nnz k d p i | _ => false end.
  Definition separate (separately : option (list pystr)) (lim : nat) (o : obj) : list pystr :=
    match separately with Some l => l | None => map fst (filter (fun kv => large lim (snd kv)) o) end.
  (** What is set aside and what stays, utils.py:677-681 *)
  Definition set_aside (o : obj) (l : list pystr) : obj * obj :=
    fold_left (fun ao x => match dget (snd ao) x with Some v => (dset (fst ao) x v, ddel (snd ao) x) | None => ao end) l ([], o).
  Definition set_all (o asides : obj) : obj := fold_left (fun o kv => dset o (fst kv) (snd kv)) asides o.
  Definition restores := list (nat * obj).
  (** The objects in the attributes, utils.py:683-689 *)
  Fixpoint visit (save : st -> nat -> pystr -> option (st * res restores)) (fname : pystr) (s : st) (o : obj) : option (st * res (list pystr * restores)) :=
    match o with
    | [] => Some (s, Ok ([], []))
    | (x, VRef b) :: r =>
        match save s b (names fname [x]) with
        | Some (s, Ok rs) => match visit save fname s r with
                             | Some (s, Ok (l, rs')) => Some (s, Ok (x :: l, rs ++ rs'))
                             | e => e
                             end
        | Some (s, Err e) => Some (s, Err e)
        | None => None
        end
    | _ :: r => visit save fname s r
    end.
  (** _save_specials, utils.py:641-742.  None: the recursion does not end *)
  Fixpoint save_specials (n : nat) (lim : nat) (ignore : list pystr) (compress : bool) (separately : option (list pystr)) (s : st) (a : nat) (fname : pystr)
    : option (st * res restores) :=
    match n with
    | O => None
    | S n =>
        let o := attrs (hp s) a in
        let (asides, o1) := set_aside o (separate separately lim o ++ ignore) in
        let s := St (upd (hp s) a o1) (fs s) in
        match visit (save_specials n lim ignore compress None) fname s o1 with
        | None => None
        | Some (s, Err e) => Some (s, Err e)
        | Some (s, Ok (rc, rs)) =>
            match store compress fname ignore s asides with
            | (s, Ok (np, sc, ig)) =>
                let o2 := dset (dset (dset (dset (attrs (hp s) a) k_numpys (VNames np)) k_scipys (VNames sc)) k_ignoreds (VNames ig)) k_rec (VNames rc) in
                Some (St (upd (hp s) a o2) (fs s), Ok (rs ++ [(a, asides)]))
            | (s, Err e) => Some (St (upd (hp s) a (set_all (attrs (hp s) a) asides)) (fs s), Err e)
            end
        end
    end.
  Definition restore (h : heap) (rs : restores) : heap := fold_left (fun h r => upd h (fst r) (set_all (attrs h (fst r)) (snd r))) rs h.
  (** pickle, utils.py:307-321: the file is opened first and stays cut off when the object cannot be pickled *)
  Definition pickle (s : st) (a : nat) (p : pystr) : st * res unit :=
    if picklable (hp s) a then write s p (FObj (hp s) a)
    else match write s p FCut with (s, Ok _) => (s, Err AttributeError) | e => e end.
  (** _smart_save, utils.py:600-639 *)
  Definition smart_save (n lim : nat) (ignore : list pystr) (separately : option (list pystr)) (s : st) (a : nat) (fname : pystr) : option (st * res unit) :=
    match save_specials n lim ignore (compressed fname) separately s a fname with
    | None => None
    | Some (s, Err e) => Some (s, Err e)
    | Some (s, Ok rs) => let (s, r) := pickle s a fname in Some (St (restore (hp s) rs) (fs s), r)
    end.
  (** save, utils.py:744-777: to a file name or to an open file (here its name) *)
  Inductive target := ToName (fname : pystr) | ToHandle (fname : pystr).
  Definition save (n lim : nat) (ignore : list pystr) (separately : option (list pystr)) (s : st) (a : nat) (t : target) : option (st * res unit) :=
    match t with
    | ToName fname => smart_save n lim ignore separately s a fname
    | ToHandle fname => Some (pickle s a fname)
    end.

  (** ** load, utils.py:482-580 *)
  Definition names_in (o : obj) (k : pystr) : list pystr := match dget o k with Some (VNames l) => l | _ => [] end.
  Definition read_arr (f : pystr -> option file) (p : pystr) : res A :=
    match f p with Some (FArr x) => Ok x | Some _ => Err ValueError | None => Err IOError end.
  Definition read_npz (f : pystr -> option file) (p k : pystr) : res A :=
    match f p with Some (FNpz l) => match dget l k with Some x => Ok x | None => Err KeyError end | Some _ => Err ValueError | None => Err IOError end.
  Definition load_numpy (mmap compress : bool) (f : pystr -> option file) (fname x : pystr) : res val :=
    if compress then if mmap then Err IOError else rmap VArr (read_npz f (subname compress fname [x]) (u "val"))
    else rmap VArr (read_arr f (subname compress fname [x])).
  Definition load_scipy (mmap compress : bool) (f : pystr -> option file) (fname x : pystr) : res val :=
    match f (subname compress fname [x]) with
    | Some (FHollow k) =>
        if compress then
          if mmap then Err IOError
          else let p := subname compress fname [x; u "sparse"] in
               rbind (read_npz f p (u "data")) (fun d => rbind (read_npz f p (u "indptr")) (fun ip => rbind (read_npz f p (u "indices")) (fun i => Ok (VSp k d ip i))))
        else rbind (read_arr f (subname compress fname [x; u "data"])) (fun d =>
             rbind (read_arr f (subname compress fname [x; u "indptr"])) (fun ip =>
             rbind (read_arr f (subname compress fname [x; u "indices"])) (fun i => Ok (VSp k d ip i))))
    | Some _ => Err ValueError
    | None => Err IOError
    end.
  (** setattr(self, attrib, f(attrib)) for a list of names *)
  Definition load_all (f : pystr -> res val) (l : list pystr) (h : heap) (a : nat) : res heap :=
    rfold (fun h x => rbind (f x) (fun v => Ok (upd h a (dset (attrs h a) x v)))) l h.
  Fixpoint load_kids (rec : heap -> nat -> pystr -> option (res heap)) (fname : pystr) (l : list pystr) (h : heap) (a : nat) : option (res heap) :=
    match l with
    | [] => Some (Ok h)
    | x :: r => match dget (attrs h a) x with
                | Some (VRef b) => match rec h b (names fname [x]) with
                                   | Some (Ok h) => load_kids rec fname r h a
                                   | e => e
                                   end
                | _ => Some (Err AttributeError)
                end
    end.
  Fixpoint load_specials (n : nat) (mmap compress : bool) (f : pystr -> option file) (h : heap) (a : nat) (fname : pystr) : option (res heap) :=
    match n with
    | O => None
    | S n =>
        match load_kids (load_specials n mmap compress f) fname (names_in (attrs h a) k_rec) h a with
        | Some (Ok h) =>
            Some (rbind (load_all (load_numpy mmap compress f fname) (names_in (attrs h a) k_numpys) h a) (fun h =>
                  rbind (load_all (load_scipy mmap compress f fname) (names_in (attrs h a) k_scipys) h a) (fun h =>
                  load_all (fun _ => Ok VNone) (names_in (attrs h a) k_ignoreds) h a)))
        | e => e
        end
    end.
  Definition load (n : nat) (mmap : bool) (f : pystr -> option file) (fname : pystr) : option (res (heap * nat)) :=
    match f fname with
    | Some (FObj h a) => option_map (rmap (fun h => (h, a))) (load_specials n mmap (compressed fname) f h a fname)
    | Some _ => Some (Err AttributeError)
    | None => Some (Err IOError)
    end.
End Sav.
Arguments val : clear implicits.
Arguments obj : clear implicits.
Arguments heap : clear implicits.
Arguments file : clear implicits.
Arguments st : clear implicits.
Arguments restores : clear implicits.
