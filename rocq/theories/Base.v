(** * Base: the fragment of Python shared by all models.

    Python [str]   : list of Unicode code points ([pystr]); [<] on [str] compares code points
                     lexicographically.
    Python [dict]  : insertion ordered association list ([dict K V]).
    Python [raise] : the [Err] constructor of [res].
    [sorted]       : Python's sort is stable, and the stably sorted version of a list is unique, so
                     a stable insertion sort computes the same list. *)
From Coq Require Import String Ascii NArith ZArith Bool Arith List.
Import ListNotations.

Set Implicit Arguments.

(** Decidable equality (Python [==] on immutable keys). *)
Class EqDec (A : Type) := eqdec : forall x y : A, {x = y} + {x <> y}.

#[export] Instance EqDec_nat : EqDec nat := Nat.eq_dec.
#[export] Instance EqDec_N : EqDec N := N.eq_dec.
#[export] Instance EqDec_Z : EqDec Z := Z.eq_dec.
#[export] Instance EqDec_bool : EqDec bool := bool_dec.
#[export] Instance EqDec_list {A} `{EqDec A} : EqDec (list A) := list_eq_dec eqdec.
#[export] Instance EqDec_prod {A B} `{EqDec A} `{EqDec B} : EqDec (A * B).
Proof. intros [a b] [a' b']. destruct (eqdec a a'), (eqdec b b'); subst; (left; congruence) || (right; congruence). Defined.
#[export] Instance EqDec_option {A} `{EqDec A} : EqDec (option A).
Proof. intros [a|] [b|]; try (right; congruence); try (left; congruence).
  destruct (eqdec a b); subst; (left; congruence) || (right; congruence). Defined.

(** Keep equality tests folded during simplification (no effect on computation). *)
#[global] Arguments eqdec {A EqDec} x y : simpl never.

Definition eqb {A} `{EqDec A} (x y : A) : bool := if eqdec x y then true else false.
#[global] Arguments eqb {A H} x y : simpl never.

(** Python exceptions that the modelled code can raise. *)
Inductive err :=
| KeyError | ValueError | IndexError | TypeError | AttributeError | NotImplementedError | IOError
| ZeroDivisionError | UnboundLocalError | AssertionError | NameError.

Inductive res (A : Type) := Ok (a : A) | Err (e : err).
Arguments Ok {A} a.
Arguments Err {A} e.

Definition rbind {A B} (r : res A) (f : A -> res B) : res B :=
  match r with Ok a => f a | Err e => Err e end.
Definition rmap {A B} (f : A -> B) (r : res A) : res B :=
  match r with Ok a => Ok (f a) | Err e => Err e end.

(** [for x in l: ...] whose body may raise. *)
Fixpoint rfold {A S} (f : S -> A -> res S) (l : list A) (s : S) : res S :=
  match l with
  | [] => Ok s
  | x :: l' => rbind (f s x) (rfold f l')
  end.

(** List comprehension whose element expression may raise. *)
Fixpoint rmapm {A B} (f : A -> res B) (l : list A) : res (list B) :=
  match l with
  | [] => Ok []
  | x :: l' => rbind (f x) (fun y => rbind (rmapm f l') (fun ys => Ok (y :: ys)))
  end.

(** Strings: lists of code points. *)
Definition pystr := list N.

Definition u (s : string) : pystr := map N_of_ascii (list_ascii_of_string s).

(** Lexicographic comparison of Python strings. *)
Fixpoint scmp (a b : pystr) : comparison :=
  match a, b with
  | [], [] => Eq
  | [], _ :: _ => Lt
  | _ :: _, [] => Gt
  | x :: a', y :: b' => match N.compare x y with Eq => scmp a' b' | c => c end
  end.

Definition sleb (a b : pystr) : bool := match scmp a b with Gt => false | _ => true end.
Definition sltb (a b : pystr) : bool := match scmp a b with Lt => true | _ => false end.

(** Dictionaries. *)
Definition dict (K V : Type) := list (K * V).

Section Dict.
  Context {K V : Type} `{EqDec K}.

  (** [d.get(k)] *)
  Fixpoint dget (d : dict K V) (k : K) : option V :=
    match d with
    | [] => None
    | (k', v) :: d' => if eqdec k k' then Some v else dget d' k
    end.

  (** [d[k] = v]: in place when present, appended otherwise. *)
  Fixpoint dset (d : dict K V) (k : K) (v : V) : dict K V :=
    match d with
    | [] => [(k, v)]
    | (k', v') :: d' => if eqdec k k' then (k', v) :: d' else (k', v') :: dset d' k v
    end.

  Definition dkeys (d : dict K V) : list K := map fst d.
  Definition dvals (d : dict K V) : list V := map snd d.
  (** [k in d] *)
  Definition dmem (d : dict K V) (k : K) : bool := match dget d k with Some _ => true | None => false end.
  (** [{k: v for k, v in l}] *)
  Definition dict_of (l : list (K * V)) : dict K V := fold_left (fun d kv => dset d (fst kv) (snd kv)) l [].
  (** [d.update(d2)] *)
  Definition dupdate (d d2 : dict K V) : dict K V := fold_left (fun d kv => dset d (fst kv) (snd kv)) d2 d.
  (** A list of pairs is a possible state of a Python dict iff its keys are distinct. *)
  Definition dwf (d : dict K V) : Prop := NoDup (dkeys d).
End Dict.

(** Membership in a list, [x in l]. *)
Definition mem {A} `{EqDec A} (x : A) (l : list A) : bool := existsb (eqb x) l.

(** [l.index(x)] *)
Fixpoint index_of {A} `{EqDec A} (x : A) (l : list A) : option nat :=
  match l with
  | [] => None
  | y :: l' => if eqdec x y then Some 0 else option_map S (index_of x l')
  end.

(** Number of occurrences. *)
Fixpoint count {A} `{EqDec A} (x : A) (l : list A) : nat :=
  match l with
  | [] => 0
  | y :: l' => (if eqdec x y then 1 else 0) + count x l'
  end.

(** Stable sort: [sorted(l, key=...)] with [leb] the comparison of keys. *)
Section Sort.
  Context {A : Type} (leb : A -> A -> bool).
  Fixpoint insert (x : A) (l : list A) : list A :=
    match l with
    | [] => [x]
    | y :: l' => if leb x y then x :: l else y :: insert x l'
    end.
  Definition isort (l : list A) : list A := fold_right insert [] l.
End Sort.

(** Removal of duplicates keeping first occurrences (order of a Python dict built from the list). *)
Fixpoint dedup {A} `{EqDec A} (l : list A) : list A :=
  match l with
  | [] => []
  | x :: l' => x :: filter (fun y => negb (eqb x y)) (dedup l')
  end.

Fixpoint sumZ (l : list Z) : Z := match l with [] => 0%Z | x :: l' => (x + sumZ l')%Z end.
Fixpoint sumn (l : list nat) : nat := match l with [] => 0 | x :: l' => x + sumn l' end.
