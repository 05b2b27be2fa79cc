(** * What the corpus theorems mean: positions, windows, segments, pair counts. *)
From Coq Require Import NArith ZArith Bool Arith List.
From Verif Require Import Base VocabModel CorpusModel.
Import ListNotations.

(** Element at an integer position; nothing outside the list. *)
Definition at_pos {A} (s : list (option A)) (z : Z) : option A :=
  if (z <? 0)%Z then None else match nth_error s (Z.to_nat z) with Some x => x | None => None end.

(** The tokens at distance at most [l] to the left / [r] to the right of position [i]. *)
Definition left_ctx {A} (l : nat) (xs : list A) (i : nat) : list A := skipn (i - l) (firstn i xs).
Definition right_ctx {A} (r : nat) (xs : list A) (i : nat) : list A := firstn r (skipn (S i) xs).

(** Number of pairs of positions below [n] that satisfy [P]. *)
Definition npairs (n : nat) (P : nat -> nat -> bool) : nat :=
  length (filter (fun ij => P (fst ij) (snd ij)) (list_prod (seq 0 n) (seq 0 n))).

(** [j] is a context position of focus [i]: j <> i and -l <= j - i <= r. *)
Definition in_window (l r i j : nat) : bool := negb (i =? j) && (i <=? j + l) && (j <=? i + r).

Definition has {A B} `{EqDec B} (f : A -> B) (xs : list A) (i : nat) (b : B) : bool :=
  match nth_error xs i with Some x => eqb (f x) b | None => false end.

(** Co-occurrences of [t] (as focus, by [ty]) with [c] (as context, by [co]) in one segment. *)
Definition cooc {A} (ty co : A -> pystr) (l r : nat) (xs : list A) (t c : pystr) : nat :=
  npairs (length xs) (fun i j => has ty xs i t && has co xs j c && in_window l r i j).

(** Same, with the focus restricted to the first [k] positions. *)
Definition cooc_upto {A} (k : nat) (ty co : A -> pystr) (l r : nat) (xs : list A) (t c : pystr) : nat :=
  npairs (length xs) (fun i j => (i <? k) && has ty xs i t && has co xs j c && in_window l r i j).

(** Separator-delimited segments of a file: the matching lines, with their 1-based line numbers,
    grouped by the separator lines (lines that do not match and are separators). *)
Section Segments.
  Context {L M : Type} (match_line : L -> option M) (separator : L -> bool).
  Fixpoint segments_from (lid : nat) (lines : list L) : list (list (M * nat)) :=
    match lines with
    | [] => [[]]
    | x :: lines' =>
        let rest := segments_from (S lid) lines' in
        match match_line x with
        | Some m => match rest with seg :: segs => ((m, S lid) :: seg) :: segs | [] => [[(m, S lid)]] end
        | None => if separator x then [] :: rest else rest
        end
    end.
  Definition segments (lines : list L) : list (list (M * nat)) := segments_from 0 lines.
  (** All matching lines of a file, in order. *)
  Definition matches_of (lines : list L) : list M :=
    flat_map (fun x => match match_line x with Some m => [m] | None => [] end) lines.
End Segments.

(** Lookup of a cell of a nested dict of counts, 0 when absent. *)
Definition cell (m : dict pystr (dict pystr Z)) (t c : pystr) : Z :=
  match dget m t with
  | Some row => match dget row c with Some n => n | None => 0%Z end
  | None => 0%Z
  end.

(** Tokens of type [t] in one segment, in order, each with its contexts in the segment (restricted to
    those that [keep] accepts). *)
Section TokenSpec.
  Context {M : Type} (get_type : M -> pystr) (keep : M * nat -> bool) (l r : nat).
  Definition seg_tokens (t : pystr) (xs : list (M * nat)) : list (@token M) :=
    flat_map (fun i => match nth_error xs i with
                       | Some x => if eqb (get_type (fst x)) t
                                   then [{| tk_node := x; tk_left := filter keep (left_ctx l xs i);
                                            tk_right := filter keep (right_ctx r xs i) |}]
                                   else []
                       | None => []
                       end) (seq 0 (length xs)).
End TokenSpec.

(** Total of one row of a nested dict of counts. *)
Definition row_total (m : dict pystr (dict pystr Z)) (t : pystr) : Z :=
  match dget m t with Some row => sumZ (dvals row) | None => 0%Z end.

(** A vocabulary that was built from a non-empty dict restricts the items; any other lets all pass. *)
Definition allowed (v : vocab) (k : pystr) : bool := if filt v then v_contains v k else true.

(** The foci that ColFreqHandler really processes in a segment of [n] tokens: all, except that the last
    one is lost when 2 <= n <= right span. *)
Definition foci_spec (r n : nat) : nat := if (2 <=? n) && (n <=? r) then n - 1 else n.
