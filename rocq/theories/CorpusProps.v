(** * Properties of corpus reading (C01, C03-C09, C11, C14). *)
From Coq Require Import String NArith ZArith Bool Arith Lia List.
From Verif Require Import Base VocabModel VocabSpec CorpusModel CorpusSpec CorpusProofs CorpusSegProofs CorpusColProofs
  CorpusTokProofs CorpusMoreProofs CorpusExamples.
Import ListNotations.

(** C01.  Merging the per-file frequency dicts gives, for every item, exactly its number of occurrences
    among the matching lines of all files; items that never occur are absent. *)
Theorem C01_item_frequencies : forall {L M} (match_line : L -> option M) (get_type : M -> pystr) (files : list (list L)) (k : pystr),
  dget (if_process_results (map (if_do_process_job match_line get_type) files)) k =
  let n := count k (map get_type (matches_of match_line (concat files))) in
  if n =? 0 then None else Some (Z.of_nat n).
Proof. exact @item_freq. Qed.
Print Assumptions C01_item_frequencies.
Example C01_ex : if_process_results (map (if_do_process_job ex_match ex_id) [ex_lines; ex_short; ex_short]) =
  [(u "the", 2); (u "cat", 1); (u "sat", 1); (u "on", 1); (u "mat", 1); (u "yes", 1); (u "a", 2); (u "b", 2)]%Z.
Proof. vm_compute. reflexivity. Qed.

(** C03.  After any sequence [s] of updates, the focus is the element received [rspan] updates ago, the left
    buffer holds the [lspan] elements before it and the right buffer the [rspan] after it, in order. *)
Theorem C03_window_contents : forall {A} (lspan rspan : nat) (s : list (option A)),
  let w := fold_left win_update s (win_init lspan rspan) in
  let f := (Z.of_nat (length s) - 1 - Z.of_nat rspan)%Z in
  length (left w) = lspan /\ length (right w) = rspan /\ node w = at_pos s f /\
  (forall i, i < lspan -> nth_error (left w) i = Some (at_pos s (f - Z.of_nat lspan + Z.of_nat i))) /\
  (forall i, i < rspan -> nth_error (right w) i = Some (at_pos s (f + 1 + Z.of_nat i))).
Proof. exact @window_contents. Qed.
Print Assumptions C03_window_contents.
Example C03_ex : let w := fold_left win_update [Some 1; Some 2; Some 3; Some 4; None] (win_init 2 2) in
  left w = [Some 1; Some 2] /\ node w = Some 3 /\ right w = [Some 4; None].
Proof. vm_compute. auto. Qed.

(** C04.  The count of (t, c) is the number of pairs of positions of the same segment whose types are t and c
    and whose distance is within the spans.  False of the code: *)
Theorem C04_cooccurrence_counts_refuted :
  exists (l r : nat) (lines : list pystr) (st : colst) (t c : pystr),
    ex_col l r lines = Ok st /\
    cell (c_mtx st) t c <>
    Z.of_nat (sumn (map (fun xs => cooc (fun x => ex_id (fst x)) (fun x => ex_id (fst x)) l r xs t c) (segments ex_match ex_is_sep lines))).
Proof.
  exists 2, 2, ex_short. eexists. exists (u "b"), (u "a"). split; [vm_compute; reflexivity|]. vm_compute. discriminate.
Qed.
Print Assumptions C04_cooccurrence_counts_refuted.
(** True when no segment has between 2 and [r] tokens; missing: the segments with 2 <= n <= r (C05 says exactly
    what happens there).  Row and column vocabularies given as filters restrict the counts. *)
Theorem C04_cooccurrence_counts_partial : forall {L M} (match_line : L -> option M) (separator : L -> bool)
    (get_type get_colloc : M -> pystr) (rv : vocab) (l r : nat) (lines : list L) (st : colst),
  (forall xs, In xs (segments match_line separator lines) -> length xs <= 1 \/ r < length xs) ->
  exists st', col_update_one_file match_line separator get_type get_colloc rv l r lines st = Ok st' /\
    forall t c, cell (c_mtx st') t c = (cell (c_mtx st) t c +
      if allowed rv t && allowed (c_col st) c
      then Z.of_nat (sumn (map (fun xs => cooc (fun x => get_type (fst x)) (fun x => get_colloc (fst x)) l r xs t c)
                               (segments match_line separator lines)))
      else 0)%Z.
Proof. exact @counts_long. Qed.
Print Assumptions C04_cooccurrence_counts_partial.
Example C04_ex : (forall xs, In xs (segments ex_match ex_is_sep ex_lines) -> length xs <= 1 \/ 3 < length xs) /\
  rmap (fun st => cell (c_mtx st) (u "the") (u "sat")) (ex_col 2 3 ex_lines) = Ok 2%Z.
Proof. split; [|vm_compute; reflexivity]. intros xs. vm_compute. intuition; subst; cbn; lia. Qed.
(** In every case no pair is invented. *)
Theorem C04_never_overcounts_partial : forall {L M} (match_line : L -> option M) (separator : L -> bool)
    (get_type get_colloc : M -> pystr) (rv : vocab) (l r : nat) (lines : list L) (st : colst),
  exists st', col_update_one_file match_line separator get_type get_colloc rv l r lines st = Ok st' /\
    forall t c, (cell (c_mtx st) t c <= cell (c_mtx st') t c <= cell (c_mtx st) t c +
       Z.of_nat (sumn (map (fun xs => cooc (fun x => get_type (fst x)) (fun x => get_colloc (fst x)) l r xs t c)
                           (segments match_line separator lines))))%Z.
Proof. exact @counts_upper. Qed.
Print Assumptions C04_never_overcounts_partial.

(** C05.  Exactly the first [foci_spec r n] tokens of a segment of [n] tokens are counted as targets, each with
    all its contexts. *)
Theorem C05_processed_targets : forall {L M} (match_line : L -> option M) (separator : L -> bool)
    (get_type get_colloc : M -> pystr) (rv : vocab) (l r : nat) (lines : list L) (st : colst),
  exists st', col_update_one_file match_line separator get_type get_colloc rv l r lines st = Ok st' /\
    forall t c, cell (c_mtx st') t c = (cell (c_mtx st) t c +
      if allowed rv t && allowed (c_col st) c
      then Z.of_nat (sumn (map (fun xs => cooc_upto (foci_spec r (length xs)) (fun x => get_type (fst x)) (fun x => get_colloc (fst x)) l r xs t c)
                               (segments match_line separator lines)))
      else 0)%Z.
Proof. exact @counts_exact. Qed.
Print Assumptions C05_processed_targets.
Example C05_ex : rmap (fun st => (cell (c_mtx st) (u "a") (u "b"), cell (c_mtx st) (u "b") (u "a"))) (ex_col 2 2 ex_short) = Ok (1, 0)%Z.
Proof. vm_compute. reflexivity. Qed.

(** C06.  Equal spans, same format and same vocabulary for targets and contexts give a symmetric matrix.
    False of the code: *)
Theorem C06_symmetry_refuted : exists (s : nat) (lines : list pystr) (st : colst) (t c : pystr),
  ex_col s s lines = Ok st /\ cell (c_mtx st) t c <> cell (c_mtx st) c t.
Proof. exists 2, ex_short. eexists. exists (u "a"), (u "b"). split; [vm_compute; reflexivity|]. vm_compute. discriminate. Qed.
Print Assumptions C06_symmetry_refuted.
(** True when no segment has between 2 and [s] tokens. *)
Theorem C06_symmetry_partial : forall {L M} (match_line : L -> option M) (separator : L -> bool) (get_type : M -> pystr)
    (v : vocab) (s : nat) (lines : list L) (st : colst),
  (forall xs, In xs (segments match_line separator lines) -> length xs <= 1 \/ s < length xs) ->
  col_update_one_file match_line separator get_type get_type v s s lines (ColSt [] v) = Ok st ->
  forall t c, cell (c_mtx st) t c = cell (c_mtx st) c t.
Proof. exact @counts_symmetric. Qed.
Print Assumptions C06_symmetry_partial.
Example C06_ex : (forall xs, In xs (segments ex_match ex_is_sep ex_lines) -> length xs <= 1 \/ 3 < length xs) /\
  rmap (fun st => (cell (c_mtx st) (u "on") (u "the"), cell (c_mtx st) (u "the") (u "on"))) (ex_col 3 3 ex_lines) = Ok (2, 2)%Z.
Proof. split; [|vm_compute; reflexivity]. intros xs. vm_compute. intuition; subst; cbn; lia. Qed.

(** C07.  A separator line isolates what precedes it from what follows it ... *)
Theorem C07_separators_isolate : forall {L M} (match_line : L -> option M) (separator : L -> bool)
    (get_type get_colloc : M -> pystr) (rv cv : vocab) (l r : nat) (a : list L) (s : L) (b : list L) (sa sb sab : colst),
  match_line s = None -> separator s = true ->
  col_update_one_file match_line separator get_type get_colloc rv l r a (ColSt [] cv) = Ok sa ->
  col_update_one_file match_line separator get_type get_colloc rv l r b (ColSt [] cv) = Ok sb ->
  col_update_one_file match_line separator get_type get_colloc rv l r (a ++ s :: b) (ColSt [] cv) = Ok sab ->
  forall t c, cell (c_mtx sab) t c = (cell (c_mtx sa) t c + cell (c_mtx sb) t c)%Z.
Proof. exact @separator_isolates. Qed.
Print Assumptions C07_separators_isolate.
Example C07_ex : ex_match (u "</s>") = None /\ ex_is_sep (u "</s>") = true /\
  rmap (fun st => (cell (c_mtx st) (u "a") (u "b"), cell (c_mtx st) (u "b") (u "c"))) (ex_col 1 1 (map u ["a"; "b"; "</s>"; "c"; "a"; "b"]%string)) = Ok (2, 0)%Z.
Proof. vm_compute. auto. Qed.
(** ... and a line that is neither a token nor a separator changes nothing. *)
Theorem C07_other_lines_ignored : forall {L M} (match_line : L -> option M) (separator : L -> bool)
    (get_type get_colloc : M -> pystr) (rv cv : vocab) (l r : nat) (a : list L) (x : L) (b : list L) (sa sb : colst),
  match_line x = None -> separator x = false ->
  col_update_one_file match_line separator get_type get_colloc rv l r (a ++ x :: b) (ColSt [] cv) = Ok sa ->
  col_update_one_file match_line separator get_type get_colloc rv l r (a ++ b) (ColSt [] cv) = Ok sb ->
  forall t c, cell (c_mtx sa) t c = cell (c_mtx sb) t c.
Proof. exact @other_line_ignored. Qed.
Print Assumptions C07_other_lines_ignored.
Example C07_other_ex : ex_match (u "#") = None /\ ex_is_sep (u "#") = false.
Proof. vm_compute. auto. Qed.

(** C08.  Counting with row and column vocabularies is the same as counting without and keeping the cells whose
    row is in the row vocabulary and whose column is in the column vocabulary. *)
Theorem C08_vocab_filter_restricts : forall {L M} (match_line : L -> option M) (separator : L -> bool)
    (get_type get_colloc : M -> pystr) (rv cv : vocab) (l r : nat) (lines : list L) (st stu : colst),
  col_update_one_file match_line separator get_type get_colloc rv l r lines (ColSt [] cv) = Ok st ->
  col_update_one_file match_line separator get_type get_colloc (vocab_init false []) l r lines (ColSt [] (vocab_init false [])) = Ok stu ->
  forall t c, cell (c_mtx st) t c = if allowed rv t && allowed cv c then cell (c_mtx stu) t c else 0%Z.
Proof. exact @filter_restricts. Qed.
Print Assumptions C08_vocab_filter_restricts.
Example C08_ex : let rv := vocab_init false [(u "the", 5%Z)] in let cv := vocab_init false [(u "sat", 1%Z); (u "on", 1%Z)] in
  rmap (fun st => map (fun c => cell (c_mtx st) (u "the") (u c)) ["sat"; "on"; "cat"]%string)
    (col_update_one_file ex_match ex_is_sep ex_id ex_id rv 2 2 ex_lines (ColSt [] cv)) = Ok [2; 1; 0]%Z.
Proof. vm_compute. reflexivity. Qed.

(** C09.  A row total is at most (left span + right span) times the number of occurrences of the target. *)
Theorem C09_row_total_bound : forall {L M} (match_line : L -> option M) (separator : L -> bool)
    (get_type get_colloc : M -> pystr) (rv cv : vocab) (l r : nat) (lines : list L) (st : colst) (t : pystr),
  col_update_one_file match_line separator get_type get_colloc rv l r lines (ColSt [] cv) = Ok st ->
  (row_total (c_mtx st) t <= Z.of_nat (l + r) * Z.of_nat (count t (map get_type (matches_of match_line lines))))%Z.
Proof. exact @row_bound. Qed.
Print Assumptions C09_row_total_bound.
Example C09_ex : rmap (fun st => row_total (c_mtx st) (u "the")) (ex_col 2 2 ex_lines) = Ok 5%Z.
Proof. vm_compute. reflexivity. Qed.

(** C11.  With a right span of at least 1, the tokens retrieved for a query type are exactly its occurrences, in
    order, each with exactly its contexts in the segment (restricted to the column vocabulary when it is not
    empty); other types are not in the result. *)
Theorem C11_tokens_exact : forall {L M} (match_line : L -> option M) (separator : L -> bool)
    (get_type get_colloc : M -> pystr) (cv : vocab) (l r : nat) (lines : list L) (qs : list pystr), 0 < r ->
  exists d, tok_update_one_file match_line separator get_type get_colloc cv l r lines (tok_init qs) = Ok d /\
    forall t, dget d t =
      if mem t qs
      then Some (flat_map (seg_tokens get_type (fun x => if v_len cv =? 0 then true else v_contains cv (get_colloc (fst x))) l r t)
                          (segments match_line separator lines))
      else None.
Proof. exact @tokens_exact. Qed.
Print Assumptions C11_tokens_exact.
Theorem C11_each_occurrence_once : forall {L M} (match_line : L -> option M) (separator : L -> bool)
    (get_type get_colloc : M -> pystr) (cv : vocab) (l r : nat) (lines : list L) (qs : list pystr) d t toks, 0 < r ->
  tok_update_one_file match_line separator get_type get_colloc cv l r lines (tok_init qs) = Ok d ->
  dget d t = Some toks ->
  map tk_node toks = filter (fun x => eqb (get_type (fst x)) t) (concat (segments match_line separator lines)) /\
  length toks = count t (map get_type (matches_of match_line lines)).
Proof. exact @tokens_each_once. Qed.
Print Assumptions C11_each_occurrence_once.
Example C11_ex : ex_tok 1 2 ex_short [u "b"; u "z"] =
  Ok [(u "b", [{| tk_node := (u "b", 2); tk_left := [(u "a", 1)]; tk_right := [] |}]); (u "z", [])].
Proof. vm_compute. reflexivity. Qed.

(** C14.  Reading a file for tokens never fails.  False of the code: *)
Theorem C14_token_reading_total_refuted : exists (l r : nat) (lines : list pystr) (qs : list pystr),
  ex_tok l r lines qs = Err IndexError.
Proof. exists 5, 0, ex_short, [u "a"]. vm_compute. reflexivity. Qed.
Print Assumptions C14_token_reading_total_refuted.
(** It fails exactly when the right span is 0 and some segment is empty. *)
Theorem C14_fails_exactly_when_partial : forall {L M} (match_line : L -> option M) (separator : L -> bool)
    (get_type get_colloc : M -> pystr) (cv : vocab) (l r : nat) (lines : list L) (d : tokdict),
  tok_update_one_file match_line separator get_type get_colloc cv l r lines d = Err IndexError <->
  r = 0 /\ In [] (segments match_line separator lines).
Proof. exact @tok_file_fails. Qed.
Print Assumptions C14_fails_exactly_when_partial.
Theorem C14_otherwise_succeeds_partial : forall {L M} (match_line : L -> option M) (separator : L -> bool)
    (get_type get_colloc : M -> pystr) (cv : vocab) (l r : nat) (lines : list L) (d : tokdict),
  (r = 0 -> ~ In [] (segments match_line separator lines)) ->
  exists d', tok_update_one_file match_line separator get_type get_colloc cv l r lines d = Ok d' /\
    dkeys d' = dkeys d /\
    forall t, dget d' t = match dget d t with
      | Some toks => Some (toks ++ flat_map (seg_tokens get_type (tok_keep get_colloc cv) l r t) (segments match_line separator lines))
      | None => None
      end.
Proof. exact @tok_file. Qed.
Print Assumptions C14_otherwise_succeeds_partial.
Example C14_ex : ~ In [] (segments ex_match ex_is_sep (map u ["a"; "</s>"; "b"]%string)).
Proof. vm_compute. intuition discriminate. Qed.
