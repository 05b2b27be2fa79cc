(** * Model of corpus reading: the sliding window (nephosem/core/terms.py), the file template method
      (nephosem/core/handler.py) and the per-file part of ItemFreqHandler, ColFreqHandler and
      TokenHandler (nephosem/models/typetoken.py). *)
From Coq Require Import NArith ZArith Bool Arith List.
From Verif Require Import Base VocabModel.
Import ListNotations.

(** Python [while cond: body] with an explicit bound on the number of iterations; [None] when the
    bound is exhausted while the condition still holds.  The proofs show it is never exhausted. *)
Fixpoint while_fuel {S} (fuel : nat) (cond : S -> bool) (body : S -> S) (s : S) : option S :=
  if cond s then match fuel with O => None | S f => while_fuel f cond body (body s) end else Some s.

Definition is_some {A} (x : option A) : bool := match x with Some _ => true | None => false end.

(** ** class Window, terms.py:414-473 *)
Section Window.
  Context {A : Type}.
  Record window := Window {
    left_span : nat; right_span : nat;
    left : list (option A); node : option A; right : list (option A) }.

  (** [deque(maxlen=m)].append(x): drops from the left beyond [m] elements. *)
  Definition dq_append (m : nat) (l : list (option A)) (x : option A) : list (option A) :=
    skipn (length l + 1 - m) (l ++ [x]).

  (** Window.init_span, terms.py:437-442 *)
  Definition init_span (size : nat) : list (option A) := repeat None size.

  (** Window.__init__, terms.py:430-435 *)
  Definition win_init (lspan rspan : nat) : window :=
    {| left_span := lspan; right_span := rspan; left := init_span lspan; node := None; right := init_span rspan |}.

  (** Window.update, terms.py:444-465.  [right[0]] cannot fail: the right deque always has
      [right_span] elements (lemma [win_lengths]). *)
  Definition win_update (w : window) (cur : option A) : window :=
    let left' := if 0 <? left_span w then dq_append (left_span w) (left w) (node w) else left w in
    if 0 <? right_span w then
      {| left_span := left_span w; right_span := right_span w; left := left';
         node := match right w with x :: _ => x | [] => None end;
         right := dq_append (right_span w) (right w) cur |}
    else
      {| left_span := left_span w; right_span := right_span w; left := left'; node := cur; right := right w |}.
End Window.
Arguments window : clear implicits.

Section Handlers.
  (** [L]: decoded and stripped corpus line; [M]: regular expression match object. *)
  Context {L M : Type}.
  (** CorpusFormatter.match_line, terms.py:640-650 (form=None); separator_line_machine, 652-653;
      get_type 676-678; get_colloc 685-687.  The regular expressions are arbitrary. *)
  Variable match_line : L -> option M.
  Variable separator : L -> bool.
  Variable get_type : M -> pystr.
  Variable get_colloc : M -> pystr.

  (** A window node is [(match, lid)]. *)
  Definition wnode := (M * nat)%type.

  (** ** BaseHandler.update_one_file, handler.py:313-340 *)
  Section OneFile.
    Context {D : Type}.
    (** update_one_match and process_right_window of the concrete handler.  The latter may raise. *)
    Variable one_match : D -> window wnode -> D.
    Variable flush : D -> window wnode -> res D.
    Variables lspan rspan : nat.

    (** Body of the [for line in fin] loop, handler.py:325-338; [st] is (lid, win, data). *)
    Definition file_step (st : nat * window wnode * D) (line : L) : res (nat * window wnode * D) :=
      let '(lid, win, data) := st in
      let lid := S lid in
      match match_line line with
      | None =>
          if separator line then
            rbind (flush data win) (fun data => Ok (lid, win_init lspan rspan, data))
          else Ok (lid, win, data)
      | Some m =>
          let win := win_update win (Some (m, lid)) in
          Ok (lid, win, one_match data win)
      end.

    (** handler.py:318-340.  Simplified: the file id passed along is left out (constant per file). *)
    Definition update_one_file (lines : list L) (data : D) : res D :=
      rbind (rfold file_step lines (0, win_init lspan rspan, data))
            (fun st => let '(_, win, data) := st in flush data win).
  End OneFile.

  (** ** ItemFreqHandler *)
  (** ItemFreqHandler.update_one_file, typetoken.py:146-166 *)
  Definition if_update_one_file (lines : list L) (data : vocab) : vocab :=
    fold_left (fun v line => match match_line line with
                             | None => v
                             | Some m => v_incr v (get_type m) 1
                             end) lines data.
  (** ItemFreqHandler._do_process_job, typetoken.py:126-144 *)
  Definition if_do_process_job (lines : list L) : dict pystr Z :=
    fd (if_update_one_file lines (vocab_init false [])).
  (** Inner loop of ItemFreqHandler._process_results, typetoken.py:177-180 *)
  Definition if_add (v : dict pystr Z) (res : dict pystr Z) : dict pystr Z :=
    fold_left (fun v kv =>
      let v := if dmem v (fst kv) then v else dset v (fst kv) 0%Z in
      match dget v (fst kv) with
      | Some n => dset v (fst kv) (n + snd kv)%Z
      | None => v (* unreachable: the key was just inserted *)
      end) res v.
  (** ItemFreqHandler._process_results on the list of dicts read from the queue, typetoken.py:168-181 *)
  Definition if_process_results (results : list (dict pystr Z)) : dict pystr Z :=
    fold_left if_add results [].

  (** ** ColFreqHandler *)
  (** Nested defaultdict of counts (typetoken.py:243). *)
  Definition mtxdict := dict pystr (dict pystr Z).
  (** [mtx_dict[t][c] += 1] *)
  Definition bump (m : mtxdict) (t c : pystr) : mtxdict :=
    let row := match dget m t with Some r => r | None => [] end in
    let n := match dget row c with Some n => n | None => 0%Z end in
    dset m t (dset row c (n + 1)%Z).

  (** Mutable data of ColFreqHandler: the nested dict and the column vocabulary. *)
  Record colst := ColSt { c_mtx : mtxdict; c_col : vocab }.

  (** One context slot, typetoken.py:396-409 (left) and 412-423 (right). *)
  Definition col_slot (t : pystr) (st : colst) (x : option wnode) : colst :=
    match x with
    | None => st
    | Some (m, _) =>
        let c := get_colloc m in
        if negb (filt (c_col st)) then
          {| c_mtx := bump (c_mtx st) t c; c_col := v_incr (c_col st) c 1 |}
        else if v_contains (c_col st) c then
          {| c_mtx := bump (c_mtx st) t c; c_col := c_col st |}
        else st
    end.

  (** ColFreqHandler.update_one_match, typetoken.py:361-423.  [range(lspan)] / [range(rspan)]
      enumerate the whole deques, whose lengths are the spans (lemma [win_lengths]). *)
  Definition col_match (row_vocab : vocab) (st : colst) (w : window wnode) : colst :=
    match node w with
    | None => st
    | Some (m, _) =>
        let t := get_type m in
        if (if filt row_vocab then v_contains row_vocab t else true) then
          fold_left (col_slot t) (right w) (fold_left (col_slot t) (left w) st)
        else st
    end.

  (** ColFreqHandler.process_right_window, typetoken.py:425-446. *)
  Definition col_flush (row_vocab : vocab) (st : colst) (w : window wnode) : option colst :=
    match node w with
    | None =>
        let r := right_span w in
        (* i = 0; while win.node is None and i < win.right_span: ... *)
        match while_fuel r (fun s : nat * window wnode => negb (is_some (node (snd s))) && (fst s <? r))
                (fun s => (S (fst s), win_update (snd s) None)) (0, w) with
        | None => None
        | Some (i, w) =>
            (* while win.node and i < win.right_span: ... *)
            option_map (fun s => snd s)
              (while_fuel r (fun s : nat * window wnode * colst => is_some (node (snd (fst s))) && (fst (fst s) <? r))
                 (fun s => let '(i, w, st) := s in (S i, win_update w None, col_match row_vocab st w)) (i, w, st))
        end
    | Some _ =>
        option_map snd
          (while_fuel (S (right_span w)) (fun s : window wnode * colst => is_some (node (fst s)))
             (fun s => let w := win_update (fst s) None in (w, col_match row_vocab (snd s) w)) (w, st))
    end.
  (** Never [None] (lemma); injected into [res] for the template method. *)
  Definition col_flush_res (row_vocab : vocab) (st : colst) (w : window wnode) : res colst :=
    match col_flush row_vocab st w with Some s => Ok s | None => Err TypeError end.

  Definition col_update_one_file (row_vocab : vocab) (lspan rspan : nat) (lines : list L) (st : colst) : res colst :=
    update_one_file (col_match row_vocab) (col_flush_res row_vocab) lspan rspan lines st.

  (** ** TokenHandler *)
  (** TokenNode built at typetoken.py:614-615: match, line id, left and right collocates. *)
  Record token := Token { tk_node : wnode; tk_left : list wnode; tk_right : list wnode }.
  (** type2toks, typetoken.py:509-510: type string -> tokens of its TypeNode. *)
  Definition tokdict := dict pystr (list token).

  Definition somes {X} (l : list (option X)) : list X :=
    flat_map (fun o => match o with Some x => [x] | None => [] end) l.

  (** TokenHandler.update_one_match, typetoken.py:571-616.  Simplified: [to_colloc()] on the ItemNode is
      [get_colloc] of its match (they agree when the collocate format uses the columns word, lemma, pos). *)
  Definition tok_match (col_vocab : vocab) (d : tokdict) (w : window wnode) : tokdict :=
    match node w with
    | None => d
    | Some (m, lid) =>
        let t := get_type m in
        match dget d t with
        | None => d
        | Some toks =>
            let keep := if v_len col_vocab =? 0 then fun _ => true
                        else fun x : wnode => v_contains col_vocab (get_colloc (fst x)) in
            dset d t (toks ++ [{| tk_node := (m, lid);
                                   tk_left := filter keep (somes (left w));
                                   tk_right := filter keep (somes (right w)) |}])
        end
    end.

  (** Last element of the right deque; [right[-1]] raises IndexError when the deque is empty. *)
  Definition last_right (w : window wnode) : res (option wnode) :=
    match rev (right w) with [] => Err IndexError | x :: _ => Ok x end.

  (** TokenHandler.process_right_window, typetoken.py:618-641. *)
  Definition tok_flush_special (col_vocab : vocab) (d : tokdict) (w : window wnode) : option tokdict :=
    match while_fuel (right_span w) (fun w : window wnode => negb (is_some (node w))) (fun w => win_update w None) w with
    | None => None
    | Some w =>
        option_map snd
          (while_fuel (S (right_span w)) (fun s : window wnode * tokdict => is_some (node (fst s)))
             (fun s => (win_update (fst s) None, tok_match col_vocab (snd s) (fst s))) (w, d))
    end.
  Definition tok_flush_normal (col_vocab : vocab) (d : tokdict) (w : window wnode) : option tokdict :=
    option_map snd
      (while_fuel (S (right_span w)) (fun s : window wnode * tokdict => is_some (node (fst s)))
         (fun s => let w := win_update (fst s) None in (w, tok_match col_vocab (snd s) w)) (w, d)).
  Definition tok_flush (col_vocab : vocab) (d : tokdict) (w : window wnode) : res tokdict :=
    let ret o := match o with Some d => Ok d | None => Err TypeError (* never, lemma *) end in
    match node w with
    | Some _ => ret (tok_flush_normal col_vocab d w)
    | None =>
        rbind (last_right w) (fun x =>
          match x with
          | Some _ => ret (tok_flush_special col_vocab d w)
          | None => ret (tok_flush_normal col_vocab d w)
          end)
    end.

  Definition tok_update_one_file (col_vocab : vocab) (lspan rspan : nat) (lines : list L) (d : tokdict) : res tokdict :=
    update_one_file (tok_match col_vocab) (tok_flush col_vocab) lspan rspan lines d.

  (** TokenHandler.__init__, typetoken.py:509-510: one empty TypeNode per query. *)
  Definition tok_init (queries : list pystr) : tokdict := dict_of (map (fun q => (q, [])) queries).
End Handlers.
