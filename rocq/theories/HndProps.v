(** * Claims about the calls of a ColFreqHandler: C163. *)
From Coq Require Import String NArith ZArith Bool Arith Lia List.
From Verif Require Import Base BaseLemmas VocabModel CorpusModel CorpusSpec CorpusExamples ParModel ParProofs MxModel MxSpec ParColModel ParColSpec
  ParColProofs ParColProps HndModel HndSpec HndProofs.
Import ListNotations.

(** ** C163 *)
(** After any history of a handler (calls that succeed or fail, changes of the vocabularies by their owner), a call counts for
    the rows that were handed over last and had items then, as they are now, and for the columns that were kept last, as they
    are now; without any of those, for all collocates. *)
Theorem C163_counts : forall {L M} (match_line : L -> option M) separator (get_type get_colloc : M -> pystr) l r h0 row col es h o,
  history match_line separator get_type get_colloc l r (h0, cf_new h0 row col) es = Some (h, o) ->
  forall nw sched contents row' col' o' x, 1 <= nw ->
  build_col_freq match_line separator get_type get_colloc l r h nw sched (Ok (map Ok contents)) row' col' o = Some (o', x) ->
  forall i, last_rows h0 (New row col :: map Ev es ++ [Ev (Call nw sched (Ok (map Ok contents)) row' col')]) i ->
  nonempty (h i) -> filt (h i) = true -> dwf (fd (h i)) ->
  forall cv, usable cv ->
  (exists j, last_cols h0 (New row col :: map Ev es ++ [Ev (Call nw sched (Ok (map Ok contents)) row' col')]) j /\ cv = h j) \/
  (no_cols h0 (New row col :: map Ev es ++ [Ev (Call nw sched (Ok (map Ok contents)) row' col')]) /\ cv = vocab_init false []) ->
  exists t, x = Ok t /\ holds_counts (h i) cv t (corpus_pairs match_line separator get_type get_colloc (h i) cv l r contents).
Proof. exact @call_counts. Qed.
Print Assumptions C163_counts.
(** [h] above is what the changes make of the objects; the calls change none of them. *)
Theorem C163_objects : forall {L M} (match_line : L -> option M) separator (get_type get_colloc : M -> pystr) l r h0 row col es h o,
  history match_line separator get_type get_colloc l r (h0, cf_new h0 row col) es = Some (h, o) -> h = objs_after h0 (map (@Ev L) es).
Proof. exact @call_objs. Qed.
Print Assumptions C163_objects.
(** Whatever the history, rows were handed over or not, and the last ones are unique; the same for columns. *)
Theorem C163_defined : forall {L M} (match_line : L -> option M) separator (get_type get_colloc : M -> pystr) l r h0 row col es h o,
  history match_line separator get_type get_colloc l r (h0, cf_new h0 row col) es = Some (h, o) ->
  ((exists i, last_rows h0 (New row col :: map Ev es) i) \/ no_rows h0 (New row col :: map Ev es)) /\
  ((exists i, last_cols h0 (New row col :: map Ev es) i) \/ no_cols h0 (New row col :: map Ev es)).
Proof. exact @hist_rows. Qed.
Print Assumptions C163_defined.
Theorem C163_unique : forall {L} h0 (acts : list (action L)) i j,
  (last_rows h0 acts i -> last_rows h0 acts j -> i = j) /\ (last_cols h0 acts i -> last_cols h0 acts j -> i = j).
Proof. intros. split; [apply rows_unique|apply cols_unique]. Qed.
Print Assumptions C163_unique.
(** Without rows that have items, None is returned: nothing is read. *)
Theorem C163_no_rows : forall {L M} (match_line : L -> option M) separator (get_type get_colloc : M -> pystr) l r h0 row col es h o,
  history match_line separator get_type get_colloc l r (h0, cf_new h0 row col) es = Some (h, o) ->
  forall nw sched files row' col' o' x,
  build_col_freq match_line separator get_type get_colloc l r h nw sched (Ok files) row' col' o = Some (o', x) ->
  ~ rows_known h0 (New row col :: map Ev es ++ [Ev (Call nw sched (Ok files) row' col')]) -> x = Ok None.
Proof. exact @call_norows. Qed.
Print Assumptions C163_no_rows.

(** The corpus of C10: a b a / b c . a *)
Definition ex_h : objs := fun i => match i with 0 => ex_rv | 1 => ex_cv | _ => no_vocab end.
Definition ex_call (row col : option nat) : event := Call 2 ex_csched (Ok (map Ok ex_cfiles)) row col.
Definition ex_build := build_col_freq ex_match ex_is_sep ex_id ex_id 1 1.
Definition ex_hist := history ex_match ex_is_sep ex_id ex_id 1 1.
(** The rows come from the construction, the columns from the first call; the second call gives nothing. *)
Example C163_ex : exists h o o' x,
  ex_hist (ex_h, cf_new ex_h (Some 0) None) [ex_call None (Some 1); Call 1 [] (Err IOError) None (Some 0)] = Some (h, o) /\
  ex_build h 2 ex_csched (Ok (map Ok ex_cfiles)) None None o = Some (o', x) /\
  last_rows ex_h (New (Some 0) None :: map Ev [ex_call None (Some 1); Call 1 [] (Err IOError) None (Some 0)] ++ [Ev (ex_call None None)]) 0 /\
  nonempty (h 0) /\ filt (h 0) = true /\ dwf (fd (h 0)) /\
  last_cols ex_h (New (Some 0) None :: map Ev [ex_call None (Some 1); Call 1 [] (Err IOError) None (Some 0)] ++ [Ev (ex_call None None)]) 1 /\
  usable (h 1) /\
  match x with Ok (Some m) => tcols m = map u ["c"; "z"]%string /\ entries (tmx m) = [(1, 0, 1%Z)] | _ => False end.
Proof.
  eexists. eexists. eexists. eexists. split; [vm_compute; reflexivity|]. split; [vm_compute; reflexivity|]. split; [|split; [discriminate|split; [reflexivity|]]].
  - exists [], (New (Some 0) None). eexists. split; [reflexivity|]. split; [split; [discriminate|reflexivity]|].
    intros [|? [|? [|? ?]]] ? ? ? E; cbn in E; [injection E as <- <-|injection E as <- <- <-|injection E as <- <- <- <-|now destruct l];
      intros [_ K]; try discriminate K; exact K.
  - split; [repeat constructor; cbn; intuition discriminate|]. split; [|split; [right; split; [reflexivity|repeat constructor; cbn; intuition discriminate]|vm_compute; auto]].
    exists [New (Some 0) None]. eexists. eexists. split; [reflexivity|]. split.
    + split; [split; [discriminate|reflexivity]|]. exists 0. split; [|discriminate]. exists [], (New (Some 0) None). eexists. split; [reflexivity|].
      split; [split; [discriminate|reflexivity]|]. intros [|? [|? ?]] ? ? ? E; cbn in E; [injection E as <- <-|discriminate|discriminate].
      intros [_ K]; discriminate K.
    + intros [|? [|? [|? ?]]] ? ? ? E; cbn in E; [injection E as <- <-|injection E as <- <- <-|discriminate|discriminate];
      intros [[_ K] _]; try discriminate K; exact K.
Qed.
(** A change of a vocabulary by its owner is seen, and rows that were emptied are as none. *)
Example C163_ex_empty : exists h o o' x,
  ex_hist (ex_h, cf_new ex_h (Some 0) None) [Change 0 no_vocab] = Some (h, o) /\
  ex_build h 2 ex_csched (Ok (map Ok ex_cfiles)) None None o = Some (o', x) /\
  ~ rows_known ex_h (New (Some 0) None :: map Ev [Change 0 no_vocab] ++ [Ev (ex_call None None)]) /\ x = Ok None.
Proof.
  eexists. eexists. eexists. eexists. split; [vm_compute; reflexivity|]. split; [vm_compute; reflexivity|]. split; [|reflexivity].
  intros (i & (a1 & a & a2 & E & [N K] & _) & Ni).
  destruct a1 as [|b1 [|b2 [|b3 [|? ?]]]]; cbn in E; [injection E as <- <-|injection E as <- <- <-|injection E as <- <- <- <-|discriminate E|discriminate E].
  - cbn in K. injection K as <-. now apply Ni.
  - exact K.
  - discriminate K.
Qed.

(** What the documentation suggests: a call without column vocabulary counts all collocates.  It does not: the columns of an
    earlier call stay. *)
Theorem C163_stateless_refuted : exists h0 es h o o' t,
  ex_hist (h0, cf_new h0 None None) es = Some (h, o) /\
  ex_build h 2 ex_csched (Ok (map Ok ex_cfiles)) (Some 0) None o = Some (o', Ok t) /\
  filt (h 0) = true /\ dwf (fd (h 0)) /\
  ~ holds_counts (h 0) no_vocab t (corpus_pairs ex_match ex_is_sep ex_id ex_id (h 0) no_vocab 1 1 ex_cfiles).
Proof.
  exists ex_h, [ex_call (Some 0) (Some 1)]. eexists. eexists. eexists. eexists. split; [vm_compute; reflexivity|]. split; [vm_compute; reflexivity|].
  split; [reflexivity|]. split; [repeat constructor; cbn; intuition discriminate|].
  intros (_ & _ & _ & V & _). specialize (V (u "a"%string) (u "b"%string)). revert V. vm_compute. discriminate.
Qed.
Print Assumptions C163_stateless_refuted.
(** An empty vocabulary that is handed over is honoured.  It is taken for no vocabulary: the earlier rows stay. *)
Theorem C163_empty_refuted : exists h0 h o o' t,
  ex_hist (h0, cf_new h0 (Some 0) None) [] = Some (h, o) /\ fd (h 2) = [] /\
  ex_build h 2 ex_csched (Ok (map Ok ex_cfiles)) (Some 2) None o = Some (o', Ok t) /\
  ~ holds_counts (h 2) no_vocab t (corpus_pairs ex_match ex_is_sep ex_id ex_id (h 2) no_vocab 1 1 ex_cfiles).
Proof.
  exists ex_h. eexists. eexists. eexists. eexists. split; [vm_compute; reflexivity|]. split; [reflexivity|]. split; [vm_compute; reflexivity|].
  intros (_ & _ & _ & V & _). specialize (V (u "a"%string) (u "b"%string)). revert V. vm_compute. discriminate.
Qed.
Print Assumptions C163_empty_refuted.
(** The last column vocabulary that was handed over (with items) is used.  It is not if the call had no rows: then the columns
    are forgotten, although rows would be kept. *)
Theorem C163_forgotten_refuted : exists h0 es h o o' t,
  ex_hist (h0, cf_new h0 None None) es = Some (h, o) /\ es = [ex_call None (Some 1)] /\ nonempty (h 1) /\
  ex_build h 2 ex_csched (Ok (map Ok ex_cfiles)) (Some 0) None o = Some (o', Ok t) /\
  ~ holds_counts (h 0) (h 1) t (corpus_pairs ex_match ex_is_sep ex_id ex_id (h 0) (h 1) 1 1 ex_cfiles).
Proof.
  exists ex_h, [ex_call None (Some 1)]. eexists. eexists. eexists. eexists. split; [vm_compute; reflexivity|]. split; [reflexivity|]. split; [discriminate|].
  split; [vm_compute; reflexivity|].
  intros (_ & _ & _ & V & _). specialize (V (u "a"%string) (u "b"%string)). revert V. vm_compute. discriminate.
Qed.
Print Assumptions C163_forgotten_refuted.
(** A vocabulary is used as it was when it was handed over.  It is not: the handler keeps the object, not a copy. *)
Theorem C163_snapshot_refuted : exists h0 v h o o' t,
  ex_hist (h0, cf_new h0 (Some 0) None) [Change 0 v] = Some (h, o) /\ nonempty v /\ filt v = true /\ dwf (fd v) /\
  ex_build h 2 ex_csched (Ok (map Ok ex_cfiles)) None None o = Some (o', Ok t) /\
  ~ holds_counts (h0 0) no_vocab t (corpus_pairs ex_match ex_is_sep ex_id ex_id (h0 0) no_vocab 1 1 ex_cfiles).
Proof.
  exists ex_h, (vocab_init false [(u "b"%string, 1%Z)]). eexists. eexists. eexists. eexists. split; [vm_compute; reflexivity|]. split; [discriminate|].
  split; [reflexivity|]. split; [repeat constructor; cbn; intuition discriminate|]. split; [vm_compute; reflexivity|].
  intros (_ & _ & _ & V & _). specialize (V (u "a"%string) (u "b"%string)). revert V. vm_compute. discriminate.
Qed.
Print Assumptions C163_snapshot_refuted.
(** The result None tells that nothing co-occurs.  It also stands for missing rows; the handler tells so only in the log. *)
Theorem C163_none_refuted : exists h0 o' contents,
  ex_build h0 2 ex_csched (Ok (map Ok contents)) None None (cf_new h0 None None) = Some (o', Ok None) /\
  exists t c, (corpus_pairs ex_match ex_is_sep ex_id ex_id ex_rv no_vocab 1 1 contents t c > 0)%Z.
Proof. exists ex_h. eexists. exists ex_cfiles. split; [vm_compute; reflexivity|]. exists (u "a"%string), (u "b"%string). vm_compute. reflexivity. Qed.
Print Assumptions C163_none_refuted.

(** ** Computed cases *)
Definition handler_of (x : option (hnd * res (option (ttm Z)))) : option hnd := option_map fst x.
Definition columns_of (x : option (hnd * res (option (ttm Z)))) : option (option (list pystr)) :=
  option_map (fun ox => match snd ox with Ok (Some m) => Some (tcols m) | _ => None end) x.
Example C163_values :
  cf_new ex_h (Some 0) (Some 1) = Hnd (Some 0) (Some 1) /\ cf_new ex_h (Some 2) (Some 2) = Hnd None None /\
  (* the files fail: nothing is kept *)
  ex_build ex_h 2 ex_csched (Err IOError) (Some 1) (Some 1) (Hnd (Some 0) None) = Some (Hnd (Some 0) None, Err IOError) /\
  (* no rows: the rows that were handed over are kept, the columns are not *)
  ex_build (put ex_h 0 no_vocab) 2 ex_csched (Ok (map Ok ex_cfiles)) None (Some 1) (Hnd (Some 0) None) = Some (Hnd (Some 0) None, Ok None) /\
  (* the columns of the call count in that call *)
  columns_of (ex_build ex_h 2 ex_csched (Ok (map Ok ex_cfiles)) None (Some 1) (Hnd (Some 0) (Some 0))) = Some (Some (map u ["c"; "z"]%string)) /\
  handler_of (ex_build ex_h 2 ex_csched (Ok (map Ok ex_cfiles)) (Some 2) (Some 1) (Hnd (Some 0) (Some 0))) = Some (Hnd (Some 0) (Some 1)).
Proof. vm_compute. repeat split. Qed.
