(** * Claims about the pool counting co-occurrences: C10, C75, C76. *)
From Coq Require Import String NArith ZArith Bool Arith Lia Permutation List.
From Verif Require Import Base BaseLemmas VocabModel CorpusModel CorpusSpec CorpusExamples ParModel ParProofs MxModel MxSpec ParColModel ParColSpec ParColProofs.
Import ListNotations.

(** ** C10 *)
(** Executions are bounded and cannot get stuck before all workers are gone, whatever the vocabularies and files. *)
Theorem C10_terminates : forall {L M} (match_line : L -> option M) separator (get_type get_colloc : M -> pystr) rv cv l r nw files sched st,
  run (cf_job match_line separator get_type get_colloc rv l r) (cf_finish rv cv) (cf_start cv nw files) sched = Some st ->
  length sched <= 4 * length files + 6 * nw /\
  ((forall a, pstep (cf_job match_line separator get_type get_colloc rv l r) (cf_finish rv cv) st a = None) -> joined st = true).
Proof.
  intros * E. split.
  - apply run_bound in E. unfold cf_start in E. rewrite mu_start in E. lia.
  - intros H. destruct (joined st) eqn:Jn; auto.
    destruct (progress (cf_init cv) _ _ _ _ st (reach (cf_init cv) _ _ nw files sched st E) Jn) as (a & st' & E').
    rewrite H in E'. discriminate.
Qed.
Print Assumptions C10_terminates.
(** With vocabularies that were made from non-empty dicts (or no column vocabulary), every finished run returns the
    matrix of the counts summed over all files; None if there is nothing to count. *)
Theorem C10_counts : forall {L M} (match_line : L -> option M) separator (get_type get_colloc : M -> pystr) rv cv l r,
  filt rv = true -> dwf (fd rv) -> any_column cv = true \/ (filt cv = true /\ dwf (fd cv)) ->
  forall nw contents sched st, 1 <= nw ->
  run (cf_job match_line separator get_type get_colloc rv l r) (cf_finish rv cv) (cf_start cv nw (map Ok contents)) sched = Some st ->
  joined st = true ->
  exists o, cf_result st = Ok o /\
    holds_counts rv cv o (corpus_pairs match_line separator get_type get_colloc rv cv l r contents).
Proof. exact @col_pool. Qed.
Print Assumptions C10_counts.
(** Two runs, with any numbers of workers, any schedules and the files in any order, return the same matrix. *)
Theorem C10_schedule_independent : forall {L M} (match_line : L -> option M) separator (get_type get_colloc : M -> pystr) rv cv l r,
  filt rv = true -> dwf (fd rv) -> any_column cv = true \/ (filt cv = true /\ dwf (fd cv)) ->
  forall nw nw' contents contents' sched sched' st st', 1 <= nw -> 1 <= nw' -> Permutation contents contents' ->
  run (cf_job match_line separator get_type get_colloc rv l r) (cf_finish rv cv) (cf_start cv nw (map Ok contents)) sched = Some st ->
  run (cf_job match_line separator get_type get_colloc rv l r) (cf_finish rv cv) (cf_start cv nw' (map Ok contents')) sched' = Some st' ->
  joined st = true -> joined st' = true ->
  match cf_result st, cf_result st' with
  | Ok None, Ok None => True
  | Ok (Some m), Ok (Some m') => trows m = trows m' /\ tcols m = tcols m' /\ forall t c, val m t c = val m' t c
  | _, _ => False
  end.
Proof.
  intros L M ml sep gt gc rv cv l r FR WR FC nw nw' contents contents' sched sched' st st' N N' P E E' Jn Jn'.
  destruct (col_pool ml sep gt gc rv cv l r FR WR FC nw contents sched st N E Jn) as (o & Eo & O).
  destruct (col_pool ml sep gt gc rv cv l r FR WR FC nw' contents' sched' st' N' E' Jn') as (o' & Eo' & O').
  rewrite Eo, Eo'. assert (O2 : holds_counts rv cv o' (corpus_pairs ml sep gt gc rv cv l r contents)).
  { eapply holds_ext; [exact FC| |exact O']. intros. unfold corpus_pairs. apply sumZ_perm, Permutation_map. symmetry. exact P. }
  pose proof (holds_unique rv cv o o' _ O O2) as H. destruct o as [m|], o' as [m'|]; exact H.
Qed.
Print Assumptions C10_schedule_independent.

Definition ex_rv : vocab := vocab_init false [(u "a", 3%Z); (u "b", 2%Z)].
Definition ex_cfiles : list (list pystr) := [map u ["a"; "b"; "a"]%string; map u ["b"; "c"; "</s>"; "a"]%string].
Definition ex_csched : list actor :=
  [Producer; Worker 1; Producer; Producer; Worker 0; Worker 1; Producer; Worker 0; Worker 1; Worker 1; Worker 0; Worker 0].
Definition ex_cjob := cf_job ex_match ex_is_sep ex_id ex_id ex_rv 1 1.
Example C10_ex : filt ex_rv = true /\ dwf (fd ex_rv) /\ any_column no_vocab = true /\
  exists st m, run ex_cjob (cf_finish ex_rv no_vocab) (cf_start no_vocab 2 (map Ok ex_cfiles)) ex_csched = Some st /\ joined st = true /\
    cf_result st = Ok (Some m) /\ trows m = map u ["a"; "b"]%string /\ tcols m = map u ["a"; "b"; "c"]%string /\
    entries (tmx m) = [(0, 1, 2%Z); (1, 0, 2%Z); (1, 2, 1%Z)].
Proof.
  split; [reflexivity|]. split; [repeat constructor; cbn; intuition discriminate|]. split; [reflexivity|].
  eexists. eexists. split; [vm_compute; reflexivity|]. split; [vm_compute; reflexivity|]. split; [vm_compute; reflexivity|]. repeat split; vm_compute; reflexivity.
Qed.
(** With a column vocabulary: all of its items are columns, nothing else is counted. *)
Definition ex_cv : vocab := vocab_init false [(u "z", 1%Z); (u "c", 1%Z)].
Example C10_ex_cols : filt ex_cv = true /\ dwf (fd ex_cv) /\
  exists st m, run ex_cjob (cf_finish ex_rv ex_cv) (cf_start ex_cv 2 (map Ok ex_cfiles)) ex_csched = Some st /\ joined st = true /\
    cf_result st = Ok (Some m) /\ trows m = map u ["a"; "b"]%string /\ tcols m = map u ["c"; "z"]%string /\ entries (tmx m) = [(1, 0, 1%Z)].
Proof.
  split; [reflexivity|]. split; [repeat constructor; cbn; intuition discriminate|].
  eexists. eexists. split; [vm_compute; reflexivity|]. split; [vm_compute; reflexivity|]. split; [vm_compute; reflexivity|]. repeat split; vm_compute; reflexivity.
Qed.

(** ** C75 *)
(** Some file cannot be read: the run still finishes and a result is returned; it holds the counts of the files taken by
    workers that did not die, nothing of what a dead worker had counted before, and nothing else is reported. *)
Theorem C75_survivors : forall {L M} (match_line : L -> option M) separator (get_type get_colloc : M -> pystr) rv cv l r,
  filt rv = true -> dwf (fd rv) -> any_column cv = true \/ (filt cv = true /\ dwf (fd cv)) ->
  forall nw files sched st,
  run (cf_job match_line separator get_type get_colloc rv l r) (cf_finish rv cv) (cf_start cv nw files) sched = Some st ->
  joined st = true ->
  exists css o, cf_result st = Ok o /\
    holds_counts rv cv o (corpus_pairs match_line separator get_type get_colloc rv cv l r (concat css)) /\
    Forall2 (fun w x => match w with
                        | WExit => fst x = map Ok (snd x)
                        | _ => snd x = [] /\ exists e, In (Err e) (fst x)
                        end) (workers st)
      (combine (shares (cf_init cv) (cf_job match_line separator get_type get_colloc rv l r) (cf_finish rv cv) nw files sched) css) /\
    length css = nw.
Proof. exact @col_pool_survivors. Qed.
Print Assumptions C75_survivors.
(** What one would want: the counts of all readable files, or an error. *)
Theorem C75_readable_files_refuted : exists nw files sched st,
  1 <= nw /\ run ex_cjob (cf_finish ex_rv no_vocab) (cf_start no_vocab nw files) sched = Some st /\ joined st = true /\
  exists o, cf_result st = Ok o /\
    ~ holds_counts ex_rv no_vocab o (corpus_pairs ex_match ex_is_sep ex_id ex_id ex_rv no_vocab 1 1 (flat_map (fun f => match f with Ok c => [c] | Err _ => [] end) files)).
Proof.
  exists 1, [Ok (map u ["a"; "b"]%string); Err IOError; Ok (map u ["b"; "a"]%string)].
  exists [Producer; Worker 0; Producer; Worker 0; Producer; Producer]. eexists.
  split; [auto|]. split; [vm_compute; reflexivity|]. split; [vm_compute; reflexivity|]. eexists. split; [vm_compute; reflexivity|].
  intros H. specialize (H (u "a") (u "b")). revert H. vm_compute. discriminate.
Qed.
Print Assumptions C75_readable_files_refuted.

(** ** C76 *)
(** A vocabulary that was filled with increment() is not a filter: the worker meets an item that is not in it, dies of a
    KeyError when it makes its matrix, and its counts are lost although every file could be read. *)
Theorem C76_incremented_vocab_refuted : exists rv cv nw contents sched st,
  v_len rv = 1 /\ v_contains rv (u "a") = true /\ any_column cv = true /\ 1 <= nw /\
  run (cf_job ex_match ex_is_sep ex_id ex_id rv 1 1) (cf_finish rv cv) (cf_start cv nw (map Ok contents)) sched = Some st /\ joined st = true /\
  cf_result st = Ok None /\ corpus_pairs ex_match ex_is_sep ex_id ex_id rv cv 1 1 contents (u "a") (u "b") = 1%Z.
Proof.
  exists (v_incr no_vocab (u "a") 1), no_vocab, 1, [map u ["a"; "b"]%string], [Producer; Worker 0; Producer; Worker 0]. eexists.
  split; [reflexivity|]. split; [reflexivity|]. split; [reflexivity|]. split; [auto|].
  split; [vm_compute; reflexivity|]. split; [vm_compute; reflexivity|]. split; vm_compute; reflexivity.
Qed.
Print Assumptions C76_incremented_vocab_refuted.
(** The same for a column vocabulary. *)
Theorem C76_incremented_col_vocab_refuted : exists cv nw contents sched st,
  v_len cv = 1 /\ v_contains cv (u "b") = true /\ 1 <= nw /\
  run (cf_job ex_match ex_is_sep ex_id ex_id ex_rv 1 1) (cf_finish ex_rv cv) (cf_start cv nw (map Ok contents)) sched = Some st /\ joined st = true /\
  cf_result st = Ok None /\ corpus_pairs ex_match ex_is_sep ex_id ex_id ex_rv cv 1 1 contents (u "a") (u "b") = 1%Z.
Proof.
  exists (v_incr no_vocab (u "b") 1), 1, [map u ["a"; "b"]%string], [Producer; Worker 0; Producer; Worker 0]. eexists.
  split; [reflexivity|]. split; [reflexivity|]. split; [auto|].
  split; [vm_compute; reflexivity|]. split; [vm_compute; reflexivity|]. split; vm_compute; reflexivity.
Qed.
Print Assumptions C76_incremented_col_vocab_refuted.
