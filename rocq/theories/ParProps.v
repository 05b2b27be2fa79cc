(** * Claims about the process pool: C02, C12, C13, C63, C64, C65. *)
From Coq Require Import String NArith ZArith Bool Arith Lia Permutation List.
From Verif Require Import Base BaseLemmas VocabModel CorpusModel CorpusSpec CorpusTokProofs CorpusExamples ParModel ParProofs ParUseProofs.
Import ListNotations.

(** ** C02 *)
(** Executions are bounded, whatever the schedule. *)
Theorem C02_executions_bounded : forall {L M} (match_line : L -> option M) (get_type : M -> pystr) nw files sched st,
  run (if_job match_line get_type) if_finish (start tt nw files) sched = Some st -> length sched <= 4 * length files + 6 * nw.
Proof. intros * E. apply run_bound in E. rewrite mu_start in E. lia. Qed.
Print Assumptions C02_executions_bounded.
(** An execution that cannot be continued has put all jobs and all workers are gone. *)
Theorem C02_no_deadlock : forall {L M} (match_line : L -> option M) (get_type : M -> pystr) nw files sched st,
  run (if_job match_line get_type) if_finish (start tt nw files) sched = Some st ->
  (forall a, pstep (if_job match_line get_type) if_finish st a = None) -> joined st = true.
Proof.
  intros * E H. destruct (joined st) eqn:Jn; auto. destruct (progress tt _ _ _ _ st (reach tt _ _ nw files sched st E) Jn) as (a & st' & E').
  rewrite H in E'. discriminate.
Qed.
Print Assumptions C02_no_deadlock.
(** The reader then never blocks and the counts are those of all files, for every schedule. *)
Theorem C02_schedule_independent : forall {L M} (match_line : L -> option M) (get_type : M -> pystr) nw contents sched st, 1 <= nw ->
  run (if_job match_line get_type) if_finish (start tt nw (map Ok contents)) sched = Some st -> joined st = true ->
  exists v, if_result (length contents) st = Some v /\
    forall k, dget v k = let n := count k (map get_type (matches_of match_line (concat contents))) in
                         if n =? 0 then None else Some (Z.of_nat n).
Proof.
  intros * N E Jn. destruct (if_returns match_line get_type nw contents sched st N E Jn) as [v Rv]. exists v. split; auto.
  destruct (if_correct match_line get_type nw (map Ok contents) sched st v E Jn) as (cs & Ec & H).
  - rewrite map_length. auto.
  - apply map_Ok_inj in Ec. subst. exact H.
Qed.
Print Assumptions C02_schedule_independent.

Definition ex_files : list (list pystr) := [map u ["a"; "b"; "a"]%string; map u ["b"; "</s>"; "a"]%string].
(** Two workers, two files; worker 1 takes the first file. *)
Definition ex_sched : list actor :=
  [Producer; Worker 1; Producer; Producer; Worker 0; Worker 1; Worker 0; Producer; Worker 1; Worker 1; Worker 0; Worker 0].
Example C02_ex : exists st, run (if_job ex_match ex_id) if_finish (start tt 2 (map Ok ex_files)) ex_sched = Some st /\
  joined st = true /\ if_result 2 st = Some [(u "a", 3%Z); (u "b", 2%Z)].
Proof. eexists. split; [vm_compute; reflexivity|]. split; vm_compute; reflexivity. Qed.

(** ** C13 *)
(** Every execution of token retrieval is bounded and reaches the joins. *)
Theorem C13_executions_bounded : forall {L M} (match_line : L -> option M) separator (get_type get_colloc : M -> pystr) cv l r d0 nw files sched st,
  run (tk_job match_line separator get_type get_colloc cv l r) tk_finish (tk_start d0 nw files) sched = Some st ->
  length sched <= 4 * length files + 6 * nw /\
  ((forall a, pstep (tk_job match_line separator get_type get_colloc cv l r) tk_finish st a = None) -> joined st = true).
Proof.
  intros * E. split.
  - apply run_bound in E. unfold tk_start in E. rewrite mu_start in E. lia.
  - intros H. destruct (joined st) eqn:Jn; auto.
    destruct (progress (true, d0) _ _ _ _ st (reach (true, d0) _ _ nw files sched st E) Jn) as (a & st' & E').
    rewrite H in E'. discriminate.
Qed.
Print Assumptions C13_executions_bounded.
(** The result queue then holds one item per file and one per worker that took no file. *)
Theorem C13_items : forall {L M} (match_line : L -> option M) separator (get_type get_colloc : M -> pystr) cv l r, 0 < r ->
  forall d0 nw contents sched st, dwf d0 -> 1 <= nw ->
  run (tk_job match_line separator get_type get_colloc cv l r) tk_finish (tk_start d0 nw (map Ok contents)) sched = Some st ->
  joined st = true ->
  length (results st) = length contents +
    idle (shares (true, d0) (tk_job match_line separator get_type get_colloc cv l r) tk_finish nw (map Ok contents) sched).
Proof. exact @tk_items. Qed.
Print Assumptions C13_items.
(** If no worker was idle, a handler without earlier tokens returns every token of every file exactly once. *)
Theorem C13_complete : forall {L M} (match_line : L -> option M) separator (get_type get_colloc : M -> pystr) cv l r, 0 < r ->
  forall queries nw contents sched st, 1 <= nw ->
  run (tk_job match_line separator get_type get_colloc cv l r) tk_finish (tk_start (tok_init queries) nw (map Ok contents)) sched = Some st ->
  joined st = true ->
  idle (shares (true, tok_init queries) (tk_job match_line separator get_type get_colloc cv l r) tk_finish nw (map Ok contents) sched) = 0 ->
  exists d, tk_result (length contents) st = Some d /\
    forall t, In t queries -> exists toks, dget d t = Some toks /\
      Permutation toks (flat_map (fun f => flat_map (seg_tokens get_type (tok_keep get_colloc cv) l r t) (segments match_line separator f)) contents).
Proof.
  intros * R * N E Jn Z.
  assert (W : dwf (@tok_init M queries)) by (unfold tok_init; apply dwf_dict_of).
  destruct (tk_all match_line separator get_type get_colloc cv l r R (tok_init queries) nw contents sched st W N E Jn Z) as (d & E1 & H).
  exists d. split; auto. intros t I. specialize (H t). rewrite CorpusMoreProofs.tok_init_get in H.
  apply mem_In in I. rewrite I in H. destruct H as (toks & A & B). exists toks. split; auto.
  assert (X : concat (repeat (@nil (@token M)) nw) = []) by (clear; induction nw; auto). rewrite X in B. exact B.
Qed.
Print Assumptions C13_complete.

Definition ex_tok_job := tk_job ex_match ex_is_sep ex_id ex_id no_vocab 1 1.
(** Both workers get a file: complete. *)
Definition ex_sched_tok : list actor := [Producer; Producer; Producer; Producer; Worker 1; Worker 0; Worker 0; Worker 0; Worker 0; Worker 1; Worker 1; Worker 1].
Example C13_ex : exists st, run ex_tok_job tk_finish (tk_start (tok_init [u "a"]) 2 (map Ok ex_files)) ex_sched_tok = Some st /\
  joined st = true /\ idle (shares (true, tok_init [u "a"]) ex_tok_job tk_finish 2 (map Ok ex_files) ex_sched_tok) = 0 /\
  option_map (fun d => map (fun t => snd (tk_node t)) (or_nil (dget d (u "a")))) (tk_result 2 st) = Some [3; 1; 3].
Proof. eexists. split; [vm_compute; reflexivity|]. repeat split; vm_compute; reflexivity. Qed.

(** ** C12: with an idle worker results are lost. *)
(** Full statement: for every schedule the tokens of all files are returned. *)
Definition tokens_never_lost : Prop :=
  forall (L M : Type) (match_line : L -> option M) separator (get_type get_colloc : M -> pystr) cv l r, 0 < r ->
  forall queries nw contents sched st, 1 <= nw ->
  run (tk_job match_line separator get_type get_colloc cv l r) tk_finish (tk_start (tok_init queries) nw (map Ok contents)) sched = Some st ->
  joined st = true ->
  exists d, tk_result (length contents) st = Some d /\
    forall t, In t queries -> exists toks, dget d t = Some toks /\
      Permutation toks (flat_map (fun f => flat_map (seg_tokens get_type (tok_keep get_colloc cv) l r t) (segments match_line separator f)) contents).
(** One file and two workers: the worker that got no file reports first and its empty result is the only one read. *)
Definition ex_lost : list actor := [Producer; Producer; Producer; Worker 0; Worker 1; Worker 1; Worker 1; Worker 0; Worker 0; Worker 0].
Theorem C12_tokens_never_lost_refuted : ~ tokens_never_lost.
Proof.
  intros H. specialize (H _ _ ex_match ex_is_sep ex_id ex_id no_vocab 1 1 (le_n 1) [u "a"] 2 [map u ["a"; "b"]%string] ex_lost).
  destruct (run (tk_job ex_match ex_is_sep ex_id ex_id no_vocab 1 1) tk_finish
              (tk_start (tok_init [u "a"]) 2 (map Ok [map u ["a"; "b"]%string])) ex_lost) as [st|] eqn:E; [|vm_compute in E; discriminate].
  vm_compute in E. injection E as <-.
  destruct (H _ (le_S _ _ (le_n 1)) eq_refl eq_refl) as (d & E & K). vm_compute in E. injection E as <-.
  destruct (K (u "a") (or_introl eq_refl)) as (toks & E & P). vm_compute in E. injection E as <-.
  apply Permutation_length in P. vm_compute in P. discriminate.
Qed.
Print Assumptions C12_tokens_never_lost_refuted.
(** What holds: as soon as no worker is idle nothing is lost.  Missing: runs in which some worker takes no file (always the
    case with more workers than files), where the reader stops before the last items. *)
Theorem C12_tokens_never_lost_partial : forall {L M} (match_line : L -> option M) separator (get_type get_colloc : M -> pystr) cv l r, 0 < r ->
  forall queries nw contents sched st, 1 <= nw ->
  run (tk_job match_line separator get_type get_colloc cv l r) tk_finish (tk_start (tok_init queries) nw (map Ok contents)) sched = Some st ->
  joined st = true ->
  idle (shares (true, tok_init queries) (tk_job match_line separator get_type get_colloc cv l r) tk_finish nw (map Ok contents) sched) = 0 ->
  exists d, tk_result (length contents) st = Some d /\
    forall t, In t queries -> exists toks, dget d t = Some toks /\
      Permutation toks (flat_map (fun f => flat_map (seg_tokens get_type (tok_keep get_colloc cv) l r t) (segments match_line separator f)) contents).
Proof. exact @C13_complete. Qed.
Print Assumptions C12_tokens_never_lost_partial.

(** ** C63: the second call *)
(** What a second call returns: the earlier tokens once per worker, and the tokens of the files. *)
Theorem C63_second_call_partial : forall {L M} (match_line : L -> option M) separator (get_type get_colloc : M -> pystr) cv l r, 0 < r ->
  forall d0 nw contents sched st, dwf d0 -> 1 <= nw ->
  run (tk_job match_line separator get_type get_colloc cv l r) tk_finish (tk_start d0 nw (map Ok contents)) sched = Some st ->
  joined st = true ->
  idle (shares (true, d0) (tk_job match_line separator get_type get_colloc cv l r) tk_finish nw (map Ok contents) sched) = 0 ->
  exists d, tk_result (length contents) st = Some d /\
    forall t, match dget d0 t with
              | Some old => exists toks, dget d t = Some toks /\
                  Permutation toks (concat (repeat old nw) ++ flat_map (fun f => flat_map (seg_tokens get_type (tok_keep get_colloc cv) l r t) (segments match_line separator f)) contents)
              | None => dget d t = None
              end.
Proof. exact @tk_all. Qed.
Print Assumptions C63_second_call_partial.
(** Full statement: two calls in a row return the same tokens. *)
Definition second_call_same : Prop :=
  forall (L M : Type) (match_line : L -> option M) separator (get_type get_colloc : M -> pystr) cv l r, 0 < r ->
  forall queries nw contents, 1 <= nw ->
  let job := tk_job match_line separator get_type get_colloc cv l r in
  forall sched1 st1 d1 sched2 st2 d2,
  run job tk_finish (tk_start (tok_init queries) nw (map Ok contents)) sched1 = Some st1 -> joined st1 = true ->
  idle (shares (true, tok_init queries) job tk_finish nw (map Ok contents) sched1) = 0 -> tk_result (length contents) st1 = Some d1 ->
  run job tk_finish (tk_start d1 nw (map Ok contents)) sched2 = Some st2 -> joined st2 = true ->
  idle (shares (true, d1) job tk_finish nw (map Ok contents) sched2) = 0 -> tk_result (length contents) st2 = Some d2 ->
  forall t, Permutation (or_nil (dget d1 t)) (or_nil (dget d2 t)).
Definition ex_single : list actor := [Producer; Producer; Worker 0; Worker 0; Worker 0; Worker 0].
Theorem C63_second_call_same_refuted : ~ second_call_same.
Proof.
  intros H. specialize (H _ _ ex_match ex_is_sep ex_id ex_id no_vocab 1 1 (le_n 1) [u "a"] 1 [map u ["a"; "b"]%string] (le_n 1)).
  cbv zeta in H. set (job := tk_job ex_match ex_is_sep ex_id ex_id no_vocab 1 1) in H.
  specialize (H ex_single).
  destruct (run job tk_finish (tk_start (tok_init [u "a"]) 1 (map Ok [map u ["a"; "b"]%string])) ex_single) as [st1|] eqn:E1; [|vm_compute in E1; discriminate].
  specialize (H st1). destruct (tk_result 1 st1) as [d1|] eqn:E2; [|vm_compute in E1; injection E1 as <-; vm_compute in E2; discriminate].
  vm_compute in E1. injection E1 as <-. vm_compute in E2. injection E2 as <-.
  specialize (H _ ex_single _ _ eq_refl eq_refl eq_refl eq_refl eq_refl eq_refl eq_refl eq_refl (u "a")).
  apply Permutation_length in H. vm_compute in H. discriminate.
Qed.
Print Assumptions C63_second_call_same_refuted.

(** ** C64: failing files *)
(** Item counting: if any file fails, the call never returns (no incomplete counts). *)
Theorem C64_item_counts_never_incomplete : forall {L M} (match_line : L -> option M) (get_type : M -> pystr) nw files sched st v,
  run (if_job match_line get_type) if_finish (start tt nw files) sched = Some st -> joined st = true ->
  if_result (length files) st = Some v ->
  exists contents, files = map Ok contents /\
    forall k, dget v k = let n := count k (map get_type (matches_of match_line (concat contents))) in
                         if n =? 0 then None else Some (Z.of_nat n).
Proof. exact @if_correct. Qed.
Print Assumptions C64_item_counts_never_incomplete.
(** A run with an unreadable file: one worker dies, the reader blocks. *)
Example C64_ex : exists st, run (if_job ex_match ex_id) if_finish (start tt 2 [Ok (map u ["a"]%string); Err IOError])
    [Producer; Producer; Producer; Producer; Worker 0; Worker 0; Worker 1; Worker 0; Worker 0] = Some st /\
  joined st = true /\ if_result 2 st = None.
Proof. eexists. split; [vm_compute; reflexivity|]. split; vm_compute; reflexivity. Qed.

(** Full statement for tokens: a call that returns has read every file. *)
Definition tokens_never_incomplete : Prop :=
  forall (L M : Type) (match_line : L -> option M) separator (get_type get_colloc : M -> pystr) cv l r, 0 < r ->
  forall queries nw files sched st d, 1 <= nw ->
  run (tk_job match_line separator get_type get_colloc cv l r) tk_finish (tk_start (tok_init queries) nw files) sched = Some st ->
  joined st = true -> tk_result (length files) st = Some d -> exists contents, files = map Ok contents.
(** One unreadable file, two workers: the idle worker's empty result is returned. *)
Theorem C64_tokens_never_incomplete_refuted : ~ tokens_never_incomplete.
Proof.
  intros H. specialize (H _ _ ex_match ex_is_sep ex_id ex_id no_vocab 1 1 (le_n 1) [u "a"] 2 [Err IOError]
    [Producer; Producer; Producer; Worker 0; Worker 1; Worker 1; Worker 1]).
  destruct (H _ [(u "a", [])] (le_S _ _ (le_n 1)) eq_refl eq_refl eq_refl) as (cs & E). destruct cs; discriminate.
Qed.
Print Assumptions C64_tokens_never_incomplete_refuted.

(** ** C65: number of workers *)
(** Whatever number is asked for, a machine with at least two processors gets at least one worker, and fewer than
    the number of processors.  Missing: one processor. *)
Theorem C65_at_least_one_worker_partial : forall cpu w, 2 <= cpu -> 1 <= n_workers cpu w < cpu.
Proof.
  intros cpu w H. unfold n_workers. destruct (0 <? w) eqn:E1, (w <? cpu) eqn:E2; cbn [andb]; try lia.
  apply Nat.ltb_lt in E1, E2. lia.
Qed.
Print Assumptions C65_at_least_one_worker_partial.
Example C65_ex : n_workers 4 0 = 3 /\ n_workers 4 2 = 2 /\ n_workers 4 9 = 3.
Proof. repeat split; reflexivity. Qed.
(** Full statement: on every machine build_item_freq on readable files returns in the end. *)
Definition always_returns : Prop :=
  forall (L M : Type) (match_line : L -> option M) (get_type : M -> pystr) cpu w contents sched st, 1 <= cpu ->
  run (if_job match_line get_type) if_finish (start tt (n_workers cpu w) (map Ok contents)) sched = Some st -> joined st = true ->
  exists v, if_result (length contents) st = Some v.
Theorem C65_always_returns_refuted : ~ always_returns.
Proof.
  intros H. destruct (H _ _ ex_match ex_id 1 0 [map u ["a"]%string] [Producer] _ (le_n 1) eq_refl eq_refl) as (v & E).
  vm_compute in E. discriminate.
Qed.
Print Assumptions C65_always_returns_refuted.
