(** * Claims C161 and C162: what is shown on the console, what is in the log file. *)
From Coq Require Import String NArith ZArith Bool Arith Lia List.
From Verif Require Import Base BaseLemmas Str LogModel LogSpec LogProofs LogProofs2 LogProofs3.
Import ListNotations.
Local Open Scope string_scope.
Local Open Scope nat_scope.
Local Open Scope list_scope.

(** ** C161: the console and the log file *)
(** After any operations, a record that is let through appears on the console: prefix, message without its arguments,
    exception. *)
Theorem C161_console : forall (A : Type) (merge : pystr -> A -> res pystr) (can_open : pystr -> bool) home (st0 st : @lstate A),
  init_logging can_open home st0 = (st, Ok tt) ->
  forall pre r m p, openable can_open pre -> enabled pre r -> (10 <= r_lev r)%Z -> message merge r m -> prefix merge pre r p ->
  l_console (lrun merge can_open (pre ++ [OLog r]) st) = l_console (lrun merge can_open pre st) ++ output r (p ++ r_msg r).
Proof. exact @console_line. Qed.
Print Assumptions C161_console.

(** Nothing else does. *)
Theorem C161_silent : forall (A : Type) (merge : pystr -> A -> res pystr) (can_open : pystr -> bool) home (st0 st : @lstate A),
  init_logging can_open home st0 = (st, Ok tt) ->
  forall pre o, openable can_open pre ->
  (forall r, o = OLog r -> ~ (enabled pre r /\ (10 <= r_lev r)%Z /\ exists m, message merge r m)) ->
  l_console (lrun merge can_open (pre ++ [o]) st) = l_console (lrun merge can_open pre st).
Proof. exact @console_silent. Qed.
Print Assumptions C161_silent.

(** The log file in use grows by one line for every record of level 30 or more that is let through, ... *)
Theorem C161_file : forall (A : Type) (merge : pystr -> A -> res pystr) (can_open : pystr -> bool) home (st0 st : @lstate A),
  init_logging can_open home st0 = (st, Ok tt) ->
  forall pre r s, calm can_open pre -> enabled pre r -> (30 <= r_lev r)%Z -> file_line merge r s ->
  contents (lrun merge can_open (pre ++ [OLog r]) st) (file_after (home ++ u "/tmp/nephosem.log") pre) =
  contents (lrun merge can_open pre st) (file_after (home ++ u "/tmp/nephosem.log") pre) ++ s.
Proof. exact @file_lines. Qed.
Print Assumptions C161_file.

(** ... and no file grows otherwise. *)
Theorem C161_no_file : forall (A : Type) (merge : pystr -> A -> res pystr) (can_open : pystr -> bool) home (st0 st : @lstate A),
  init_logging can_open home st0 = (st, Ok tt) ->
  forall pre o f, calm can_open pre ->
  (forall r, o = OLog r -> f <> file_after (home ++ u "/tmp/nephosem.log") pre \/
                           ~ (enabled pre r /\ (30 <= r_lev r)%Z /\ exists m, message merge r m)) ->
  contents (lrun merge can_open (pre ++ [o]) st) f = contents (lrun merge can_open pre st) f.
Proof. exact @file_silent. Qed.
Print Assumptions C161_no_file.

(** Setting the level of the logger up to WARNING makes no difference to the files. *)
Theorem C161_levels : forall (A : Type) (merge : pystr -> A -> res pystr) (can_open : pystr -> bool) home (st0 st : @lstate A),
  init_logging can_open home st0 = (st, Ok tt) ->
  forall ops f, calm can_open ops -> (forall l, In (OLevel l) ops -> (l <= 30)%Z) ->
  contents (lrun merge can_open ops st) f = contents (lrun merge can_open (without_levels ops) st) f.
Proof. exact @levels_do_not_matter. Qed.
Print Assumptions C161_levels.

(** A program: one argument, a string, put in at the first %s; files below /root cannot be opened. *)
Fixpoint put_in (m a : pystr) : res pystr :=
  match m with
  | [] => Err TypeError
  | c :: m' => match m' with
               | d :: m'' => if N.eqb c 37 && N.eqb d 115 then Ok (a ++ m'') else rmap (cons c) (put_in m' a)
               | [] => Err TypeError
               end
  end.
Definition opens (f : pystr) : bool := negb (eqb (firstn 6 f) (u "/root/")).
Definition nl : pystr := [10%N].
Definition blank : @lstate pystr := LState 0 [] [] [(u "/home/me/tmp/nephosem.log", u "old" ++ nl)] [].
Definition fresh := fst (init_logging opens (u "/home/me") blank).
Definition at_ (l : Z) (msg : string) (arg : option pystr) : @lrec pystr := LRec 0 l (u msg) arg (u "vocab") 12 (u "01/02/2021 10:00:00") None.
Definition text (l : list string) : pystr := concat (map (fun x => u x ++ nl) l).

Example C161_example : init_logging opens (u "/home/me") blank = (fresh, Ok tt).
Proof. vm_compute. reflexivity. Qed.
Example C161_example_console :
  l_console (lrun put_in opens [OLog (at_ 20 "reading" None); OLog (at_ 10 "hidden" None); OLevel 10; OLog (at_ 10 "shown" None);
                                OLog (at_ 40 "no %s" (Some (u "file"))); OLog (at_ 50 "stop" None)] fresh) =
  text ["reading"; "DEBUG: vocab: 12: shown"; "ERROR: no %s"; "50: stop"].
Proof. vm_compute. reflexivity. Qed.
Example C161_example_file :
  contents (lrun put_in opens [OLog (at_ 20 "reading" None); OLog (at_ 40 "no %s" (Some (u "file"))); OChange (u "new.log");
                               OLog (at_ 50 "stop" None)] fresh) (u "/home/me/tmp/nephosem.log") =
  u "old" ++ nl ++ text ["01/02/2021 10:00:00 [ERROR]: no file"].
Proof. vm_compute. reflexivity. Qed.
Example C161_example_new :
  contents (lrun put_in opens [OLog (at_ 40 "no %s" (Some (u "file"))); OChange (u "new.log"); OLog (at_ 50 "stop" None);
                               OLog (at_ 35 "odd" None)] fresh) (u "new.log") =
  text ["01/02/2021 10:00:00 [CRITICAL]: stop"; "01/02/2021 10:00:00 [Level 35]: odd"].
Proof. vm_compute. reflexivity. Qed.

Lemma calm_plain : forall (A : Type) can_open (ops : list (@lop A)), openable can_open ops -> (forall i l, ~ In (OAdd i l) ops) -> calm can_open ops.
Proof.
  intros A can_open ops H Hn. split; [exact H|]. intros a f b -> a1 i l a2 ->. exfalso. apply (Hn i l).
  apply in_or_app. left. apply in_or_app. right. left. reflexivity.
Qed.
(** The hypotheses of the theorems are met by this program. *)
Example C161_example_hyps : forall pre, pre = [OLog (at_ 20 "reading" None); OLevel 10; OChange (u "new.log")] ->
  calm opens pre /\ enabled pre (at_ 40 "no %s" (Some (u "file"))) /\ message put_in (at_ 40 "no %s" (Some (u "file"))) (u "no file") /\
  prefix put_in pre (at_ 40 "no %s" (Some (u "file"))) (u "ERROR: ").
Proof.
  intros pre ->. split; [|split; [|split]].
  - apply calm_plain.
    + intros f [H|[H|[H|[]]]]; try discriminate. injection H as <-. reflexivity.
    + intros i l [H|[H|[H|[]]]]; discriminate.
  - right. left. cbn. lia.
  - right. exists (u "file"). split; vm_compute; reflexivity.
  - left. split; [unfold four; cbn; lia|]. left. split; reflexivity.
Qed.

(** The arguments of a message are not shown on the console. *)
Theorem C161_arguments_refuted : ~ forall (A : Type) (merge : pystr -> A -> res pystr) (can_open : pystr -> bool) home (st0 st : @lstate A),
  init_logging can_open home st0 = (st, Ok tt) ->
  forall r m, r_lev r = 20%Z -> r_own r = 0%Z -> r_exc r = None -> message merge r m ->
  l_console (lrun merge can_open [OLog r] st) = l_console st ++ m ++ nl.
Proof.
  intros H. specialize (H _ put_in opens _ _ _ C161_example (at_ 20 "no %s" (Some (u "file"))) (u "no file") eq_refl eq_refl eq_refl).
  assert (M : message put_in (at_ 20 "no %s" (Some (u "file"))) (u "no file")) by (right; exists (u "file"); split; vm_compute; reflexivity).
  specialize (H M). vm_compute in H. discriminate.
Qed.
Print Assumptions C161_arguments_refuted.

(** The line for a critical record depends on records before it. *)
Theorem C161_critical_refuted : ~ forall (A : Type) (merge : pystr -> A -> res pystr) (can_open : pystr -> bool) home (st0 st : @lstate A),
  init_logging can_open home st0 = (st, Ok tt) ->
  forall pre r, openable can_open pre -> r_lev r = 50%Z -> r_own r = 0%Z -> r_args r = None -> r_exc r = None -> (forall l, ~ In (OLevel l) pre) ->
  l_console (lrun merge can_open (pre ++ [OLog r]) st) = l_console (lrun merge can_open pre st) ++ u "50: " ++ r_msg r ++ nl.
Proof.
  intros H. specialize (H _ put_in opens _ _ _ C161_example [OLog (at_ 20 "done" (Some (u "x")))] (at_ 50 "stop" None)).
  assert (X : openable opens [OLog (at_ 20 "done" (Some (u "x")))]) by (intros f [E|[]]; discriminate).
  specialize (H X eq_refl eq_refl eq_refl eq_refl). assert (Y : forall l, ~ In (OLevel l) [OLog (at_ 20 "done" (Some (u "x")))]) by (intros l [E|[]]; discriminate).
  specialize (H Y). vm_compute in H. discriminate.
Qed.
Print Assumptions C161_critical_refuted.

(** Lowering the level to NOTSET hides messages. *)
Theorem C161_notset_refuted : ~ forall (A : Type) (merge : pystr -> A -> res pystr) (can_open : pystr -> bool) home (st0 st : @lstate A),
  init_logging can_open home st0 = (st, Ok tt) ->
  forall l r m, (l <= 20)%Z -> r_lev r = 20%Z -> r_own r = 0%Z -> message merge r m ->
  l_console (lrun merge can_open [OLevel l; OLog r] st) = l_console (lrun merge can_open [OLog r] st).
Proof.
  intros H. specialize (H _ put_in opens _ _ _ C161_example 0%Z (at_ 20 "done" None) (u "done")).
  assert (M : message put_in (at_ 20 "done" None) (u "done")) by (left; split; reflexivity).
  specialize (H ltac:(lia) eq_refl eq_refl M). vm_compute in H. discriminate.
Qed.
Print Assumptions C161_notset_refuted.

(** Setting the level of the logger does affect the log file when the level is above WARNING. *)
Theorem C161_levels_refuted : ~ forall (A : Type) (merge : pystr -> A -> res pystr) (can_open : pystr -> bool) home (st0 st : @lstate A),
  init_logging can_open home st0 = (st, Ok tt) ->
  forall ops f, calm can_open ops -> contents (lrun merge can_open ops st) f = contents (lrun merge can_open (without_levels ops) st) f.
Proof.
  intros H. specialize (H _ put_in opens _ _ _ C161_example [OLevel 40; OLog (at_ 30 "odd" None)] (u "/home/me/tmp/nephosem.log")).
  assert (X : calm opens [OLevel 40; OLog (at_ 30 "odd" None)]).
  { apply calm_plain; [intros f [E|[E|[]]]; discriminate|intros i l [E|[E|[]]]; discriminate]. }
  specialize (H X). vm_compute in H. discriminate.
Qed.
Print Assumptions C161_levels_refuted.

(** ** C162: change_log_file *)
(** After the change all other files stay as they are. *)
Theorem C162_moved : forall (A : Type) (merge : pystr -> A -> res pystr) (can_open : pystr -> bool) home (st0 st : @lstate A),
  init_logging can_open home st0 = (st, Ok tt) ->
  forall pre f post g, calm can_open (pre ++ OChange f :: post) -> (forall h, ~ In (OChange h) post) -> g <> f ->
  contents (lrun merge can_open (pre ++ OChange f :: post) st) g = contents (lrun merge can_open pre st) g.
Proof. exact @moved. Qed.
Print Assumptions C162_moved.

(** Handlers of users get every record that is let through and reaches their level, as long as they are attached, ... *)
Theorem C162_users : forall (A : Type) (merge : pystr -> A -> res pystr) (can_open : pystr -> bool) home (st0 st : @lstate A),
  init_logging can_open home st0 = (st, Ok tt) ->
  forall pre r i l, calm can_open pre -> is_attached pre i l -> enabled pre r -> (l <= r_lev r)%Z ->
  sink (lrun merge can_open (pre ++ [OLog r]) st) i = sink (lrun merge can_open pre st) i ++ [r].
Proof. exact @user_gets. Qed.
Print Assumptions C162_users.
(** ... and nothing else. *)
Theorem C162_users_only : forall (A : Type) (merge : pystr -> A -> res pystr) (can_open : pystr -> bool) home (st0 st : @lstate A),
  init_logging can_open home st0 = (st, Ok tt) ->
  forall pre o i, calm can_open pre ->
  (forall r, o = OLog r -> ~ (enabled pre r /\ exists l, is_attached pre i l /\ (l <= r_lev r)%Z)) ->
  sink (lrun merge can_open (pre ++ [o]) st) i = sink (lrun merge can_open pre st) i.
Proof. exact @user_gets_nothing. Qed.
Print Assumptions C162_users_only.
Example C162_example_users :
  sink (lrun put_in opens [OLog (at_ 30 "early" None); OAdd 1 40; OLog (at_ 30 "low" None); OAdd 1 20; OLog (at_ 40 "got" None);
                           ORemove 1; OChange (u "new.log"); OLog (at_ 40 "late" None)] fresh) 1 = [at_ 40 "got" None].
Proof. vm_compute. reflexivity. Qed.
Example C162_example_attached : is_attached [OLog (at_ 30 "early" None); OAdd 1 40] 1 40.
Proof.
  exists [OLog (at_ 30 "early" None)], []. split; [reflexivity|]. split; [intros []|]. intros a1 l' a2 E.
  destruct a1 as [|x a1]; [discriminate|]. injection E as _ E. destruct a1; discriminate.
Qed.

(** If the new file cannot be opened, no file is written any more. *)
Theorem C162_fails : forall (A : Type) (merge : pystr -> A -> res pystr) (can_open : pystr -> bool) home (st0 st : @lstate A),
  init_logging can_open home st0 = (st, Ok tt) ->
  forall pre f, calm can_open pre -> no_users pre -> can_open f = false ->
  snd (change_log_file can_open f (lrun merge can_open pre st)) = Err IOError /\
  forall post, (forall h, ~ In (OChange h) post) -> forall g,
    contents (lrun merge can_open (pre ++ OChange f :: post) st) g = contents (lrun merge can_open pre st) g.
Proof. exact @change_fails. Qed.
Print Assumptions C162_fails.

(** If it is then called again with a file that can be opened, nothing is shown on the console any more, whatever follows. *)
Theorem C162_console_lost : forall (A : Type) (merge : pystr -> A -> res pystr) (can_open : pystr -> bool) home (st0 st : @lstate A),
  init_logging can_open home st0 = (st, Ok tt) ->
  forall pre f g, calm can_open pre -> no_users pre -> can_open f = false -> can_open g = true ->
  forall post, l_console (lrun merge can_open (pre ++ OChange f :: OChange g :: post) st) = l_console (lrun merge can_open pre st).
Proof. exact @console_lost. Qed.
Print Assumptions C162_console_lost.

Example C162_example :
  let ops := [OLog (at_ 30 "first" None); OChange (u "/root/x.log"); OLog (at_ 30 "second" None); OChange (u "new.log"); OLog (at_ 30 "third" None)] in
  l_console (lrun put_in opens ops fresh) = text ["WARNING: first"; "WARNING: second"] /\
  contents (lrun put_in opens ops fresh) (u "/home/me/tmp/nephosem.log") = u "old" ++ nl ++ text ["01/02/2021 10:00:00 [WARNING]: first"] /\
  contents (lrun put_in opens ops fresh) (u "new.log") = text ["01/02/2021 10:00:00 [WARNING]: third"].
Proof. repeat split; vm_compute; reflexivity. Qed.
Example C162_example_hyps : calm opens [OLog (at_ 30 "first" None)] /\ no_users [OLog (at_ 30 "first" None)] /\
  opens (u "/root/x.log") = false /\ opens (u "new.log") = true.
Proof.
  split; [|split; [|split; vm_compute; reflexivity]].
  - apply calm_plain; [intros f [E|[]]; discriminate|intros i l [E|[]]; discriminate].
  - intros a1 i l a2 E. destruct a1 as [|x a1]; [discriminate|]. injection E as _ E. destruct a1; discriminate.
Qed.
(** A handler that has been removed again does no harm. *)
Example C162_example_calm : calm opens [OAdd 1 20; ORemove 1; @OChange pystr (u "new.log")].
Proof.
  split.
  - intros f [E|[E|[E|[]]]]; try discriminate. injection E as <-. reflexivity.
  - intros a f b E a1 i l a2 ->. destruct a1 as [|x a1].
    + cbn in E. destruct a2 as [|y a2]; [discriminate|]. injection E as <- _ Ey _. left. symmetry. exact Ey.
    + injection E as _ E. destruct a1 as [|y a1]; [discriminate|]. injection E as _ E. destruct a1 as [|z a1]; [discriminate|].
      injection E as _ E. destruct a1; discriminate.
Qed.

(** With a handler of a user attached: it is the handler that is lost, and the old log file keeps growing. *)
Theorem C162_user_refuted : ~ forall (A : Type) (merge : pystr -> A -> res pystr) (can_open : pystr -> bool) home (st0 st : @lstate A),
  init_logging can_open home st0 = (st, Ok tt) ->
  forall pre f r g, openable can_open (pre ++ [OChange f]) -> g <> f ->
  contents (lrun merge can_open (pre ++ [OChange f; OLog r]) st) g = contents (lrun merge can_open pre st) g.
Proof.
  intros H. specialize (H _ put_in opens _ _ _ C161_example [OAdd 1 20] (u "new.log") (at_ 30 "odd" None) (u "/home/me/tmp/nephosem.log")).
  assert (X : openable opens ([OAdd 1 20] ++ [@OChange pystr (u "new.log")])).
  { intros f [E|[E|[]]]; [discriminate|]. injection E as <-. reflexivity. }
  specialize (H X ltac:(discriminate)). vm_compute in H. discriminate.
Qed.
Print Assumptions C162_user_refuted.
Theorem C162_sink_refuted : ~ forall (A : Type) (merge : pystr -> A -> res pystr) (can_open : pystr -> bool) home (st0 st : @lstate A),
  init_logging can_open home st0 = (st, Ok tt) ->
  forall i l f r, can_open f = true -> (20 <= r_lev r)%Z -> (l <= r_lev r)%Z -> r_own r = 0%Z ->
  sink (lrun merge can_open [OAdd i l; OChange f; OLog r] st) i = sink (lrun merge can_open [OAdd i l; OLog r] st) i.
Proof.
  intros H. specialize (H _ put_in opens _ _ _ C161_example 1 20%Z (u "new.log") (at_ 30 "odd" None) eq_refl ltac:(cbn; lia) ltac:(cbn; lia) eq_refl).
  vm_compute in H. discriminate.
Qed.
Print Assumptions C162_sink_refuted.
(** ... so that a change to the file in use writes every line twice. *)
Theorem C162_twice_refuted : ~ forall (A : Type) (merge : pystr -> A -> res pystr) (can_open : pystr -> bool) home (st0 st : @lstate A),
  init_logging can_open home st0 = (st, Ok tt) ->
  forall pre r s, openable can_open pre -> enabled pre r -> (30 <= r_lev r)%Z -> file_line merge r s ->
  contents (lrun merge can_open (pre ++ [OLog r]) st) (file_after (home ++ u "/tmp/nephosem.log") pre) =
  contents (lrun merge can_open pre st) (file_after (home ++ u "/tmp/nephosem.log") pre) ++ s.
Proof.
  intros H. specialize (H _ put_in opens _ _ _ C161_example [OAdd 1 20; OChange (u "/home/me/tmp/nephosem.log")] (at_ 30 "odd" None)
    (text ["01/02/2021 10:00:00 [WARNING]: odd"])).
  assert (X : openable opens [OAdd 1 20; @OChange pystr (u "/home/me/tmp/nephosem.log")]).
  { intros f [E|[E|[]]]; [discriminate|]. injection E as <-. reflexivity. }
  specialize (H X). assert (En : enabled [OAdd 1 20; @OChange pystr (u "/home/me/tmp/nephosem.log")] (at_ 30 "odd" None)).
  { right. left. cbn. lia. }
  specialize (H En ltac:(cbn; lia)).
  assert (Fl : file_line put_in (at_ 30 "odd" None) (text ["01/02/2021 10:00:00 [WARNING]: odd"])).
  { exists (u "odd"), (u "WARNING"). split; [left; split; reflexivity|]. split; [right; right; left; split; reflexivity|]. vm_compute. reflexivity. }
  specialize (H Fl). vm_compute in H. discriminate.
Qed.
Print Assumptions C162_twice_refuted.

(** ** Computed cases *)
Definition raised (x : string) (l : Z) (msg : string) : @lrec pystr := LRec 0 l (u msg) None (u "vocab") 12 (u "01/02/2021 10:00:00") (Some (u x)).
Definition own_level (own l : Z) (msg : string) : @lrec pystr := LRec own l (u msg) None (u "vocab") 12 (u "01/02/2021 10:00:00") None.
Example C161_values :
  l_console (lrun put_in opens [OLog (raised "Traceback" 40 "failed"); OLog (raised "" 40 "failed"); OLog (own_level 40 20 "no"); OLog (own_level 5 10 "yes");
                                OLog (own_level 0 10 "no"); OLog (own_level 5 9 "no"); OLog (own_level 5 35 "odd")] fresh)
    = text ["ERROR: failed"; "Traceback"; "ERROR: failed"; "DEBUG: vocab: 12: yes"; "35: odd"] /\
  l_console (lrun put_in opens [OLevel 0; OLog (at_ 20 "low" None); OLog (at_ 30 "warning" None); ORemove 1; OLog (at_ 30 "again" None)] fresh)
    = text ["WARNING: warning"; "WARNING: again"] /\
  contents (lrun put_in opens [OLog (raised "Traceback" 40 "failed"); ORemove 1; OLog (at_ 29 "low" None); OLog (raised "" 30 "%s")] fresh) (u "/home/me/tmp/nephosem.log")
    = u "old" ++ nl ++ text ["01/02/2021 10:00:00 [ERROR]: failed"; "Traceback"; "01/02/2021 10:00:00 [WARNING]: %s"] /\
  l_handlers (fst (init_logging opens (u "/home/me") fresh)) = [HConsole init_fmt; HFile (u "/home/me/tmp/nephosem.log")] /\
  init_logging opens (u "/root") fresh = (fresh, Err IOError) /\
  l_console (lrun put_in opens [OLog (at_ 40 "%s %s" (Some (u "one"))); OLog (at_ 50 "then" None)] fresh) = text ["ERROR: %s %s"; "50: then"].
Proof. vm_compute. repeat split. Qed.
Example C162_values :
  l_handlers (lrun put_in opens [OAdd 1 40; OChange (u "a.log"); OAdd 2 20; OAdd 3 20; ORemove 2; OChange (u "b.log")] fresh)
    = [HConsole init_fmt; HFile (u "/home/me/tmp/nephosem.log"); HFile (u "a.log"); HFile (u "b.log")] /\
  snd (change_log_file opens (u "x.log") blank) = Err IndexError /\ snd (change_log_file opens (u "/root/x.log") fresh) = Err IOError.
Proof. vm_compute. repeat split. Qed.
