(** * Claims C178 and C179: simultaneous processes and their temporary directories. *)
From Coq Require Import String NArith ZArith Bool Arith Lia List.
From Verif Require Import Base Str ConfModel TmpModel TmpSpec TmpProofs.
Import ListNotations.
Local Open Scope string_scope.
Local Open Scope nat_scope.
Local Open Scope list_scope.

(** ** C178: calls of make_dir at the same time *)
(** Whatever the order of the steps: nothing is lost, only the wanted directories and those above them are made, and a call that is over,
    with or without an exception, leaves its directory there. *)
Theorem C178_any_order : forall fs ds n fs' cs, mw_run n (calls fs ds) (MW fs' cs) ->
  (forall p, In p fs -> In p fs') /\ (forall p, In p fs' -> In p fs \/ exists d, In d ds /\ above p d) /\
  length cs = length ds /\
  (forall i d, nth_error ds i = Some d -> nth_error cs i = Some Done \/ (exists e, nth_error cs i = Some (Raised e)) -> there fs' d) /\
  (forall i e, nth_error cs i = Some (Raised e) -> e = IOError).
Proof. exact @make_dirs_any. Qed.
Print Assumptions C178_any_order.
(** The calls end, after at most so many steps together, and none of them waits for another. *)
Theorem C178_end : forall fs ds n w, mw_run n (calls fs ds) w ->
  n <= list_sum (map (fun d => 2 * length d + 3) ds) /\
  ((forall w', ~ mw_step w w') <-> forall s, In s (mw_calls w) -> s = Done \/ exists e, s = Raised e).
Proof. exact @make_dirs_end. Qed.
Print Assumptions C178_end.
(** No call fails if no directory is another or above another, though they may have missing parents in common. *)
Theorem C178_apart : forall fs ds n fs' cs, apart ds -> mw_run n (calls fs ds) (MW fs' cs) -> forall e, ~ In (Raised e) cs.
Proof. exact @make_dirs_apart. Qed.
Print Assumptions C178_apart.
(** In particular no subtmpdir of workers with different process numbers fails. *)
Theorem C178_workers : forall fs base pids n fs' cs, NoDup pids ->
  mw_run n (calls fs (map (fun w => base ++ [str_of_Z (Z.of_nat w)]) pids)) (MW fs' cs) -> forall e, ~ In (Raised e) cs.
Proof. intros fs base pids n fs' cs N. apply make_dirs_apart. now apply workers_apart. Qed.
Print Assumptions C178_workers.

Definition home := [u "home"; u "me"].
Definition tmpd := home ++ [u "tmp"].
Ltac step i := eapply mwr_front; [eapply (mws _ _ i); [vm_compute; reflexivity|vm_compute; reflexivity]|cbn [set_nth]].
(** Both workers find the parent missing; the second one makes it, the first one's mkdir of it fails and is passed over. *)
Example C178_workers_ex : exists n fs', mw_run n (calls [home; [u "home"]] (map (fun w => tmpd ++ [str_of_Z (Z.of_nat w)]) [41; 42])) (MW fs' [Done; Done]) /\
  fs' = [tmpd ++ [u "42"]; tmpd ++ [u "41"]; tmpd; home; [u "home"]].
Proof.
  do 2 eexists. split.
  - step 0. step 1. step 1. step 0. step 1. step 0. step 1. step 0. step 0. step 1. apply mwr_refl.
  - vm_compute. reflexivity.
Qed.
Example C178_apart_ex : apart (map (fun w => tmpd ++ [str_of_Z (Z.of_nat w)]) [41; 42]).
Proof. apply workers_apart. repeat constructor; cbn; intuition discriminate. Qed.
(** Full statement: make_dir does not fail. *)
Definition make_dir_safe : Prop := forall fs ds n fs' cs, mw_run n (calls fs ds) (MW fs' cs) -> forall e, ~ In (Raised e) cs.
(** Two programs whose first handlers find ~/tmp missing *)
Theorem C178_same_refuted : ~ make_dir_safe.
Proof.
  intros H. refine (H [home; [u "home"]] [tmpd; tmpd] _ [tmpd; home; [u "home"]] [Done; Raised IOError] _ IOError _); [|right; left; reflexivity].
  step 0. step 1. step 0. step 1. step 0. step 1. apply mwr_refl.
Qed.
Print Assumptions C178_same_refuted.

(** ** C179: the files of a worker while other runs start *)
(** Below ~/tmp: the file is read back as it was saved, unless some handler is constructed between the making of the directory and the reading. *)
Theorem C179_inside : forall D tmp base (fs : tfs D) pre mid1 mid2 w x, above tmp (base w) -> (forall e, In e (mid1 ++ mid2) -> not_of w e) ->
  (In Init (mid1 ++ mid2) -> snd (t_step tmp base (t_run tmp base fs (pre ++ Mk w :: mid1 ++ Save w x :: mid2)) (Load w)) = Err IOError) /\
  (~ In Init (mid1 ++ mid2) -> snd (t_step tmp base (t_run tmp base fs (pre ++ Mk w :: mid1 ++ Save w x :: mid2)) (Load w)) = Ok (Some x)).
Proof. exact @load_inside. Qed.
Print Assumptions C179_inside.
(** With a tmp-path that is not below ~/tmp nothing the others do matters. *)
Theorem C179_outside : forall D tmp base (fs : tfs D) pre mid1 mid2 w x, ~ above tmp (wdir base w) -> (forall e, In e (mid1 ++ mid2) -> not_of w e) ->
  snd (t_step tmp base (t_run tmp base fs (pre ++ Mk w :: mid1 ++ Save w x :: mid2)) (Load w)) = Ok (Some x).
Proof. exact @load_outside. Qed.
Print Assumptions C179_outside.
(** Workers 7 and 8 of one run, and another run that starts before, while or after they are at work *)
Definition in_tmp (w : nat) : path := tmpd ++ [u "mtx"].
Definition elsewhere (w : nat) : path := [u "scratch"; u "mtx"].
Definition after (base : nat -> path) (evs : list (event N)) : list (res (option N)) :=
  map (fun w => snd (t_step tmpd base (t_run tmpd base (TFS [tmpd] []) evs) (Load w))) [7; 8].
Definition undisturbed : list (event N) := [Init; Mk 7; Mk 8; Save 8 80%N; Save 7 70%N].
Definition disturbed : list (event N) := [Init; Mk 7; Mk 8; Save 8 80%N; Init; Save 7 70%N].
Example C179_ex :
  after in_tmp undisturbed = [Ok (Some 70%N); Ok (Some 80%N)] /\
  after in_tmp disturbed = [Err IOError; Err IOError] /\
  after elsewhere disturbed = [Ok (Some 70%N); Ok (Some 80%N)] /\
  after in_tmp [Init; Mk 7; Save 7 70%N; Init; Mk 8; Save 8 80%N] = [Err IOError; Ok (Some 80%N)] /\
  snd (t_step tmpd in_tmp (t_run tmpd in_tmp (TFS [tmpd] []) [Init; Mk 7; Init]) (Save 7 70%N)) = Err IOError.
Proof. vm_compute. auto. Qed.
Example C179_hyp_ex : above tmpd (in_tmp 7) /\ ~ above tmpd (wdir elsewhere 7).
Proof. split; [exists [u "mtx"]; reflexivity|]. intros (q & E). vm_compute in E. discriminate. Qed.
(** Full statement: a run gets back what its workers saved. *)
Definition runs_apart : Prop := forall D tmp base (fs : tfs D) pre mid1 mid2 w x, (forall e, In e (mid1 ++ mid2) -> not_of w e) ->
  snd (t_step tmp base (t_run tmp base fs (pre ++ Mk w :: mid1 ++ Save w x :: mid2)) (Load w)) = Ok (Some x).
Theorem C179_refuted : ~ runs_apart.
Proof.
  intros H. specialize (H N tmpd in_tmp (TFS [tmpd] []) [Init] [] [Init] 7 70%N). assert (F : forall e : event N, In e ([] ++ [Init]) -> not_of 7 e) by (intros e [<- |[]]; exact I).
  specialize (H F). vm_compute in H. discriminate.
Qed.
Print Assumptions C179_refuted.
