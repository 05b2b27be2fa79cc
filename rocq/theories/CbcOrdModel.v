(** * Model of the wiring of one recursion of CBC: nephosem/models/cbc.py:219-287 with the settings of CBC.__init__ (60-146). *)
From Coq Require Import String NArith ZArith QArith Bool Arith Permutation List.
From Verif Require Import Base Str CbcModel.
Import ListNotations.
Local Open Scope nat_scope.

(** The settings, cbc.py:131-146 *)
Record cbc_settings := Settings {
  s_k : Q; s_theta1 : Q; s_theta2 : Q; s_prune : pystr; s_t : thr; s_metric : pystr; s_highest : bool; s_workers : Z }.
(** cbc.py:429-430 and 362-363: a number below one is a share of the rows; int() cuts off the fraction. *)
Definition num_similar (k : Q) (nrow : nat) : Q :=
  if qlt k 1 then (let p := (k * inject_Z (Z.of_nat nrow))%Q in inject_Z (Z.quot (Qnum p) (Zpos (Qden p)))) else k.

Section Recursion.
  (** cluster_similar_elements on the distances between [rows], for the number of similar elements and the other arguments *)
  Variable cse : list pystr -> Q -> pystr -> thr -> pystr -> bool -> pystr -> res (list scored).
  (** The arguments that step 1 passes on, cbc.py:245-253: highest_score is not among them, so it has its default False. *)
  Definition step1_call (s : cbc_settings) (rows : list pystr) (e : pystr) : res (list scored) :=
    cse rows (num_similar (s_k s) (length rows)) (s_prune s) (s_t s) (s_metric s) false e.
  (** Which version is used, cbc.py:243-257.  [cpus]: cpu_count(); the pool has cpus - 1 processes whatever [s_workers] is. *)
  Definition step1_of (s : cbc_settings) (cpus : nat) (multicore : bool) (sched : list (nat * nat)) (rows eles : list pystr) (r : res (list scored)) : Prop :=
    if multicore && (cpus - 1 <? length eles) then step1_multicore (step1_call s rows) (cpus - 1) eles sched r
    else r = Ok (step1 (step1_call s rows) eles).
  Variable argsort : list Q -> list nat.
  Variable csim : list pystr -> list pystr -> list pystr -> Q.
  Variable esim : list pystr -> pystr -> list pystr -> Q.
  Variables mxrows elements : list pystr.
  (** Without any rows (distmx is None) both versions end in an AttributeError: save (302), shape (430), or, once no element has
      given clusters, matrix (260). *)
  Definition recursion (s : cbc_settings) (cpus : nat) (multicore : bool) (sched : list (nat * nat)) (eles : list pystr)
    (r : res (list (list pystr) * list pystr)) : Prop :=
    match major_rows mxrows elements eles with
    | Err e => r = Err e
    | Ok rows => exists r1, step1_of s cpus multicore sched rows eles r1 /\
      r = rbind r1 (fun L => major_steps argsort csim esim mxrows elements (s_theta1 s) (s_theta2 s) L eles)
    end.
End Recursion.
