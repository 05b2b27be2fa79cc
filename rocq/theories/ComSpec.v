(** * Vocabulary of the claims about committee vectors. *)
From Coq Require Import ZArith Bool Arith Reals List.
From Verif Require Import Base CalcModel CalcSpec CalcVecModel.
Import ListNotations.
Local Open Scope R_scope.

(** A table of frequencies with m columns *)
Definition freq_table (m : nat) (f : dense) : Prop :=
  forall row, In row f -> length row = m /\ forall x, In x row -> 0 <= x.
(** The sum of f over the list l *)
Definition sum_over (l : list nat) (f : nat -> R) : R := sumr (map f l).
(** The rows outside the cluster *)
Definition others (f : dense) (clust : list nat) : list nat := filter (fun i => negb (mem i clust)) (seq 0 (length f)).
(** The mean of column j over the cluster; the sum of column j over the rows outside it *)
Definition mean_at (f : dense) (clust : list nat) (j : nat) : R := sum_over clust (fun i => cell f i j) / INR (length clust).
Definition rest_at (f : dense) (clust : list nat) (j : nat) : R := sum_over (others f clust) (fun i => cell f i j).
(** A cluster: at least one position, all of them rows of the table, none twice *)
Definition a_cluster (f : dense) (clust : list nat) : Prop :=
  clust <> [] /\ NoDup clust /\ forall i, In i clust -> (i < length f)%nat.
(** Association of the committee with column j: its mean row against the sum of all other rows *)
Definition committee_ppmi (m : nat) (f : dense) (clust : list nat) (j : nat) : R :=
  let mean_tot := sum_over (seq 0 m) (mean_at f clust) in
  let rest_tot := sum_over (seq 0 m) (rest_at f clust) in
  ideal_ppmi (mean_at f clust j) mean_tot (mean_at f clust j + rest_at f clust j) (mean_tot + rest_tot).
(** The total of the table *)
Definition table_total (m : nat) (f : dense) : R := sum_over (seq 0 (length f)) (fun i => sum_over (seq 0 m) (cell f i)).
