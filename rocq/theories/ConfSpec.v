(** * Vocabulary for the claims about configuration, formatter, handlers and file lists. *)
From Coq Require Import String NArith ZArith Bool Arith Permutation List.
From Verif Require Import Base Str VocabModel ConfModel.
Import ListNotations.
Local Open Scope string_scope.
Local Open Scope nat_scope.
Local Open Scope list_scope.

(** ** Configuration files *)
(** The section has the option, by itself or through DEFAULT. *)
Definition offers (c : ini) (s : pystr * dict pystr pystr) (k : pystr) : Prop :=
  In k (dkeys (snd s)) \/ In k (dkeys (i_default c)).
(** The text written for the option. *)
Definition written (c : ini) (s : pystr * dict pystr pystr) (k t : pystr) : Prop :=
  dget (snd s) k = Some t \/ (~ In k (dkeys (snd s)) /\ dget (i_default c) k = Some t).
(** The value of option [k] of section [s]: an integer in the section Span, a string elsewhere. *)
Inductive sect_value (interp : ini -> pystr -> pystr -> res pystr) (c : ini) (s : pystr * dict pystr pystr) (k : pystr) : value -> Prop :=
| sv_str t x : written c s k t -> interp c (fst s) t = Ok x -> fst s <> u "Span" -> sect_value interp c s k (VStr x)
| sv_int t x n : written c s k t -> interp c (fst s) t = Ok x -> fst s = u "Span" -> int_of_str x = Ok n -> sect_value interp c s k (VInt n)
| sv_none t : written c s k t -> interp c (fst s) t = Err ValueError -> fst s <> u "Span" -> sect_value interp c s k VNone.

(** ** Lines and columns *)
(** The columns set in the settings: the comma-separated names under global-columns or else line-format. *)
Definition columns_of (s : settings) (cols : list pystr) : Prop :=
  cols <> [] /\ Forall (fun c => ~ In 44%N c) cols /\
  (dget s (u "global-columns") = Some (VStr (join 44%N cols)) \/
   (dget s (u "global-columns") = None \/ dget s (u "global-columns") = Some VNone) /\ dget s (u "line-format") = Some (VStr (join 44%N cols))).
(** [v] is the content of the column [name]. *)
Definition field_of (cols fields : list pystr) (name v : pystr) : Prop :=
  exists i, nth_error cols i = Some name /\ nth_error fields i = Some v.
(** The groups 1, 2, ... of a match hold [fields]. *)
Definition has_fields {M} (group : M -> nat -> res (option pystr)) (m : M) (fields : list pystr) : Prop :=
  forall i v, nth_error fields i = Some v -> group m (S i) = Ok (Some v).

(** ** Directory trees *)
(** [p] leads from the directory to a file in it: names of subdirectories, then the file name. *)
Inductive file_in : dir -> list pystr -> Prop :=
| fi_here files subs f : In f files -> file_in (Dir files subs) [f]
| fi_sub files subs n d p : In (n, d) subs -> file_in d p -> file_in (Dir files subs) (n :: p).
(** Names are not empty and have no slash; names in a directory are distinct. *)
Definition good_name (n : pystr) : Prop := n <> [] /\ ~ In slash n.
Inductive good_dir : dir -> Prop :=
| gd files subs :
    NoDup (files ++ map fst subs) -> Forall good_name (files ++ map fst subs) ->
    (forall n d, In (n, d) subs -> good_dir d) -> good_dir (Dir files subs).
(** The same directory listed in another order; [R] relates the lists of files of a directory. *)
Inductive same_dir (R : list pystr -> list pystr -> Prop) : dir -> dir -> Prop :=
| sd files files' subs subs' subs'' :
    R files files' -> Permutation subs subs'' -> Forall2 (fun a b => fst a = fst b /\ same_dir R (snd a) (snd b)) subs'' subs' ->
    same_dir R (Dir files subs) (Dir files' subs').
(** The path string of [p] below [root]. *)
Definition path_str (root : pystr) (p : list pystr) : pystr := fold_left path_join p root.

(** ** File name lists *)
(** What a list of file names in [dirname] should give: blank lines and comments are skipped, base names are put into the directory. *)
Inductive reads (dirname : pystr) : list pystr -> list pystr -> Prop :=
| rd_nil : reads dirname [] []
| rd_blank l ls r : strip l = [] -> reads dirname ls r -> reads dirname (l :: ls) r
| rd_comment l t ls r : strip l = 35%N :: t -> reads dirname ls r -> reads dirname (l :: ls) r
| rd_path l ls r : strip l <> [] -> hd_error (strip l) <> Some 35%N -> In slash (strip l) -> reads dirname ls r -> reads dirname (l :: ls) (strip l :: r)
| rd_base l ls r : strip l <> [] -> hd_error (strip l) <> Some 35%N -> ~ In slash (strip l) -> reads dirname ls r -> reads dirname (l :: ls) ((dirname ++ [slash] ++ strip l) :: r).
