(** * What the older line reader should give. *)
From Coq Require Import String NArith ZArith Bool Arith List.
From Verif Require Import Base Str VocabModel ConfModel.
Import ListNotations.
Local Open Scope string_scope.
Local Open Scope nat_scope.
Local Open Scope list_scope.

(** The setting k is written as the numbers [ids], with commas between them. *)
Definition listed (s : settings) (k : pystr) (ids : list Z) : Prop :=
  ids <> [] /\ dget s k = Some (VStr (join 44 (map str_of_Z ids))).
(** The groups [ids] of a match are the strings [ps]. *)
Definition groups_are {M} (group : M -> Z -> res (option pystr)) (m : M) (ids : list Z) (ps : list pystr) : Prop :=
  Forall2 (fun i p => group m i = Ok (Some p)) ids ps.
(** Every key has a value that f accepts. *)
Definition accepted {B} (f : value -> res B) (s : settings) (k : pystr) : Prop := exists v b, dget s k = Some v /\ f v = Ok b.
Definition machine_keys : list pystr :=
  map u ["token-line-machine"; "word-line-machine"; "separator-line-machine"; "left-boundary-machine"; "right-boundary-machine"; "single-boundary-machine"].
Definition getter_keys (form : pystr) : list pystr := map u ["get-word"; "get-pos"; "get-lemma"; "get-colloc"] ++ [u "get-" ++ form].
(** A comma-separated list of integers. *)
Definition integers (v : value) : res (list Z) := match v with VStr s => rmapm int_of_str (split 44 s) | _ => Err AttributeError end.
(** A regular expression. *)
Definition machine {RX} (compile : pystr -> res RX) (v : value) : res RX := match v with VStr s => compile s | _ => Err TypeError end.
