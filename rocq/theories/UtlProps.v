(** * Claims C180 and C181: sizes in words and collocates of a type. *)
From Coq Require Import String NArith ZArith Bool Arith Lia List.
From Verif Require Import Base Str UtlModel UtlSpec UtlProofs.
Import ListNotations.
Local Open Scope string_scope.
Local Open Scope nat_scope.
Local Open Scope list_scope.

(** ** C180: sizeof_fmt *)
(** The number is shown in the largest unit of which it is at least one (and in Y above), to the nearest tenth, half tenths to the even one. *)
Theorem C180_right : forall num suffix, exists t k, shown num suffix t k /\ (k <= 8)%nat /\
    ((k < 8)%nat -> (num < 1024 ^ N.of_nat (S k))%N) /\ ((k <> 0)%nat -> (1024 ^ N.of_nat k <= num)%N) /\
    (20 * num <= (2 * t + 1) * 1024 ^ N.of_nat k)%N /\ (2 * t * 1024 ^ N.of_nat k <= 20 * num + 1024 ^ N.of_nat k)%N /\
    ((exists m, (20 * num = (2 * m + 1) * 1024 ^ N.of_nat k)%N) -> N.even t = true).
Proof. exact @sizeof_right. Qed.
Print Assumptions C180_right.
(** The text says which number is shown. *)
Theorem C180_unique : forall num suffix t k t' k', shown num suffix t k -> shown num suffix t' k' -> t = t' /\ k = k'.
Proof. exact @shown_unique. Qed.
Print Assumptions C180_unique.
(** A larger file is not shown as a smaller one. *)
Theorem C180_order : forall a b suffix, (a <= b)%N -> forall t k t' k', shown a suffix t k -> shown b suffix t' k' ->
  (t * 1024 ^ N.of_nat k <= t' * 1024 ^ N.of_nat k')%N.
Proof. exact @sizeof_mono. Qed.
Print Assumptions C180_order.
Example C180_ex : sizeof_fmt 0 (u "B") = u "0.0B" /\ sizeof_fmt 1023 (u "B") = u "1023.0B" /\ sizeof_fmt 1024 (u "B") = u "1.0KB" /\
  sizeof_fmt 1280 (u "B") = u "1.2KB" /\ sizeof_fmt 1792 (u "B") = u "1.8KB" /\ sizeof_fmt 123456789 (u "B") = u "117.7MB" /\ sizeof_fmt (2 ^ 85) (u "") = u "32.0Y".
Proof. vm_compute. repeat split. Qed.
(** Full statement: the number before a unit below Y is less than 1024. *)
Definition below_1024 : Prop := forall num suffix t k, shown num suffix t k -> k < 8 -> (t < 10240)%N.
Theorem C180_1024_refuted : ~ below_1024.
Proof.
  intros H. assert (Sh : shown 1048575 (u "B") 10240 1) by (exists (u "K"); split; vm_compute; reflexivity). apply H in Sh; lia.
Qed.
Print Assumptions C180_1024_refuted.

(** ** C181: TypeNode.get_collocs *)
(** Every collocate object of every token is in the set once, and nothing else is. *)
Theorem C181_objects : forall C (toks : list (ctoken C)), objects (all_collocs toks) ->
  (forall m, In m (get_collocs toks) <-> In m (all_collocs toks)) /\ NoDup (map n_obj (get_collocs toks)).
Proof. exact @get_collocs_spec. Qed.
Print Assumptions C181_objects.
(** Two tokens; object 1 is at the right of the first and at the left of the second one; objects 0 and 3 are the same word. *)
Definition toks2 : list (ctoken pystr) :=
  [CToken [CNode 0 (u "the/det")] [CNode 1 (u "eat/verb")]; CToken [CNode 1 (u "eat/verb")] [CNode 3 (u "the/det")]].
Example C181_ex : objects (all_collocs toks2) /\ get_collocs toks2 = [CNode 0 (u "the/det"); CNode 1 (u "eat/verb"); CNode 3 (u "the/det")].
Proof. split; [|reflexivity]. intros m n Hm Hn E. cbn in Hm, Hn. repeat destruct Hm as [<- |Hm]; try destruct Hm; repeat destruct Hn as [<- |Hn]; try destruct Hn; cbn in E; congruence. Qed.
(** Full statement: the set of the collocates has every collocate once. *)
Definition collocs_once : Prop := forall C (toks : list (ctoken C)), objects (all_collocs toks) -> NoDup (map n_item (get_collocs toks)).
Theorem C181_once_refuted : ~ collocs_once.
Proof.
  intros H. specialize (H pystr toks2 (proj1 C181_ex)). inversion H as [|? ? N]; subst. apply N. right. left. reflexivity.
Qed.
Print Assumptions C181_once_refuted.
