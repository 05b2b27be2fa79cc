(** * In trees the walking matcher finds the occurrences of chains, and nothing else. *)
From Coq Require Import String NArith ZArith Bool Arith Permutation Lia List.
From Verif Require Import Base BaseLemmas Str VocabModel CorpusModel ParModel MxModel DepModel DepSpec GrfModel GrfSpec GrfProofs.
Import ListNotations.
Local Open Scope string_scope.
Local Open Scope nat_scope.
Local Open Scope list_scope.

(** Walks in one graph that never step back *)
Inductive tw (g : graph) : Z -> Z -> list Z -> Prop :=
| tw_nil : forall prev cur, tw g prev cur []
| tw_cons : forall prev cur n l, edge g cur n \/ edge g n cur -> n <> prev -> tw g cur n l -> tw g prev cur (n :: l).
Inductive dn (g : graph) : Z -> list Z -> Prop :=
| dn_nil : forall cur, dn g cur []
| dn_cons : forall cur n l, edge g cur n -> dn g n l -> dn g cur (n :: l).
Inductive under (g : graph) (a : Z) : Z -> Prop :=
| under_refl : under g a a
| under_step : forall x y, under g a x -> edge g x y -> under g a y.

Lemma tw_inv g prev cur n l : tw g prev cur (n :: l) -> (edge g cur n \/ edge g n cur) /\ n <> prev /\ tw g cur n l.
Proof. intros H. inversion H; subst. repeat split; assumption. Qed.

Section Tree.
  Variables (g : graph) (r : Z).
  Hypothesis W : gwf g.
  Hypothesis T : rooted g r.
  Lemma oneh : one_head g. Proof. apply T. Qed.

  Lemma below_fun k : forall k' v, below g r k v -> below g r k' v -> k = k'.
  Proof.
    destruct T as (_ & Hr & OH & _).
    induction k as [|k IH]; intros k' v B B'.
    - inversion B; subst. inversion B'; subst; [reflexivity|]. exfalso. eapply Hr. eassumption.
    - inversion B as [|? a ? Ba Ea]; subst. inversion B' as [|? a' ? Ba' Ea']; subst; [exfalso; eapply Hr; eassumption|].
      rewrite (OH _ _ _ Ea' Ea) in Ba'. f_equal. exact (IH _ _ Ba Ba').
  Qed.
  (** [v] is [k] levels deep *)
  Definition dep (v : Z) (k : nat) : Prop := below g r k v.
  Lemma dep_ex v : In v (nodes g) -> exists k, dep v k.
  Proof. apply T. Qed.
  Lemma dep_edge a b k : edge g a b -> dep a k -> dep b (S k).
  Proof. intros E D. exact (below_S _ _ _ _ _ D E). Qed.
  Lemma edge_l a b : edge g a b -> In a (nodes g). Proof. intros E. apply W in E. apply E. Qed.
  Lemma edge_r a b : edge g a b -> In b (nodes g). Proof. intros E. apply W in E. apply E. Qed.
  Lemma no_loop a : ~ edge g a a.
  Proof. intros E. destruct (dep_ex _ (edge_l _ _ E)) as [k D]. pose proof (below_fun _ _ _ D (dep_edge _ _ _ E D)). lia. Qed.
  Lemma no_2 a b : edge g a b -> ~ edge g b a.
  Proof.
    intros E E'. destruct (dep_ex _ (edge_l _ _ E)) as [k D].
    pose proof (below_fun _ _ _ D (dep_edge _ _ _ E' (dep_edge _ _ _ E D))). lia.
  Qed.

  Lemma under_dep a x k : under g a x -> dep a k -> exists j, k <= j /\ dep x j.
  Proof. intros U D. induction U as [|x y U [j [H1 H2]] E]; [exists k; split; [lia|exact D]|]. exists (S j). split; [lia|exact (dep_edge _ _ _ E H2)]. Qed.
  Lemma under_cons a b x : edge g a b -> under g b x -> under g a x.
  Proof. intros E U. induction U as [|x y U IH E']; [exact (under_step _ _ _ _ (under_refl _ _) E)|exact (under_step _ _ _ _ IH E')]. Qed.
  Lemma under_same a b x k : under g a x -> dep a k -> under g b x -> dep b k -> a = b.
  Proof.
    intros U Da. induction U as [|x y U IH E]; intros Ub Db.
    - inversion Ub as [|x y Ux Ex]; subst; [reflexivity|]. destruct (under_dep _ _ _ Ux Db) as (j & Hj & Dj).
      pose proof (below_fun _ _ _ Da (dep_edge _ _ _ Ex Dj)). lia.
    - inversion Ub as [|x' y' Ux Ex]; subst.
      + destruct (under_dep _ _ _ U Da) as (j & Hj & Dj). pose proof (below_fun _ _ _ Db (dep_edge _ _ _ E Dj)). lia.
      + rewrite (oneh _ _ _ Ex E) in Ux. exact (IH Ux Db).
  Qed.

  Lemma dn_under cur l x : dn g cur l -> In x (cur :: l) -> under g cur x.
  Proof.
    intros D. induction D as [cur|cur n l E D IH]; intros [<- |H]; try apply under_refl; [destruct H|].
    apply (under_cons _ n); [exact E|]. apply IH. exact H.
  Qed.
  Lemma tw_dn l : forall prev cur, edge g prev cur -> tw g prev cur l -> dn g cur l.
  Proof.
    induction l as [|n l IH]; intros prev cur E H; [constructor|]. destruct (tw_inv _ _ _ _ _ H) as (H3 & H5 & H6).
    destruct H3 as [E'|E']; [|exfalso; apply H5; exact (oneh _ _ _ E' E)]. constructor; [exact E'|]. exact (IH _ _ E' H6).
  Qed.
  Lemma tw_not_under l : forall prev n x, edge g n prev -> tw g prev n l -> In x (n :: l) -> ~ under g prev x.
  Proof.
    induction l as [|m l IH]; intros prev n x E H Hx U.
    - destruct Hx as [-> |[]]. destruct (dep_ex _ (edge_l _ _ E)) as [k D].
      destruct (under_dep _ _ _ U (dep_edge _ _ _ E D)) as (j & Hj & Dj). pose proof (below_fun _ _ _ D Dj). lia.
    - destruct Hx as [-> |Hx].
      + destruct (dep_ex _ (edge_l _ _ E)) as [k D]. destruct (under_dep _ _ _ U (dep_edge _ _ _ E D)) as (j & Hj & Dj).
        pose proof (below_fun _ _ _ D Dj). lia.
      + destruct (tw_inv _ _ _ _ _ H) as (H3 & H5 & H6). destruct H3 as [E'|E'].
        * pose proof (dn_under _ _ _ (tw_dn _ _ _ E' H6) Hx) as U'. destruct (dep_ex _ (edge_l _ _ E)) as [k D].
          apply H5. exact (under_same _ _ _ _ U' (dep_edge _ _ _ E' D) U (dep_edge _ _ _ E D)).
        * exact (IH _ _ _ E' H6 Hx (under_cons _ _ _ E U)).
  Qed.
  Lemma dn_deep cur l x k : dn g cur l -> dep cur k -> In x l -> exists j, k < j /\ dep x j.
  Proof.
    intros D Dc Hx. inversion D; subst; [destruct Hx|]. destruct (under_dep _ x _ (dn_under _ _ _ H0 Hx) (dep_edge _ _ _ H Dc)) as (j & Hj & Dj).
    exists j. split; [lia|exact Dj].
  Qed.

  Lemma tw_nodes l : forall prev cur x, tw g prev cur l -> In x l -> In x (nodes g).
  Proof.
    induction l as [|n l IH]; intros prev cur x H Hx; [destruct Hx|]. destruct (tw_inv _ _ _ _ _ H) as (H3 & H5 & H6).
    destruct Hx as [<- |Hx]; [destruct H3; [eapply edge_r|eapply edge_l]; eassumption|]. eapply IH; eassumption.
  Qed.
  Lemma tw_NoDup l : forall prev cur, In cur (nodes g) -> tw g prev cur l -> NoDup (cur :: l).
  Proof.
    induction l as [|n l IH]; intros prev cur Hc H; [repeat constructor; intros []|]. destruct (tw_inv _ _ _ _ _ H) as (H3 & H5 & H6).
    assert (Hn : In n (nodes g)) by (destruct H3; [eapply edge_r|eapply edge_l]; eassumption).
    constructor; [|exact (IH _ _ Hn H6)]. intros Hin. destruct H3 as [E|E].
    - destruct (dep_ex _ Hc) as [k D].
      destruct (dn_deep _ (n :: l) cur _ (dn_cons _ _ _ _ E (tw_dn _ _ _ E H6)) D Hin) as (j & Hj & Dj).
      pose proof (below_fun _ _ _ D Dj). lia.
    - exact (tw_not_under _ _ _ _ E H6 Hin (under_refl _ _)).
  Qed.
  Lemma tw_consecutive l : forall prev cur a b, In cur (nodes g) -> tw g prev cur l -> In a (cur :: l) -> In b (cur :: l) -> edge g a b ->
    consecutive (cur :: l) a b \/ consecutive (cur :: l) b a.
  Proof.
    induction l as [|n l IH]; intros prev cur a b Hc H Ha Hb E.
    - destruct Ha as [<- |[]], Hb as [<- |[]]. exfalso. exact (no_loop _ E).
    - destruct (tw_inv _ _ _ _ _ H) as (H3 & H5 & H6). assert (Hn : In n (nodes g)) by (destruct H3; [eapply edge_r|eapply edge_l]; eassumption).
      assert (Hcons : forall x y, consecutive (n :: l) x y -> consecutive (cur :: n :: l) x y)
        by (intros x y (l1 & l2 & ->); exists (cur :: l1), l2; reflexivity).
      destruct Ha as [<- |Ha], Hb as [<- |Hb]; [exfalso; exact (no_loop _ E)| | |].
      + destruct H3 as [E'|E']; [|exfalso; exact (tw_not_under _ _ _ _ E' H6 Hb (under_step _ _ _ _ (under_refl _ _) E))].
        destruct Hb as [<- |Hb]; [left; exists [], l; reflexivity|]. exfalso. destruct (dep_ex _ Hc) as [k D].
        destruct (dn_deep _ _ _ _ (tw_dn _ _ _ E' H6) (dep_edge _ _ _ E' D) Hb) as (j & Hj & Dj).
        pose proof (below_fun _ _ _ (dep_edge _ _ _ E D) Dj). lia.
      + destruct H3 as [E'|E'].
        * exfalso. destruct (dep_ex _ (edge_l _ _ E)) as [k D].
          destruct (dn_deep _ (n :: l) a _ (dn_cons _ _ _ _ E' (tw_dn _ _ _ E' H6)) (dep_edge _ _ _ E D) Ha) as (j & Hj & Dj).
          pose proof (below_fun _ _ _ D Dj). lia.
        * right. rewrite (oneh _ _ _ E E'). exists [], l. reflexivity.
      + destruct (IH _ _ _ _ Hn H6 Ha Hb E) as [H'|H']; [left|right]; apply Hcons; exact H'.
  Qed.
  Lemma tw_adj l : forall prev cur a b, tw g prev cur l -> consecutive (cur :: l) a b -> edge g a b \/ edge g b a.
  Proof.
    induction l as [|n l IH]; intros prev cur a b H (l1 & l2 & E).
    - destruct l1 as [|? [|? ?]]; discriminate.
    - destruct (tw_inv _ _ _ _ _ H) as (H3 & H5 & H6). destruct l1 as [|x l1].
      + injection E as -> -> _. assumption.
      + injection E as -> E. apply (IH _ _ _ _ H6). exists l1, l2. exact E.
  Qed.
End Tree.

(** ** Neighbours in lists without repetition *)
Lemma consec_next (l : list Z) pre suf a b c : NoDup l -> l = pre ++ a :: b :: suf -> consecutive l a c -> c = b.
Proof.
  intros D E (l1 & l2 & E'). rewrite E in E', D. clear E.
  revert l1 E' D. induction pre as [|x pre IH]; intros l1 E' D.
  - destruct l1 as [|y l1]; [injection E' as -> _; reflexivity|]. injection E' as -> E'. inversion D; subst. exfalso. apply H1.
    cbn [app] in E'. change (In y (b :: suf)). rewrite E'. apply in_app_iff. right. left. reflexivity.
  - destruct l1 as [|y l1].
    + injection E' as -> E'. inversion D; subst. exfalso. apply H1. apply in_app_iff. right. left. reflexivity.
    + injection E' as -> E'. inversion D; subst. exact (IH _ E' H2).
Qed.
Lemma consec_prev (l : list Z) pre suf a b c : NoDup l -> l = pre ++ a :: b :: suf -> consecutive l c b -> c = a.
Proof.
  intros D E (l1 & l2 & E'). rewrite E in E', D. clear E.
  revert l1 E' D. induction pre as [|x pre IH]; intros l1 E' D.
  - destruct l1 as [|y l1]; [injection E' as -> _; reflexivity|]. injection E' as -> E'. exfalso.
    inversion D; subst. inversion H2; subst. destruct l1 as [|z l1]; cbn [app] in E'.
    + injection E' as -> E'. apply H3. rewrite E'. left. reflexivity.
    + injection E' as -> E'. apply H3. rewrite E'. apply in_app_iff. right. right. left. reflexivity.
  - destruct l1 as [|y l1].
    + cbn [app] in E'. injection E' as -> E'. destruct pre as [|z pre]; cbn [app] in E'.
      * injection E' as -> E'. exfalso. inversion D; subst. inversion H2; subst. apply H3. left. reflexivity.
      * injection E' as -> E'. exfalso. inversion D; subst. inversion H2; subst. apply H3. apply in_app_iff. right. right. left. reflexivity.
    + injection E' as -> E'. inversion D; subst. exact (IH _ E' H2).
Qed.
Lemma consec_first (l : list Z) t c : NoDup (t :: l) -> ~ consecutive (t :: l) c t.
Proof.
  intros D (l1 & l2 & E). inversion D; subst. destruct l1 as [|x l1]; injection E as -> E; apply H1; rewrite E.
  - left. reflexivity.
  - apply in_app_iff. right. right. left. reflexivity.
Qed.
