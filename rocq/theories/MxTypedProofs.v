(** * Number types: when all values have one type other than bool, no conversion shows. *)
From Coq Require Import NArith ZArith Bool Arith QArith Qcanon List.
From Verif Require Import Base BaseLemmas MxModel MxSpec MxProofs MxTtmProofs MxTypedModel.
Import ListNotations.

Lemma isort_map {A B} (f : A -> B) (la : A -> A -> bool) (lb : B -> B -> bool) l :
  (forall x y, lb (f x) (f y) = la x y) -> isort lb (map f l) = map f (isort la l).
Proof.
  intros H. induction l as [|a l IH]; [reflexivity|]. unfold isort in *. cbn [map fold_right]. rewrite IH. clear IH. fold (isort la l).
  induction (isort la l) as [|b t IH]; [reflexivity|]. cbn [map insert]. rewrite H. destruct (la a b); [reflexivity|]. cbn [map]. now rewrite IH.
Qed.
Lemma rmapm_compose {A B C} (f : B -> res C) (g : A -> B) l : rmapm f (map g l) = rmapm (fun x => f (g x)) l.
Proof. induction l as [|a l IH]; [reflexivity|]. cbn [map rmapm]. now rewrite IH. Qed.
Lemma rmapm_rmap {A B C} (f : A -> res B) (h : B -> C) l : rmapm (fun x => rmap h (f x)) l = rmap (map h) (rmapm f l).
Proof.
  induction l as [|a l IH]; [reflexivity|]. cbn [rmapm]. rewrite IH. destruct (f a); cbn; [|reflexivity]. now destruct (rmapm f l).
Qed.
Lemma rmapm_In {A B} (f : A -> res B) l r : rmapm f l = Ok r -> forall y, In y r -> exists x, In x l /\ f x = Ok y.
Proof.
  revert r. induction l as [|a l IH]; intros r E y I; cbn [rmapm] in E; [injection E as <-; destruct I|].
  destruct (f a) eqn:F; [|discriminate]. cbn in E. destruct (rmapm f l) eqn:R; [|discriminate]. cbn in E. injection E as <-.
  destruct I as [<-|I]; [exists a; cbn; auto|]. destruct (IH _ eq_refl y I) as (x & ? & ?). exists x. cbn. auto.
Qed.
Lemma typed_ok (d : dict pystr (dict pystr tnum)) rows cols t : t <> TBool ->
  (forall r row x v, In (r, row) d -> In (x, v) row -> fst v = t /\ tvalid v) ->
  d2s_typed d rows cols = dict_to_sp (untyped d) rows cols.
Proof.
  intros NB H. unfold d2s_typed, dict_to_sp, dict_to_coo, untyped. cbv zeta.
  pose (U := fun rv : pystr * dict pystr tnum => ((fst rv, map (fun cv : pystr * tnum => (fst cv, snd (snd cv))) (snd rv)) : pystr * dict pystr Qc)).
  change (isort kleb (map _ d)) with (isort kleb (map U d)). rewrite (isort_map U kleb kleb d) by reflexivity.
  rewrite (rmapm_compose _ U). unfold U. cbn [fst snd].
  set (F := fun rv : pystr * dict pystr tnum => rmapm (fun cv => rbind (lookup (item2id rows) (fst rv)) (fun i => rbind (lookup (item2id cols) (fst cv)) (fun j => Ok (i, j, snd cv)))) (isort kleb (snd rv))).
  assert (X : forall l, rmapm (fun x : pystr * dict pystr tnum =>
      rmapm (fun cv : pystr * Qc => rbind (lookup (item2id rows) (fst x)) (fun i => rbind (lookup (item2id cols) (fst cv)) (fun j => Ok (i, j, snd cv))))
        (isort kleb (map (fun cv : pystr * tnum => (fst cv, snd (snd cv))) (snd x)))) l
    = rmap (map (map (fun e : nat * nat * tnum => (fst e, snd (snd e))))) (rmapm F l)).
  { intros l. rewrite <- rmapm_rmap. induction l as [|x l IH]; [reflexivity|]. cbn [rmapm]. rewrite IH. f_equal.
    unfold F. rewrite <- rmapm_rmap. rewrite (isort_map (fun cv : pystr * tnum => (fst cv, snd (snd cv))) kleb kleb) by reflexivity.
    rewrite rmapm_compose. clear. induction (isort kleb (snd x)) as [|cv t IH]; [reflexivity|]. cbn [rmapm]. rewrite IH. f_equal.
    cbn [fst snd]. destruct (lookup _ (fst x)); [|reflexivity]. cbn. now destruct (lookup _ (fst cv)). }
  rewrite X. clear X. change (rmapm _ (isort kleb d)) with (rmapm F (isort kleb d)). destruct (rmapm F (isort kleb d)) as [ess|e] eqn:E; [|reflexivity]. cbn [rmap rbind].
  set (es := concat ess).
  assert (Q : concat (map (map (fun e : nat * nat * tnum => (fst e, snd (snd e)))) ess) = map (fun e => (fst e, snd (snd e))) es) by (symmetry; apply concat_map).
  assert (T : forall e, In e es -> fst (snd e) = t /\ tvalid (snd e)).
  { intros e I. apply in_concat in I as (l & Il & I). destruct (rmapm_In _ _ _ E l Il) as ((r, row) & IR & FR). unfold F in FR. cbn [fst snd] in FR.
    destruct (rmapm_In _ _ _ FR e I) as ((x, v) & IX & FX). cbn [fst snd] in FX.
    destruct (lookup _ r); [|discriminate]. cbn in FX. destruct (lookup _ x); [|discriminate]. cbn in FX. injection FX as <-. cbn.
    apply (H r row x v); [now apply isort_In in IR|now apply isort_In in IX]. }
  cbn [rmap rbind]. rewrite Q. destruct es as [|((i0, j0), (t0, q0)) es'] eqn:ES; [reflexivity|]. rewrite <- ES in *.
  assert (T0 : t0 = t) by (destruct (T (i0, j0, (t0, q0))); [rewrite ES; now left|assumption]). subst t0.
  assert (M : map (fun e : nat * nat * tnum => (conv_index t (fst (fst e)), conv_index t (snd (fst e)), conv t (snd (snd e)))) es = map (fun e => (fst e, snd (snd e))) es).
  { apply map_ext_in. intros ((i, j), v) I. destruct (T _ I) as [T1 T2]. cbn in *. unfold tvalid in T2. rewrite T1 in T2. rewrite T2.
    now destruct t. }
  rewrite <- M. transitivity (checked_of_coo (length (item2id rows)) (length (item2id cols)) (map (fun e : nat * nat * tnum => (conv_index t (fst (fst e)), conv_index t (snd (fst e)), conv t (snd (snd e)))) es)).
  - rewrite ES. reflexivity.
  - destruct (map _ es) eqn:EM; [rewrite ES in EM; discriminate|reflexivity].
Qed.
