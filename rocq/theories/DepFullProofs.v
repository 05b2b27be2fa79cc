(** * Lemmas about full features. *)
From Coq Require Import String NArith ZArith Bool Arith Lia List.
From Verif Require Import Base BaseLemmas Str DepModel DepSpec DepGraphProofs DepFullSpec.
Import ListNotations.
Local Open Scope string_scope.
Local Open Scope nat_scope.
Local Open Scope list_scope.

Section Full.
  Context {M : Type}.
  Variable re_match : pystr -> pystr -> option M.
  Variable re_group : M -> Z -> res (option pystr).
  Lemma part_repr pa a ag x : part_text re_match re_group pa a ag x ->
    rbind (look pa (fst ag)) (fun regex => rbind (look a (fst ag)) (fun v => repr_of re_match re_group regex v (snd ag))) = Ok x.
  Proof.
    intros (regex & v & Ep & Ea & H). unfold look. rewrite Ep, Ea. cbn [rbind]. unfold repr_of, py_match. cbn [rbind].
    destruct H as [(mt & -> & ->)|(-> & [->|(mt & e & -> & ->)])]; reflexivity.
  Qed.
  Lemma parts_repr pa a ags xs : Forall2 (part_text re_match re_group pa a) ags xs ->
    rmapm (fun ag => rbind (look pa (fst ag)) (fun regex => rbind (look a (fst ag)) (fun v => repr_of re_match re_group regex v (snd ag)))) ags = Ok xs.
  Proof. induction 1 as [|ag x ags xs H F IH]; [reflexivity|]. cbn [rmapm]. rewrite (part_repr _ _ _ _ H). cbn [rbind]. rewrite IH. reflexivity. Qed.
  Lemma node_label_repr m r v out : node_label re_match re_group m r v out ->
    rbind (look (m_nodes r) v) (node_repr re_match re_group m v) = Ok out.
  Proof.
    intros (pa & a & Ep & Ea & xs & F & ->). unfold look at 1. rewrite Ea. cbn [rbind]. unfold node_repr. unfold look at 1. rewrite Ep. cbn [rbind].
    rewrite (parts_repr _ _ _ _ F). reflexivity.
  Qed.
  Lemma edge_label_repr m r e out : edge_label re_match re_group m r e out ->
    rbind (look (m_edges r) e) (edge_repr re_match re_group m e) = Ok out.
  Proof.
    intros (pa & a & Ep & Ea & xs & F & ->). unfold look at 1. rewrite Ea. cbn [rbind]. unfold edge_repr. unfold look at 1. rewrite Ep. cbn [rbind].
    rewrite (parts_repr _ _ _ _ F). reflexivity.
  Qed.
  Lemma succ_labels m r v w et nt : edge_label re_match re_group m r (v, w) et -> node_label re_match re_group m r w nt ->
    succ_repr re_match re_group m r v w = Ok (et, nt).
  Proof.
    intros E N. apply edge_label_repr in E. apply node_label_repr in N. unfold succ_repr.
    destruct (look (m_edges r) (v, w)) as [ea|]; [|discriminate]. cbn [rbind] in *. rewrite E. cbn [rbind].
    destruct (look (m_nodes r) w) as [na|]; [|discriminate]. cbn [rbind] in *. rewrite N. reflexivity.
  Qed.
  Lemma only_succ g v w : gwf g -> (forall b, edge g v b <-> b = w) -> succs g v = [w].
  Proof.
    intros W H. pose proof (succs_NoDup g v W) as D. assert (I : forall b, In b (succs g v) <-> b = w) by (intros b; rewrite succs_In; apply H).
    destruct (succs g v) as [|x [|y l]].
    - elim (proj2 (I w) eq_refl).
    - f_equal. apply I. now left.
    - assert (x = w) by (apply I; now left). assert (y = w) by (apply I; right; now left). subst. inversion D as [|? ? Nx]; subst. elim Nx. now left.
  Qed.
  Lemma no_succ g v : (forall b, ~ edge g v b) -> succs g v = [].
  Proof. intros H. destruct (succs g v) as [|b l] eqn:E; [reflexivity|]. elim (H b). apply succs_In. rewrite E. now left. Qed.
  Lemma chain_preorder m r v ws out : gwf (mgraph m) -> chain_text re_match re_group m r v ws out ->
    forall fuel, length ws < fuel -> preorder re_match re_group m r fuel v = Ok out.
  Proof.
    intros W. induction 1 as [v H|v w ws et nt shown rest H E N T T' C IH]; intros fuel L.
    - destruct fuel as [|fuel]; [cbn in L; lia|]. cbn [preorder]. now rewrite no_succ.
    - destruct fuel as [|fuel]; [lia|]. cbn [length] in L. cbn [preorder]. rewrite (only_succ _ _ _ W H), (succ_labels _ _ _ _ _ _ E N). cbn [rbind fst snd].
      rewrite IH by lia. cbn [rmap rbind]. f_equal. f_equal.
      replace (if (w =? target_idx m)%Z then tgt else nt) with shown.
      + cbn [join]. rewrite <- app_assoc. reflexivity.
      + destruct (Z.eqb_spec w (target_idx m)); auto.
  Qed.
  Lemma full_chain m r ws start rest : gwf (mgraph m) -> feature_idx m = (-1)%Z -> NoDup (1%Z :: ws) -> In 1%Z (nodes (mgraph m)) ->
    (target_idx m = 1%Z -> start = u "#T#") -> (target_idx m <> 1%Z -> node_label re_match re_group m r 1 start) ->
    chain_text re_match re_group m r 1 ws rest -> feature re_match re_group m r = Ok (start ++ rest).
  Proof.
    intros W F D I1 T T' C. unfold feature. rewrite F. cbn [Z.eqb Pos.eqb]. unfold feature_full.
    assert (L : length ws < S (length (nodes (mgraph m)))).
    { assert (J : incl (1%Z :: ws) (nodes (mgraph m))).
      { intros x [<-|X]; [exact I1|]. clear - W C X. induction C as [v H|v w ws et nt shown rest H E N T T' C IH]; [destruct X|].
        destruct X as [<-|X]; [|auto]. apply W with (a := v) (b := w). now apply H. }
      pose proof (NoDup_incl_length D J). cbn [length] in *. lia. }
    rewrite (chain_preorder _ _ _ _ _ W C _ L).
    destruct (Z.eqb_spec 1 (target_idx m)) as [E|E].
    - rewrite T by auto. reflexivity.
    - rewrite (node_label_repr _ _ _ _ (T' (fun X => E (eq_sym X)))). reflexivity.
  Qed.
End Full.
