(** * Proofs about pattern matching: recorded matches are the embeddings of the pattern. *)
From Coq Require Import String NArith ZArith Bool Arith Lia Permutation List.
From Verif Require Import Base BaseLemmas Str VocabModel CorpusModel ParModel MxModel MxProofs DepModel DepSpec DepGraphProofs DepMatchProofs.
Import ListNotations.

Lemma rflat_app {A B} (f : A -> res (list B)) a b ra rb : rflat f a = Ok ra -> rflat f b = Ok rb -> rflat f (a ++ b) = Ok (ra ++ rb).
Proof.
  intros E1 E2. apply rflat_ok in E1, E2. destruct E1 as (la & F1 & ->), E2 as (lb & F2 & ->).
  unfold rflat. rewrite (rmapm_forall2 f (a ++ b) (la ++ lb)); [|now apply Forall2_app]. cbn. now rewrite concat_app.
Qed.

Section Chains.
  Context {M : Type}.
  Variable re_match : pystr -> pystr -> option M.
  Variables p s : graph.
  Hypothesis Ws : gwf s.
  Hypothesis Wp : gwf p.
  Variable r : Z.
  Hypothesis R : rooted p r.

  Notation nok := (nok re_match p s).
  Notation eok := (eok re_match p s).
  Notation step_ok := (step_ok re_match p s).
  Notation level := (level p r).

  Inductive chain (v0 : Z) : list (list (Z * Z)) -> Prop :=
  | chain_1 : chain v0 [[(r, v0)]]
  | chain_S : forall lm cm, chain v0 lm -> step_ok (last lm []) cm -> chain v0 (lm ++ [cm]).

  Lemma last_map {A B} (f : A -> B) l d d' : l <> [] -> last (map f l) d' = f (last l d).
  Proof. induction l as [|x [|y l] IH]; intros H; [congruence|auto|]. apply IH. discriminate. Qed.
  Lemma chain_ne v0 lm : chain v0 lm -> lm <> [].
  Proof. destruct 1; [discriminate|]. destruct lm; discriminate. Qed.
  Lemma seq_last n : seq 0 (S n) = seq 0 n ++ [n].
  Proof. rewrite seq_S. reflexivity. Qed.
  Lemma chain_keys v0 lm : chain v0 lm -> map (map fst) lm = map level (seq 0 (length lm)).
  Proof.
    induction 1 as [|lm cm C IH S]; [reflexivity|].
    rewrite app_length. cbn [length]. rewrite Nat.add_1_r, seq_last, !map_app. cbn [map]. f_equal; auto. f_equal.
    rewrite (step_keys _ _ _ _ _ S). pose proof (chain_ne _ _ C) as NE. destruct (length lm) as [|k] eqn:L; [destruct lm; [congruence|discriminate]|].
    cbn [DepGraphProofs.level]. f_equal. rewrite <- (last_map (map fst) lm [] [] NE), IH, seq_last, map_app. cbn [map]. apply last_last.
  Qed.
  Lemma chain_last v0 lm k : chain v0 lm -> length lm = S k -> map fst (last lm []) = level k.
  Proof.
    intros C L. pose proof (chain_keys _ _ C) as E. pose proof (chain_ne _ _ C) as NE.
    rewrite <- (last_map (map fst) lm [] [] NE), E, L, seq_last, map_app. cbn [map]. apply last_last.
  Qed.
  Lemma chain_inv v0 lm k : chain v0 lm -> length lm = S (S k) -> exists lm' cm, lm = lm' ++ [cm] /\ chain v0 lm' /\ length lm' = S k /\ step_ok (last lm' []) cm.
  Proof.
    intros C L. destruct C as [|lm' cm C S]; [discriminate|]. exists lm', cm. rewrite app_length in L. cbn in L. split; auto. split; auto. split; auto. lia.
  Qed.
  Lemma chain_prefix v0 : forall n lm k, chain v0 lm -> length lm = n + S k -> exists lm', chain v0 lm' /\ length lm' = S k.
  Proof.
    induction n as [|n IH]; intros lm k C L; [eauto|]. replace (S n + S k) with (S (S (n + k))) in L by lia.
    destruct (chain_inv _ _ _ C L) as (lm' & cm & -> & C' & L' & _). apply (IH lm' k); auto. lia.
  Qed.
  Lemma chain_head v0 lm : chain v0 lm -> exists l, lm = [(r, v0)] :: l.
  Proof. induction 1 as [|lm cm C (l & ->) S]; [eauto|]. exists (l ++ [cm]). reflexivity. Qed.
  Lemma chain_concat_keys v0 lm : chain v0 lm -> map fst (concat lm) = concat (map level (seq 0 (length lm))).
  Proof. intros C. rewrite <- (chain_keys _ _ C). apply concat_map. Qed.

  (** ** subtree_match *)
  Lemma match_level_step prev r0 k : map fst prev = level k -> match_level re_match s p prev = Ok r0 ->
    NoDup (olist_list r0) /\ forall cm, In cm (olist_list r0) <-> step_ok prev cm.
  Proof.
    intros K E. apply (match_level_ok re_match p s Ws Wp prev [] [[]] r0); auto.
    - cbn [app]. rewrite K. apply (level_NoDup p r Wp R (S k)).
    - repeat constructor; intros [].
    - intros cm. split; [intros [<-|[]]; exists []; split; constructor|]. intros (ps & F & ->). inversion F. left; auto.
  Qed.
  Lemma subtree_ok (S : sentence) (m : macro) v0 : sgraph S = s -> mgraph m = p -> forall fuel k lms recs,
    mdepth m - Datatypes.S k <= fuel -> Datatypes.S k <= mdepth m -> NoDup lms ->
    (forall lm, In lm lms <-> chain v0 lm /\ length lm = Datatypes.S k) ->
    subtree_match re_match S m fuel lms = Ok recs ->
    exists L, NoDup L /\ (forall lm, In lm L <-> chain v0 lm /\ length lm = mdepth m) /\ add_match S m L = Ok recs.
  Proof.
    intros ES Em. induction fuel as [|fuel IH]; intros k lms recs Lf Lk D H E.
    - assert (Ek : Datatypes.S k = mdepth m) by lia. cbn [subtree_match] in E. destruct lms as [|lm0 lms'] eqn:El.
      + exists []. injection E as <-. split; [constructor|]. split; [|reflexivity]. rewrite <- Ek. exact H.
      + pose proof (proj1 (H lm0) (or_introl eq_refl)) as [_ L0]. change (@length (dict Z Z) lm0) with (@length (list (Z * Z)) lm0) in E. rewrite L0, Ek, Nat.eqb_refl in E. exists (lm0 :: lms'). split; auto. split; auto.
        rewrite <- Ek. exact H.
    - cbn [subtree_match] in E. destruct lms as [|lm0 lms'] eqn:El.
      + exists []. injection E as <-. split; [constructor|]. split; [|reflexivity]. intros lm. split; [intros []|]. intros [C L].
        destruct (chain_prefix v0 (mdepth m - Datatypes.S k) lm k C) as (lm' & C' & L'); [lia|]. apply (H lm'); auto.
      + pose proof (proj1 (H lm0) (or_introl eq_refl)) as [_ L0]. change (@length (dict Z Z) lm0) with (@length (list (Z * Z)) lm0) in E. rewrite L0 in E. destruct (Nat.eqb_spec (Datatypes.S k) (mdepth m)) as [Ek|NE].
        * exists (lm0 :: lms'). split; auto. split; auto. rewrite <- Ek. exact H.
        * rewrite <- El in *. clear El L0. apply rbind_ok in E. destruct E as (next & E1 & E). apply (IH (Datatypes.S k) next recs); auto; try lia.
          -- apply (rflat_NoDup _ _ _ E1); auto.
             ++ intros lm ys I E2. apply rmap_ok in E2. destruct E2 as (r0 & E2 & ->). apply H in I. destruct I as [C L].
                rewrite ES, Em in E2. destruct (match_level_step _ _ k (chain_last _ _ _ C L) E2) as [N _]. destruct r0 as [l|]; [|constructor].
                apply nodup_map_inj; auto. intros x y _ _ X. apply app_inj_tail in X. apply X.
             ++ intros lm lm' ys ys' y _ _ E2 E3 J J'. apply rmap_ok in E2, E3. destruct E2 as (r0 & _ & ->), E3 as (r1 & _ & ->).
                destruct r0 as [l|], r1 as [l'|]; try destruct J; try destruct J'. apply in_map_iff in J, J'. destruct J as (x & <- & _), J' as (x' & X & _).
                apply app_inj_tail in X. symmetry. apply X.
          -- intros lm. rewrite (rflat_In _ _ _ E1). split.
             ++ intros (lm1 & ys & I & E2 & J). apply rmap_ok in E2. destruct E2 as (r0 & E2 & ->). apply H in I. destruct I as [C L].
                rewrite ES, Em in E2. destruct (match_level_step _ _ k (chain_last _ _ _ C L) E2) as [_ N]. destruct r0 as [l|]; [|destruct J].
                apply in_map_iff in J. destruct J as (cm & <- & J). split; [constructor; auto; now apply N|]. rewrite app_length. cbn. lia.
             ++ intros [C L]. destruct (chain_inv _ _ _ C L) as (lm1 & cm & -> & C1 & L1 & St). assert (I : In lm1 lms) by (apply H; auto).
                destruct (rflat_all _ _ _ E1 _ I) as (ys & E2). exists lm1, ys. split; auto. split; auto.
                apply rmap_ok in E2. destruct E2 as (r0 & E2 & ->). rewrite ES, Em in E2.
                destruct (match_level_step _ _ k (chain_last _ _ _ C1 L1) E2) as [_ N]. apply N in St. destruct r0 as [l|]; [|destruct St].
                apply in_map_iff. exists cm. auto.
  Qed.

  (** ** Chains are mappings *)
  Lemma Forall2_In_l {A B} (P : A -> B -> Prop) l l' x : Forall2 P l l' -> In x l -> exists y, In y l' /\ P x y.
  Proof. induction 1 as [|a b l l' H F IH]; intros I; [destruct I|]. destruct I as [<-|I]; [exists b; cbn; auto|]. destruct (IH I) as (y & Iy & Py). exists y; cbn; auto. Qed.
  Definition graph_of (f : Z -> Z) (l : list Z) : list (Z * Z) := map (fun v => (v, f v)) l.
  Lemma graph_of_eq f l : (forall x, In x l -> f (fst x) = snd x) -> l = graph_of f (map fst l).
  Proof.
    intros H. unfold graph_of. rewrite map_map. rewrite <- (map_id l) at 1. apply map_ext_in. intros [a b] I. specialize (H _ I). cbn in *. congruence.
  Qed.
  Lemma concat_graph f ls : concat (map (graph_of f) ls) = graph_of f (concat ls).
  Proof. unfold graph_of. symmetry. apply concat_map. Qed.
  Lemma chain_graph v0 lm f : chain v0 lm -> (forall x, In x (concat lm) -> f (fst x) = snd x) ->
    lm = map (fun k => graph_of f (level k)) (seq 0 (length lm)).
  Proof.
    intros C H. pose proof (chain_keys _ _ C) as K. rewrite <- map_map, <- K. rewrite map_map. rewrite <- (map_id lm) at 1. apply map_ext_in.
    intros l I. apply graph_of_eq. intros x J. apply H. apply in_concat. eauto.
  Qed.
  Lemma chain_facts v0 lm : chain v0 lm -> forall f, (forall x, In x (concat lm) -> f (fst x) = snd x) ->
    f r = v0 /\ forall k h t, below p r k h -> S k < length lm -> edge p h t ->
      edge s (f h) (f t) /\ nok t (f t) /\ eok (h, t) (f h, f t) /\ (forall t', edge p h t' -> f t = f t' -> t = t').
  Proof.
    induction 1 as [|lm cm C IH St]; intros f Hf.
    - split; [apply (Hf (r, v0)); left; auto|]. cbn [length]. intros; lia.
    - assert (Hf' : forall x, In x (concat lm) -> f (fst x) = snd x) by (intros x I; apply Hf; rewrite concat_app, in_app_iff; auto).
      destruct (IH f Hf') as [I1 I2]. split; auto. intros k h t B L E. rewrite app_length in L. cbn [length] in L.
      destruct (Nat.eq_dec (S k) (length lm)) as [Ek|]; [|apply (I2 k h t); auto; lia]. clear I2 IH.
      destruct St as (pieces & F & ->). assert (Lh : In (h, f h) (last lm [])).
      { assert (Ih : In h (map fst (last lm []))) by (rewrite (chain_last _ _ k C); [apply level_In; auto|auto]).
        apply in_map_iff in Ih. destruct Ih as ([h' w] & X & Ih). cbn in X. subst h'.
        assert (Il : In (last lm []) lm). { pose proof (chain_ne _ _ C) as NE. rewrite (app_removelast_last [] NE) at 2. apply in_app_iff. right; left; auto. }
        assert (X : f h = w) by (apply (Hf' (h, w)); apply in_concat; eauto). rewrite X. exact Ih. }
      destruct (Forall2_In_l _ _ _ _ F Lh) as (pc & Ipc & (P1 & P2 & P3)). cbn [fst snd] in *.
      assert (Hpc : forall x, In x pc -> f (fst x) = snd x).
      { intros x Ix. apply Hf. rewrite concat_app, in_app_iff. right. cbn [concat]. rewrite app_nil_r. apply in_concat. eauto. }
      rewrite (graph_of_eq f pc Hpc), P1 in P2, P3. unfold graph_of in P2, P3. rewrite map_map in P2. cbn [snd] in P2. rewrite Forall_map, Forall_forall in P3.
      assert (It : In t (succs p h)) by now apply succs_In.
      destruct (P3 t It) as (Q1 & Q2 & Q3). cbn [fst snd] in *. split; auto. split; auto. split; auto.
      intros t' Et' X. apply succs_In in Et'.
      clear - P2 It Et' X. revert P2 It Et'. induction (succs p h) as [|a l IHl]; intros N I J; [destruct I|]. cbn in N. inversion N; subst.
      destruct I as [<-|I], J as [<-|J]; auto.
      + exfalso. apply H1. apply in_map_iff. exists t'. auto.
      + exfalso. apply H1. apply in_map_iff. exists t. auto.
  Qed.
  (** Every mapping of this kind is a chain. *)
  Lemma map_chain f : (forall h t, edge p h t -> edge s (f h) (f t) /\ nok t (f t) /\ eok (h, t) (f h, f t)) ->
    (forall h t t', edge p h t -> edge p h t' -> f t = f t' -> t = t') ->
    forall k, chain (f r) (map (fun k => graph_of f (level k)) (seq 0 (S k))).
  Proof.
    intros H1 H2. induction k as [|k IH]; [apply chain_1|]. rewrite seq_last, map_app. cbn [map]. apply chain_S; auto.
    rewrite seq_last, map_app. cbn [map]. rewrite last_last. exists (map (fun h => graph_of f (succs p h)) (level k)). split.
    - unfold graph_of at 1. induction (level k) as [|h l IHl]; cbn [map]; constructor; auto. unfold graph_of. split; [|split]; cbn [fst snd].
      + rewrite map_map. cbn. apply map_id.
      + rewrite map_map. cbn [snd]. apply nodup_map_inj; [|apply succs_NoDup; auto]. intros x y Ix Iy. apply H2 with h; now apply succs_In.
      + apply Forall_map, Forall_forall. intros t It. apply succs_In in It. cbn [fst snd]. now apply H1.
    - cbn [DepGraphProofs.level]. rewrite flat_map_concat_map, <- concat_graph, map_map. reflexivity.
  Qed.
End Chains.
