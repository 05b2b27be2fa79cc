(** * tree_match returns whenever the sentence has the attributes that the pattern tests. *)
From Coq Require Import String NArith ZArith Bool Arith Lia Permutation List.
From Verif Require Import Base BaseLemmas Str VocabModel CorpusModel ParModel MxModel MxProofs DepModel DepSpec DepGraphProofs DepMatchProofs DepEmbProofs DepMainProofs.
Import ListNotations.

Lemma rmapm_total {A B} (f : A -> res B) l : (forall x, In x l -> exists y, f x = Ok y) -> exists ys, rmapm f l = Ok ys.
Proof.
  induction l as [|x l IH]; intros H; cbn [rmapm]; [eauto|]. destruct (H x (or_introl eq_refl)) as (y & ->).
  destruct IH as (ys & ->); [intros; apply H; right; auto|]. cbn. eauto.
Qed.
Lemma rflat_total {A B} (f : A -> res (list B)) l : (forall x, In x l -> exists y, f x = Ok y) -> exists ys, rflat f l = Ok ys.
Proof. intros H. apply rmapm_total in H. destruct H as (ys & E). exists (concat ys). unfold rflat. rewrite E. reflexivity. Qed.
Lemma rfilter_total {A} (f : A -> res bool) l : (forall x, In x l -> exists y, f x = Ok y) -> exists ys, rfilter f l = Ok ys.
Proof.
  induction l as [|x l IH]; intros H; cbn [rfilter]; [eauto|]. destruct (H x (or_introl eq_refl)) as (y & ->).
  destruct IH as (ys & ->); [intros; apply H; right; auto|]. cbn. eauto.
Qed.
Lemma rfold_total {A S} (f : S -> A -> res S) l : (forall x s, In x l -> exists y, f s x = Ok y) -> forall s, exists y, rfold f l s = Ok y.
Proof.
  induction l as [|x l IH]; intros H s; cbn [rfold]; [eauto|]. destruct (H x s (or_introl eq_refl)) as (y & ->). apply IH. intros; apply H; right; auto.
Qed.

Section Total.
  Context {M : Type}.
  Variable re_match : pystr -> pystr -> option M.
  Variable S : sentence.
  Variable m : macro.
  Notation s := (sgraph S).
  Notation p := (mgraph m).
  Hypothesis Ws : gwf s.
  Hypothesis Wp : gwf p.
  Variable r : Z.
  Hypothesis R : rooted p r.
  Hypothesis Dp : get_depth p = Some (mdepth m).
  Hypothesis Cov : covers s m.
  Notation chain := (chain re_match p s r).
  Notation level := (level p r).

  Lemma match_attrs_total pa a : (forall attr x, In (attr, x) pa -> (exists r, x = AStr r) /\ gives a attr) -> exists o, match_attrs re_match pa a = Ok o.
  Proof.
    induction pa as [|[attr x] pa IH]; intros H; cbn [match_attrs]; [eauto|]. destruct (H attr x (or_introl eq_refl)) as ((rx & ->) & (sx & E)).
    unfold look. rewrite E. cbn [rbind py_match]. destruct (re_match rx sx); [|eauto]. destruct IH as (o & ->); [intros; apply H; right; auto|]. cbn. eauto.
  Qed.
  Lemma match_node_total w a v : dget (gnodes s) w = Some a -> In v (nodes p) -> exists o, match_node re_match p a v = Ok o.
  Proof.
    intros Ea Iv. unfold match_node. destruct a as [|y a]; [eauto|]. apply dget_key_Some in Iv. destruct Iv as (pa & E). unfold look. rewrite E. cbn [rbind].
    apply match_attrs_total. intros attr x I. destruct Cov as (C1 & _ & _). destruct (C1 v pa attr x E I) as [X Y]. split; auto. destruct (Y w _ Ea) as [Z|Z]; [discriminate|auto].
  Qed.
  Lemma match_edge_total e' a e : dget (gedges s) e' = Some a -> In e (dkeys (gedges p)) -> exists o, match_edge re_match p a e = Ok o.
  Proof.
    intros Ea Ie. unfold match_edge. apply dget_key_Some in Ie. destruct Ie as (pa & E). unfold look. rewrite E. cbn [rbind].
    apply match_attrs_total. intros attr x I. destruct Cov as (_ & C2 & _). destruct (C2 e pa attr x E I) as [X Y]. split; eauto.
  Qed.
  Lemma candidates_total scur fcur fsuc om : edge p fcur fsuc -> exists l, ms_candidates re_match s p scur fcur fsuc om = Ok l.
  Proof.
    intros E. apply rfilter_total. intros w I. apply succs_In in I. destruct (dmem om w); [eauto|].
    pose proof (proj2 (proj2 Ws) _ _ I) as [_ Iw]. apply dget_key_Some in Iw. destruct Iw as (a & Ea). apply dget_key_Some in I. destruct I as (b & Eb).
    unfold look. rewrite Ea. cbn [rbind]. rewrite Eb. cbn [rbind]. pose proof (proj2 (proj2 Wp) _ _ E) as [_ If].
    destruct (match_node_total w a fsuc Ea If) as (o & ->). cbn [rbind]. destruct (match_edge_total (scur, w) b (fcur, fsuc) Eb E) as (o' & ->). cbn [rbind]. eauto.
  Qed.
  Lemma match_successors_total sn fn : exists x, match_successors re_match s p sn fn = Ok x.
  Proof.
    unfold match_successors. destruct (out_degree p fn =? 0); [eauto|].
    destruct (rfold_total (fun mapping fsuc => rflat (fun onemap => rmap (map (fun ssuc => dset onemap ssuc fsuc)) (ms_candidates re_match s p sn fn fsuc onemap)) mapping)
      (succs p fn)) with (s := [@nil (Z * Z)]) as (y & E).
    - intros f maps I. apply succs_In in I. apply rflat_total. intros om _. destruct (candidates_total sn fn f om I) as (l & ->). cbn. eauto.
    - unfold dict in *. rewrite E. cbn. eauto.
  Qed.
  Lemma match_level_total prev : forall maps, exists x, match_level_from re_match s p prev maps = Ok x.
  Proof.
    induction prev as [|[fn sn] prev IH]; intros maps; cbn [match_level_from]; [eauto|]. destruct (out_degree p fn =? 0); auto.
    destruct (match_successors_total sn fn) as ([b l] & ->). cbn [rbind fst snd]. destruct b; eauto.
  Qed.
  Lemma add_one_total v0 lm : nok re_match p s r v0 -> chain v0 lm -> length lm = mdepth m -> exists o, add_one S m lm = Ok o.
  Proof.
    intros N C L. pose proof (chain_weak re_match S m Wp r R Dp v0 lm N C L) as (W1 & W2 & _). unfold add_one.
    replace (fold_left (fun d l => dupdate d l) lm []) with (concat lm) by (symmetry; apply (fold_dupdate_concat lm []); apply (chain_wf re_match S m Wp r R _ _ C)).
    assert (K : forall x, In x (concat lm) -> In (fst x) (nodes p) /\ snd x = fn_of lm (fst x)).
    { intros x I. split; [|symmetry; apply (fn_of_spec re_match S m Wp r R _ _ C x I)]. apply (levels_nodes p r Wp R _ _ Dp). apply (in_map fst) in I.
      rewrite (chain_concat_keys _ _ _ _ _ _ C), L in I. exact I. }
    assert (T1 : exists mn, rmapm (fun fs => rmap (fun a => (fst fs, a)) (look (gnodes s) (snd fs))) (concat lm) = Ok mn).
    { apply rmapm_total. intros x I. destruct (K x I) as [I1 ->]. destruct (W1 _ I1) as (pa & a & _ & E & _). unfold look. rewrite E. cbn. eauto. }
    destruct T1 as (mn & E1). rewrite E1. cbn [rbind].
    assert (T2 : exists b, match target_filter m with
           | None => Ok true
           | Some filter_ => rbind (look mn (target_idx m)) (fun ta => rbind (rmapm (fun at_ => rbind (look ta (fst at_)) as_str)
                            (filter (fun at_ => negb (special_attr (fst at_))) (target_attrs m))) (fun vals => Ok (mem (join slash vals) filter_))) end = Ok b).
    { destruct (target_filter m) as [fl|] eqn:Fl; [|eauto]. destruct Cov as (_ & _ & C3). rewrite Fl in C3. destruct C3 as [It C3]; [discriminate|].
      destruct (W1 _ It) as (pa & a & _ & Ea & Ne & Sat).
      assert (X : look mn (target_idx m) = Ok a).
      { apply rmapm_ok in E1. destruct (dget_forall2 (fun _ w a => dget (gnodes s) w = Some a) (concat lm) mn) as [_ G].
        - eapply Forall2_weak; [|exact E1]. intros [f w] [f' b]. cbn [fst snd]. intros X. apply rmap_ok in X. destruct X as (b' & X & Y).
          injection Y as -> ->. apply look_ok in X. auto.
        - specialize (G (target_idx m)). rewrite (chain_dget re_match S m Wp r R Dp _ _ C L) in G. apply mem_In in It. rewrite It in G. destruct G as (b & G1 & G2).
          apply look_ok. congruence. }
      rewrite X. cbn [rbind].
      assert (Y : exists vals, rmapm (fun at_ : pystr * Z => rbind (look a (fst at_)) as_str) (filter (fun at_ => negb (special_attr (fst at_))) (target_attrs m)) = Ok vals).
      { apply rmapm_total. intros [attr g] I. apply filter_In in I. destruct I as [I Sp]. apply negb_true_iff in Sp. cbn [fst] in *.
        destruct (C3 attr g I Sp _ _ Ea) as [->|(sx & Z)].
        - destruct pa as [|[a1 x1] pa]; [congruence|]. destruct (Sat a1 x1 (or_introl eq_refl)) as (? & ? & _ & Z & _). discriminate.
        - unfold look. rewrite Z. cbn. eauto. }
      destruct Y as (vals & ->). cbn. eauto. }
    destruct T2 as (b & ->). cbn [rbind]. destruct b; [|eauto].
    match goal with |- exists o, rmap _ ?x = _ => assert (T3 : exists me, x = Ok me) end.
    { apply rmapm_total. intros [h t] I. apply edge_list_In in I; auto. destruct (W2 h t I) as (pa & a & _ & E & _). cbn [fst snd].
      pose proof (proj2 (proj2 Wp) _ _ I) as [Ih It]. unfold look. rewrite !(chain_dget re_match S m Wp r R Dp _ _ C L). apply mem_In in Ih, It. rewrite Ih, It. cbn [rbind]. rewrite E. cbn. eauto. }
    destruct T3 as (me & E3). rewrite E3. cbn. eauto.
  Qed.
  Lemma subtree_total v0 : nok re_match p s r v0 -> forall fuel k lms, mdepth m - Datatypes.S k <= fuel -> Datatypes.S k <= mdepth m ->
    (forall lm, In lm lms -> chain v0 lm /\ length lm = Datatypes.S k) -> exists recs, subtree_match re_match S m fuel lms = Ok recs.
  Proof.
    intros N. assert (A : forall lms, (forall lm, In lm lms -> chain v0 lm /\ length lm = mdepth m) -> exists recs, add_match S m lms = Ok recs).
    { intros lms H. apply rflat_total. intros lm I. destruct (H lm I) as [C L]. destruct (add_one_total v0 lm N C L) as (o & ->). cbn. eauto. }
    induction fuel as [|fuel IH]; intros k lms Lf Lk H; cbn [subtree_match]; destruct lms as [|lm0 lms'] eqn:El; eauto;
      destruct (H lm0 (or_introl eq_refl)) as [_ L0]; change (@length (dict Z Z) lm0) with (@length (list (Z * Z)) lm0); rewrite L0.
    - assert (Ek : Datatypes.S k = mdepth m) by lia. rewrite Ek, Nat.eqb_refl. apply A. rewrite <- Ek. exact H.
    - destruct (Nat.eqb_spec (Datatypes.S k) (mdepth m)) as [Ek|NE]; [apply A; rewrite <- Ek; exact H|]. rewrite <- El in *. clear El L0.
      assert (T : exists next, rflat (fun lmatch => rmap (fun r0 => match r0 with None => [] | Some sucs => map (fun sucmap => lmatch ++ [sucmap]) sucs end)
         (match_level re_match s p (last lmatch []))) lms = Ok next).
      { apply rflat_total. intros lm I. destruct (match_level_total (last lm []) [[]]) as (x & E). unfold match_level. rewrite E. cbn. eauto. }
      destruct T as (next & E1). unfold dict in *. rewrite E1. cbn [rbind]. apply (IH (Datatypes.S k)); try lia. intros lm I.
      rewrite (rflat_In _ _ _ E1) in I. destruct I as (lm1 & ys & I & E2 & J). apply rmap_ok in E2. destruct E2 as (r0 & E2 & ->). apply H in I. destruct I as [C L].
      destruct (match_level_step re_match p s Ws Wp r R _ _ k (chain_last _ _ _ _ _ _ _ C L) E2) as [_ X]. destruct r0 as [l|]; [|destruct J].
      apply in_map_iff in J. destruct J as (cm & <- & J). split; [constructor; auto; now apply X|]. rewrite app_length. cbn. lia.
  Qed.
  Lemma tree_match_returns : In 1%Z (nodes p) -> exists recs, tree_match re_match S m = Some (Ok recs).
  Proof.
    intros I1. unfold tree_match. destruct (istree s); [|eauto]. apply mem_In in I1. rewrite I1. apply mem_In in I1. rewrite (get_root_rooted p r Wp R I1). cbn [option_map].
    match goal with |- exists recs, Some ?x = _ => assert (T : exists recs, x = Ok recs) end; [|destruct T as (recs & ->); eauto].
    apply rflat_total. intros [v a] I. cbn [fst snd]. apply (dget_In (gnodes s) v a (proj1 Ws)) in I.
    destruct (match_node_total v a r I (proj1 R)) as (o & E). rewrite E. cbn [rbind]. pose proof (match_node_truthy re_match p s v a r o I E) as T. destruct (truthy o); [|eauto].
    destruct (get_depth_spec p r Wp R) as (d & Ed & Ld & _). rewrite Dp in Ed. injection Ed as <-.
    apply (subtree_total v (proj1 T eq_refl) (mdepth m) 0); try lia. intros lm [<-|[]]. split; [apply chain_1|reflexivity].
  Qed.
End Total.
Lemma tree_match_total {M} (re_match : pystr -> pystr -> option M) S m :
  gwf (sgraph S) -> macro_wf m -> covers (sgraph S) m -> exists recs, tree_match re_match S m = Some (Ok recs).
Proof. intros Ws (Wp & I1 & (r & R) & Dp) C. eapply tree_match_returns; eauto. Qed.
