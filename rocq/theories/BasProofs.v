(** * Matching of labelled sentences: every placement once. *)
From Coq Require Import String NArith ZArith Bool Arith Lia Permutation List.
From Verif Require Import Base BaseLemmas Str VocabModel CorpusModel ParModel MxModel MxProofs DepModel DepSpec DepUseProofs DepGraphProofs DepMatchProofs DepEmbProofs DepTreeProofs DepMainProofs DepTotalProofs GrfModel GrfSpec GrfProofs PatModel BasModel BasSpec.
Import ListNotations.
Local Open Scope nat_scope.
Local Open Scope list_scope.

(** ** Output *)
Lemma wthen_assoc a b c : wthen (wthen a b) c = wthen a (wthen b c).
Proof. destruct a as [la [[]|e]]; cbn; [|reflexivity]. destruct b as [lb [[]|e]]; cbn; [|reflexivity]. now rewrite app_assoc. Qed.
Lemma wthen_done a : wthen a wdone = a.
Proof. destruct a as [la [[]|e]]; cbn; [|reflexivity]. now rewrite app_nil_r. Qed.
Lemma wfor_app {A} (f : A -> wout) a b : wfor f (a ++ b) = wthen (wfor f a) (wfor f b).
Proof. induction a as [|x a IH]; cbn [wfor app]; [destruct (wfor f b); reflexivity|]. now rewrite IH, wthen_assoc. Qed.

(** ** The attributes that matter *)
Definition rel_of (a : attrs) : aval := match dget a (u "rel") with Some x => x | None => AInt 0 end.
Definition tl_ (g : graph) : graph :=
  Graph (map (fun va => (fst va, [(u "label", text_of (snd va))])) (gnodes g)) (map (fun ea => (fst ea, [(u "rel", rel_of (snd ea))])) (gedges g)).
Lemma tl_nodes g : nodes (tl_ g) = nodes g.
Proof. unfold nodes, tl_, dkeys. cbn [gnodes]. now rewrite map_map. Qed.
Lemma tl_edges g : dkeys (gedges (tl_ g)) = dkeys (gedges g).
Proof. unfold tl_, dkeys. cbn [gedges]. now rewrite map_map. Qed.
Lemma dget_map {K V W} `{EqDec K} (f : V -> W) (d : dict K V) k : dget (map (fun kv => (fst kv, f (snd kv))) d) k = option_map f (dget d k).
Proof. induction d as [|[k' v] d IH]; cbn; [reflexivity|]. destruct (eqdec k k'); auto. Qed.
Lemma tl_node g v : dget (gnodes (tl_ g)) v = option_map (fun a => [(u "label", text_of a)]) (dget (gnodes g) v).
Proof. apply (dget_map (fun a => [(u "label", text_of a)])). Qed.
Lemma tl_edge g e : dget (gedges (tl_ g)) e = option_map (fun a => [(u "rel", rel_of a)]) (dget (gedges g) e).
Proof. apply (dget_map (fun a => [(u "rel", rel_of a)])). Qed.
Lemma tl_is_edge g a b : edge (tl_ g) a b <-> edge g a b.
Proof. unfold edge. now rewrite tl_edges. Qed.
Lemma tl_succs g v : succs (tl_ g) v = succs g v.
Proof. unfold succs. now rewrite tl_edges. Qed.
Lemma tl_preds g v : preds (tl_ g) v = preds g v.
Proof. unfold preds. now rewrite tl_edges. Qed.
Lemma tl_degree g v : out_degree (tl_ g) v = out_degree g v.
Proof. unfold out_degree. now rewrite tl_succs. Qed.
Lemma tl_edge_list g : edge_list (tl_ g) = edge_list g.
Proof. unfold edge_list. rewrite tl_nodes. apply flat_map_ext. intros v. now rewrite tl_succs. Qed.
Lemma tl_climb g n : forall v, climb (tl_ g) n v = climb g n v.
Proof. induction n as [|n IH]; intros v; cbn [climb]; rewrite tl_preds; destruct (preds g v); auto. now rewrite IH. Qed.
Lemma tl_depth g : get_depth (tl_ g) = get_depth g.
Proof.
  unfold get_depth. rewrite tl_nodes.
  replace (filter (fun v => out_degree (tl_ g) v =? 0) (nodes g)) with (filter (fun v => out_degree g v =? 0) (nodes g)) by (apply filter_ext; intros v; now rewrite tl_degree).
  generalize (Some 1). induction (filter (fun v => out_degree g v =? 0) (nodes g)) as [|v l IH]; intros o; cbn [fold_left]; [reflexivity|].
  rewrite IH. f_equal. unfold get_depth_of_node. now rewrite tl_nodes, tl_climb.
Qed.
Lemma tl_adjacent g a b : adjacent (tl_ g) a b = adjacent g a b.
Proof. unfold adjacent. now rewrite tl_edges. Qed.
Lemma tl_grow g x : grow (tl_ g) x = grow g x.
Proof. unfold grow. rewrite tl_nodes. apply filter_ext. intros v. f_equal. induction x as [|y x IH]; cbn; [reflexivity|]. now rewrite tl_adjacent, IH. Qed.
Lemma tl_iter g x n : Nat.iter n (grow (tl_ g)) x = Nat.iter n (grow g) x.
Proof. induction n as [|n IH]; [reflexivity|]. change (grow (tl_ g) (Nat.iter n (grow (tl_ g)) x) = grow g (Nat.iter n (grow g) x)). now rewrite IH, tl_grow. Qed.
Lemma tl_istree g : istree (tl_ g) = istree g.
Proof.
  unfold istree, weakly_connected. rewrite tl_nodes. f_equal.
  - f_equal. f_equal. unfold tl_. cbn [gedges]. apply map_length.
  - destruct (nodes g); [reflexivity|]. now rewrite tl_iter.
Qed.
Lemma tl_gwf g : gwf g -> gwf (tl_ g).
Proof.
  intros (A & B & C). split; [|split].
  - unfold dwf. change (dkeys (gnodes (tl_ g))) with (nodes (tl_ g)). now rewrite tl_nodes.
  - unfold dwf. now rewrite tl_edges.
  - intros a b E. rewrite tl_is_edge in E. rewrite tl_nodes. auto.
Qed.
Lemma tl_below g r k v : below (tl_ g) r k v <-> below g r k v.
Proof. split; induction 1; econstructor; eauto; now apply tl_is_edge. Qed.
Lemma tl_rooted g r : rooted g r -> rooted (tl_ g) r.
Proof.
  intros (A & B & C & D). split; [now rewrite tl_nodes|]. split; [intros a E; rewrite tl_is_edge in E; now apply (B a)|]. split.
  - intros a b c E F. rewrite tl_is_edge in E, F. eauto.
  - intros v I. rewrite tl_nodes in I. destruct (D v I) as (k & H). exists k. now apply tl_below.
Qed.

(** ** Labels *)
Lemma nlabel_ok g v x : has_label g v x -> nlabel g v = Ok (AStr x).
Proof. intros (a & E & F). unfold nlabel, look. now rewrite E; cbn [rbind]; rewrite F. Qed.
Lemma erel_ok g a b x : has_rel g (a, b) x -> erel g a b = Ok (AStr x).
Proof. intros (y & E & F). unfold erel, look. now rewrite E; cbn [rbind]; rewrite F. Qed.
Lemma has_label_fun g v x y : has_label g v x -> has_label g v y -> x = y.
Proof. intros H K. apply nlabel_ok in H, K. congruence. Qed.
Lemma has_rel_fun g e x y : has_rel g e x -> has_rel g e y -> x = y.
Proof. destruct e. intros H K. apply erel_ok in H, K. congruence. Qed.
Lemma label_tl g v x : has_label g v x -> dget (gnodes (tl_ g)) v = Some [(u "label", AStr x)].
Proof. intros (a & E & F). rewrite tl_node, E. cbn [option_map]. unfold text_of. now rewrite F. Qed.
Lemma rel_tl g e x : has_rel g e x -> dget (gedges (tl_ g)) e = Some [(u "rel", AStr x)].
Proof. intros (a & E & F). rewrite tl_edge, E. cbn [option_map]. unfold rel_of. now rewrite F. Qed.
Lemma reads_tl g v x : reads g v x -> dget (gnodes (tl_ g)) v = Some [(u "label", AStr x)].
Proof. intros [H|((a & E & F) & ->)]; [now apply label_tl|]. rewrite tl_node, E. cbn [option_map]. unfold text_of. now rewrite F. Qed.
Lemma reads_ex g v a : worded g -> dget (gnodes g) v = Some a -> exists x, reads g v x /\ text_of a = AStr x.
Proof.
  intros (W & _) E. specialize (W v a E). unfold text_of. destruct (dget a (u "label")) as [[x|z]|] eqn:F; [|destruct W|].
  - exists x. split; [left; exists a; auto|reflexivity].
  - exists (u "ROOT"). split; [right; split; [exists a; auto|reflexivity]|reflexivity].
Qed.
Lemma dependent_label g h v : gwf g -> worded g -> edge g h v -> exists x, has_label g v x.
Proof.
  intros (_ & _ & C) (W & _) E. destruct (C h v E) as [_ I]. apply dget_key_Some in I. destruct I as (a & Ea). specialize (W v a Ea).
  destruct (dget a (u "label")) as [[x|z]|] eqn:F; [exists x, a; auto|destruct W|]. exfalso. exact (W h E).
Qed.

Section Placed.
  Context {M : Type}.
  Variable re_match : pystr -> pystr -> option M.
  Variables s p : graph.
  Variable d : nat.
  Variable r : Z.
  Hypothesis Ws : gwf s.
  Hypothesis Wp : gwf p.
  Hypothesis Ls : worded s.
  Hypothesis Lp : labelled p.
  Hypothesis R : rooted p r.
  Hypothesis Dp : get_depth p = Some d.
  Hypothesis Ts : istree s = true.

  Definition mm : macro := Macro (tl_ p) d 1 (-1) [] [] [] None [].
  Definition ss : sentence := Sentence (tl_ s) false [].
  Notation nok := (nok re_match (tl_ p) (tl_ s)).
  Notation eok := (eok re_match (tl_ p) (tl_ s)).
  Notation chain := (chain re_match (tl_ p) (tl_ s) r).
  Lemma Ws' : gwf (tl_ s). Proof. now apply tl_gwf. Qed.
  Lemma Wp' : gwf (tl_ p). Proof. now apply tl_gwf. Qed.
  Lemma R' : rooted (tl_ p) r. Proof. now apply tl_rooted. Qed.
  Lemma Dp' : get_depth (mgraph mm) = Some (mdepth mm). Proof. cbn [mm mgraph mdepth]. now rewrite tl_depth. Qed.
  Lemma rels : forall a b, edge s a b -> exists x, has_rel s (a, b) x. Proof. apply Ls. Qed.

  Lemma cov : covers (tl_ s) mm.
  Proof.
    split; [|split].
    - intros v pa attr x E I. cbn [mm mgraph] in E. assert (In v (nodes p)) as Iv by (rewrite <- tl_nodes; eapply dget_Some_key; eauto).
      destruct (proj1 Lp v Iv) as (lp & Hl). rewrite (label_tl _ _ _ Hl) in E. injection E as <-. destruct I as [I|[]]. injection I as <- <-.
      split; [eauto|]. intros w a Ea. right. rewrite tl_node in Ea. destruct (dget (gnodes s) w) as [a'|] eqn:Ew; [|discriminate]. injection Ea as <-.
      destruct (reads_ex s w a' Ls Ew) as (y & _ & ->). exists y. cbn. reflexivity.
    - intros e pa attr x E I. cbn [mm mgraph] in E. destruct e as [a b]. assert (edge p a b) as Ie by (apply tl_is_edge; eapply dget_Some_key; eauto).
      destruct (proj2 Lp a b Ie) as (rp & Hr). rewrite (rel_tl _ _ _ Hr) in E. injection E as <-. destruct I as [I|[]]. injection I as <- <-.
      split; [eauto|]. intros [h t] a' Ea. assert (edge s h t) as Ies by (apply tl_is_edge; eapply dget_Some_key; eauto). destruct (rels h t Ies) as (y & Hy).
      rewrite (rel_tl _ _ _ Hy) in Ea. injection Ea as <-. exists y. reflexivity.
    - intros H. exfalso. apply H. reflexivity.
  Qed.

  (** *** One node, one edge *)
  Lemma nok_iff w v : nok w v <-> exists lp x, has_label p w lp /\ reads s v x /\ re_match lp x <> None.
  Proof.
    split.
    - intros (pa & a & E & F & _ & Sat). assert (In w (nodes p)) as Iw by (rewrite <- tl_nodes; eapply dget_Some_key; eauto). destruct (proj1 Lp w Iw) as (lp & Hl).
      rewrite (label_tl _ _ _ Hl) in E. injection E as <-. destruct (Sat (u "label") (AStr lp) (or_introl eq_refl)) as (r0 & x & X & Y & N). injection X as <-.
      rewrite tl_node in F. destruct (dget (gnodes s) v) as [a'|] eqn:Ev; [|discriminate]. injection F as <-. destruct (reads_ex s v a' Ls Ev) as (y & Hy & Ty).
      exists lp, y. split; [exact Hl|]. split; [exact Hy|]. rewrite Ty in Y. cbn in Y. injection Y as <-. exact N.
    - intros (lp & x & Hl & Hx & N). exists [(u "label", AStr lp)], [(u "label", AStr x)]. split; [now apply label_tl|]. split; [now apply reads_tl|]. split; [discriminate|].
      intros attr regex [I|[]]. injection I as <- <-. exists lp, x. auto.
  Qed.
  Lemma eok_iff a b h t : eok (a, b) (h, t) <-> exists rp x, has_rel p (a, b) rp /\ has_rel s (h, t) x /\ re_match rp x <> None.
  Proof.
    split.
    - intros (pa & x & E & F & _ & Sat). assert (edge p a b) as Ie by (apply tl_is_edge; eapply dget_Some_key; eauto). destruct (proj2 Lp a b Ie) as (rp & Hl).
      rewrite (rel_tl _ _ _ Hl) in E. injection E as <-. destruct (Sat (u "rel") (AStr rp) (or_introl eq_refl)) as (r0 & y & X & Y & N). injection X as <-.
      assert (edge s h t) as Ies by (apply tl_is_edge; eapply dget_Some_key; eauto). destruct (rels h t Ies) as (z & Hz). rewrite (rel_tl _ _ _ Hz) in F. injection F as <-.
      exists rp, z. split; [exact Hl|]. split; [exact Hz|]. cbn in Y. injection Y as <-. exact N.
    - intros (rp & x & Hl & Hx & N). exists [(u "rel", AStr rp)], [(u "rel", AStr x)]. split; [now apply rel_tl|]. split; [now apply rel_tl|]. split; [discriminate|].
      intros attr regex [I|[]]. injection I as <- <-. exists rp, x. auto.
  Qed.
  Lemma node_matches_ok v a w : dget (gnodes s) v = Some a -> In w (nodes p) ->
    exists b, node_matches re_match p (text_of a) w = Ok b /\ (b = true <-> nok w v) /\ exists o, match_node re_match (tl_ p) [(u "label", text_of a)] w = Ok o /\ truthy o = b.
  Proof.
    intros Ev Iw. destruct (proj1 Lp w Iw) as (lp & Hl). destruct (reads_ex s v a Ls Ev) as (x & Hx & Tx). rewrite Tx.
    exists (is_some (re_match lp x)). split; [|split].
    - unfold node_matches. rewrite (nlabel_ok _ _ _ Hl). reflexivity.
    - rewrite nok_iff. split.
      + intros H. exists lp, x. split; [exact Hl|]. split; [exact Hx|]. now destruct (re_match lp x).
      + intros (lp' & x' & Hl' & Hx' & N). rewrite (has_label_fun _ _ _ _ Hl Hl'). apply reads_tl in Hx, Hx'. rewrite Hx in Hx'. injection Hx' as <-. destruct (re_match lp' x); [reflexivity|congruence].
    - unfold match_node, look. rewrite (label_tl _ _ _ Hl). cbn [rbind match_attrs]. unfold look. cbn [dget]. destruct (eqdec (u "label") (u "label")) as [_|N]; [|congruence].
      cbn [rbind py_match]. destruct (re_match lp x); cbn; eexists; split; reflexivity.
  Qed.
  Lemma edge_matches_ok a b h t x : has_rel s (h, t) x -> edge p a b -> exists c, edge_matches re_match p (AStr x) (a, b) = Ok c /\
    exists o, match_edge re_match (tl_ p) [(u "rel", AStr x)] (a, b) = Ok o /\ truthy o = c.
  Proof.
    intros Hx E. destruct (proj2 Lp a b E) as (rp & Hr). exists (is_some (re_match rp x)). split.
    - unfold edge_matches. cbn [fst snd]. rewrite (erel_ok _ _ _ _ Hr). reflexivity.
    - unfold match_edge, look. rewrite (rel_tl _ _ _ Hr). cbn [rbind]. replace (filter (fun x0 : pystr * aval => negb (eqb (fst x0) (u "id"))) [(u "rel", AStr rp)]) with [(u "rel", AStr rp)] by reflexivity.
      cbn [match_attrs]. unfold look. cbn [dget]. destruct (eqdec (u "rel") (u "rel")) as [_|N]; [|congruence].
      cbn [rbind py_match]. destruct (re_match rp x); cbn; eexists; split; reflexivity.
  Qed.

  (** *** Levels *)
  Lemma rfilter_ext {A} (f g : A -> res bool) l : (forall x, In x l -> f x = g x) -> rfilter f l = rfilter g l.
  Proof. induction l as [|x l IH]; intros H; cbn [rfilter]; [reflexivity|]. rewrite H by now left. rewrite IH; [reflexivity|]. intros; apply H; now right. Qed.
  Lemma candidates_eq scur fcur fsuc om : edge p fcur fsuc -> bs_candidates re_match s p scur fcur fsuc om = ms_candidates re_match (tl_ s) (tl_ p) scur fcur fsuc om.
  Proof.
    intros E. unfold bs_candidates, ms_candidates. rewrite tl_succs. apply rfilter_ext. intros w I. apply succs_In in I. destruct (dmem om w); [reflexivity|].
    destruct (dependent_label s scur w Ws Ls I) as (x & Hx). destruct (rels _ _ I) as (y & Hy).
    rewrite (nlabel_ok _ _ _ Hx), (erel_ok _ _ _ _ Hy). cbn [rbind]. unfold look. rewrite (label_tl _ _ _ Hx), (rel_tl _ _ _ Hy). cbn [rbind].
    destruct Hx as (a & Ea & Fa). assert (If : In fsuc (nodes p)) by (destruct Wp as (_ & _ & C); apply (C _ _ E)).
    destruct (node_matches_ok w a fsuc Ea If) as (b & E1 & _ & o & E2 & E3). unfold text_of in E1, E2. rewrite Fa in E1, E2. rewrite E1, E2. cbn [rbind].
    destruct (edge_matches_ok fcur fsuc scur w y Hy E) as (c & E4 & o' & E5 & E6). rewrite E4, E5. cbn [rbind]. congruence.
  Qed.
  Lemma rfold_ext {A B} (f g : B -> A -> res B) l : (forall x b, In x l -> f b x = g b x) -> forall b, rfold f l b = rfold g l b.
  Proof. induction l as [|x l IH]; intros H b; cbn [rfold]; [reflexivity|]. rewrite H by now left. destruct (g b x); cbn; [|reflexivity]. apply IH. intros; apply H; now right. Qed.
  Lemma rflat_ext {A B} (f g : A -> res (list B)) l : (forall x, f x = g x) -> rflat f l = rflat g l.
  Proof. intros H. unfold rflat. f_equal. induction l as [|x l IH]; cbn [rmapm]; [reflexivity|]. now rewrite H, IH. Qed.
  Lemma successors_eq scur fcur : bs_successors re_match s p scur fcur = match_successors re_match (tl_ s) (tl_ p) scur fcur.
  Proof.
    unfold bs_successors, match_successors. rewrite tl_degree, tl_succs. destruct (out_degree p fcur =? 0); [reflexivity|]. f_equal.
    apply rfold_ext. intros f maps I. apply succs_In in I. apply rflat_ext. intros om. now rewrite candidates_eq.
  Qed.
  Lemma level_eq : forall prev maps, bs_level_from re_match s p prev maps = match_level_from re_match (tl_ s) (tl_ p) prev maps.
  Proof.
    induction prev as [|[fn sn] prev IH]; intros maps; cbn [bs_level_from match_level_from]; [reflexivity|]. rewrite tl_degree. destruct (out_degree p fn =? 0); [apply IH|].
    rewrite successors_eq. destruct (match_successors re_match (tl_ s) (tl_ p) sn fn) as [[b l]|e]; cbn [rbind fst snd]; [|reflexivity]. destruct b; [apply IH|reflexivity].
  Qed.

  Lemma bs_subtree_ok v0 : forall fuel k lms, d - Datatypes.S k <= fuel -> Datatypes.S k <= d -> NoDup lms ->
    (forall lm, In lm lms <-> chain v0 lm /\ length lm = Datatypes.S k) ->
    exists L, NoDup L /\ (forall lm, In lm L <-> chain v0 lm /\ length lm = d) /\ bs_subtree re_match s p d fuel lms = wfor (bs_record s p) L.
  Proof.
    induction fuel as [|fuel IH]; intros k lms Lf Lk D H.
    - assert (Ek : Datatypes.S k = d) by lia. cbn [bs_subtree]. destruct lms as [|lm0 lms'] eqn:El.
      + exists []. split; [constructor|]. split; [|reflexivity]. rewrite <- Ek. exact H.
      + pose proof (proj1 (H lm0) (or_introl eq_refl)) as [_ L0]. change (@length (dict Z Z) lm0) with (@length (list (Z * Z)) lm0). rewrite L0, Ek, Nat.eqb_refl. exists (lm0 :: lms'). split; auto. split; auto.
        rewrite <- Ek. exact H.
    - cbn [bs_subtree]. destruct lms as [|lm0 lms'] eqn:El.
      + exists []. split; [constructor|]. split; [|reflexivity]. intros lm. split; [intros []|]. intros [C L].
        destruct (chain_prefix _ _ _ _ v0 (d - Datatypes.S k) lm k C) as (lm' & C' & L'); [lia|]. apply (H lm'); auto.
      + pose proof (proj1 (H lm0) (or_introl eq_refl)) as [_ L0]. change (@length (dict Z Z) lm0) with (@length (list (Z * Z)) lm0). rewrite L0. destruct (Nat.eqb_spec (Datatypes.S k) d) as [Ek|NE].
        * exists (lm0 :: lms'). split; auto. split; auto. rewrite <- Ek. exact H.
        * rewrite <- El in *. clear El L0.
          assert (T : exists next, rflat (fun lmatch => rmap (fun r0 => match r0 with None => [] | Some sucs => map (fun sucmap => lmatch ++ [sucmap]) sucs end) (bs_level re_match s p (last lmatch []))) lms = Ok next).
          { apply rflat_total. intros lm _. unfold bs_level. rewrite level_eq. destruct (match_level_total re_match ss mm Ws' Wp' cov (last lm []) [[]]) as (x & Ex).
            cbn [ss mm sgraph mgraph] in Ex. rewrite Ex. cbn. eauto. }
          destruct T as (next & E1). rewrite E1. cbn [wget]. apply (IH (Datatypes.S k) next); auto; try lia.
          -- apply (rflat_NoDup _ _ _ E1); auto.
             ++ intros lm ys I E2. apply rmap_ok in E2. destruct E2 as (r0 & E2 & ->). apply H in I. destruct I as [C L]. unfold bs_level in E2. rewrite level_eq in E2.
                destruct (match_level_step _ _ _ Ws' Wp' _ R' _ _ k (chain_last _ _ _ _ _ _ _ C L) E2) as [N _]. destruct r0 as [l|]; [|constructor].
                apply nodup_map_inj; auto. intros x y _ _ X. apply app_inj_tail in X. apply X.
             ++ intros lm lm' ys ys' y _ _ E2 E3 J J'. apply rmap_ok in E2, E3. destruct E2 as (r0 & _ & ->), E3 as (r1 & _ & ->).
                destruct r0 as [l|], r1 as [l'|]; try destruct J; try destruct J'. apply in_map_iff in J, J'. destruct J as (x & <- & _), J' as (x' & X & _).
                apply app_inj_tail in X. symmetry. apply X.
          -- intros lm. rewrite (rflat_In _ _ _ E1). split.
             ++ intros (lm1 & ys & I & E2 & J). apply rmap_ok in E2. destruct E2 as (r0 & E2 & ->). apply H in I. destruct I as [C L]. unfold bs_level in E2. rewrite level_eq in E2.
                destruct (match_level_step _ _ _ Ws' Wp' _ R' _ _ k (chain_last _ _ _ _ _ _ _ C L) E2) as [_ N]. destruct r0 as [l|]; [|destruct J].
                apply in_map_iff in J. destruct J as (cm & <- & J). split; [constructor; auto; now apply N|]. rewrite app_length. cbn. lia.
             ++ intros [C L]. destruct (chain_inv _ _ _ _ _ _ _ C L) as (lm1 & cm & -> & C1 & L1 & St). assert (I : In lm1 lms) by (apply H; auto).
                destruct (rflat_all _ _ _ E1 _ I) as (ys & E2). exists lm1, ys. split; auto. split; auto.
                apply rmap_ok in E2. destruct E2 as (r0 & E2 & ->). unfold bs_level in E2. rewrite level_eq in E2.
                destruct (match_level_step _ _ _ Ws' Wp' _ R' _ _ k (chain_last _ _ _ _ _ _ _ C1 L1) E2) as [_ N]. apply N in St. destruct r0 as [l|]; [|destruct St].
                apply in_map_iff. exists cm. auto.
  Qed.

  (** *** Records *)
  Lemma ft lm x v0 : chain v0 lm -> In x (concat lm) -> fn_of lm (fst x) = snd x.
  Proof. intros C. exact (fn_of_spec re_match ss mm Wp' r R' v0 lm C x). Qed.
  Lemma merged lm v0 : chain v0 lm -> fold_left (fun d l => dupdate d l) lm [] = concat lm.
  Proof. intros C. apply (fold_dupdate_concat lm []). apply (chain_wf re_match ss mm Wp' r R' v0 lm C). Qed.
  Lemma keys_in lm v0 x : chain v0 lm -> length lm = d -> In x (concat lm) -> In (fst x) (nodes p).
  Proof.
    intros C L I. pose proof (chain_dget re_match ss mm Wp' r R' Dp' v0 lm C L (fst x)) as E. cbn [mm mgraph] in E. rewrite tl_nodes in E.
    destruct (mem (fst x) (nodes p)) eqn:Em; [now apply mem_In|]. apply dget_None in E. exfalso. apply E. now apply in_map.
  Qed.
  Lemma weak_placement f : weak_emb re_match ss mm f <-> placement re_match s p f.
  Proof.
    split.
    - intros H. pose proof H as (A & B & C). cbn [mm ss mgraph sgraph] in A, B, C. split; [|split].
      + intros w I. apply nok_iff. apply A. now rewrite tl_nodes.
      + intros a b E. apply eok_iff. apply B. now apply tl_is_edge.
      + destruct (weak_embedding re_match ss mm f Ws' Wp' (ex_intro _ r R')) as (_ & _ & J); [cbn [ss sgraph]; now rewrite tl_istree|exact H|].
        cbn [mm mgraph] in J. rewrite tl_nodes in J. exact J.
    - intros (A & B & C). unfold weak_emb. cbn [mm ss mgraph sgraph]. split; [|split].
      + intros v I. rewrite tl_nodes in I. apply nok_iff. auto.
      + intros h t E. rewrite tl_is_edge in E. apply eok_iff. auto.
      + intros h t t' E E' X. rewrite tl_is_edge in E, E'. destruct Wp as (_ & _ & We). apply C; auto; [apply (We h t E)|apply (We h t' E')].
  Qed.
  Lemma chain_placement v0 lm : nok r v0 -> chain v0 lm -> length lm = d -> placement re_match s p (fn_of lm) /\ fn_of lm r = v0.
  Proof.
    intros N C L. split; [apply weak_placement; exact (chain_weak re_match ss mm Wp' r R' Dp' v0 lm N C L)|].
    destruct (chain_head _ _ _ _ _ _ C) as (l & El). apply (ft lm (r, v0) v0 C). rewrite El. now left.
  Qed.
  Lemma image_label f w : placement re_match s p f -> In w (nodes p) -> w <> r -> exists x, has_label s (f w) x.
  Proof.
    intros (_ & B & _) I N. destruct R as (_ & _ & _ & D). destruct (D w I) as (k & Bk). destruct k as [|k]; [inversion Bk; congruence|].
    inversion Bk as [|? h ? _ E]; subst. destruct (B h w E) as (rp & x & _ & (a & Ea & _) & _). apply dget_Some_key in Ea. exact (dependent_label s (f h) (f w) Ws Ls Ea).
  Qed.
  Lemma rmapm_forall {A B} (f : A -> res B) (P : A -> B -> Prop) l : (forall x, In x l -> exists y, f x = Ok y /\ P x y) -> exists ys, rmapm f l = Ok ys /\ Forall2 P l ys.
  Proof.
    induction l as [|x l IH]; intros H; cbn [rmapm]; [exists []; split; [reflexivity|constructor]|]. destruct (H x (or_introl eq_refl)) as (y & E & Py). rewrite E.
    destruct IH as (ys & Ey & F); [intros; apply H; now right|]. rewrite Ey. exists (y :: ys). split; [reflexivity|now constructor].
  Qed.
  Lemma record_ok v0 lm : nok r v0 -> chain v0 lm -> length lm = d -> ~ unlabelled s v0 -> exists m, bs_record s p lm = ([m], Ok tt) /\ occ_record s p (fn_of lm) m.
  Proof.
    intros N C L U. destruct (chain_placement v0 lm N C L) as [Pl Fr]. unfold bs_record. change (list (dict Z Z)) with (list (list (Z * Z))) in lm. rewrite (merged lm v0 C).
    destruct (rmapm_forall (fun fs : Z * Z => rmap (pair (fst fs)) (nlabel s (snd fs))) (fun fs y => fst y = fst fs /\ exists x, snd y = AStr x /\ has_label s (snd fs) x) (concat lm)) as (ns & En & Fn).
    { intros [w v] I. cbn [fst snd]. assert (X : exists x, has_label s v x).
      { assert (E : fn_of lm w = v) by exact (ft lm (w, v) v0 C I). destruct (Z.eq_dec w r) as [->|Nr].
        - assert (v = v0) as -> by congruence. destruct N as (_ & a & _ & Ea & _). rewrite tl_node in Ea. destruct (dget (gnodes s) v0) as [a'|] eqn:Ev; [|discriminate].
          destruct (reads_ex s v0 a' Ls Ev) as (x & [Hx|[Hx _]] & _); [eauto|contradiction].
        - rewrite <- E. apply image_label; auto. exact (keys_in lm v0 (w, v) C L I). }
      destruct X as (x & Hx). exists (w, AStr x). rewrite (nlabel_ok _ _ _ Hx). split; [reflexivity|]. split; [reflexivity|]. exists x. split; [reflexivity|exact Hx]. }
    rewrite En. cbn [wget].
    assert (G : forall w, In w (nodes p) -> dget (concat lm) w = Some (fn_of lm w)).
    { intros w I. pose proof (chain_dget re_match ss mm Wp' r R' Dp' v0 lm C L w) as E. cbn [mm mgraph] in E. rewrite tl_nodes in E. apply mem_In in I. rewrite I in E. exact E. }
    destruct (rmapm_forall (fun ht : Z * Z => rbind (look (concat lm) (fst ht)) (fun h => rbind (look (concat lm) (snd ht)) (fun t => rmap (pair ht) (erel s h t))))
      (fun ht y => fst y = ht /\ exists x, snd y = AStr x /\ has_rel s (fn_of lm (fst ht), fn_of lm (snd ht)) x) (edge_list p)) as (es & Ee & Fe).
    { intros [h t] I. apply (edge_list_In p h t Wp) in I. destruct Pl as (_ & B & _). destruct (B h t I) as (rp & x & _ & Hx & _). destruct Wp as (_ & _ & We). destruct (We h t I) as [Ih It].
      exists ((h, t), AStr x). cbn [fst snd]. unfold look. rewrite (G h Ih), (G t It). cbn [rbind]. rewrite (erel_ok _ _ _ _ Hx). split; [reflexivity|]. split; [reflexivity|]. exists x. split; [reflexivity|exact Hx]. }
    rewrite Ee. cbn [wget]. exists (ns, es). split; [reflexivity|].
    assert (Kn : dkeys ns = map fst (concat lm)).
    { clear - Fn. unfold dkeys. induction Fn as [|a b l l' [E _] F IH]; cbn; [reflexivity|]. now rewrite E, IH. }
    assert (Ke : dkeys es = edge_list p).
    { clear - Fe. unfold dkeys. induction Fe as [|a b l l' [E _] F IH]; cbn; [reflexivity|]. now rewrite E, IH. }
    assert (Dn : dwf ns) by (unfold dwf; rewrite Kn; exact (chain_wf re_match ss mm Wp' r R' v0 lm C)).
    assert (De : dwf es) by (unfold dwf; rewrite Ke; now apply edge_list_NoDup).
    unfold occ_record. cbn [fst snd]. split; [exact Dn|]. split; [exact De|]. split.
    - intros w x. rewrite <- (dget_In ns w x Dn). split.
      + intros I. destruct (Forall2_In_r _ _ _ _ Fn I) as (fs & If & E & y & Ey & Hy). cbn [fst snd] in E, Ey. subst w x.
        split; [exact (keys_in lm v0 fs C L If)|]. exists y. split; [reflexivity|]. now rewrite (ft lm fs v0 C If).
      + intros (Iw & y & -> & Hy). specialize (G w Iw). apply dget_In in G; [|exact (chain_wf re_match ss mm Wp' r R' v0 lm C)]. destruct (Forall2_In_l _ _ _ _ Fn G) as ([w' x] & Iy & E & y' & Ey & Hy').
        cbn [fst snd] in *. subst. rewrite (has_label_fun _ _ _ _ Hy Hy'). exact Iy.
    - intros a b x. rewrite <- (dget_In es (a, b) x De). split.
      + intros I. destruct (Forall2_In_r _ _ _ _ Fe I) as ([h t] & If & E & y & Ey & Hy). cbn [fst snd] in E, Ey, Hy. injection E as -> ->. subst x.
        split; [now apply edge_list_In|]. eauto.
      + intros (Ie & y & -> & Hy). apply (edge_list_In p a b Wp) in Ie. destruct (Forall2_In_l _ _ _ _ Fe Ie) as ([w' x] & Iy & E & y' & Ey & Hy').
        cbn [fst snd] in *. subst. rewrite (has_rel_fun _ _ _ _ Hy Hy'). exact Iy.
  Qed.
  Lemma record_error v0 lm : chain v0 lm -> unlabelled s v0 -> bs_record s p lm = ([], Err KeyError).
  Proof.
    intros C (a & Ea & Na). unfold bs_record. change (list (dict Z Z)) with (list (list (Z * Z))) in lm. rewrite (merged lm v0 C). destruct (chain_head _ _ _ _ _ _ C) as (l & ->). cbn [concat app rmapm fst snd].
    unfold nlabel at 1, look at 1. rewrite Ea. cbn [rbind]. unfold look at 1. rewrite Na. reflexivity.
  Qed.

  (** *** All nodes *)
  Definition top (va : Z * attrs) : wout :=
    wget (node_matches re_match p (text_of (snd va)) r) (fun b => if b then bs_subtree re_match s p d d [[[(r, fst va)]]] else wdone).
  Lemma tops : forall l, incl l (gnodes s) -> NoDup (map fst l) ->
    exists LL, NoDup LL /\ (forall lm, In lm LL <-> exists v0, In v0 (map fst l) /\ nok r v0 /\ chain v0 lm /\ length lm = d) /\ wfor top l = wfor (bs_record s p) LL.
  Proof.
    destruct (get_depth_spec p r Wp R) as (d' & Ed & Ld & _). rewrite Dp in Ed. injection Ed as <-.
    induction l as [|[v a] l IH]; intros I N.
    - exists []. split; [constructor|]. split; [|reflexivity]. intros lm. split; [intros []|]. intros (v0 & [] & _).
    - cbn [map] in N. inversion N; subst. destruct IH as (L1 & N1 & H & A1); auto; [intros x X; apply I; right; auto|].
      assert (T : exists L, NoDup L /\ (forall lm, In lm L <-> nok r v /\ chain v lm /\ length lm = d) /\ top (v, a) = wfor (bs_record s p) L).
      { assert (Ev : dget (gnodes s) v = Some a) by (apply dget_In; [apply Ws|apply I; now left]).
        destruct (node_matches_ok v a r Ev (proj1 R)) as (b & E & Hb & _). unfold top. cbn [fst snd]. rewrite E. cbn [wget]. destruct b.
        - destruct (bs_subtree_ok v d 0 [[[(r, v)]]]) as (L & L1' & L2 & L3); try lia.
          + constructor; [intros []|constructor].
          + intros lm. split.
            * intros [<-|[]]. split; [apply chain_1|reflexivity].
            * intros [C X]. destruct C as [|lm cm C _]; [left; auto|]. exfalso. rewrite app_length in X. cbn in X. pose proof (chain_ne _ _ _ _ _ _ C). destruct lm; [congruence|cbn in X; lia].
          + exists L. split; auto. split; [|exact L3]. intros lm. rewrite L2. intuition.
        - exists []. split; [constructor|]. split; [|reflexivity]. intros lm. split; [intros []|]. intros (X & _). apply Hb in X. discriminate. }
      destruct T as (L2 & N2 & H' & A2). exists (L2 ++ L1). split; [|split].
      + apply NoDup_app'; auto. intros lm X Y. apply H' in X. apply H in Y. destruct X as (_ & X & _), Y as (v0 & Y & _ & Zc & _).
        apply chain_head in X, Zc. destruct X as (l1 & X), Zc as (l2 & Zc). rewrite X in Zc. injection Zc as Zc _. subst v0. auto.
      + intros lm. rewrite in_app_iff, H', H. cbn [map In]. split.
        * intros [X|(v0 & X & Y)]; [exists v; tauto|exists v0; tauto].
        * intros (v0 & [<-|X] & Y); [left; tauto|right; exists v0; tauto].
      + cbn [wfor]. now rewrite A1, A2, wfor_app.
  Qed.
  Lemma all_tops : exists LL, NoDup LL /\ (forall lm, In lm LL <-> exists v0, nok r v0 /\ chain v0 lm /\ length lm = d) /\ wfor top (gnodes s) = wfor (bs_record s p) LL.
  Proof.
    destruct (tops (gnodes s) (incl_refl _) (proj1 Ws)) as (LL & N & H & E). exists LL. split; [exact N|]. split; [|exact E]. intros lm. rewrite H. split.
    - intros (v0 & _ & X). eauto.
    - intros (v0 & X & Y). exists v0. split; [|auto]. destruct X as (pa & a & _ & X & _). apply dget_Some_key in X. change (In v0 (nodes (tl_ s))) in X. rewrite tl_nodes in X. exact X.
  Qed.
  Lemma bs_tree_top : gedges s <> [] -> gedges p <> [] -> In 1%Z (nodes p) -> bs_tree re_match s p d = Some (wfor top (gnodes s)).
  Proof.
    intros Es Ep I1. unfold bs_tree, is_tree. rewrite Ts, (rooted_istree p r Wp R). destruct (gedges s); [congruence|]. destruct (gedges p); [congruence|].
    apply mem_In in I1. rewrite I1. apply mem_In in I1. rewrite (get_root_rooted p r Wp R I1). reflexivity.
  Qed.
  Lemma unlabelled_dec v : unlabelled s v \/ ~ unlabelled s v.
  Proof.
    unfold unlabelled. destruct (dget (gnodes s) v) as [a|]; [|right; intros (a & E & _); discriminate]. destruct (dget a (u "label")) eqn:E; [|left; eauto].
    right. intros (a' & X & Y). injection X as <-. congruence.
  Qed.
  Lemma wfor_records LL : (forall lm, In lm LL -> exists m, bs_record s p lm = ([m], Ok tt) /\ occ_record s p (fn_of lm) m) ->
    exists ms, wfor (bs_record s p) LL = (ms, Ok tt) /\ Forall2 (fun lm m => occ_record s p (fn_of lm) m) LL ms.
  Proof.
    induction LL as [|lm LL IH]; intros H; [exists []; split; [reflexivity|constructor]|]. destruct (H lm (or_introl eq_refl)) as (m & E & O).
    destruct IH as (ms & E' & F); [intros; apply H; now right|]. exists (m :: ms). cbn [wfor]. rewrite E, E'. split; [reflexivity|now constructor].
  Qed.
  Lemma wfor_error LL : (forall lm, In lm LL -> (exists m, bs_record s p lm = ([m], Ok tt) /\ occ_record s p (fn_of lm) m) \/ bs_record s p lm = ([], Err KeyError)) ->
    (exists lm, In lm LL /\ bs_record s p lm = ([], Err KeyError)) ->
    exists ms, wfor (bs_record s p) LL = (ms, Err KeyError) /\ Forall (fun m => exists lm, In lm LL /\ occ_record s p (fn_of lm) m) ms.
  Proof.
    induction LL as [|lm LL IH]; intros H (lm0 & I0 & E0); [destruct I0|]. cbn [wfor]. destruct (H lm (or_introl eq_refl)) as [(m & E & O)|E].
    - destruct IH as (ms & E' & F).
      + intros lm' I'. apply H. now right.
      + destruct I0 as [<-|I0]; [congruence|eauto].
      + exists (m :: ms). rewrite E, E'. split; [reflexivity|]. constructor; [exists lm; split; [now left|exact O]|].
        eapply Forall_impl; [|exact F]. intros m' (lm' & I' & O'). exists lm'. split; [now right|exact O'].
    - exists []. rewrite E. split; [reflexivity|constructor].
  Qed.

  Theorem tree_exact : gedges s <> [] -> gedges p <> [] -> In 1%Z (nodes p) -> (forall f, placement re_match s p f -> ~ unlabelled s (f r)) ->
    exists fs ms, bs_tree re_match s p d = Some (ms, Ok tt) /\ Forall2 (fun f m => placement re_match s p f /\ occ_record s p f m) fs ms /\
      (forall f, placement re_match s p f -> exists g, In g fs /\ same_on p f g) /\ ForallOrdPairs (fun f g => ~ same_on p f g) fs.
  Proof.
    intros Es Ep I1 U. destruct all_tops as (LL & N & H & E). rewrite (bs_tree_top Es Ep I1), E.
    destruct (wfor_records LL) as (ms & Em & F).
    { intros lm I. apply H in I. destruct I as (v0 & Nk & C & L). destruct (chain_placement v0 lm Nk C L) as [Pl Fr]. apply (record_ok v0); auto. rewrite <- Fr. now apply U. }
    exists (map fn_of LL), ms. rewrite Em. split; [reflexivity|]. split; [|split].
    - assert (X : forall lm, In lm LL -> placement re_match s p (fn_of lm)).
      { intros lm I. apply H in I. destruct I as (v0 & Nk & C & L). now destruct (chain_placement v0 lm Nk C L). }
      clear - F X. induction F as [|lm m LL ms O F IH]; cbn [map]; constructor; [split; [apply X; now left|exact O]|]. apply IH. intros; apply X; now right.
    - intros f Pf. apply weak_placement in Pf. destruct (weak_chain re_match ss mm Wp' r R' Dp' f Pf) as (lm & C & L & Sm & Nk). cbn [ss mm sgraph mgraph mdepth] in *.
      exists (fn_of lm). split; [apply in_map; apply H; eauto|]. intros v I. apply Sm. now rewrite tl_nodes.
    - assert (X : forall lm, In lm LL -> exists v0, chain v0 lm /\ length lm = d) by (intros lm I; apply H in I; destruct I as (v0 & _ & C & L); eauto).
      clear - N X Wp R Dp. induction N as [|lm LL Nin N IH]; cbn [map]; constructor; [|apply IH; intros; apply X; now right].
      apply Forall_forall. intros g I Sm. apply in_map_iff in I. destruct I as (lm' & <- & I). destruct (X lm (or_introl eq_refl)) as (v0 & C & L), (X lm' (or_intror I)) as (v1 & C' & L').
      apply Nin. rewrite (chain_unique re_match ss mm Wp' r R' v0 v1 lm lm' C C' L L'); [exact I|]. cbn [mm mgraph]. intros v Iv. rewrite tl_nodes in Iv. now apply Sm.
  Qed.
  Theorem tree_root_error : gedges s <> [] -> gedges p <> [] -> In 1%Z (nodes p) -> (exists f, placement re_match s p f /\ unlabelled s (f r)) ->
    exists ms, bs_tree re_match s p d = Some (ms, Err KeyError) /\ Forall (fun m => exists f, placement re_match s p f /\ occ_record s p f m) ms.
  Proof.
    intros Es Ep I1 (f & Pf & U). destruct all_tops as (LL & N & H & E). rewrite (bs_tree_top Es Ep I1), E.
    destruct (wfor_error LL) as (ms & Em & F).
    - intros lm I. apply H in I. destruct I as (v0 & Nk & C & L). destruct (unlabelled_dec v0) as [U0|U0]; [right; now apply (record_error v0)|left; now apply (record_ok v0)].
    - apply weak_placement in Pf. destruct (weak_chain re_match ss mm Wp' r R' Dp' f Pf) as (lm & C & L & Sm & Nk). cbn [ss mm sgraph mgraph mdepth] in *.
      exists lm. split; [apply H; eauto|]. now apply (record_error (f r)).
    - exists ms. rewrite Em. split; [reflexivity|]. eapply Forall_impl; [|exact F]. intros m (lm & I & O). exists (fn_of lm). split; [|exact O].
      apply H in I. destruct I as (v0 & Nk & C & L). now destruct (chain_placement v0 lm Nk C L).
  Qed.
End Placed.
