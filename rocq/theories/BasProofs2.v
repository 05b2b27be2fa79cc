(** * Sentences and features of deprel/basic.py: how they are built; the walking matcher. *)
From Coq Require Import String NArith ZArith Bool Arith Lia Permutation List.
From Verif Require Import Base BaseLemmas Str StrLemmas VocabModel CorpusModel ParModel MxModel MxProofs DepModel DepSpec DepUseProofs DepReadProofs DepGraphProofs DepMatchProofs DepEmbProofs DepTreeProofs DepMainProofs DepTotalProofs GrfModel GrfSpec GrfProofs GrfProofs2 GrfProofs3 GrfProofs4 PatModel PatProofs BasModel BasSpec BasProofs.
Import ListNotations.
Local Open Scope nat_scope.
Local Open Scope list_scope.

(** ** Graphs from nodes and edges *)
Lemma gen_nodes_eq ns : forall g, NoDup (dkeys (gnodes g) ++ dkeys ns) ->
  fold_left gen_node ns g = Graph (gnodes g ++ map (fun kv => (fst kv, [(u "label", AStr (snd kv))])) ns) (gedges g).
Proof.
  induction ns as [|[k x] ns IH]; intros g N; cbn [fold_left map]; [rewrite app_nil_r; now destruct g|].
  assert (Fr : ~ In k (dkeys (gnodes g))).
  { intros I. unfold dkeys in N. cbn [map fst] in N. apply NoDup_remove_2 in N. apply N. rewrite in_app_iff. now left. }
  assert (E : gen_node g (k, x) = Graph (gnodes g ++ [(k, [(u "label", AStr x)])]) (gedges g)).
  { unfold gen_node, nx_add_node. cbn [fst snd]. rewrite (proj2 (dget_None _ _) Fr). cbn [dupdate fold_left fst snd]. f_equal. now apply DepMatchProofs.dset_fresh. }
  rewrite E, IH; cbn [gnodes gedges]; [now rewrite <- app_assoc|]. unfold dkeys in *. rewrite map_app, <- app_assoc. exact N.
Qed.
Lemma add_edge_node g a b kw v : dget (gnodes (nx_add_edge g a b kw)) v =
  match dget (gnodes g) v with Some x => Some x | None => if (v =? a)%Z || (v =? b)%Z then Some [] else None end.
Proof.
  unfold nx_add_edge. cbn [gnodes nx_add_node]. rewrite !dget_dset. cbn [dupdate fold_left].
  destruct (eqdec v b) as [-> |Nb].
  - rewrite Z.eqb_refl, orb_true_r. destruct (eqdec b a) as [-> |]; [now destruct (dget (gnodes g) a)|now destruct (dget (gnodes g) b)].
  - destruct (eqdec v a) as [-> |Na]; [rewrite Z.eqb_refl; now destruct (dget (gnodes g) a)|]. apply Z.eqb_neq in Na, Nb. rewrite Na, Nb. now destruct (dget (gnodes g) v).
Qed.
Lemma add_edge_edges g a b kw : ~ In (a, b) (dkeys (gedges g)) -> gedges (nx_add_edge g a b kw) = gedges g ++ [((a, b), dupdate [] kw)].
Proof. intros Fr. unfold nx_add_edge. cbn [gedges nx_add_node]. rewrite (proj2 (dget_None _ _) Fr). now apply DepMatchProofs.dset_fresh. Qed.
Definition mk_edge (ie : nat * ((Z * Z) * pystr)) : (Z * Z) * attrs := (fst (snd ie), [(u "id", AInt (Z.of_nat (S (fst ie)))); (u "rel", AStr (snd (snd ie)))]).
Lemma gen_edges_eq : forall es k g, gwf g -> NoDup (dkeys (gedges g) ++ dkeys es) ->
  let g' := fold_left gen_edge (combine (seq k (length es)) es) g in
  gwf g' /\ gedges g' = gedges g ++ map mk_edge (combine (seq k (length es)) es) /\
  (forall v, dget (gnodes g') v = match dget (gnodes g) v with Some x => Some x | None => if existsb (fun e => (v =? fst e)%Z || (v =? snd e)%Z) (dkeys es) then Some [] else None end).
Proof.
  induction es as [|[[a b] x] es IH]; intros k g W N g'; [subst g'; cbn; split; [exact W|]; split; [now rewrite app_nil_r|]; intros v; now destruct (dget (gnodes g) v)|].
  subst g'. cbn [length seq combine fold_left map].
  assert (Fr : ~ In (a, b) (dkeys (gedges g))).
  { intros I. unfold dkeys in N. cbn [map fst] in N. apply NoDup_remove_2 in N. apply N. rewrite in_app_iff. now left. }
  assert (E : gedges (gen_edge g (k, ((a, b), x))) = gedges g ++ [mk_edge (k, ((a, b), x))]).
  { unfold gen_edge. rewrite add_edge_edges by exact Fr. unfold mk_edge. cbn [fst snd]. rewrite Nat.add_1_r. reflexivity. }
  destruct (IH (S k) (gen_edge g (k, ((a, b), x)))) as (W' & E' & H').
  - unfold gen_edge. now apply nx_edge_wf.
  - rewrite E. unfold dkeys in *. rewrite map_app, <- app_assoc. exact N.
  - split; [exact W'|]. split; [rewrite E', E, <- app_assoc; reflexivity|]. intros v. rewrite H'. unfold gen_edge at 1. rewrite add_edge_node. destruct (dget (gnodes g) v); [reflexivity|].
    cbn [dkeys map fst snd existsb]. now destruct ((v =? a)%Z || (v =? b)%Z).
Qed.
Lemma dget_nth {K V} `{EqDec K} (d : dict K V) i k v : dwf d -> nth_error d i = Some (k, v) -> dget d k = Some v.
Proof. intros W E. apply dget_In; [exact W|]. now apply nth_error_In in E. Qed.
Lemma combine_seq_nth {A} (l : list A) : forall k i x, nth_error l i = Some x -> nth_error (combine (seq k (length l)) l) i = Some (k + i, x).
Proof. induction l as [|y l IH]; intros k i x E; destruct i; cbn in *; try discriminate; [injection E as ->; now rewrite Nat.add_0_r|]. rewrite (IH (S k) i x E). f_equal. f_equal. lia. Qed.
Lemma map_mk_keys es k : map fst (map mk_edge (combine (seq k (length es)) es)) = dkeys es.
Proof. revert k. induction es as [|e es IH]; intros k; cbn; [reflexivity|]. f_equal. apply IH. Qed.

Theorem gen_graph_ok ns es : dwf ns -> dwf es -> graph_of ns es (gen_graph ns es).
Proof.
  intros Wn We. unfold gen_graph. rewrite (gen_nodes_eq ns empty_graph) by exact Wn. cbn [empty_graph gnodes gedges app].
  set (g0 := Graph (map (fun kv : Z * pystr => (fst kv, [(u "label", AStr (snd kv))])) ns) []).
  assert (K0 : dkeys (gnodes g0) = dkeys ns) by (unfold g0, dkeys; cbn [gnodes]; now rewrite map_map).
  assert (G0 : forall v, dget (gnodes g0) v = option_map (fun x => [(u "label", AStr x)]) (dget ns v)) by (intros v; unfold g0; cbn [gnodes]; exact (dget_map (fun x => [(u "label", AStr x)]) ns v)).
  assert (W0 : gwf g0).
  { split; [unfold dwf; rewrite K0; exact Wn|]. split; [constructor|]. intros a b []. }
  destruct (gen_edges_eq es 0 g0 W0) as (W & E & H); [exact We|]. set (g := fold_left _ _ _) in *. clearbody g. cbn [g0 gedges app] in E.
  assert (Gv : forall v, dget (gnodes g) v = match dget ns v with Some x => Some [(u "label", AStr x)] | None => if existsb (fun e => (v =? fst e)%Z || (v =? snd e)%Z) (dkeys es) then Some [] else None end).
  { intros v. rewrite H, G0. now destruct (dget ns v). }
  assert (Ex : forall v, existsb (fun e => (v =? fst e)%Z || (v =? snd e)%Z) (dkeys es) = true <-> exists a, In (v, a) (dkeys es) \/ In (a, v) (dkeys es)).
  { intros v. rewrite existsb_exists. split.
    - intros ([a b] & I & Eb). cbn [fst snd] in Eb. apply orb_true_iff in Eb. rewrite !Z.eqb_eq in Eb. destruct Eb as [-> | ->]; eauto.
    - intros (a & [I|I]); eexists; (split; [exact I|]); cbn [fst snd]; rewrite Z.eqb_refl, ?orb_true_r; reflexivity. }
  assert (Nv : forall v, In v (nodes g) <-> In v (dkeys ns) \/ exists a, In (v, a) (dkeys es) \/ In (a, v) (dkeys es)).
  { intros v. rewrite <- Ex. split.
    - intros I. destruct (dget_key_Some _ _ I) as (x & Ev). rewrite Gv in Ev. destruct (dget ns v) eqn:En; [left; eapply dget_Some_key; exact En|]. destruct (existsb _ _); [now right|discriminate].
    - intros Hv. unfold nodes. specialize (Gv v). destruct (dget ns v) eqn:En; [apply dget_Some_key in Gv; exact Gv|]. destruct Hv as [I|X].
      + apply dget_None in En. contradiction.
      + rewrite X in Gv. apply dget_Some_key in Gv; exact Gv. }
  assert (Ke : dkeys (gedges g) = dkeys es) by (rewrite E; apply map_mk_keys).
  assert (Ge : forall i e x, nth_error es i = Some (e, x) -> dget (gedges g) e = Some [(u "id", AInt (Z.of_nat (S i))); (u "rel", AStr x)]).
  { intros i e x Ei. apply (dget_nth _ i); [unfold dwf; rewrite Ke; exact We|]. rewrite E. exact (map_nth_error mk_edge i _ (combine_seq_nth es 0 i _ Ei)). }
  split; [exact W|]. split; [exact Nv|]. split; [|split; [|split; [exact Ke|split]]].
  - intros v x. unfold has_label. rewrite Gv. destruct (dget ns v) as [y|].
    + split; [intros (a & Ea & El); injection Ea as <-; change (Some (AStr y) = Some (AStr x)) in El; congruence|intros Ey; injection Ey as ->; eexists; split; reflexivity].
    + split; [|discriminate]. destruct (existsb _ _); intros (a & Ea & El); [|discriminate]. injection Ea as <-. discriminate.
  - intros v. rewrite Nv, <- Ex, <- dget_None. unfold unlabelled. rewrite Gv. destruct (dget ns v) as [y|] eqn:Ey.
    + split; [intros (a & Ea & El); injection Ea as <-; discriminate|intros [_ X]; discriminate].
    + destruct (existsb _ _); [|split; [intros (a & Ea & _); discriminate|intros [[I|I] _]; [apply dget_None in Ey; contradiction|discriminate]]].
      split; [auto|]. intros _. exists []. split; reflexivity.
  - intros e x. unfold has_rel. split.
    + intros (a & Ea & El). pose proof (dget_Some_key _ _ _ Ea) as I. rewrite Ke in I. destruct (dget_key_Some _ _ I) as (y & Ey). pose proof (dget_Some_In _ _ _ Ey) as Iy. apply In_nth_error in Iy.
      destruct Iy as (i & Ei). rewrite (Ge _ _ _ Ei) in Ea. injection Ea as <-. change (Some (AStr y) = Some (AStr x)) in El. congruence.
    + intros Ey. pose proof (dget_Some_In _ _ _ Ey) as Iy. apply In_nth_error in Iy. destruct Iy as (i & Ei). rewrite (Ge _ _ _ Ei). eexists. split; reflexivity.
  - intros i e Ei. unfold dkeys in Ei. rewrite nth_error_map in Ei. destruct (nth_error es i) as [[e' x]|] eqn:Ex'; [|discriminate]. cbn in Ei. injection Ei as ->.
    rewrite (Ge _ _ _ Ex'). eexists. split; reflexivity.
Qed.

(** ** Sentences from lines *)
Lemma raw_columns line word pos type i h rel : columns line [word; pos; type; i; h; rel] ->
  raw_line line = rbind (int_of_str i) (fun zi => rmap (fun t => Some (zi, type ++ slash :: pos, t, rel)) (int_of_str h)).
Proof. intros [E F]. unfold raw_line. rewrite E, split_join; [reflexivity|discriminate|exact F]. Qed.
Definition add_tok (st : dict Z pystr * dict (Z * Z) pystr) (t : token) := (dset (fst st) (t_id t) (t_label t), dset (snd st) (t_head t, t_id t) (t_rel t)).
Lemma tokens_fold lines toks : tokens lines toks -> forall st, rfold read_line lines st = Ok (fold_left add_tok toks st).
Proof.
  intros T. induction T as [|line ls toks word pos type i h rel zi zh C Ei Eh T IH|line ls toks C T IH]; intros st; cbn [rfold fold_left]; [reflexivity| |].
  - unfold read_line at 1. rewrite (raw_columns _ _ _ _ _ _ _ C), Ei, Eh. cbn [rbind rmap]. now rewrite IH.
  - unfold read_line at 1. rewrite (raw_line_other _ C). cbn [rbind rmap]. apply IH.
Qed.
Lemma tok_dicts toks : let st := fold_left add_tok toks ([], []) in
  dwf (fst st) /\ dwf (snd st) /\ (forall i, dget (fst st) i = line_label toks i) /\ (forall h i, dget (snd st) (h, i) = line_rel toks h i) /\
  (forall i, In i (dkeys (fst st)) <-> exists t, In t toks /\ t_id t = i) /\ (forall h i, In (h, i) (dkeys (snd st)) <-> exists t, In t toks /\ t_head t = h /\ t_id t = i).
Proof.
  induction toks as [|t toks IH] using rev_ind.
  - cbn [fold_left fst snd]. split; [apply NoDup_nil|]. split; [apply NoDup_nil|]. split; [reflexivity|]. split; [reflexivity|]. split; [intros i|intros h i]; (split; [intros []|intros (t & [] & _)]).
  - rewrite fold_left_app. cbn [fold_left]. set (st := fold_left add_tok toks ([], [])) in *. destruct IH as (A & B & C & D & E & F). cbn [add_tok fst snd]. unfold add_tok. cbn [fst snd].
    split; [now apply dwf_dset|]. split; [now apply dwf_dset|]. split; [|split; [|split]].
    + intros i. rewrite dget_dset, C. unfold line_label. rewrite rev_app_distr. cbn [rev app List.find]. destruct (eqdec i (t_id t)) as [-> |N]; [now rewrite Z.eqb_refl|].
      destruct (Z.eqb_spec (t_id t) i); [congruence|reflexivity].
    + intros h i. rewrite dget_dset, D. unfold line_rel. rewrite rev_app_distr. cbn [rev app List.find]. destruct (eqdec (h, i) (t_head t, t_id t)) as [e|N].
      * injection e as -> ->. now rewrite !Z.eqb_refl.
      * destruct (Z.eqb_spec (t_id t) i), (Z.eqb_spec (t_head t) h); subst; try reflexivity. congruence.
    + intros i. rewrite dkeys_dset_in, E. split.
      * intros [-> |(t' & I & X)]; [exists t; rewrite in_app_iff; cbn; tauto|exists t'; rewrite in_app_iff; tauto].
      * intros (t' & I & X). rewrite in_app_iff in I. cbn in I. destruct I as [I|[<- |[]]]; [right; eauto|left; auto].
    + intros h i. rewrite dkeys_dset_in, F. split.
      * intros [e|(t' & I & X)]; [injection e as -> ->; exists t; rewrite in_app_iff; cbn; tauto|exists t'; rewrite in_app_iff; tauto].
      * intros (t' & I & X & Y). rewrite in_app_iff in I. cbn in I. destruct I as [I|[<- |[]]]; [right; eauto|left; now rewrite X, Y].
Qed.
Theorem lines_ok lines toks : tokens lines toks -> exists g, build_sentence lines = Ok g /\ describes toks g.
Proof.
  intros T. unfold build_sentence. rewrite (tokens_fold _ _ T). cbn [rmap rbind]. eexists. split; [reflexivity|]. destruct (tok_dicts toks) as (A & B & C & D & E & F).
  set (st := fold_left add_tok toks ([], [])) in *. destruct (gen_graph_ok _ _ A B) as (W & Nv & Lb & Un & Ke & Rl & _). split; [exact W|]. split; [|split; [|split; [|split]]].
  - intros v. rewrite Nv, E. split.
    + intros [(t & I & X)|(a & [I|I])]; [exists t; auto| |]; apply F in I; destruct I as (t & I & X & Y); exists t; auto.
    + intros (t & I & [-> | ->]); [left; eauto|]. right. exists (t_id t). left. apply F. eauto.
  - intros v x. now rewrite Lb, C.
  - intros v. now rewrite Un, <- dget_None, C.
  - intros a b. unfold edge. rewrite Ke. apply F.
  - intros a b x. now rewrite Rl, D.
Qed.
Lemma line_label_None toks v : line_label toks v = None <-> ~ exists t, In t toks /\ t_id t = v.
Proof.
  unfold line_label. destruct (List.find (fun t => (t_id t =? v)%Z) (rev toks)) as [t|] eqn:Ef; cbn [option_map].
  - split; [discriminate|]. intros H. exfalso. apply H. apply List.find_some in Ef. destruct Ef as [I X]. apply Z.eqb_eq in X. apply in_rev in I. eauto.
  - split; [|reflexivity]. intros _ (t & I & <-). apply in_rev in I. pose proof (List.find_none _ _ Ef t I) as X. cbn in X. now rewrite Z.eqb_refl in X.
Qed.
Theorem describes_worded toks g : describes toks g -> worded g /\
  (forall v, unlabelled g v <-> (exists t, In t toks /\ t_head t = v) /\ ~ exists t, In t toks /\ t_id t = v).
Proof.
  intros (W & Nv & Lb & Un & Eg & Rl). split; [split|].
  - intros v a Ea. destruct (dget a (u "label")) as [[x|z]|] eqn:El; [exact I| |].
    + assert (N : ~ unlabelled g v) by (intros (a' & Ea' & En); congruence). rewrite Un in N. destruct (line_label toks v) as [x|] eqn:Ex.
      * apply Lb in Ex. destruct Ex as (a' & Ea' & En). congruence.
      * apply N. split; [|reflexivity]. exact (dget_Some_key _ _ _ Ea).
    + intros h E. assert (U : unlabelled g v) by (exists a; auto). apply Un in U. destruct U as [_ U]. rewrite line_label_None in U. apply U. apply Eg in E. destruct E as (t & It & _ & X). eauto.
  - intros a b E. apply Eg in E. destruct E as (t & It & <- & <-). destruct (line_rel toks (t_head t) (t_id t)) as [x|] eqn:Ex; [exists x; now apply Rl|]. exfalso.
    unfold line_rel in Ex. destruct (List.find _ _) eqn:Ef; [discriminate|]. apply in_rev in It. pose proof (List.find_none _ _ Ef t It) as X. cbn in X. now rewrite !Z.eqb_refl in X.
  - intros v. rewrite Un, Nv, line_label_None. split.
    + intros [(t & It & [-> | ->]) H]; [exfalso; eauto|eauto].
    + intros [(t & It & <-) H]. eauto.
Qed.
(** *** Lines that are not read *)
Lemma int_err x e : int_of_str x = Err e -> e = ValueError.
Proof.
  unfold int_of_str. destruct (strip x) as [|c l]; [congruence|]. destruct (c =? minus)%N; [destruct l; [congruence|]; destruct (digits _); congruence|].
  destruct (c =? plus)%N; [destruct l; [congruence|]; destruct (digits _); congruence|]. destruct (digits _); congruence.
Qed.
Lemma raw_err line e : raw_line line = Err e -> e = ValueError.
Proof.
  unfold raw_line. destruct (split 9%N (strip line)) as [|a [|b [|c [|d [|x [|f [|]]]]]]]; try discriminate. destruct (int_of_str d) eqn:Ed; cbn [rbind]; [|intros E; injection E as <-; now apply int_err in Ed].
  destruct (int_of_str x) eqn:Ex; cbn [rmap rbind]; [discriminate|intros E; injection E as <-; now apply int_err in Ex].
Qed.
Lemma read_err st line e : read_line st line = Err e -> e = ValueError.
Proof. unfold read_line. destruct (raw_line line) eqn:E; cbn [rmap rbind]; [discriminate|]. intros X. injection X as <-. now apply raw_err in E. Qed.
Lemma read_bad st line : bad_line line -> read_line st line = Err ValueError.
Proof.
  intros (word & pos & type & i & h & rel & e & C & H). unfold read_line. rewrite (raw_columns _ _ _ _ _ _ _ C). destruct H as [H|H].
  - rewrite H. apply int_err in H. now subst.
  - destruct (int_of_str i) eqn:Ei; cbn [rbind]; [rewrite H; apply int_err in H; now subst|apply int_err in Ei; now subst].
Qed.
Theorem lines_error lines line : In line lines -> bad_line line -> build_sentence lines = Err ValueError.
Proof.
  intros I B. unfold build_sentence. assert (H : forall st, rfold read_line lines st = Err ValueError).
  { induction lines as [|l lines IH]; intros st; [destruct I|]. cbn [rfold]. destruct I as [-> |I]; [now rewrite (read_bad _ _ B)|].
    destruct (read_line st l) eqn:E; cbn [rbind]; [now apply IH|apply read_err in E; now subst]. }
  now rewrite H.
Qed.
Theorem lines_cases lines : (exists toks, tokens lines toks) \/ exists line, In line lines /\ bad_line line.
Proof.
  induction lines as [|line lines [(toks & IH)|(l & I & B)]]; [left; exists []; constructor| |right; exists l; split; [now right|exact B]].
  destruct (Nat.eq_dec (count 9%N (strip line)) 5) as [E|N]; [|left; exists toks; now constructor].
  pose proof (split_length 9%N (strip line)) as L. rewrite E in L. pose proof (join_split 9%N (strip line)) as J.
  assert (F : Forall (fun c => ~ In 9%N c) (split 9%N (strip line))) by apply split_noc.
  destruct (split 9%N (strip line)) as [|a [|b [|c [|d [|x [|f [|]]]]]]]; try discriminate. clear L.
  assert (C : columns line [a; b; c; d; x; f]) by (split; [now rewrite J|exact F]).
  destruct (int_of_str d) as [zi|e] eqn:Ed; [|right; exists line; split; [now left|]; exists a, b, c, d, x, f, e; auto].
  destruct (int_of_str x) as [zh|e] eqn:Ex; [|right; exists line; split; [now left|]; exists a, b, c, d, x, f, e; auto].
  left. eexists. eapply toks_line; eauto.
Qed.

(** ** Features *)
Lemma feature_labels t fl g v x : has_label (set_feature (TNum t) fl g) v x <-> has_label g v x.
Proof.
  unfold has_label. rewrite set_feature_node. destruct (dget (gnodes g) v) as [a|]; cbn [option_map]; [|reflexivity].
  split; intros (a' & E & El); injection E as <-; (eexists; split; [reflexivity|]); rewrite dget_dset in *; exact El.
Qed.
Lemma feature_rels t fl g e x : has_rel (set_feature (TNum t) fl g) e x <-> has_rel g e x.
Proof.
  unfold has_rel. rewrite set_feature_edge. destruct (dget (gedges g) e) as [a|]; cbn [option_map]; [|reflexivity].
  split; intros (a' & E & El); injection E as <-; (eexists; split; [reflexivity|]); rewrite dget_dset in *; exact El.
Qed.
Lemma feature_nodes t fl g : nodes (set_feature (TNum t) fl g) = nodes g.
Proof. unfold nodes, dkeys, set_feature. cbn [gnodes]. now rewrite map_map. Qed.
Lemma feature_edges t fl g : dkeys (gedges (set_feature (TNum t) fl g)) = dkeys (gedges g).
Proof. unfold dkeys, set_feature. cbn [gedges]. now rewrite map_map. Qed.
Lemma feature_edge t fl g a b : edge (set_feature (TNum t) fl g) a b <-> edge g a b.
Proof. unfold edge. now rewrite feature_edges. Qed.
Lemma feature_gwf t fl g : gwf g -> gwf (set_feature (TNum t) fl g).
Proof.
  intros (A & B & C). split; [|split].
  - unfold dwf. change (dkeys (gnodes (set_feature (TNum t) fl g))) with (nodes (set_feature (TNum t) fl g)). now rewrite feature_nodes.
  - unfold dwf. now rewrite feature_edges.
  - intros a b E. rewrite feature_edge in E. rewrite feature_nodes. auto.
Qed.
Lemma feature_rooted t fl g r : rooted g r -> rooted (set_feature (TNum t) fl g) r.
Proof.
  intros (A & B & C & D). split; [now rewrite feature_nodes|]. split; [intros a E; rewrite feature_edge in E; now apply (B a)|]. split.
  - intros a b c E F. rewrite feature_edge in E, F. eauto.
  - intros v I. rewrite feature_nodes in I. destruct (D v I) as (k & H). exists k. clear I. induction H; econstructor; eauto. now apply feature_edge.
Qed.
Lemma feature_labelled t fl g : labelled g -> labelled (set_feature (TNum t) fl g).
Proof.
  intros [A B]. split.
  - intros v I. rewrite feature_nodes in I. destruct (A v I) as (x & Hx). exists x. now apply feature_labels.
  - intros a b E. rewrite feature_edge in E. destruct (B a b E) as (x & Hx). exists x. now apply feature_rels.
Qed.
Theorem feature_ok tmpl t fl f : feature_graph tmpl t fl = Some (Ok f) ->
  ftarget f = t /\ get_depth (fgraph f) = Some (fdepth f) /\ nodes (fgraph f) = nodes tmpl /\ dkeys (gedges (fgraph f)) = dkeys (gedges tmpl) /\
  (forall v x, has_label (fgraph f) v x <-> has_label tmpl v x) /\ (forall e x, has_rel (fgraph f) e x <-> has_rel tmpl e x) /\
  (forall v a, dget (gnodes (fgraph f)) v = Some a ->
     dget a (u "feature") = Some (AInt (if (v =? t)%Z then 0 else match dget fl v with Some false => 0 | _ => 1 end))) /\
  (forall e a, dget (gedges (fgraph f)) e = Some a -> dget a (u "feature") = Some (AInt 1)).
Proof.
  unfold feature_graph. intros H. destruct (nodes tmpl) as [|v0 vs] eqn:En; [discriminate|]. destruct (islinear tmpl); [|discriminate].
  destruct (get_depth (set_feature (TNum t) fl tmpl)) as [d|] eqn:Ed; [|discriminate]. cbn [option_map] in H. injection H as <-. cbn [fgraph ftarget fdepth]. rewrite <- En.
  split; [reflexivity|]. split; [exact Ed|]. split; [apply feature_nodes|]. split; [apply feature_edges|]. split; [intros; apply feature_labels|]. split; [intros; apply feature_rels|]. split.
  - intros v a E. rewrite set_feature_node in E. destruct (dget (gnodes tmpl) v) as [a0|]; [|discriminate]. cbn [option_map] in E. injection E as <-. rewrite dget_dset_same. cbn [is_target].
    destruct (v =? t)%Z; [reflexivity|]. destruct (dget fl v) as [[|]|]; reflexivity.
  - intros e a E. rewrite set_feature_edge in E. destruct (dget (gedges tmpl) e) as [a0|]; [|discriminate]. cbn [option_map] in E. injection E as <-. now rewrite dget_dset_same.
Qed.
Theorem feature_keeps tmpl t fl f : feature_graph tmpl t fl = Some (Ok f) ->
  (gwf tmpl -> gwf (fgraph f)) /\ (forall r, rooted tmpl r -> rooted (fgraph f) r) /\ (labelled tmpl -> labelled (fgraph f)).
Proof.
  unfold feature_graph. intros H. destruct (nodes tmpl) as [|v0 vs] eqn:En; [discriminate|]. destruct (islinear tmpl); [|discriminate].
  destruct (get_depth (set_feature (TNum t) fl tmpl)) as [d|] eqn:Ed; [|discriminate]. cbn [option_map] in H. injection H as <-. cbn [fgraph].
  split; [apply feature_gwf|]. split; [intros r; apply feature_rooted|apply feature_labelled].
Qed.

(** ** What is no tree *)
Section NoTree.
  Context {M : Type} (re_match : pystr -> pystr -> option M).
  Theorem feature_no_tree s p d : is_tree s = true -> is_tree p = false -> bs_tree re_match s p d = Some ([], Err AssertionError).
  Proof. intros A B. unfold bs_tree. now rewrite A, B. Qed.
  Lemma worded_shows g v : worded g -> In v (nodes g) -> exists x, reads g v x.
  Proof. intros L I. destruct (dget_key_Some _ _ I) as (a & Ea). destruct (reads_ex g v a L Ea) as (x & Hx & _). eauto. Qed.
  Theorem sentence_no_tree s p d : is_tree s = false -> gwf s -> worded s -> numbered s -> bs_tree re_match s p d = Some ([], Ok tt).
  Proof.
    intros A W L Nb. unfold bs_tree. rewrite A.
    assert (X : forall n, n <= length (nodes s) -> exists xs, length xs = n /\ forall i x, nth_error xs i = Some x -> shows s i x).
    { induction n as [|n IH]; intros Hn; [exists []; split; [reflexivity|]; intros [|i] x E; discriminate|]. destruct IH as (xs & Lx & Hx); [lia|].
      assert (I : In (Z.of_nat n) (nodes s)) by (apply Nb; lia). destruct (dget_key_Some _ _ I) as (a & Ea). destruct (worded_shows s _ L I) as (y & Hy).
      exists (xs ++ [y]). split; [rewrite app_length; cbn; lia|]. intros i x E. destruct (Nat.lt_ge_cases i (length xs)) as [Hi|Hi]; [rewrite nth_error_app1 in E by exact Hi; now apply Hx|].
      rewrite nth_error_app2 in E by exact Hi. destruct (i - length xs) eqn:Ei; [|destruct n0; discriminate]. injection E as <-. assert (i = n) as -> by lia.
      exists a. split; [exact Ea|]. destruct Hy as [(a' & Ea' & El)|[(a' & Ea' & El) ->]]; rewrite Ea in Ea'; injection Ea' as <-; now rewrite El. }
    destruct (X (length (nodes s)) (le_n _)) as (xs & Lx & Hx). now rewrite (repr_numbered s xs W Nb Lx Hx).
  Qed.
  Theorem sentence_no_tree_gap s p d : is_tree s = false -> gwf s -> (forall v, In v (nodes s) -> (0 <= v)%Z) -> ~ numbered s -> bs_tree re_match s p d = Some ([], Err IndexError).
  Proof.
    intros A W P Nb. unfold bs_tree. rewrite A. destruct (numbered_or_gap s W P) as [H|(v & H & H')]; [contradiction|]. now rewrite (repr_gap s v H H').
  Qed.
End NoTree.

(** ** Walking from the target *)
Section Target.
  Context {M : Type} (re_match : pystr -> pystr -> option M).
  Variables s p : graph.
  Variable t : Z.
  Lemma occurrence_placement v f : labelled s -> (exists lp x, has_label p t lp /\ has_label s v x /\ re_match lp x <> None) -> occurrence re_match s p v t f -> placement re_match s p f.
  Proof.
    intros Ls (lp & x & Hp & Hx & Hm) (E & A & B & C). split; [|split; [exact B|exact C]].
    intros w I. destruct (Z.eq_dec w t) as [-> |N].
    - exists lp, x. rewrite E. split; [exact Hp|]. split; [now left|exact Hm].
    - destruct (A w I N) as (lp' & x' & H1 & H2 & H3). exists lp', x'. split; [exact H1|]. split; [now left|exact H3].
  Qed.
  Lemma reads_labelled v x : labelled s -> reads s v x -> has_label s v x.
  Proof.
    intros [A _] [H|[(a & Ea & El) ->]]; [exact H|]. pose proof (dget_Some_key _ _ _ Ea) as I. destruct (A v I) as (y & a' & Ea' & El'). congruence.
  Qed.
  Lemma reads_in v x : reads s v x -> In v (nodes s).
  Proof. intros [(a & Ea & _)|[(a & Ea & _) _]]; now apply dget_Some_key in Ea. Qed.
  Lemma placement_occurrence f : labelled s -> placement re_match s p f -> occurrence re_match s p (f t) t f.
  Proof.
    intros Ls (A & B & C). split; [reflexivity|]. split; [|split; [exact B|exact C]].
    intros w I _. destruct (A w I) as (lp & x & H1 & H2 & H3). exists lp, x. split; [exact H1|]. split; [now apply reads_labelled|exact H3].
  Qed.
  Definition at_node (va : Z * attrs) : wout := wget (node_matches re_match p (text_of (snd va)) t) (fun b => if b then match_sub_template re_match s p (fst va) t else wdone).
  Lemma at_matches v a lp : labelled s -> dget (gnodes s) v = Some a -> has_label p t lp -> exists x, has_label s v x /\ text_of a = AStr x /\ node_matches re_match p (text_of a) t = Ok (is_some (re_match lp x)).
  Proof.
    intros [A _] Ev Hp. destruct (A v (dget_Some_key _ _ _ Ev)) as (x & a' & Ea' & El). rewrite Ev in Ea'. injection Ea' as <-. exists x. split; [exists a; auto|].
    unfold text_of. rewrite El. split; [reflexivity|]. unfold node_matches. rewrite (nlabel_ok _ _ _ Hp). reflexivity.
  Qed.
  Lemma wfor_concat {A} (f : A -> wout) (l : list A) mss : Forall2 (fun x ms => f x = (ms, Ok tt)) l mss -> wfor f l = (concat mss, Ok tt).
  Proof. induction 1 as [|x ms l mss E F IH]; [reflexivity|]. cbn [wfor concat]. now rewrite E, IH. Qed.
  Theorem target_exact rs rp : gwf s -> gwf p -> rooted s rs -> rooted p rp -> labelled s -> labelled p -> ~ In (-1)%Z (nodes s) -> ~ In (-1)%Z (nodes p) ->
    In t (nodes p) -> chain_from p t ->
    exists fs ms, bs_target re_match s p t = (ms, Ok tt) /\ Forall2 (fun f m => placement re_match s p f /\ occ_record s p f m) fs ms /\
      (forall f, placement re_match s p f -> exists g, In g fs /\ same_on p f g) /\ ForallOrdPairs (fun f g => ~ same_on p f g) fs.
  Proof.
    intros Ws Wp Rs Rp Ls Lp Ns Np It Ch. destruct (proj1 Lp t It) as (lp & Hp).
    assert (G : forall l, incl l (gnodes s) -> NoDup (map fst l) -> exists fs ms, wfor at_node l = (ms, Ok tt) /\ Forall2 (fun f m => placement re_match s p f /\ occ_record s p f m) fs ms /\
      (forall f, placement re_match s p f -> In (f t) (map fst l) -> exists g, In g fs /\ same_on p f g) /\ ForallOrdPairs (fun f g => ~ same_on p f g) fs /\ (forall f, In f fs -> In (f t) (map fst l))).
    { induction l as [|[v a] l IH]; intros I N.
      - exists [], []. split; [reflexivity|]. split; [constructor|]. split; [intros f _ []|]. split; [constructor|intros f []].
      - cbn [map fst] in N. inversion N as [|? ? Nv N']; subst. destruct IH as (fs & ms & E & F & C & D & K); [intros x X; apply I; now right|exact N'|].
        assert (Ev : dget (gnodes s) v = Some a) by (apply dget_In; [apply Ws|apply I; now left]). destruct (at_matches v a lp Ls Ev Hp) as (x & Hx & Et & En).
        assert (T : exists fs ms, at_node (v, a) = (ms, Ok tt) /\ Forall2 (fun f m => placement re_match s p f /\ occ_record s p f m) fs ms /\
          (forall f, placement re_match s p f -> f t = v -> exists g, In g fs /\ same_on p f g) /\ ForallOrdPairs (fun f g => ~ same_on p f g) fs /\ (forall f, In f fs -> f t = v)).
        { unfold at_node. cbn [fst snd]. rewrite En. cbn [wget]. destruct (re_match lp x) as [m|] eqn:Em; cbn [is_some].
          - destruct (chains_exact re_match s p rs rp Ws Wp Rs Rp Ls Lp Ns Np v t (dget_Some_key _ _ _ Ev) It Ch) as (fs' & ms' & E' & F' & C' & D').
            exists fs', ms'. split; [exact E'|]. split; [|split; [|split; [exact D'|]]].
            + clear - F' Hp Hx Em Ls. induction F' as [|f m0 fs ms [O R] F IH]; constructor; [|exact IH]. split; [|exact R]. apply (occurrence_placement v f Ls); [|exact O]. exists lp, x. split; [exact Hp|]. split; [exact Hx|congruence].
            + intros f Pf Ef. apply C'. rewrite <- Ef. now apply placement_occurrence.
            + intros f If. destruct (Forall2_In_l _ _ _ _ F' If) as (m0 & _ & (X & _) & _). exact X.
          - exists [], []. split; [reflexivity|]. split; [constructor|]. split; [|split; [constructor|intros f []]].
            intros f (A & _ & _) Ef. exfalso. destruct (A t It) as (lp' & x' & H1 & H2 & H3). apply (reads_labelled _ _ Ls) in H2. rewrite Ef in H2. rewrite (has_label_fun _ _ _ _ H1 Hp), (has_label_fun _ _ _ _ H2 Hx) in H3. contradiction. }
        destruct T as (fs1 & ms1 & E1 & F1 & C1 & D1 & K1). exists (fs1 ++ fs), (ms1 ++ ms). split; [cbn [wfor]; now rewrite E1, E|]. split; [now apply Forall2_app|]. split; [|split].
        + intros f Pf [Ef|Ef]; [cbn [fst] in Ef; destruct (C1 f Pf (eq_sym Ef)) as (g & Ig & Sg)|destruct (C f Pf Ef) as (g & Ig & Sg)]; exists g; (split; [apply in_app_iff; tauto|exact Sg]).
        + clear - D D1 K K1 Nv It. induction D1 as [|f fs1 A D1 IH]; cbn [app]; [exact D|]. constructor.
          * apply Forall_app. split; [exact A|]. apply Forall_forall. intros g Ig Sg. specialize (Sg t It). rewrite (K1 f (or_introl eq_refl)) in Sg. apply Nv. rewrite Sg. now apply K.
          * apply IH. intros g Ig. apply K1. now right.
        + intros f If. apply in_app_iff in If. cbn [map fst In]. destruct If as [If|If]; [left; symmetry; now apply K1|right; now apply K]. }
    destruct (G (gnodes s) (incl_refl _) (proj1 Ws)) as (fs & ms & E & F & C & D & _). exists fs, ms. split; [exact E|]. split; [exact F|]. split; [|exact D].
    intros f Pf. apply C; [exact Pf|]. destruct Pf as (A & _ & _). destruct (A t It) as (lp' & x' & _ & H2 & _). now apply reads_in in H2.
  Qed.
  Theorem target_others rp : gwf s -> gwf p -> rooted p rp -> labelled s -> labelled p -> In t (nodes p) -> ~ chain_from p t -> bs_target re_match s p t = ([], Ok tt).
  Proof.
    intros Ws Wp Rp Ls Lp It Ch. destruct (proj1 Lp t It) as (lp & Hp). change (bs_target re_match s p t) with (wfor at_node (gnodes s)).
    assert (G : forall va, In va (gnodes s) -> at_node va = wdone).
    { intros [v a] I. apply dget_In in I; [|apply Ws]. destruct (at_matches v a lp Ls I Hp) as (x & Hx & Et & En). unfold at_node. cbn [fst snd]. rewrite En. cbn [wget]. destruct (is_some _); [|reflexivity].
      apply (only_chains re_match s p rp); auto. now apply dget_Some_key in I. }
    clear - G. induction (gnodes s) as [|va l IH]; [reflexivity|]. cbn [wfor]. rewrite (G va (or_introl eq_refl)). rewrite IH by (intros; apply G; now right). reflexivity.
  Qed.
  Theorem target_unset : ~ In t (nodes p) -> nodes s <> [] -> bs_target re_match s p t = ([], Err KeyError).
  Proof.
    intros Nt Ns. unfold bs_target. destruct (gnodes s) as [|va l] eqn:E; [unfold nodes in Ns; rewrite E in Ns; contradiction|]. cbn [wfor].
    unfold node_matches, nlabel, look. rewrite (proj2 (dget_None _ _) Nt). reflexivity.
  Qed.

  (** *** Only KeyErrors *)
  Definition key_only (w : wout) : Prop := snd w = Ok tt \/ snd w = Err KeyError.
  Lemma key_then a b : key_only a -> key_only b -> key_only (wthen a b).
  Proof. unfold key_only, wthen. destruct a as [la [[]|e]]; cbn [fst snd]; [destruct b; auto|auto]. Qed.
  Lemma key_for {A} (f : A -> wout) l : (forall x, In x l -> key_only (f x)) -> key_only (wfor f l).
  Proof. induction l as [|x l IH]; intros H; cbn [wfor]; [now left|]. apply key_then; [apply H; now left|apply IH; intros; apply H; now right]. Qed.
  Definition key_res {A} (r : res A) : Prop := match r with Ok _ => True | Err e => e = KeyError end.
  Lemma key_get {A} (r : res A) f : key_res r -> (forall x, r = Ok x -> key_only (f x)) -> key_only (wget r f).
  Proof. destruct r as [x|e]; cbn; [auto|]. intros ->. intros _. now right. Qed.
  Lemma nlabel_key g v : worded g -> nlabel g v = Err KeyError \/ exists x, nlabel g v = Ok (AStr x).
  Proof.
    intros [A _]. unfold nlabel, look. destruct (dget (gnodes g) v) as [a|] eqn:E; [|now left]. cbn [rbind]. specialize (A v a E). destruct (dget a (u "label")) as [[x|z]|]; [right; eauto|destruct A|now left].
  Qed.
  Lemma erel_key g a b : (forall a b, edge g a b -> exists x, has_rel g (a, b) x) -> erel g a b = Err KeyError \/ exists x, erel g a b = Ok (AStr x).
  Proof.
    intros A. destruct (dget (gedges g) (a, b)) as [x|] eqn:E.
    - destruct (A a b (dget_Some_key _ _ _ E)) as (y & Hy). right. exists y. now apply erel_ok.
    - left. unfold erel, look. now rewrite E.
  Qed.
  Lemma labelled_worded g : labelled g -> worded g.
  Proof.
    intros [A B]. split; [|exact B]. intros v a E. destruct (A v (dget_Some_key _ _ _ E)) as (x & a' & E' & El). rewrite E in E'. injection E' as <-. now rewrite El.
  Qed.
  Lemma fits_key es ep vs vt : worded s -> labelled p -> key_res (fits re_match s p es ep vs vt).
  Proof.
    intros Ls Lp. unfold fits. destruct (erel_key s (fst es) (snd es) (proj2 Ls)) as [-> |(x & ->)]; [reflexivity|]. cbn [rbind]. destruct (nlabel_key s vs Ls) as [-> |(y & ->)]; [reflexivity|]. cbn [rbind].
    destruct (erel_key p (fst ep) (snd ep) (proj2 Lp)) as [-> |(xp & ->)]; [reflexivity|]. cbn [rbind]. destruct (nlabel_key p vt (labelled_worded p Lp)) as [-> |(yp & ->)]; [reflexivity|]. cbn [rbind py_match rmap].
    destruct (re_match xp x); cbn; auto.
  Qed.
  Lemma rmapm_key {A B} (f : A -> res B) l : (forall x, key_res (f x)) -> key_res (rmapm f l).
  Proof. intros H. induction l as [|x l IH]; cbn [rmapm]; [exact I|]. specialize (H x). destruct (f x); [|exact H]. cbn [rbind]. destruct (rmapm f l); [exact I|exact IH]. Qed.
  Lemma gpreds_key g v : key_res (gpreds g v).
  Proof. unfold gpreds. now destruct (mem v (nodes g)). Qed.
  Lemma gsuccs_key g v : key_res (gsuccs g v).
  Proof. unfold gsuccs. now destruct (mem v (nodes g)). Qed.
  Lemma msub_key : worded s -> labelled p -> forall k vn ve, key_only (msub re_match k s p vn ve).
  Proof.
    intros Ls Lp. induction k as [|k IH]; intros vn ve; cbn [msub]; (destruct (length vn =? length (nodes p)) eqn:E;
      [unfold record; apply key_get; [apply rmapm_key; intros [a b]; cbn [fst snd]; destruct (nlabel_key s a Ls) as [-> |(x & ->)]; reflexivity|intros; now left]|]); [now left|].
    destruct vn as [|[cs ct] rest]; [now left|]. destruct (match rest with [] => (-1, -1)%Z | q :: _ => q end) as [ps pt].
    apply key_then; (apply key_get; [apply gpreds_key || apply gsuccs_key|]; intros l _; apply key_for; intros x _; destruct (x =? pt)%Z; [now left|];
      apply key_get; [apply gpreds_key || apply gsuccs_key|]; intros l' _; apply key_for; intros y _; destruct (y =? ps)%Z; [now left|];
      apply key_get; [now apply fits_key|]; intros [m|] _; [apply IH|now left]).
  Qed.
  Lemma at_key va : worded s -> labelled p -> In va (gnodes s) -> dwf (gnodes s) -> key_only (at_node va).
  Proof.
    intros Ls Lp I W. unfold at_node. apply key_get; [|intros [] _; [now apply msub_key|now left]]. unfold node_matches.
    destruct (nlabel_key p t (labelled_worded p Lp)) as [-> |(x & ->)]; [reflexivity|]. cbn [rbind]. destruct va as [v a]. apply dget_In in I; [|exact W]. destruct (reads_ex s v a Ls I) as (y & _ & Ey). cbn [snd]. rewrite Ey. exact Logic.I.
  Qed.
  Lemma wfor_key_error {A} (f : A -> wout) l x : (forall y, In y l -> key_only (f y)) -> In x l -> snd (f x) = Err KeyError -> snd (wfor f l) = Err KeyError.
  Proof.
    intros H. induction l as [|y l IH]; intros I E; [destruct I|]. cbn [wfor]. assert (Hy := H y (or_introl eq_refl)). destruct I as [-> |I].
    - unfold wthen. destruct (f x) as [lx [[]|e]]; cbn [snd] in *; congruence.
    - unfold wthen. destruct Hy as [Hy|Hy]; destruct (f y) as [ly [[]|e]]; cbn [snd] in *; try congruence. destruct (wfor f l) as [l2 r2]. cbn [snd] in *. apply IH; [intros; apply H; now right|exact I|exact E].
  Qed.
  Lemma first_pred g v b : gwf g -> one_head g -> edge g b v -> exists l, preds g v = b :: l.
  Proof.
    intros W O E. assert (I : In b (preds g v)) by now apply preds_In. destruct (preds g v) as [|c l] eqn:Ep; [destruct I|]. exists l. f_equal. apply (O c b v); [|exact E]. apply preds_In. rewrite Ep. now left.
  Qed.
  Theorem target_root_error v a b : gwf s -> gwf p -> worded s -> labelled p -> one_head s -> one_head p -> ~ In (-1)%Z (nodes s) -> ~ In (-1)%Z (nodes p) ->
    edge p a t -> edge s b v -> unlabelled s b -> a <> t -> (exists lp x, has_label p t lp /\ has_label s v x /\ re_match lp x <> None) ->
    exists ms, bs_target re_match s p t = (ms, Err KeyError).
  Proof.
    intros Ws Wp Ls Lp Os Op Ns Np Ea Eb (ab & Eab & Nab) Nat (lp & x & Hp & Hx & Hm).
    assert (E : snd (wfor at_node (gnodes s)) = Err KeyError).
    { destruct Hx as (av & Ev & El). apply (wfor_key_error at_node (gnodes s) (v, av)).
      - intros va I. apply at_key; auto. apply Ws.
      - now apply dget_Some_In.
      - unfold at_node. cbn [fst snd]. unfold node_matches. rewrite (nlabel_ok _ _ _ Hp). cbn [rbind]. unfold text_of. rewrite El. cbn [py_match rmap]. destruct (re_match lp x) as [m|] eqn:Em; [|contradiction]. cbn [rbind is_some wget].
        destruct (first_pred s v b Ws Os Eb) as (lb & Hlb), (first_pred p t a Wp Op Ea) as (la & Hla). destruct Ws as (_ & _ & We), Wp as (Dn & _ & Wf). destruct (We b v Eb) as [Ib Iv], (Wf a t Ea) as [Ia It].
        destruct (proj2 Ls b v Eb) as (r & Hr). rewrite (root_error re_match s p v t b a lb la r); auto.
        + intros L1. destruct (nodes p) as [|y [|]]; try discriminate. destruct Ia as [-> |[]], It as [-> |[]]. contradiction.
        + intros ->. contradiction.
        + intros ->. contradiction.
        + intros y Ey. congruence. }
    change (bs_target re_match s p t) with (wfor at_node (gnodes s)). destruct (wfor at_node (gnodes s)) as [ms r]. cbn [snd] in E. subst r. eauto.
  Qed.
End Target.

(** ** The same records *)
Lemma occ_same s p f g m m' : gwf p -> same_on p f g -> occ_record s p f m -> occ_record s p g m' -> same_record m m'.
Proof.
  intros Wp S (_ & _ & A & B) (_ & _ & A' & B'). split.
  - intros w. destruct (dget (fst m) w) as [x|] eqn:E.
    + symmetry. apply A'. apply A in E. destruct E as (I & y & -> & Hy). split; [exact I|]. exists y. split; [reflexivity|]. now rewrite <- (S w I).
    + destruct (dget (fst m') w) as [x|] eqn:E'; [|reflexivity]. apply A' in E'. destruct E' as (I & y & -> & Hy). rewrite <- (S w I) in Hy.
      assert (X : dget (fst m) w = Some (AStr y)) by (apply A; eauto). congruence.
  - intros [a b]. destruct Wp as (_ & _ & We). destruct (dget (snd m) (a, b)) as [x|] eqn:E.
    + symmetry. apply B'. apply B in E. destruct E as (I & y & -> & Hy). destruct (We a b I) as [Ia Ib]. split; [exact I|]. exists y. split; [reflexivity|]. now rewrite <- (S a Ia), <- (S b Ib).
    + destruct (dget (snd m') (a, b)) as [x|] eqn:E'; [|reflexivity]. apply B' in E'. destruct E' as (I & y & -> & Hy). destruct (We a b I) as [Ia Ib]. rewrite <- (S a Ia), <- (S b Ib) in Hy.
      assert (X : dget (snd m) (a, b) = Some (AStr y)) by (apply B; eauto). congruence.
Qed.
(** Two lists of representatives of the same classes *)
Lemma representatives {A} (E : A -> A -> Prop) : (forall x y, E x y -> E y x) -> (forall x y z, E x y -> E y z -> E x z) ->
  forall l l', ForallOrdPairs (fun x y => ~ E x y) l -> ForallOrdPairs (fun x y => ~ E x y) l' ->
    (forall x, In x l -> exists y, In y l' /\ E x y) -> (forall y, In y l' -> exists x, In x l /\ E x y) -> exists l2, Permutation l' l2 /\ Forall2 E l l2.
Proof.
  intros Sy Tr. induction l as [|x l IH]; intros l' D D' H H'.
  - exists []. split; [|constructor]. destruct l' as [|y l']; [constructor|]. destruct (H' y (or_introl eq_refl)) as (x & [] & _).
  - destruct (H x (or_introl eq_refl)) as (y & Iy & Exy). apply in_split in Iy. destruct Iy as (l1 & l2 & ->). inversion D as [|? ? Dx Dl]; subst.
    assert (D2 : ForallOrdPairs (fun x y => ~ E x y) (l1 ++ l2) /\ forall z, In z (l1 ++ l2) -> ~ E y z).
    { clear - D' Sy. induction l1 as [|z l1 IH]; cbn [app] in *; inversion D' as [|? ? F D2]; subst.
      - split; [exact D2|]. intros z I. rewrite Forall_forall in F. now apply F.
      - destruct (IH D2) as [G K]. rewrite Forall_forall in F. split.
        + constructor; [|exact G]. apply Forall_forall. intros w I. apply F. rewrite in_app_iff in *. cbn [In]. tauto.
        + intros w [<- |I]; [|now apply K]. intros X. apply (F y); [rewrite in_app_iff; cbn [In]; tauto|]. now apply Sy. }
    destruct D2 as [D2 Ny]. destruct (IH (l1 ++ l2) Dl D2) as (l3 & P & F).
    + intros x' I'. destruct (H x' (or_intror I')) as (y' & Iy' & Ex'). exists y'. split; [|exact Ex']. rewrite in_app_iff in *. cbn [In] in Iy'. destruct Iy' as [Iy'|[<- |Iy']]; [tauto| |tauto].
      exfalso. rewrite Forall_forall in Dx. apply (Dx x' I'). apply (Tr _ y); auto.
    + intros y' I'. assert (J : In y' (l1 ++ y :: l2)) by (rewrite in_app_iff in *; cbn [In]; tauto). destruct (H' y' J) as (x' & [<- |Ix'] & Ex'); [|eauto]. exfalso. apply (Ny y' I'). apply (Tr _ x); auto.
    + exists (y :: l3). split; [|now constructor]. apply Permutation_sym, Permutation_cons_app, Permutation_sym. exact P.
Qed.
Definition found {M} (re_match : pystr -> pystr -> option M) s p fs ms : Prop :=
  Forall2 (fun f m => placement re_match s p f /\ occ_record s p f m) fs ms /\
  (forall f, placement re_match s p f -> exists g, In g fs /\ same_on p f g) /\ ForallOrdPairs (fun f g => ~ same_on p f g) fs.
Lemma Forall2_combine {A B} (P : A -> B -> Prop) l l' : Forall2 P l l' -> map fst (combine l l') = l /\ map snd (combine l l') = l' /\ forall xy, In xy (combine l l') -> P (fst xy) (snd xy).
Proof. induction 1 as [|x y l l' Pxy F (A1 & B1 & C)]; cbn [combine map fst snd]; [repeat split; intros xy []|]. rewrite A1, B1. repeat split. intros xy [<- |I]; auto. Qed.
Lemma FOP_map {A B} (f : A -> B) (P : B -> B -> Prop) l : ForallOrdPairs P (map f l) -> ForallOrdPairs (fun x y => P (f x) (f y)) l.
Proof. induction l as [|x l IH]; intros H; [constructor|]. inversion H as [|? ? F H']; subst. constructor; [|now apply IH]. rewrite Forall_map in F. exact F. Qed.
Lemma found_same {M} (re_match : pystr -> pystr -> option M) s p fs ms gs ns : gwf p -> found re_match s p fs ms -> found re_match s p gs ns ->
  exists ns', Permutation ns ns' /\ Forall2 same_record ms ns'.
Proof.
  intros Wp (F & C & D) (F' & C' & D'). destruct (Forall2_combine _ _ _ F) as (E1 & E2 & K), (Forall2_combine _ _ _ F') as (E1' & E2' & K').
  set (L := combine fs ms) in *. set (L' := combine gs ns) in *.
  destruct (representatives (fun x y : (Z -> Z) * smatch => same_on p (fst x) (fst y))) with (l := L) (l' := L') as (L2 & P & G).
  - intros x y Sm v I. symmetry. now apply Sm.
  - intros x y z S1 S2 v I. rewrite (S1 v I). now apply S2.
  - apply (FOP_map fst (fun f g => ~ same_on p f g)). now rewrite E1.
  - apply (FOP_map fst (fun f g => ~ same_on p f g)). now rewrite E1'.
  - intros x I. destruct (K x I) as [Pl _]. destruct (C' _ Pl) as (g & Ig & Sg). rewrite <- E1' in Ig. apply in_map_iff in Ig. destruct Ig as (y & <- & Iy). eauto.
  - intros y I. destruct (K' y I) as [Pl _]. destruct (C _ Pl) as (g & Ig & Sg). rewrite <- E1 in Ig. apply in_map_iff in Ig. destruct Ig as (x & <- & Ix). exists x. split; [exact Ix|]. intros v Iv. symmetry. now apply Sg.
  - exists (map snd L2). split; [rewrite <- E2'; now apply Permutation_map|]. rewrite <- E2.
    assert (K2 : forall x, In x L2 -> occ_record s p (fst x) (snd x)) by (intros x I; apply K'; now apply (Permutation_in _ (Permutation_sym P))).
    assert (K1 : forall x, In x L -> occ_record s p (fst x) (snd x)) by (intros x I; now apply K).
    clear - G K1 K2 Wp. induction G as [|x y l l' Sxy G IH]; cbn [map]; constructor.
    + apply (occ_same s p (fst x) (fst y)); auto; [apply K1|apply K2]; now left.
    + apply IH; intros z I; [apply K2|apply K1]; now right.
Qed.

(** ** From lines and a template to the matches *)
Section Built.
  Context {M : Type} (re_match : pystr -> pystr -> option M).
  Lemma placement_feature s tmpl t fl f h : feature_graph tmpl t fl = Some (Ok f) -> placement re_match s (fgraph f) h <-> placement re_match s tmpl h.
  Proof.
    intros E. destruct (feature_ok _ _ _ _ E) as (_ & _ & En & Ee & Hl & Hr & _ & _). unfold placement, edge. rewrite En, Ee. split; intros (A & B & C); (split; [|split; [|exact C]]).
    - intros w I. destruct (A w I) as (lp & x & X & Y). exists lp, x. split; [now apply Hl|exact Y].
    - intros a b I. destruct (B a b I) as (lp & x & X & Y). exists lp, x. split; [now apply Hr|exact Y].
    - intros w I. destruct (A w I) as (lp & x & X & Y). exists lp, x. split; [now apply Hl|exact Y].
    - intros a b I. destruct (B a b I) as (lp & x & X & Y). exists lp, x. split; [now apply Hr|exact Y].
  Qed.
  Lemma record_feature s tmpl t fl f h m : feature_graph tmpl t fl = Some (Ok f) -> occ_record s (fgraph f) h m <-> occ_record s tmpl h m.
  Proof. intros E. destruct (feature_ok _ _ _ _ E) as (_ & _ & En & Ee & _). unfold occ_record, edge. now rewrite En, Ee. Qed.
  Lemma Forall2_iff {A B} (P Q : A -> B -> Prop) l l' : (forall x y, P x y -> Q x y) -> Forall2 P l l' -> Forall2 Q l l'.
  Proof. intros H F. induction F; constructor; auto. Qed.
  Theorem match_built lines toks s tmpl t fl f r :
    tokens lines toks -> build_sentence lines = Ok s -> is_tree s = true ->
    gwf tmpl -> labelled tmpl -> rooted tmpl r -> gedges tmpl <> [] -> In 1%Z (nodes tmpl) -> feature_graph tmpl t fl = Some (Ok f) ->
    (forall h, placement re_match s tmpl h -> exists tk, In tk toks /\ t_id tk = h r) ->
    exists fs ms, match_feature re_match s f = Some (ms, Ok tt) /\ Forall2 (fun h m => placement re_match s tmpl h /\ occ_record s tmpl h m) fs ms /\
      (forall h, placement re_match s tmpl h -> exists g, In g fs /\ same_on tmpl h g) /\ ForallOrdPairs (fun h g => ~ same_on tmpl h g) fs.
  Proof.
    intros T B Ti W L R Ne I1 Ef Hr. destruct (lines_ok _ _ T) as (s' & B' & Ds). rewrite B in B'. injection B' as <-. destruct (describes_worded _ _ Ds) as [Ls Un].
    destruct (feature_ok _ _ _ _ Ef) as (_ & Ed & En & Ee & _). destruct (feature_keeps _ _ _ _ Ef) as (Kw & Kr & Kl).
    assert (Tis : istree s = true /\ gedges s <> []) by (unfold is_tree in Ti; destruct (gedges s); [discriminate|split; [exact Ti|discriminate]]).
    destruct (tree_exact re_match s (fgraph f) (fdepth f) r (proj1 Ds) (Kw W) Ls (Kl L) (Kr r R) Ed (proj1 Tis) (proj2 Tis)) as (fs & ms & E & F & C & D).
    - intros X. rewrite X in Ee. unfold dkeys in Ee. cbn in Ee. destruct (gedges tmpl); [contradiction|discriminate].
    - now rewrite En.
    - intros h Ph U. apply (placement_feature _ _ _ _ _ _ Ef) in Ph. destruct (Hr h Ph) as (tk & It & X). apply Un in U. apply (proj2 U). eauto.
    - exists fs, ms. split; [exact E|]. unfold same_on in *. rewrite En in *. split; [|split; [|exact D]].
      + revert F. apply Forall2_iff. intros h m [X Y]. split; [now apply (placement_feature _ _ _ _ _ _ Ef)|now apply (record_feature _ _ _ _ _ _ _ Ef)].
      + intros h Ph. apply C. now apply (placement_feature _ _ _ _ _ _ Ef).
  Qed.
  Theorem tree_target_same s p d t rs rp : gwf s -> gwf p -> rooted s rs -> rooted p rp -> labelled s -> labelled p -> ~ In (-1)%Z (nodes s) -> ~ In (-1)%Z (nodes p) ->
    get_depth p = Some d -> gedges s <> [] -> gedges p <> [] -> In 1%Z (nodes p) -> In t (nodes p) -> chain_from p t ->
    exists ms ms' ms2, bs_tree re_match s p d = Some (ms, Ok tt) /\ bs_target re_match s p t = (ms', Ok tt) /\ Permutation ms' ms2 /\ Forall2 same_record ms ms2.
  Proof.
    intros Ws Wp Rs Rp Ls Lp Ns Np Dp Es Ep I1 It Ch.
    destruct (tree_exact re_match s p d rp Ws Wp (labelled_worded s Ls) Lp Rp Dp (rooted_istree s rs Ws Rs) Es Ep I1) as (fs & ms & E & F).
    { intros f Pf (a & Ea & El). destruct (proj1 Ls _ (dget_Some_key _ _ _ Ea)) as (x & a' & Ea' & El'). congruence. }
    destruct (target_exact re_match s p t rs rp Ws Wp Rs Rp Ls Lp Ns Np It Ch) as (gs & ns & E' & F').
    destruct (found_same re_match s p fs ms gs ns Wp F F') as (ns' & P & G). exists ms, ns, ns'. auto.
  Qed.
End Built.
