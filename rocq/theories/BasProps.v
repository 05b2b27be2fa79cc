(** * Claims C170-C172: sentences and features of deprel/basic.py. *)
From Coq Require Import String NArith ZArith Bool Arith Permutation Lia List.
From Verif Require Import Base BaseLemmas Str StrLemmas VocabModel CorpusModel ParModel MxModel DepModel DepSpec DepTreeProofs GrfModel GrfSpec GrfProps PatModel BasModel BasSpec BasProofs BasProofs2.
Import ListNotations.
Local Open Scope string_scope.
Local Open Scope nat_scope.
Local Open Scope list_scope.

(** ** C170: match_feature *)
(** Every placement of the feature is recorded, and recorded once, when none puts the root of the feature on a node without
    label. *)
Theorem C170_exact : forall (M : Type) (re_match : pystr -> pystr -> option M) (s p : graph) (d : nat) (r : Z),
  gwf s -> gwf p -> worded s -> labelled p -> rooted p r -> get_depth p = Some d -> istree s = true -> gedges s <> [] -> gedges p <> [] -> In 1%Z (nodes p) ->
  (forall f, placement re_match s p f -> ~ unlabelled s (f r)) ->
  exists fs ms, bs_tree re_match s p d = Some (ms, Ok tt) /\
    Forall2 (fun f m => placement re_match s p f /\ occ_record s p f m) fs ms /\
    (forall f, placement re_match s p f -> exists g, In g fs /\ same_on p f g) /\
    ForallOrdPairs (fun f g => ~ same_on p f g) fs.
Proof. exact @tree_exact. Qed.
Print Assumptions C170_exact.
(** The same from lines of a corpus and a template to the matches *)
Theorem C170_built : forall (M : Type) (re_match : pystr -> pystr -> option M) lines toks s tmpl t fl f r,
  tokens lines toks -> build_sentence lines = Ok s -> is_tree s = true ->
  gwf tmpl -> labelled tmpl -> rooted tmpl r -> gedges tmpl <> [] -> In 1%Z (nodes tmpl) -> feature_graph tmpl t fl = Some (Ok f) ->
  (forall h, placement re_match s tmpl h -> exists tk, In tk toks /\ t_id tk = h r) ->
  exists fs ms, match_feature re_match s f = Some (ms, Ok tt) /\
    Forall2 (fun h m => placement re_match s tmpl h /\ occ_record s tmpl h m) fs ms /\
    (forall h, placement re_match s tmpl h -> exists g, In g fs /\ same_on tmpl h g) /\
    ForallOrdPairs (fun h g => ~ same_on tmpl h g) fs.
Proof. exact @match_built. Qed.
Print Assumptions C170_built.
(** A placement that puts the root on a node without label: KeyError; what was recorded until then are placements. *)
Theorem C170_root_refuted : forall (M : Type) (re_match : pystr -> pystr -> option M) (s p : graph) (d : nat) (r : Z),
  gwf s -> gwf p -> worded s -> labelled p -> rooted p r -> get_depth p = Some d -> istree s = true -> gedges s <> [] -> gedges p <> [] -> In 1%Z (nodes p) ->
  (exists f, placement re_match s p f /\ unlabelled s (f r)) ->
  exists ms, bs_tree re_match s p d = Some (ms, Err KeyError) /\ Forall (fun m => exists f, placement re_match s p f /\ occ_record s p f m) ms.
Proof. exact @tree_root_error. Qed.
Print Assumptions C170_root_refuted.
(** A feature of one node, or with a cycle, is refused. *)
Theorem C170_feature : forall (M : Type) (re_match : pystr -> pystr -> option M) s p d,
  is_tree s = true -> gedges p = [] \/ istree p = false -> bs_tree re_match s p d = Some ([], Err AssertionError).
Proof. intros M re_match s p d H [E|E]; apply feature_no_tree; auto; unfold is_tree; [now rewrite E|destruct (gedges p); auto]. Qed.
Print Assumptions C170_feature.
(** A sentence that is no tree is skipped when its nodes are numbered from 0 on; *)
Theorem C170_skipped : forall (M : Type) (re_match : pystr -> pystr -> option M) s p d,
  gedges s = [] \/ istree s = false -> gwf s -> worded s -> numbered s -> bs_tree re_match s p d = Some ([], Ok tt).
Proof. intros M re_match s p d [E|E] W L Nb; apply sentence_no_tree; auto; unfold is_tree; [now rewrite E|destruct (gedges s); auto]. Qed.
Print Assumptions C170_skipped.
(** otherwise printing it for the log is an IndexError. *)
Theorem C170_skipped_refuted : forall (M : Type) (re_match : pystr -> pystr -> option M) s p d,
  gedges s = [] \/ istree s = false -> gwf s -> (forall v, In v (nodes s) -> (0 <= v)%Z) -> ~ numbered s -> bs_tree re_match s p d = Some ([], Err IndexError).
Proof. intros M re_match s p d [E|E] W P Nb; apply sentence_no_tree_gap; auto; unfold is_tree; [now rewrite E|destruct (gedges s); auto]. Qed.
Print Assumptions C170_skipped_refuted.

(** "The boy gives the girl a green apple" and the feature of two objects of a verb *)
Fixpoint infix (a x : pystr) : bool := eqb (firstn (length a) x) a || match x with [] => false | _ :: x' => infix a x' end.
Definition rx (r x : pystr) : option unit := if infix r x then Some tt else None.
Definition tabs (cs : list string) : pystr := join 9%N (map u cs).
Definition boy_lines : list pystr := map tabs
  [["The"; "DT"; "the"; "1"; "2"; "det"]; ["boy"; "NN"; "boy"; "2"; "3"; "nsubj"]; ["gives"; "V"; "give"; "3"; "0"; "ROOT"];
   ["the"; "DT"; "the"; "4"; "5"; "det"]; ["girl"; "NN"; "girl"; "5"; "3"; "iobj"]; ["a"; "DT"; "a"; "6"; "8"; "det"];
   ["green"; "JJ"; "green"; "7"; "8"; "amod"]; ["apple"; "NN"; "apple"; "8"; "3"; "dobj"]; [""]].
Definition boy_toks : list token :=
  [Tok 1 (u "the/DT") 2 (u "det"); Tok 2 (u "boy/NN") 3 (u "nsubj"); Tok 3 (u "give/V") 0 (u "ROOT"); Tok 4 (u "the/DT") 5 (u "det");
   Tok 5 (u "girl/NN") 3 (u "iobj"); Tok 6 (u "a/DT") 8 (u "det"); Tok 7 (u "green/JJ") 8 (u "amod"); Tok 8 (u "apple/NN") 3 (u "dobj")].
Definition boy_sent : graph := match build_sentence boy_lines with Ok g => g | Err _ => empty_graph end.
Definition objects : graph := gen_graph [(1%Z, u "/N"); (2%Z, u "/V"); (3%Z, u "/N")] [((2, 1)%Z, u "obj"); ((2, 3)%Z, u "obj")].
Definition objects_f : featg := match feature_graph objects 1 [(2%Z, false)] with Some (Ok f) => f | _ => Feat empty_graph 0 0 end.
Lemma boy_columns (cs : list string) : Forall (fun c => ~ In 9%N c) (map u cs) -> strip (tabs cs) = tabs cs -> columns (tabs cs) (map u cs).
Proof. intros F E. split; [exact E|exact F]. Qed.
Lemma boy_tokens : tokens boy_lines boy_toks.
Proof.
  unfold boy_lines, boy_toks. cbn [map].
  repeat (match goal with |- tokens (tabs ?cs :: _) (_ :: _) => refine (toks_line (tabs cs) _ _ _ _ _ _ _ _ _ _ (boy_columns cs _ eq_refl) eq_refl eq_refl _);
            [repeat (constructor; [vm_compute; intuition discriminate|]); constructor|] end).
  apply toks_other; [vm_compute; discriminate|]. constructor.
Qed.
Lemma objects_wf : gwf objects.
Proof. apply gen_graph_ok; unfold dwf; cbn; repeat constructor; cbn; intuition discriminate. Qed.
Lemma objects_rooted : rooted objects 2.
Proof.
  split; [vm_compute; tauto|]. split; [|split].
  - intros a H. vm_compute in H. destruct H as [E|[E|[]]]; discriminate.
  - intros a b c H H'. vm_compute in H, H'. destruct H as [E|[E|[]]], H' as [E'|[E'|[]]]; injection E; injection E'; intros; congruence.
  - assert (B : below objects 2 0 2) by constructor. intros v H. vm_compute in H. destruct H as [<- |[<- |[<- |[]]]]; [exists 1|exists 0|exists 1]; [| exact B|];
      (eapply below_S; [exact B|]); vm_compute; tauto.
Qed.
Lemma objects_labelled : labelled objects.
Proof. apply simple_labelled. vm_compute. reflexivity. Qed.
Lemma placed_root h : placement rx boy_sent objects h -> exists tk, In tk boy_toks /\ t_id tk = h 2%Z.
Proof.
  intros (A & _ & _). destruct (A 2%Z) as (lp & x & (a & Ea & El) & H2 & H3); [vm_compute; tauto|]. vm_compute in Ea. injection Ea as <-. vm_compute in El. injection El as <-.
  destruct (lines_ok _ _ boy_tokens) as (g & Eg & Ds). assert (Es : boy_sent = g) by (unfold boy_sent; now rewrite Eg). rewrite Es in H2. destruct (describes_worded _ _ Ds) as [_ Un]. destruct H2 as [H2|[_ ->]].
  - destruct Ds as (_ & _ & Lb & _). apply Lb in H2. unfold line_label in H2. destruct (List.find _ _) as [tk|] eqn:Ef; [|discriminate]. apply List.find_some in Ef. destruct Ef as [I X]. apply Z.eqb_eq in X. apply in_rev in I. eauto.
  - exfalso. apply H3. vm_compute. reflexivity.
Qed.
Example C170_ex :
  match_feature rx boy_sent objects_f =
  Some ([([(2, AStr (u "give/V")); (1, AStr (u "girl/NN")); (3, AStr (u "apple/NN"))]%Z, [((2, 1)%Z, AStr (u "iobj")); ((2, 3)%Z, AStr (u "dobj"))]);
         ([(2, AStr (u "give/V")); (1, AStr (u "apple/NN")); (3, AStr (u "girl/NN"))]%Z, [((2, 1)%Z, AStr (u "dobj")); ((2, 3)%Z, AStr (u "iobj"))])], Ok tt) /\
  exists fs ms, match_feature rx boy_sent objects_f = Some (ms, Ok tt) /\
    Forall2 (fun h m => placement rx boy_sent objects h /\ occ_record boy_sent objects h m) fs ms /\
    (forall h, placement rx boy_sent objects h -> exists g, In g fs /\ same_on objects h g) /\
    ForallOrdPairs (fun h g => ~ same_on objects h g) fs.
Proof.
  split; [vm_compute; reflexivity|].
  refine (C170_built _ rx boy_lines boy_toks boy_sent objects 1 [(2%Z, false)] objects_f 2 boy_tokens _ _ objects_wf objects_labelled objects_rooted _ _ _ placed_root)%Z;
    try (vm_compute; reflexivity); try (vm_compute; discriminate); vm_compute; tauto.
Qed.
(** The main verb and a relation that holds to the artificial root: a feature whose root matches the word ROOT ends with KeyError. *)
Definition rooted_f : graph := gen_graph [(1%Z, u "ROOT"); (2%Z, u "/V")] [((1, 2)%Z, u "ROOT")].
Lemma rooted_f_rooted : rooted rooted_f 1.
Proof.
  split; [vm_compute; tauto|]. split; [|split].
  - intros a H. vm_compute in H. destruct H as [E|[]]; discriminate.
  - intros a b c H H'. vm_compute in H, H'. destruct H as [E|[]], H' as [E'|[]]; injection E; injection E'; intros; congruence.
  - assert (B : below rooted_f 1 0 1) by constructor. intros v H. vm_compute in H. destruct H as [<- |[<- |[]]]; [exists 0; exact B|exists 1]. eapply below_S; [exact B|]. vm_compute. tauto.
Qed.
Example C170_root_ex : exists ms, bs_tree rx boy_sent rooted_f 2 = Some (ms, Err KeyError) /\
  Forall (fun m => exists f, placement rx boy_sent rooted_f f /\ occ_record boy_sent rooted_f f m) ms.
Proof.
  destruct (lines_ok _ _ boy_tokens) as (g & Eg & Ds). assert (Es : boy_sent = g) by (unfold boy_sent; now rewrite Eg). rewrite <- Es in Ds. destruct (describes_worded _ _ Ds) as [Lw Un].
  refine (C170_root_refuted _ rx boy_sent rooted_f 2 1 (proj1 Ds) _ Lw _ rooted_f_rooted _ _ _ _ _ _).
  - apply gen_graph_ok; unfold dwf; cbn; repeat constructor; cbn; intuition discriminate.
  - apply simple_labelled. vm_compute. reflexivity.
  - vm_compute. reflexivity.
  - vm_compute. reflexivity.
  - vm_compute. discriminate.
  - vm_compute. discriminate.
  - vm_compute. tauto.
  - exists (fun w => if (w =? 1)%Z then 0%Z else 3%Z). split; [split; [|split]|].
    + intros w H. vm_compute in H. destruct H as [<- |[<- |[]]].
      * exists (u "ROOT"), (u "ROOT"). split; [eexists; split; vm_compute; reflexivity|]. split; [right; split; [eexists; split; vm_compute; reflexivity|reflexivity]|vm_compute; discriminate].
      * exists (u "/V"), (u "give/V"). split; [eexists; split; vm_compute; reflexivity|]. split; [left; eexists; split; vm_compute; reflexivity|vm_compute; discriminate].
    + intros a b H. vm_compute in H. destruct H as [E|[]]. injection E as <- <-. exists (u "ROOT"), (u "ROOT").
      split; [eexists; split; vm_compute; reflexivity|]. split; [eexists; split; vm_compute; reflexivity|vm_compute; discriminate].
    + intros a b H H'. vm_compute in H, H'. destruct H as [<- |[<- |[]]], H' as [<- |[<- |[]]]; cbn; intros E; try reflexivity; discriminate.
    + eexists. split; vm_compute; reflexivity.
Qed.
Example C170_feature_ex : bs_tree rx boy_sent (gen_graph [(1%Z, u "/N")] []) 1 = Some ([], Err AssertionError).
Proof. apply C170_feature; [vm_compute; reflexivity|left; reflexivity]. Qed.
(** Two sentences that are no trees: "boy boy" with no edge between 0 and 1, and numbers 1 and 2 *)
Definition loose : graph := gen_graph [(0%Z, u "boy/N"); (1%Z, u "girl/N")] [((0, 1)%Z, u "a"); ((1, 0)%Z, u "b")].
Definition loose1 : graph := gen_graph [(1%Z, u "boy/N"); (2%Z, u "girl/N")] [((2, 1)%Z, u "a"); ((1, 2)%Z, u "b")].
Example C170_skipped_ex : bs_tree rx loose objects 2 = Some ([], Ok tt).
Proof.
  apply C170_skipped.
  - right. vm_compute. reflexivity.
  - apply gen_graph_ok; unfold dwf; cbn; repeat constructor; cbn; intuition discriminate.
  - apply labelled_worded. apply simple_labelled. vm_compute. reflexivity.
  - intros v. vm_compute nodes. cbn [In length]. lia.
Qed.
Example C170_skipped_refuted_ex : bs_tree rx loose1 objects 2 = Some ([], Err IndexError).
Proof.
  apply C170_skipped_refuted.
  - right. vm_compute. reflexivity.
  - apply gen_graph_ok; unfold dwf; cbn; repeat constructor; cbn; intuition discriminate.
  - intros v H. vm_compute in H. lia.
  - intros H. specialize (H 0%Z). vm_compute nodes in H. cbn [In length] in H. lia.
Qed.

(** ** C171: making sentences, templates and features *)
(** The graph of nodes and edges; nodes that only edges name have no label. *)
Theorem C171_graph : forall ns es, dwf ns -> dwf es -> graph_of ns es (gen_graph ns es).
Proof. exact gen_graph_ok. Qed.
Print Assumptions C171_graph.
(** A sentence that is read from lines is the graph its tokens describe, *)
Theorem C171_lines : forall lines toks, tokens lines toks -> exists g, build_sentence lines = Ok g /\ describes toks g.
Proof. exact lines_ok. Qed.
Print Assumptions C171_lines.
(** in which exactly the heads without a line have no label, and those depend on nothing. *)
Theorem C171_worded : forall toks g, describes toks g ->
  worded g /\ (forall v, unlabelled g v <-> (exists t, In t toks /\ t_head t = v) /\ ~ exists t, In t toks /\ t_id t = v).
Proof. exact describes_worded. Qed.
Print Assumptions C171_worded.
(** Lines are read unless one of them has six columns without numbers in the fourth and the fifth; *)
Theorem C171_cases : forall lines, (exists toks, tokens lines toks) \/ (exists line, In line lines /\ bad_line line).
Proof. exact lines_cases. Qed.
Print Assumptions C171_cases.
Theorem C171_bad : forall lines line, In line lines -> bad_line line -> build_sentence lines = Err ValueError.
Proof. exact lines_error. Qed.
Print Assumptions C171_bad.
(** the constructor of sentences needs nodes and edges, or lines. *)
Theorem C171_constructor : forall ns es lines,
  (ns <> [] -> es <> [] -> sentence_graph ns es lines = Ok (gen_graph ns es)) /\
  (ns = [] \/ es = [] -> lines <> [] -> sentence_graph ns es lines = build_sentence lines) /\
  (ns = [] \/ es = [] -> sentence_graph ns es [] = Err ValueError).
Proof. intros ns es lines. destruct ns, es, lines; cbn; intuition congruence. Qed.
Print Assumptions C171_constructor.
(** A feature has the nodes, edges, labels and relations of its template; the mark of a node is 0 for the target and what the
    filter says for others, 1 where it says nothing. *)
Theorem C171_feature : forall tmpl t fl f, feature_graph tmpl t fl = Some (Ok f) ->
  ftarget f = t /\ get_depth (fgraph f) = Some (fdepth f) /\ nodes (fgraph f) = nodes tmpl /\ dkeys (gedges (fgraph f)) = dkeys (gedges tmpl) /\
  (forall v x, has_label (fgraph f) v x <-> has_label tmpl v x) /\ (forall e x, has_rel (fgraph f) e x <-> has_rel tmpl e x) /\
  (forall v a, dget (gnodes (fgraph f)) v = Some a ->
     dget a (u "feature") = Some (AInt (if (v =? t)%Z then 0 else match dget fl v with Some false => 0 | _ => 1 end))) /\
  (forall e a, dget (gedges (fgraph f)) e = Some a -> dget a (u "feature") = Some (AInt 1)).
Proof. exact feature_ok. Qed.
Print Assumptions C171_feature.
Theorem C171_empty_refuted : forall es t fl, feature_graph (Graph [] es) t fl = Some (Err AttributeError).
Proof. reflexivity. Qed.
Print Assumptions C171_empty_refuted.

Example C171_lines_ex : exists g, build_sentence boy_lines = Ok g /\ describes boy_toks g /\ unlabelled g 0 /\ length (nodes g) = 9.
Proof.
  destruct (C171_lines _ _ boy_tokens) as (g & E & D). exists g. split; [exact E|]. split; [exact D|]. split.
  - apply (proj2 (C171_worded _ _ D)). split; [exists (Tok 3 (u "give/V") 0 (u "ROOT")); cbn; tauto|]. intros (t & I & X). cbn in I. intuition (subst; discriminate).
  - assert (g = boy_sent) as -> by (unfold boy_sent; now rewrite E). vm_compute. reflexivity.
Qed.
Example C171_graph_ex : graph_of [(1%Z, u "boy/N")] [((2, 1)%Z, u "nsubj")] (gen_graph [(1%Z, u "boy/N")] [((2, 1)%Z, u "nsubj")]) /\
  unlabelled (gen_graph [(1%Z, u "boy/N")] [((2, 1)%Z, u "nsubj")]) 2.
Proof.
  assert (G := C171_graph [(1%Z, u "boy/N")] [((2, 1)%Z, u "nsubj")]). split; [apply G; unfold dwf; cbn; repeat constructor; cbn; tauto|]. eexists. split; vm_compute; reflexivity.
Qed.
Example C171_bad_ex : build_sentence [tabs ["boy"; "NN"; "boy"; "one"; "2"; "nsubj"]] = Err ValueError.
Proof.
  apply (C171_bad _ (tabs ["boy"; "NN"; "boy"; "one"; "2"; "nsubj"])); [now left|]. exists (u "boy"), (u "NN"), (u "boy"), (u "one"), (u "2"), (u "nsubj"), ValueError.
  split; [|left; vm_compute; reflexivity]. apply (boy_columns ["boy"; "NN"; "boy"; "one"; "2"; "nsubj"]); [|vm_compute; reflexivity].
  repeat (constructor; [vm_compute; intuition discriminate|]). constructor.
Qed.
(** A number that occurs twice: the later line gives the label, the edges of both stay. *)
Example C171_twice_ex : exists g, build_sentence (map tabs [["a"; "N"; "a"; "1"; "2"; "x"]; ["b"; "N"; "b"; "1"; "3"; "y"]]) = Ok g /\
  has_label g 1 (u "b/N") /\ edge g 2 1 /\ edge g 3 1.
Proof. eexists. split; [vm_compute; reflexivity|]. split; [eexists; split; vm_compute; reflexivity|]. split; vm_compute; tauto. Qed.
Example C171_feature_ex : feature_graph objects 1 [(2%Z, false)] = Some (Ok objects_f) /\ fdepth objects_f = 2 /\ ftarget objects_f = 1%Z.
Proof. assert (E : feature_graph objects 1 [(2%Z, false)] = Some (Ok objects_f)) by (vm_compute; reflexivity). split; [exact E|]. split; [vm_compute; reflexivity|apply (C171_feature _ _ _ _ E)]. Qed.

(** ** C172: match_target_feature *)
(** For sentences whose nodes all have labels, and features that are chains from the target: every placement once. *)
Theorem C172_exact : forall (M : Type) (re_match : pystr -> pystr -> option M) (s p : graph) (t rs rp : Z),
  gwf s -> gwf p -> rooted s rs -> rooted p rp -> labelled s -> labelled p -> ~ In (-1)%Z (nodes s) -> ~ In (-1)%Z (nodes p) ->
  In t (nodes p) -> chain_from p t ->
  exists fs ms, bs_target re_match s p t = (ms, Ok tt) /\
    Forall2 (fun f m => placement re_match s p f /\ occ_record s p f m) fs ms /\
    (forall f, placement re_match s p f -> exists g, In g fs /\ same_on p f g) /\
    ForallOrdPairs (fun f g => ~ same_on p f g) fs.
Proof. exact @target_exact. Qed.
Print Assumptions C172_exact.
(** So match_feature and match_target_feature record the same, up to order. *)
Theorem C172_same : forall (M : Type) (re_match : pystr -> pystr -> option M) (s p : graph) (d : nat) (t rs rp : Z),
  gwf s -> gwf p -> rooted s rs -> rooted p rp -> labelled s -> labelled p -> ~ In (-1)%Z (nodes s) -> ~ In (-1)%Z (nodes p) ->
  get_depth p = Some d -> gedges s <> [] -> gedges p <> [] -> In 1%Z (nodes p) -> In t (nodes p) -> chain_from p t ->
  exists ms ms' ms2, bs_tree re_match s p d = Some (ms, Ok tt) /\ bs_target re_match s p t = (ms', Ok tt) /\ Permutation ms' ms2 /\ Forall2 same_record ms ms2.
Proof. exact @tree_target_same. Qed.
Print Assumptions C172_same.
(** For other features match_target_feature finds nothing. *)
Theorem C172_others_refuted : forall (M : Type) (re_match : pystr -> pystr -> option M) (s p : graph) (t rp : Z),
  gwf s -> gwf p -> rooted p rp -> labelled s -> labelled p -> In t (nodes p) -> ~ chain_from p t -> bs_target re_match s p t = ([], Ok tt).
Proof. exact @target_others. Qed.
Print Assumptions C172_others_refuted.
(** In sentences read from lines, a word that matches the target, whose head has no label, is a KeyError when the target has a
    head in the feature. *)
Theorem C172_root_refuted : forall (M : Type) (re_match : pystr -> pystr -> option M) (s p : graph) (t v a b : Z),
  gwf s -> gwf p -> worded s -> labelled p -> one_head s -> one_head p -> ~ In (-1)%Z (nodes s) -> ~ In (-1)%Z (nodes p) ->
  edge p a t -> edge s b v -> unlabelled s b -> a <> t -> (exists lp x, has_label p t lp /\ has_label s v x /\ re_match lp x <> None) ->
  exists ms, bs_target re_match s p t = (ms, Err KeyError).
Proof. exact @target_root_error. Qed.
Print Assumptions C172_root_refuted.
(** Without a target (the default is -1) too *)
Theorem C172_unset_refuted : forall (M : Type) (re_match : pystr -> pystr -> option M) (s p : graph) (t : Z),
  ~ In t (nodes p) -> nodes s <> [] -> bs_target re_match s p t = ([], Err KeyError).
Proof. exact @target_unset. Qed.
Print Assumptions C172_unset_refuted.

(** The sentence "boy eats apple" as the feature and as the sentence *)
Example C172_ex : exists ms ms' ms2, bs_tree same boy boy 2 = Some (ms, Ok tt) /\ bs_target same boy boy 1 = (ms', Ok tt) /\ Permutation ms' ms2 /\ Forall2 same_record ms ms2 /\ length ms = 1.
Proof.
  destruct (C172_same _ same boy boy 2 1 2 2 boy_wf boy_wf boy_rooted boy_rooted (simple_labelled boy eq_refl) (simple_labelled boy eq_refl)) as (ms & ms' & ms2 & E & E' & P & F);
    try (cbn; intuition discriminate); try exact boy_chain; try reflexivity.
  exists ms, ms', ms2. repeat (split; [assumption|]). vm_compute in E. injection E as <-. reflexivity.
Qed.
Example C172_exact_ex : exists fs ms, bs_target same boy boy 1 = (ms, Ok tt) /\
    Forall2 (fun f m => placement same boy boy f /\ occ_record boy boy f m) fs ms /\
    (forall f, placement same boy boy f -> exists g, In g fs /\ same_on boy f g) /\ ForallOrdPairs (fun f g => ~ same_on boy f g) fs.
Proof.
  refine (C172_exact _ same boy boy 1 2 2 boy_wf boy_wf boy_rooted boy_rooted (simple_labelled boy eq_refl) (simple_labelled boy eq_refl) _ _ _ boy_chain)%Z; cbn; intuition discriminate.
Qed.
(** From the verb, which has two dependents: not found, though match_feature finds it *)
Example C172_others_ex : bs_target same boy boy 2 = ([], Ok tt) /\ bs_tree same boy boy 2 <> Some ([], Ok tt).
Proof.
  split; [|vm_compute; discriminate].
  refine (C172_others_refuted _ same boy boy 2 2 boy_wf boy_wf boy_rooted (simple_labelled boy eq_refl) (simple_labelled boy eq_refl) _ boy_no_chain)%Z. cbn; tauto.
Qed.
(** A feature whose target, a verb, depends on another verb, in the sentence from lines *)
Definition verbs : graph := gen_graph [(1%Z, u "/V"); (2%Z, u "/V")] [((1, 2)%Z, u "conj")].
Example C172_root_ex : exists ms, bs_target rx boy_sent verbs 2 = (ms, Err KeyError).
Proof.
  destruct (lines_ok _ _ boy_tokens) as (g & Eg & Ds). assert (Es : boy_sent = g) by (unfold boy_sent; now rewrite Eg). rewrite <- Es in Ds. destruct (describes_worded _ _ Ds) as [Lw Un].
  refine (C172_root_refuted _ rx boy_sent verbs 2 3 1 0 (proj1 Ds) _ Lw _ _ _ _ _ _ _ _ _ _)%Z.
  - apply gen_graph_ok; unfold dwf; cbn; repeat constructor; cbn; intuition discriminate.
  - apply simple_labelled. vm_compute. reflexivity.
  - intros a b c H H'. vm_compute in H, H'. intuition congruence.
  - intros a b c H H'. vm_compute in H, H'. intuition congruence.
  - vm_compute. intuition discriminate.
  - vm_compute. intuition discriminate.
  - vm_compute. tauto.
  - vm_compute. tauto.
  - eexists. split; vm_compute; reflexivity.
  - discriminate.
  - exists (u "/V"), (u "give/V"). split; [eexists; split; vm_compute; reflexivity|]. split; [eexists; split; vm_compute; reflexivity|vm_compute; discriminate].
Qed.
Example C172_unset_ex : bs_target rx boy_sent objects (-1) = ([], Err KeyError).
Proof. apply C172_unset_refuted; [vm_compute; intuition discriminate|vm_compute; discriminate]. Qed.
