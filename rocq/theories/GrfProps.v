(** * Claims C158-C160: the walking matcher, printed graphs, setters of macros. *)
From Coq Require Import String NArith ZArith Bool Arith Permutation Sorted Lia List.
From Verif Require Import Base BaseLemmas Str VocabModel CorpusModel ParModel MxModel DepModel DepSpec GrfModel GrfSpec GrfProofs GrfProofs2 GrfProofs3 GrfProofs4.
Import ListNotations.
Local Open Scope string_scope.
Local Open Scope nat_scope.
Local Open Scope list_scope.

(** ** C158: match_sub_template *)
(** Every walk that pairs sentence nodes with as many pattern nodes as there are is recorded, and recorded once. *)
Theorem C158_walks : forall (M : Type) (re_match : pystr -> pystr -> option M) (s p : graph),
  gwf s -> gwf p -> labelled s -> labelled p -> (forall a, ~ edge p a a) -> forall v t, In v (nodes s) -> In t (nodes p) ->
  exists ws, match_sub_template re_match s p v t = (map (walk_record s (v, t)) ws, Ok tt) /\ NoDup ws /\
             forall w, In w ws <-> S (length w) = length (nodes p) /\ walk re_match s p (-1, -1)%Z (v, t) w.
Proof. exact @walks_exact. Qed.
Print Assumptions C158_walks.

(** In trees, for a pattern that is a chain starting at the target: one record for every occurrence. *)
Theorem C158_chain : forall (M : Type) (re_match : pystr -> pystr -> option M) (s p : graph) (rs rp : Z),
  gwf s -> gwf p -> rooted s rs -> rooted p rp -> labelled s -> labelled p -> ~ In (-1)%Z (nodes s) -> ~ In (-1)%Z (nodes p) ->
  forall v t, In v (nodes s) -> In t (nodes p) -> chain_from p t ->
  exists fs ms, match_sub_template re_match s p v t = (ms, Ok tt) /\
    Forall2 (fun f m => occurrence re_match s p v t f /\ occ_record s p f m) fs ms /\
    (forall f, occurrence re_match s p v t f -> exists f', In f' fs /\ same_on p f f') /\
    ForallOrdPairs (fun f f' => ~ same_on p f f') fs.
Proof. exact @chains_exact. Qed.
Print Assumptions C158_chain.

(** ... and for every other pattern tree nothing is found, *)
Theorem C158_others : forall (M : Type) (re_match : pystr -> pystr -> option M) (s p : graph) (rp : Z),
  gwf s -> gwf p -> rooted p rp -> labelled s -> labelled p ->
  forall v t, In v (nodes s) -> In t (nodes p) -> ~ chain_from p t -> match_sub_template re_match s p v t = ([], Ok tt).
Proof. exact @only_chains. Qed.
Print Assumptions C158_others.

(** "Boy eats apple": a sentence, a chain and a tree that is no chain from the target *)
Definition word (x : pystr) : attrs := [(u "label", AStr x)].
Definition rel (x : pystr) : attrs := [(u "rel", AStr x)].
Definition boy : graph :=
  Graph [(1%Z, word (u "boy/N")); (2%Z, word (u "eats/V")); (3%Z, word (u "apple/N"))]
        [((2, 1)%Z, rel (u "nsubj")); ((2, 3)%Z, rel (u "dobj"))].
Definition same (r x : pystr) : option unit := if eqb r x then Some tt else None.
Definition simple_label (g : graph) : bool :=
  forallb (fun va => match dget (snd va) (u "label") with Some (AStr _) => true | _ => false end) (gnodes g) &&
  forallb (fun ea => match dget (snd ea) (u "rel") with Some (AStr _) => true | _ => false end) (gedges g).
Lemma simple_labelled g : simple_label g = true -> labelled g.
Proof.
  unfold simple_label. rewrite andb_true_iff, !forallb_forall. intros [H H']. split.
  - intros v Hv. destruct (dget_key_Some _ _ Hv) as [a Ha]. specialize (H _ (dget_Some_In _ _ _ Ha)). cbn [snd] in H.
    destruct (dget a (u "label")) as [[x|]|] eqn:E; try discriminate. exists x, a. split; assumption.
  - intros v w Hv. destruct (dget_key_Some _ _ Hv) as [a Ha]. specialize (H' _ (dget_Some_In _ _ _ Ha)). cbn [snd] in H'.
    destruct (dget a (u "rel")) as [[x|]|] eqn:E; try discriminate. exists x, a. split; assumption.
Qed.
Lemma boy_wf : gwf boy.
Proof.
  split; [|split]; try (unfold dwf; cbn; repeat constructor; cbn; intuition discriminate).
  intros a b H. cbn in H. destruct H as [E|[E|[]]]; injection E as <- <-; cbn; tauto.
Qed.
Lemma boy_rooted : rooted boy 2.
Proof.
  split; [cbn; tauto|]. split; [|split].
  - intros a [E|[E|[]]]; discriminate.
  - intros a b c [E|[E|[]]] [E'|[E'|[]]]; cbn in E, E'; injection E; injection E'; intros; congruence.
  - assert (B : below boy 2 0 2) by constructor. intros v [<- |[<- |[<- |[]]]]; [exists 1|exists 0|exists 1]; [| exact B|];
      (eapply below_S; [exact B|]); cbn; tauto.
Qed.
Lemma boy_chain : chain_from boy 1.
Proof.
  exists [2; 3]%Z. split; [apply Permutation_refl|]. intros a b. split.
  - intros [[E|[E|[]]]|[E|[E|[]]]]; injection E as <- <-;
      [right; exists [], [3%Z]|left; exists [1%Z], []|left; exists [], [3%Z]|right; exists [1%Z], []]; reflexivity.
  - assert (C : forall x y, consecutive [1; 2; 3]%Z x y -> (x, y) = (1, 2)%Z \/ (x, y) = (2, 3)%Z).
    { intros x y (l1 & l2 & E). destruct l1 as [|? [|? [|? [|? ?]]]]; cbn in E; try discriminate; injection E; intros; subst; auto. }
    intros [H|H]; apply C in H; destruct H as [E|E]; injection E as -> ->; cbn; tauto.
Qed.
Lemma boy_no_chain : ~ chain_from boy 2.
Proof.
  intros (l & P & C). pose proof (Permutation_length P) as L. destruct l as [|x [|y [|? ?]]]; try discriminate.
  assert (D : NoDup [2%Z; x; y]) by (apply (Permutation_NoDup (Permutation_sym P)); cbn; repeat constructor; cbn; intuition discriminate).
  assert (N : forall z, consecutive [2%Z; x; y] 2 z -> z = x) by (intros z Q; exact (consec_next _ [] [y] 2 x z D eq_refl Q)).
  assert (Q : forall z, edge boy 2 z -> z = x).
  { intros z E. destruct (proj1 (C 2%Z z) (or_introl E)) as [H|H]; [exact (N _ H)|]. exfalso. exact (consec_first _ _ _ D H). }
  assert (1%Z = x) by (apply Q; cbn; tauto). assert (3%Z = x) by (apply Q; cbn; tauto). congruence.
Qed.
Lemma boy_self v t : In t (nodes boy) -> v = t -> occurrence same boy boy v t (fun x => x).
Proof.
  intros _ ->. split; [reflexivity|]. split; [|split; [|auto]].
  - intros w Hw _. destruct (simple_labelled boy eq_refl) as [L _]. destruct (L w Hw) as [x Hx]. exists x, x. split; [exact Hx|]. split; [exact Hx|].
    unfold same. rewrite eqb_refl. discriminate.
  - intros a b E. destruct (simple_labelled boy eq_refl) as [_ L]. destruct (L a b E) as [x Hx]. exists x, x. split; [exact Hx|]. split; [exact Hx|].
    unfold same. rewrite eqb_refl. discriminate.
Qed.
(** The pattern of the sentence itself, from its first word: found. *)
Example C158_ex :
  match_sub_template same boy boy 1 1 =
  ([([(1, AStr (u "boy/N")); (2, AStr (u "eats/V")); (3, AStr (u "apple/N"))]%Z,
     [((2, 1)%Z, AStr (u "nsubj")); ((2, 3)%Z, AStr (u "dobj"))])], Ok tt) /\
  exists fs ms, match_sub_template same boy boy 1 1 = (ms, Ok tt) /\
    Forall2 (fun f m => occurrence same boy boy 1 1 f /\ occ_record boy boy f m) fs ms /\
    (forall f, occurrence same boy boy 1 1 f -> exists f', In f' fs /\ same_on boy f f') /\
    ForallOrdPairs (fun f f' => ~ same_on boy f f') fs.
Proof.
  split; [vm_compute; reflexivity|].
  refine (C158_chain _ _ _ _ 2 2 boy_wf boy_wf boy_rooted boy_rooted (simple_labelled boy eq_refl) (simple_labelled boy eq_refl) _ _ 1 1 _ _ boy_chain)%Z;
    cbn; intuition discriminate.
Qed.
Example C158_walks_ex : exists ws, match_sub_template same boy boy 1 1 = (map (walk_record boy (1, 1)%Z) ws, Ok tt) /\ NoDup ws /\
  forall w, In w ws <-> S (length w) = 3 /\ walk same boy boy (-1, -1)%Z (1, 1)%Z w.
Proof.
  refine (C158_walks _ _ _ _ boy_wf boy_wf (simple_labelled boy eq_refl) (simple_labelled boy eq_refl) (no_loop _ _ boy_wf boy_rooted) 1 1 _ _)%Z; cbn; tauto.
Qed.
(** From the verb, which has two dependents, the same pattern is not found though it occurs. *)
Example C158_others_ex : match_sub_template same boy boy 2 2 = ([], Ok tt).
Proof. refine (C158_others _ _ _ _ 2 boy_wf boy_wf boy_rooted (simple_labelled boy eq_refl) (simple_labelled boy eq_refl) 2 2 _ _ boy_no_chain)%Z; cbn; tauto. Qed.
Theorem C158_occurrences_refuted :
  ~ (forall (re_match : pystr -> pystr -> option unit) s p r r' v t f, gwf s -> gwf p -> rooted s r -> rooted p r' -> labelled s -> labelled p ->
       occurrence re_match s p v t f -> fst (match_sub_template re_match s p v t) <> []).
Proof.
  intros H. refine (H same boy boy 2 2 2 2 (fun x => x) boy_wf boy_wf boy_rooted boy_rooted (simple_labelled boy eq_refl) (simple_labelled boy eq_refl) _ _)%Z.
  - apply boy_self; [cbn; tauto|reflexivity].
  - vm_compute. reflexivity.
Qed.
Print Assumptions C158_occurrences_refuted.

(** A head without label, as node 0 of sentences read from a corpus, ends the call with KeyError. *)
Theorem C158_root_refuted : forall (M : Type) (re_match : pystr -> pystr -> option M) s p v t b a lb la r,
  In v (nodes s) -> In t (nodes p) -> length (nodes p) <> 1 -> preds s v = b :: lb -> preds p t = a :: la ->
  a <> (-1)%Z -> b <> (-1)%Z -> has_rel s (b, v) r -> In b (nodes s) -> (forall x, dget (gnodes s) b = Some x -> dget x (u "label") = None) ->
  match_sub_template re_match s p v t = ([], Err KeyError).
Proof. exact @root_error. Qed.
Print Assumptions C158_root_refuted.
Definition eats : graph := Graph [(2%Z, word (u "eats/V")); (0%Z, []); (1%Z, word (u "boy/N"))] [((0, 2)%Z, rel (u "ROOT")); ((2, 1)%Z, rel (u "nsubj"))].
Example C158_root_ex : match_sub_template same eats boy 2 1 = ([], Err KeyError).
Proof.
  refine (C158_root_refuted _ _ _ _ _ _ 0 2 [] [] (u "ROOT") _ _ _ _ _ _ _ _ _ _)%Z; try (cbn; tauto); try discriminate; try reflexivity.
  - eexists. split; reflexivity.
  - intros x E. injection E as <-. reflexivity.
Qed.

(** ** C159: printed graphs *)
(** A sentence prints as its labels in the order of the node numbers when the numbers are 0, ..., n-1; *)
Theorem C159_labels : forall g xs, gwf g -> numbered g -> length xs = length (nodes g) ->
  (forall i x, nth_error xs i = Some x -> shows g i x) -> sentence_repr g = Ok (join 32%N xs).
Proof. exact repr_numbered. Qed.
Print Assumptions C159_labels.
(** otherwise some number is too large, and printing is an IndexError. *)
Theorem C159_gaps : forall g, gwf g -> (forall v, In v (nodes g) -> (0 <= v)%Z) -> numbered g \/ sentence_repr g = Err IndexError.
Proof. intros g W P. destruct (numbered_or_gap g W P) as [H|(v & H & H')]; [left; exact H|right; exact (repr_gap g v H H')]. Qed.
Print Assumptions C159_gaps.
Example C159_ex :
  sentence_repr (nx_add_node eats 0%Z []) = Ok (u "ROOT boy/N eats/V") /\ sentence_repr boy = Err IndexError /\ numbered eats.
Proof.
  split; [vm_compute; reflexivity|]. split; [vm_compute; reflexivity|]. intros v. cbn. split; [intuition subst; lia|]. intros H.
  assert (v = 0 \/ v = 1 \/ v = 2)%Z by lia. intuition.
Qed.
Example C159_labels_ex : sentence_repr eats = Ok (join 32%N [u "ROOT"; u "boy/N"; u "eats/V"]).
Proof.
  apply C159_labels.
  - split; [|split]; try (unfold dwf; cbn; repeat constructor; cbn; intuition discriminate).
    intros a b H. cbn in H. destruct H as [E|[E|[]]]; injection E as <- <-; cbn; tauto.
  - apply C159_ex.
  - reflexivity.
  - intros [|[|[|i]]] x E; cbn in E; try (injection E as <-; eexists; split; reflexivity). destruct i; discriminate.
Qed.
(** An integer as label is a TypeError. *)
Theorem C159_integer : forall g v a z, gwf g -> numbered g -> dget (gnodes g) v = Some a -> dget a (u "label") = Some (AInt z) ->
  sentence_repr g = Err TypeError.
Proof. exact repr_integer. Qed.
Print Assumptions C159_integer.
Example C159_integer_ex : sentence_repr (Graph [(0%Z, [(u "label", AInt 7)])] []) = Err TypeError.
Proof.
  refine (C159_integer (Graph [(0%Z, [(u "label", AInt 7)])] []) 0%Z [(u "label", AInt 7)] 7%Z _ _ eq_refl eq_refl).
  - split; [|split]; try (unfold dwf; cbn; repeat constructor; cbn; intuition discriminate); intros a b [].
  - intros v. cbn. lia.
Qed.
(** The words are not shown unless the column is called label: *)
Theorem C159_words_refuted : forall g, gwf g -> numbered g -> lacks g (u "label") ->
  sentence_repr g = Ok (join 32%N (repeat (u "ROOT") (length (nodes g)))).
Proof. exact repr_unlabelled. Qed.
Print Assumptions C159_words_refuted.
Definition lemmas : graph := Graph [(1%Z, [(u "lemma", AStr (u "rain")); (u "pos", AStr (u "V"))]); (0%Z, [])] [((0, 1)%Z, [(u "deprel", AStr (u "ROOT"))])].
Example C159_words_ex : sentence_repr lemmas = Ok (u "ROOT ROOT").
Proof.
  refine (C159_words_refuted lemmas _ _ _).
  - split; [|split]; try (unfold dwf; cbn; repeat constructor; cbn; intuition discriminate).
    intros a b H. cbn in H. destruct H as [E|[]]; injection E as <- <-; cbn; tauto.
  - intros v. cbn. split; [intuition subst; lia|]. intros H. assert (v = 0 \/ v = 1)%Z by lia. intuition.
  - intros v a H. apply dget_Some_In in H. cbn in H. destruct H as [E|[E|[]]]; injection E as <- <-; reflexivity.
Qed.
(** Other graphs print one line for every node and one for every edge. *)
Theorem C159_lines : forall g, (forall e, In e (edge_list g) -> ~ In 10%N (rel_text g e)) ->
  split 10%N (digraph_repr g) = [] :: map node_line (nodes g) ++ map (edge_line g) (edge_list g) ++ [[]].
Proof. exact digraph_lines. Qed.
Print Assumptions C159_lines.
Example C159_lines_ex : digraph_repr lemmas = nl ++ u "v: 1" ++ nl ++ u "v: 0" ++ nl ++ u "e: 0 1 None" ++ nl /\
  split 10%N (digraph_repr boy) = [[]; u "v: 1"; u "v: 2"; u "v: 3"; u "e: 2 1 nsubj"; u "e: 2 3 dobj"; []].
Proof.
  split; [vm_compute; reflexivity|]. rewrite C159_lines; [vm_compute; reflexivity|].
  intros e H. vm_compute in H. destruct H as [<- |[<- |[]]]; vm_compute; intuition discriminate.
Qed.

(** ** C160: setters of macros, feature_old *)
(** set_feature marks every node (with the filter, else True) and edge and changes nothing else; the target is marked
    False only once set_target has replaced the method target by a number. *)
Theorem C160_marks : forall t fl g,
  (forall v a, dget (gnodes g) v = Some a -> exists a', dget (gnodes (set_feature t fl g)) v = Some a' /\
     (forall k, k <> u "feature" -> dget a' k = dget a k) /\
     (t = TNum v -> dget a' (u "feature") = Some (AInt 0)) /\
     (t <> TNum v -> dget fl v = Some false -> dget a' (u "feature") = Some (AInt 0)) /\
     (t <> TNum v -> dget fl v <> Some false -> dget a' (u "feature") = Some (AInt 1))) /\
  (forall e a, dget (gedges g) e = Some a -> exists a', dget (gedges (set_feature t fl g)) e = Some a' /\
     (forall k, k <> u "feature" -> dget a' k = dget a k) /\ dget a' (u "feature") = Some (AInt 1)) /\
  dkeys (gnodes (set_feature t fl g)) = dkeys (gnodes g) /\ dkeys (gedges (set_feature t fl g)) = dkeys (gedges g).
Proof.
  intros t fl g. split; [|split; [|split]].
  - intros v a H. rewrite set_feature_node, H. cbn [option_map]. eexists. split; [reflexivity|]. rewrite dget_dset_same.
    split; [intros k K; rewrite dget_dset; destruct (eqdec _ _); congruence|]. split; [|split].
    + intros ->. cbn [is_target]. now rewrite Z.eqb_refl.
    + intros T F. rewrite F. now destruct (is_target t v).
    + intros T F. destruct t as [|z]; cbn [is_target]; [|destruct (Z.eqb_spec v z) as [->|_]; [congruence|]];
        destruct (dget fl v) as [[|]|]; congruence || reflexivity.
  - intros e a H. rewrite set_feature_edge, H. cbn [option_map]. eexists. split; [reflexivity|]. rewrite dget_dset_same.
    split; [intros k K; rewrite dget_dset; destruct (eqdec _ _); congruence|reflexivity].
  - unfold dkeys, set_feature. cbn [gnodes]. rewrite map_map. reflexivity.
  - unfold dkeys, set_feature. cbn [gedges]. rewrite map_map. reflexivity.
Qed.
Print Assumptions C160_marks.
Theorem C160_target_refuted : forall fl g v a, dget (gnodes g) v = Some a -> dget fl v = None ->
  exists a', dget (gnodes (set_feature TMethod fl g)) v = Some a' /\ dget a' (u "feature") = Some (AInt 1).
Proof.
  intros fl g v a H N. destruct (proj1 (C160_marks TMethod fl g) v a H) as (a' & E & _ & _ & _ & F). exists a'. split; [exact E|].
  apply F; congruence.
Qed.
Print Assumptions C160_target_refuted.
(** After set_target, target() is a TypeError. *)
Theorem C160_call_refuted : forall (A : Type) t z (method : res A), call_target (set_target t z) method = Err TypeError.
Proof. reflexivity. Qed.
Print Assumptions C160_call_refuted.
Example C160_ex :
  map (fun va => dget (snd va) (u "feature")) (gnodes (set_feature TMethod [(3%Z, false)] boy)) = [Some (AInt 1); Some (AInt 1); Some (AInt 0)] /\
  map (fun va => dget (snd va) (u "feature")) (gnodes (set_feature (set_target TMethod 1) [(3%Z, false)] boy)) = [Some (AInt 0); Some (AInt 1); Some (AInt 0)] /\
  map snd (gedges (set_feature TMethod [] boy)) = [rel (u "nsubj") ++ [(u "feature", AInt 1)]; rel (u "dobj") ++ [(u "feature", AInt 1)]] /\
  call_target (set_target TMethod 1) (Ok tt) = Err TypeError.
Proof. repeat split. Qed.
(** A macro marked in this way no longer matches anything: the mark is taken for one more constraint. *)
Theorem C160_match_refuted : forall (M : Type) (re_match : pystr -> pystr -> option M) t fl g s m l,
  gwf (sgraph s) -> lacks (sgraph s) (u "feature") -> mgraph m = set_feature t fl g -> tree_match re_match s m = Some (Ok l) -> l = [].
Proof. exact @feature_no_match. Qed.
Print Assumptions C160_match_refuted.
Theorem C160_key_refuted : forall (M : Type) (re_match : pystr -> pystr -> option M) t fl g v pa a,
  dget (gnodes g) v = Some pa -> ~ In (u "feature") (dkeys pa) -> a <> [] -> satisfies re_match pa a ->
  dget a (u "feature") = None -> match_node re_match (set_feature t fl g) a v = Err KeyError.
Proof. exact @feature_key_error. Qed.
Print Assumptions C160_key_refuted.
Definition noun : graph := Graph [(1%Z, word (u "boy/N"))] [].
Definition macro_of (g : graph) : macro := Macro g 1 1 (-1) [(u "label", 0%Z)] [(u "label", 0%Z)] [] None [].
Example C160_match_ex :
  (exists r, tree_match same (Sentence boy false []) (macro_of noun) = Some (Ok [r])) /\
  tree_match same (Sentence boy false []) (macro_of (set_feature TMethod [] noun)) = Some (Err KeyError) /\
  tree_match same (Sentence (Graph [(1%Z, word (u "girl/N"))] []) false []) (macro_of (set_feature TMethod [] noun)) = Some (Ok []) /\
  match_node same (set_feature TMethod [] noun) (word (u "boy/N")) 1 = Err KeyError.
Proof.
  split; [eexists; vm_compute; reflexivity|]. split; [vm_compute; reflexivity|]. split; [vm_compute; reflexivity|].
  refine (C160_key_refuted _ _ _ _ noun 1%Z _ _ eq_refl _ _ _ _); try discriminate; try reflexivity.
  - cbn. intuition discriminate.
  - intros attr regex [E|[]]. injection E as <- <-. exists (u "boy/N"), (u "boy/N"). repeat split. vm_compute. discriminate.
Qed.
(** feature_old puts lemma/pos of all nodes but node 1, in the order of their numbers, and the relations of the edges into the
    text of the pattern, *)
Theorem C160_old : forall (M : Type) (re_match : pystr -> pystr -> option M) re_group1 assemble g ns es l sorted_l rs, dwf ns ->
  Forall2 (fun va vx => fst va = fst vx /\ node_text re_match re_group1 g (fst va) (snd va) (snd vx)) (filter (fun va => negb (fst va =? 1)%Z) ns) l ->
  Permutation l sorted_l -> StronglySorted (fun x y => (fst x <= fst y)%Z) sorted_l ->
  Forall2 (fun ex r => edge_text re_match re_group1 g (fst ex) (snd ex) r) es rs ->
  feature_old re_match re_group1 assemble g ns es = (combine (dkeys es) (map MStr rs), assemble (map snd sorted_l) rs).
Proof. exact @feature_old_text. Qed.
Print Assumptions C160_old.
(** but it writes strings over the recorded edges, so calling it again fails. *)
Theorem C160_old_refuted : forall (M : Type) (re_match : pystr -> pystr -> option M) re_group1 assemble g ns e x es es' y,
  feature_old re_match re_group1 assemble g ns ((e, x) :: es) = (es', Ok y) ->
  (forall k, In k (dkeys ((e, x) :: es)) -> exists r, In (k, MStr r) es') /\
  feature_old re_match re_group1 assemble g ns es' = (es', Err TypeError).
Proof. exact @feature_old_twice. Qed.
Print Assumptions C160_old_refuted.
Definition old_pattern : graph :=
  Graph [(1%Z, [(u "lemma", AStr (u "eat")); (u "pos", AStr (u "V"))]); (2%Z, [(u "lemma", AStr (u "boy")); (u "pos", AStr (u "N"))])]
        [((1, 2)%Z, [(u "deprel", AStr (u "nsubj"))])].
Definition whole (r x : pystr) : option pystr := if eqb r x then Some x else None.
Definition old_call := feature_old whole (fun m => Ok (Some m)) (fun ns es => Ok (join 32%N (ns ++ es))) old_pattern (gnodes old_pattern).
Example C160_old_ex :
  old_call [((1, 2)%Z, MAttrs [(u "deprel", AStr (u "nsubj"))])] = ([((1, 2)%Z, MStr (u "nsubj"))], Ok (u "boy/N nsubj")) /\
  old_call [((1, 2)%Z, MStr (u "nsubj"))] = ([((1, 2)%Z, MStr (u "nsubj"))], Err TypeError).
Proof. split; vm_compute; reflexivity. Qed.
(** A lemma that does not match shows as nothing. *)
Example C160_old_text_ex :
  feature_old whole (fun m => Ok (Some m)) (fun ns es => Ok (join 32%N (ns ++ es))) old_pattern
    [(2%Z, [(u "lemma", AStr (u "girl")); (u "pos", AStr (u "N"))]); (1%Z, [])] [((1, 2)%Z, MAttrs [(u "deprel", AStr (u "nsubj"))])] =
  ([((1, 2)%Z, MStr (u "nsubj"))], Ok (u "/N nsubj")).
Proof.
  refine (C160_old _ _ _ _ _ _ _ [(2%Z, u "/N")] [(2%Z, u "/N")] [u "nsubj"] _ _ (Permutation_refl _) _ _).
  - unfold dwf. cbn. repeat constructor; cbn; intuition discriminate.
  - constructor; [|constructor]. split; [reflexivity|]. eexists _, [], (u "N"). split; [reflexivity|].
    split; [|split; [|reflexivity]]; eexists _, _; (split; [reflexivity|]; split; [reflexivity|]); vm_compute; reflexivity.
  - repeat constructor.
  - constructor; [|constructor]. eexists _, _. split; [reflexivity|]. split; [reflexivity|].
    eexists _, _. split; [reflexivity|]. split; [reflexivity|]. vm_compute. reflexivity.
Qed.

(** ** Computed cases *)
(** A regular expression without operators matches at the beginning. *)
Fixpoint begins (r x : pystr) : option unit :=
  match r, x with
  | [], _ => Some tt
  | c :: r', d :: x' => if eqb c d then begins r' x' else None
  | _ :: _, [] => None
  end.
(** A verb with two subjects, three objects (one of them no a-word) and a modifier that is an a-word; two matches, in this order *)
Definition feast : graph :=
  Graph [(1%Z, word (u "boy")); (2%Z, word (u "eats")); (3%Z, word (u "apple")); (4%Z, word (u "ant")); (8%Z, word (u "bee"));
         (9%Z, word (u "zebra")); (10%Z, word (u "always"))]
        [((2, 1)%Z, rel (u "nsubj")); ((2, 3)%Z, rel (u "dobj")); ((2, 4)%Z, rel (u "dobj")); ((2, 8)%Z, rel (u "nsubj")); ((2, 9)%Z, rel (u "dobj"));
         ((2, 10)%Z, rel (u "mod"))].
Definition feast_pattern : graph :=
  Graph [(5%Z, word (u "b")); (6%Z, word (u "e")); (7%Z, word (u "a"))] [((6, 5)%Z, rel (u "ns")); ((6, 7)%Z, rel (u "do"))].
Example C158_feast :
  match_sub_template begins feast feast_pattern 1 5 =
  ([([(5, AStr (u "boy")); (6, AStr (u "eats")); (7, AStr (u "apple"))]%Z, [((6, 5)%Z, AStr (u "nsubj")); ((6, 7)%Z, AStr (u "dobj"))]);
    ([(5, AStr (u "boy")); (6, AStr (u "eats")); (7, AStr (u "ant"))]%Z, [((6, 5)%Z, AStr (u "nsubj")); ((6, 7)%Z, AStr (u "dobj"))])], Ok tt).
Proof. vm_compute. reflexivity. Qed.
(** Upwards twice; the walk may not go back to the word it came from, upwards or downwards; exceptions. *)
Definition plain (ns : list Z) (es : list (Z * Z)) : graph := Graph (map (fun v => (v, word [])) ns) (map (fun e => (e, rel [])) es).
Example C158_steps :
  match_sub_template begins (plain [3; 5; 4]%Z [(5, 3); (4, 5)]%Z) (plain [1; 2; 3]%Z [(2, 1); (3, 2)]%Z) 3 1 =
    ([([(1, AStr []); (2, AStr []); (3, AStr [])]%Z, [((2, 1)%Z, AStr []); ((3, 2)%Z, AStr [])])], Ok tt) /\
  match_sub_template begins (plain [1; 2]%Z [(1, 2)]%Z) (plain [1; 2; 3]%Z [(1, 2); (3, 2)]%Z) 1 1 = ([], Ok tt) /\
  match_sub_template begins (plain [1; 2]%Z [(2, 1)]%Z) (plain [1; 2; 3]%Z [(2, 1); (2, 3)]%Z) 1 1 = ([], Ok tt) /\
  match_sub_template begins (Graph [(1%Z, word (u "boy")); (2%Z, [])] [((2, 1)%Z, rel (u "nsubj"))]) feast_pattern 1 5 = ([], Err KeyError).
Proof. repeat split; vm_compute; reflexivity. Qed.
Example C159_values :
  sentence_repr (Graph [(0%Z, [(u "label", AInt 7)])] []) = Err TypeError /\ sentence_repr (Graph [(-1, word (u "b")); (0, word (u "a"))]%Z []) = Ok (u "a b") /\
  sentence_repr (Graph [(0, word (u "b")); (-2, word (u "a"))]%Z []) = Err TypeError.
Proof. repeat split; vm_compute; reflexivity. Qed.
Definition old_three : graph :=
  Graph [(1%Z, []); (2%Z, [(u "lemma", AStr (u "boy")); (u "pos", AStr (u "N"))]); (3%Z, [(u "lemma", AStr (u "eat")); (u "pos", AStr (u "V"))])] [].
Example C160_values :
  feature_old whole (fun m => Ok (Some m)) (fun ns es => Ok (join 32%N (ns ++ es))) old_three
    [(3%Z, [(u "lemma", AStr (u "eat")); (u "pos", AStr (u "V"))]); (1%Z, []); (2%Z, [(u "lemma", AStr (u "girl")); (u "pos", AStr (u "N"))])] [] =
  ([], Ok (u "/N eat/V")).
Proof. vm_compute. reflexivity. Qed.
