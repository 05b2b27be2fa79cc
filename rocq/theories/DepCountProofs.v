(** * Counting matches: the matrix built from them, one file, the pool. *)
From Coq Require Import String NArith ZArith Bool Arith Lia Permutation Sorted List.
From Verif Require Import Base BaseLemmas Str StrLemmas VocabModel CorpusModel CorpusSpec CorpusColProofs ParModel ParProofs ParUseProofs ParColProofs MxModel MxSpec MxProofs MxTtmProofs MxOpsProofs MxMergeProofs
  DepModel DepSpec DepMatchProofs DepEmbProofs DepMainProofs DepTotalProofs.
Import ListNotations.

(** ** A pool whose workers put one item per job *)
Section MapPool.
  Context {J R : Type} (job : unit -> J -> res (unit * option R)) (finish : unit -> res (option R)) (work : J -> res R).
  Hypothesis Hjob : forall s j, job s j = rmap (fun x => (tt, Some x)) (work j).
  Hypothesis Hfin : forall s, finish s = Ok None.

  Lemma mp_wexec : forall h s o, wexec job tt h = Ok (s, o) -> Forall2 (fun j x => work j = Ok x) h o.
  Proof.
    induction h as [|j h IH]; intros s o E; cbn in E; [injection E as <- <-; constructor|]. rewrite Hjob in E.
    destruct (work j) as [x|e] eqn:W; cbn in E; [|discriminate]. destruct (wexec job tt h) as [[s' o']|] eqn:E'; cbn in E; [|discriminate].
    injection E as <- <-. constructor; eauto.
  Qed.
  Lemma forall2_pairs {A B} (P : A -> B -> Prop) l l' : Forall2 P l l' -> exists cs, map fst cs = l /\ map snd cs = l' /\ Forall (fun c => P (fst c) (snd c)) cs.
  Proof.
    induction 1 as [|a b l l' H F (cs & <- & <- & G)]; [exists []; auto|]. exists ((a, b) :: cs). cbn. auto.
  Qed.
  Lemma mp_reach n files sched st : run job finish (start tt n files) sched = Some st ->
    exists cs rest, Permutation (map fst cs ++ rest) files /\ Forall (fun c => work (fst c) = Ok (snd c)) cs /\
      length (results st) <= length cs /\ (joined st = true -> Permutation (results st) (map snd cs)).
  Proof.
    intros E. destruct (reach tt job finish n files _ _ E) as (hp & js & k & HS & F & Q & P1 & P2 & N & B).
    assert (G : exists cs rest, Permutation (map fst cs ++ rest) (concat (map fst hp)) /\ Forall (fun c => work (fst c) = Ok (snd c)) cs /\ length (concat (map snd hp)) <= length cs /\
                 (forallb gone (workers st) = true -> Permutation (concat (map snd hp)) (map snd cs))).
    { clear - F Hjob Hfin. induction F as [|w [h p] ws hp O F IH]; [exists [], []; cbn; auto|].
      destruct IH as (cs & rest & A & W & B & C). cbn [fst snd] in O. cbn [map concat fst snd forallb].
      assert (X : exists c1 r1, h = map fst c1 ++ r1 /\ Forall (fun c => work (fst c) = Ok (snd c)) c1 /\ length p <= length c1 /\ (gone w = true -> p = map snd c1)).
      { inversion O; subst.
        - destruct (forall2_pairs _ _ _ (mp_wexec _ _ _ H)) as (c1 & <- & E & G). exists c1, []. rewrite app_nil_r. split; auto. split; auto. split; [|discriminate].
          rewrite <- (map_length snd c1), E, app_length. lia.
        - destruct (forall2_pairs _ _ _ (mp_wexec _ _ _ H)) as (c1 & <- & E & G). exists c1, []. rewrite app_nil_r. split; auto. split; auto. split; [|discriminate].
          rewrite Hfin in H0. injection H0 as <-. cbn in H1. rewrite app_nil_r in H1. rewrite <- (map_length snd c1), E, H1, app_length. lia.
        - destruct (forall2_pairs _ _ _ (mp_wexec _ _ _ H)) as (c1 & <- & E & G). exists c1, []. rewrite app_nil_r. rewrite Hfin in H0. injection H0 as <-. cbn.
          rewrite app_nil_r. split; auto. split; auto. split; auto. rewrite <- E, map_length. auto.
        - destruct (forall2_pairs _ _ _ (mp_wexec _ _ _ H)) as (c1 & <- & E & G). exists c1, [j]. split; auto. split; auto. split; auto. rewrite <- E, map_length. auto.
        - rewrite Hfin in H0. discriminate. }
      destruct X as (c1 & r1 & -> & X0 & X1 & X2). exists (c1 ++ cs), (r1 ++ rest). split; [|split; [|split]].
      - rewrite map_app, <- !app_assoc. apply Permutation_app_head. rewrite app_assoc, (Permutation_app_comm (map fst cs)).
        rewrite <- app_assoc. apply Permutation_app_head. auto.
      - apply Forall_app. auto.
      - rewrite !app_length. lia.
      - intros GG. apply andb_true_iff in GG. destruct GG as [G1 G2]. rewrite map_app, X2 by auto.
        apply Permutation_app_head; auto. }
    destruct G as (cs & rest & G1 & G0 & G2 & G3). exists cs, (rest ++ js). split; [|split; [|split]]; auto.
    - rewrite app_assoc. rewrite G1. auto.
    - rewrite (Permutation_length P2). auto.
    - intros Jn. unfold joined in Jn. destruct (todo st); [|discriminate]. rewrite P2. auto.
  Qed.
  (** If the reader gets its items, they are the results of all the jobs. *)
  Lemma mp_correct n files sched st items : run job finish (start tt n files) sched = Some st -> joined st = true ->
    read_n (length files) st = Some items ->
    exists outs, Forall2 (fun j x => work j = Ok x) files outs /\ Permutation items outs.
  Proof.
    intros E Jn Rv. destruct (mp_reach n files sched st E) as (cs & rest & P & W & LE & H). specialize (H Jn).
    unfold read_n in Rv. destruct (Nat.leb_spec (length files) (length (results st))) as [LL|]; [|discriminate].
    assert (LF : length files = length cs + length rest) by (rewrite <- (Permutation_length P), app_length, map_length; auto).
    destruct rest; [|cbn in LF; lia]. rewrite app_nil_r in P. symmetry in P. apply Permutation_map_inv in P. destruct P as (cs' & EF & PC).
    exists (map snd cs'). subst files. split.
    - apply (Permutation_Forall PC) in W. clear - W. induction W; cbn; auto.
    - injection Rv as <-. rewrite firstn_all2 by (rewrite (Permutation_length H), !map_length, (Permutation_length PC); auto). rewrite H. now apply Permutation_map.
  Qed.
  (** With a worker and jobs that do not raise, it gets them. *)
  Lemma mp_returns n files sched st : 1 <= n -> run job finish (start tt n files) sched = Some st -> joined st = true ->
    (forall j, In j files -> exists x, work j = Ok x) -> exists items, read_n (length files) st = Some items.
  Proof.
    intros N E Jn H. destruct (complete tt job finish n files sched st N E Jn) as (ps & F & P1 & P2).
    - intros s j e I. rewrite Hjob. destruct (H j I) as (x & ->). discriminate.
    - intros s e. rewrite Hfin. discriminate.
    - unfold read_n. assert (LP : length files <= length (results st)).
      { rewrite (Permutation_length P2), <- (Permutation_length P1). clear - F Hjob Hfin.
        induction F as [|h p hs ps H F IH]; cbn; auto. rewrite !app_length. destruct H as (s & o & f & A & B & ->).
        apply mp_wexec in A. apply Forall2_len in A. rewrite app_length. lia. }
      apply Nat.leb_le in LP. rewrite LP. eauto.
  Qed.
  (** If some job raises, the reader waits for ever. *)
  Lemma mp_blocks n files sched st : run job finish (start tt n files) sched = Some st -> joined st = true ->
    (exists j e, In j files /\ work j = Err e) -> read_n (length files) st = None.
  Proof.
    intros E Jn (j & e & I & W). destruct (read_n (length files) st) as [items|] eqn:Rv; auto. exfalso.
    destruct (mp_correct n files sched st items E Jn Rv) as (outs & F & _). destruct (Forall2_In_l _ _ _ _ F I) as (y & _ & X). congruence.
  Qed.
End MapPool.

(** ** The matrix of a list of (target, feature) pairs *)
Section Matrix.
  Lemma freq_snoc pairs x : freq_dict (pairs ++ [x]) = bump (freq_dict pairs) (fst x) (snd x).
  Proof. unfold freq_dict. rewrite fold_left_app. reflexivity. Qed.
  Lemma count_snoc {A} `{EqDec A} (x y : A) l : count x (l ++ [y]) = count x l + if eqb x y then 1 else 0.
  Proof. rewrite count_app. cbn. unfold eqb. destruct (eqdec x y); lia. Qed.
  Lemma freq_wf pairs : mxwf (freq_dict pairs) (map fst pairs) (map snd pairs) /\ (forall t c v, dget2 (freq_dict pairs) t c = Some v -> (0 < v)%Z) /\
    forall t c, cell (freq_dict pairs) t c = Z.of_nat (count (t, c) pairs).
  Proof.
    induction pairs as [|[t c] pairs (W & P & H)] using rev_ind.
    - split; [split; [constructor|intros r row []]|]. split; [cbn; discriminate|reflexivity].
    - rewrite freq_snoc. cbn [fst snd]. split; [|split].
      + rewrite !map_app. apply (bump_wf _ _ _ _ (map snd pairs)).
        * destruct W as [W1 W2]. split; auto. intros r row I. destruct (W2 r row I) as (A & B). split; auto. apply in_or_app; auto.
        * apply in_or_app. cbn. auto.
        * intros x I. apply in_or_app; auto.
        * apply in_or_app. cbn. auto.
      + now apply bump_pos.
      + intros t' c'. rewrite cell_bump, H, count_snoc.
        assert (X : eqb (t', c') (t, c) = eqb t t' && eqb c c').
        { unfold eqb. destruct (eqdec (t', c') (t, c)) as [E|E], (eqdec t t'), (eqdec c c'); try congruence; cbn; auto; exfalso; apply E; congruence. }
        rewrite X. destruct (eqb t t' && eqb c c'); lia.
  Qed.

  (** What the matrix of some pairs has to be *)
  Lemma dedup_in {A} `{EqDec A} (l : list A) x : In x (dedup l) <-> In x l.
  Proof. apply dedup_In. Qed.
  Lemma matrix_ok pairs : pairs <> [] -> exists X,
    rbind (dict_to_sp (freq_dict pairs) (isort sleb (dedup (map fst pairs))) (isort sleb (dedup (map snd pairs))))
          (fun mx => mk_ttm mx (isort sleb (dedup (map fst pairs))) (isort sleb (dedup (map snd pairs)))) = Ok X /\ counts_of pairs X.
  Proof.
    intros NE. destruct (freq_wf pairs) as (W & P & H).
    set (rows := isort sleb (dedup (map fst pairs))). set (cols := isort sleb (dedup (map snd pairs))).
    assert (NR : NoDup rows) by (eapply Permutation_NoDup; [apply isort_perm|apply dedup_NoDup]).
    assert (NC : NoDup cols) by (eapply Permutation_NoDup; [apply isort_perm|apply dedup_NoDup]).
    assert (IR : forall x, In x rows <-> In x (map fst pairs)) by (intros; unfold rows; rewrite isort_In; apply dedup_in).
    assert (IC : forall x, In x cols <-> In x (map snd pairs)) by (intros; unfold cols; rewrite isort_In; apply dedup_in).
    assert (W' : mxwf (freq_dict pairs) rows cols) by (eapply mxwf_incl; eauto; intros x; [apply IR|apply IC]).
    assert (CV : exists r c v, dget2 (freq_dict pairs) r c = Some v).
    { destruct pairs as [|[t c] ps]; [congruence|]. exists t, c. specialize (H t c). rewrite cell_dget2 in H. unfold oz in H. destruct (dget2 (freq_dict ((t, c) :: ps)) t c); [eauto|].
      exfalso. assert (I : In (t, c) ((t, c) :: ps)) by (left; auto). apply count_In in I. cbn [zero Num_Z] in H. unfold zero in H. cbn in H. cbn in I. lia. }
    destruct (roundtrip (freq_dict pairs) rows cols NR NC W' CV) as (s & d' & E1 & E2 & G & V & _). rewrite E1. cbn [rbind]. rewrite E2.
    exists (Ttm s rows cols). split; auto. split; auto. cbn [trows tcols]. split; [apply isort_sorted; [apply sleb_total|apply sleb_trans]|].
    split; [apply isort_sorted; [apply sleb_total|apply sleb_trans]|]. split; auto. split; auto. intros t c. rewrite V, <- cell_dget2. apply H.
  Qed.
  Lemma matrix_none : rbind (dict_to_sp (freq_dict []) (isort sleb (dedup (map fst (@nil (pystr * pystr))))) (isort sleb (dedup (map snd (@nil (pystr * pystr))))))
          (fun mx => mk_ttm mx (isort sleb (dedup (map fst (@nil (pystr * pystr))))) (isort sleb (dedup (map snd (@nil (pystr * pystr)))))) = Err ValueError.
  Proof. reflexivity. Qed.
End Matrix.

(** ** build_matrix_by_matches *)
Lemma rmapm_map {A B C} (f : B -> res C) (g : A -> B) l : rmapm f (map g l) = rmapm (fun x => f (g x)) l.
Proof. induction l as [|x l IH]; cbn [map rmapm]; auto. rewrite IH. reflexivity. Qed.
Lemma rmapm_app {A B} (f : A -> res B) a b : rmapm f (a ++ b) = rbind (rmapm f a) (fun x => rmap (app x) (rmapm f b)).
Proof.
  induction a as [|x a IH]; cbn [app rmapm]; [cbn; destruct (rmapm f b); reflexivity|]. destruct (f x); cbn; auto. rewrite IH. destruct (rmapm f a); cbn; auto. destruct (rmapm f b); auto.
Qed.
Lemma rflat_flat {A B C} (g : A -> B -> res C) (ls : A -> list B) ms :
  rflat (fun m => rmapm (g m) (ls m)) ms = rmapm (fun mr => g (fst mr) (snd mr)) (flat_map (fun m => map (pair m) (ls m)) ms).
Proof.
  unfold rflat. induction ms as [|m ms IH]; [reflexivity|]. cbn [flat_map rmapm]. rewrite rmapm_app, <- IH, rmapm_map. cbn [fst snd].
  destruct (rmapm (fun x => g m x) (ls m)) as [x|]; cbn; auto. destruct (rmapm _ ms); auto.
Qed.
Lemma rmapm_perm {A B} (f : A -> res B) l l' ys : Permutation l l' -> rmapm f l = Ok ys -> exists ys', rmapm f l' = Ok ys' /\ Permutation ys ys'.
Proof.
  intros P. revert ys. induction P as [|x l l' P IH|x y l|l l' l'' P1 IH1 P2 IH2]; intros ys E.
  - exists ys. auto.
  - cbn [rmapm] in *. destruct (f x) as [y|]; [|discriminate]. cbn in *. destruct (rmapm f l) as [zs|] eqn:El; [|discriminate]. cbn in E. injection E as <-.
    destruct (IH zs eq_refl) as (zs' & -> & P'). exists (y :: zs'). split; auto.
  - cbn [rmapm] in *. destruct (f y) as [y'|]; [|discriminate]. cbn in *. destruct (f x) as [x'|]; [|discriminate]. cbn in *. destruct (rmapm f l) as [zs|]; [|discriminate].
    cbn in *. injection E as <-. eexists. split; [reflexivity|]. constructor.
  - destruct (IH1 _ E) as (ys' & E1 & Q1). destruct (IH2 _ E1) as (ys'' & E2 & Q2). exists ys''. split; auto. etransitivity; eauto.
Qed.

Section Build.
  Context {M : Type} (re_match : pystr -> pystr -> option M) (re_group : M -> Z -> res (option pystr)).
  Definition tf (token : bool) (mr : macro * mrec) : res (pystr * pystr) :=
    rbind (target re_match re_group (fst mr) token (snd mr)) (fun t => rmap (pair t) (feature re_match re_group (fst mr) (snd mr))).
  Lemma match_pairs_all ms token : match_pairs re_match re_group ms token = rmapm (tf token) (all_matches ms).
  Proof.
    unfold match_pairs, all_matches. rewrite (rflat_flat (fun m r => tf token (m, r)) matched). f_equal.
  Qed.
  Lemma tf_ok token mr x : tf token mr = Ok x <-> target re_match re_group (fst mr) token (snd mr) = Ok (fst x) /\ feature re_match re_group (fst mr) (snd mr) = Ok (snd x).
  Proof.
    unfold tf. destruct (target re_match re_group (fst mr) token (snd mr)) as [t|]; cbn [rbind]; [|split; [discriminate|intros []; discriminate]].
    destruct (feature re_match re_group (fst mr) (snd mr)) as [c|]; cbn [rmap]; [|split; [discriminate|intros []; discriminate]].
    split; [intros E; injection E as <-; auto|]. intros [E1 E2]. destruct x. cbn in *. congruence.
  Qed.
  (** The matrix is that of the counts of the targets and features of all matches; without a match, ValueError. *)
  Lemma build_ok ms token pairs : Forall2 (fun mr x => target re_match re_group (fst mr) token (snd mr) = Ok (fst x) /\ feature re_match re_group (fst mr) (snd mr) = Ok (snd x)) (all_matches ms) pairs ->
    match pairs with
    | [] => build_matrix_by_matches re_match re_group ms token = Err ValueError
    | _ => exists X, build_matrix_by_matches re_match re_group ms token = Ok X /\ counts_of pairs X
    end.
  Proof.
    intros F. assert (E : match_pairs re_match re_group ms token = Ok pairs).
    { rewrite match_pairs_all. apply rmapm_forall2. eapply Forall2_weak; [|exact F]. intros a b. apply tf_ok. }
    unfold build_matrix_by_matches. rewrite E. cbn [rbind]. destruct pairs as [|x pairs]; [reflexivity|]. apply matrix_ok. discriminate.
  Qed.
  Lemma build_inv ms token X : build_matrix_by_matches re_match re_group ms token = Ok X ->
    exists pairs, Forall2 (fun mr x => target re_match re_group (fst mr) token (snd mr) = Ok (fst x) /\ feature re_match re_group (fst mr) (snd mr) = Ok (snd x)) (all_matches ms) pairs /\ counts_of pairs X.
  Proof.
    intros E. unfold build_matrix_by_matches in E. apply rbind_ok in E. destruct E as (pairs & E1 & E). exists pairs.
    rewrite match_pairs_all in E1. apply rmapm_ok in E1. split; [eapply Forall2_weak; [|exact E1]; intros a b; apply tf_ok|].
    destruct pairs as [|x pairs]; [rewrite matrix_none in E; discriminate|].
    destruct (matrix_ok (x :: pairs)) as (X' & E2 & H); [discriminate|]. rewrite E2 in E. injection E as <-. exact H.
  Qed.
  (** Equal up to the order of the matches *)
  Lemma sorted_unique l : forall l', StronglySorted (fun a b => sleb a b = true) l -> StronglySorted (fun a b => sleb a b = true) l' -> NoDup l -> NoDup l' -> (forall x, In x l <-> In x l') -> l = l'.
  Proof.
    induction l as [|x l IH]; intros [|y l'] S S' N N' H; auto.
    - exfalso. apply (H y). left; auto.
    - exfalso. apply (H x). left; auto.
    - inversion S; subst. inversion S'; subst. inversion N; subst. inversion N'; subst. rewrite Forall_forall in *.
      assert (x = y).
      { destruct (proj1 (H x) (or_introl eq_refl)) as [E|I]; auto. destruct (proj2 (H y) (or_introl eq_refl)) as [E|I']; auto. apply sleb_antisym; auto. }
      subst y. f_equal. apply IH; auto. intros z. split; intros I.
      + destruct (proj1 (H z) (or_intror I)) as [<-|]; auto. contradiction.
      + destruct (proj2 (H z) (or_intror I)) as [<-|]; auto. contradiction.
  Qed.
  Lemma counts_perm pairs pairs' X X' : Permutation pairs pairs' -> counts_of pairs X -> counts_of pairs' X' ->
    trows X = trows X' /\ tcols X = tcols X' /\ forall t c, val X t c = val X' t c.
  Proof.
    intros P (G & S1 & S2 & R & C & V) (G' & S1' & S2' & R' & C' & V'). split; [|split].
    - apply sorted_unique; auto; try apply G; try apply G'. intros x. rewrite R, R'. split; apply Permutation_in; apply Permutation_map; auto. now symmetry.
    - apply sorted_unique; auto; try apply G; try apply G'. intros x. rewrite C, C'. split; apply Permutation_in; apply Permutation_map; auto. now symmetry.
    - intros t c. rewrite V, V'. f_equal. now apply count_perm.
  Qed.
End Build.

(** ** Recorded matches do not influence matching *)
Definition bare (m : macro) : macro := with_matched m [].
Section Bare.
  Context {M : Type} (re_match : pystr -> pystr -> option M) (re_group : M -> Z -> res (option pystr)).
  Lemma subtree_matched S m l : forall fuel lms, subtree_match re_match S (with_matched m l) fuel lms = subtree_match re_match S m fuel lms.
  Proof.
    induction fuel as [|fuel IH]; intros lms; cbn [subtree_match]; destruct lms as [|lm0 lms]; auto.
    change (mdepth (with_matched m l)) with (mdepth m). destruct (length lm0 =? mdepth m); [reflexivity|].
    change (mgraph (with_matched m l)) with (mgraph m). match goal with |- rbind ?r _ = _ => destruct r as [x|] end; cbn [rbind]; auto.
  Qed.
  Lemma rmapm_ext {A B} (f g : A -> res B) l : (forall x, In x l -> f x = g x) -> rmapm f l = rmapm g l.
  Proof. induction l as [|x l IH]; intros H; cbn [rmapm]; auto. rewrite (H x) by (left; auto). rewrite IH; auto. intros; apply H; right; auto. Qed.
  Lemma tree_match_matched S m l : tree_match re_match S (with_matched m l) = tree_match re_match S m.
  Proof.
    unfold tree_match. change (mgraph (with_matched m l)) with (mgraph m). destruct (istree (sgraph S)); auto. destruct (mem 1%Z (nodes (mgraph m))); auto.
    destruct (get_root (mgraph m)) as [fr|]; auto. cbn [option_map]. f_equal. unfold rflat. f_equal. apply rmapm_ext. intros va _.
    change (mdepth (with_matched m l)) with (mdepth m). rewrite subtree_matched. reflexivity.
  Qed.
  Lemma preorder_matched m l r : forall fuel v, preorder re_match re_group (with_matched m l) r fuel v = preorder re_match re_group m r fuel v.
  Proof.
    induction fuel as [|fuel IH]; intros v; cbn [preorder]; auto. change (mgraph (with_matched m l)) with (mgraph m). destruct (succs (mgraph m) v) as [|a [|b ss]]; auto.
    - change (target_idx (with_matched m l)) with (target_idx m). change (succ_repr re_match re_group (with_matched m l) r v a) with (succ_repr re_match re_group m r v a).
      rewrite IH. reflexivity.
    - change (target_idx (with_matched m l)) with (target_idx m).
      change (fun succ : Z => rmap (fun en : pystr * pystr => (succ, join colon [fst en; snd en])) (succ_repr re_match re_group (with_matched m l) r v succ))
        with (fun succ : Z => rmap (fun en : pystr * pystr => (succ, join colon [fst en; snd en])) (succ_repr re_match re_group m r v succ)).
      destruct (rmapm _ (a :: b :: ss)) as [reps|]; cbn [rbind]; auto. f_equal. apply rmapm_ext. intros x _. rewrite IH. reflexivity.
  Qed.
  Lemma tf_bare token m r : tf re_match re_group token (bare m, r) = tf re_match re_group token (m, r).
  Proof.
    unfold tf. cbn [fst snd]. change (target re_match re_group (bare m) token r) with (target re_match re_group m token r). destruct (target _ _ m token r); auto. cbn [rbind].
    f_equal. unfold feature. change (feature_idx (bare m)) with (feature_idx m). destruct (feature_idx m =? -1)%Z; [|reflexivity].
    unfold feature_full. change (target_idx (bare m)) with (target_idx m). change (node_repr re_match re_group (bare m) 1%Z) with (node_repr re_match re_group m 1%Z).
    change (mgraph (bare m)) with (mgraph m). unfold bare. rewrite preorder_matched. reflexivity.
  Qed.

  (** ** _process_results *)
  Definition bare_matches (ms : list macro) : list (macro * mrec) := flat_map (fun m => map (pair (bare m)) (matched m)) ms.
  Definition item_matches (macros : list macro) (item : list (list mrec)) : list (macro * mrec) :=
    flat_map (fun mi => map (pair (bare (fst mi))) (snd mi)) (combine macros item).
  Lemma rmapm_bare token ms : rmapm (tf re_match re_group token) (bare_matches ms) = rmapm (tf re_match re_group token) (all_matches ms).
  Proof.
    unfold bare_matches, all_matches. induction ms as [|m ms IH]; auto. cbn [flat_map]. rewrite !rmapm_app, IH, !rmapm_map. 
    rewrite (rmapm_ext (fun x => tf re_match re_group token (bare m, x)) (fun x => tf re_match re_group token (m, x))); auto. intros; apply tf_bare.
  Qed.
  Lemma merge_bare macros : forall item, length item = length macros -> map bare (dep_merge macros item) = map bare macros.
  Proof. unfold dep_merge. induction macros as [|m ms IH]; intros [|x item] L; try discriminate; auto. cbn. f_equal. apply IH. now injection L. Qed.
  Lemma merge_matches macros : forall item, length item = length macros -> Permutation (bare_matches (dep_merge macros item)) (bare_matches macros ++ item_matches macros item).
  Proof.
    unfold bare_matches, item_matches, dep_merge. induction macros as [|m ms IH]; intros [|x item] L; try discriminate; cbn [combine map flat_map fst snd]; auto.
    change (bare (with_matched m (matched m ++ x))) with (bare m). cbn [matched with_matched]. rewrite map_app. injection L as L. rewrite (IH item L), <- !app_assoc.
    apply Permutation_app_head. rewrite !app_assoc. apply Permutation_app_tail. apply Permutation_app_comm.
  Qed.
  Lemma item_bare macros : forall macros' item, map bare macros = map bare macros' -> item_matches macros item = item_matches macros' item.
  Proof.
    unfold item_matches. induction macros as [|m ms IH]; intros [|m' ms'] item E; try discriminate; auto.
    cbn [map] in E. assert (E1 : bare m = bare m') by congruence. assert (E2 : map bare ms = map bare ms') by congruence.
    destruct item as [|x item]; auto. cbn [combine flat_map fst snd]. rewrite E1, (IH ms' item E2). reflexivity.
  Qed.
  Lemma process_matches items : forall macros, Forall (fun item => length item = length macros) items ->
    Permutation (bare_matches (dep_process_results macros items)) (bare_matches macros ++ flat_map (item_matches macros) items).
  Proof.
    induction items as [|x items IH]; intros macros F; cbn [dep_process_results fold_left flat_map]; [now rewrite app_nil_r|].
    inversion F; subst. change (fold_left dep_merge items (dep_merge macros x)) with (dep_process_results (dep_merge macros x) items).
    pose proof (merge_bare macros x H1) as B. rewrite IH.
    - rewrite (merge_matches macros x H1), <- app_assoc. apply Permutation_app_head. apply Permutation_app_head. 
      rewrite (flat_map_ext _ _ (fun i => item_bare _ _ i B)). reflexivity.
    - apply (f_equal (@length _)) in B. rewrite !map_length in B. rewrite B. exact H2.
  Qed.
End Bare.

(** ** One file *)
Section Job.
  Context {L LM : Type} (match_line : L -> option LM) (separator : L -> bool) (get_col : LM -> pystr -> pystr) (f : fmt).
  Context {M : Type} (re_match : pystr -> pystr -> option M).
  Lemma omapm_ok {A B} (g : A -> option (res B)) l : forall ys, omapm g l = Some (Ok ys) <-> Forall2 (fun x y => g x = Some (Ok y)) l ys.
  Proof.
    induction l as [|x l IH]; intros ys; cbn [omapm].
    - split; [intros E; injection E as <-; constructor|]. intros F. inversion F; auto.
    - destruct (g x) as [[y|e]|] eqn:G.
      + split.
        * intros E. destruct (omapm g l) as [[zs|e]|] eqn:El; try discriminate. cbn in E. injection E as <-. constructor; auto. now apply IH.
        * intros F. inversion F as [|? y' ? ys' G' F']; subst. apply IH in F'. rewrite F'. cbn. congruence.
      + split; [discriminate|]. intros F. inversion F; congruence.
      + split; [discriminate|]. intros F. inversion F; congruence.
  Qed.
  (** [m'] is [m] with the matches of [sgs] appended. *)
  Definition extended (sgs : list sentence) (m m' : macro) : Prop :=
    exists rss, Forall2 (fun sg rs => tree_match re_match sg m = Some (Ok rs)) sgs rss /\ m' = with_matched m (matched m ++ concat rss).
  Lemma with_matched_id m : with_matched m (matched m) = m.
  Proof. destruct m; reflexivity. Qed.
  Lemma match_sentences_ok token fid ss : forall macros ms,
    match_sentences match_line get_col f re_match token fid ss macros = Some (Ok ms) <->
    exists sgs, Forall2 (fun s sg => sentence_graph match_line get_col f token fid s = Ok sg) ss sgs /\ Forall2 (extended sgs) macros ms.
  Proof.
    assert (Refl : forall macros, Forall2 (extended []) macros macros).
    { induction macros as [|m macros IH]; constructor; auto. exists []. split; [constructor|]. cbn [concat]. rewrite app_nil_r. symmetry. apply with_matched_id. }
    assert (Uniq : forall macros ms, Forall2 (extended []) macros ms -> ms = macros).
    { induction 1 as [|m m' macros ms (rss & F & ->) _ IH]; auto. inversion F; subst. cbn [concat]. rewrite app_nil_r, with_matched_id. reflexivity. }
    assert (Comp : forall sg sgs macros m1 ms, Forall2 (extended [sg]) macros m1 -> Forall2 (extended sgs) m1 ms -> Forall2 (extended (sg :: sgs)) macros ms).
    { intros sg sgs macros m1 ms F. revert ms. induction F as [|m m' macros m1 (rss & F1 & ->) F IH]; intros ms G; inversion G as [|? m2 ? ms' (rss2 & F2 & ->) G']; subst; constructor; auto.
      inversion F1 as [|? rs ? ? F11 F12]; subst. inversion F12; subst. exists (rs :: rss2). split.
      - constructor; auto. eapply Forall2_weak; [|exact F2]. intros s r. cbn beta. rewrite tree_match_matched. auto.
      - cbn [concat matched with_matched]. rewrite app_nil_r, app_assoc. reflexivity. }
    assert (Dec : forall sg sgs macros ms, Forall2 (extended (sg :: sgs)) macros ms -> exists m1, Forall2 (extended [sg]) macros m1 /\ Forall2 (extended sgs) m1 ms).
    { intros sg sgs macros ms F. induction F as [|m m' macros ms (rss & F1 & ->) F (m1 & G1 & G2)]; [exists []; auto|].
      inversion F1 as [|? rs ? rss' F11 F12]; subst. exists (with_matched m (matched m ++ rs) :: m1). split; constructor; auto.
      - exists [rs]. split; [constructor; auto|]. cbn [concat]. now rewrite app_nil_r.
      - exists rss'. split; [eapply Forall2_weak; [|exact F12]; intros s r; cbn beta; rewrite tree_match_matched; auto|]. cbn [concat matched with_matched]. now rewrite <- app_assoc. }
    assert (One : forall sg macros m1, Forall2 (fun x y => match_macro re_match sg x = Some (Ok y)) macros m1 <-> Forall2 (extended [sg]) macros m1).
    { intros sg macros m1. split; (intros F; eapply Forall2_weak; [|exact F]); intros m m'; cbn beta.
      - intros E. unfold match_macro in E. destruct (tree_match re_match sg m) as [[rs|]|] eqn:T; try discriminate. cbn in E. injection E as <-.
        exists [rs]. split; [constructor; auto|]. cbn [concat]. now rewrite app_nil_r.
      - intros (rss & F1 & ->). inversion F1 as [|? rs ? ? F11 F12]; subst. inversion F12; subst. unfold match_macro. rewrite F11. cbn. now rewrite app_nil_r. }
    assert (NoTree : forall sg macros m1, istree (sgraph sg) = false -> Forall2 (extended [sg]) macros m1 <-> m1 = macros).
    { intros sg macros m1 T. split.
      - induction 1 as [|m m' ms ms' (rss & F & ->) _ IH]; auto. inversion F as [|? rs ? ? F11 F12]; subst. inversion F12; subst. unfold tree_match in F11. rewrite T in F11. injection F11 as <-.
        cbn [concat app]. rewrite app_nil_r, with_matched_id. reflexivity.
      - intros ->. induction macros as [|m macros IH]; constructor; auto. exists [[]]. split; [constructor; auto; unfold tree_match; now rewrite T|]. cbn. rewrite app_nil_r. symmetry. apply with_matched_id. }
    induction ss as [|s ss IH]; intros macros ms; cbn [match_sentences].
    - split.
      + intros E. injection E as <-. exists []. auto.
      + intros (sgs & F & G). inversion F; subst. apply Uniq in G. now subst.
    - destruct (sentence_graph match_line get_col f token fid s) as [sg|e] eqn:Sg.
      + destruct (istree (sgraph sg)) eqn:T.
        * destruct (omapm (match_macro re_match sg) macros) as [[m1|e]|] eqn:O.
          -- apply omapm_ok, One in O. rewrite IH. split.
             ++ intros (sgs & F & G). exists (sg :: sgs). split; [constructor; auto|]. eapply Comp; eauto.
             ++ intros (sgs & F & G). inversion F as [|? sg' ? sgs' F1 F2]; subst. rewrite Sg in F1. injection F1 as <-. apply Dec in G. destruct G as (m2 & G1 & G2).
                exists sgs'. split; auto. apply One, omapm_ok in G1. apply One, omapm_ok in O. rewrite O in G1. injection G1 as <-. exact G2.
          -- split; [discriminate|]. intros (sgs & F & G). inversion F as [|? sg' ? sgs' F1 F2]; subst. rewrite Sg in F1. injection F1 as <-. apply Dec in G. destruct G as (m2 & G1 & G2).
             apply One, omapm_ok in G1. congruence.
          -- split; [discriminate|]. intros (sgs & F & G). inversion F as [|? sg' ? sgs' F1 F2]; subst. rewrite Sg in F1. injection F1 as <-. apply Dec in G. destruct G as (m2 & G1 & G2).
             apply One, omapm_ok in G1. congruence.
        * rewrite IH. split.
          -- intros (sgs & F & G). exists (sg :: sgs). split; [constructor; auto|]. eapply Comp; [|exact G]. now apply NoTree.
          -- intros (sgs & F & G). inversion F as [|? sg' ? sgs' F1 F2]; subst. rewrite Sg in F1. injection F1 as <-. apply Dec in G. destruct G as (m2 & G1 & G2). apply NoTree in G1; auto. subst m2. eauto.
      + split; [discriminate|]. intros (sgs & F & G). inversion F; subst. congruence.
  Qed.
  Definition targeted (targets : option (list pystr)) (m : macro) : macro := with_filter m (Some (handler_targets targets)).
  Lemma dep_job_ok token targets macros fid lines ms :
    dep_job match_line separator get_col f re_match token targets macros fid lines = Some (Ok ms) <->
    exists sgs, Forall2 (fun s sg => sentence_graph match_line get_col f token fid s = Ok sg) (read_sentence match_line separator lines) sgs /\
      Forall2 (fun m m' => extended sgs (targeted targets m) m') macros ms.
  Proof.
    unfold dep_job. rewrite match_sentences_ok. split; intros (sgs & F & G); exists sgs; (split; auto).
    - clear F. revert ms G. induction macros as [|m macros IH]; intros ms G; inversion G; subst; constructor; auto.
    - induction G; constructor; auto.
  Qed.

  (** ** The pool *)
  Variable re_group : M -> Z -> res (option pystr).
  Definition work token targets macros (file : pystr * res (list L)) : res (list (list mrec)) :=
    rbind (snd file) (fun lines => match dep_job match_line separator get_col f re_match token targets macros (fst file) lines with
                                   | Some r => rmap (map matched) r
                                   | None => Err TypeError
                                   end).
  Lemma job_work token targets macros s file : dep_pool_job match_line separator get_col f re_match token targets macros s file = rmap (fun x => (tt, Some x)) (work token targets macros file).
  Proof.
    unfold dep_pool_job, work. destruct (snd file) as [lines|]; cbn [rbind rmap]; auto. destruct (dep_job _ _ _ _ _ _ _ _ _ _) as [[ms|]|]; auto.
  Qed.
  Lemma work_ok token targets macros file x : work token targets macros file = Ok x <->
    exists lines ms, snd file = Ok lines /\ dep_job match_line separator get_col f re_match token targets macros (fst file) lines = Some (Ok ms) /\ x = map matched ms.
  Proof.
    unfold work. split.
    - intros E. apply rbind_ok in E. destruct E as (lines & E1 & E). destruct (dep_job _ _ _ _ _ _ _ _ _ lines) as [r|] eqn:J; [|discriminate].
      apply rmap_ok in E. destruct E as (ms & -> & ->). exists lines, ms. auto.
    - intros (lines & ms & -> & E & ->). cbn [rbind]. rewrite E. reflexivity.
  Qed.
  Lemma extended_bare sgs targets m m' : extended sgs (targeted targets m) m' -> forall token r, tf re_match re_group token (m', r) = tf re_match re_group token (bare m, r).
  Proof.
    intros (rss & _ & ->) token r. rewrite <- tf_bare. change (bare (with_matched (targeted targets m) (matched (targeted targets m) ++ concat rss))) with (bare (targeted targets m)).
    rewrite tf_bare. unfold tf. cbn [fst snd]. change (target re_match re_group (targeted targets m) token r) with (target re_match re_group (bare m) token r).
    destruct (target _ _ (bare m) token r); cbn [rbind]; auto. f_equal. unfold feature. change (feature_idx (targeted targets m)) with (feature_idx (bare m)).
    destruct (feature_idx (bare m) =? -1)%Z; [|reflexivity]. unfold feature_full.
    change (target_idx (targeted targets m)) with (target_idx (bare m)). change (node_repr re_match re_group (targeted targets m) 1%Z) with (node_repr re_match re_group (bare m) 1%Z).
    change (mgraph (targeted targets m)) with (mgraph (bare m)).
    assert (X : forall fuel v, preorder re_match re_group (targeted targets m) r fuel v = preorder re_match re_group (bare m) r fuel v).
    { induction fuel as [|fuel IH]; intros v; cbn [preorder]; auto. change (mgraph (targeted targets m)) with (mgraph (bare m)). destruct (succs (mgraph (bare m)) v) as [|a0 [|b0 ss]]; auto.
      - change (target_idx (targeted targets m)) with (target_idx (bare m)). change (succ_repr re_match re_group (targeted targets m) r v a0) with (succ_repr re_match re_group (bare m) r v a0).
        rewrite IH. reflexivity.
      - change (target_idx (targeted targets m)) with (target_idx (bare m)).
        change (fun succ : Z => rmap (fun en : pystr * pystr => (succ, join colon [fst en; snd en])) (succ_repr re_match re_group (targeted targets m) r v succ))
          with (fun succ : Z => rmap (fun en : pystr * pystr => (succ, join colon [fst en; snd en])) (succ_repr re_match re_group (bare m) r v succ)).
        destruct (rmapm _ (a0 :: b0 :: ss)) as [reps|]; cbn [rbind]; auto. f_equal. apply rmapm_ext. intros x _. rewrite IH. reflexivity. }
    rewrite X. reflexivity.
  Qed.
  Lemma job_len token targets macros fid lines ms : dep_job match_line separator get_col f re_match token targets macros fid lines = Some (Ok ms) -> length ms = length macros.
  Proof. intros E. apply dep_job_ok in E. destruct E as (sgs & _ & F). symmetry. eapply Forall2_len; eauto. Qed.
  Lemma job_item token token' targets macros fid lines ms : dep_job match_line separator get_col f re_match token targets macros fid lines = Some (Ok ms) ->
    rmapm (tf re_match re_group token') (item_matches macros (map matched ms)) = rmapm (tf re_match re_group token') (all_matches ms).
  Proof.
    intros E. apply dep_job_ok in E. destruct E as (sgs & _ & F). unfold item_matches, all_matches.
    induction F as [|m m' macros ms H F IH]; auto. cbn [map combine flat_map fst snd]. rewrite !rmapm_app, IH, !rmapm_map.
    rewrite (rmapm_ext (fun x => tf re_match re_group token' (bare m, x)) (fun x => tf re_match re_group token' (m', x))); auto.
    intros x _. symmetry. eapply extended_bare; eauto.
  Qed.
  (** What the merged macros give *)
  Lemma merged_pairs token token' targets macros files items outs mss :
    Forall2 (fun file ms => exists lines, snd file = Ok lines /\ dep_job match_line separator get_col f re_match token targets macros (fst file) lines = Some (Ok ms)) files mss ->
    outs = map (map matched) mss -> Permutation items outs ->
    forall pairs, rmapm (tf re_match re_group token') (all_matches macros ++ flat_map all_matches mss) = Ok pairs ->
    exists pairs', rmapm (tf re_match re_group token') (all_matches (dep_process_results macros items)) = Ok pairs' /\ Permutation pairs pairs'.
  Proof.
    intros F -> P pairs E.
    assert (Len : Forall (fun item => length item = length macros) items).
    { eapply Permutation_Forall; [symmetry; exact P|]. clear - F. induction F as [|file ms files mss (lines & _ & J) F IH]; cbn; constructor; auto. rewrite map_length. eapply job_len; eauto. }
    assert (E2 : rmapm (tf re_match re_group token') (bare_matches macros ++ flat_map (item_matches macros) (map (map matched) mss)) = Ok pairs).
    { rewrite <- E, !rmapm_app, rmapm_bare. f_equal. enough (X : rmapm (tf re_match re_group token') (flat_map (item_matches macros) (map (map matched) mss)) = rmapm (tf re_match re_group token') (flat_map all_matches mss)) by now rewrite X.
      clear - F. induction F as [|file ms files mss (lines & _ & J) F IH]; auto. cbn [map flat_map]. rewrite !rmapm_app, IH, (job_item _ _ _ _ _ _ _ J). reflexivity. }
    assert (Q : Permutation (bare_matches macros ++ flat_map (item_matches macros) (map (map matched) mss)) (bare_matches (dep_process_results macros items))).
    { rewrite (process_matches items macros Len). apply Permutation_app_head. apply Permutation_flat_map. now symmetry. }
    destruct (rmapm_perm _ _ _ _ Q E2) as (pairs' & E3 & P3). exists pairs'. rewrite <- rmapm_bare. auto.
  Qed.

  Lemma works_files token targets macros files mss :
    Forall2 (fun file ms => exists lines, snd file = Ok lines /\ dep_job match_line separator get_col f re_match token targets macros (fst file) lines = Some (Ok ms)) files mss ->
    Forall2 (fun j x => work token targets macros j = Ok x) files (map (map matched) mss).
  Proof. induction 1 as [|file ms files mss (lines & A & B) F IH]; cbn; constructor; auto. apply work_ok. eauto. Qed.
  Lemma files_works token targets macros files outs :
    Forall2 (fun j x => work token targets macros j = Ok x) files outs -> exists mss, outs = map (map matched) mss /\
    Forall2 (fun file ms => exists lines, snd file = Ok lines /\ dep_job match_line separator get_col f re_match token targets macros (fst file) lines = Some (Ok ms)) files mss.
  Proof.
    induction 1 as [|file x files outs W F (mss & -> & IH)]; [exists []; auto|]. apply work_ok in W. destruct W as (lines & ms & A & B & ->). exists (ms :: mss). split; auto. constructor; eauto.
  Qed.
  Lemma forall2_fun {A B} (P : A -> B -> Prop) l l1 l2 : (forall a b c, P a b -> P a c -> b = c) -> Forall2 P l l1 -> Forall2 P l l2 -> l1 = l2.
  Proof. intros H F. revert l2. induction F; intros l2 G; inversion G; subst; auto. f_equal; eauto. Qed.

  Notation pjob token targets macros := (dep_pool_job match_line separator get_col f re_match token targets macros).
  Lemma pool_result token targets macros files mss nw sched st : 1 <= nw ->
    Forall2 (fun file ms => exists lines, snd file = Ok lines /\ dep_job match_line separator get_col f re_match token targets macros (fst file) lines = Some (Ok ms)) files mss ->
    run (pjob token targets macros) dep_finish (start tt nw files) sched = Some st -> joined st = true ->
    forall pairs, Forall2 (fun mr x => target re_match re_group (fst mr) token (snd mr) = Ok (fst x) /\ feature re_match re_group (fst mr) (snd mr) = Ok (snd x)) (all_matches macros ++ flat_map all_matches mss) pairs ->
    match pairs with
    | [] => dep_result re_match re_group token macros (length files) st = Some (Err ValueError)
    | _ => exists X, dep_result re_match re_group token macros (length files) st = Some (Ok X) /\ counts_of pairs X
    end.
  Proof.
    intros N F E Jn pairs FP.
    assert (W : forall j, In j files -> exists x, work token targets macros j = Ok x).
    { intros j I. apply works_files in F. destruct (Forall2_In_l _ _ _ _ F I) as (y & _ & Y). eauto. }
    destruct (mp_returns (pjob token targets macros) dep_finish (work token targets macros) (job_work token targets macros) (fun _ => eq_refl) nw files sched st N E Jn W) as (items & Rv).
    destruct (mp_correct (pjob token targets macros) dep_finish (work token targets macros) (job_work token targets macros) (fun _ => eq_refl) nw files sched st items E Jn Rv) as (outs & Fo & P).
    assert (X : outs = map (map matched) mss).
    { apply works_files in F. eapply forall2_fun; [|exact Fo|exact F]. intros a b c. cbn beta. congruence. }
    assert (Ep : rmapm (tf re_match re_group token) (all_matches macros ++ flat_map all_matches mss) = Ok pairs).
    { apply rmapm_forall2. eapply Forall2_weak; [|exact FP]. intros a b. apply tf_ok. }
    destruct (merged_pairs token token targets macros files items outs mss F X P pairs Ep) as (pairs' & E1 & P1).
    unfold dep_result. rewrite Rv. cbn [option_map]. 
    apply rmapm_ok in E1. assert (E2 : Forall2 (fun mr x => target re_match re_group (fst mr) token (snd mr) = Ok (fst x) /\ feature re_match re_group (fst mr) (snd mr) = Ok (snd x)) (all_matches (dep_process_results macros items)) pairs').
    { eapply Forall2_weak; [|exact E1]. intros a b. apply tf_ok. }
    apply build_ok in E2. destruct pairs as [|x pairs].
    - apply Permutation_nil in P1. subst pairs'. now rewrite E2.
    - destruct pairs' as [|x' pairs']; [symmetry in P1; apply Permutation_nil in P1; discriminate|]. destruct E2 as (X0 & -> & C). exists X0. split; auto.
      destruct C as (G & S1 & S2 & R & C & V). split; [|split; [|split; [|split; [|split]]]]; auto.
      + intros t. rewrite R. split; apply Permutation_in; apply Permutation_map; auto. now symmetry.
      + intros t. rewrite C. split; apply Permutation_in; apply Permutation_map; auto. now symmetry.
      + intros t c. rewrite V. f_equal. apply count_perm. now symmetry.
  Qed.
  (** Any two runs, with the files in any order *)
  Definition same_result (a b : option (res (ttm Z))) : Prop :=
    match a, b with
    | None, None => True
    | Some (Err _), Some (Err _) => True
    | Some (Ok X), Some (Ok X') => trows X = trows X' /\ tcols X = tcols X' /\ forall t c, val X t c = val X' t c
    | _, _ => False
    end.
  Lemma all_or_one {A B} (w : A -> res B) l : (exists ys, Forall2 (fun x y => w x = Ok y) l ys) \/ exists x e, In x l /\ w x = Err e.
  Proof.
    induction l as [|x l [(ys & F)|(y & e & I & E)]]; [left; exists []; auto| |right; exists y, e; cbn; auto].
    destruct (w x) as [y|e] eqn:W; [left; exists (y :: ys); auto|right; exists x, e; cbn; auto].
  Qed.
  Lemma forall2_perm {A B} (P : A -> B -> Prop) l l' : Permutation l l' -> forall ys, Forall2 P l ys -> exists ys', Forall2 P l' ys' /\ Permutation ys ys'.
  Proof.
    induction 1 as [|x l l' Q IH|x y l|l l' l'' Q1 IH1 Q2 IH2]; intros ys F.
    - exists ys. auto.
    - inversion F; subst. destruct (IH _ H3) as (ys' & F' & Q'). eexists. split; [constructor; eauto|]. auto.
    - inversion F; subst. inversion H3; subst. eexists. split; [constructor; [eassumption|constructor; eassumption]|]. constructor.
    - destruct (IH1 _ F) as (y1 & F1 & R1). destruct (IH2 _ F1) as (y2 & F2 & R2). exists y2. split; auto. etransitivity; eauto.
  Qed.
  Lemma pool_independent token targets macros files files' nw nw' sched sched' st st' : 1 <= nw -> 1 <= nw' -> Permutation files files' ->
    run (pjob token targets macros) dep_finish (start tt nw files) sched = Some st -> joined st = true ->
    run (pjob token targets macros) dep_finish (start tt nw' files') sched' = Some st' -> joined st' = true ->
    same_result (dep_result re_match re_group token macros (length files) st) (dep_result re_match re_group token macros (length files') st').
  Proof.
    intros N N' P E Jn E' Jn'.
    destruct (all_or_one (work token targets macros) files) as [(outs & F)|(j & e & I & W)].
    - destruct (files_works _ _ _ _ _ F) as (mss & -> & FM). destruct (forall2_perm _ _ _ P _ FM) as (mss' & FM' & PM).
      destruct (rmapm (tf re_match re_group token) (all_matches macros ++ flat_map all_matches mss)) as [pairs|e] eqn:Ep.
      + assert (Q : Permutation (all_matches macros ++ flat_map all_matches mss) (all_matches macros ++ flat_map all_matches mss')) by (apply Permutation_app_head, Permutation_flat_map; auto).
        destruct (rmapm_perm _ _ _ _ Q Ep) as (pairs' & Ep' & PP). apply rmapm_ok in Ep, Ep'.
        pose proof (pool_result token targets macros files mss nw sched st N FM E Jn pairs) as A. pose proof (pool_result token targets macros files' mss' nw' sched' st' N' FM' E' Jn' pairs') as B.
        specialize (A (Forall2_weak _ _ _ _ (fun a b => proj1 (tf_ok re_match re_group token a b)) Ep)). specialize (B (Forall2_weak _ _ _ _ (fun a b => proj1 (tf_ok re_match re_group token a b)) Ep')).
        destruct pairs as [|x pairs].
        * apply Permutation_nil in PP. subst pairs'. rewrite A, B. exact I.
        * destruct pairs' as [|x' pairs']; [symmetry in PP; apply Permutation_nil in PP; discriminate|]. destruct A as (X & -> & CA), B as (X' & -> & CB). cbn [same_result]. eapply counts_perm; eauto.
      + assert (K : forall files0 mss0 nw0 sched0 st0, 1 <= nw0 -> Permutation mss mss0 ->
           Forall2 (fun file ms => exists lines, snd file = Ok lines /\ dep_job match_line separator get_col f re_match token targets macros (fst file) lines = Some (Ok ms)) files0 mss0 ->
           run (pjob token targets macros) dep_finish (start tt nw0 files0) sched0 = Some st0 -> joined st0 = true ->
           exists e', dep_result re_match re_group token macros (length files0) st0 = Some (Err e')).
        { intros files0 mss0 nw0 sched0 st0 N0 PM0 F0 E0 J0.
          assert (W : forall j, In j files0 -> exists x, work token targets macros j = Ok x).
          { intros j I. pose proof (works_files _ _ _ _ _ F0) as F1. destruct (Forall2_In_l _ _ _ _ F1 I) as (y & _ & Y). eauto. }
          destruct (mp_returns (pjob token targets macros) dep_finish (work token targets macros) (job_work token targets macros) (fun _ => eq_refl) nw0 files0 sched0 st0 N0 E0 J0 W) as (items & Rv).
          destruct (mp_correct (pjob token targets macros) dep_finish (work token targets macros) (job_work token targets macros) (fun _ => eq_refl) nw0 files0 sched0 st0 items E0 J0 Rv) as (outs & Fo & Po).
          assert (X : outs = map (map matched) mss0).
          { apply works_files in F0. eapply forall2_fun; [|exact Fo|exact F0]. intros a b c. cbn beta. congruence. }
          unfold dep_result. rewrite Rv. cbn [option_map]. destruct (build_matrix_by_matches re_match re_group (dep_process_results macros items) token) as [Y|e'] eqn:Bm; [|eauto]. exfalso.
          unfold build_matrix_by_matches in Bm. apply rbind_ok in Bm. destruct Bm as (pairs & E1 & _). rewrite match_pairs_all, <- rmapm_bare in E1.
          assert (Len : Forall (fun item => length item = length macros) items).
          { eapply Permutation_Forall; [symmetry; exact Po|]. subst outs. clear - F0. induction F0 as [|file ms files mss (lines & _ & J) F IH]; cbn; constructor; auto. rewrite map_length. eapply job_len; eauto. }
          assert (Q : Permutation (bare_matches (dep_process_results macros items)) (bare_matches macros ++ flat_map (item_matches macros) (map (map matched) mss))).
          { rewrite (process_matches items macros Len). apply Permutation_app_head. apply Permutation_flat_map. subst outs. rewrite Po. apply Permutation_map. now symmetry. }
          destruct (rmapm_perm _ _ _ _ Q E1) as (pairs' & E3 & _).
          assert (E4 : rmapm (tf re_match re_group token) (bare_matches macros ++ flat_map (item_matches macros) (map (map matched) mss)) = rmapm (tf re_match re_group token) (all_matches macros ++ flat_map all_matches mss)).
          { rewrite !rmapm_app, rmapm_bare. f_equal. enough (Z : rmapm (tf re_match re_group token) (flat_map (item_matches macros) (map (map matched) mss)) = rmapm (tf re_match re_group token) (flat_map all_matches mss)) by now rewrite Z.
            clear - FM. induction FM as [|file ms files mss (lines & _ & J) F IH]; auto. cbn [map flat_map]. rewrite !rmapm_app, IH, (job_item _ _ _ _ _ _ _ J). reflexivity. }
          congruence. }
        destruct (K files mss nw sched st N (Permutation_refl _) FM E Jn) as (e1 & ->). destruct (K files' mss' nw' sched' st' N' PM FM' E' Jn') as (e2 & ->). exact I.
    - unfold dep_result. rewrite (mp_blocks (pjob token targets macros) dep_finish (work token targets macros) (job_work token targets macros) (fun _ => eq_refl) nw files sched st E Jn) by eauto.
      rewrite (mp_blocks (pjob token targets macros) dep_finish (work token targets macros) (job_work token targets macros) (fun _ => eq_refl) nw' files' sched' st' E' Jn'); [exact Logic.I|].
      exists j, e. split; auto. eapply Permutation_in; eauto.
  Qed.
End Job.
