(** * Proofs: sentences of a file, the graph of a sentence, and the target filter. *)
From Coq Require Import String NArith ZArith Bool Arith Permutation Lia List.
From Verif Require Import Base BaseLemmas Str VocabModel CorpusModel ParModel MxModel MxSpec DepModel DepSpec DepGraphProofs DepMatchProofs DepEmbProofs DepMainProofs DepTotalProofs DepCountProofs.
Import ListNotations.

Section Read.
  Context {L LM : Type} (match_line : L -> option LM) (separator : L -> bool).
  Notation good := (fun il : nat * L => is_some (match_line (snd il))).
  Fixpoint segs (lid : nat) (cur : list (nat * L)) (lines : list L) : list (list (nat * L)) :=
    match lines with
    | [] => if 0 <? length cur then [cur] else []
    | l :: ls => let cur' := if is_some (match_line l) then cur ++ [(S lid, l)] else cur in
                 if separator l then cur' :: segs (S lid) [] ls else segs (S lid) cur' ls
    end.
  Lemma segs_fold lines : forall lid cur out,
    (let '(_, sentence, out) := fold_left (rs_step match_line separator) lines (lid, cur, out) in if 0 <? length sentence then out ++ [sentence] else out) = out ++ segs lid cur lines.
  Proof.
    induction lines as [|l ls IH]; intros lid cur out; cbn [fold_left segs].
    - destruct (0 <? length cur); [reflexivity|]. now rewrite app_nil_r.
    - cbn [rs_step]. destruct (separator l); rewrite IH; [|reflexivity]. now rewrite <- app_assoc.
  Qed.
  Lemma segs_read lines : read_sentence match_line separator lines = segs 0 [] lines.
  Proof. apply (segs_fold lines 0 [] []). Qed.
  Notation num lid ls := (combine (seq (S lid) (length ls)) ls).
  Lemma segs_concat lines : forall lid cur, concat (segs lid cur lines) = cur ++ filter good (num lid lines).
  Proof.
    induction lines as [|l ls IH]; intros lid cur; cbn [segs length seq combine filter snd].
    - destruct cur; cbn; now rewrite ?app_nil_r.
    - destruct (separator l); cbn [concat]; rewrite IH; destruct (is_some (match_line l)); cbn [app]; rewrite <- ?app_assoc; reflexivity.
  Qed.
  Lemma num_ge lid ls k (x : L) : In (k, x) (num lid ls) -> S lid <= k.
  Proof. intros I. apply in_combine_l in I. apply in_seq in I. lia. Qed.
  Lemma segs_ge lines lid cur s k x : In s (segs lid cur lines) -> In (k, x) s -> In (k, x) cur \/ S lid <= k.
  Proof.
    intros I J. assert (In (k, x) (concat (segs lid cur lines))) by (apply in_concat; eauto). rewrite segs_concat in H. apply in_app_iff in H.
    destruct H as [H|H]; auto. right. apply filter_In in H. eapply num_ge. exact (proj1 H).
  Qed.
  Lemma segs_sep lines : forall lid cur s i a j b, (forall k x, In (k, x) cur -> k <= lid) -> In s (segs lid cur lines) -> In (i, a) s -> In (j, b) s -> i < j -> lid < j ->
    forall k x, In (k, x) (num lid lines) -> i <= k < j -> separator x = false.
  Proof.
    induction lines as [|l ls IH]; intros lid cur s i a j b C I Ia Ib Lt Lj k x Ik R; [destruct Ik|].
    cbn [length seq combine] in Ik. cbn [segs] in I. set (cur' := if is_some (match_line l) then cur ++ [(S lid, l)] else cur) in *.
    assert (C' : forall k x, In (k, x) cur' -> k <= S lid).
    { intros k0 x0 H. unfold cur' in H. destruct (is_some (match_line l)); [apply in_app_iff in H; destruct H as [H|[H|[]]]|]; try (apply C in H; lia). injection H; lia. }
    destruct Ik as [Ik|Ik].
    - injection Ik as <- <-. destruct (separator l); auto. exfalso. destruct I as [<-|I].
      + apply C' in Ib. lia.
      + destruct (segs_ge _ _ _ _ _ _ I Ia) as [[]|]; lia.
    - pose proof (num_ge _ _ _ _ Ik) as G. destruct (separator l) eqn:Sp.
      + destruct I as [<-|I]; [apply C' in Ib; lia|]. eapply (IH (S lid) [] s i a j b); eauto; [|lia]. intros k0 x0 [].
      + eapply (IH (S lid) cur' s i a j b); eauto. lia.
  Qed.
  Lemma segs_cur lines : forall lid cur i a j b, In (i, a) cur -> In (j, b) (filter good (num lid lines)) ->
    (forall k x, In (k, x) (num lid lines) -> k < j -> separator x = false) -> exists s, In s (segs lid cur lines) /\ In (i, a) s /\ In (j, b) s.
  Proof.
    induction lines as [|l ls IH]; intros lid cur i a j b Ia Ij H; [destruct Ij|]. cbn [length seq combine filter snd] in Ij. cbn [segs].
    assert (Cj : (j = S lid /\ b = l /\ is_some (match_line l) = true) \/ In (j, b) (filter good (num (S lid) ls))).
    { destruct (is_some (match_line l)) eqn:E; [|auto]. destruct Ij as [Ij|Ij]; [injection Ij as <- <-|]; auto. }
    set (cur' := if is_some (match_line l) then cur ++ [(S lid, l)] else cur).
    assert (Ia' : In (i, a) cur') by (unfold cur'; destruct (is_some _); auto; apply in_app_iff; auto).
    destruct Cj as [(-> & -> & E)|Cj].
    - assert (Ib' : In (S lid, l) cur') by (unfold cur'; rewrite E; apply in_app_iff; cbn; auto). destruct (separator l).
      + exists cur'. cbn. auto.
      + destruct ls as [|l2 ls2]; [exists cur'; cbn [segs]; destruct cur' as [|]; [destruct Ia'|]; cbn; auto|].
        assert (K : forall ls0 lid0 c, (forall x, In x c -> exists s, In s (segs lid0 c ls0) /\ incl c s)).
        { clear. induction ls0 as [|l ls0 IH]; intros lid0 c x Ix; cbn [segs].
          - destruct c as [|y c]; [destruct Ix|]. exists (y :: c). split; [left; reflexivity|intros ? ?; auto].
          - set (c' := if is_some (match_line l) then c ++ [(S lid0, l)] else c). assert (Inc : incl c c') by (unfold c'; destruct (is_some _); [intros ? ?; apply in_app_iff; auto|intros ? ?; auto]).
            destruct (separator l); [exists c'; split; [left; auto|auto]|]. destruct (IH (S lid0) c' x (Inc _ Ix)) as (s & I1 & I2). exists s. split; auto. intros ? ?; auto. }
        destruct (K (l2 :: ls2) (S lid) cur' _ Ia') as (s & I1 & I2). exists s. auto.
    - assert (Sp : separator l = false).
      { apply (H (S lid) l); [cbn; auto|]. apply filter_In in Cj. pose proof (num_ge _ _ _ _ (proj1 Cj)). lia. }
      rewrite Sp. apply (IH (S lid) cur' i a j b); auto. intros k x Ik. apply (H k x). cbn [length seq combine]. right. exact Ik.
  Qed.
  Lemma segs_join lines : forall lid cur i a j b, In (i, a) (filter good (num lid lines)) -> In (j, b) (filter good (num lid lines)) -> i < j ->
    (forall k x, In (k, x) (num lid lines) -> i <= k < j -> separator x = false) -> exists s, In s (segs lid cur lines) /\ In (i, a) s /\ In (j, b) s.
  Proof.
    induction lines as [|l ls IH]; intros lid cur i a j b Ia Ij Lt H; [destruct Ij|]. cbn [length seq combine filter snd] in Ia, Ij. cbn [segs].
    set (cur' := if is_some (match_line l) then cur ++ [(S lid, l)] else cur).
    assert (Cj : In (j, b) (filter good (num (S lid) ls)) \/ j = S lid).
    { destruct (is_some (match_line l)); auto. destruct Ij as [Ij|]; auto. injection Ij; auto. }
    assert (Ca : In (i, a) (filter good (num (S lid) ls)) \/ (i = S lid /\ In (i, a) cur')).
    { unfold cur'. destruct (is_some (match_line l)); auto. destruct Ia as [Ia|Ia]; auto. injection Ia as <- <-. right. split; auto. apply in_app_iff. cbn. auto. }
    destruct Cj as [Cj|Cj].
    2:{ exfalso. destruct Ca as [Ca|[Ca _]]; [apply filter_In in Ca; pose proof (num_ge _ _ _ _ (proj1 Ca))|]; lia. }
    destruct Ca as [Ca|[-> Ca]].
    - assert (H' : forall k x, In (k, x) (num (S lid) ls) -> i <= k < j -> separator x = false) by (intros k x Ik; apply H; cbn [length seq combine]; right; exact Ik).
      destruct (separator l).
      + destruct (IH (S lid) [] i a j b Ca Cj Lt H') as (s & I1 & I2). exists s. split; [right|]; auto.
      + apply (IH (S lid) cur' i a j b); auto.
    - assert (Sp : separator l = false) by (apply (H (S lid) l); [cbn; auto|lia]). rewrite Sp.
      apply (segs_cur ls (S lid) cur' (S lid) a j b); auto. intros k x Ik Lk. apply (H k x); [cbn [length seq combine]; right; exact Ik|]. pose proof (num_ge _ _ _ _ Ik). lia.
  Qed.
  Lemma read_lines lines : concat (read_sentence match_line separator lines) = filter good (numbered lines).
  Proof. rewrite segs_read, segs_concat. reflexivity. Qed.
  Lemma read_groups lines i a j b : In (i, a) (filter good (numbered lines)) -> In (j, b) (filter good (numbered lines)) -> i < j ->
    (exists s, In s (read_sentence match_line separator lines) /\ In (i, a) s /\ In (j, b) s) <->
    (forall k x, In (k, x) (numbered lines) -> i <= k < j -> separator x = false).
  Proof.
    intros Ia Ib Lt. rewrite segs_read. split.
    - intros (s & Is & I1 & I2). apply (segs_sep lines 0 [] s i a j b); auto; [|lia]. intros k x [].
    - intros H. apply segs_join; auto.
  Qed.
  (** One sentence per separator, and one for what follows the last separator unless nothing matches there *)
  Lemma segs_empty lines : forall lid cur s, In s (segs lid cur lines) -> s = [] -> exists x, In x lines /\ separator x = true.
  Proof.
    induction lines as [|l ls IH]; intros lid cur s I E; cbn [segs] in I.
    - destruct cur as [|c cur]; cbn in I; [destruct I|]. destruct I as [<-|[]]; discriminate.
    - destruct (separator l) eqn:Sp; [exists l; cbn; auto|]. destruct (IH _ _ _ I E) as (x & A & B). exists x. cbn. auto.
  Qed.
End Read.

(** ** The graph of a sentence *)
Lemma nodup_map_eq {A B} (g : A -> B) l x y : NoDup (map g l) -> In x l -> In y l -> g x = g y -> x = y.
Proof.
  induction l as [|z l IH]; intros N Ix Iy E; [destruct Ix|]. cbn [map] in N. inversion N as [|? ? N1 N2]; subst.
  destruct Ix as [<-|Ix], Iy as [<-|Iy]; auto; exfalso; apply N1; [rewrite E|rewrite <- E]; now apply in_map.
Qed.
Section Graph.
  Context {L LM : Type} (match_line : L -> option LM) (get_col : LM -> pystr -> pystr) (f : fmt).
  Lemma dkeys_dset_in {K V} `{EqDec K} (d : dict K V) k v x : In x (dkeys (dset d k v)) <-> x = k \/ In x (dkeys d).
  Proof. apply dkeys_dset_In. Qed.
  Lemma nx_node_wf g v kw : gwf g -> gwf (nx_add_node g v kw).
  Proof.
    intros (A & B & C). unfold nx_add_node, gwf, edge, nodes in *. cbn [gnodes gedges]. split; [now apply dwf_dset|]. split; auto.
    intros a b E. apply C in E. rewrite !dkeys_dset_in. tauto.
  Qed.
  Lemma nx_edge_wf g a b kw : gwf g -> gwf (nx_add_edge g a b kw).
  Proof.
    intros W. unfold nx_add_edge. pose proof (nx_node_wf (nx_add_node g a []) b [] (nx_node_wf g a [] W)) as (A & B & C).
    set (g' := nx_add_node (nx_add_node g a []) b []) in *. unfold gwf, edge, nodes in *. cbn [gnodes gedges]. split; auto. split; [now apply dwf_dset|].
    intros x y E. rewrite dkeys_dset_in in E. destruct E as [E|E]; [|now apply C]. injection E as -> ->. unfold g', nx_add_node. cbn [gnodes]. rewrite !dkeys_dset_in. tauto.
  Qed.
  Lemma gen_nodes ns : forall g, gwf g -> gwf (fold_left (fun g na => nx_add_node g (fst na) (snd na)) ns g) /\
    gedges (fold_left (fun g na => nx_add_node g (fst na) (snd na)) ns g) = gedges g.
  Proof. induction ns as [|na ns IH]; intros g W; cbn [fold_left]; auto. destruct (IH (nx_add_node g (fst na) (snd na)) (nx_node_wf _ _ _ W)) as (A & B). auto. Qed.
  Lemma gen_edges es : forall g n g' n',
    rfold (fun (gi : graph * nat) e => if dmem (snd e) (u "id") then Err TypeError
                else Ok (nx_add_edge (fst gi) (fst (fst e)) (snd (fst e)) (dupdate [(u "id", AInt (Z.of_nat (S (snd gi))))] (snd e)), S (snd gi))) es (g, n) = Ok (g', n') ->
    gwf g -> gwf g' /\ forall a b, edge g' a b <-> edge g a b \/ In (a, b) (dkeys es).
  Proof.
    induction es as [|[[a b] kw] es IH]; intros g n g' n' E W; cbn [rfold] in E.
    - injection E as <- <-. split; auto. intros a b. cbn. tauto.
    - cbn [fst snd] in E. destruct (dmem kw (u "id")); [discriminate|]. cbn [rbind] in E. apply IH in E; [|now apply nx_edge_wf]. destruct E as (A & B). split; auto.
      intros x y. rewrite B. unfold edge, nx_add_edge. cbn [gedges]. rewrite dkeys_dset_in. cbn [nx_add_node gedges dkeys map fst In]. clear. intuition (congruence || auto).
  Qed.
  Lemma generate_wf ns es g : generate_graph ns es = Ok g -> gwf g /\ forall a b, edge g a b <-> In (a, b) (dkeys es).
  Proof.
    unfold generate_graph. intros E. apply rmap_ok in E. destruct E as ((g1 & n) & E & ->). cbn [fst].
    assert (W0 : gwf empty_graph). { split; [constructor|]. split; [constructor|]. intros a b []. }
    destruct (gen_nodes ns empty_graph W0) as (W1 & Ed). apply gen_edges in E; auto. destruct E as (A & B). split; auto. intros a b. rewrite B. unfold edge at 1. rewrite Ed. cbn. tauto.
  Qed.
  (** Node and head number of a line *)
  Definition line_ids (ll : nat * L) : option (Z * Z) :=
    match match_line (snd ll) with
    | None => None
    | Some m => match int_of_str (get_col m (currID f)), int_of_str (get_col m (headID f)) with Ok i, Ok h => Some (i, h) | _, _ => None end
    end.
  Lemma cols_edges ea m i h cols : forall (st st' : dict Z attrs * dict (Z * Z) attrs),
    fold_left (fun st col => let '(ns, es) := st in let v := AStr (get_col m col) in
                if mem col (node_attr f) then (dset ns i (dset (match dget ns i with Some a => a | None => [] end) col v), es)
                else if mem col ea then (ns, dset es (h, i) (dset (match dget es (h, i) with Some a => a | None => [] end) col v))
                else (ns, es)) cols st = st' ->
    forall x, In x (dkeys (snd st')) -> In x (dkeys (snd st)) \/ x = (h, i).
  Proof.
    induction cols as [|c cols IH]; intros [ns es] st' E x I; cbn [fold_left] in E; [subst; auto|].
    destruct (mem c (node_attr f)); [apply (IH _ _ E _ I)|]. destruct (mem c ea); [|apply (IH _ _ E _ I)].
    apply (IH _ _ E) in I. cbn [snd] in *. rewrite dkeys_dset_in in I. tauto.
  Qed.
  Lemma build_edges ss : forall st st', rfold (bg_line match_line get_col f) ss st = Ok st' ->
    forall h i, In (h, i) (dkeys (snd st')) -> In (h, i) (dkeys (snd st)) \/ exists ll, In ll ss /\ line_ids ll = Some (i, h).
  Proof.
    induction ss as [|ll ss IH]; intros st st' E h i I; cbn [rfold] in E; [injection E as <-; auto|].
    apply rbind_ok in E. destruct E as (st1 & E1 & E2). destruct (IH _ _ E2 _ _ I) as [I1|(ll' & A & B)]; [|right; exists ll'; cbn; auto].
    unfold bg_line in E1. destruct (match_line (snd ll)) as [m|] eqn:Mm; [|injection E1 as <-; auto].
    destruct (edge_attr f) as [ea|]; [|discriminate]. apply rbind_ok in E1. destruct E1 as (i0 & Ei & E1). apply rbind_ok in E1. destruct E1 as (h0 & Eh & E1).
    match type of E1 with (let '(_, _) := ?x in _) = _ => destruct x as [ns' es'] eqn:Fo end.
    injection E1 as <-. cbn [snd] in *. pose proof (cols_edges ea m i0 h0 (global_columns f) st _ Fo _ I1) as I2. clear I1. rename I2 into I1. destruct I1 as [I1|I1]; auto. injection I1 as -> ->. right. exists ll. split; [cbn; auto|]. unfold line_ids. rewrite Mm, Ei, Eh. reflexivity.
  Qed.
  Lemma sentence_graph_wf token fid ss sg : sentence_graph match_line get_col f token fid ss = Ok sg ->
    gwf (sgraph sg) /\ stoken sg = token /\ sfid sg = fid /\
    (forall h i, edge (sgraph sg) h i -> exists ll, In ll ss /\ line_ids ll = Some (i, h)) /\
    (NoDup (map (fun ll => option_map fst (line_ids ll)) (filter (fun ll => is_some (match_line (snd ll))) ss)) -> one_head (sgraph sg)).
  Proof.
    unfold sentence_graph. destruct ss as [|l0 ss0]; [discriminate|]. set (ss := l0 :: ss0). intros E. apply rmap_ok in E. destruct E as (g & E & ->). cbn [sgraph stoken sfid].
    unfold build_graph in E. apply rbind_ok in E. destruct E as (st & E1 & E2). apply generate_wf in E2. destruct E2 as (W & Ed).
    assert (Ed' : forall h i, edge g h i -> exists ll, In ll ss /\ line_ids ll = Some (i, h)).
    { intros h i H. apply Ed in H. destruct (build_edges ss _ _ E1 h i H) as [[]|]; auto. }
    split; auto. split; auto. split; auto. split; auto.
    intros N a b c Ea Eb. apply Ed' in Ea, Eb. destruct Ea as (l1 & I1 & K1), Eb as (l2 & I2 & K2).
    enough (l1 = l2) by congruence.
    assert (G : forall ll p, line_ids ll = Some p -> is_some (match_line (snd ll)) = true) by (intros ll p; unfold line_ids; destruct (match_line (snd ll)); [auto|discriminate]).
    eapply (nodup_map_eq (fun ll => option_map fst (line_ids ll))); [exact N| | |].
    - apply filter_In. split; auto. eapply G; eauto.
    - apply filter_In. split; auto. eapply G; eauto.
    - cbn beta. rewrite K1, K2. reflexivity.
  Qed.
End Graph.

(** ** The target filter *)
Section Filter.
  Context {M : Type} (re_match : pystr -> pystr -> option M).
  Notation tvals m a := (rmapm (fun at_ => rbind (look a (fst at_)) as_str) (filter (fun at_ => negb (special_attr (fst at_))) (target_attrs m))).
  Lemma tvals_stamp m a fid : tvals m (dset (dset a (u "FID") (AStr fid)) (u "fid") (AStr fid)) = tvals m a.
  Proof.
    apply rmapm_ext. intros [at_ g] I. apply filter_In in I. destruct I as (_ & I). cbn [fst] in *. f_equal. unfold look.
    assert (X : at_ <> u "FID" /\ at_ <> u "fid").
    { split; intros ->; cbv in I; discriminate. }
    destruct X as (X1 & X2). rewrite !dget_dset_other by assumption. reflexivity.
  Qed.
  Lemma dget_stamp (d : dict Z attrs) (h : attrs -> attrs) v : dget (map (fun na => (fst na, h (snd na))) d) v = option_map h (dget d v).
  Proof. induction d as [|[k a] d IH]; auto. cbn [map fst snd dget]. destruct (eqdec v k); auto. Qed.
  Lemma add_one_filter s m l lm r o :
    add_one s (with_filter m None) lm = Ok r -> add_one s (with_filter m (Some l)) lm = Ok o ->
    exists r', r = Some r' /\ o = if in_targets m l r' then Some r' else None.
  Proof.
    unfold add_one. cbn [target_filter with_filter mgraph target_attrs target_idx]. intros E1 E2.
    apply rbind_ok in E1, E2. destruct E1 as (mn & En & E1), E2 as (mn' & En' & E2). rewrite En in En'. injection En' as <-. cbn [rbind] in E1.
    apply rbind_ok in E2. destruct E2 as (keep & Ek & E2). apply rbind_ok in Ek. destruct Ek as (ta & Eta & Ek). apply rbind_ok in Ek. destruct Ek as (vals & Ev & Ek). injection Ek as <-.
    apply rmap_ok in E1. destruct E1 as (med & Em & ->). eexists. split; [reflexivity|].
    assert (T : forall med, rec_type m (MRec (if stoken s then map (fun na => (fst na, dset (dset (snd na) (u "FID") (AStr (sfid s))) (u "fid") (AStr (sfid s)))) mn else mn) med) = Some (join slash vals)).
    { intros med0. unfold rec_type. cbn [m_nodes]. unfold look in Eta. destruct (dget mn (target_idx m)) as [ta0|] eqn:Dt; [|discriminate]. injection Eta as ->.
      destruct (stoken s).
      - rewrite (dget_stamp mn (fun a => dset (dset a (u "FID") (AStr (sfid s))) (u "fid") (AStr (sfid s)))), Dt. cbn [option_map]. rewrite tvals_stamp, Ev. reflexivity.
      - rewrite Dt, Ev. reflexivity. }
    unfold in_targets. rewrite T. destruct (mem (join slash vals) l).
    - rewrite Em in E2. cbn [rmap rbind] in E2. congruence.
    - congruence.
  Qed.
  Lemma rmapm_two {A B C} (f1 : A -> res B) (f2 : A -> res C) (R : B -> C -> Prop) l : (forall x y z, In x l -> f1 x = Ok y -> f2 x = Ok z -> R y z) ->
    forall ys zs, rmapm f1 l = Ok ys -> rmapm f2 l = Ok zs -> Forall2 R ys zs.
  Proof.
    induction l as [|x l IH]; intros H ys zs E1 E2; cbn [rmapm] in E1, E2; [injection E1 as <-; injection E2 as <-; constructor|].
    apply rbind_ok in E1, E2. destruct E1 as (y & Y & E1), E2 as (z & Z & E2). apply rmap_ok in E1, E2. destruct E1 as (ys' & E1 & ->), E2 as (zs' & E2 & ->).
    constructor; [apply (H x); cbn; auto|]. apply IH; auto. intros; eapply H; cbn; eauto.
  Qed.
  Lemma rflat_filter {A B} (f1 f2 : A -> res (list B)) (p : B -> bool) l : (forall x y z, In x l -> f1 x = Ok y -> f2 x = Ok z -> z = filter p y) ->
    forall ys zs, rflat f1 l = Ok ys -> rflat f2 l = Ok zs -> zs = filter p ys.
  Proof.
    unfold rflat. intros H ys zs E1 E2. apply rmap_ok in E1, E2. destruct E1 as (y & E1 & ->), E2 as (z & E2 & ->).
    pose proof (rmapm_two f1 f2 (fun y z => z = filter p y) l H _ _ E1 E2) as F. clear - F. induction F as [|a b y z -> F IH]; auto. cbn [concat]. now rewrite filter_app, IH.
  Qed.
  Lemma add_match_filter s m l lms r o : add_match s (with_filter m None) lms = Ok r -> add_match s (with_filter m (Some l)) lms = Ok o -> o = filter (in_targets m l) r.
  Proof.
    unfold add_match. apply rflat_filter. intros lm y z _ E1 E2. apply rmap_ok in E1, E2. destruct E1 as (r1 & E1 & ->), E2 as (o1 & E2 & ->).
    destruct (add_one_filter _ _ _ _ _ _ E1 E2) as (r' & -> & ->). cbn [olist filter]. destruct (in_targets m l r'); reflexivity.
  Qed.
  Lemma subtree_filter s m l : forall fuel lms r o, subtree_match re_match s (with_filter m None) fuel lms = Ok r -> subtree_match re_match s (with_filter m (Some l)) fuel lms = Ok o -> o = filter (in_targets m l) r.
  Proof.
    induction fuel as [|fuel IH]; intros lms r o E1 E2; cbn [subtree_match] in E1, E2; destruct lms as [|lm0 lms]; try (injection E1 as <-; injection E2 as <-; reflexivity).
    - cbn [mdepth with_filter] in E1, E2. destruct (length lm0 =? mdepth m); [eapply add_match_filter; eauto|]. injection E1 as <-; injection E2 as <-; reflexivity.
    - cbn [mdepth with_filter mgraph] in E1, E2. destruct (length lm0 =? mdepth m); [eapply add_match_filter; eauto|].
      apply rbind_ok in E1, E2. destruct E1 as (x & X & E1), E2 as (x' & X' & E2). rewrite X in X'. injection X' as <-. eapply IH; eauto.
  Qed.
  Lemma tree_match_filter s m l r o : tree_match re_match s (with_filter m None) = Some (Ok r) -> tree_match re_match s (with_filter m (Some l)) = Some (Ok o) -> o = filter (in_targets m l) r.
  Proof.
    unfold tree_match. change (mgraph (with_filter m None)) with (mgraph m). change (mgraph (with_filter m (Some l))) with (mgraph m).
    destruct (istree (sgraph s)); [|intros E1 E2; injection E1 as <-; injection E2 as <-; reflexivity]. destruct (mem 1%Z (nodes (mgraph m))); [|discriminate].
    destruct (get_root (mgraph m)) as [fr|]; [|discriminate]. cbn [option_map]. intros E1 E2. assert (E1' := f_equal (fun o => match o with Some x => x | None => Err TypeError end) E1). assert (E2' := f_equal (fun o => match o with Some x => x | None => Err TypeError end) E2). cbn beta iota in E1', E2'.
    revert r o E1' E2' E1 E2. intros r o E1 E2 _ _. revert r o E1 E2. apply rflat_filter. intros va y z _ E1 E2. apply rbind_ok in E1, E2. destruct E1 as (n1 & N1 & E1), E2 as (n2 & N2 & E2).
    rewrite N1 in N2. injection N2 as <-. destruct (truthy n1); [|injection E1 as <-; injection E2 as <-; reflexivity].
    eapply subtree_filter; [exact E1|exact E2].
  Qed.
  (** An empty filter keeps nothing. *)
  Lemma rflat_nil {A B} (f1 : A -> res (list B)) l : (forall x y, In x l -> f1 x = Ok y -> y = []) -> forall ys, rflat f1 l = Ok ys -> ys = [].
  Proof.
    intros H ys E. unfold rflat in E. apply rmap_ok in E. destruct E as (yss & E & ->). apply rmapm_ok in E. clear - H E.
    induction E as [|x y l ys Y E IH]; auto. cbn [concat]. rewrite (H x y (or_introl eq_refl) Y), IH; auto. intros x0 y0 I; apply H; cbn; auto.
  Qed.
  Lemma add_one_nil s m lm o : add_one s (with_filter m (Some [])) lm = Ok o -> o = None.
  Proof.
    unfold add_one. cbn [target_filter with_filter mgraph target_attrs target_idx]. intros E. apply rbind_ok in E. destruct E as (mn & _ & E). apply rbind_ok in E. destruct E as (keep & Ek & E).
    apply rbind_ok in Ek. destruct Ek as (ta & _ & Ek). apply rbind_ok in Ek. destruct Ek as (vals & _ & Ek). injection Ek as <-. cbn [mem] in E. now injection E.
  Qed.
  Lemma subtree_nil s m : forall fuel lms o, subtree_match re_match s (with_filter m (Some [])) fuel lms = Ok o -> o = [].
  Proof.
    assert (A : forall lms o, add_match s (with_filter m (Some [])) lms = Ok o -> o = []).
    { intros lms o. unfold add_match. apply rflat_nil. intros lm y _ E. apply rmap_ok in E. destruct E as (r & E & ->). apply add_one_nil in E. now subst. }
    induction fuel as [|fuel IH]; intros lms o E; cbn [subtree_match] in E; destruct lms as [|lm0 lms]; try (now injection E as <-); destruct (length lm0 =? mdepth _); eauto.
    - now injection E as <-.
    - apply rbind_ok in E. destruct E as (x & _ & E). eauto.
  Qed.
  Lemma tree_match_nil s m o : tree_match re_match s (with_filter m (Some [])) = Some (Ok o) -> o = [].
  Proof.
    unfold tree_match. destruct (istree (sgraph s)); [|intros E; now injection E as <-]. destruct (mem 1%Z _); [|discriminate]. destruct (get_root _) as [fr|]; [|discriminate].
    cbn [option_map]. intros E. assert (E' := f_equal (fun o => match o with Some x => x | None => Err TypeError end) E). cbn beta iota in E'. revert E'. apply rflat_nil. intros va y _ Ey.
    apply rbind_ok in Ey. destruct Ey as (n1 & _ & Ey). destruct (truthy n1); [eapply subtree_nil; eauto|now injection Ey as <-].
  Qed.
  (** When the representation of every target attribute is its whole value, the label is the type. *)
  Variable re_group : M -> Z -> res (option pystr).
  Lemma label_type m r t : (forall regex s x g, re_match regex s = Some x -> In g (dvals (target_attrs m)) -> re_group x g = Ok (Some s)) ->
    (forall attr g pa a regex s, In (attr, g) (target_attrs m) -> special_attr attr = false -> dget (gnodes (mgraph m)) (target_idx m) = Some pa -> dget (m_nodes r) (target_idx m) = Some a ->
       dget pa attr = Some (AStr regex) -> dget a attr = Some (AStr s) -> re_match regex s <> None) ->
    target re_match re_group m false r = Ok t -> (exists at_, In at_ (target_attrs m) /\ special_attr (fst at_) = false) -> rec_type m r = Some t.
  Proof.
    intros Hg Hm E Ne. unfold target in E. apply rmap_ok in E. destruct E as (reps & E & ->). unfold rec_type.
    assert (exists pa a, dget (gnodes (mgraph m)) (target_idx m) = Some pa /\ dget (m_nodes r) (target_idx m) = Some a) as (pa & a & Dp & Da).
    { destruct Ne as (at_ & I & Sp). apply rmapm_ok in E. assert (I' : In at_ (filter (fun ag => negb (special_attr (fst ag))) (target_attrs m))) by (apply filter_In; rewrite Sp; auto).
      destruct (Forall2_In_l _ _ _ _ E I') as (y & _ & Y). rewrite Sp in Y. unfold look in Y. destruct (dget (gnodes (mgraph m)) (target_idx m)) as [pa|]; [|discriminate]. cbn [rbind] in Y.
      destruct (dget pa (fst at_)) as [rg|]; [|discriminate]. cbn [rbind] in Y. destruct (dget (m_nodes r) (target_idx m)) as [a|]; [|discriminate]. eauto. }
    rewrite Da. enough (X : tvals m a = Ok reps) by now rewrite X.
    apply rmapm_forall2. apply rmapm_ok in E.
    assert (K : forall x y, In x (filter (fun ag => negb (special_attr (fst ag))) (target_attrs m)) -> (fun ag y => (if special_attr (fst ag) then rbind (look (m_nodes r) (target_idx m)) (fun a0 => rmap str_aval (look a0 (fst ag)))
        else rbind (look (gnodes (mgraph m)) (target_idx m)) (fun pa0 => rbind (look pa0 (fst ag)) (fun regex => rbind (look (m_nodes r) (target_idx m)) (fun a0 => rbind (look a0 (fst ag)) (fun v => repr_of re_match re_group regex v (snd ag)))))) = Ok y) x y ->
        rbind (look a (fst x)) as_str = Ok y).
    { intros [at_ g] y I Y. apply filter_In in I. destruct I as (I & Sp). cbn [fst snd] in *. apply negb_true_iff in Sp. rewrite Sp in Y. unfold look in Y. rewrite Dp, Da in Y. cbn [rbind] in Y.
      destruct (dget pa at_) as [rg|] eqn:Dr; [|discriminate]. cbn [rbind] in Y. unfold look. destruct (dget a at_) as [v|] eqn:Dv; [|discriminate]. cbn [rbind] in Y |- *.
      unfold repr_of in Y. destruct rg as [rg|]; [|discriminate]. destruct v as [v|]; [|discriminate]. cbn [py_match rbind] in Y.
      destruct (re_match rg v) as [x|] eqn:Rm; [|exfalso; eapply Hm; eauto]. rewrite (Hg rg v x g Rm) in Y; [injection Y as <-; reflexivity|]. unfold dvals. apply in_map_iff. exists (at_, g). auto. }
    clear - E K. induction E as [|x y l ys H E IH]; constructor; [apply K; cbn; auto|]. apply IH. intros; apply K; cbn; auto.
  Qed.
End Filter.
