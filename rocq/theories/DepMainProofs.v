(** * Proofs about pattern matching: what tree_match records. *)
From Coq Require Import String NArith ZArith Bool Arith Lia Permutation List.
From Verif Require Import Base BaseLemmas Str VocabModel CorpusModel ParModel MxModel MxProofs DepModel DepSpec DepGraphProofs DepTreeProofs DepMatchProofs DepEmbProofs.
Import ListNotations.

Lemma Forall2_weak {A B} (P Q : A -> B -> Prop) l l' : (forall a b, P a b -> Q a b) -> Forall2 P l l' -> Forall2 Q l l'.
Proof. intros H. induction 1; auto. Qed.
Lemma dget_forall2 {K V W} `{EqDec K} (P : K -> V -> W -> Prop) (d : dict K V) (d' : dict K W) :
  Forall2 (fun a b => fst b = fst a /\ P (fst a) (snd a) (snd b)) d d' ->
  dkeys d' = dkeys d /\ forall k, match dget d k with
                                  | None => dget d' k = None
                                  | Some v => exists w, dget d' k = Some w /\ P k v w
                                  end.
Proof.
  induction 1 as [|[k v] [k' w] d d' [E X] F [IH1 IH2]]; cbn in *; [split; auto|]. subst k'. split; [f_equal; auto|].
  intros k0. destruct (eqdec k0 k) as [->|]; [eauto|apply IH2].
Qed.
Lemma fold_dupdate_concat {K V} `{EqDec K} (ls : list (dict K V)) : forall d, NoDup (map fst (d ++ concat ls)) -> fold_left (fun d l => dupdate d l) ls d = d ++ concat ls.
Proof.
  induction ls as [|l ls IH]; intros d N; cbn [fold_left concat]; [now rewrite app_nil_r|]. cbn [concat] in N. rewrite dupdate_fresh.
  - rewrite IH; rewrite <- app_assoc; auto.
  - rewrite app_assoc, map_app in N. apply NoDup_app_l in N. rewrite map_app in N. exact N.
Qed.

Section Main.
  Context {M : Type}.
  Variable re_match : pystr -> pystr -> option M.
  Variable S : sentence.
  Variable m : macro.
  Notation s := (sgraph S).
  Notation p := (mgraph m).
  Hypothesis Ws : gwf s.
  Hypothesis Wp : gwf p.
  Variable r : Z.
  Hypothesis R : rooted p r.
  Hypothesis Dp : get_depth p = Some (mdepth m).
  Notation chain := (chain re_match p s r).
  Notation level := (level p r).

  Definition fn_of (lm : list (list (Z * Z))) (v : Z) : Z := match dget (concat lm) v with Some w => w | None => 0%Z end.
  Lemma chain_wf v0 lm : chain v0 lm -> NoDup (map fst (concat lm)).
  Proof. intros C. rewrite (chain_concat_keys _ _ _ _ _ _ C). apply levels_NoDup; auto. Qed.
  Lemma fn_of_spec v0 lm : chain v0 lm -> forall x, In x (concat lm) -> fn_of lm (fst x) = snd x.
  Proof. intros C [a b] I. unfold fn_of. apply (dget_In (concat lm) a b (chain_wf _ _ C)) in I. cbn [fst snd]. rewrite I. reflexivity. Qed.
  Lemma chain_dget v0 lm : chain v0 lm -> length lm = mdepth m -> forall v, dget (concat lm) v = if mem v (nodes p) then Some (fn_of lm v) else None.
  Proof.
    intros C L v. destruct (mem v (nodes p)) eqn:I.
    - apply mem_In in I. apply (levels_nodes p r Wp R _ v Dp) in I. rewrite <- L in I. change (In v (concat (map level (seq 0 (length lm))))) in I.
      rewrite <- (chain_concat_keys _ _ _ _ _ _ C) in I. apply dget_key_Some in I. destruct I as (w & E). unfold fn_of. rewrite E. reflexivity.
    - apply mem_nIn in I. apply dget_None. intros J. apply I. apply (levels_nodes p r Wp R _ v Dp). rewrite <- L. 
      change (In v (concat (map level (seq 0 (length lm))))). rewrite <- (chain_concat_keys _ _ _ _ _ _ C). exact J.
  Qed.
  Lemma chain_unique v0 v1 lm lm' : chain v0 lm -> chain v1 lm' -> length lm = mdepth m -> length lm' = mdepth m -> same_on p (fn_of lm) (fn_of lm') -> lm = lm'.
  Proof.
    intros C C' L L' Sm. rewrite (chain_graph _ _ _ _ _ _ _ C (fn_of_spec _ _ C)), (chain_graph _ _ _ _ _ _ _ C' (fn_of_spec _ _ C')), L, L'.
    apply map_ext_in. intros k Ik. unfold graph_of. apply map_ext_in. intros v Iv. f_equal. apply Sm. apply level_In in Iv; auto. eapply below_node; eauto.
  Qed.

  (** ** add_one *)
  Lemma rmapm_pairs {A B} (f : A -> res B) l ys : rmapm f l = Ok ys -> Forall2 (fun x y => f x = Ok y) l ys.
  Proof. apply rmapm_ok. Qed.
  Lemma add_one_ok v0 lm o : chain v0 lm -> length lm = mdepth m -> add_one S m lm = Ok o ->
    match o with
    | Some rec => passes m S (fn_of lm) /\ records p S (fn_of lm) rec
    | None => ~ passes m S (fn_of lm)
    end.
  Proof.
    intros C L E. unfold add_one in E.
    replace (fold_left (fun d l => dupdate d l) lm []) with (concat lm) in E by (symmetry; apply (fold_dupdate_concat lm []); apply (chain_wf _ _ C)).
    apply rbind_ok in E. destruct E as (mn & E1 & E). apply rbind_ok in E. destruct E as (keep & E2 & E).
    assert (N : dkeys mn = map fst (concat lm) /\ forall v, dget mn v = if mem v (nodes p) then dget (gnodes s) (fn_of lm v) else None).
    { apply rmapm_ok in E1. destruct (dget_forall2 (fun _ w a => dget (gnodes s) w = Some a) (concat lm) mn) as [K G].
      - eapply Forall2_weak; [|exact E1]. intros [f w] [f' a]. cbn [fst snd]. intros X. apply rmap_ok in X. destruct X as (a' & X & Y).
        injection Y as -> ->. apply look_ok in X. auto.
      - split; auto. intros v. specialize (G v). rewrite (chain_dget _ _ C L) in G. destruct (mem v (nodes p)); auto. destruct G as (w & G1 & G2). congruence. }
    destruct N as [Nk Ng].
    assert (P : keep = true <-> passes m S (fn_of lm)).
    { unfold passes. destruct (target_filter m) as [fl|].
      - apply rbind_ok in E2. destruct E2 as (ta & E3 & E2). apply look_ok in E3. rewrite Ng in E3. destruct (mem (target_idx m) (nodes p)); [|discriminate].
        apply rbind_ok in E2. destruct E2 as (vals & E4 & E2). injection E2 as <-. unfold target_type. rewrite E3, E4. apply mem_In.
      - injection E2 as <-. tauto. }
    destruct keep; [|injection E as <-; intros X; apply P in X; discriminate].
    apply rmap_ok in E. destruct E as (me & E3 & ->). split; [now apply P|]. unfold records. cbn [m_nodes m_edges].
    assert (Dm : dwf mn) by (unfold dwf; rewrite Nk; apply (chain_wf _ _ C)).
    assert (Me : dkeys me = edge_list p /\ forall h t, dget me (h, t) = if mem (h, t) (edge_list p) then dget (gedges s) (fn_of lm h, fn_of lm t) else None).
    { apply rmapm_ok in E3. assert (F : Forall2 (fun ht y => fst y = ht /\ dget (gedges s) (fn_of lm (fst ht), fn_of lm (snd ht)) = Some (snd y)) (edge_list p) me).
      { eapply Forall2_weak; [|exact E3]. intros [h t] [ht a]. cbn [fst snd]. intros X. apply rbind_ok in X. destruct X as (h' & X1 & X).
        apply rbind_ok in X. destruct X as (t' & X2 & X). apply rmap_ok in X. destruct X as (a' & X3 & X). injection X as -> ->. apply look_ok in X1, X2, X3.
        unfold fn_of. rewrite X1, X2. auto. }
      clear - F. induction F as [|ht [y1 y2] l l' [F1 F2] F [IH1 IH2]]; cbn in *; [auto|]. subst y1. split; [f_equal; auto|].
      intros h t. change (mem (h, t) (ht :: l)) with (eqb (h, t) ht || mem (h, t) l). unfold eqb. destruct (eqdec (h, t) ht) as [<-|]; cbn [orb]; [auto|exact (IH2 h t)]. }
    destruct Me as [Mk Mg]. split; [|split; [|split]].
    - destruct (stoken S); auto. unfold dwf, dkeys in *. rewrite map_map. exact Dm.
    - unfold dwf. rewrite Mk. apply edge_list_NoDup; auto.
    - intros v. destruct (mem v (nodes p)) eqn:Iv; specialize (Ng v); rewrite Iv in Ng; unfold stamp; destruct (stoken S).
      + rewrite <- Ng. clear. induction mn as [|[k a] mn IH]; cbn; auto. destruct (eqdec v k); auto.
      + rewrite Ng. destruct (dget (gnodes s) (fn_of lm v)); auto.
      + clear - Ng. induction mn as [|[k a] mn IH]; cbn in *; auto. destruct (eqdec v k); auto. discriminate.
      + exact Ng.
    - intros h t. rewrite Mg.
      assert (X : mem (h, t) (edge_list p) = mem (h, t) (dkeys (gedges p))).
      { destruct (mem (h, t) (dkeys (gedges p))) eqn:X.
        - apply mem_In. apply mem_In in X. now apply edge_list_In.
        - apply mem_nIn. apply mem_nIn in X. rewrite edge_list_In; auto. }
      rewrite X. reflexivity.
  Qed.

  (** ** All matches of the sentence *)
  Lemma tree_all recs : istree s = true -> In 1%Z (nodes p) -> tree_match re_match S m = Some (Ok recs) ->
    exists LL, NoDup LL /\ (forall lm, In lm LL <-> exists v0, nok re_match p s r v0 /\ chain v0 lm /\ length lm = mdepth m) /\ add_match S m LL = Ok recs.
  Proof.
    intros T I1 E. unfold tree_match in E. rewrite T in E. apply mem_In in I1. rewrite I1 in E. apply mem_In in I1. rewrite (get_root_rooted p r Wp R I1) in E.
    cbn [option_map] in E. injection E as E. apply rflat_ok in E. destruct E as (rs & F & ->).
    destruct (get_depth_spec p r Wp R) as (d & Ed & Ld & _). rewrite Dp in Ed. injection Ed as <-.
    assert (A : forall va recs0, In va (gnodes s) -> rbind (match_node re_match p (snd va) r) (fun r0 => if truthy r0 then subtree_match re_match S m (mdepth m) [[[(r, fst va)]]] else Ok []) = Ok recs0 ->
        exists L, NoDup L /\ (forall lm, In lm L <-> nok re_match p s r (fst va) /\ chain (fst va) lm /\ length lm = mdepth m) /\ add_match S m L = Ok recs0).
    { intros [v a] recs0 I E. cbn [fst snd] in *. apply rbind_ok in E. destruct E as (r0 & E1 & E).
      apply (dget_In (gnodes s) v a (proj1 Ws)) in I. pose proof (match_node_truthy re_match p s v a r r0 I E1) as T0. destruct (truthy r0).
      - destruct (subtree_ok re_match p s Ws Wp r R S m v eq_refl eq_refl (mdepth m) 0 [[[(r, v)]]] recs0) as (L & L1 & L2 & L3); auto; try lia.
        + constructor; [intros []|constructor].
        + intros lm. split.
          * intros [<-|[]]. split; [apply chain_1|reflexivity].
          * intros [C X]. destruct C as [|lm cm C _]; [left; auto|]. exfalso. rewrite app_length in X. cbn in X. pose proof (chain_ne _ _ _ _ _ _ C). destruct lm; [congruence|cbn in X; lia].
        + exists L. split; auto. split; auto. intros lm. rewrite L2. tauto.
      - injection E as <-. exists []. split; [constructor|]. split; [|reflexivity]. intros lm. split; [intros []|]. intros (X & _). apply T0 in X. discriminate. }
    assert (B : forall l rs, Forall2 (fun va y => rbind (match_node re_match p (snd va) r) (fun r0 => if truthy r0 then subtree_match re_match S m (mdepth m) [[[(r, fst va)]]] else Ok []) = Ok y) l rs ->
       incl l (gnodes s) -> NoDup (map fst l) ->
       exists LL, NoDup LL /\ (forall lm, In lm LL <-> exists v0, In v0 (map fst l) /\ nok re_match p s r v0 /\ chain v0 lm /\ length lm = mdepth m) /\ add_match S m LL = Ok (concat rs)).
    { clear F rs. induction 1 as [|va y l rs E F IH]; intros I N.
      - exists []. split; [constructor|]. split; [|reflexivity]. intros lm. split; [intros []|]. intros (v0 & [] & _).
      - cbn [map] in N. inversion N; subst. destruct IH as (L1 & N1 & H & A1); auto; [intros x X; apply I; right; auto|].
        destruct (A va y (I va (or_introl eq_refl)) E) as (L2 & N2 & H' & A2). exists (L2 ++ L1). split; [|split].
        + apply NoDup_app'; auto. intros lm X Y. apply H' in X. apply H in Y. destruct X as (_ & X & _), Y as (v0 & Y & _ & Z & _).
          apply chain_head in X, Z. destruct X as (l1 & X), Z as (l2 & Z). rewrite X in Z. injection Z as Z _. subst v0. auto.
        + intros lm. rewrite in_app_iff, H', H. cbn [map In]. split.
          * intros [X|(v0 & X & Y)]; [exists (fst va); tauto|exists v0; tauto].
          * intros (v0 & [<-|X] & Y); [left; tauto|right; exists v0; tauto].
        + cbn [concat]. unfold add_match in *. apply rflat_app; auto. }
    destruct (B _ _ F) as (LL & N & H & A1); [apply incl_refl|apply Ws|]. exists LL. split; auto. split; auto. intros lm. rewrite H. split.
    - intros (v0 & _ & X). eauto.
    - intros (v0 & X & Y). exists v0. split; auto. destruct X as (pa & a & _ & X & _). apply dget_Some_key in X. exact X.
  Qed.

  Lemma add_all LL recs : add_match S m LL = Ok recs -> NoDup LL -> exists L, NoDup L /\
    (forall lm, In lm L <-> In lm LL /\ exists rec, add_one S m lm = Ok (Some rec)) /\ Forall2 (fun lm rec => add_one S m lm = Ok (Some rec)) L recs.
  Proof.
    intros E. apply rflat_ok in E. destruct E as (ls & F & ->). induction F as [|lm l LL ls E F IH]; intros N.
    - exists []. split; auto. split; [|constructor]. intros lm. cbn. tauto.
    - inversion N; subst. destruct (IH H2) as (L & L1 & L2 & L3). apply rmap_ok in E. destruct E as (o & E & ->). destruct o as [rec|]; cbn [olist concat app].
      + exists (lm :: L). split; [constructor; auto; rewrite L2; tauto|]. split; [|constructor; auto]. intros lm'. cbn [In]. rewrite L2. split.
        * intros [<-|X]; [eauto|tauto].
        * intros [[<-|X] Y]; tauto.
      + exists L. split; auto. split; auto. intros lm'. cbn [In]. rewrite L2. split; [tauto|]. intros [[<-|X] Y]; [|auto]. destruct Y as (rec & Y). congruence.
  Qed.

  (** Mappings that satisfy the constraints of every node and edge, which must have one, and keep siblings apart *)
  Definition weak_emb (f : Z -> Z) : Prop :=
    (forall v, In v (nodes p) -> nok re_match p s v (f v)) /\
    (forall h t, edge p h t -> eok re_match p s (h, t) (f h, f t)) /\
    (forall h t t', edge p h t -> edge p h t' -> f t = f t' -> t = t').
  Lemma eok_edge e e' : eok re_match p s e e' -> edge s (fst e') (snd e').
  Proof. intros (pa & a & _ & E & _). apply dget_Some_key in E. destruct e'. exact E. Qed.
  Lemma chain_weak v0 lm : nok re_match p s r v0 -> chain v0 lm -> length lm = mdepth m -> weak_emb (fn_of lm).
  Proof.
    intros N C L. destruct (chain_facts re_match p s r R v0 lm C (fn_of lm) (fn_of_spec _ _ C)) as [F0 F].
    destruct (get_depth_spec p r Wp R) as (d & Ed & Ld & Hd). rewrite Dp in Ed. injection Ed as <-.
    assert (B : forall h t, edge p h t -> exists k, below p r k h /\ Datatypes.S k < length lm).
    { intros h t E. assert (Ih : In h (nodes p)) by (destruct Wp as (_ & _ & We); apply (We h t E)). destruct R as (_ & _ & _ & A). destruct (A h Ih) as (k & Bk). exists k. split; auto. rewrite L. apply (Hd _ t). econstructor; eauto. }
    split; [|split].
    - intros v Iv. destruct R as (_ & _ & _ & A). destruct (A v Iv) as (k & Bk). destruct k as [|k].
      + assert (X : v = r) by (inversion Bk; auto). rewrite X, F0. exact N.
      + apply below_inv in Bk. destruct Bk as (h & _ & E). destruct (B h v E) as (k' & B1 & B2). apply (F k' h v); auto.
    - intros h t E. destruct (B h t E) as (k & B1 & B2). apply (F k h t); auto.
    - intros h t t' E E'. destruct (B h t E) as (k & B1 & B2). destruct (F k h t B1 B2 E) as (_ & _ & _ & X). auto.
  Qed.
  Lemma weak_chain f : weak_emb f -> exists lm, chain (f r) lm /\ length lm = mdepth m /\ same_on p f (fn_of lm) /\ nok re_match p s r (f r).
  Proof.
    intros (H1 & H2 & H3). destruct (get_depth_spec p r Wp R) as (d & Ed & Ld & Hd). rewrite Dp in Ed. injection Ed as <-.
    exists (map (fun k => graph_of f (level k)) (seq 0 (mdepth m))). destruct (mdepth m) as [|k] eqn:Em; [lia|].
    assert (C : chain (f r) (map (fun k => graph_of f (level k)) (seq 0 (Datatypes.S k)))).
    { apply map_chain; auto. intros h t E. split; [apply (eok_edge _ _ (H2 h t E))|]. split; [|auto]. apply H1. destruct Wp as (_ & _ & We); apply (We h t E). }
    split; auto. split; [now rewrite map_length, seq_length|]. split; [|apply H1, R].
    intros v Iv. assert (X : In (v, f v) (concat (map (fun k => graph_of f (level k)) (seq 0 (Datatypes.S k))))).
    { rewrite <- Em in *. apply (levels_nodes p r Wp R _ v Dp) in Iv. apply in_concat in Iv. destruct Iv as (l & I1 & I2).
      apply in_map_iff in I1. destruct I1 as (j & <- & I1). apply in_concat. exists (graph_of f (level j)). split.
      - apply in_map_iff. exists j. auto.
      - unfold graph_of. apply in_map_iff. exists v. auto. }
    symmetry. apply (fn_of_spec _ _ C _ X).
  Qed.
  Lemma weak_same f g : same_on p f g -> passes m S f -> In (target_idx m) (nodes p) -> passes m S g.
  Proof. intros Sm P I. unfold passes, target_type in *. rewrite <- (Sm _ I). exact P. Qed.
  Lemma add_one_target lm o : (forall v, In v (map fst (concat lm)) -> In v (nodes p)) -> NoDup (map fst (concat lm)) -> add_one S m lm = Ok o -> target_filter m <> None -> In (target_idx m) (nodes p).
  Proof.
    intros K N E Fl. unfold add_one in E. replace (fold_left (fun d l => dupdate d l) lm []) with (concat lm) in E by (symmetry; apply (fold_dupdate_concat lm []); auto).
    apply rbind_ok in E. destruct E as (mn & E1 & E). apply rbind_ok in E. destruct E as (keep & E2 & E). destruct (target_filter m); [|congruence].
    apply rbind_ok in E2. destruct E2 as (ta & E3 & E2). apply look_ok in E3. apply dget_Some_key in E3. apply K. apply rmapm_ok in E1.
    replace (map fst (concat lm)) with (dkeys mn); auto. clear - E1. induction E1 as [|[f w] [f' a] l l' H F IH]; cbn; auto. f_equal; auto.
    apply rmap_ok in H. destruct H as (x & _ & H). injection H as -> _. reflexivity.
  Qed.

  (** The recorded matches are exactly these mappings, each recorded once. *)
  Lemma tree_match_weak recs : istree s = true -> In 1%Z (nodes p) -> tree_match re_match S m = Some (Ok recs) ->
    exists fs, Forall2 (fun f rec => weak_emb f /\ passes m S f /\ records p S f rec) fs recs /\
      (forall f, weak_emb f -> passes m S f -> exists g, In g fs /\ same_on p f g) /\
      (forall i j f g, nth_error fs i = Some f -> nth_error fs j = Some g -> same_on p f g -> i = j).
  Proof.
    intros T I1 E. destruct (tree_all recs T I1 E) as (LL & N & H & A). destruct (add_all _ _ A N) as (L & NL & HL & F).
    exists (map fn_of L). split; [|split].
    - assert (X : forall lm, In lm L -> exists v0, nok re_match p s r v0 /\ chain v0 lm /\ length lm = mdepth m) by (intros lm I; apply HL in I; apply H; tauto).
      clear - F X R Wp Dp. induction F as [|lm rec L recs E F IH]; cbn [map]; constructor.
      + destruct (X lm (or_introl eq_refl)) as (v0 & N0 & C & Len). split; [apply (chain_weak v0); auto|]. apply (add_one_ok v0 lm (Some rec)); auto.
      + apply IH. intros; apply X; right; auto.
    - intros f Wf P. destruct (weak_chain f Wf) as (lm & C & Len & Sm & N0).
      assert (I : In lm LL) by (apply H; exists (f r); auto).
      destruct (rflat_all _ _ _ A lm I) as (ys & E1). apply rmap_ok in E1. destruct E1 as (o & E1 & ->).
      pose proof (add_one_ok _ _ _ C Len E1) as X.
      assert (P' : passes m S (fn_of lm)).
      { destruct (target_filter m) as [fl|] eqn:Fl; [|unfold passes; now rewrite Fl]. eapply weak_same; [exact Sm|exact P|].
        apply (add_one_target lm o); auto; [|apply (chain_wf _ _ C)|congruence]. intros v Iv.
        apply (levels_nodes p r Wp R _ v Dp). rewrite (chain_concat_keys _ _ _ _ _ _ C), Len in Iv. exact Iv. }
      destruct o as [rec|]; [|contradiction]. exists (fn_of lm). split; auto. apply in_map. apply HL. split; eauto.
    - intros i j f g Ei Ej Sm. assert (G : forall i f, nth_error (map fn_of L) i = Some f -> exists lm, nth_error L i = Some lm /\ f = fn_of lm).
      { clear. induction L as [|lm L IH]; intros [|i] f E; cbn in *; try discriminate; [injection E as <-; eauto|eauto]. }
      apply G in Ei, Ej. destruct Ei as (lm & Ei & ->), Ej as (lm' & Ej & ->).
      assert (I : In lm L) by (eapply nth_error_In; eauto). assert (I' : In lm' L) by (eapply nth_error_In; eauto).
      apply HL in I, I'. destruct I as [I _], I' as [I' _]. apply H in I, I'. destruct I as (v0 & _ & C & Len), I' as (v1 & _ & C' & Len').
      assert (lm = lm') by (eapply chain_unique; eauto). subst lm'.
      apply (proj1 (NoDup_nth_error L) NL i j); [apply nth_error_Some; congruence|congruence].
  Qed.
End Main.

Section Emb.
  Context {M : Type}.
  Variable re_match : pystr -> pystr -> option M.
  Lemma weak_embedding S m f : gwf (sgraph S) -> gwf (mgraph m) -> (exists r, rooted (mgraph m) r) -> istree (sgraph S) = true ->
    weak_emb re_match S m f -> embedding re_match (mgraph m) (sgraph S) f.
  Proof.
    intros Ws Wp (r & R) T (H1 & H2 & H3). split; [|split].
    - intros v pa E. destruct (H1 v) as (pa' & a & E1 & E2 & _ & Sat); [eapply dget_Some_key; eauto|]. exists a. split; auto. rewrite E in E1. injection E1 as <-. exact Sat.
    - intros h t pa E. destruct (H2 h t) as (pa' & a & E1 & E2 & _ & Sat); [eapply dget_Some_key in E; auto|]. exists a. split; auto. rewrite E in E1. injection E1 as <-. exact Sat.
    - apply (locally_injective (mgraph m) (sgraph S) f r); auto.
      + intros v Iv. destruct (H1 v Iv) as (pa & a & _ & E & _). eapply dget_Some_key; eauto.
      + intros h t E. apply (eok_edge re_match S m _ _ (H2 h t E)).
  Qed.
  Lemma embedding_weak S m f : gwf (mgraph m) -> constrained (mgraph m) -> embedding re_match (mgraph m) (sgraph S) f -> weak_emb re_match S m f.
  Proof.
    intros Wp (C1 & C2) (H1 & H2 & H3). split; [|split].
    - intros v Iv. apply dget_key_Some in Iv. destruct Iv as (pa & E). destruct (H1 v pa E) as (a & E2 & Sat). exists pa, a. split; auto. split; auto. split; auto. eapply C1; eauto.
    - intros h t E. apply dget_key_Some in E. destruct E as (pa & E). destruct (H2 h t pa E) as (a & E2 & Sat). exists pa, a. split; auto. split; auto. split; auto. eapply C2; eauto.
    - intros h t t' E E' X. destruct Wp as (_ & _ & We). apply H3; auto; [apply (We h t E)|apply (We h t' E')].
  Qed.
  (** C46, C47, C48 in one statement *)
  Lemma tree_match_correct S m recs : gwf (sgraph S) -> macro_wf m -> istree (sgraph S) = true ->
    tree_match re_match S m = Some (Ok recs) ->
    exists fs, Forall2 (fun f rec => embedding re_match (mgraph m) (sgraph S) f /\ passes m S f /\ records (mgraph m) S f rec) fs recs /\
      (constrained (mgraph m) -> forall f, embedding re_match (mgraph m) (sgraph S) f -> passes m S f -> exists g, In g fs /\ same_on (mgraph m) f g) /\
      (forall i j f g, nth_error fs i = Some f -> nth_error fs j = Some g -> same_on (mgraph m) f g -> i = j).
  Proof.
    intros Ws (Wp & I1 & (r & R) & Dp) T E. destruct (tree_match_weak re_match S m Ws Wp r R Dp recs T I1 E) as (fs & F & C & U).
    exists fs. split; [|split; auto].
    - eapply Forall2_weak; [|exact F]. intros f rec (A & B & X). split; auto. apply weak_embedding; eauto.
    - intros Co f Ef P. apply C; auto. apply embedding_weak; auto.
  Qed.
End Emb.
