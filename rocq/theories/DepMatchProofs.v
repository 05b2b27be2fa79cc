(** * Proofs about pattern matching: the level-wise search enumerates every mapping once. *)
From Coq Require Import String NArith ZArith Bool Arith Lia Permutation List.
From Verif Require Import Base BaseLemmas Str VocabModel CorpusModel ParModel MxModel MxProofs DepModel DepSpec DepGraphProofs.
Import ListNotations.

(** ** Loops that may raise *)
Lemma rbind_ok {A B} (r : res A) (f : A -> res B) y : rbind r f = Ok y -> exists x, r = Ok x /\ f x = Ok y.
Proof. destruct r; cbn; [eauto|discriminate]. Qed.
Lemma rmap_ok {A B} (f : A -> B) (r : res A) y : rmap f r = Ok y -> exists x, r = Ok x /\ y = f x.
Proof. destruct r; cbn; [|discriminate]. injection 1 as <-. eauto. Qed.
Lemma rmapm_ok {A B} (f : A -> res B) l : forall r, rmapm f l = Ok r -> Forall2 (fun x y => f x = Ok y) l r.
Proof.
  induction l as [|x l IH]; cbn [rmapm]; intros r E; [injection E as <-; constructor|].
  apply rbind_ok in E. destruct E as (y & E1 & E). apply rbind_ok in E. destruct E as (ys & E2 & E). injection E as <-. constructor; auto.
Qed.
Lemma rmapm_forall2 {A B} (f : A -> res B) l r : Forall2 (fun x y => f x = Ok y) l r -> rmapm f l = Ok r.
Proof. induction 1; cbn [rmapm]; auto. rewrite H, IHForall2. reflexivity. Qed.
Lemma rflat_ok {A B} (f : A -> res (list B)) l r : rflat f l = Ok r -> exists ls, Forall2 (fun x y => f x = Ok y) l ls /\ r = concat ls.
Proof. unfold rflat. intros E. apply rmap_ok in E. destruct E as (ls & E & ->). apply rmapm_ok in E. eauto. Qed.
Lemma rflat_In {A B} (f : A -> res (list B)) l r : rflat f l = Ok r -> forall y, In y r <-> exists x ys, In x l /\ f x = Ok ys /\ In y ys.
Proof.
  intros E. apply rflat_ok in E. destruct E as (ls & F & ->). intros y. induction F as [|x ys l ls E F IH]; cbn [concat].
  - split; [intros []|intros (x & ys & [] & _)].
  - rewrite in_app_iff, IH. split.
    + intros [I|(x' & ys' & I & E' & J)]; [exists x, ys; cbn; auto|exists x', ys'; cbn; auto].
    + intros (x' & ys' & [<-|I] & E' & J); [left; congruence|right; eauto].
Qed.
Lemma rflat_all {A B} (f : A -> res (list B)) l r : rflat f l = Ok r -> forall x, In x l -> exists ys, f x = Ok ys.
Proof.
  intros E. apply rflat_ok in E. destruct E as (ls & F & _). induction F; [intros x []|]. intros z [<-|I]; eauto.
Qed.
Lemma rflat_NoDup {A B} (f : A -> res (list B)) l r : rflat f l = Ok r -> NoDup l ->
  (forall x ys, In x l -> f x = Ok ys -> NoDup ys) ->
  (forall x x' ys ys' y, In x l -> In x' l -> f x = Ok ys -> f x' = Ok ys' -> In y ys -> In y ys' -> x = x') -> NoDup r.
Proof.
  intros E. apply rflat_ok in E. destruct E as (ls & F & ->). induction F as [|x ys l ls E F IH]; intros D N1 N2; cbn [concat]; [constructor|].
  inversion D; subst. apply NoDup_app'.
  - eapply N1; cbn; eauto.
  - apply IH; auto; intros; [eapply N1|eapply N2]; cbn; eauto.
  - intros y I J. apply in_concat in J. destruct J as (ys' & J1 & J2).
    assert (X : exists x', In x' l /\ f x' = Ok ys').
    { clear - F J1. induction F; [destruct J1|]. destruct J1 as [<-|J1]; [exists x; cbn; auto|]. destruct (IHF J1) as (x' & A1 & A2). exists x'; cbn; auto. }
    destruct X as (x' & X1 & X2). assert (x = x') by (eapply N2; cbn; eauto). subst. auto.
Qed.
Lemma rfilter_In {A} (f : A -> res bool) l : forall r, rfilter f l = Ok r -> forall x, In x r <-> In x l /\ f x = Ok true.
Proof.
  induction l as [|y l IH]; cbn [rfilter]; intros r E x; [injection E as <-; cbn; tauto|].
  apply rbind_ok in E. destruct E as (b & E1 & E). apply rmap_ok in E. destruct E as (r' & E2 & ->). specialize (IH r' E2 x).
  destruct b; cbn [In]; rewrite IH; split.
  - intros [<-|I]; tauto.
  - tauto.
  - tauto.
  - intros [[<-|I] H]; [congruence|auto].
Qed.
Lemma rfilter_all {A} (f : A -> res bool) l : forall r, rfilter f l = Ok r -> forall x, In x l -> exists b, f x = Ok b.
Proof.
  induction l as [|y l IH]; cbn [rfilter]; intros r E x I; [destruct I|].
  apply rbind_ok in E. destruct E as (b & E1 & E). apply rmap_ok in E. destruct E as (r' & E2 & ->). destruct I as [<-|I]; eauto.
Qed.
Lemma rfilter_NoDup {A} (f : A -> res bool) l : forall r, rfilter f l = Ok r -> NoDup l -> NoDup r.
Proof.
  induction l as [|y l IH]; cbn [rfilter]; intros r E D; [injection E as <-; constructor|].
  apply rbind_ok in E. destruct E as (b & E1 & E). apply rmap_ok in E. destruct E as (r' & E2 & ->). inversion D; subst.
  destruct b; auto. constructor; auto. intros I. apply (rfilter_In _ _ _ E2) in I. tauto.
Qed.
Lemma look_ok {K V} `{EqDec K} (d : dict K V) k v : look d k = Ok v <-> dget d k = Some v.
Proof. unfold look. destruct (dget d k); split; intros E; inversion E; auto. Qed.

Lemma dset_fresh {K V} `{EqDec K} (d : dict K V) k v : ~ In k (dkeys d) -> dset d k v = d ++ [(k, v)].
Proof.
  induction d as [|[k' v'] d IH]; cbn; auto. intros N. destruct (eqdec k k'); [subst; tauto|]. rewrite IH; tauto.
Qed.
Lemma dupdate_fresh {K V} `{EqDec K} (d2 : dict K V) : forall d, NoDup (dkeys d ++ dkeys d2) -> dupdate d d2 = d ++ d2.
Proof.
  induction d2 as [|[k v] d2 IH]; intros d N; [symmetry; apply app_nil_r|].
  change (dupdate (dset d k v) d2 = d ++ (k, v) :: d2). cbn [dkeys map fst snd] in *. fold (dkeys d2) in N.
  assert (F : ~ In k (dkeys d)). { apply NoDup_remove_2 in N. rewrite in_app_iff in N. tauto. }
  rewrite dset_fresh by auto. rewrite IH.
  - rewrite <- app_assoc. reflexivity.
  - unfold dkeys at 1. rewrite map_app. cbn [map fst]. rewrite <- app_assoc. exact N.
Qed.
Lemma dict_of_id {K V} `{EqDec K} (l : list (K * V)) : NoDup (map fst l) -> dict_of l = l.
Proof. intros N. change (dict_of l) with (dupdate [] l). now apply dupdate_fresh. Qed.

Lemma NoDup_app_l {A} (a b : list A) : NoDup (a ++ b) -> NoDup a.
Proof. induction a; cbn; intros N; [constructor|]. inversion N; subst. constructor; auto. rewrite in_app_iff in *. tauto. Qed.
Lemma NoDup_app_r {A} (a b : list A) : NoDup (a ++ b) -> NoDup b.
Proof. induction a; cbn; intros N; auto. inversion N; subst. auto. Qed.

(** ** Node and edge constraints *)
Section Match.
  Context {M : Type}.
  Variable re_match : pystr -> pystr -> option M.

  Lemma match_attrs_some pattern : forall a, (exists d, match_attrs re_match pattern a = Ok (Some d)) <-> satisfies re_match pattern a.
  Proof.
    induction pattern as [|[attr regex] l IH]; intros a; cbn [match_attrs].
    - split; [intros _ x y []|intros _; eauto].
    - split.
      + intros (d & E). apply rbind_ok in E. destruct E as (s & E1 & E). apply look_ok in E1. apply rbind_ok in E. destruct E as (m & E2 & E).
        destruct m as [m|]; [|discriminate]. apply rmap_ok in E. destruct E as (od & E3 & E). destruct od; [|discriminate].
        unfold py_match in E2. destruct regex as [r|], s as [s|]; try discriminate. injection E2 as E2.
        assert (S : satisfies re_match l a) by (apply IH; eauto).
        intros x y [X|I]; [injection X as <- <-; exists r, s; split; auto; split; auto; congruence|eauto].
      + intros S. destruct (S attr regex (or_introl eq_refl)) as (r & s & -> & E & N).
        destruct (proj2 (IH a)) as (d & E3); [intros x y I; apply S; right; auto|].
        unfold look. rewrite E. cbn [rbind py_match]. destruct (re_match r s) as [m|]; [|congruence]. rewrite E3. cbn. eauto.
  Qed.
  Lemma match_attrs_truthy pattern a m : match_attrs re_match pattern a = Ok m -> (truthy m = true <-> pattern <> [] /\ satisfies re_match pattern a).
  Proof.
    intros E. split.
    - intros T. destruct m as [[|x d]|]; try discriminate. split; [|apply match_attrs_some; eauto]. intros ->. discriminate.
    - intros [N S]. apply match_attrs_some in S. destruct S as (d & E'). rewrite E in E'. injection E' as ->.
      destruct pattern as [|[attr regex] l]; [congruence|]. cbn [match_attrs] in E. apply rbind_ok in E. destruct E as (s & E1 & E).
      apply rbind_ok in E. destruct E as (m & E2 & E). destruct m; [|discriminate]. apply rmap_ok in E. destruct E as (od & _ & E).
      destruct od; [|discriminate]. injection E as ->. reflexivity.
  Qed.

  (** Pattern node [v] can be mapped to sentence node [w]; pattern edge to sentence edge. *)
  Definition nok (p s : graph) (v w : Z) : Prop :=
    exists pa a, dget (gnodes p) v = Some pa /\ dget (gnodes s) w = Some a /\ pa <> [] /\ satisfies re_match pa a.
  Definition eok (p s : graph) (e e' : Z * Z) : Prop :=
    exists pa a, dget (gedges p) e = Some pa /\ dget (gedges s) e' = Some a /\ constraints pa <> [] /\ satisfies re_match (constraints pa) a.

  Lemma match_node_truthy p s w a v m : dget (gnodes s) w = Some a -> match_node re_match p a v = Ok m -> (truthy m = true <-> nok p s v w).
  Proof.
    intros Ea E. unfold match_node in E. destruct a as [|x a].
    - injection E as <-. split; [discriminate|]. intros (pa & a & _ & E2 & N & S). rewrite Ea in E2. injection E2 as <-.
      destruct pa as [|[attr regex] pa]; [congruence|]. destruct (S attr regex (or_introl eq_refl)) as (r & s' & _ & X & _). discriminate.
    - apply rbind_ok in E. destruct E as (pa & E1 & E). apply look_ok in E1. rewrite (match_attrs_truthy _ _ _ E). split.
      + intros [N S]. exists pa, (x :: a). auto.
      + intros (pa' & a' & E2 & E3 & N & S). rewrite E1 in E2. rewrite Ea in E3. injection E2 as <-. injection E3 as <-. auto.
  Qed.
  Lemma match_edge_truthy p s e' a e m : dget (gedges s) e' = Some a -> match_edge re_match p a e = Ok m -> (truthy m = true <-> eok p s e e').
  Proof.
    intros Ea E. unfold match_edge in E. apply rbind_ok in E. destruct E as (pa & E1 & E). apply look_ok in E1. rewrite (match_attrs_truthy _ _ _ E). split.
    - intros [N S]. exists pa, a. auto.
    - intros (pa' & a' & E2 & E3 & N & S). rewrite E1 in E2. rewrite Ea in E3. injection E2 as <-. injection E3 as <-. auto.
  Qed.

  Variables p s : graph.
  Hypothesis Ws : gwf s.
  Hypothesis Wp : gwf p.

  (** ** match_successors *)
  Lemma candidates_In scur fcur fsuc onemap l : ms_candidates re_match s p scur fcur fsuc onemap = Ok l -> forall w,
    In w l <-> edge s scur w /\ ~ In w (dkeys onemap) /\ nok p s fsuc w /\ eok p s (fcur, fsuc) (scur, w).
  Proof.
    intros E w. unfold ms_candidates in E. pose proof (rfilter_all _ _ _ E w) as All. rewrite (rfilter_In _ _ _ E), succs_In in *. clear E. split.
    - intros [I E]. destruct (dmem onemap w) eqn:D; [discriminate|]. apply dmem_nIn in D.
      apply rbind_ok in E. destruct E as (a & E1 & E). apply rbind_ok in E. destruct E as (b & E2 & E). apply rbind_ok in E. destruct E as (vm & E3 & E).
      apply rbind_ok in E. destruct E as (em & E4 & E). injection E as E. apply andb_true_iff in E. destruct E as [T1 T2]. apply look_ok in E1, E2.
      rewrite (match_node_truthy _ _ _ _ _ _ E1 E3) in T1. rewrite (match_edge_truthy _ _ _ _ _ _ E2 E4) in T2. auto.
    - intros (I & N & T1 & T2). split; auto. destruct (All I) as (b & E). apply dmem_nIn in N. rewrite N in *.
      rewrite E. f_equal. apply rbind_ok in E. destruct E as (a & E1 & E). apply rbind_ok in E. destruct E as (b' & E2 & E). apply rbind_ok in E. destruct E as (vm & E3 & E).
      apply rbind_ok in E. destruct E as (em & E4 & E). injection E as <-. apply look_ok in E1, E2.
      apply (match_node_truthy _ _ _ _ _ _ E1 E3) in T1. apply (match_edge_truthy _ _ _ _ _ _ E2 E4) in T2. rewrite T1, T2. reflexivity.
  Qed.
  Lemma candidates_NoDup scur fcur fsuc onemap l : ms_candidates re_match s p scur fcur fsuc onemap = Ok l -> NoDup l.
  Proof. intros E. eapply rfilter_NoDup; [exact E|]. apply succs_NoDup; auto. Qed.

  (** A partial assignment of the successors [fs] of [fcur], as stored during the search: sentence node -> pattern node *)
  Definition om_ok (scur fcur : Z) (fs : list Z) (om : list (Z * Z)) : Prop :=
    map snd om = fs /\ NoDup (map fst om) /\ Forall (fun sf => edge s scur (fst sf) /\ nok p s (snd sf) (fst sf) /\ eok p s (fcur, snd sf) (scur, fst sf)) om.

  Lemma app_last_eq {A} (a b : list A) x y : a ++ [x] = b ++ [y] -> a = b /\ x = y.
  Proof. apply app_inj_tail. Qed.
  Lemma ms_fold scur fcur : forall fs done maps r,
    NoDup maps -> (forall om, In om maps <-> om_ok scur fcur done om) ->
    rfold (fun mapping fsuc => rflat (fun onemap => rmap (map (fun ssuc => dset onemap ssuc fsuc))
                                                         (ms_candidates re_match s p scur fcur fsuc onemap)) mapping) fs maps = Ok r ->
    NoDup r /\ forall om, In om r <-> om_ok scur fcur (done ++ fs) om.
  Proof.
    induction fs as [|f fs IH]; intros done maps r D H E; cbn [rfold] in E.
    - injection E as <-. rewrite app_nil_r. auto.
    - apply rbind_ok in E. destruct E as (maps' & E1 & E). replace (done ++ f :: fs) with ((done ++ [f]) ++ fs) by now rewrite <- app_assoc.
      apply (IH (done ++ [f]) maps'); auto; clear IH E.
      + apply (rflat_NoDup _ _ _ E1); auto.
        * intros om ys I E. apply rmap_ok in E. destruct E as (cs & E & ->). apply nodup_map_inj; [|eapply candidates_NoDup; eauto].
          intros x y Ix Iy X. apply (candidates_In _ _ _ _ _ E) in Ix, Iy. rewrite !dset_fresh in X by tauto. apply app_last_eq in X. destruct X. congruence.
        * intros om om' ys ys' y I I' E E' J J'. apply rmap_ok in E, E'. destruct E as (cs & E & ->), E' as (cs' & E' & ->).
          apply in_map_iff in J, J'. destruct J as (x & <- & J), J' as (x' & X & J'). apply (candidates_In _ _ _ _ _ E) in J. apply (candidates_In _ _ _ _ _ E') in J'.
          rewrite !dset_fresh in X by tauto. apply app_last_eq in X. symmetry. tauto.
      + intros om. rewrite (rflat_In _ _ _ E1). split.
        * intros (om0 & ys & I & E & J). apply rmap_ok in E. destruct E as (cs & E & ->). apply in_map_iff in J. destruct J as (w & <- & J).
          apply (candidates_In _ _ _ _ _ E) in J. destruct J as (J1 & J2 & J3 & J4). rewrite dset_fresh by auto. apply H in I. destruct I as (I1 & I2 & I3).
          split; [|split].
          -- rewrite map_app, I1. reflexivity.
          -- rewrite map_app. apply NoDup_app'; [auto|repeat constructor; intros []|]. intros x X [<-|[]]. auto.
          -- apply Forall_app. split; auto.
        * intros (O1 & O2 & O3). destruct om as [|z om] using rev_ind; [destruct done; discriminate|]. clear IHom.
          rewrite map_app in *. cbn [map] in *. apply app_last_eq in O1. destruct O1 as [O1 <-]. destruct z as [w f].
          apply Forall_app in O3. destruct O3 as [O3 O4]. inversion O4; subst. cbn [fst snd] in *.
          assert (I : In om maps). { apply H. split; auto. split; auto. eapply NoDup_remove_1 in O2. rewrite app_nil_r in O2. auto. }
          destruct (rflat_all _ _ _ E1 om I) as (ys & E). exists om, ys. split; auto. split; auto. apply rmap_ok in E. destruct E as (cs & E & ->).
          assert (N : ~ In w (dkeys om)). { apply NoDup_remove_2 in O2. rewrite app_nil_r in O2. auto. }
          apply in_map_iff. exists w. split; [now apply dset_fresh|]. apply (candidates_In _ _ _ _ _ E). tauto.
  Qed.

  (** An assignment of all successors of [fn], mapped to successors of [sn] *)
  Definition piece_ok (fs : Z * Z) (m : list (Z * Z)) : Prop :=
    map fst m = succs p (fst fs) /\ NoDup (map snd m) /\
    Forall (fun x => edge s (snd fs) (snd x) /\ nok p s (fst x) (snd x) /\ eok p s (fst fs, fst x) (snd fs, snd x)) m.
  Lemma match_successors_ok sn fn b l : match_successors re_match s p sn fn = Ok (b, l) -> out_degree p fn <> 0 ->
    b = negb (length l =? 0) /\ NoDup l /\ forall m, In m l <-> piece_ok (fn, sn) m.
  Proof.
    unfold match_successors. intros E O. apply Nat.eqb_neq in O. rewrite O in E. apply rmap_ok in E. destruct E as (maps & E & X). injection X as -> ->.
    apply (ms_fold sn fn (succs p fn) []) in E.
    2:{ repeat constructor; intros []. }
    2:{ intros om. split; [intros [<-|[]]; repeat constructor|]. intros (X & _). destruct om; [left; auto|discriminate]. }
    destruct E as [D H]. cbn [app] in H. rewrite map_length. split; auto.
    assert (Inv : forall om, In om maps -> invert om = map (fun kv => (snd kv, fst kv)) om).
    { intros om I. apply H in I. destruct I as (I & _). unfold invert. apply dict_of_id. rewrite map_map. change (NoDup (map snd om)). rewrite I. apply succs_NoDup; auto. }
    assert (Sw : forall om : list (Z * Z), map (fun kv => (snd kv, fst kv)) (map (fun kv => (snd kv, fst kv)) om) = om).
    { intros om. rewrite map_map. rewrite <- (map_id om) at 2. apply map_ext. intros [x y]; auto. }
    split.
    - apply nodup_map_inj; auto. intros x y I J X. rewrite !Inv in X by auto. rewrite <- (Sw x), X. apply Sw.
    - intros m. rewrite in_map_iff. split.
      + intros (om & <- & I). rewrite Inv by auto. apply H in I. destruct I as (I1 & I2 & I3). split; [|split].
        * rewrite map_map. exact I1.
        * rewrite map_map. exact I2.
        * apply Forall_forall. intros x Ix. apply in_map_iff in Ix. destruct Ix as (y & <- & Iy). rewrite Forall_forall in I3. apply I3 in Iy. exact Iy.
      + intros (P1 & P2 & P3). exists (map (fun kv => (snd kv, fst kv)) m).
        assert (I : In (map (fun kv => (snd kv, fst kv)) m) maps).
        { apply H. split; [|split].
          - rewrite map_map. exact P1.
          - rewrite map_map. exact P2.
          - apply Forall_forall. intros x Ix. apply in_map_iff in Ix. destruct Ix as (y & <- & Iy). rewrite Forall_forall in P3. apply P3 in Iy. exact Iy. }
        split; auto. rewrite Inv by auto. apply Sw.
  Qed.

  (** ** match_level *)
  Definition step_ok (prev cur : list (Z * Z)) : Prop := exists pieces, Forall2 piece_ok prev pieces /\ cur = concat pieces.
  Lemma step_keys prev cur : step_ok prev cur -> map fst cur = flat_map (succs p) (map fst prev).
  Proof.
    intros (ps & F & ->). induction F as [|x m prev ps (E & _) F IH]; cbn [map concat flat_map]; auto. rewrite map_app, E, IH. reflexivity.
  Qed.
  Lemma step_app prev x cur : step_ok (prev ++ [x]) cur <-> exists c m, step_ok prev c /\ piece_ok x m /\ cur = c ++ m.
  Proof.
    split.
    - intros (ps & F & ->). apply Forall2_app_inv_l in F. destruct F as (p1 & p2 & F1 & F2 & ->). inversion F2; subst. inversion H3; subst.
      exists (concat p1), y. rewrite concat_app. cbn [concat]. rewrite app_nil_r. split; [exists p1; auto|auto].
    - intros (c & m & (ps & F & ->) & P & ->). exists (ps ++ [m]). split; [apply Forall2_app; auto|]. rewrite concat_app. cbn [concat]. now rewrite app_nil_r.
  Qed.
  Definition olist_list {A} (r : option (list A)) : list A := match r with Some l => l | None => [] end.
  Lemma app_len_inj {A} (a b c d : list A) : a ++ b = c ++ d -> length a = length c -> a = c /\ b = d.
  Proof.
    revert c. induction a as [|x a IH]; intros [|y c] E L; try discriminate; auto. injection E as -> E. injection L as L. destruct (IH c E L). subst; auto.
  Qed.
  Lemma NoDup_prod_app {A} (g : list A -> list A -> list A) l : NoDup l -> forall maps, NoDup maps ->
    (forall c m, In c maps -> In m l -> g c m = c ++ m) -> (forall c c', In c maps -> In c' maps -> length c = length c') ->
    NoDup (flat_map (fun c => map (g c) l) maps).
  Proof.
    intros Dl. induction 1 as [|c maps N D IH]; intros G Len; cbn [flat_map]; [constructor|]. apply NoDup_app'.
    - apply nodup_map_inj; auto. intros x y I J E. rewrite !G in E by (cbn; auto). now apply app_inv_head in E.
    - apply IH; intros; [apply G|apply Len]; cbn; auto.
    - intros x I J. apply in_map_iff in I. destruct I as (m & <- & I). apply in_flat_map in J. destruct J as (c' & J1 & J). apply in_map_iff in J.
      destruct J as (m' & E & J). rewrite !G in E by (cbn; auto). apply app_len_inj in E; [|apply Len; cbn; auto]. destruct E; subst. auto.
  Qed.
  Lemma match_level_ok : forall prev done maps r,
    NoDup (flat_map (succs p) (map fst (done ++ prev))) ->
    NoDup maps -> (forall cm, In cm maps <-> step_ok done cm) ->
    match_level_from re_match s p prev maps = Ok r ->
    NoDup (olist_list r) /\ forall cm, In cm (olist_list r) <-> step_ok (done ++ prev) cm.
  Proof.
    induction prev as [|[fn sn] prev IH]; intros done maps r N D H E; cbn [match_level_from] in E.
    - injection E as <-. rewrite app_nil_r. auto.
    - replace (done ++ (fn, sn) :: prev) with ((done ++ [(fn, sn)]) ++ prev) in * by now rewrite <- app_assoc.
      destruct (out_degree p fn =? 0) eqn:O.
      + apply Nat.eqb_eq in O. unfold out_degree in O. assert (S0 : succs p fn = []) by (destruct (succs p fn); [auto|discriminate]).
        apply (IH (done ++ [(fn, sn)]) maps r); auto. intros cm. rewrite H, step_app. split.
        * intros X. exists cm, []. rewrite app_nil_r. split; auto. split; auto. split; [cbn; auto|]. split; constructor.
        * intros (c & m & X & (P & _) & ->). cbn [fst] in P. rewrite S0 in P. destruct m; [now rewrite app_nil_r|discriminate].
      + apply Nat.eqb_neq in O. apply rbind_ok in E. destruct E as ([b l] & E1 & E). destruct (match_successors_ok _ _ _ _ E1 O) as (B & Dl & Hl). cbn [fst snd] in E.
        destruct b.
        * eapply IH in E; [exact E|auto| |].
          -- clear E. apply NoDup_prod_app; auto.
             ++ intros c m I J. apply H in I. apply Hl in J. apply dupdate_fresh. unfold dkeys. rewrite (step_keys _ _ I). destruct J as (J & _). cbn [fst] in J. rewrite J.
                rewrite map_app, flat_map_app in N. apply NoDup_app_l in N. rewrite map_app, flat_map_app in N. cbn [map flat_map fst] in N. now rewrite app_nil_r in N.
             ++ intros c c' I J. apply H in I, J. rewrite <- (map_length fst c), <- (map_length fst c'), (step_keys _ _ I), (step_keys _ _ J). reflexivity.
          -- clear E. intros cm. rewrite step_app, in_flat_map. split.
             ++ intros (c & I & J). apply in_map_iff in J. destruct J as (m & <- & J). apply H in I. apply Hl in J. exists c, m. split; auto. split; auto.
                apply dupdate_fresh. unfold dkeys. rewrite (step_keys _ _ I). destruct J as (J & _). cbn [fst] in J. rewrite J.
                rewrite map_app, flat_map_app in N. apply NoDup_app_l in N. rewrite map_app, flat_map_app in N. cbn [map flat_map fst] in N. now rewrite app_nil_r in N.
             ++ intros (c & m & I & J & ->). exists c. split; [now apply H|]. apply in_map_iff. exists m. split; [|now apply Hl].
                apply dupdate_fresh. unfold dkeys. rewrite (step_keys _ _ I). destruct J as (J & _). cbn [fst] in J. rewrite J.
                rewrite map_app, flat_map_app in N. apply NoDup_app_l in N. rewrite map_app, flat_map_app in N. cbn [map flat_map fst] in N. now rewrite app_nil_r in N.
        * injection E as <-. cbn [olist_list]. split; [constructor|]. intros cm. split; [intros []|].
          intros (ps & F & _). apply Forall2_app_inv_l in F. destruct F as (p1 & p2 & F1 & F2 & _). apply Forall2_app_inv_l in F1. destruct F1 as (p3 & p4 & _ & F3 & _).
          inversion F3; subst. apply Hl in H2. destruct l; [destruct H2|discriminate].
  Qed.
End Match.
