(** * Proofs: building a matrix with macros that already hold matches; empty sentences; features of patterns. *)
From Coq Require Import String NArith ZArith Bool Arith Permutation Lia List.
From Verif Require Import Base BaseLemmas Str VocabModel CorpusModel ParModel ParProofs MxModel MxSpec MxOpsProofs DepModel DepSpec DepGraphProofs DepMatchProofs DepEmbProofs DepMainProofs DepTotalProofs DepCountProofs DepReadProofs.
Import ListNotations.

Lemma Forall2_In_r {A B} (P : A -> B -> Prop) l l' y : Forall2 P l l' -> In y l' -> exists x, In x l /\ P x y.
Proof. induction 1 as [|a b l l' H F IH]; intros I; [destruct I|]. destruct I as [<-|I]; [exists a; cbn; auto|]. destruct (IH I) as (x & A1 & A2). exists x. cbn; auto. Qed.

Section Use.
  Context {L LM : Type} (match_line : L -> option LM) (separator : L -> bool) (get_col : LM -> pystr -> pystr) (f : fmt).
  Context {M : Type} (re_match : pystr -> pystr -> option M) (re_group : M -> Z -> res (option pystr)).
  Notation job := (dep_job match_line separator get_col f re_match).
  Definition pair_of token (mr : macro * mrec) (x : pystr * pystr) : Prop :=
    target re_match re_group (fst mr) token (snd mr) = Ok (fst x) /\ feature re_match re_group (fst mr) (snd mr) = Ok (snd x).
  Lemma pair_tf token mr x : pair_of token mr x <-> tf re_match re_group token mr = Ok x.
  Proof. unfold pair_of. symmetry. apply tf_ok. Qed.
  Lemma pairs_tf token l xs : Forall2 (pair_of token) l xs <-> rmapm (tf re_match re_group token) l = Ok xs.
  Proof.
    split; intros F.
    - apply rmapm_forall2. eapply Forall2_weak; [|exact F]. intros a b. apply pair_tf.
    - apply rmapm_ok in F. eapply Forall2_weak; [|exact F]. intros a b. apply pair_tf.
  Qed.
  Lemma extended_fresh sgs targets m m0 : extended re_match sgs (targeted targets (bare m)) m0 -> extended re_match sgs (targeted targets m) (with_matched (targeted targets m) (matched m ++ matched m0)).
  Proof.
    intros (rss & F & ->). exists rss. split; [|reflexivity]. eapply Forall2_weak; [|exact F]. intros s r. cbn beta.
    change (targeted targets (bare m)) with (with_matched (targeted targets m) []). rewrite tree_match_matched. auto.
  Qed.
  (** The result of a file with macros that hold matches, from the result with fresh macros *)
  Definition refill targets (macros ms0 : list macro) : list macro :=
    map (fun mm => with_matched (targeted targets (fst mm)) (matched (fst mm) ++ matched (snd mm))) (combine macros ms0).
  Lemma job_fresh token targets macros fid lines ms0 : job token targets (read_templates macros) fid lines = Some (Ok ms0) -> job token targets macros fid lines = Some (Ok (refill targets macros ms0)).
  Proof.
    intros E. apply dep_job_ok in E. destruct E as (sgs & F & G). apply dep_job_ok. exists sgs. split; auto. clear F. unfold refill, read_templates in *.
    revert ms0 G. induction macros as [|m macros IH]; intros ms0 G; inversion G as [|? m0 ? ms0' G1 G2]; subst; cbn [combine map fst snd]; constructor; auto.
    apply extended_fresh. exact G1.
  Qed.
  Lemma tf_targeted token targets m r : tf re_match re_group token (targeted targets m, r) = tf re_match re_group token (m, r).
  Proof.
    rewrite <- (tf_bare re_match re_group token m). eapply (extended_bare re_match re_group [] targets m (targeted targets m)).
    exists []. split; [constructor|]. cbn [concat]. rewrite app_nil_r. symmetry. apply with_matched_id.
  Qed.
  Lemma refill_pairs token targets macros ms0 old new : length ms0 = length macros -> (forall m m0, In (m, m0) (combine macros ms0) -> forall r, tf re_match re_group token (m0, r) = tf re_match re_group token (m, r)) ->
    Forall2 (pair_of token) (all_matches macros) old -> Forall2 (pair_of token) (all_matches ms0) new ->
    exists p, Forall2 (pair_of token) (all_matches (refill targets macros ms0)) p /\ Permutation p (old ++ new).
  Proof.
    revert ms0 old new. induction macros as [|m macros IH]; intros [|m0 ms0] old new Len H Fo Fn; try discriminate.
    - inversion Fo; inversion Fn; subst. exists []. split; [constructor|auto].
    - injection Len as Len. unfold all_matches in *. cbn [flat_map refill combine map fst snd] in *.
      apply Forall2_app_inv_l in Fo, Fn. destruct Fo as (o1 & o2 & Fo1 & Fo2 & ->), Fn as (n1 & n2 & Fn1 & Fn2 & ->).
      destruct (IH ms0 o2 n2 Len (fun a b I => H a b (or_intror I)) Fo2 Fn2) as (p & Fp & P).
      exists ((o1 ++ n1) ++ p). split.
      + apply Forall2_app; auto. cbn [matched with_matched]. rewrite map_app. apply Forall2_app.
        * apply pairs_tf. apply pairs_tf in Fo1. rewrite rmapm_map in Fo1 |- *. rewrite <- Fo1. apply rmapm_ext. intros r _. cbn beta.
          rewrite <- (tf_bare re_match re_group token (with_matched _ _)). change (bare (with_matched (targeted targets m) (matched m ++ matched m0))) with (bare (targeted targets m)). rewrite tf_bare. apply tf_targeted.
        * apply pairs_tf. apply pairs_tf in Fn1. rewrite rmapm_map in Fn1 |- *. rewrite <- Fn1. apply rmapm_ext. intros r _. cbn beta.
          rewrite (H m m0) by (left; auto).
          rewrite <- (tf_bare re_match re_group token (with_matched _ _)). change (bare (with_matched (targeted targets m) (matched m ++ matched m0))) with (bare (targeted targets m)). rewrite tf_bare. apply tf_targeted.
      + rewrite P, <- !app_assoc. apply Permutation_app_head. rewrite !app_assoc. apply Permutation_app_tail. apply Permutation_app_comm.
  Qed.
  Lemma job_tf token token' targets macros fid lines ms0 : job token targets (read_templates macros) fid lines = Some (Ok ms0) ->
    forall m m0, In (m, m0) (combine macros ms0) -> forall r, tf re_match re_group token' (m0, r) = tf re_match re_group token' (m, r).
  Proof.
    intros E. apply dep_job_ok in E. destruct E as (sgs & _ & G). unfold read_templates in G. revert ms0 G.
    induction macros as [|m macros IH]; intros ms0 G a b I r; inversion G as [|? m0 ? ms0' G1 G2]; subst; [destruct I|]. cbn [combine] in I. destruct I as [I|I]; [|eapply IH; eauto].
    injection I as <- <-. erewrite extended_bare by exact G1. change (bare (with_matched m [])) with (bare m). apply tf_bare.
  Qed.
  Lemma files_pairs token targets macros files mss0 old news :
    Forall2 (fun file ms0 => exists lines, snd file = Ok lines /\ job token targets (read_templates macros) (fst file) lines = Some (Ok ms0)) files mss0 ->
    Forall2 (pair_of token) (all_matches macros) old -> Forall2 (pair_of token) (flat_map all_matches mss0) news ->
    exists mss p, Forall2 (fun file ms => exists lines, snd file = Ok lines /\ job token targets macros (fst file) lines = Some (Ok ms)) files mss /\
      Forall2 (pair_of token) (flat_map all_matches mss) p /\ Permutation p (concat (map (fun _ => old) files) ++ news).
  Proof.
    intros F Fo. revert news. induction F as [|file ms0 files mss0 (lines & El & E) F IH]; intros news Fn.
    - exists [], []. split; [constructor|]. inversion Fn; subst. split; [constructor|auto].
    - cbn [flat_map] in Fn. apply Forall2_app_inv_l in Fn. destruct Fn as (n1 & n2 & Fn1 & Fn2 & ->). destruct (IH n2 Fn2) as (mss & p & F1 & F2 & P).
      assert (Len : length ms0 = length macros). { apply job_len in E. unfold read_templates in E. rewrite map_length in E. exact E. }
      destruct (refill_pairs token targets macros ms0 old n1 Len (job_tf token token targets macros (fst file) lines ms0 E) Fo Fn1) as (p1 & Fp1 & P1).
      exists (refill targets macros ms0 :: mss), (p1 ++ p). split; [|split].
      + constructor; auto. exists lines. split; auto. now apply job_fresh.
      + cbn [flat_map]. now apply Forall2_app.
      + cbn [map concat]. rewrite P, P1, <- !app_assoc. apply Permutation_app_head. rewrite !app_assoc. apply Permutation_app_tail. apply Permutation_app_comm.
  Qed.
  Lemma count_copies {A B} `{EqDec A} (x : A) (old : list A) (l : list B) : count x (concat (map (fun _ => old) l)) = length l * count x old.
  Proof. induction l as [|y l IH]; cbn [map concat length]; auto. rewrite count_app, IH. lia. Qed.
  Lemma build_again token targets macros files mss0 old news nw sched st : 1 <= nw ->
    Forall2 (fun file ms0 => exists lines, snd file = Ok lines /\ job token targets (read_templates macros) (fst file) lines = Some (Ok ms0)) files mss0 ->
    Forall2 (pair_of token) (all_matches macros) old -> Forall2 (pair_of token) (flat_map all_matches mss0) news -> old ++ news <> [] ->
    run (dep_pool_job match_line separator get_col f re_match token targets macros) dep_finish (start tt nw files) sched = Some st -> joined st = true ->
    exists X, dep_result re_match re_group token macros (length files) st = Some (Ok X) /\
      forall t c, val X t c = ((1 + Z.of_nat (length files)) * Z.of_nat (count (t, c) old) + Z.of_nat (count (t, c) news))%Z.
  Proof.
    intros N F Fo Fn Ne E Jn. destruct (files_pairs token targets macros files mss0 old news F Fo Fn) as (mss & p & F1 & F2 & P).
    pose proof (pool_result match_line separator get_col f re_match re_group token targets macros files mss nw sched st N F1 E Jn (old ++ p)) as R.
    specialize (R (Forall2_app Fo F2)). destruct (old ++ p) as [|x0 l0] eqn:Eop.
    - exfalso. apply app_eq_nil in Eop. destruct Eop as (-> & ->). apply Permutation_nil in P. apply app_eq_nil in P. destruct P as (_ & ->). now apply Ne.
    - destruct R as (X & R & C). exists X. split; auto. intros t c. destruct C as (_ & _ & _ & _ & _ & V). rewrite V, <- Eop, count_app, (count_perm _ _ _ P), count_app, count_copies. lia.
  Qed.

  (** ** No targets: nothing is ever counted. *)
  Lemma job_none token macros fid lines ms : job token None macros fid lines = Some (Ok ms) -> map matched ms = map matched macros.
  Proof.
    intros E. apply dep_job_ok in E. destruct E as (sgs & _ & G). induction G as [|m m' macros ms (rss & F & ->) _ IH]; auto. cbn [map matched with_matched]. f_equal; auto.
    assert (X : concat rss = []). { clear - F. induction F as [|sg rs sgs rss H _ IH]; auto. cbn [concat]. rewrite IH. unfold targeted in H. cbn [handler_targets] in H. apply tree_match_nil in H. now subst. }
    rewrite X. apply app_nil_r.
  Qed.
  Lemma build_none token macros files nw sched st :
    run (dep_pool_job match_line separator get_col f re_match token None (read_templates macros)) dep_finish (start tt nw files) sched = Some st -> joined st = true ->
    dep_result re_match re_group token (read_templates macros) (length files) st = None \/ dep_result re_match re_group token (read_templates macros) (length files) st = Some (Err ValueError).
  Proof.
    intros E Jn. set (W := work match_line separator get_col f re_match token None (read_templates macros)).
    unfold dep_result. destruct (read_n (length files) st) as [items|] eqn:R; [right|auto]. cbn [option_map]. f_equal.
    destruct (mp_correct (dep_pool_job match_line separator get_col f re_match token None (read_templates macros)) dep_finish W (job_work match_line separator get_col f re_match token None (read_templates macros)) (fun _ => eq_refl) nw files sched st items E Jn R) as (outs & Fo & P).
    destruct (files_works _ _ _ _ _ _ _ _ _ _ Fo) as (mss & -> & FM).
    assert (Mt : forall ms, In ms mss -> all_matches ms = []).
    { intros ms I. destruct (Forall2_In_r _ _ _ _ FM I) as (file & _ & lines & _ & J). apply job_none in J. unfold read_templates in J. rewrite map_map in J. cbn [matched with_matched] in J.
      unfold all_matches. clear - J. revert macros J. induction ms as [|m ms IH]; intros [|m0 macros] J; try discriminate; auto. cbn [map flat_map] in *. injection J as J1 J2. rewrite J1, (IH macros J2). reflexivity. }
    assert (Mr : all_matches (read_templates macros) = []) by (clear; unfold all_matches, read_templates; induction macros; auto).
    destruct (merged_pairs match_line separator get_col f re_match re_group token token None (read_templates macros) files items _ mss FM eq_refl P []) as (pairs' & E1 & P1).
    { rewrite Mr. cbn [app]. assert (X : flat_map all_matches mss = []) by (clear - Mt; induction mss as [|ms mss IH]; auto; cbn [flat_map]; rewrite Mt, IH; auto; [intros; apply Mt; cbn; auto|cbn; auto]). rewrite X. reflexivity. }
    apply Permutation_nil in P1. subst pairs'. apply pairs_tf in E1. apply (build_ok re_match re_group (dep_process_results (read_templates macros) items) token []). exact E1.
  Qed.

  (** ** An empty sentence *)
  Lemma empty_fails token targets macros fid lines : In [] (read_sentence match_line separator lines) -> forall ms, job token targets macros fid lines <> Some (Ok ms).
  Proof.
    intros I ms E. apply dep_job_ok in E. destruct E as (sgs & F & _). destruct (Forall2_In_l _ _ _ _ F I) as (sg & _ & X). discriminate.
  Qed.
  Lemma empty_blocks token targets macros files fid lines nw sched st : In (fid, Ok lines) files -> In [] (read_sentence match_line separator lines) ->
    run (dep_pool_job match_line separator get_col f re_match token targets macros) dep_finish (start tt nw files) sched = Some st -> joined st = true ->
    dep_result re_match re_group token macros (length files) st = None.
  Proof.
    intros I Em E Jn. set (W := work match_line separator get_col f re_match token targets macros).
    unfold dep_result. rewrite (mp_blocks (dep_pool_job match_line separator get_col f re_match token targets macros) dep_finish W (job_work match_line separator get_col f re_match token targets macros) (fun _ => eq_refl) nw files sched st E Jn); auto.
    exists (fid, Ok lines). destruct (W (fid, Ok lines)) as [x|e] eqn:Wx; [|eauto]. exfalso. apply work_ok in Wx. destruct Wx as (l & ms & El & J & _). cbn in El. injection El as <-. eapply empty_fails; eauto.
  Qed.
  (** Two separators with no matching line between them (or a separator before any matching line) give an empty sentence. *)
  Lemma segs_skip l1 : forall lid cur l2, exists lid' cur', forall s, In s (segs match_line separator lid' cur' l2) -> In s (segs match_line separator lid cur (l1 ++ l2)).
  Proof.
    induction l1 as [|x l1 IH]; intros lid cur l2; [exists lid, cur; auto|]. cbn [app segs]. set (cur' := if is_some (match_line x) then cur ++ [(S lid, x)] else cur). destruct (separator x).
    - destruct (IH (S lid) [] l2) as (a & b & H). exists a, b. intros s I. right. auto.
    - apply (IH (S lid) cur').
  Qed.
  Lemma segs_blank l1 : forall lid x l2, (forall y, In y l1 -> match_line y = None /\ separator y = false) -> match_line x = None -> separator x = true -> In [] (segs match_line separator lid [] (l1 ++ x :: l2)).
  Proof.
    induction l1 as [|y l1 IH]; intros lid x l2 H Mx Sx; cbn [app segs].
    - rewrite Mx. cbn [is_some]. rewrite Sx. left. auto.
    - destruct (H y (or_introl eq_refl)) as (-> & ->). cbn [is_some]. apply IH; auto. intros z Iz. apply H. cbn; auto.
  Qed.
  Lemma blank_sentence l1 a l2 b l3 : separator a = true -> separator b = true -> match_line b = None -> (forall y, In y l2 -> match_line y = None) ->
    In [] (read_sentence match_line separator (l1 ++ a :: l2 ++ b :: l3)).
  Proof.
    intros Sa Sb Mb H. rewrite segs_read. destruct (segs_skip l1 0 [] (a :: l2 ++ b :: l3)) as (lid & cur & K). apply K. cbn [segs]. rewrite Sa. right. clear K.
    assert (exists l2a x l2b, l2 ++ b :: l3 = l2a ++ x :: l2b /\ (forall y, In y l2a -> match_line y = None /\ separator y = false) /\ match_line x = None /\ separator x = true) as (l2a & x & l2b & -> & A & B & C).
    { clear - H Sb Mb. induction l2 as [|y l2 IH]; [exists [], b, l3; repeat split; auto; destruct H0|]. destruct (separator y) eqn:Sy.
      - exists [], y, (l2 ++ b :: l3). repeat split; auto; try (now destruct H0). apply H; cbn; auto.
      - destruct IH as (p & x & q & E & A & B & C); [intros; apply H; cbn; auto|]. exists (y :: p), x, q. split; [cbn; now rewrite E|]. split; auto. intros z [<-|Iz]; auto. split; auto. apply H; cbn; auto. }
    now apply segs_blank.
  Qed.

  (** ** Full features *)
  Lemma full_leaf m r : target_idx m = 1%Z -> feature_idx m = (-1)%Z -> (forall b, ~ edge (mgraph m) 1%Z b) -> feature re_match re_group m r = Ok tgt.
  Proof.
    intros T F S. unfold feature. rewrite F. cbn [Z.eqb]. unfold feature_full. rewrite T. cbn [Z.eqb rbind Pos.eqb preorder].
    assert (X : succs (mgraph m) 1%Z = []). { destruct (succs (mgraph m) 1%Z) as [|b l] eqn:E; auto. exfalso. apply (S b). apply succs_In. rewrite E. cbn; auto. }
    rewrite X. reflexivity.
  Qed.
End Use.
