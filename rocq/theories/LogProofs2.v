(** * Proofs about logging: the log file. *)
From Coq Require Import String NArith ZArith Bool Arith Lia List.
From Verif Require Import Base BaseLemmas Str LogModel LogSpec LogProofs.
Import ListNotations.
Local Open Scope string_scope.
Local Open Scope nat_scope.
Local Open Scope list_scope.

Section P.
  Context {A : Type} (merge : pystr -> A -> res pystr) (can_open : pystr -> bool).
  Notation rec := (@lrec A).
  Notation op := (@lop A).
  Notation state := (@lstate A).
  Notation run := (lrun merge can_open).
  Notation step := (lstep merge can_open).

  Definition user (h : handler) : Prop := match h with HUser _ _ => True | _ => False end.

  Lemma emit_file_other : forall h (r : rec) st f, (forall g, h = HFile g -> g <> f) -> contents (snd (emit merge h r st)) f = contents st f.
  Proof.
    intros h r st f H. destruct h as [fmt|g|i l]; cbn [emit].
    - destruct (default_format merge fmt r) as [[s|e] fmt']; reflexivity.
    - cbn [snd]. destruct (fmt_format merge file_fmt r); [|reflexivity]. unfold contents at 1. cbn [l_files].
      rewrite dget_dset_other; [reflexivity|]. intros E. exact (H g eq_refl (eq_sym E)).
    - reflexivity.
  Qed.
  Lemma call_file_other : forall hs (r : rec) st f, (forall g, In (HFile g) hs -> g <> f) ->
    contents (snd (call_handlers merge hs r st)) f = contents st f.
  Proof.
    induction hs as [|h hs IH]; intros r st f H; [reflexivity|]. rewrite call_cons. cbn zeta. cbn [snd].
    rewrite IH by (intros g G; apply H; right; exact G).
    destruct (hlevel h <=? r_lev r)%Z; [|reflexivity]. apply emit_file_other. intros g ->. apply H. left. reflexivity.
  Qed.
  Lemma call_users : forall hs (r : rec) st, Forall user hs -> fst (call_handlers merge hs r st) = hs.
  Proof.
    intros hs r st H. apply call_quiet. rewrite Forall_forall in *. intros h Hh. specialize (H h Hh). destruct h; [destruct H|exact I|exact I].
  Qed.
  Lemma users_file : forall hs f, Forall user hs -> ~ In (HFile f) hs.
  Proof. intros hs f H X. rewrite Forall_forall in H. exact (H _ X). Qed.

  Lemma level_word_name : forall l w, (30 <= l)%Z -> level_word l w <-> w = level_name l.
  Proof.
    intros l w H. unfold level_word, level_name.
    destruct (Z.eqb_spec l 50) as [-> |n5]; [split; [intros [[_ X]|[[X _]|[[X _]|[X _]]]]; try lia; exact X|intros ->; auto]|].
    destruct (Z.eqb_spec l 40) as [-> |n4]; [split; [intros [[X _]|[[_ X]|[[X _]|[_ [X _]]]]]; try lia; exact X|intros ->; auto]|].
    destruct (Z.eqb_spec l 30) as [-> |n3]; [split; [intros [[X _]|[[X _]|[[_ X]|[_ [_ [X _]]]]]]; try lia; exact X|intros ->; auto]|].
    destruct (Z.eqb_spec l 20); [lia|]. destruct (Z.eqb_spec l 10); [lia|]. destruct (Z.eqb_spec l 0); [lia|].
    split; [intros [[X _]|[[X _]|[[X _]|[_ [_ [_ X]]]]]]; try lia; exact X|intros ->; right; right; right; auto].
  Qed.

  Lemma emit_file : forall f (r : rec) st, (30 <= r_lev r)%Z ->
    (forall s, file_line merge r s -> contents (snd (emit merge (HFile f) r st)) f = contents st f ++ s) /\
    ((~ exists m, message merge r m) -> contents (snd (emit merge (HFile f) r st)) f = contents st f).
  Proof.
    intros f r st Hl. cbn [emit snd]. split.
    - intros s (m & w & Hm & Hw & ->). apply level_word_name in Hw as ->; [|exact Hl].
      apply message_iff in Hm. destruct (format_ok merge file_fmt r m _ Hm (exp_file r m)) as [x [-> Hx]].
      unfold contents at 1. cbn [l_files]. rewrite dget_dset_same, Hx. reflexivity.
    - intros Hn. apply message_none in Hn as [e He]. rewrite (format_err _ file_fmt r e He). reflexivity.
  Qed.

  (** ** Histories in which no handler of a user is attached when the log file is changed *)
  Definition attached (pre : list op) (h : handler) : Prop :=
    exists i l a1 a2, h = HUser i l /\ pre = a1 ++ OAdd i l :: a2 /\ ~ In (ORemove i) a2.
  Definition tidy (f0 : pystr) (pre : list op) (st : state) : Prop :=
    exists fmt us, l_handlers st = HConsole fmt :: HFile (file_after f0 pre) :: us /\ Forall (attached pre) us.

  Lemma attached_user : forall (pre : list op) us, Forall (attached pre) us -> Forall user us.
  Proof. intros pre us. apply Forall_impl. intros h (i & l & a1 & a2 & -> & _). exact I. Qed.
  Lemma attached_snoc : forall (pre : list op) o h, (forall i, o = ORemove i -> is_user i h = false) -> attached pre h -> attached (pre ++ [o]) h.
  Proof.
    intros pre o h Ho (i & l & a1 & a2 & -> & -> & Hn). exists i, l, a1, (a2 ++ [o]). split; [reflexivity|].
    split; [rewrite <- app_assoc; reflexivity|]. intros X. apply in_app_or in X as [X|[X|[]]]; [contradiction|].
    specialize (Ho i X). cbn in Ho. rewrite Nat.eqb_refl in Ho. discriminate.
  Qed.

  Lemma calm_snoc : forall (pre : list op) o, calm can_open (pre ++ [o]) -> calm can_open pre.
  Proof.
    intros pre o [H1 H2]. split; [apply (openable_app can_open pre [o]); exact H1|].
    intros a f b E. apply (H2 a f (b ++ [o])). rewrite E, <- app_assoc. reflexivity.
  Qed.
  Lemma calm_prefix : forall (a b : list op), calm can_open (a ++ b) -> calm can_open a.
  Proof.
    intros a b. induction b as [|o b IH] using rev_ind; intros H; [rewrite app_nil_r in H; exact H|].
    apply IH. apply (calm_snoc _ o). rewrite <- app_assoc. exact H.
  Qed.

  Lemma tidy_run : forall home (st0 st : state), init_logging can_open home st0 = (st, Ok tt) ->
    forall pre, calm can_open pre -> tidy (home ++ u "/tmp/nephosem.log") pre (run pre st).
  Proof.
    intros home st0 st Hi pre. destruct (init_good can_open home st0 st Hi) as (Il & Ih & _).
    set (f0 := home ++ u "/tmp/nephosem.log") in *.
    induction pre as [|o pre IH] using rev_ind; intros Hc.
    - exists init_fmt, []. split; [exact Ih|constructor].
    - destruct (IH (calm_snoc pre o Hc)) as (fmt & us & E & U). rewrite run_snoc. unfold tidy. rewrite file_after_app.
      destruct o as [r|l|i l|i|f]; cbn [lstep file_after].
      + assert (U' : Forall (attached (pre ++ [OLog r])) us) by (eapply Forall_impl; [|exact U]; intros h; apply attached_snoc; discriminate).
        rewrite log_eq. destruct (effective (r_own r) (l_level (run pre st)) <=? r_lev r)%Z; [|exists fmt, us; auto].
        cbn zeta. cbn [l_handlers]. rewrite E, call_cons. cbn zeta. cbn [fst].
        set (x := if (hlevel (HConsole fmt) <=? r_lev r)%Z then emit merge (HConsole fmt) r (run pre st) else (HConsole fmt, run pre st)).
        assert (X : exists fmt', fst x = HConsole fmt').
        { subst x. destruct (hlevel (HConsole fmt) <=? r_lev r)%Z; [|eexists; reflexivity]. cbn [emit].
          destruct (default_format merge fmt r) as [a b]. eexists. reflexivity. }
        destruct X as [fmt' ->]. exists fmt', us. split; [|exact U'].
        destruct (call_quiet merge (HFile (file_after f0 pre) :: us) r (snd x)) as [-> _]; [|reflexivity].
        constructor; [exact I|]. apply attached_user in U. eapply Forall_impl; [|exact U]. intros h Hh. destruct h; [destruct Hh|exact I|exact I].
      + exists fmt, us. split; [exact E|]. eapply Forall_impl; [|exact U]. intros h. apply attached_snoc. discriminate.
      + unfold add_user. destruct (existsb (is_user i) (l_handlers (run pre st))).
        * exists fmt, us. split; [exact E|]. eapply Forall_impl; [|exact U]. intros h. apply attached_snoc. discriminate.
        * exists fmt, (us ++ [HUser i l]). cbn [l_handlers set_handlers]. rewrite E. split; [reflexivity|].
          apply Forall_app. split.
          -- eapply Forall_impl; [|exact U]. intros h. apply attached_snoc. discriminate.
          -- constructor; [|constructor]. exists i, l, pre, []. repeat split. intros [].
      + unfold remove_user. exists fmt, (filter (fun h => negb (is_user i h)) us). cbn [l_handlers set_handlers]. rewrite E. split; [reflexivity|].
        rewrite Forall_forall in *. intros h Hh. apply filter_In in Hh as [Hh Hn]. apply attached_snoc; [|apply U, Hh].
        intros j X. injection X as <-. apply negb_true_iff. exact Hn.
      + assert (us = []) as ->.
        { destruct us as [|h us]; [reflexivity|]. inversion U as [|h' us' (i & l & a1 & a2 & _ & Ep & Hn) _]; subst. exfalso. apply Hn.
          destruct Hc as [_ Hc]. apply (Hc (a1 ++ OAdd i l :: a2) f [] eq_refl a1 i l a2 eq_refl). }
        unfold change_log_file, create_file_handler, open_file.
        assert (Hf : can_open f = true) by (apply (proj1 Hc); apply in_or_app; right; left; reflexivity).
        rewrite Hf, E. cbn. exists fmt, []. split; [reflexivity|constructor].
  Qed.

  Lemma other_file : forall (o : op) st f, (forall r, o <> OLog r) -> contents (step st o) f = contents st f.
  Proof.
    intros o st f H. destruct o as [r|l|i l|i|g]; [destruct (H r eq_refl)| | | |]; cbn [lstep]; try reflexivity.
    - unfold add_user. destruct (existsb (is_user i) (l_handlers st)); reflexivity.
    - unfold change_log_file, create_file_handler, open_file. destruct (l_handlers st); [reflexivity|].
      destruct (can_open g); [|reflexivity]. cbn [rmap fst]. unfold contents at 1. cbn [l_files set_handlers].
      destruct (list_eq_dec N.eq_dec f g) as [-> |n]; [rewrite dget_dset_same|rewrite dget_dset_other by exact n]; reflexivity.
  Qed.

  Lemma same_files : forall a b c (e : dict nat (list rec)) (st : state) f, contents (LState a b c (l_files st) e) f = contents st f.
  Proof. reflexivity. Qed.

  Lemma tidy_log : forall f0 (pre : list op) (r : rec) st, tidy f0 pre st -> l_level st = level_after 20 pre ->
    (forall s, enabled pre r -> (30 <= r_lev r)%Z -> file_line merge r s ->
               contents (log merge r st) (file_after f0 pre) = contents st (file_after f0 pre) ++ s) /\
    (forall f, f <> file_after f0 pre \/ ~ (enabled pre r /\ (30 <= r_lev r)%Z /\ exists m, message merge r m) ->
               contents (log merge r st) f = contents st f).
  Proof.
    intros f0 pre r st (fmt & us & E & U) L. apply attached_user in U.
    rewrite log_eq, L. destruct (effective (r_own r) (level_after 20 pre) <=? r_lev r)%Z eqn:En.
    2: { split; [|reflexivity]. intros s He. apply enabled_iff in He. congruence. }
    apply enabled_iff in En. cbn zeta. rewrite E.
    set (g := file_after f0 pre). rewrite call_cons. cbn zeta. cbn [snd fst].
    set (x := if (hlevel (HConsole fmt) <=? r_lev r)%Z then emit merge (HConsole fmt) r st else (HConsole fmt, st)).
    assert (X : forall f, contents (snd x) f = contents st f).
    { intros f. subst x. destruct (hlevel (HConsole fmt) <=? r_lev r)%Z; [|reflexivity]. apply emit_file_other. discriminate. }
    assert (Y : forall st' f, contents (snd (call_handlers merge us r st')) f = contents st' f).
    { intros st' f. apply call_file_other. intros h Hh. destruct (users_file us h U Hh). }
    split.
    - intros s _ Hl Hs. rewrite same_files, call_cons. cbn zeta. cbn [snd]. rewrite Y. cbn [hlevel]. destruct (Z.leb_spec 30 (r_lev r)); [|lia].
      destruct (emit_file g r (snd x) Hl) as [F _]. rewrite (F s Hs), X. reflexivity.
    - intros f Hf. rewrite same_files, call_cons. cbn zeta. cbn [snd]. rewrite Y. cbn [hlevel].
      destruct (Z.leb_spec 30 (r_lev r)) as [Hl|Hl]; [|apply X].
      destruct (list_eq_dec N.eq_dec f g) as [-> |n].
      + destruct Hf as [Hf|Hf]; [congruence|]. destruct (emit_file g r (snd x) Hl) as [_ F]. rewrite F; [apply X|]. intros Hm. apply Hf. auto.
      + rewrite emit_file_other; [apply X|]. intros h Hh. injection Hh as <-. congruence.
  Qed.

  Theorem file_lines : forall home (st0 st : state), init_logging can_open home st0 = (st, Ok tt) ->
    forall pre (r : rec) s, calm can_open pre -> enabled pre r -> (30 <= r_lev r)%Z -> file_line merge r s ->
    contents (run (pre ++ [OLog r]) st) (file_after (home ++ u "/tmp/nephosem.log") pre) =
    contents (run pre st) (file_after (home ++ u "/tmp/nephosem.log") pre) ++ s.
  Proof.
    intros home st0 st Hi pre r s Hc He Hl Hs. rewrite run_snoc. cbn [lstep].
    apply (tidy_log _ pre r (run pre st) (tidy_run home st0 st Hi pre Hc)); auto.
    apply (good_run merge can_open home st0 st Hi pre (proj1 Hc)).
  Qed.
  Theorem file_silent : forall home (st0 st : state), init_logging can_open home st0 = (st, Ok tt) ->
    forall pre (o : op) f, calm can_open pre ->
    (forall r, o = OLog r -> f <> file_after (home ++ u "/tmp/nephosem.log") pre \/
                             ~ (enabled pre r /\ (30 <= r_lev r)%Z /\ exists m, message merge r m)) ->
    contents (run (pre ++ [o]) st) f = contents (run pre st) f.
  Proof.
    intros home st0 st Hi pre o f Hc Hn. rewrite run_snoc. destruct o as [r|l|i l|i|g].
    2-5: apply other_file; discriminate.
    cbn [lstep]. apply (tidy_log _ pre r (run pre st) (tidy_run home st0 st Hi pre Hc)); auto.
    apply (good_run merge can_open home st0 st Hi pre (proj1 Hc)).
  Qed.

  (** ** Levels up to WARNING do not matter for the log file. *)
  Lemma file_after_without : forall (ops : list op) f, file_after f (without_levels ops) = file_after f ops.
  Proof. induction ops as [|o ops IH]; intros f; [reflexivity|]. destruct o; cbn; apply IH. Qed.
  Lemma level_after_without : forall (ops : list op) l, level_after l (without_levels ops) = l.
  Proof. induction ops as [|o ops IH]; intros l; [reflexivity|]. destruct o; cbn; apply IH. Qed.
  Lemma without_app : forall (a b : list op), without_levels (a ++ b) = without_levels a ++ without_levels b.
  Proof. intros. apply filter_app. Qed.
  Lemma level_after_le : forall (ops : list op) l, (l <= 30)%Z -> (forall l', In (OLevel l') ops -> (l' <= 30)%Z) -> (level_after l ops <= 30)%Z.
  Proof.
    induction ops as [|o ops IH]; intros l Hl H; [exact Hl|]. destruct o; cbn; apply IH; auto; try (intros l' X; apply H; right; exact X).
    apply H. left. reflexivity.
  Qed.
  Lemma filter_split : forall (X : Type) (g : X -> bool) l a x b, filter g l = a ++ x :: b ->
    exists a' b', l = a' ++ x :: b' /\ filter g a' = a /\ filter g b' = b.
  Proof.
    intros X g. induction l as [|y l IH]; intros a x b H; [destruct a; discriminate|]. cbn in H. destruct (g y) eqn:E.
    - destruct a as [|z a].
      + injection H as -> H. exists [], l. auto.
      + injection H as -> H. destruct (IH a x b H) as (a' & b' & -> & <- & <-). exists (z :: a'), b'. cbn. rewrite E. auto.
    - destruct (IH a x b H) as (a' & b' & -> & <- & <-). exists (y :: a'), b'. cbn. rewrite E. auto.
  Qed.
  Lemma calm_without : forall (pre : list op), calm can_open pre -> calm can_open (without_levels pre).
  Proof.
    intros pre [H1 H2]. split.
    - intros f X. apply filter_In in X as [X _]. apply H1, X.
    - intros a f b E a1 i l a2 E2. apply filter_split in E as (a' & b' & E & Ea & _). subst a.
      apply filter_split in E2 as (c1 & c2 & E2 & _ & Ec). subst a2. apply filter_In. split; [|reflexivity].
      apply (H2 a' f b' E c1 i l c2 E2).
  Qed.

  Theorem levels_do_not_matter : forall home (st0 st : state), init_logging can_open home st0 = (st, Ok tt) ->
    forall ops f, calm can_open ops -> (forall l, In (OLevel l) ops -> (l <= 30)%Z) -> 
    contents (run ops st) f = contents (run (without_levels ops) st) f.
  Proof.
    intros home st0 st Hi ops f Hc Hl. set (f0 := home ++ u "/tmp/nephosem.log").
    induction ops as [|o ops IH] using rev_ind; [reflexivity|].
    assert (Hc' := calm_snoc _ _ Hc). assert (Hl' : forall l, In (OLevel l) ops -> (l <= 30)%Z) by (intros l X; apply Hl, in_or_app; auto).
    specialize (IH Hc' Hl'). rewrite without_app, run_app, run_app.
    destruct o as [r|l|i l|i|g]; cbn [without_levels filter]; cbn [lrun fold_left].
    2-5: rewrite ?other_file by discriminate; exact IH.
    cbn [lstep].
    destruct (tidy_log f0 ops r (run ops st) (tidy_run home st0 st Hi ops Hc')) as [P1 P2];
      [apply (good_run merge can_open home st0 st Hi ops (proj1 Hc'))|].
    destruct (tidy_log f0 (without_levels ops) r (run (without_levels ops) st)
                (tidy_run home st0 st Hi _ (calm_without _ Hc'))) as [Q1 Q2];
      [apply (good_run merge can_open home st0 st Hi _ (proj1 (calm_without _ Hc')))|].
    rewrite file_after_without in Q1, Q2.
    assert (L : (level_after 20 ops <= 30)%Z) by (apply level_after_le; [lia|exact Hl']).
    assert (En : (30 <= r_lev r)%Z -> enabled ops r <-> enabled (without_levels ops) r).
    { intros H30. unfold enabled. rewrite level_after_without. lia. }
    destruct (list_eq_dec N.eq_dec f (file_after f0 ops)) as [-> |n].
    2: { rewrite P2, Q2 by auto. exact IH. }
    destruct (Z_le_dec 30 (r_lev r)) as [H30|H30].
    2: { rewrite P2, Q2 by (right; tauto). exact IH. }
    destruct (enabled_dec ops r) as [He|He].
    2: { rewrite P2, Q2 by (right; rewrite <- ?(En H30); tauto). exact IH. }
    destruct (get_message merge r) as [m|e] eqn:Em.
    - apply message_iff in Em. assert (Fl : exists s, file_line merge r s).
      { eexists. exists m, (level_name (r_lev r)). split; [exact Em|]. split; [apply level_word_name; auto|reflexivity]. }
      destruct Fl as [s Fl]. rewrite (P1 s), (Q1 s) by (rewrite <- ?(En H30); auto). rewrite IH. reflexivity.
    - assert (~ exists m, message merge r m) by (apply message_none; eauto).
      rewrite P2, Q2 by (right; tauto). exact IH.
  Qed.

  (** ** C162 *)
  (** Once the log file has been changed, no other file grows. *)
  Theorem moved : forall home (st0 st : state), init_logging can_open home st0 = (st, Ok tt) ->
    forall pre f post g, calm can_open (pre ++ OChange f :: post) -> (forall h, ~ In (OChange h) post) -> g <> f ->
    contents (run (pre ++ OChange f :: post) st) g = contents (run pre st) g.
  Proof.
    intros home st0 st Hi pre f post g. induction post as [|o post IH] using rev_ind; intros Hc Hn Hg.
    - rewrite run_snoc. apply other_file. discriminate.
    - rewrite app_comm_cons, app_assoc in Hc. assert (Hc' := calm_snoc _ _ Hc).
      rewrite app_comm_cons, app_assoc, (file_silent home st0 st Hi _ o g Hc').
      + apply IH; auto. intros h X. apply (Hn h), in_or_app. auto.
      + intros r ->. left. rewrite file_after_app. cbn [file_after].
        assert (X : file_after f post = f).
        { clear - Hn. assert (H : forall h, ~ In (OChange h) post) by (intros h X; apply (Hn h), in_or_app; auto). clear Hn.
          induction post as [|o post IH]; [reflexivity|]. destruct o; cbn; try (apply IH; intros h X; apply (H h); right; exact X).
          destruct (H f0). left. reflexivity. }
        rewrite X. exact Hg.
  Qed.

  (** When the new log file cannot be opened: an exception, and from then on no file grows; a second call takes away the
      console. *)

  Lemma tidy_alone : forall f0 (pre : list op) st, tidy f0 pre st -> no_users pre ->
    exists fmt, l_handlers st = [HConsole fmt; HFile (file_after f0 pre)].
  Proof.
    intros f0 pre st (fmt & us & E & U) H. exists fmt. rewrite E. destruct us as [|h us]; [reflexivity|].
    inversion U as [|h' us' (i & l & a1 & a2 & _ & Ep & Hn) _]; subst. destruct (Hn (H a1 i l a2 eq_refl)).
  Qed.

  Definition no_file (st : state) : Prop := forall g, ~ In (HFile g) (l_handlers st).
  Lemma call_keeps : forall hs (r : rec) st g, In (HFile g) (fst (call_handlers merge hs r st)) -> In (HFile g) hs.
  Proof.
    induction hs as [|h hs IH]; intros r st g X; [exact X|]. rewrite call_cons in X. cbn zeta in X. cbn [fst] in X. destruct X as [X|X].
    - left. destruct (hlevel h <=? r_lev r)%Z; [|exact X]. destruct h; cbn [emit] in X; try exact X.
      destruct (default_format merge fmt r). discriminate.
    - right. eapply IH. exact X.
  Qed.
  Lemma no_file_step : forall (o : op) st, no_file st -> (forall f, o <> OChange f) ->
    no_file (step st o) /\ forall g, contents (step st o) g = contents st g.
  Proof.
    intros o st H Ho. destruct o as [r|l|i l|i|f]; [| | | |destruct (Ho f eq_refl)]; cbn [lstep].
    - rewrite log_eq. destruct (effective (r_own r) (l_level st) <=? r_lev r)%Z; [|split; [exact H|reflexivity]].
      cbn zeta. split.
      + intros g X. cbn [l_handlers] in X. exact (H g (call_keeps _ _ _ _ X)).
      + intros g. apply (call_file_other (l_handlers st) r st g). intros h X. destruct (H h X).
    - split; [exact H|reflexivity].
    - unfold add_user. destruct (existsb (is_user i) (l_handlers st)); [split; [exact H|reflexivity]|].
      split; [|reflexivity]. intros g X. cbn in X. apply in_app_or in X as [X|[X|[]]]; [exact (H g X)|discriminate].
    - split; [|reflexivity]. intros g X. cbn in X. apply filter_In in X as [X _]. exact (H g X).
  Qed.
  Lemma no_file_run : forall (post : list op) st, no_file st -> (forall f, ~ In (OChange f) post) ->
    forall g, contents (run post st) g = contents st g.
  Proof.
    intros post. induction post as [|o post IH]; intros st H Hn g; [reflexivity|].
    destruct (no_file_step o st H) as [H1 H2]; [intros f ->; apply (Hn f); left; reflexivity|].
    change (run (o :: post) st) with (run post (step st o)). rewrite IH; auto. intros f X. apply (Hn f). right. exact X.
  Qed.

  Theorem change_fails : forall home (st0 st : state), init_logging can_open home st0 = (st, Ok tt) ->
    forall pre f, calm can_open pre -> no_users pre -> can_open f = false ->
    snd (change_log_file can_open f (run pre st)) = Err IOError /\
    forall post, (forall h, ~ In (OChange h) post) -> forall g, contents (run (pre ++ OChange f :: post) st) g = contents (run pre st) g.
  Proof.
    intros home st0 st Hi pre f Hc Hu Hf.
    destruct (tidy_alone _ _ _ (tidy_run home st0 st Hi pre Hc) Hu) as [fmt E]. 
    unfold change_log_file, create_file_handler, open_file. rewrite E, Hf. split; [reflexivity|].
    intros post Hn g. rewrite run_app. change (run (OChange f :: post) (run pre st)) with (run post (step (run pre st) (OChange f))).
    rewrite no_file_run; [apply other_file; discriminate| |exact Hn].
    intros h X. cbn [lstep] in X. unfold change_log_file, create_file_handler, open_file in X. rewrite E, Hf in X. cbn in X.
    destruct X as [X|[]]. discriminate.
  Qed.

  Definition no_console (st : state) : Prop := Forall quiet (l_handlers st).
  Lemma no_console_step : forall (o : op) st, no_console st -> no_console (step st o) /\ l_console (step st o) = l_console st.
  Proof.
    intros o st H. split.
    - destruct o as [r|l|i l|i|f]; cbn [lstep].
      + rewrite log_eq. destruct (effective (r_own r) (l_level st) <=? r_lev r)%Z; [|exact H].
        unfold no_console. cbn zeta. cbn [l_handlers]. destruct (call_quiet merge (l_handlers st) r st H) as [-> _]. exact H.
      + exact H.
      + unfold add_user. destruct (existsb (is_user i) (l_handlers st)); [exact H|]. unfold no_console. cbn. apply Forall_app. split; [exact H|repeat constructor].
      + unfold no_console in *. cbn. rewrite Forall_forall in *. intros h X. apply filter_In in X as [X _]. apply H, X.
      + unfold change_log_file, create_file_handler, open_file. destruct (l_handlers st) as [|h hs] eqn:E; [exact H|].
        assert (Y : Forall quiet (removelast (h :: hs))).
        { unfold no_console in H. rewrite E in H. rewrite Forall_forall in *. intros x X. apply H. apply removelast_In. exact X. }
        destruct (can_open f); unfold no_console; cbn [rmap fst l_handlers set_handlers]; [apply Forall_app; split; [exact Y|repeat constructor]|exact Y].
    - destruct o as [r|l|i l|i|f].
      2-5: apply other_console; discriminate.
      cbn [lstep]. rewrite log_eq. destruct (effective (r_own r) (l_level st) <=? r_lev r)%Z; [|reflexivity].
      apply (call_quiet merge (l_handlers st) r st H).
  Qed.

  Theorem console_lost : forall home (st0 st : state), init_logging can_open home st0 = (st, Ok tt) ->
    forall pre f g, calm can_open pre -> no_users pre -> can_open f = false -> can_open g = true ->
    forall post, l_console (run (pre ++ OChange f :: OChange g :: post) st) = l_console (run pre st).
  Proof.
    intros home st0 st Hi pre f g Hc Hu Hf Hg post.
    destruct (tidy_alone _ _ _ (tidy_run home st0 st Hi pre Hc) Hu) as [fmt E]. rewrite run_app.
    change (run (OChange f :: OChange g :: post) (run pre st)) with (run post (step (step (run pre st) (OChange f)) (OChange g))).
    assert (N0 : no_console (step (step (run pre st) (OChange f)) (OChange g))).
    { cbn [lstep]. unfold change_log_file at 2, create_file_handler, open_file. rewrite E, Hf. cbn [rmap fst removelast].
      unfold change_log_file, create_file_handler, open_file. rewrite Hg. cbn. repeat constructor. }
    assert (C0 : l_console (step (step (run pre st) (OChange f)) (OChange g)) = l_console (run pre st)) by (rewrite !other_console by discriminate; reflexivity).
    rewrite <- C0. clear C0. revert N0. generalize (step (step (run pre st) (OChange f)) (OChange g)).
    induction post as [|o post IH]; intros s Hs; [reflexivity|].
    change (run (o :: post) s) with (run post (step s o)). destruct (no_console_step o s Hs) as [H1 H2]. rewrite IH by exact H1. exact H2.
  Qed.
End P.
