(** * Proofs about logging. *)
From Coq Require Import String NArith ZArith Bool Arith Lia List.
From Verif Require Import Base BaseLemmas Str LogModel LogSpec.
Import ListNotations.
Local Open Scope string_scope.
Local Open Scope nat_scope.
Local Open Scope list_scope.

Section P.
  Context {A : Type} (merge : pystr -> A -> res pystr) (can_open : pystr -> bool).
  Notation rec := (@lrec A).
  Notation op := (@lop A).
  Notation state := (@lstate A).
  Notation run := (lrun merge can_open).
  Notation step := (lstep merge can_open).

  (** ** Formats *)
  Lemma message_iff : forall (r : rec) m, get_message merge r = Ok m <-> message merge r m.
  Proof.
    intros r m. unfold get_message, message. destruct (r_args r) as [a|] eqn:E; split.
    - intros H. right. exists a. auto.
    - intros [[H _]|[b [H H']]]; [discriminate|]. injection H as ->. exact H'.
    - intros H. injection H as <-. auto.
    - intros [[_ ->]|[b [H _]]]; [reflexivity|discriminate].
  Qed.
  Lemma message_none : forall (r : rec), (exists e, get_message merge r = Err e) <-> ~ exists m, message merge r m.
  Proof.
    intros r. split.
    - intros [e E] [m Hm]. apply message_iff in Hm. congruence.
    - intros H. destruct (get_message merge r) as [m|e] eqn:E; [|eauto]. exfalso. apply H. exists m. apply message_iff. exact E.
  Qed.

  Lemma exp_err : forall (r : rec) m, expand (rdict r m) FText err_fmt = Ok (u "ERROR: " ++ r_msg r).
  Proof. intros. unfold rdict. rewrite <- (app_nil_r (r_msg r)) at 2. generalize (level_name (r_lev r)). intros. reflexivity. Qed.
  Lemma exp_wrn : forall (r : rec) m, expand (rdict r m) FText wrn_fmt = Ok (u "WARNING: " ++ r_msg r).
  Proof. intros. unfold rdict. rewrite <- (app_nil_r (r_msg r)) at 2. generalize (level_name (r_lev r)). intros. reflexivity. Qed.
  Lemma exp_info : forall (r : rec) m, expand (rdict r m) FText info_fmt = Ok (r_msg r).
  Proof. intros. unfold rdict. rewrite <- (app_nil_r (r_msg r)) at 2. generalize (level_name (r_lev r)). intros. reflexivity. Qed.
  Lemma exp_dbg : forall (r : rec) m, expand (rdict r m) FText dbg_fmt =
    Ok (u "DEBUG: " ++ r_module r ++ u ": " ++ str_of_Z (r_line r) ++ u ": " ++ r_msg r).
  Proof. intros. unfold rdict. rewrite <- (app_nil_r (r_msg r)) at 2. generalize (level_name (r_lev r)). intros. reflexivity. Qed.
  Lemma exp_init : forall (r : rec) m, expand (rdict r m) FText init_fmt = Ok (str_of_Z (r_lev r) ++ u ": " ++ r_msg r).
  Proof. intros. unfold rdict. rewrite <- (app_nil_r (r_msg r)) at 2. generalize (level_name (r_lev r)). intros. reflexivity. Qed.
  Lemma exp_file : forall (r : rec) m, expand (rdict r m) FText file_fmt =
    Ok (r_time r ++ u " [" ++ level_name (r_lev r) ++ u "]: " ++ m).
  Proof. intros. unfold rdict. rewrite <- (app_nil_r m) at 2. generalize (level_name (r_lev r)). intros. reflexivity. Qed.

  Lemma format_ok : forall (fmt : pystr) (r : rec) m s, get_message merge r = Ok m -> expand (rdict r m) FText fmt = Ok s ->
    exists x, fmt_format merge fmt r = Ok x /\ x ++ [10%N] = output r s.
  Proof.
    intros fmt r m s Hm Hs. unfold fmt_format, output. rewrite Hm. cbn [rbind]. rewrite Hs. cbn [rbind].
    destruct (r_exc r) as [[|c x]|]; try (eexists; split; reflexivity).
    eexists; split; [reflexivity|]. rewrite <- app_assoc. reflexivity.
  Qed.
  Lemma format_err : forall (fmt : pystr) (r : rec) e, get_message merge r = Err e -> fmt_format merge fmt r = Err e.
  Proof. intros fmt r e He. unfold fmt_format. rewrite He. reflexivity. Qed.

  (** The format of one of the four levels *)
  Definition fmt_of (l : Z) : pystr :=
    if (l =? 10)%Z then dbg_fmt else if (l =? 30)%Z then wrn_fmt else if (l =? 20)%Z then info_fmt else err_fmt.
  Lemma fmt_of_ok : forall (r : rec) m l p, named l r p -> expand (rdict r m) FText (fmt_of l) = Ok (p ++ r_msg r).
  Proof.
    intros r m l p [[-> ->]|[[-> ->]|[[-> ->]|[-> ->]]]]; unfold fmt_of; cbn [Z.eqb Pos.eqb].
    - apply exp_err.
    - apply exp_wrn.
    - apply exp_info.
    - rewrite exp_dbg. rewrite <- !app_assoc. reflexivity.
  Qed.
  Lemma named_ex : forall l (r : rec), four l -> exists p, named l r p.
  Proof. intros l r [-> | [-> | [-> | ->]]]; eexists; unfold named; eauto 8. Qed.
  Lemma named_four : forall l (r : rec) p, named l r p -> four l.
  Proof. intros l r p [[-> _]|[[-> _]|[[-> _]|[-> _]]]]; unfold four; lia. Qed.
  Lemma four_dec : forall l, {four l} + {~ four l}.
  Proof.
    intros l. unfold four.
    destruct (Z.eq_dec l 10); [left; lia|]. destruct (Z.eq_dec l 20); [left; lia|]. destruct (Z.eq_dec l 30); [left; lia|].
    destruct (Z.eq_dec l 40); [left; lia|]. right; lia.
  Qed.

  Definition fmt_used (fmt : pystr) (l : Z) : pystr := if four_dec l then fmt_of l else fmt.
  Lemma default_format_eq : forall (fmt : pystr) (r : rec),
    default_format merge fmt r = match fmt_format merge (fmt_used fmt (r_lev r)) r with
                                 | Ok s => (Ok s, fmt) | Err e => (Err e, fmt_used fmt (r_lev r)) end.
  Proof.
    intros fmt r. unfold default_format, fmt_used, fmt_of.
    destruct (four_dec (r_lev r)) as [[-> | [-> | [-> | ->]]]|n]; try reflexivity.
    unfold four in n.
    destruct (Z.eqb_spec (r_lev r) 10); [lia|]. destruct (Z.eqb_spec (r_lev r) 30); [lia|].
    destruct (Z.eqb_spec (r_lev r) 20); [lia|]. destruct (Z.eqb_spec (r_lev r) 40); [lia|]. reflexivity.
  Qed.

  (** ** Levels *)
  Lemma level_after_app : forall (a b : list op) l, level_after l (a ++ b) = level_after (level_after l a) b.
  Proof. induction a as [|o a IH]; intros b l; [reflexivity|]. destruct o; cbn; apply IH. Qed.
  Lemma file_after_app : forall (a b : list op) f, file_after f (a ++ b) = file_after (file_after f a) b.
  Proof. induction a as [|o a IH]; intros b f; [reflexivity|]. destruct o; cbn; apply IH. Qed.

  Lemma run_snoc : forall (pre : list op) o st, run (pre ++ [o]) st = step (run pre st) o.
  Proof. intros. unfold lrun. rewrite fold_left_app. reflexivity. Qed.
  Lemma run_app : forall (a b : list op) st, run (a ++ b) st = run b (run a st).
  Proof. intros. unfold lrun. apply fold_left_app. Qed.

  Lemma emit_level : forall h (r : rec) st, l_level (snd (emit merge h r st)) = l_level st.
  Proof.
    intros h r st. destruct h; cbn [emit].
    - destruct (default_format merge fmt r) as [[s|e] fmt']; reflexivity.
    - destruct (fmt_format merge file_fmt r); reflexivity.
    - reflexivity.
  Qed.
  Lemma call_level : forall hs (r : rec) st, l_level (snd (call_handlers merge hs r st)) = l_level st.
  Proof.
    induction hs as [|h hs IH]; intros r st; [reflexivity|]. cbn.
    destruct (if (hlevel h <=? r_lev r)%Z then emit merge h r st else (h, st)) as [h1 st1] eqn:E.
    destruct (call_handlers merge hs r st1) as [hs2 st2] eqn:E2. cbn.
    specialize (IH r st1). rewrite E2 in IH. cbn in IH. rewrite IH.
    destruct (hlevel h <=? r_lev r)%Z; [|injection E as _ <-; reflexivity].
    pose proof (emit_level h r st) as X. rewrite E in X. exact X.
  Qed.
  Lemma change_level : forall f (st : state), l_level (fst (change_log_file can_open f st)) = l_level st.
  Proof.
    intros f st. unfold change_log_file, create_file_handler, open_file. destruct (l_handlers st); [reflexivity|].
    destruct (can_open f); reflexivity.
  Qed.
  Lemma step_level : forall (o : op) st, l_level (step st o) = match o with OLevel l => l | _ => l_level st end.
  Proof.
    intros o st. destruct o; cbn [lstep].
    - unfold log. destruct (effective (r_own r) (l_level st) <=? r_lev r)%Z; [|reflexivity].
      pose proof (call_level (l_handlers st) r st) as X. destruct (call_handlers merge (l_handlers st) r st). exact X.
    - reflexivity.
    - unfold add_user. destruct (existsb (is_user id) (l_handlers st)); reflexivity.
    - reflexivity.
    - apply change_level.
  Qed.
  Lemma run_level : forall (ops : list op) st, l_level (run ops st) = level_after (l_level st) ops.
  Proof.
    intros ops. induction ops as [|o ops IH] using rev_ind; intros st; [reflexivity|].
    rewrite run_snoc, step_level, level_after_app, IH. destruct o; reflexivity.
  Qed.

  Lemma enabled_iff : forall (pre : list op) (r : rec),
    (effective (r_own r) (level_after 20 pre) <=? r_lev r)%Z = true <-> enabled pre r.
  Proof.
    intros pre r. unfold effective, enabled. rewrite Z.leb_le.
    destruct (Z.eqb_spec (r_own r) 0) as [E|E]; [|lia].
    destruct (Z.eqb_spec (level_after 20 pre) 0); lia.
  Qed.
  Lemma enabled_dec : forall (pre : list op) (r : rec), {enabled pre r} + {~ enabled pre r}.
  Proof.
    intros pre r. destruct (effective (r_own r) (level_after 20 pre) <=? r_lev r)%Z eqn:E.
    - left. apply enabled_iff. exact E.
    - right. intros X. apply enabled_iff in X. congruence.
  Qed.

  (** ** The last record that did not fit *)
  Lemma misfit_dec : forall (pre : list op) (r : rec), {misfit merge pre r} + {~ misfit merge pre r}.
  Proof.
    intros pre r. unfold misfit. destruct (enabled_dec pre r); [|right; tauto].
    destruct (four_dec (r_lev r)); [|right; tauto].
    destruct (get_message merge r) as [m|e'] eqn:E.
    - right. intros [_ [_ X]]. apply X. exists m. apply message_iff. exact E.
    - left. repeat split; auto. apply message_none. eauto.
  Qed.

  Lemma snoc_split : forall (X : Type) (pre : list X) o a x b, pre ++ [o] = a ++ x :: b ->
    (b = [] /\ a = pre /\ x = o) \/ (exists b', b = b' ++ [o] /\ pre = a ++ x :: b').
  Proof.
    intros X pre o a x b H. destruct b as [|y b] using rev_ind.
    - apply app_inj_tail in H as [-> ->]. auto.
    - right. exists b. rewrite app_comm_cons, app_assoc in H. apply app_inj_tail in H as [-> ->]. auto.
  Qed.

  Lemma misfit_snoc : forall (pre : list op) o l,
    last_misfit merge (pre ++ [o]) l <->
    (exists r, o = OLog r /\ misfit merge pre r /\ r_lev r = l) \/
    ((forall r, o = OLog r -> ~ misfit merge pre r) /\ last_misfit merge pre l).
  Proof.
    intros pre o l. split.
    - intros (a & r & b & E & Hm & Hl & Hlast).
      destruct (snoc_split _ _ _ _ _ _ E) as [[-> [-> <-]]|[b' [-> ->]]].
      + left. eauto.
      + right. split.
        * intros r' ->. apply (Hlast b' r' []). reflexivity.
        * exists a, r, b'. repeat split; auto; try apply Hm.
          intros a' r' b'' ->. apply (Hlast a' r' (b'' ++ [o])). rewrite <- app_assoc. reflexivity.
    - intros [(r & -> & Hm & Hl)|[Hn (a & r & b & -> & Hm & Hl & Hlast)]].
      + exists pre, r, []. repeat split; auto; try apply Hm. intros a' r' b' E. destruct a'; discriminate.
      + exists a, r, (b ++ [o]). split; [rewrite <- app_assoc; reflexivity|]. repeat split; auto; try apply Hm.
        intros a' r' b' E. destruct (snoc_split _ _ _ _ _ _ E) as [[_ [-> E2]]|[b2 [_ ->]]].
        * apply Hn. congruence.
        * apply (Hlast a' r' b2). reflexivity.
  Qed.
  Lemma misfit_nil : forall l, ~ last_misfit merge (@nil op) l.
  Proof. intros l (a & r & b & E & _). destruct a; discriminate. Qed.
  Lemma misfit_four : forall (pre : list op) l, last_misfit merge pre l -> four l.
  Proof. intros pre l (a & r & b & _ & (_ & F & _) & <- & _). exact F. Qed.

  (** The format that the console handler holds *)
  Definition holds (pre : list op) (fmt : pystr) : Prop :=
    (exists l, last_misfit merge pre l /\ fmt = fmt_of l) \/ ((forall l, ~ last_misfit merge pre l) /\ fmt = init_fmt).

  Lemma holds_log : forall (pre : list op) (r : rec) fmt, holds pre fmt -> enabled pre r ->
    holds (pre ++ [OLog r]) (match get_message merge r with Ok _ => fmt | Err _ => fmt_used fmt (r_lev r) end).
  Proof.
    intros pre r fmt H He. unfold fmt_used.
    destruct (misfit_dec pre r) as [M|M].
    - destruct M as [_ [F N]]. destruct (get_message merge r) as [m|e] eqn:E.
      + exfalso. apply N. exists m. apply message_iff. exact E.
      + destruct (four_dec (r_lev r)) as [F'|]; [|contradiction].
        left. exists (r_lev r). split; [|reflexivity]. apply misfit_snoc. left. exists r. unfold misfit. auto.
    - assert (X : (match get_message merge r with Ok _ => fmt | Err _ => if four_dec (r_lev r) then fmt_of (r_lev r) else fmt end) = fmt).
      { destruct (get_message merge r) as [m|e] eqn:E; [reflexivity|]. destruct (four_dec (r_lev r)); [|reflexivity].
        exfalso. apply M. split; [exact He|]. split; [assumption|]. apply message_none. eauto. }
      rewrite X. destruct H as [[l [Hl ->]]|[Hl ->]].
      + left. exists l. split; [|reflexivity]. apply misfit_snoc. right. split; [|exact Hl]. intros r' E. injection E as <-. exact M.
      + right. split; [|reflexivity]. intros l Hs. apply misfit_snoc in Hs as [(r' & E & Hm & _)|[_ Hs]].
        * injection E as <-. contradiction.
        * apply (Hl l Hs).
  Qed.
  Lemma holds_other : forall (pre : list op) o fmt, holds pre fmt -> (forall r, o = OLog r -> ~ enabled pre r) -> holds (pre ++ [o]) fmt.
  Proof.
    intros pre o fmt [[l [Hl ->]]|[Hl ->]] Hn.
    - left. exists l. split; [|reflexivity]. apply misfit_snoc. right. split; [|exact Hl]. intros r E [M _]. exact (Hn r E M).
    - right. split; [|reflexivity]. intros l Hs. apply misfit_snoc in Hs as [(r' & E & [M _] & _)|[_ Hs]].
      + exact (Hn r' E M).
      + apply (Hl l Hs).
  Qed.

  (** ** The handlers *)
  Definition quiet (h : handler) : Prop := match h with HConsole _ => False | _ => True end.

  Lemma emit_quiet : forall h (r : rec) st, quiet h -> fst (emit merge h r st) = h /\ l_console (snd (emit merge h r st)) = l_console st.
  Proof.
    intros h r st Q. destruct h; [destruct Q| |split; reflexivity].
    split; [reflexivity|]. cbn [emit snd]. destruct (fmt_format merge file_fmt r); reflexivity.
  Qed.
  Lemma call_quiet : forall hs (r : rec) st, Forall quiet hs ->
    fst (call_handlers merge hs r st) = hs /\ l_console (snd (call_handlers merge hs r st)) = l_console st.
  Proof.
    induction hs as [|h hs IH]; intros r st Q; [split; reflexivity|]. inversion Q as [|h' hs' Q1 Q2]; subst. cbn.
    destruct (hlevel h <=? r_lev r)%Z.
    - destruct (emit_quiet h r st Q1) as [E1 E2]. destruct (emit merge h r st) as [h1 st1]. cbn in E1, E2. subst h1.
      destruct (IH r st1 Q2) as [E3 E4]. destruct (call_handlers merge hs r st1) as [hs2 st2]. cbn in *. subst. split; congruence.
    - destruct (IH r st Q2) as [E3 E4]. destruct (call_handlers merge hs r st) as [hs2 st2]. cbn in *. subst. auto.
  Qed.

  (** After any history: the console handler comes first, no other writes to the console, and there is a file handler. *)
  Definition good (pre : list op) (st : state) : Prop :=
    exists fmt rest, l_handlers st = HConsole fmt :: rest /\ Forall quiet rest /\ (exists f, In (HFile f) rest) /\ holds pre fmt.

  Lemma misfit_unique : forall (pre : list op) l l', last_misfit merge pre l -> last_misfit merge pre l' -> l = l'.
  Proof.
    induction pre as [|o pre IH] using rev_ind; intros l l' H H'; [destruct (misfit_nil l H)|].
    apply misfit_snoc in H. apply misfit_snoc in H'.
    destruct H as [(r & -> & M & <-)|[Hn H]]; destruct H' as [(r' & E & M' & <-)|[Hn' H']].
    - injection E as <-. reflexivity.
    - destruct (Hn' r eq_refl M).
    - destruct (Hn r' E M').
    - exact (IH l l' H H').
  Qed.

  (** What the console handler writes is what [prefix] says. *)
  Lemma used_expand : forall (pre : list op) fmt (r : rec) m p, holds pre fmt -> prefix merge pre r p ->
    expand (rdict r m) FText (fmt_used fmt (r_lev r)) = Ok (p ++ r_msg r).
  Proof.
    intros pre fmt r m p H P. unfold fmt_used. destruct P as [[F Np]|[[F [l [Hl Np]]]|[F [Hl ->]]]].
    - destruct (four_dec (r_lev r)); [|contradiction]. apply fmt_of_ok. exact Np.
    - destruct (four_dec (r_lev r)); [contradiction|]. destruct H as [[l' [Hl' ->]]|[Hno _]]; [|destruct (Hno l Hl)].
      rewrite (misfit_unique pre l' l Hl' Hl). apply fmt_of_ok. exact Np.
    - destruct (four_dec (r_lev r)); [contradiction|]. destruct H as [[l' [Hl' ->]]|[_ ->]]; [destruct (Hl l' Hl')|].
      rewrite exp_init. rewrite <- app_assoc. reflexivity.
  Qed.
  Lemma prefix_ex : forall (pre : list op) fmt (r : rec), holds pre fmt -> exists p, prefix merge pre r p.
  Proof.
    intros pre fmt r H. destruct (four_dec (r_lev r)) as [F|F].
    - destruct (named_ex _ r F) as [p Np]. exists p. left. auto.
    - destruct H as [[l [Hl ->]]|[Hl ->]].
      + destruct (named_ex l r (misfit_four _ _ Hl)) as [p Np]. exists p. right. left. eauto.
      + eexists. right. right. eauto.
  Qed.

  Lemma console_emit : forall (pre : list op) fmt (r : rec) st, holds pre fmt ->
    fst (emit merge (HConsole fmt) r st) =
      HConsole (match get_message merge r with Ok _ => fmt | Err _ => fmt_used fmt (r_lev r) end) /\
    (forall m p, get_message merge r = Ok m -> prefix merge pre r p ->
                 l_console (snd (emit merge (HConsole fmt) r st)) = l_console st ++ output r (p ++ r_msg r)) /\
    (forall e, get_message merge r = Err e -> snd (emit merge (HConsole fmt) r st) = st).
  Proof.
    intros pre fmt r st H. cbn [emit]. rewrite default_format_eq.
    destruct (prefix_ex pre fmt r H) as [p Hp].
    destruct (get_message merge r) as [m|e] eqn:E.
    - destruct (format_ok (fmt_used fmt (r_lev r)) r m (p ++ r_msg r) E (used_expand pre fmt r m p H Hp)) as [x [Ex Hx]].
      rewrite Ex. cbn [fst snd l_console]. split; [reflexivity|]. split; [|discriminate].
      intros m' p' Em Hp'. pose proof (used_expand pre fmt r m p H Hp) as X1. pose proof (used_expand pre fmt r m p' H Hp') as X2.
      rewrite X1 in X2. injection X2 as X2. rewrite <- X2, <- Hx. reflexivity.
    - rewrite (format_err _ r e E). cbn [fst snd]. split; [reflexivity|]. split; [discriminate|reflexivity].
  Qed.

  Lemma call_cons : forall h hs (r : rec) st,
    call_handlers merge (h :: hs) r st =
    (let x := if (hlevel h <=? r_lev r)%Z then emit merge h r st else (h, st) in
     let y := call_handlers merge hs r (snd x) in (fst x :: fst y, snd y)).
  Proof.
    intros. cbn [call_handlers]. destruct (if (hlevel h <=? r_lev r)%Z then emit merge h r st else (h, st)) as [h1 st1].
    cbn [fst snd]. destruct (call_handlers merge hs r st1). reflexivity.
  Qed.
  Lemma log_eq : forall (r : rec) st, log merge r st =
    if (effective (r_own r) (l_level st) <=? r_lev r)%Z then
      let y := call_handlers merge (l_handlers st) r st in
      LState (l_level (snd y)) (fst y) (l_console (snd y)) (l_files (snd y)) (l_sinks (snd y))
    else st.
  Proof. intros. unfold log. destruct (call_handlers merge (l_handlers st) r st). reflexivity. Qed.

  Lemma four_ge : forall l, four l -> (10 <= l)%Z.
  Proof. unfold four. lia. Qed.

  Lemma good_log : forall (pre : list op) (r : rec) st, good pre st -> l_level st = level_after 20 pre ->
    good (pre ++ [OLog r]) (log merge r st) /\
    (forall m p, enabled pre r -> (10 <= r_lev r)%Z -> message merge r m -> prefix merge pre r p ->
                 l_console (log merge r st) = l_console st ++ output r (p ++ r_msg r)) /\
    (~ (enabled pre r /\ (10 <= r_lev r)%Z /\ exists m, message merge r m) -> l_console (log merge r st) = l_console st).
  Proof.
    intros pre r st (fmt & rest & E & Q & F & H) L. rewrite log_eq, L.
    destruct (effective (r_own r) (level_after 20 pre) <=? r_lev r)%Z eqn:En.
    2: { assert (Ne : ~ enabled pre r) by (intros X; apply enabled_iff in X; congruence).
         split; [|split; [intros m p X; contradiction|reflexivity]].
         exists fmt, rest. repeat split; auto. apply holds_other; [exact H|]. intros r' X. injection X as <-. exact Ne. }
    apply enabled_iff in En. rewrite E. rewrite call_cons. cbn zeta. cbn [hlevel l_console fst snd].
    destruct (Z.leb_spec 10 (r_lev r)) as [Hl|Hl].
    - destruct (console_emit pre fmt r st H) as (E1 & E2 & E3).
      set (st1 := snd (emit merge (HConsole fmt) r st)) in *. rewrite E1.
      destruct (call_quiet rest r st1 Q) as [E4 E5]. rewrite E4, E5.
      split; [|split].
      + eexists. exists rest. cbn [l_handlers]. split; [reflexivity|]. split; [exact Q|]. split; [exact F|]. apply holds_log; assumption.
      + intros m p _ _ Hm Hp. apply E2 with m; [apply message_iff; exact Hm|exact Hp].
      + intros Hn. destruct (get_message merge r) as [m|e] eqn:Em.
        * exfalso. apply Hn. split; [exact En|]. split; [exact Hl|]. exists m. apply message_iff. exact Em.
        * rewrite (E3 e eq_refl). reflexivity.
    - destruct (call_quiet rest r st Q) as [E4 E5]. cbn [snd fst]. rewrite E4, E5.
      split; [|split; [intros; lia|reflexivity]].
      exists fmt, rest. cbn [l_handlers]. repeat split; auto.
      assert (X : ~ misfit merge pre r) by (intros (_ & X & _); apply four_ge in X; lia).
      destruct H as [[l [Hx ->]]|[Hx ->]].
      + left. exists l. split; [|reflexivity]. apply misfit_snoc. right. split; [|exact Hx]. intros r' Y. injection Y as <-. exact X.
      + right. split; [|reflexivity]. intros l Hs. apply misfit_snoc in Hs as [(r' & Y & M & _)|[_ Hs]]; [|exact (Hx l Hs)].
        injection Y as <-. contradiction.
  Qed.

  Lemma removelast_In : forall (X : Type) (l : list X) x, In x (removelast l) -> In x l.
  Proof.
    intros X l x H. destruct l as [|y l] using rev_ind; [exact H|]. rewrite removelast_last in H. apply in_or_app. auto.
  Qed.

  Lemma good_step : forall (pre : list op) (o : op) st, good pre st -> l_level st = level_after 20 pre ->
    (forall f, o = OChange f -> can_open f = true) -> good (pre ++ [o]) (step st o).
  Proof.
    intros pre o st G L Ho. destruct o as [r|l|i l|i|f]; cbn [lstep].
    - apply (good_log pre r st G L).
    - destruct G as (fmt & rest & E & Q & F & H). exists fmt, rest. repeat split; auto. apply holds_other; [exact H|]. discriminate.
    - destruct G as (fmt & rest & E & Q & [f F] & H). unfold add_user. destruct (existsb (is_user i) (l_handlers st)).
      + exists fmt, rest. repeat split; eauto. apply holds_other; [exact H|]. discriminate.
      + exists fmt, (rest ++ [HUser i l]). cbn [l_handlers set_handlers]. rewrite E. split; [reflexivity|].
        split; [apply Forall_app; split; [exact Q|repeat constructor]|].
        split; [exists f; apply in_or_app; auto|]. apply holds_other; [exact H|]. discriminate.
    - destruct G as (fmt & rest & E & Q & [f F] & H). unfold remove_user.
      exists fmt, (filter (fun h => negb (is_user i h)) rest). cbn [l_handlers set_handlers]. rewrite E. split; [reflexivity|].
      split; [|split].
      + rewrite Forall_forall in *. intros h Hh. apply filter_In in Hh as [Hh _]. apply Q, Hh.
      + exists f. apply filter_In. split; [exact F|reflexivity].
      + apply holds_other; [exact H|]. discriminate.
    - destruct G as (fmt & rest & E & Q & [f' F] & H).
      unfold change_log_file, create_file_handler, open_file. rewrite (Ho f eq_refl). rewrite E. cbn [rmap fst l_handlers set_handlers].
      destruct rest as [|h0 rest0]; [destruct F|].
      change (removelast (HConsole fmt :: h0 :: rest0)) with (HConsole fmt :: removelast (h0 :: rest0)).
      exists fmt, (removelast (h0 :: rest0) ++ [HFile f]). split; [reflexivity|]. split; [|split].
      + apply Forall_app. split; [|repeat constructor]. rewrite Forall_forall in *. intros h Hh. apply Q, removelast_In, Hh.
      + exists f. apply in_or_app. right. left. reflexivity.
      + apply holds_other; [exact H|]. discriminate.
  Qed.

  Lemma init_good : forall home (st0 st : state), init_logging can_open home st0 = (st, Ok tt) ->
    l_level st = 20%Z /\ l_handlers st = [HConsole init_fmt; HFile (home ++ u "/tmp/nephosem.log")] /\ l_console st = l_console st0 /\
    l_sinks st = l_sinks st0 /\ (forall f, contents st f = contents st0 f) /\ can_open (home ++ u "/tmp/nephosem.log") = true.
  Proof.
    intros home st0 st. unfold init_logging, open_file. destruct (can_open (home ++ u "/tmp/nephosem.log")); [|discriminate].
    intros H. injection H as <-. cbn [l_level l_handlers l_console l_sinks set_level set_handlers]. repeat split.
    intros f. unfold contents. cbn [l_files set_level set_handlers].
    destruct (list_eq_dec N.eq_dec f (home ++ u "/tmp/nephosem.log")) as [-> |n].
    - rewrite dget_dset_same. reflexivity.
    - rewrite dget_dset_other by exact n. reflexivity.
  Qed.

  Lemma openable_app : forall (a b : list op), openable can_open (a ++ b) <-> openable can_open a /\ openable can_open b.
  Proof.
    intros a b. unfold openable. split.
    - intros H. split; intros f X; apply H; apply in_or_app; auto.
    - intros [H1 H2] f X. apply in_app_or in X as [X|X]; auto.
  Qed.

  Lemma good_run : forall home (st0 st : state), init_logging can_open home st0 = (st, Ok tt) ->
    forall pre, openable can_open pre -> good pre (run pre st) /\ l_level (run pre st) = level_after 20 pre.
  Proof.
    intros home st0 st Hi pre. destruct (init_good home st0 st Hi) as (Il & Ih & _).
    induction pre as [|o pre IH] using rev_ind; intros Ho.
    - split; [|exact Il]. exists init_fmt, [HFile (home ++ u "/tmp/nephosem.log")]. split; [exact Ih|].
      split; [repeat constructor|]. split; [eexists; left; reflexivity|]. right. split; [exact misfit_nil|reflexivity].
    - apply openable_app in Ho as [Ho1 Ho2]. destruct (IH Ho1) as [G L]. split.
      + rewrite run_snoc. apply good_step; auto. intros f ->. apply Ho2. left. reflexivity.
      + rewrite run_level, Il. reflexivity.
  Qed.

  Lemma other_console : forall (o : op) st, (forall r, o <> OLog r) -> l_console (step st o) = l_console st.
  Proof.
    intros o st H. destruct o as [r|l|i l|i|f]; [destruct (H r eq_refl)| | | |]; cbn [lstep]; try reflexivity.
    - unfold add_user. destruct (existsb (is_user i) (l_handlers st)); reflexivity.
    - unfold change_log_file, create_file_handler, open_file. destruct (l_handlers st); [reflexivity|].
      destruct (can_open f); reflexivity.
  Qed.

  (** ** C161 *)
  Theorem console_line : forall home (st0 st : state), init_logging can_open home st0 = (st, Ok tt) ->
    forall pre (r : rec) m p, openable can_open pre -> enabled pre r -> (10 <= r_lev r)%Z -> message merge r m -> prefix merge pre r p ->
    l_console (run (pre ++ [OLog r]) st) = l_console (run pre st) ++ output r (p ++ r_msg r).
  Proof.
    intros home st0 st Hi pre r m p Ho He Hl Hm Hp. destruct (good_run home st0 st Hi pre Ho) as [G L].
    rewrite run_snoc. cbn [lstep]. eapply (good_log pre r (run pre st) G L); eauto.
  Qed.
  Theorem console_silent : forall home (st0 st : state), init_logging can_open home st0 = (st, Ok tt) ->
    forall pre (o : op), openable can_open pre ->
    (forall r, o = OLog r -> ~ (enabled pre r /\ (10 <= r_lev r)%Z /\ exists m, message merge r m)) ->
    l_console (run (pre ++ [o]) st) = l_console (run pre st).
  Proof.
    intros home st0 st Hi pre o Ho Hn. destruct (good_run home st0 st Hi pre Ho) as [G L]. rewrite run_snoc.
    destruct o as [r|l|i l|i|f].
    - cbn [lstep]. apply (good_log pre r (run pre st) G L). apply Hn. reflexivity.
    - apply other_console. discriminate.
    - apply other_console. discriminate.
    - apply other_console. discriminate.
    - apply other_console. discriminate.
  Qed.
End P.
