(** * Proofs about the calls of a ColFreqHandler. *)
From Coq Require Import String NArith ZArith Bool Arith Lia List.
From Verif Require Import Base BaseLemmas VocabModel CorpusModel CorpusSpec ParModel ParProofs MxModel MxSpec ParColModel ParColSpec ParColProofs HndModel HndSpec.
Import ListNotations.

Section LastOf.
  Context {L : Type}.
  Notation action := (action L).
  Variable P : list action -> action -> nat -> Prop.

  Lemma snoc_cases (a1 a2 : list action) x acts y : acts ++ [y] = a1 ++ x :: a2 ->
    (a2 = [] /\ acts = a1 /\ x = y) \/ exists a2', a2 = a2' ++ [y] /\ acts = a1 ++ x :: a2'.
  Proof.
    destruct a2 as [|z a2 _] using rev_ind; intros E.
    - apply app_inj_tail in E as [-> ->]. auto.
    - right. exists a2. rewrite app_comm_cons, app_assoc in E. apply app_inj_tail in E as [-> ->]. auto.
  Qed.
  Lemma last_of_snoc acts a i : P acts a i -> last_of P (acts ++ [a]) i.
  Proof. intros H. exists acts, a, []. split; [auto|]. split; [auto|]. intros b1 b b2 j E. now destruct b1. Qed.
  Lemma last_of_keep acts a i : (forall j, ~ P acts a j) -> last_of P acts i -> last_of P (acts ++ [a]) i.
  Proof.
    intros H (a1 & x & a2 & -> & Hx & Hn). exists a1, x, (a2 ++ [a]). split; [now rewrite <- app_assoc|]. split; [auto|].
    intros b1 b b2 j E. apply snoc_cases in E as [(-> & -> & ->)|(b2' & -> & ->)]; [apply H|]. eapply Hn. reflexivity.
  Qed.
  Lemma none_of_keep acts a : (forall j, ~ P acts a j) -> none_of P acts -> none_of P (acts ++ [a]).
  Proof.
    intros H Hn a1 x a2 i E. apply snoc_cases in E as [(-> & -> & ->)|(b2' & -> & ->)]; [apply H|]. eapply Hn. reflexivity.
  Qed.
  Lemma last_of_none acts i : none_of P acts -> ~ last_of P acts i.
  Proof. intros Hn (a1 & a & a2 & E & H & _). exact (Hn _ _ _ _ E H). Qed.
  Lemma last_of_unique acts i j : (forall a1 a i j, P a1 a i -> P a1 a j -> i = j) -> last_of P acts i -> last_of P acts j -> i = j.
  Proof.
    intros U. revert i j. induction acts as [|a acts IH] using rev_ind; intros i j (a1 & x & a2 & E & Hx & Nx) (b1 & y & b2 & F & Hy & Ny).
    - now destruct a1.
    - apply snoc_cases in E as [(-> & -> & ->)|(a2' & -> & ->)]; apply snoc_cases in F as [(-> & E & ->)|(b2' & -> & F)].
      + subst. eapply U; eauto.
      + subst. exfalso. exact (Ny b2' a [] i eq_refl Hx).
      + subst. exfalso. eapply (Nx a2' a [] j); auto.
      + apply IH; [exists a1, x, a2'|exists b1, y, b2']; (split; [auto|]); (split; [auto|]).
        * intros c1 c c2 k ->. apply (Nx c1 c (c2 ++ [a])). now rewrite <- app_assoc.
        * intros c1 c c2 k ->. apply (Ny c1 c (c2 ++ [a])). now rewrite <- app_assoc.
  Qed.
End LastOf.

Section Hist.
  Context {L M : Type}.
  Variable match_line : L -> option M.
  Variable separator : L -> bool.
  Variables get_type get_colloc : M -> pystr.
  Variables l r : nat.
  Notation action := (action L).
  Notation build := (build_col_freq match_line separator get_type get_colloc l r).
  Notation hist := (history match_line separator get_type get_colloc l r).

  Lemma len_nonempty v : (v_len v =? 0) = false <-> nonempty v.
  Proof. unfold v_len, nonempty, dkeys. destruct (fd v); cbn; [|split; [discriminate|reflexivity]]. split; [discriminate|congruence]. Qed.
  Lemma objs_after_app (h : objs) (a1 a2 : list action) : objs_after h (a1 ++ a2) = objs_after (objs_after h a1) a2.
  Proof. revert h. induction a1 as [|[row col|[nw sched fnames row col|i v]] a1 IH]; intros h; cbn [app objs_after]; auto. Qed.
  Lemma gives_rows_fun (h : objs) (a : action) i j : gives_rows h a i -> gives_rows h a j -> i = j.
  Proof. intros [_ H1] [_ H2]. destruct a as [? ?|[? ? [?|?] ? ?|? ?]]; try contradiction; congruence. Qed.
  Lemma gives_cols_fun (h : objs) (a : action) i j : gives_cols h a i -> gives_cols h a j -> i = j.
  Proof. intros [_ H1] [_ H2]. destruct a as [? ?|[? ? [?|?] ? ?|? ?]]; try contradiction; congruence. Qed.

  (** What the handler keeps, in terms of the actions so far. *)
  Definition kept (lst : list action -> nat -> Prop) (non : list action -> Prop) (acts : list action) (o : option nat) : Prop :=
    match o with Some i => lst acts i | None => non acts end.
  Definition good (h0 : objs) (acts : list action) (s : objs * hnd) : Prop :=
    fst s = objs_after h0 acts /\ kept (last_rows h0) (no_rows h0) acts (hrow (snd s)) /\ kept (last_cols h0) (no_cols h0) acts (hcol (snd s)).

  Lemma kept_snoc (P : list action -> action -> nat -> Prop) acts a o x (h : objs) :
    kept (last_of P) (none_of P) acts o ->
    (forall i, P acts a i <-> x = Some i /\ nonempty (h i)) ->
    kept (last_of P) (none_of P) (acts ++ [a]) (or_else h x o).
  Proof.
    intros K H.
    assert (no : (forall i, ~ P acts a i) -> kept (last_of P) (none_of P) (acts ++ [a]) o).
    { intros Hn. destruct o as [i|]; [now apply last_of_keep|now apply none_of_keep]. }
    destruct x as [i|]; cbn [or_else].
    - destruct (v_len (h i) =? 0) eqn:E.
      + apply no. intros j Hj. apply H in Hj as [[= <-] N]. apply len_nonempty in N. congruence.
      + apply last_of_snoc, H. split; [auto|]. now apply len_nonempty.
    - apply no. intros j Hj. apply H in Hj as [[=] _].
  Qed.
  Lemma kept_same (P : list action -> action -> nat -> Prop) acts a o :
    kept (last_of P) (none_of P) acts o -> (forall i, ~ P acts a i) -> kept (last_of P) (none_of P) (acts ++ [a]) o.
  Proof. intros K Hn. destruct o as [i|]; [now apply last_of_keep|now apply none_of_keep]. Qed.

  Lemma good_new h row col : good h [New row col] (h, cf_new h row col).
  Proof.
    split; [reflexivity|]. split.
    - apply (kept_snoc (fun a1 a i => gives_rows (objs_after h a1) a i) [] (New row col) None row h).
      + intros a1 a a2 i E. now destruct a1.
      + intros i. unfold gives_rows. cbn. tauto.
    - apply (kept_snoc (keeps_cols h) [] (New row col) None col h).
      + intros a1 a a2 i E. now destruct a1.
      + intros i. unfold keeps_cols, gives_cols. cbn. tauto.
  Qed.
  Lemma known_kept (h0 : objs) acts o : kept (last_rows h0) (no_rows h0) acts o ->
    (nonempty (deref (objs_after h0 acts) o) <-> rows_known h0 acts).
  Proof.
    intros K. destruct o as [i|]; cbn [kept deref] in *.
    - split; [intros; now exists i|]. intros (j & Hj & Nj). replace i with j; [auto|].
      eapply last_of_unique; [|exact Hj|exact K]. intros a1 a. apply gives_rows_fun.
    - split; [intros H; now contradiction H|]. intros (j & Hj & _). exfalso. exact (last_of_none _ _ _ K Hj).
  Qed.
  Lemma good_call h0 acts h o nw sched fnames row col o' x : good h0 acts (h, o) ->
    build h nw sched fnames row col o = Some (o', x) -> good h0 (acts ++ [Ev (Call nw sched fnames row col)]) (h, o').
  Proof.
    intros (E & KR & KC) B. cbn [fst snd] in *. unfold build_col_freq in B. destruct fnames as [files|e].
    - set (a := Ev (Call nw sched (Ok files) row col)) in *.
      assert (KR' : kept (last_rows h0) (no_rows h0) (acts ++ [a]) (or_else h row (hrow o))).
      { apply kept_snoc; [exact KR|]. intros i. rewrite <- E. unfold gives_rows. cbn. tauto. }
      assert (E' : objs_after h0 (acts ++ [a]) = h) by (rewrite objs_after_app; cbn; now rewrite E).
      pose proof (known_kept _ _ _ KR') as KN. rewrite E' in KN. cbn [hrow hcol] in B.
      destruct (v_len (deref h (or_else h row (hrow o))) =? 0) eqn:LN.
      + injection B as <- <-. split; [auto|]. split; [exact KR'|]. cbn [hcol snd]. apply kept_same; [exact KC|].
        intros i (_ & K). apply KN, len_nonempty in K. congruence.
      + apply len_nonempty in LN. destruct (run _ _ _ _) as [st|]; [|discriminate]. destruct (joined st); [|discriminate].
        injection B as <- <-. split; [auto|]. split; [exact KR'|]. cbn [hcol snd]. apply kept_snoc; [exact KC|].
        intros i. unfold keeps_cols, gives_cols. rewrite <- E. cbn. apply KN in LN. unfold a in LN. tauto.
    - injection B as <- <-. split; [cbn; rewrite objs_after_app; cbn; auto|]. split; apply kept_same; auto.
      + intros i [_ []].
      + intros i [[_ []] _].
  Qed.
  Lemma good_step h0 acts s e s' x : good h0 acts s -> event_step match_line separator get_type get_colloc l r s e = Some (s', x) ->
    good h0 (acts ++ [Ev e]) s'.
  Proof.
    destruct s as [h o]. intros G. destruct e as [nw sched fnames row col|i v]; cbn [event_step fst snd].
    - destruct (build h nw sched fnames row col o) as [[o' y]|] eqn:B; [|discriminate]. intros [= <- <-]. eapply good_call; eauto.
    - intros [= <- <-]. destruct G as (E & KR & KC). cbn [fst snd] in *.
      split; [cbn; rewrite objs_after_app; cbn; now rewrite E|]. split; apply kept_same; auto.
      + intros j [_ []].
      + intros j [[_ []] _].
  Qed.
  Lemma good_history h0 acts s es s' : good h0 acts s -> hist s es = Some s' -> good h0 (acts ++ map Ev es) s'.
  Proof.
    revert acts s. induction es as [|e es IH]; intros acts s G; cbn [history map].
    - intros [= <-]. now rewrite app_nil_r.
    - destruct (event_step _ _ _ _ _ _ s e) as [[s1 x]|] eqn:E; [|discriminate]. intros H.
      change (Ev e :: map Ev es) with ([Ev e] ++ map Ev es). rewrite app_assoc. eapply IH; [|exact H]. eapply good_step; eauto.
  Qed.
  (** A call after any history: the handler before it and after it. *)
  Lemma call_good h0 row col es h o : hist (h0, cf_new h0 row col) es = Some (h, o) ->
    forall nw sched fnames row' col' o' x, build h nw sched fnames row' col' o = Some (o', x) ->
    good h0 (New row col :: map Ev es ++ [Ev (Call nw sched fnames row' col')]) (h, o').
  Proof.
    intros H * B. pose proof (good_history _ _ _ _ _ (good_new h0 row col) H) as G.
    pose proof (good_call _ _ _ _ _ _ _ _ _ _ _ G B) as G'. now rewrite <- app_assoc in G'.
  Qed.
  Lemma kept_last (P : list action -> action -> nat -> Prop) acts o i :
    (forall a1 a i j, P a1 a i -> P a1 a j -> i = j) -> kept (last_of P) (none_of P) acts o -> last_of P acts i -> o = Some i.
  Proof.
    intros U K H. destruct o as [j|]; cbn [kept] in K; [f_equal; eapply last_of_unique; eauto|].
    exfalso. exact (last_of_none _ _ _ K H).
  Qed.
  Lemma kept_none (P : list action -> action -> nat -> Prop) acts o : kept (last_of P) (none_of P) acts o -> none_of P acts -> o = None.
  Proof. intros K H. destruct o as [j|]; [|auto]. exfalso. exact (last_of_none _ _ _ H K). Qed.
  Lemma rows_fun h0 : forall (a1 : list action) (a : action) i j, gives_rows (objs_after h0 a1) a i -> gives_rows (objs_after h0 a1) a j -> i = j.
  Proof. intros a1 a. apply gives_rows_fun. Qed.
  Lemma cols_fun h0 : forall (a1 : list action) a i j, keeps_cols h0 a1 a i -> keeps_cols h0 a1 a j -> i = j.
  Proof. intros a1 a i j [H1 _] [H2 _]. eapply gives_cols_fun; eauto. Qed.

  Lemma known_or h0 (acts : list action) o : kept (last_rows h0) (no_rows h0) acts o -> (exists i, last_rows h0 acts i) \/ no_rows h0 acts.
  Proof. destruct o as [i|]; cbn [kept]; eauto. Qed.

  (** The call itself, once it is known what the handler keeps after it. *)
  Lemma build_run h nw sched files row col o o' x : build h nw sched (Ok files) row col o = Some (o', x) ->
    nonempty (deref h (hrow o')) ->
    exists st, run (cf_job match_line separator get_type get_colloc (deref h (hrow o')) l r) (cf_finish (deref h (hrow o')) (deref h (hcol o')))
                   (cf_start (deref h (hcol o')) nw files) sched = Some st /\ joined st = true /\ x = cf_result st.
  Proof.
    intros B Nn. unfold build_col_freq in B. cbn [hrow hcol] in B. destruct (v_len _ =? 0) eqn:LN.
    - injection B as <- <-. apply len_nonempty in Nn. cbn [hrow] in Nn. congruence.
    - destruct (run _ _ _ _) as [st|] eqn:E; [|discriminate]. destruct (joined st) eqn:J; [|discriminate].
      injection B as <- <-. exists st. auto.
  Qed.
  Lemma build_norows h nw sched files row col o o' x : build h nw sched (Ok files) row col o = Some (o', x) ->
    ~ nonempty (deref h (hrow o')) -> x = Ok None.
  Proof.
    intros B Nn. unfold build_col_freq in B. cbn [hrow hcol] in B. destruct (v_len _ =? 0) eqn:LN.
    - injection B as <- <-. reflexivity.
    - destruct (run _ _ _ _) as [st|] eqn:E; [|discriminate]. destruct (joined st) eqn:J; [|discriminate].
      injection B as <- <-. contradiction Nn. now apply len_nonempty.
  Qed.

  Lemma call_counts h0 row col es h o : hist (h0, cf_new h0 row col) es = Some (h, o) ->
    forall nw sched contents row' col' o' x, 1 <= nw -> build h nw sched (Ok (map Ok contents)) row' col' o = Some (o', x) ->
    forall i, last_rows h0 (New row col :: map Ev es ++ [Ev (Call nw sched (Ok (map Ok contents)) row' col')]) i ->
    nonempty (h i) -> filt (h i) = true -> dwf (fd (h i)) ->
    forall cv, usable cv ->
    (exists j, last_cols h0 (New row col :: map Ev es ++ [Ev (Call nw sched (Ok (map Ok contents)) row' col')]) j /\ cv = h j) \/
    (no_cols h0 (New row col :: map Ev es ++ [Ev (Call nw sched (Ok (map Ok contents)) row' col')]) /\ cv = vocab_init false []) ->
    exists t, x = Ok t /\ holds_counts (h i) cv t (corpus_pairs match_line separator get_type get_colloc (h i) cv l r contents).
  Proof.
    intros H * N B i LR Ni Fi Wi cv U LC. destruct (call_good _ _ _ _ _ _ H _ _ _ _ _ _ _ B) as (_ & KR & KC). cbn [snd] in *.
    pose proof (kept_last _ _ _ _ (rows_fun h0) KR LR) as ER.
    assert (EC : deref h (hcol o') = cv).
    { destruct LC as [(j & LC & ->)|(LC & ->)].
      - rewrite (kept_last _ _ _ _ (cols_fun h0) KC LC). reflexivity.
      - rewrite (kept_none _ _ _ KC LC). reflexivity. }
    destruct (build_run _ _ _ _ _ _ _ _ _ B) as (st & E & J & ->); [rewrite ER; exact Ni|].
    rewrite ER, EC in E. cbn [deref] in E. eapply col_pool; eauto.
    unfold any_column. destruct U as [->|U]; [left; reflexivity|right; exact U].
  Qed.
  Lemma call_norows h0 row col es h o : hist (h0, cf_new h0 row col) es = Some (h, o) ->
    forall nw sched files row' col' o' x, build h nw sched (Ok files) row' col' o = Some (o', x) ->
    ~ rows_known h0 (New row col :: map Ev es ++ [Ev (Call nw sched (Ok files) row' col')]) -> x = Ok None.
  Proof.
    intros H * B K. destruct (call_good _ _ _ _ _ _ H _ _ _ _ _ _ _ B) as (E & KR & _). cbn [fst snd] in *.
    eapply build_norows; [exact B|]. intros Nn. apply K. eapply known_kept; [exact KR|]. now rewrite <- E.
  Qed.
  Lemma call_objs h0 row col es h o : hist (h0, cf_new h0 row col) es = Some (h, o) -> h = objs_after h0 (map (@Ev L) es).
  Proof. intros H. pose proof (good_history _ _ _ _ _ (good_new h0 row col) H) as (E & _). exact E. Qed.
  Lemma call_files h nw sched e row col o : build h nw sched (Err e) row col o = Some (o, Err e).
  Proof. reflexivity. Qed.
  Lemma hist_rows h0 row col es h o : hist (h0, cf_new h0 row col) es = Some (h, o) ->
    ((exists i, last_rows h0 (New row col :: map Ev es) i) \/ no_rows h0 (New row col :: map Ev es)) /\
    ((exists i, last_cols h0 (New row col :: map Ev es) i) \/ no_cols h0 (New row col :: map Ev es)).
  Proof.
    intros H. pose proof (good_history _ _ _ _ _ (good_new h0 row col) H) as (_ & KR & KC). cbn [snd app] in *.
    split; [destruct (hrow o) as [i|]|destruct (hcol o) as [i|]]; cbn [kept] in *; eauto.
  Qed.
  Lemma rows_unique h0 (acts : list action) i j : last_rows h0 acts i -> last_rows h0 acts j -> i = j.
  Proof. apply last_of_unique, rows_fun. Qed.
  Lemma cols_unique h0 (acts : list action) i j : last_cols h0 acts i -> last_cols h0 acts j -> i = j.
  Proof. apply last_of_unique, cols_fun. Qed.
End Hist.
