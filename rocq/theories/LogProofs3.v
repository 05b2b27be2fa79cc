(** * Proofs about logging: handlers of users. *)
From Coq Require Import String NArith ZArith Bool Arith Lia List.
From Verif Require Import Base BaseLemmas Str LogModel LogSpec LogProofs LogProofs2.
Import ListNotations.
Local Open Scope string_scope.
Local Open Scope nat_scope.
Local Open Scope list_scope.

Section P.
  Context {A : Type} (merge : pystr -> A -> res pystr) (can_open : pystr -> bool).
  Notation rec := (@lrec A).
  Notation op := (@lop A).
  Notation state := (@lstate A).
  Notation run := (lrun merge can_open).
  Notation step := (lstep merge can_open).

  Lemma attached_snoc_iff : forall (pre : list op) o i l,
    is_attached (pre ++ [o]) i l <->
    (is_attached pre i l /\ o <> ORemove i) \/ (o = OAdd i l /\ forall l', ~ is_attached pre i l').
  Proof.
    assert (Q : forall (pre : list op) i, (forall l', ~ is_attached pre i l') -> forall a1 l' a2, pre = a1 ++ OAdd i l' :: a2 -> In (ORemove i) a2).
    { intros pre i. induction pre as [|o pre IH] using rev_ind; intros Hn a1 l' a2 E; [destruct a1; discriminate|].
      assert (Dr : {In (ORemove i) a2} + {~ In (ORemove i) a2}).
      { clear. induction a2 as [|o a2 [IH|IH]]; [right; intros []|left; right; exact IH|].
        destruct o as [r|l|j l|j|f]; try (right; intros [X|X]; [discriminate|exact (IH X)]).
        destruct (Nat.eq_dec j i) as [-> |n]; [left; left; reflexivity|right; intros [X|X]; [congruence|exact (IH X)]]. }
      destruct Dr as [Y|Y]; [exact Y|exfalso].
      destruct (snoc_split _ _ _ _ _ _ E) as [[-> [-> <-]]|[b' [-> ->]]].
      - (* the last operation adds it *)
        assert (Z0 : forall l0, ~ is_attached pre i l0).
        { intros l0 (a & b & -> & Hb & Ha). apply (Hn l0). exists a, (b ++ [OAdd i l']). split; [rewrite <- app_assoc; reflexivity|].
          split; [|exact Ha]. intros X. apply in_app_or in X as [X|[X|[]]]; [contradiction|discriminate]. }
        apply (Hn l'). exists pre, []. split; [reflexivity|]. split; [intros []|]. intros c1 l0 c2 Ec. exact (IH Z0 c1 l0 c2 Ec).
      - assert (Z0 : forall l0, ~ is_attached (a1 ++ OAdd i l' :: b') i l0).
        { intros l0 (a & b & E0 & Hb & Ha). apply (Hn l0). exists a, (b ++ [o]). split; [rewrite E0, <- app_assoc; reflexivity|].
          split; [|exact Ha]. intros X. apply in_app_or in X as [X|[X|[]]]; [contradiction|].
          apply Y, in_or_app. right. left. exact X. }
        apply Y, in_or_app. left. exact (IH Z0 a1 l' b' eq_refl). }
    intros pre o i l. split.
    - intros (a & b & E & Hb & Ha). destruct (snoc_split _ _ _ _ _ _ E) as [[-> [-> <-]]|[b' [-> ->]]].
      + right. split; [reflexivity|]. intros l' (c1 & c2 & Ec & Hc & _). exact (Hc (Ha c1 l' c2 Ec)).
      + left. split.
        * exists a, b'. split; [reflexivity|]. split; [|exact Ha]. intros X. apply Hb, in_or_app. auto.
        * intros ->. apply Hb, in_or_app. right. left. reflexivity.
    - intros [[(a & b & -> & Hb & Ha) Ho]|[-> Hn]].
      + exists a, (b ++ [o]). split; [rewrite <- app_assoc; reflexivity|]. split; [|exact Ha].
        intros X. apply in_app_or in X as [X|[X|[]]]; contradiction.
      + exists pre, []. split; [reflexivity|]. split; [intros []|]. intros a1 l' a2 E. exact (Q pre i Hn a1 l' a2 E).
  Qed.
  Lemma attached_nil : forall i l, ~ is_attached (@nil op) i l.
  Proof. intros i l (a & b & E & _). destruct a; discriminate. Qed.

  (** ** The handlers of users among all handlers *)
  Definition ids (hs : list handler) : list nat := flat_map (fun h => match h with HUser i _ => [i] | _ => [] end) hs.
  Definition fits (pre : list op) (hs : list handler) : Prop :=
    NoDup (ids hs) /\ forall i l, In (HUser i l) hs <-> is_attached pre i l.

  Lemma ids_In : forall hs i, In i (ids hs) <-> exists l, In (HUser i l) hs.
  Proof.
    intros hs i. unfold ids. rewrite in_flat_map. split.
    - intros (h & Hh & X). destruct h as [|g|j l]; cbn in X; try contradiction. destruct X as [-> |[]]. eauto.
    - intros [l H]. exists (HUser i l). split; [exact H|left; reflexivity].
  Qed.
  Lemma existsb_user : forall hs i, existsb (is_user i) hs = true <-> exists l, In (HUser i l) hs.
  Proof.
    intros hs i. rewrite existsb_exists. split.
    - intros (h & Hh & X). destruct h as [|g|j l]; cbn in X; try discriminate. apply Nat.eqb_eq in X as ->. eauto.
    - intros [l H]. exists (HUser i l). split; [exact H|]. cbn. apply Nat.eqb_refl.
  Qed.
  Lemma ids_app : forall a b, ids (a ++ b) = ids a ++ ids b.
  Proof. intros. apply flat_map_app. Qed.
  Lemma NoDup_tail : forall (X : Type) (a b : list X), NoDup (a ++ b) -> NoDup b.
  Proof. intros X a b. induction a as [|x a IH]; intros H; [exact H|]. inversion H; subst. auto. Qed.
  Lemma ids_filter : forall i hs, NoDup (ids hs) -> NoDup (ids (filter (fun h => negb (is_user i h)) hs)).
  Proof.
    intros i hs. induction hs as [|h hs IH]; intros H; [constructor|]. cbn [filter].
    assert (H' : NoDup (ids hs)). { change (h :: hs) with ([h] ++ hs) in H. rewrite ids_app in H. apply NoDup_tail in H. exact H. }
    destruct (negb (is_user i h)); [|auto]. destruct h as [fmt|g|j l]; try (apply IH, H').
    cbn in *. inversion H as [|x y Hn Hd]; subst. constructor; [|apply IH, Hd].
    intros X. apply Hn. apply ids_In in X as [l' X]. apply filter_In in X as [X _]. apply ids_In. eauto.
  Qed.

  Lemma call_same : forall hs (r : rec) st, map (fun h => match h with HConsole _ => HConsole [] | _ => h end) (fst (call_handlers merge hs r st)) =
    map (fun h => match h with HConsole _ => HConsole [] | _ => h end) hs.
  Proof.
    induction hs as [|h hs IH]; intros r st; [reflexivity|]. rewrite call_cons. cbn zeta. cbn [fst map]. f_equal; [|apply IH].
    destruct (hlevel h <=? r_lev r)%Z; [|reflexivity]. destruct h as [fmt|g|i l]; try reflexivity. cbn [emit].
    destruct (default_format merge fmt r). reflexivity.
  Qed.
  Lemma same_user : forall hs hs' i l, map (fun h => match h with HConsole _ => HConsole [] | _ => h end) hs =
    map (fun h => match h with HConsole _ => HConsole [] | _ => h end) hs' -> In (HUser i l) hs -> In (HUser i l) hs'.
  Proof.
    intros hs hs' i l E H. apply (in_map (fun h => match h with HConsole _ => HConsole [] | _ => h end)) in H.
    rewrite E in H. apply in_map_iff in H as (h & Eh & Hh). destruct h; try discriminate. injection Eh as -> ->. exact Hh.
  Qed.
  Lemma same_ids : forall hs hs', map (fun h => match h with HConsole _ => HConsole [] | _ => h end) hs =
    map (fun h => match h with HConsole _ => HConsole [] | _ => h end) hs' -> ids hs = ids hs'.
  Proof.
    induction hs as [|h hs IH]; intros [|h' hs'] E; try discriminate; [reflexivity|]. injection E as Eh E.
    change (h :: hs) with ([h] ++ hs). change (h' :: hs') with ([h'] ++ hs'). rewrite !ids_app, (IH _ E). f_equal.
    destruct h, h'; try discriminate; try reflexivity. injection Eh as -> ->. reflexivity.
  Qed.

  Lemma fits_other : forall (pre : list op) o hs, (forall i, o <> ORemove i) -> (forall i l, o <> OAdd i l) -> fits pre hs -> fits (pre ++ [o]) hs.
  Proof.
    intros pre o hs H1 H2 [N0 F]. split; [exact N0|]. intros i l. rewrite F, attached_snoc_iff. split.
    - intros X. left. split; [exact X|apply H1].
    - intros [[X _]|[X _]]; [exact X|destruct (H2 i l X)].
  Qed.

  Lemma fits_run : forall home (st0 st : state), init_logging can_open home st0 = (st, Ok tt) ->
    forall pre, calm can_open pre -> fits pre (l_handlers (run pre st)).
  Proof.
    intros home st0 st Hi pre. induction pre as [|o pre IH] using rev_ind; intros Hc.
    - destruct (init_good can_open home st0 st Hi) as (_ & Ih & _). cbn. rewrite Ih. split; [constructor|].
      intros i l. split; [intros [X|[X|[]]]; discriminate|]. intros X. destruct (attached_nil i l X).
    - assert (Hc' := calm_snoc can_open _ _ Hc). specialize (IH Hc'). rewrite run_snoc.
      destruct o as [r|l|i l|i|f]; cbn [lstep].
      + apply fits_other; try discriminate. rewrite log_eq. destruct (effective (r_own r) (l_level (run pre st)) <=? r_lev r)%Z; [|exact IH].
        cbn zeta. cbn [l_handlers]. assert (S0 := call_same (l_handlers (run pre st)) r (run pre st)). destruct IH as [N0 F]. split.
        * rewrite (same_ids _ _ S0). exact N0.
        * intros i l. rewrite <- F. split; intros X; eapply same_user; [exact S0|exact X|symmetry; exact S0|exact X].
      + apply fits_other; try discriminate. exact IH.
      + destruct IH as [N0 F]. unfold add_user. destruct (existsb (is_user i) (l_handlers (run pre st))) eqn:X.
        * apply existsb_user in X as [l0 X]. split; [exact N0|]. intros j l'. rewrite F, attached_snoc_iff. split.
          -- intros Y. left. split; [exact Y|discriminate].
          -- intros [[Y _]|[Y Hn]]; [exact Y|]. injection Y as -> ->. apply F in X. destruct (Hn l0 X).
        * assert (X' : forall l0, ~ In (HUser i l0) (l_handlers (run pre st))).
          { intros l0 Y. assert (existsb (is_user i) (l_handlers (run pre st)) = true) by (apply existsb_user; eauto). congruence. }
          cbn [l_handlers set_handlers]. split.
          -- rewrite ids_app. cbn. apply NoDup_app'; [exact N0|repeat constructor; intros []|].
             intros j Hj [<- |[]]. apply ids_In in Hj as [l0 Hj]. exact (X' l0 Hj).
          -- intros j l'. rewrite in_app_iff, F, attached_snoc_iff. split.
             ++ intros [Y|[Y|[]]]; [left; split; [exact Y|discriminate]|]. injection Y as <- <-. right. split; [reflexivity|].
                intros l0 Y. apply F in Y. exact (X' l0 Y).
             ++ intros [[Y _]|[Y _]]; [auto|]. injection Y as -> ->. right. left. reflexivity.
      + destruct IH as [N0 F]. unfold remove_user. cbn [l_handlers set_handlers]. split; [apply ids_filter, N0|].
        intros j l'. rewrite filter_In, F, attached_snoc_iff. cbn [is_user]. rewrite negb_true_iff, Nat.eqb_neq. split.
        * intros [Y n]. left. split; [exact Y|]. congruence.
        * intros [[Y n]|[Y _]]; [|discriminate]. split; [exact Y|]. congruence.
      + destruct (tidy_run merge can_open home st0 st Hi pre Hc') as (fmt & us & E & U).
        assert (us = []) as ->.
        { destruct us as [|h us]; [reflexivity|]. inversion U as [|h' us' (i & l & a1 & a2 & _ & Ep & Hn) _]; subst. exfalso. apply Hn.
          destruct Hc as [_ Hc]. apply (Hc (a1 ++ OAdd i l :: a2) f [] eq_refl a1 i l a2 eq_refl). }
        unfold change_log_file, create_file_handler, open_file.
        assert (Hf : can_open f = true) by (apply (proj1 Hc); apply in_or_app; right; left; reflexivity).
        rewrite Hf. rewrite E in *. cbn [rmap fst l_handlers set_handlers removelast app].
        destruct IH as [_ F]. apply fits_other; try discriminate. split; [constructor|]. intros i l. rewrite <- F. cbn. intuition discriminate.
  Qed.

  (** ** What they get *)
  Lemma emit_sink : forall h (r : rec) st i, sink (snd (emit merge h r st)) i = sink st i ++ (if is_user i h then [r] else []).
  Proof.
    intros h r st i. destruct h as [fmt|g|j l]; cbn [emit is_user].
    - destruct (default_format merge fmt r) as [[s|e] fmt']; cbn [snd]; rewrite app_nil_r; reflexivity.
    - cbn [snd]. destruct (fmt_format merge file_fmt r); rewrite app_nil_r; reflexivity.
    - cbn [snd]. unfold sink at 1. cbn [l_sinks]. destruct (Nat.eqb_spec i j) as [-> |n].
      + rewrite dget_dset_same. reflexivity.
      + rewrite dget_dset_other by exact n. rewrite app_nil_r. reflexivity.
  Qed.
  Lemma call_sink : forall hs (r : rec) st i, NoDup (ids hs) ->
    (forall l, In (HUser i l) hs -> sink (snd (call_handlers merge hs r st)) i = sink st i ++ (if (l <=? r_lev r)%Z then [r] else [])) /\
    (~ In i (ids hs) -> sink (snd (call_handlers merge hs r st)) i = sink st i).
  Proof.
    induction hs as [|h hs IH]; intros r st i Hd; [split; [intros l []|reflexivity]|].
    rewrite call_cons. cbn zeta. cbn [snd].
    assert (Hd' : NoDup (ids hs)). { change (h :: hs) with ([h] ++ hs) in Hd. rewrite ids_app in Hd. apply NoDup_tail in Hd. exact Hd. }
    set (x := if (hlevel h <=? r_lev r)%Z then emit merge h r st else (h, st)).
    destruct (IH r (snd x) i Hd') as [P1 P2].
    assert (X : is_user i h = false -> sink (snd x) i = sink st i).
    { intros Hu. subst x. destruct (hlevel h <=? r_lev r)%Z; [|reflexivity]. rewrite emit_sink, Hu, app_nil_r. reflexivity. }
    split.
    - intros l [-> |H].
      + rewrite P2; [|inversion Hd; assumption]. subst x. cbn [hlevel]. destruct (l <=? r_lev r)%Z; [|rewrite app_nil_r; reflexivity].
        rewrite emit_sink. cbn [is_user]. rewrite Nat.eqb_refl. reflexivity.
      + rewrite (P1 l H), X; [reflexivity|]. destruct h as [|g|j l']; try reflexivity. cbn in *. apply Nat.eqb_neq. intros <-.
        inversion Hd as [|a b Hn _]; subst. apply Hn. apply ids_In. eauto.
    - intros H. rewrite P2.
      + apply X. destruct h as [|g|j l']; try reflexivity. cbn in *. apply Nat.eqb_neq. intros <-. apply H. left. reflexivity.
      + intros Y. apply H. change (h :: hs) with ([h] ++ hs). rewrite ids_app. apply in_or_app. auto.
  Qed.

  Lemma other_sink : forall (o : op) st i, (forall r, o <> OLog r) -> sink (step st o) i = sink st i.
  Proof.
    intros o st i H. destruct o as [r|l|j l|j|f]; [destruct (H r eq_refl)| | | |]; cbn [lstep]; try reflexivity.
    - unfold add_user. destruct (existsb (is_user j) (l_handlers st)); reflexivity.
    - unfold change_log_file, create_file_handler, open_file. destruct (l_handlers st); [reflexivity|].
      destruct (can_open f); reflexivity.
  Qed.

  Theorem user_gets : forall home (st0 st : state), init_logging can_open home st0 = (st, Ok tt) ->
    forall pre (r : rec) i l, calm can_open pre -> is_attached pre i l -> enabled pre r -> (l <= r_lev r)%Z ->
    sink (run (pre ++ [OLog r]) st) i = sink (run pre st) i ++ [r].
  Proof.
    intros home st0 st Hi pre r i l Hc Ha He Hl. destruct (fits_run home st0 st Hi pre Hc) as [N0 F]. apply F in Ha.
    rewrite run_snoc. cbn [lstep]. rewrite log_eq.
    destruct (good_run merge can_open home st0 st Hi pre (proj1 Hc)) as [_ ->]. apply enabled_iff in He. rewrite He. cbn zeta.
    destruct (call_sink (l_handlers (run pre st)) r (run pre st) i N0) as [P _]. specialize (P l Ha).
    destruct (Z.leb_spec l (r_lev r)); [|lia]. exact P.
  Qed.
  Theorem user_gets_nothing : forall home (st0 st : state), init_logging can_open home st0 = (st, Ok tt) ->
    forall pre (o : op) i, calm can_open pre ->
    (forall r, o = OLog r -> ~ (enabled pre r /\ exists l, is_attached pre i l /\ (l <= r_lev r)%Z)) ->
    sink (run (pre ++ [o]) st) i = sink (run pre st) i.
  Proof.
    intros home st0 st Hi pre o i Hc Hn. rewrite run_snoc. destruct o as [r|l|j l|j|f].
    2-5: apply other_sink; discriminate.
    specialize (Hn r eq_refl). destruct (fits_run home st0 st Hi pre Hc) as [N0 F]. cbn [lstep]. rewrite log_eq.
    destruct (good_run merge can_open home st0 st Hi pre (proj1 Hc)) as [_ ->].
    destruct (effective (r_own r) (level_after 20 pre) <=? r_lev r)%Z eqn:En; [|reflexivity]. apply enabled_iff in En. cbn zeta.
    destruct (call_sink (l_handlers (run pre st)) r (run pre st) i N0) as [P1 P2].
    change (sink (snd (call_handlers merge (l_handlers (run pre st)) r (run pre st))) i = sink (run pre st) i).
    destruct (in_dec Nat.eq_dec i (ids (l_handlers (run pre st)))) as [X|X]; [|apply P2, X].
    apply ids_In in X as [l X]. rewrite (P1 l X). destruct (Z.leb_spec l (r_lev r)) as [Hl|Hl]; [|apply app_nil_r].
    exfalso. apply Hn. split; [exact En|]. exists l. split; [apply F, X|exact Hl].
  Qed.
End P.
