(** * Lemmas about the string methods of [Str]. *)
From Coq Require Import Decimal DecimalFacts DecimalZ DecimalPos DecimalN NArith ZArith Bool Arith Lia List.
From Verif Require Import Base BaseLemmas Str.
Import ListNotations.

Lemma split_nonempty c s : split c s <> [].
Proof. destruct s; cbn; [congruence|]. destruct (eqdec n c); [congruence|]. destruct (split c s); congruence. Qed.
Lemma split_noc c s : Forall (fun p => ~ In c p) (split c s).
Proof.
  induction s as [|x s IH]; cbn; [repeat constructor; auto|].
  destruct (eqdec x c) as [E|NE]; [constructor; auto|].
  pose proof (split_nonempty c s). destruct (split c s) as [|p ps]; [congruence|].
  inversion IH; subst. constructor; auto. cbn. intros [?|?]; congruence || tauto.
Qed.
Lemma join_split c s : join c (split c s) = s.
Proof.
  induction s as [|x s IH]; cbn; auto.
  pose proof (split_nonempty c s) as NE.
  destruct (eqdec x c) as [->|N].
  - destruct (split c s) as [|p ps] eqn:E; [congruence|]. cbn in *. f_equal. exact IH.
  - destruct (split c s) as [|p ps] eqn:E; [congruence|]. destruct ps; cbn in *; congruence.
Qed.
Lemma split_app_noc c p s : ~ In c p -> split c (p ++ c :: s) = p :: split c s.
Proof.
  induction p as [|x p IH]; cbn; intros N.
  - destruct (eqdec c c); congruence.
  - destruct (eqdec x c); [exfalso; apply N; auto|]. rewrite IH by tauto. auto.
Qed.
Lemma split_noc_id c p : ~ In c p -> split c p = [p].
Proof.
  induction p as [|x p IH]; cbn; auto. intros N. destruct (eqdec x c); [exfalso; apply N; auto|].
  rewrite IH by tauto. auto.
Qed.
Lemma split_join c l : l <> [] -> Forall (fun p => ~ In c p) l -> split c (join c l) = l.
Proof.
  induction l as [|p l IH]; [congruence|]. intros _ F. inversion F; subst.
  destruct l as [|q l].
  - cbn. apply split_noc_id; auto.
  - change (join c (p :: q :: l)) with (p ++ c :: join c (q :: l)).
    rewrite split_app_noc by auto. rewrite IH; auto. congruence.
Qed.
Lemma split_length c s : length (split c s) = S (count c s).
Proof.
  induction s as [|x s IH]; cbn; auto.
  destruct (eqdec x c) as [->|N]; destruct (eqdec c c); try congruence.
  - cbn. lia.
  - destruct (eqdec c x); [congruence|]. pose proof (split_nonempty c s). destruct (split c s); [congruence|]. cbn in *. lia.
Qed.

(** strip *)
Lemma lstrip_hd s : match lstrip s with [] => True | x :: _ => is_ws x = false end.
Proof. induction s as [|x s IH]; cbn; auto. destruct (is_ws x) eqn:E; auto. Qed.
Lemma lstrip_id x s : is_ws x = false -> lstrip (x :: s) = x :: s.
Proof. cbn. intros ->. auto. Qed.
Lemma lstrip_incl s x : In x (lstrip s) -> In x s.
Proof. induction s as [|y s IH]; cbn; auto. destruct (is_ws y); cbn; auto. Qed.
Lemma rstrip_incl s x : In x (rstrip s) -> In x s.
Proof. unfold rstrip. rewrite <- in_rev. intros H. apply lstrip_incl in H. rewrite in_rev. auto. Qed.
Lemma strip_incl s x : In x (strip s) -> In x s.
Proof. intros H. apply lstrip_incl, rstrip_incl; auto. Qed.
Lemma rstrip_last s x : is_ws x = false -> rstrip (s ++ [x]) = s ++ [x].
Proof. intros W. unfold rstrip. rewrite rev_unit, lstrip_id by auto. cbn. rewrite rev_involutive. auto. Qed.
Lemma rstrip_prefix s : exists t, s = rstrip s ++ t.
Proof.
  unfold rstrip. assert (forall r, exists t, r = t ++ lstrip r) as H.
  { induction r as [|x r [t IH]]; cbn; [exists []; auto|]. destruct (is_ws x).
    - exists (x :: t). cbn. congruence.
    - exists []. auto. }
  destruct (H (rev s)) as [t E]. exists (rev t).
  rewrite <- (rev_involutive s) at 1. rewrite E at 1. rewrite rev_app_distr. auto.
Qed.
Lemma strip_hd s : match strip s with [] => True | x :: _ => is_ws x = false end.
Proof.
  unfold strip. destruct (rstrip_prefix (lstrip s)) as [t E]. pose proof (lstrip_hd s) as H.
  destruct (rstrip (lstrip s)) as [|x r]; auto. rewrite E in H. auto.
Qed.
Lemma break_ws c : is_break c = true -> is_ws c = true.
Proof. unfold is_break, is_ws. rewrite !orb_true_iff, !andb_true_iff, !N.leb_le, !N.eqb_eq. lia. Qed.

(** splitlines *)
Lemma splitlines_aux_line cur w s : (forall c, In c w -> is_break c = false) ->
  splitlines_aux cur (w ++ 10%N :: s) = (rev cur ++ w) :: splitlines_aux [] s.
Proof.
  revert cur; induction w as [|c w IH]; intros cur F; cbn [app].
  - cbn -[N.eqb]. rewrite app_nil_r. destruct s; auto.
  - cbn -[N.eqb]. rewrite (F c) by (left; auto). rewrite IH by (intros; apply F; right; auto).
    cbn. rewrite <- app_assoc. auto.
Qed.
Lemma splitlines_nobreak_aux n : forall s cur, length s <= n -> (forall c, In c cur -> is_break c = false) ->
  Forall (fun l => forall c, In c l -> is_break c = false) (splitlines_aux cur s).
Proof.
  induction n as [|n IH]; intros s cur L F; destruct s as [|c s]; cbn in L; try lia.
  - cbn. destruct cur; repeat constructor. intros x Hx. apply F. apply in_rev; auto.
  - cbn. destruct cur; repeat constructor. intros x Hx. apply F. apply in_rev; auto.
  - cbn -[N.eqb]. destruct (is_break c) eqn:B.
    + constructor; [intros x Hx; apply F; apply in_rev; auto|].
      destruct s as [|d s]; [constructor|].
      destruct ((c =? 13)%N && (d =? 10)%N); apply IH; cbn in *; try lia; intros ? [].
    + apply IH; [lia|]. intros x [<-|Hx]; auto.
Qed.
Lemma splitlines_nobreak s : Forall (fun l => forall c, In c l -> is_break c = false) (splitlines s).
Proof. apply (splitlines_nobreak_aux (length s)); auto. intros ? []. Qed.

(** str / int *)
Definition is_digit (c : N) : bool := ((48 <=? c) && (c <=? 57))%N.
Lemma uint_str_digits d c : In c (uint_str d) -> is_digit c = true.
Proof. induction d; cbn; intros H; [tauto|..]; destruct H as [<-|H]; auto. Qed.
Lemma digits_uint d : digits (uint_str d) = Some d.
Proof. induction d; cbn -[N.eqb]; auto; rewrite IHd; auto. Qed.
Lemma digit_ws c : is_digit c = true -> is_ws c = false.
Proof.
  unfold is_digit. rewrite andb_true_iff, !N.leb_le. intros H. unfold is_ws.
  rewrite !orb_false_iff, !andb_false_iff, !N.leb_gt, !N.eqb_neq. lia.
Qed.
Lemma N_to_uint_nonnil n : N.to_uint n <> Nil.
Proof. destruct n; cbn; [congruence|]. apply DecimalPos.Unsigned.to_uint_nonnil. Qed.
Lemma Z_to_int_nonnil z : match Z.to_int z with Pos d | Neg d => d <> Nil end.
Proof. destruct z; cbn; try congruence; apply DecimalPos.Unsigned.to_uint_nonnil. Qed.
Lemma str_of_Z_chars z c : In c (str_of_Z z) -> is_digit c = true \/ c = minus.
Proof.
  unfold str_of_Z. destruct (Z.to_int z); cbn; intros H.
  - left. eapply uint_str_digits; eauto.
  - destruct H as [<-|H]; auto. left. eapply uint_str_digits; eauto.
Qed.
Lemma uint_str_nonnil d : d <> Nil -> exists s x, uint_str d = s ++ [x] /\ is_digit x = true.
Proof.
  intros N. assert (uint_str d <> []) as N' by (destruct d; cbn; congruence).
  destruct (exists_last N') as (s & x & E). exists s, x. split; auto.
  apply (uint_str_digits d). rewrite E. apply in_or_app; cbn; auto.
Qed.
Lemma str_of_Z_last z : exists s x, str_of_Z z = s ++ [x] /\ is_digit x = true.
Proof.
  unfold str_of_Z. pose proof (Z_to_int_nonnil z). destruct (Z.to_int z).
  - apply uint_str_nonnil; auto.
  - destruct (uint_str_nonnil _ H) as (s & x & E & D). exists (minus :: s), x. rewrite E. auto.
Qed.
Lemma str_of_Z_nows z c : In c (str_of_Z z) -> is_ws c = false.
Proof. intros H. apply str_of_Z_chars in H as [H|E]; [apply digit_ws; auto|subst; reflexivity]. Qed.
Lemma rstrip_nows s : (forall c, In c s -> is_ws c = false) -> rstrip s = s.
Proof.
  intros F. destruct s as [|x s] using rev_ind; auto. apply rstrip_last. apply F. apply in_or_app; cbn; auto.
Qed.
Lemma lstrip_nows s : (forall c, In c s -> is_ws c = false) -> lstrip s = s.
Proof. destruct s; auto. intros F. apply lstrip_id. apply F. left; auto. Qed.
Lemma strip_nows s : (forall c, In c s -> is_ws c = false) -> strip s = s.
Proof. intros F. unfold strip. rewrite lstrip_nows by auto. apply rstrip_nows; auto. Qed.
Lemma int_str z : int_of_str (str_of_Z z) = Ok z.
Proof.
  unfold int_of_str. rewrite strip_nows by apply str_of_Z_nows.
  pose proof (Z_to_int_nonnil z) as NN. pose proof (DecimalZ.of_to z) as OT. unfold str_of_Z.
  destruct (Z.to_int z) as [d|d].
  - pose proof (digits_uint d) as DU. pose proof (uint_str_digits d) as UD.
    destruct (uint_str d) as [|c s] eqn:E; [destruct d; cbn in E; congruence|].
    assert (is_digit c = true) as D by (apply UD; left; auto). unfold is_digit in D.
    rewrite andb_true_iff, !N.leb_le in D.
    destruct (N.eqb_spec c minus); [unfold minus in *; lia|].
    destruct (N.eqb_spec c plus); [unfold plus in *; lia|].
    rewrite DU. congruence.
  - cbn [N.eqb]. rewrite N.eqb_refl. pose proof (digits_uint d) as DU.
    destruct (uint_str d) as [|c s] eqn:E; [destruct d; cbn in E; congruence|].
    rewrite DU. congruence.
Qed.
