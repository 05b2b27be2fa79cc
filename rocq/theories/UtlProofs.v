(** * Proofs about sizes and collocates. *)
From Coq Require Import String NArith ZArith Bool Arith Lia List.
From Verif Require Import Base BaseLemmas Str StrLemmas UtlModel UtlSpec.
Import ListNotations.

Section Sizeof.
  Local Open Scope N_scope.
  Lemma tenths_near num den : 0 < den -> 2 * 10 * num <= (2 * tenths num den + 1) * den /\ 2 * tenths num den * den <= 2 * 10 * num + den.
  Proof.
    intros P. unfold tenths. pose proof (N.div_mod (10 * num) den ltac:(lia)) as E. pose proof (N.mod_lt (10 * num) den ltac:(lia)) as L.
    set (q := 10 * num / den) in *. set (r := 10 * num mod den) in *.
    destruct (N.ltb_spec (2 * r) den); [nia|]. destruct (N.ltb_spec den (2 * r)); [nia|]. destruct (N.even q); nia.
  Qed.
  (** Which of two as near: the even one *)
  Lemma tenths_half num den : 0 < den -> (exists m, 2 * 10 * num = (2 * m + 1) * den) -> N.even (tenths num den) = true.
  Proof.
    intros P (m & H). unfold tenths. pose proof (N.div_mod (10 * num) den ltac:(lia)) as E. pose proof (N.mod_lt (10 * num) den ltac:(lia)) as L.
    set (q := 10 * num / den) in *. set (r := 10 * num mod den) in *.
    assert (q = m) by nia. assert (2 * r = den) by nia.
    destruct (N.ltb_spec (2 * r) den); [lia|]. destruct (N.ltb_spec den (2 * r)); [lia|]. destruct (N.even q) eqn:Ev; [auto|].
    rewrite N.even_add. now rewrite Ev.
  Qed.
  Lemma tenths_mono a b den : 0 < den -> a <= b -> tenths a den <= tenths b den.
  Proof.
    intros P H. destruct (N.le_gt_cases (tenths a den) (tenths b den)) as [|G]; [auto|]. exfalso.
    destruct (tenths_near a den P) as [A1 A2], (tenths_near b den P) as [B1 B2].
    assert (a = b \/ a < b) as [-> |Lt] by lia; [lia|].
    nia.
  Qed.
  Lemma size_loop_spec us : forall num den, 0 < den -> (den = 1 \/ den <= num) -> exists k t, (k <= length us)%nat /\ t = tenths num (den * 1024 ^ N.of_nat k) /\
    size_loop us num den = (t, nth k us (u "Y")) /\
    ((k < length us)%nat -> num < 1024 * (den * 1024 ^ N.of_nat k)) /\ ((k <> 0)%nat -> den * 1024 ^ N.of_nat k <= num).
  Proof.
    induction us as [|x us IH]; intros num den P H; cbn [size_loop].
    - exists 0%nat, (tenths num den). cbn [length nth N.of_nat]. rewrite N.pow_0_r, N.mul_1_r. repeat split; auto; try lia.
    - destruct (N.ltb_spec num (1024 * den)) as [Lt|Ge].
      + exists 0%nat, (tenths num den). cbn [length nth N.of_nat]. rewrite N.pow_0_r, N.mul_1_r. repeat split; auto; try lia.
      + destruct (IH num (1024 * den)) as (k & t & K & Et & E & U & B); [lia|right; lia|]. exists (S k), t.
        assert (Q : den * 1024 ^ N.of_nat (S k) = 1024 * den * 1024 ^ N.of_nat k) by (rewrite Nat2N.inj_succ, N.pow_succ_r'; lia).
        rewrite Q. cbn [length nth]. repeat split; auto; try lia. intros _. destruct k as [|k]; [cbn [N.of_nat]; rewrite N.pow_0_r; lia|apply B; discriminate].
  Qed.
  Lemma sizeof_spec num suffix : exists t k, shown num suffix t k /\ (k <= 8)%nat /\ t = tenths num (1024 ^ N.of_nat k) /\
    ((k < 8)%nat -> num < 1024 ^ N.of_nat (S k)) /\ ((k <> 0)%nat -> 1024 ^ N.of_nat k <= num).
  Proof.
    destruct (size_loop_spec units num 1) as (k & t & K & Et & E & U & B); [lia|auto|]. exists t, k. rewrite N.mul_1_l in *.
    change (length units) with 8%nat in *. split; [|repeat split; auto; intros L; specialize (U L); rewrite Nat2N.inj_succ, N.pow_succ_r'; lia].
    exists (nth k units (u "Y")). split.
    - do 9 (destruct k as [|k]; [reflexivity|]). lia.
    - unfold sizeof_fmt. rewrite E. unfold fixed1. now rewrite <- !app_assoc.
  Qed.
  Lemma sizeof_right num suffix : exists t k, shown num suffix t k /\ (k <= 8)%nat /\
    ((k < 8)%nat -> num < 1024 ^ N.of_nat (S k)) /\ ((k <> 0)%nat -> 1024 ^ N.of_nat k <= num) /\
    20 * num <= (2 * t + 1) * 1024 ^ N.of_nat k /\ 2 * t * 1024 ^ N.of_nat k <= 20 * num + 1024 ^ N.of_nat k /\
    ((exists m, 20 * num = (2 * m + 1) * 1024 ^ N.of_nat k) -> N.even t = true).
  Proof.
    destruct (sizeof_spec num suffix) as (t & k & Sh & K & -> & U & B). assert (P : 0 < 1024 ^ N.of_nat k) by (apply N.neq_0_lt_0, N.pow_nonzero; lia).
    exists (tenths num (1024 ^ N.of_nat k)), k. destruct (tenths_near num _ P). do 4 (split; [assumption|]). split; [lia|]. split; [lia|]. apply tenths_half. auto.
  Qed.
  Lemma str_of_N_inj a b : str_of_Z (Z.of_N a) = str_of_Z (Z.of_N b) -> a = b.
  Proof. intros E. assert (H : Ok (Z.of_N a) = Ok (Z.of_N b)) by (rewrite <- !int_str; now rewrite E). injection H as H. lia. Qed.
  Lemma one_digit r : r < 10 -> exists c, str_of_Z (Z.of_N r) = [c].
  Proof.
    intros H. assert (E : r = 0 \/ r = 1 \/ r = 2 \/ r = 3 \/ r = 4 \/ r = 5 \/ r = 6 \/ r = 7 \/ r = 8 \/ r = 9) by lia.
    destruct E as [-> |[-> |[-> |[-> |[-> |[-> |[-> |[-> |[-> | ->]]]]]]]]]; eexists; vm_compute; reflexivity.
  Qed.
  Lemma shown_unique num suffix t k t' k' : shown num suffix t k -> shown num suffix t' k' -> t = t' /\ k = k'.
  Proof.
    intros (x & Hx & Ex) (y & Hy & Ey). rewrite Ex in Ey. clear Ex.
    assert (Nd : forall z, ~ In 46 (str_of_Z z)) by (intros z Hz; apply str_of_Z_chars in Hz as [Hz|Hz]; vm_compute in Hz; discriminate).
    assert (Nu : forall n z, nth_error unit_names n = Some z -> ~ In 46 z).
    { intros n z Hz. apply nth_error_In in Hz. apply mem_nIn. revert z Hz. apply Forall_forall. vm_compute. repeat constructor. }
    assert (Q : forall a b z, a ++ u "." ++ b ++ z ++ suffix = (a ++ 46 :: b ++ z) ++ suffix).
    { intros a b z. change (u ".") with [46]. rewrite <- (app_assoc a). cbn [app]. now rewrite <- (app_assoc b). }
    rewrite !Q in Ey. apply app_inv_tail in Ey. apply (f_equal (split 46)) in Ey. rewrite !split_app_noc in Ey by apply Nd.
    rewrite !split_noc_id in Ey by (intros I; apply in_app_or in I as [I|I]; [now apply Nd in I|first [exact (Nu _ _ Hx I)|exact (Nu _ _ Hy I)]]).
    assert (E1 : str_of_Z (Z.of_N (t / 10)) = str_of_Z (Z.of_N (t' / 10))) by congruence.
    assert (E2 : str_of_Z (Z.of_N (t mod 10)) ++ x = str_of_Z (Z.of_N (t' mod 10)) ++ y) by congruence. clear Ey.
    apply str_of_N_inj in E1. destruct (one_digit (t mod 10)) as [c Hc]; [apply N.mod_lt; lia|]. destruct (one_digit (t' mod 10)) as [c' Hc']; [apply N.mod_lt; lia|].
    rewrite Hc, Hc' in E2. cbn [app] in E2. injection E2 as -> <-. rewrite <- Hc' in Hc. apply str_of_N_inj in Hc. split.
    - rewrite (N.div_mod t 10), (N.div_mod t' 10) by lia. congruence.
    - apply (proj1 (NoDup_nth_error unit_names)); [|apply nth_error_Some; congruence|congruence].
      vm_compute. repeat constructor; cbn; intuition discriminate.
  Qed.
  Lemma sizeof_mono a b suffix : a <= b -> forall t k t' k', shown a suffix t k -> shown b suffix t' k' -> t * 1024 ^ N.of_nat k <= t' * 1024 ^ N.of_nat k'.
  Proof.
    intros H t0 k0 t0' k0' S0 S0'. destruct (sizeof_spec a suffix) as (t & k & Sh & K & Et & U & B), (sizeof_spec b suffix) as (t' & k' & Sh' & K' & Et' & U' & B').
    destruct (shown_unique _ _ _ _ _ _ S0 Sh) as [-> ->], (shown_unique _ _ _ _ _ _ S0' Sh') as [-> ->]. subst t t'. clear S0 S0' Sh Sh'.
    assert (P : forall k, 0 < 1024 ^ N.of_nat k) by (intros; apply N.neq_0_lt_0, N.pow_nonzero; lia).
    destruct (lt_eq_lt_dec k k') as [[Lt| ->]|Gt].
    - assert (D : exists j, 1024 ^ N.of_nat k' = 1024 ^ N.of_nat k * (1024 * j) /\ 1 <= j).
      { exists (1024 ^ N.of_nat (k' - S k)). split; [|specialize (P (k' - S k)%nat); lia]. rewrite <- N.pow_succ_r', <- Nat2N.inj_succ, <- N.pow_add_r. f_equal. lia. }
      destruct D as (j & D & J). specialize (B' ltac:(lia)). specialize (U ltac:(lia)). rewrite Nat2N.inj_succ, N.pow_succ_r' in U.
      destruct (tenths_near a _ (P k)) as [A1 A2], (tenths_near b _ (P k')) as [B1 B2]. rewrite D in *. specialize (P k).
      set (M := 1024 ^ N.of_nat k) in *. set (x := tenths a M) in *. set (y := tenths b (M * (1024 * j))) in *.
      assert (x <= 10240) by nia. assert (10 <= y) by nia. nia.
    - apply N.mul_le_mono_r. now apply tenths_mono.
    - specialize (B ltac:(lia)). specialize (U' ltac:(lia)). exfalso. apply (N.lt_irrefl b). eapply N.lt_le_trans; [exact U'|]. etransitivity; [|exact H].
      etransitivity; [|exact B]. apply N.pow_le_mono_r; lia.
  Qed.
End Sizeof.

Section Collocs.
  Context {C : Type}.
  Lemma set_add_In (s : list (cnode C)) n m : objects (n :: s) -> In m (set_add s n) <-> m = n \/ In m s.
  Proof.
    intros O. unfold set_add. destruct (existsb _ s) eqn:E.
    - apply existsb_exists in E as (x & Hx & E). apply Nat.eqb_eq in E. assert (x = n) by (apply O; cbn; auto). subst. split; [auto|intros [-> |]; auto].
    - rewrite in_app_iff. cbn. intuition congruence.
  Qed.
  Lemma set_adds_In (l : list (cnode C)) : forall s, objects (l ++ s) -> forall m, In m (fold_left set_add l s) <-> In m l \/ In m s.
  Proof.
    induction l as [|n l IH]; intros s O m; [cbn; tauto|]. cbn [fold_left].
    assert (O1 : objects (n :: s)) by (intros x y Hx Hy; apply O; cbn in *; rewrite in_app_iff; tauto).
    rewrite IH.
    - rewrite set_add_In by auto. cbn [In]. intuition congruence.
    - intros x y Hx Hy. apply O; cbn; rewrite in_app_iff in *; rewrite set_add_In in * by auto; intuition congruence.
  Qed.
  Lemma set_adds_NoDup (l : list (cnode C)) : forall s, NoDup (map n_obj s) -> NoDup (map n_obj (fold_left set_add l s)).
  Proof.
    induction l as [|n l IH]; intros s N; [exact N|]. cbn [fold_left]. apply IH. unfold set_add. destruct (existsb _ s) eqn:E; [auto|].
    rewrite map_app. apply NoDup_app'; auto; [repeat constructor; intros []|]. intros x Hx [<- |[]]. apply in_map_iff in Hx as (y & Ey & Hy).
    assert (existsb (fun m => n_obj m =? n_obj n) s = true) by (apply existsb_exists; exists y; split; auto; now apply Nat.eqb_eq). congruence.
  Qed.
  Lemma collocs_fold (toks : list (ctoken C)) : forall s, objects (all_collocs toks ++ s) -> NoDup (map n_obj s) ->
    (forall m, In m (fold_left (fun s t => fold_left set_add (c_r t) (fold_left set_add (c_l t) s)) toks s) <-> In m (all_collocs toks) \/ In m s) /\
    NoDup (map n_obj (fold_left (fun s t => fold_left set_add (c_r t) (fold_left set_add (c_l t) s)) toks s)).
  Proof.
    induction toks as [|t toks IH]; intros s O N; [cbn; split; [tauto|auto]|]. cbn [fold_left all_collocs flat_map].
    assert (Ol : objects (c_l t ++ s)) by (intros x y Hx Hy; apply O; cbn [all_collocs flat_map]; rewrite !in_app_iff in *; tauto).
    assert (Il := set_adds_In _ _ Ol).
    assert (Or : objects (c_r t ++ fold_left set_add (c_l t) s)) by (intros x y Hx Hy; apply O; cbn [all_collocs flat_map]; rewrite !in_app_iff in *; rewrite Il in *; tauto).
    assert (Ir := set_adds_In _ _ Or).
    destruct (IH (fold_left set_add (c_r t) (fold_left set_add (c_l t) s))) as [I1 N1].
    - intros x y Hx Hy; apply O; cbn [all_collocs flat_map]; rewrite !in_app_iff in *; rewrite Ir, Il in *; fold (all_collocs toks); tauto.
    - apply set_adds_NoDup, set_adds_NoDup, N.
    - split; [|exact N1]. intros m. rewrite I1, Ir, Il, !in_app_iff. fold (all_collocs toks). tauto.
  Qed.
  Lemma get_collocs_spec (toks : list (ctoken C)) : objects (all_collocs toks) ->
    (forall m, In m (get_collocs toks) <-> In m (all_collocs toks)) /\ NoDup (map n_obj (get_collocs toks)).
  Proof. intros O. destruct (collocs_fold toks []) as [I N]; [now rewrite app_nil_r|constructor|]. split; [|exact N]. intros m. unfold get_collocs. rewrite I. cbn. tauto. Qed.
End Collocs.
