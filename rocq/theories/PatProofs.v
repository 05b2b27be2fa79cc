(** * Proofs about pattern notations. *)
From Coq Require Import String NArith ZArith Bool Arith Lia Sorting.Permutation List.
From Verif Require Import Base BaseLemmas Str StrLemmas VocabModel DepModel DepMatchProofs QryProofs PatModel PatSpec.
Import ListNotations.
Local Open Scope string_scope.
Local Open Scope nat_scope.
Local Open Scope list_scope.

(** ** Texts without white space at the ends *)
Lemma trimmed_intro x t y s : s = x :: t -> is_ws x = false -> last s 0%N = y -> is_ws y = false -> trimmed s.
Proof.
  intros -> Wx L Wy. split; [|discriminate]. unfold strip. rewrite lstrip_id by exact Wx.
  rewrite (app_removelast_last 0%N (l := x :: t)) by discriminate. rewrite L. now rewrite rstrip_last.
Qed.
Lemma trimmed_ends s : trimmed s -> exists x t, s = x :: t /\ is_ws x = false /\ is_ws (last s 0%N) = false.
Proof.
  intros [E Nn]. destruct s as [|x t]; [congruence|]. exists x, t. split; [reflexivity|].
  pose proof (strip_hd (x :: t)) as Hd. rewrite E in Hd. split; [exact Hd|].
  unfold strip, rstrip in E. pose proof (lstrip_hd (rev (lstrip (x :: t)))) as Hl.
  rewrite <- E. destruct (lstrip (rev (lstrip (x :: t)))) as [|y l]; [cbn in E; congruence|]. cbn [rev]. now rewrite last_last.
Qed.
Lemma last_app_ne {A} (a b : list A) d : b <> [] -> last (a ++ b) d = last b d.
Proof. intros Nn. rewrite (app_removelast_last d Nn), app_assoc, !last_last. reflexivity. Qed.
Lemma last_cons_ne {A} x (b : list A) d : b <> [] -> last (x :: b) d = last b d.
Proof. intros Nn. apply (last_app_ne [x] b d Nn). Qed.
Lemma trimmed_app a b : trimmed a -> trimmed b -> forall c, trimmed (a ++ c ++ b).
Proof.
  intros Ta Tb c. destruct (trimmed_ends _ Ta) as (x & t & -> & Wx & _). destruct (trimmed_ends _ Tb) as (y & t' & E & _ & Wy).
  eapply trimmed_intro; [reflexivity|exact Wx|reflexivity|]. rewrite app_assoc. rewrite last_app_ne by (rewrite E; discriminate). exact Wy.
Qed.

Lemma arrow_hd b : exists x y, arrow_of b = [x; y] /\ is_ws x = false /\ x <> gt_ /\ (x = lt_ \/ x = dash) /\ at_arrow [x; y] = true.
Proof. destruct b; [exists lt_, dash|exists dash, gt_]; repeat split; try reflexivity; try discriminate; auto. Qed.
Lemma arrow_eqb b : eqb (arrow_of b) larrow = b.
Proof. now destruct b. Qed.

Section SubInd.
  Variable P : sub -> Prop.
  Hypothesis H1 : forall rel node, P (One rel node None).
  Hypothesis H2 : forall rel node lf s, P s -> P (One rel node (Some (lf, s))).
  Hypothesis H3 : forall l, Forall P l -> P (Many l).
  Fixpoint sub_ind2 (s : sub) : P s :=
    match s with
    | One rel node None => H1 rel node
    | One rel node (Some (lf, s')) => H2 rel node lf s' (sub_ind2 s')
    | Many l => H3 l ((fix go l := match l return Forall P l with [] => Forall_nil P | x :: l' => Forall_cons x (sub_ind2 x) (go l') end) l)
    end.
End SubInd.
Scheme writes_ind2 := Induction for writes Sort Prop with parts_ind2 := Induction for writes_parts Sort Prop.
Lemma join_len (l : list pystr) s : In s l -> length s <= length (join comma l).
Proof.
  induction l as [|x l IH]; [intros []|]. destruct l as [|y l]; [intros [-> |[]]; cbn [join]; lia|]. intros I.
  change (join comma (x :: y :: l)) with (x ++ comma :: join comma (y :: l)). rewrite app_length. cbn [length].
  destruct I as [-> |I]; [lia|]. specialize (IH I). lia.
Qed.
(** White space *)
Lemma white_not w c : white w -> is_ws c = false -> ~ In c w.
Proof. unfold white. rewrite Forall_forall. intros W N I. rewrite (W c I) in N. discriminate. Qed.
Lemma lstrip_white w s : white w -> lstrip (w ++ s) = lstrip s.
Proof. intros W. induction W as [|c w Hc W IH]; [reflexivity|]. cbn [app lstrip]. rewrite Hc. exact IH. Qed.
Lemma white_rev w : white w -> white (rev w).
Proof. unfold white. rewrite !Forall_forall. intros W c I. apply W. now apply in_rev. Qed.
Lemma rstrip_white s w : white w -> rstrip (s ++ w) = rstrip s.
Proof. intros W. unfold rstrip. rewrite rev_app_distr, lstrip_white by now apply white_rev. reflexivity. Qed.
Lemma strip_core w t w' : white w -> white w' -> trimmed t -> strip (w ++ t ++ w') = t.
Proof.
  intros W W' T. destruct (trimmed_ends _ T) as (x & r & E & Wx & _). unfold strip. rewrite lstrip_white by exact W. rewrite E in *. cbn [app]. rewrite lstrip_id by exact Wx.
  change (x :: r ++ w') with ((x :: r) ++ w'). rewrite rstrip_white by exact W'. destruct T as [T _]. unfold strip in T. now rewrite lstrip_id in T.
Qed.
Lemma label_trimmed rel w node : good_label rel w node -> trimmed (label_text rel w node).
Proof. intros (Tr & _ & _ & _ & Tn & _). unfold label_text. change (blank :: w ++ node) with ((blank :: w) ++ node). now apply trimmed_app. Qed.
Lemma writes_trimmed s t : writes s t -> trimmed t.
Proof.
  intros W. induction W as [rel w node G|rel w node w1 lf w2 s t G W1 W2 H W IH|l ts Wp].
  - now apply label_trimmed.
  - replace (label_text rel w node ++ w1 ++ arrow_of lf ++ w2 ++ t) with (label_text rel w node ++ (w1 ++ arrow_of lf ++ w2) ++ t) by now rewrite <- !app_assoc. apply trimmed_app; [now apply label_trimmed|exact IH].
  - eapply trimmed_intro; [reflexivity|reflexivity|rewrite app_comm_cons; apply last_last|reflexivity].
Qed.

(** ** Finding the next arrow *)
Definition guarded (op cl : bool) (t : pystr) : Prop :=
  forall a arrow b, arrow = larrow \/ arrow = rarrow -> t = a ++ arrow ++ b -> (op = true \/ In lbrack a) /\ cl = false /\ ~ In rbrack a.
Lemma guarded_tl op cl c t : guarded op cl (c :: t) -> guarded (op || (c =? lbrack)%N) (cl || (c =? rbrack)%N) t.
Proof.
  intros G a arrow b Ha E. destruct (G (c :: a) arrow b Ha) as (H1 & H2 & H3); [now rewrite E|]. split; [|split].
  - destruct H1 as [-> |[-> |I]]; [left; reflexivity|left; now rewrite N.eqb_refl, orb_true_r|now right].
  - rewrite H2. cbn [orb]. apply N.eqb_neq. intros ->. apply H3. now left.
  - intros I. apply H3. now right.
Qed.
Lemma at_arrow_cut s : at_arrow s = true -> exists arrow b, (arrow = larrow \/ arrow = rarrow) /\ s = arrow ++ b.
Proof.
  unfold at_arrow. rewrite orb_true_iff. intros [E|E]; apply (proj1 (eqb_eq _ _)) in E; [exists larrow|exists rarrow]; exists (skipn 2 s); (split; [tauto|]); rewrite <- E; symmetry; apply firstn_skipn.
Qed.
Lemma find_none op cl t : guarded op cl t -> find_arrow op cl t = length t.
Proof.
  revert op cl. induction t as [|c t IH]; intros op cl G; [reflexivity|]. cbn [find_arrow length]. destruct (at_arrow (c :: t) && negb (op && negb cl)) eqn:E.
  - apply andb_true_iff in E as [E1 E2]. apply at_arrow_cut in E1 as (arrow & b & Ha & Eb). destruct (G [] arrow b Ha Eb) as ([H1|[]] & H2 & _). rewrite H1, H2 in E2. discriminate.
  - f_equal. apply IH. now apply guarded_tl.
Qed.
Lemma find_next op cl t lf rest : guarded op cl t -> last t 0%N <> lt_ -> (op = true \/ In lbrack t -> cl = true \/ In rbrack t) ->
  find_arrow op cl (t ++ arrow_of lf ++ rest) = length t.
Proof.
  revert op cl. destruct (arrow_hd lf) as (x & y & Ea & _ & Nx & Ex & Aa). rewrite Ea. induction t as [|c t IH]; intros op cl G La Hb.
  - cbn [app find_arrow length]. assert (A : at_arrow (x :: y :: rest) = true) by exact Aa. rewrite A. cbn [andb].
    destruct op; [|reflexivity]. destruct (Hb (or_introl eq_refl)) as [-> |[]]. reflexivity.
  - rewrite <- app_comm_cons. cbn [find_arrow length]. destruct (at_arrow (c :: t ++ [x; y] ++ rest) && negb (op && negb cl)) eqn:E.
    + exfalso. apply andb_true_iff in E as [E1 E2]. destruct t as [|c2 t].
      * cbn [app] in E1. unfold at_arrow in E1. cbn [firstn] in E1. apply orb_true_iff in E1 as [E1|E1]; apply (proj1 (eqb_eq _ _)) in E1; [unfold larrow in E1|unfold rarrow in E1]; injection E1 as E3 E4; [now apply La|now apply Nx].
      * assert (E1' : at_arrow (c :: c2 :: t) = true) by exact E1. apply at_arrow_cut in E1' as (arrow & b & Ha & Eb). destruct (G [] arrow b Ha Eb) as ([H1|[]] & H2 & _). rewrite H1, H2 in E2. discriminate.
    + f_equal. apply IH; [now apply guarded_tl| |].
      * destruct t as [|c2 t]; [discriminate|]. intros E'. apply La. now rewrite last_cons_ne.
      * intros H. assert (H' : op = true \/ In lbrack (c :: t)).
        { destruct H as [H|H]; [apply orb_true_iff in H as [H|H]; [now left|right; left; apply N.eqb_eq in H; now rewrite H]|right; now right]. }
        destruct (Hb H') as [-> |[-> |I]]; [left; reflexivity|left; now rewrite N.eqb_refl, orb_true_r|now right].
Qed.
Lemma arrow_chars arrow : arrow = larrow \/ arrow = rarrow -> exists x y, arrow = [x; y] /\ is_ws x = false /\ is_ws y = false.
Proof. intros [-> | ->]; [exists lt_, dash|exists dash, gt_]; repeat split. Qed.
Lemma brackets_before w t : white w -> arrows_in_brackets t -> arrows_in_brackets (w ++ t).
Proof.
  intros W B a arrow b Ha E. destruct (arrow_chars arrow Ha) as (x & y & Ex & Wx & Wy). apply app_cut in E as [(p & -> & E)|(q & -> & Nq & E)].
  - destruct p as [|c p]; [cbn [app] in E; destruct (B [] arrow b Ha E) as [[] _]|]. rewrite Ex in E. injection E as -> _. exfalso. apply (white_not _ x W Wx). apply in_or_app. right. now left.
  - destruct (B q arrow b Ha E) as [H1 H2]. split; [apply in_or_app; now right|]. intros I. apply in_app_or in I as [I|I]; [now apply (white_not _ rbrack W)|now apply H2].
Qed.
Lemma brackets_after w t : white w -> arrows_in_brackets t -> arrows_in_brackets (t ++ w).
Proof.
  intros W B a arrow b Ha E. destruct (arrow_chars arrow Ha) as (x & y & Ex & Wx & Wy). apply app_cut in E as [(p & -> & E)|(q & -> & Nq & E)].
  - rewrite Ex in E. destruct p as [|c [|d p]].
    + cbn [app] in E. exfalso. apply (white_not _ x W Wx). rewrite E. now left.
    + cbn [app] in E. injection E as -> E. exfalso. apply (white_not _ y W Wy). rewrite E. now left.
    + cbn [app] in E. injection E as -> -> E. apply (B a arrow p Ha). now rewrite Ex.
  - exfalso. apply (white_not _ x W Wx). rewrite E, Ex. apply in_or_app. right. now left.
Qed.
Lemma guarded_start t : arrows_in_brackets t -> guarded false false t.
Proof. intros B a arrow b Ha E. destruct (B a arrow b Ha E) as [H1 H2]. auto. Qed.

Lemma firstn_app_exact {A} (a b : list A) : firstn (length a) (a ++ b) = a.
Proof. rewrite firstn_app, Nat.sub_diag, firstn_all, firstn_O, app_nil_r. reflexivity. Qed.
Lemma skipn_app_exact {A} (a b : list A) : skipn (length a) (a ++ b) = b.
Proof. rewrite skipn_app, Nat.sub_diag, skipn_all. reflexivity. Qed.

(** ** Numbers *)
Lemma number_keys {A} (l : list A) : dkeys (number l) = map Z.of_nat (seq 1 (length l)).
Proof.
  unfold number, dkeys. generalize 1. induction l as [|x l IH]; intros n; [reflexivity|]. cbn [length seq map combine fst]. now rewrite IH.
Qed.
Lemma number_len {A} (l : list A) : length (number l) = length l.
Proof. unfold number. rewrite combine_length, map_length, seq_length. lia. Qed.
Lemma combine_app {A B} (a a' : list A) (b b' : list B) : length a = length b -> combine (a ++ a') (b ++ b') = combine a b ++ combine a' b'.
Proof. revert b. induction a as [|x a IH]; intros [|y b] E; try discriminate E; [reflexivity|]. cbn [app combine]. rewrite IH; [reflexivity|now injection E]. Qed.
Lemma number_snoc {A} (l : list A) x : number (l ++ [x]) = number l ++ [(Z.of_nat (S (length l)), x)].
Proof.
  unfold number. rewrite app_length. cbn [length]. rewrite seq_app, map_app, combine_app by now rewrite map_length, seq_length. cbn [seq map combine]. reflexivity.
Qed.
Lemma number_set {A} (l : list A) x : dset (number l) (Z.of_nat (length l) + 1)%Z x = number (l ++ [x]).
Proof.
  rewrite number_snoc. replace (Z.of_nat (length l) + 1)%Z with (Z.of_nat (S (length l))) by lia. apply dset_fresh. rewrite number_keys.
  intros I. apply in_map_iff in I as (n & E & I). apply in_seq in I. lia.
Qed.

(** ** parse_sub *)
Definition below (k : nat) (es : dict (Z * Z) pystr) : Prop :=
  dwf es /\ forall e, In e (dkeys es) -> (1 <= fst e <= Z.of_nat k)%Z /\ (1 <= snd e <= Z.of_nat k)%Z.
Lemma split_blank_at a b : ~ In blank a -> split_blank (a ++ blank :: b) = Ok (a, b).
Proof.
  induction a as [|c a IH]; intros Nb; [reflexivity|]. cbn [app split_blank]. destruct (c =? blank)%N eqn:E; [apply N.eqb_eq in E; now destruct Nb; left|].
  rewrite IH by (intros I; apply Nb; now right). reflexivity.
Qed.
Lemma sedges_many prev lf next s l : sedges prev lf next (Many (s :: l)) = sedges prev lf next s ++ sedges prev lf (next + Z.of_nat (length (snodes s))) (Many l).
Proof. reflexivity. Qed.
Lemma NoDup_snoc {A} (l : list A) x : NoDup l -> ~ In x l -> NoDup (l ++ [x]).
Proof.
  intros W Ni. induction W as [|y l Ny W IH]; cbn [app]; [repeat constructor; auto|]. constructor; [|apply IH; intros I; apply Ni; now right].
  intros I. apply in_app_or in I as [I|[-> |[]]]; [now apply Ny|]. apply Ni. now left.
Qed.
Lemma below_snoc k es e r : below k es -> ~ In e (dkeys es) -> (1 <= fst e <= Z.of_nat (S k))%Z /\ (1 <= snd e <= Z.of_nat (S k))%Z -> below (S k) (es ++ [(e, r)]).
Proof.
  intros [W B] Ni He. split.
  - unfold dwf, dkeys in *. rewrite map_app. cbn [map fst]. apply NoDup_snoc; assumption.
  - intros e' I. unfold dkeys in I. rewrite map_app in I. apply in_app_or in I as [I|[<- |[]]]; [destruct (B e' I); lia|exact He].
Qed.
Lemma parse_text n : forall s t w prev lf ns es, length (w ++ t) < n -> writes s t -> white w -> (w = [] \/ exists r m o, s = One r m o) ->
  (1 <= prev <= Z.of_nat (length ns))%Z -> below (length ns) es ->
  parse_sub n prev (w ++ t) (arrow_of lf) (number ns, es) =
    Ok (number (ns ++ snodes s), es ++ sedges prev lf (Z.of_nat (length ns) + 1) s) /\
  below (length (ns ++ snodes s)) (es ++ sedges prev lf (Z.of_nat (length ns) + 1) s).
Proof.
  induction n as [|n IH]; intros s t w prev lf ns es Ln Wr Ww Hw Hp B; [lia|]. cbn [parse_sub].
  pose proof (writes_trimmed s t Wr) as Tt. assert (Ne : t <> []) by exact (proj2 Tt).
  assert (St : strip (w ++ t) = t). { rewrite <- (app_nil_r t) at 1. apply strip_core; [exact Ww|constructor|exact Tt]. }
  rewrite St. destruct t as [|c0 t0] eqn:Et0; [congruence|]. rewrite <- Et0 in *. clear Et0 c0 t0.
  inversion Wr as [rel w0 node G Es Et|rel w0 node w1 lf' w2 s' t' G W1 W2 H2 Wr' Es Et|l ts Wp Es Et]; subst s.
  3:{ subst t. destruct Hw as [-> |(? & ? & ? & Hw)]; [|discriminate Hw]. cbn [app] in *. rewrite app_comm_cons, last_last. cbn [hd app]. change ((lbrack =? lbrack)%N && (rbrack =? rbrack)%N) with true. cbn iota. cbn [tl]. rewrite removelast_last.
    assert (Lf : forall p, In p ts -> length p < n).
    { intros p I. pose proof (join_len ts p I) as J. cbn [length] in Ln. rewrite app_length in Ln. cbn [length] in Ln. lia. }
    assert (Ln' : n <> 0) by (cbn [length] in Ln; rewrite app_length in Ln; cbn [length] in Ln; lia).
    destruct Wp as [|s1 l1 wa t1 wb ts1 Wt1 Wa Wb Nc Wp].
    + cbn [join split rfold rbind]. change (strip []) with (@nil N). destruct n as [|n]; [lia|]. cbn [parse_sub]. change (strip []) with (@nil N). cbn iota. cbn [rbind snodes flat_map sedges].
      rewrite !app_nil_r. split; [reflexivity|exact B].
    + assert (Sp : split comma (join comma ((wa ++ t1 ++ wb) :: ts1)) = (wa ++ t1 ++ wb) :: ts1).
      { apply split_join; [discriminate|]. assert (Cm : forall w, white w -> ~ In comma w) by (intros w Hw1; now apply white_not).
        assert (K : forall wa t1 wb, white wa -> white wb -> ~ In comma t1 -> ~ In comma (wa ++ t1 ++ wb)).
        { intros a t b Ha Hb Ht I. apply in_app_or in I as [I|I]; [now apply (Cm a)|]. apply in_app_or in I as [I|I]; [now apply Ht|now apply (Cm b)]. }
        constructor; [now apply K|]. clear - Wp K. induction Wp as [|s l w t w' ts Hs Hw Hw' Hc Wp IH]; constructor; [now apply K|exact IH]. }
      rewrite Sp. assert (Wp' : writes_parts (s1 :: l1) ((wa ++ t1 ++ wb) :: ts1)) by now constructor.
      clear - IH Lf Hp B Wp'. revert Lf ns es Hp B. induction Wp' as [|s l wx t wy ts Ht Wx Wy Nc Wp IHl]; intros Lf ns es Hp B.
      * cbn [rfold snodes flat_map sedges]. rewrite !app_nil_r. split; [reflexivity|exact B].
      * cbn [rfold]. rewrite (strip_core wx t wy Wx Wy (writes_trimmed _ _ Ht)).
        assert (Lt : length ([] ++ t) < n) by (pose proof (Lf _ (or_introl eq_refl)) as Lx; rewrite !app_length in Lx; cbn [app]; lia).
        destruct (IH s t [] prev lf ns es Lt Ht (Forall_nil _) (or_introl eq_refl) Hp B) as [P1 P2]. cbn [app] in P1. rewrite P1. cbn [rbind].
        destruct (IHl (fun p I => Lf p (or_intror I)) (ns ++ snodes s) _ ltac:(rewrite app_length; lia) P2) as [P3 P4].
        rewrite sedges_many. cbn [snodes flat_map]. rewrite <- !app_assoc in P3, P4. replace (Z.of_nat (length ns) + 1 + Z.of_nat (length (snodes s)))%Z with (Z.of_nat (length (ns ++ snodes s)) + 1)%Z by (rewrite app_length; lia).
        split; [exact P3|exact P4]. }
  all: pose proof (label_trimmed _ _ _ G) as Tl; destruct G as (Tr & Nb & Hb & Ww0 & Tn & Na & Ll & Br);
    destruct (trimmed_ends _ Tr) as (r0 & rt & Er & Wr0 & _); destruct (trimmed_ends _ Tn) as (n0 & nt & En & _ & _); set (x := label_text rel w0 node) in *; set (k := length ns) in *;
    (assert (Hd : forall r, (hd 0 (w ++ x ++ r) =? lbrack)%N = false) by
       (intros r; apply N.eqb_neq; destruct w as [|c w]; [unfold x, label_text; rewrite Er in *; exact Hb|inversion Ww; subst; cbn [app hd]; intros ->; discriminate]));
    (assert (Nlt : last x 0%N <> lt_) by (unfold x, label_text; change (blank :: w0 ++ node) with ((blank :: w0) ++ node); rewrite app_assoc, last_app_ne by (rewrite En; discriminate); exact Ll));
    (assert (Sb : rbind (split_blank x) (fun rn => Ok (strip (fst rn), strip (snd rn))) = Ok (rel, node)) by
       (unfold x, label_text; rewrite split_blank_at by exact Nb; cbn [rbind fst snd]; rewrite (proj1 Tr); do 2 f_equal; rewrite <- (app_nil_r node) at 1; apply strip_core; [exact Ww0|constructor|exact Tn]));
    (assert (Fr : ~ In (if lf then ((Z.of_nat k + 1)%Z, prev) else (prev, (Z.of_nat k + 1)%Z)) (dkeys es)) by
       (intros I; destruct (proj2 B _ I) as [B1 B2]; destruct lf; cbn [fst snd] in *; lia));
    (assert (Dd : (dset (number ns) (Z.of_nat (length (number ns)) + 1)%Z node,
                  dset es (if eqb (arrow_of lf) larrow then ((Z.of_nat (length (number ns)) + 1)%Z, prev) else (prev, (Z.of_nat (length (number ns)) + 1)%Z)) rel)
                 = (number (ns ++ [node]), es ++ [(if lf then ((Z.of_nat k + 1)%Z, prev) else (prev, (Z.of_nat k + 1)%Z), rel)])) by
       (rewrite number_len, arrow_eqb; fold k; f_equal; [apply number_set|apply dset_fresh; exact Fr]));
    (assert (Bd : below (length (ns ++ [node])) (es ++ [(if lf then ((Z.of_nat k + 1)%Z, prev) else (prev, (Z.of_nat k + 1)%Z), rel)])) by
       (rewrite app_length; cbn [length]; fold k; replace (k + 1) with (S k) by lia; apply below_snoc; [exact B|exact Fr|destruct lf; cbn [fst snd]; lia])).
  - subst t. pose proof (Hd []) as Hd0. rewrite app_nil_r in Hd0. rewrite Hd0. cbn [andb]. rewrite find_none by (apply guarded_start; now apply brackets_before). rewrite firstn_all, St.
    destruct (split_blank x) as [rn|e]; [|discriminate Sb]. cbn [rbind] in Sb |- *. injection Sb as Sb1 Sb2. rewrite Sb1, Sb2. cbn zeta. cbn [fst snd]. rewrite Dd, Nat.eqb_refl. cbn [snodes sedges]. split; [reflexivity|exact Bd].
  - subst t. rewrite Hd. cbn [andb].
    assert (Eq : w ++ x ++ w1 ++ arrow_of lf' ++ w2 ++ t' = (w ++ x ++ w1) ++ arrow_of lf' ++ w2 ++ t') by now rewrite <- !app_assoc.
    rewrite Eq in *. rewrite find_next; [|apply guarded_start; apply brackets_before; [exact Ww|now apply brackets_after]| |].
    2:{ destruct w1 as [|c w1]; [rewrite app_nil_r, last_app_ne by exact (proj2 Tl); exact Nlt|]. rewrite app_assoc, last_app_ne by discriminate. intros E.
        apply (white_not _ lt_ W1); [reflexivity|]. rewrite <- E. rewrite (app_removelast_last 0%N (l := c :: w1)) at 2 by discriminate. apply in_or_app. right. now left. }
    2:{ intros [Hx|Hx]; [discriminate Hx|]. right. apply in_app_or in Hx as [Hx|Hx]; [exfalso; now apply (white_not _ lbrack Ww)|]. apply in_app_or in Hx as [Hx|Hx]; [apply in_or_app; right; apply in_or_app; left; now apply Br|exfalso; now apply (white_not _ lbrack W1)]. }
    rewrite firstn_app_exact, (strip_core w x w1 Ww W1 Tl). destruct (split_blank x) as [rn|e]; [|discriminate Sb]. cbn [rbind] in Sb |- *. injection Sb as Sb1 Sb2. rewrite Sb1, Sb2. cbn zeta. cbn [fst snd]. rewrite Dd.
    destruct (arrow_hd lf') as (x0 & y0 & Ea & _). set (X := w ++ x ++ w1) in *.
    destruct (length X =? length (X ++ arrow_of lf' ++ w2 ++ t')) eqn:E1; [apply Nat.eqb_eq in E1; rewrite !app_length, Ea in E1; cbn [length] in E1; lia|].
    replace (skipn (length X + 2) (X ++ arrow_of lf' ++ w2 ++ t')) with (w2 ++ t').
    2:{ rewrite skipn_app. rewrite (skipn_all2 X) by lia. replace (length X + 2 - length X) with 2 by lia. rewrite Ea. reflexivity. }
    replace (firstn 2 (skipn (length X) (X ++ arrow_of lf' ++ w2 ++ t'))) with (arrow_of lf').
    2:{ rewrite skipn_app_exact. rewrite Ea. reflexivity. }
    rewrite number_len. fold k. assert (Hk : Z.of_nat (length (ns ++ [node])) = (Z.of_nat k + 1)%Z) by (rewrite app_length; cbn [length]; fold k; lia).
    destruct (IH s' t' w2 (Z.of_nat (length (ns ++ [node]))) lf' (ns ++ [node]) _ ltac:(rewrite !app_length, Ea in Ln; cbn [length] in Ln; rewrite app_length; lia) Wr' W2 H2 ltac:(lia) Bd) as [P1 P2].
    rewrite <- !app_assoc in P1, P2. cbn [app] in P1, P2. cbn [snodes sedges]. rewrite Hk in P1, P2. split; [exact P1|exact P2].
Qed.
Lemma parse_pattern_text target feature lf s : feature_text feature lf s -> parse_pattern target feature = Ok (number (strip target :: snodes s), sedges 1 lf 2 s) /\
  below (S (length (snodes s))) (sedges 1 lf 2 s).
Proof.
  intros (t & Ef & Wr). unfold parse_pattern. rewrite Ef.
  replace (skipn 2 (arrow_of lf ++ t)) with t by now destruct lf. replace (firstn 2 (arrow_of lf ++ t)) with (arrow_of lf) by now destruct lf.
  change [(1%Z, strip target)] with (number [strip target]).
  apply (parse_text (S (length (strip t))) s (strip t) [] 1%Z lf [strip target] []); [cbn [app]; lia|exact Wr|constructor|now left|cbn [length]; lia|split; [apply dwf_nil|intros e []]].
Qed.

(** ** Named groups *)
Lemma occurs_tl t c s : ~ occurs_in t (c :: s) -> ~ occurs_in t s.
Proof. intros H (a & b & E). apply H. exists (c :: a), b. now rewrite E. Qed.
Lemma occurs_hd t s : ~ occurs_in t s -> firstn (length t) s <> t.
Proof. intros H E. apply H. exists [], (skipn (length t) s). cbn [app]. rewrite <- E at 1. now rewrite firstn_skipn. Qed.
Lemma open_first a r : ~ occurs_in group_open a -> a <> [] -> firstn 3 (a ++ group_open ++ r) <> group_open.
Proof.
  intros No Nn. destruct a as [|x [|y [|z a]]]; [congruence| | |]; cbn; try discriminate.
  - intros E. apply No. exists [], a. injection E as -> -> ->; reflexivity.
Qed.
Lemma find_open a r : ~ occurs_in group_open a -> find group_open (a ++ group_open ++ r) = Some (length a).
Proof.
  induction a as [|x a IH]; intros No; [reflexivity|]. pose proof (open_first (x :: a) r No ltac:(discriminate)) as F.
  rewrite <- app_comm_cons in *. cbn [find]. change (length group_open) with 3. rewrite (proj2 (eqb_neq _ _) F). rewrite IH by now apply (occurs_tl _ x). reflexivity.
Qed.
Lemma find_char c a r : ~ In c a -> find [c] (a ++ c :: r) = Some (length a).
Proof.
  induction a as [|x a IH]; intros Ni; cbn [app find length firstn]; [now rewrite (eqb_refl [c])|].
  replace (eqb [x] [c]) with false; [rewrite IH; [reflexivity|intros I; apply Ni; now right]|]. symmetry. apply eqb_neq. intros E. injection E as ->. apply Ni. now left.
Qed.
Lemma remove_none t s f : length s <= f -> ~ occurs_in t s -> remove_all f t s = s.
Proof.
  revert s. induction f as [|f IH]; intros s Lf No; [reflexivity|]. destruct t as [|t0 t]; [reflexivity|]. destruct s as [|c s]; [reflexivity|]. cbn [remove_all].
  rewrite (proj2 (eqb_neq _ _) (occurs_hd _ _ No)). f_equal. apply IH; [cbn [length] in Lf; lia|now apply (occurs_tl _ c)].
Qed.
Lemma remove_hit t b f : t <> [] -> remove_all (S f) t (t ++ b) = remove_all f t b.
Proof.
  intros Nn. destruct t as [|t0 t]; [congruence|]. cbn [app remove_all]. change (t0 :: t ++ b) with ((t0 :: t) ++ b). now rewrite firstn_app_exact, eqb_refl, skipn_app_exact.
Qed.
Lemma remove_tag name a b f : length (a ++ group_tag name ++ b) <= f -> ~ occurs_in group_open a -> ~ occurs_in (group_tag name) b ->
  remove_all f (group_tag name) (a ++ group_tag name ++ b) = a ++ b.
Proof.
  revert f. induction a as [|x a IH]; intros f Lf No Nb.
  - cbn [app]. destruct f as [|f]; [cbn in Lf; lia|]. cbn [app] in Lf. 
    rewrite remove_hit by discriminate. apply remove_none; [|exact Nb]. rewrite app_length in Lf. change (length (group_tag name)) with (S (S (S (length (name ++ [gt_]))))) in Lf. lia.
  - destruct f as [|f]; [cbn in Lf; lia|]. rewrite <- !app_comm_cons in *. cbn [remove_all]. destruct (group_tag name) as [|t0 t] eqn:Et; [discriminate Et|]. rewrite <- Et in *.
    assert (F : firstn (length (group_tag name)) (x :: a ++ group_tag name ++ b) <> group_tag name).
    { intros E. apply (open_first (x :: a) (name ++ [gt_] ++ b) No); [discriminate|]. apply (f_equal (firstn 3)) in E. rewrite firstn_firstn in E.
      replace (Nat.min 3 (length (group_tag name))) with 3 in E by (unfold group_tag; rewrite app_length; change (length group_open) with 3; lia).
      unfold group_tag in E. rewrite <- !app_assoc in E. exact E. }
    rewrite (proj2 (eqb_neq _ _) F). f_equal. cbn [length] in Lf. apply IH; [lia|now apply (occurs_tl _ x)|exact Nb].
Qed.
Lemma reg_attr_named name regex reg d : names_group name regex reg -> reg_attr d reg = Ok (dset d name (AStr regex)).
Proof.
  intros (a & b & -> & -> & Nn & Na & No & Nb). unfold reg_attr, index.
  assert (E1 : a ++ group_tag name ++ b = a ++ group_open ++ name ++ [gt_] ++ b) by (unfold group_tag; now rewrite <- !app_assoc).
  assert (E2 : a ++ group_tag name ++ b = (a ++ group_open ++ name) ++ gt_ :: b) by (unfold group_tag; now rewrite <- !app_assoc).
  rewrite E1 at 1. rewrite find_open by exact No. cbn [rbind]. rewrite E2 at 1. rewrite find_char.
  2:{ intros I. apply in_app_or in I as [I|I]; [now apply Na|]. apply in_app_or in I as [I|I]; [|now apply Nn]. cbn in I. repeat (destruct I as [I|I]; [discriminate I|]). exact I. }
  cbn [rbind]. unfold slice.
  assert (L1 : length (a ++ group_open ++ name) = length a + 3 + length name) by (rewrite !app_length; cbn [length]; change (length group_open) with 3; lia).
  assert (L2 : length (group_tag name) = 3 + length name + 1) by (unfold group_tag; rewrite !app_length; change (length group_open) with 3; cbn [length]; lia).
  rewrite L1. do 2 f_equal.
  - rewrite E1. replace (length a + 3) with (length (a ++ group_open)) by (rewrite app_length; reflexivity). rewrite app_assoc, skipn_app_exact.
    replace (length (a ++ group_open) + length name - length (a ++ group_open)) with (length name) by lia. apply firstn_app_exact.
  - f_equal. replace (length a + 3 + length name + 1 - length a) with (length (group_tag name)) by lia. rewrite skipn_app_exact, firstn_app_exact. unfold replace_empty. now apply remove_tag.
Qed.
Lemma rsplit_none s : ~ In slash s -> rsplit1 s = [s].
Proof. intros Ni. unfold rsplit1. rewrite split_noc_id by exact Ni. reflexivity. Qed.
Lemma rsplit_two s1 s2 : ~ In slash s2 -> rsplit1 (s1 ++ slash :: s2) = [s1; s2].
Proof.
  intros Ni. unfold rsplit1. assert (E : split slash (s1 ++ slash :: s2) = split slash s1 ++ [s2]).
  { induction s1 as [|c s1 IH]; cbn [app split]; [destruct (eqdec slash slash) as [_|N1]; [|congruence]; now rewrite split_noc_id|].
    destruct (eqdec c slash); [now rewrite IH|]. rewrite IH. pose proof (split_nonempty slash s1). destruct (split slash s1) as [|p ps]; [congruence|]. reflexivity. }
  rewrite E, rev_unit. pose proof (split_nonempty slash s1) as Ne. destruct (rev (split slash s1)) as [|x l] eqn:Er; [apply (f_equal (@rev _)) in Er; rewrite rev_involutive in Er; cbn in Er; congruence|].
  rewrite rev_involutive, join_split. unfold pystr in *. rewrite Er. reflexivity.
Qed.
Lemma reg_attrs_label s a : label_attrs s a -> reg_attrs s = Ok a /\ dwf a.
Proof.
  unfold reg_attrs. intros [(n & r & Hn & Ns & ->)|(s1 & s2 & n1 & r1 & n2 & r2 & -> & Ns & H1 & H2 & Hd & ->)].
  - rewrite rsplit_none by exact Ns. cbn [rfold]. rewrite (reg_attr_named _ _ _ _ Hn). split; [reflexivity|]. repeat constructor; auto.
  - rewrite rsplit_two by exact Ns. cbn [rfold]. rewrite (reg_attr_named _ _ _ _ H1). cbn [rbind dset]. rewrite (reg_attr_named _ _ _ _ H2). cbn [rbind]. split; [|repeat constructor; cbn; intuition congruence].
    f_equal. rewrite dset_fresh; [reflexivity|]. cbn. intuition congruence.
Qed.

(** ** PatternGraph *)
Lemma dupdate_nil {V} (a : dict pystr V) : dwf a -> dupdate [] a = a.
Proof.
  intros W. assert (G : forall a d : dict pystr V, dwf (d ++ a) -> dupdate d a = d ++ a).
  { clear. induction a as [|[k v] a IH]; intros d W; [symmetry; apply app_nil_r|]. unfold dupdate. cbn [fold_left fst snd].
    rewrite dset_fresh. 2:{ unfold dwf, dkeys in *. rewrite map_app in W. apply NoDup_remove_2 in W. intros I. apply W. apply in_or_app. now left. }
    change (dupdate (d ++ [(k, v)]) a = d ++ (k, v) :: a). rewrite IH; rewrite <- app_assoc; [reflexivity|exact W]. }
  apply (G a []). exact W.
Qed.
Lemma dupdate_cons {V} (k : pystr) (v : V) a : dwf a -> ~ In k (dkeys a) -> dupdate [(k, v)] a = (k, v) :: a.
Proof. intros W Ni. rewrite <- (dupdate_nil ((k, v) :: a)); [reflexivity|]. unfold dwf, dkeys in *. cbn [map fst]. now constructor. Qed.
Lemma dset_same {K V} `{EqDec K} (d : dict K V) k v : dget d k = Some v -> dset d k v = d.
Proof.
  induction d as [|[k' v'] d IH]; [discriminate|]. cbn [dget dset]. destruct (eqdec k k') as [E|Nk]; [intros E'; injection E' as ->; now subst|]. intros E. now rewrite (IH E).
Qed.
Lemma init_nodes (ns : dict Z pystr) (na : list attrs) g : Forall2 label_attrs (map snd ns) na -> dwf (gnodes g ++ combine (dkeys ns) na) ->
  rfold (fun g na => rmap (nx_add_node g (fst na)) (spec_attrs (snd na))) (map (fun kv => (fst kv, inl (snd kv))) ns) g = Ok (Graph (gnodes g ++ combine (dkeys ns) na) (gedges g)).
Proof.
  revert na g. induction ns as [|[k s] ns IH]; intros na g F W; inversion F as [|? a ? na' La F']; subst; cbn [map rfold].
  - cbn [dkeys map combine]. rewrite app_nil_r. now destruct g.
  - cbn [fst snd spec_attrs]. destruct (reg_attrs_label _ _ La) as [-> Wa]. cbn [rmap rbind]. cbn [dkeys map fst combine] in *.
    assert (Fr : ~ In k (dkeys (gnodes g))). { unfold dwf, dkeys in W. rewrite map_app in W. cbn [map fst] in W. apply NoDup_remove_2 in W. intros I. apply W. apply in_or_app. now left. }
    assert (Eg : nx_add_node g k a = Graph (gnodes g ++ [(k, a)]) (gedges g)) by (unfold nx_add_node; now rewrite (proj2 (dget_None _ _) Fr), dupdate_nil, dset_fresh).
    rewrite Eg, (IH na'); cbn [gnodes gedges]; rewrite <- ?app_assoc; [reflexivity|exact F'|exact W].
Qed.
Lemma add_edge_nodes g a b kw : In a (dkeys (gnodes g)) -> In b (dkeys (gnodes g)) -> gnodes (nx_add_edge g a b kw) = gnodes g.
Proof.
  intros Ia Ib. unfold nx_add_edge. cbn [gnodes].
  assert (H : forall v, In v (dkeys (gnodes g)) -> nx_add_node g v [] = g).
  { intros v I. unfold nx_add_node. destruct (dget (gnodes g) v) as [x|] eqn:E; [|now apply dget_None in E]. cbn [dupdate fold_left]. rewrite dset_same by exact E. now destruct g. }
  rewrite (H a Ia), (H b Ib). reflexivity.
Qed.
Lemma init_edges (es : dict (Z * Z) pystr) (ea : list attrs) : Forall2 label_attrs (map snd es) ea -> Forall (fun a => ~ In (u "id") (dkeys a)) ea ->
  forall g n, (forall e, In e (dkeys es) -> In (fst e) (dkeys (gnodes g)) /\ In (snd e) (dkeys (gnodes g))) ->
  dwf (gedges g ++ combine (dkeys es) ea) ->
  rfold (fun (gi : graph * nat) e => rbind (spec_attrs (snd e)) (fun a =>
              if dmem a (u "id") then Err TypeError
              else Ok (nx_add_edge (fst gi) (fst (fst e)) (snd (fst e)) (dupdate [(u "id", AInt (Z.of_nat (S (snd gi))))] a), S (snd gi))))
        (map (fun kv => (fst kv, inl (snd kv))) es) (g, n)
  = Ok (Graph (gnodes g) (gedges g ++ combine (dkeys es) (map (fun ia => (u "id", AInt (fst ia)) :: snd ia) (combine (map Z.of_nat (seq (S n) (length ea))) ea))), n + length ea).
Proof.
  intros F. remember (map snd es) as ss eqn:Ess. revert es Ess. induction F as [|s a ss ea La F IH]; intros es Ess Ni g n Hin W.
  - destruct es as [|? ?]; [|discriminate]. cbn [map rfold dkeys combine length]. rewrite app_nil_r, Nat.add_0_r. now destruct g.
  - destruct es as [|[e s'] es]; [discriminate|]. injection Ess as -> Ess. inversion Ni as [|? ? Na Ni']; subst. cbn [map rfold fst snd spec_attrs].
    destruct (reg_attrs_label _ _ La) as [-> Wa]. cbn [rbind]. assert (Dm : dmem a (u "id") = false) by (unfold dmem; now rewrite (proj2 (dget_None _ _) Na)). rewrite Dm. cbn [rbind].
    destruct (Hin e (or_introl eq_refl)) as [I1 I2]. cbn [dkeys map fst combine] in W, Hin |- *.
    assert (Fr : ~ In e (dkeys (gedges g))). { unfold dwf, dkeys in W. rewrite map_app in W. cbn [map fst] in W. apply NoDup_remove_2 in W. intros I. apply W. apply in_or_app. now left. }
    set (kw := dupdate [(u "id", AInt (Z.of_nat (S n)))] a). assert (Ek : kw = (u "id", AInt (Z.of_nat (S n))) :: a) by now apply dupdate_cons.
    assert (Eg : nx_add_edge g (fst e) (snd e) kw = Graph (gnodes g) (gedges g ++ [(e, kw)])).
    { pose proof (add_edge_nodes g (fst e) (snd e) kw I1 I2) as En. unfold nx_add_edge in *. cbn [gnodes] in En. rewrite En. cbn [nx_add_node gedges]. f_equal.
      rewrite <- surjective_pairing. rewrite (proj2 (dget_None _ _) Fr), dset_fresh by exact Fr. rewrite dupdate_nil; [reflexivity|]. rewrite Ek. unfold dwf, dkeys in *. cbn [map fst]. now constructor. }
    rewrite Eg. rewrite (IH es eq_refl Ni'); cbn [gnodes gedges].
    + cbn [length seq map combine fst snd]. rewrite <- app_assoc. cbn [app]. rewrite Ek. f_equal. f_equal. lia.
    + intros e' I'. apply Hin. now right.
    + unfold dwf, dkeys in *. rewrite !map_app in *. cbn [map fst] in *. rewrite <- app_assoc. exact W.
Qed.
Lemma strip_idem s : strip (strip s) = strip s.
Proof.
  destruct (strip s) as [|x t] eqn:E; [reflexivity|]. pose proof (strip_hd s) as H. rewrite E in H.
  eapply trimmed_intro; [reflexivity|exact H|reflexivity|]. rewrite <- E. unfold strip, rstrip in *. pose proof (lstrip_hd (rev (lstrip s))) as Hl.
  destruct (lstrip (rev (lstrip s))) as [|y l]; [discriminate E|]. cbn [rev]. now rewrite last_last.
Qed.
Lemma map_fst_combine {A B} (a : list A) (b : list B) : length a = length b -> map fst (combine a b) = a.
Proof. revert b. induction a as [|x a IH]; intros [|y b] E; try discriminate E; [reflexivity|]. cbn [combine map fst]. f_equal. apply IH. now injection E. Qed.
Lemma map_snd_combine {A B} (a : list A) (b : list B) : length a = length b -> map snd (combine a b) = b.
Proof. revert b. induction a as [|x a IH]; intros [|y b] E; try discriminate E; [reflexivity|]. cbn [combine map snd]. f_equal. apply IH. now injection E. Qed.
Lemma number_wf {A} (l : list A) : dwf (number l).
Proof. unfold dwf. rewrite number_keys. apply FinFun.Injective_map_NoDup; [intros a b; lia|apply seq_NoDup]. Qed.
Lemma Forall2_len {A B} (R : A -> B -> Prop) a b : Forall2 R a b -> length a = length b.
Proof. induction 1; cbn [length]; congruence. Qed.
Lemma row_graph target feature lf s na ea : feature_text feature lf s ->
  Forall2 label_attrs (strip target :: snodes s) na -> Forall2 label_attrs (map snd (sedges 1 lf 2 s)) ea -> Forall (fun a => ~ In (u "id") (dkeys a)) ea ->
  pattern_row (target, feature) = Ok (Graph (number na) (combine (map fst (sedges 1 lf 2 s)) (id_attrs ea)), strip feature).
Proof.
  intros Ef Fn Fe Ni. unfold pattern_row. cbn [fst snd]. assert (Ef' : feature_text (strip feature) lf s) by (destruct Ef as (t & Et & Wt); exists t; now rewrite strip_idem).
  destruct (parse_pattern_text (strip target) _ lf s Ef') as [P [Wb B]]. rewrite P. cbn [rbind fst snd]. rewrite strip_idem in *.
  unfold pattern_init. set (ns := strip target :: snodes s) in *. assert (Ln : length ns = length na) by (eapply Forall2_len; exact Fn).
  assert (Le : length (sedges 1 lf 2 s) = length ea) by (apply Forall2_len in Fe; now rewrite map_length in Fe).
  assert (En : combine (dkeys (number ns)) na = number na). { rewrite number_keys. unfold number. now rewrite Ln. }
  rewrite (init_nodes (number ns) na empty_graph).
  2:{ unfold number. rewrite map_snd_combine by now rewrite map_length, seq_length. exact Fn. }
  2:{ cbn [gnodes empty_graph app]. rewrite En. apply number_wf. }
  cbn [rbind gnodes gedges empty_graph app]. rewrite En.
  rewrite (init_edges _ ea Fe Ni); cbn [gnodes gedges app].
  - cbn [rmap rbind fst]. reflexivity.
  - intros e I. destruct (B e I) as [B1 B2]. rewrite number_keys, <- Ln. unfold ns. cbn [length]. split; apply in_map_iff; [exists (Z.to_nat (fst e))|exists (Z.to_nat (snd e))]; rewrite in_seq; lia.
  - unfold dwf, dkeys in *. rewrite map_fst_combine; [exact Wb|]. now rewrite map_length.
Qed.

(** ** XML *)
Lemma tagged_text name s : tagged name (Text s) = [].
Proof. reflexivity. Qed.
Lemma flat_parts name ks : flat_map (tagged name) ks = flat_map (tagged name) (filter is_elem ks).
Proof. induction ks as [|[t a k|s] ks IH]; [reflexivity| |]; cbn [filter is_elem flat_map]; rewrite IH; reflexivity. Qed.
Lemma elements_parts name x : elements name x = flat_map (tagged name) (parts x).
Proof. destruct x as [t a ks|s]; [|reflexivity]. cbn [elements parts kids_of]. unfold parts. cbn [kids_of]. apply flat_parts. Qed.
Lemma tagged_parts name x : is_elem x = true -> tagged name x = (if eqb (tag_of x) name then [x] else []) ++ elements name x.
Proof. destruct x as [t a ks|s]; [reflexivity|discriminate]. Qed.
Lemma parts_elem x y : In y (parts x) -> is_elem y = true.
Proof. intros I. unfold parts in I. apply filter_In in I. now destruct I. Qed.
Lemma tag_elem x k : tag_of x = k -> k <> [] -> is_elem x = true.
Proof. destruct x; [reflexivity|]. cbn. intros <-. congruence. Qed.
Lemma tagged_leaf name tag x : leaf tag x -> tag <> [] -> tagged name x = if eqb tag name then [x] else [].
Proof.
  intros [T P] Nn. rewrite tagged_parts by now apply (tag_elem x tag). rewrite T, elements_parts, P. cbn [flat_map]. now rewrite app_nil_r.
Qed.
Lemma tagged_described name tag text x : described tag text x -> tag <> [] ->
  exists d, elements (u "description") x = [d] /\ data0 d = Ok text /\
  tagged name x = (if eqb tag name then [x] else []) ++ (if eqb (u "description") name then [d] else []).
Proof.
  intros (T & a & ks & P & F) Nn. exists (Elem (u "description") a (Text text :: ks)).
  assert (D : forall n, tagged n (Elem (u "description") a (Text text :: ks)) = if eqb (u "description") n then [Elem (u "description") a (Text text :: ks)] else []).
  { intros n. apply tagged_leaf; [|discriminate]. split; [reflexivity|]. unfold parts. cbn [kids_of filter is_elem]. exact F. }
  split; [rewrite elements_parts, P; cbn [flat_map]; now rewrite D, app_nil_r|]. split; [reflexivity|].
  rewrite tagged_parts by now apply (tag_elem x tag). rewrite T, elements_parts, P. cbn [flat_map]. now rewrite D, app_nil_r.
Qed.
Lemma xattr_has k v x : has_attr x k v -> xattr k x = Ok v.
Proof. destruct x as [t a ks|s]; cbn; [now intros ->|tauto]. Qed.
Lemma xattr_lacks k x : lacks_attr x k -> exists e, xattr k x = Err e.
Proof. destruct x as [t a ks|s]; cbn; [intros ->|intros _]; eauto. Qed.
Ltac tageq := repeat match goal with |- context [eqb (u ?a) (u ?b)] => let e := eval vm_compute in (eqb (u a) (u b)) in change (eqb (u a) (u b)) with e end; cbn [app].
Lemma macro_read {P} x (id2patt : dict Z P) mid pid tidx td fd feat f : macro_form x mid pid tidx td fd feat -> feature_index feat f ->
  parse_macro_xml x id2patt = rmap (fun p => MacroX mid p tidx f td fd) (look id2patt pid).
Proof.
  intros (patt & target & T & Ps & Hid & Lp & Hp & Dt & Ht & Df) Hf. unfold parse_macro_xml.
  rewrite (xattr_has _ _ _ Hid). cbn [rbind]. rewrite int_str. cbn [rbind].
  assert (El : forall n, elements n x = tagged n patt ++ tagged n target ++ tagged n feat) by (intros n; rewrite elements_parts, Ps; cbn [flat_map]; now rewrite app_nil_r).
  assert (Tp : forall n, tagged n patt = if eqb (u "sub-graph-pattern") n then [patt] else []) by (intros n; apply tagged_leaf; [exact Lp|discriminate]).
  destruct (tagged_described (u "x") _ _ _ Dt ltac:(discriminate)) as (dt & Edt & Vdt & _). destruct (tagged_described (u "x") _ _ _ Df ltac:(discriminate)) as (df & Edf & Vdf & _).
  rewrite !El, !Tp.
  destruct (tagged_described (u "sub-graph-pattern") _ _ _ Dt ltac:(discriminate)) as (? & _ & _ & ->). destruct (tagged_described (u "target") _ _ _ Dt ltac:(discriminate)) as (? & _ & _ & ->).
  destruct (tagged_described (u "feature") _ _ _ Dt ltac:(discriminate)) as (? & _ & _ & ->). destruct (tagged_described (u "feature") _ _ _ Df ltac:(discriminate)) as (? & _ & _ & ->).
  tageq. cbn [first rbind]. rewrite (xattr_has _ _ _ Hp). cbn [rbind]. rewrite int_str. cbn [rbind]. rewrite (xattr_has _ _ _ Ht). cbn [rbind]. rewrite int_str. cbn [rbind].
  unfold desc. rewrite Edt, Edf, Vdt, Vdf. cbn [rbind]. destruct Hf as [Hf|[Hf ->]].
  - rewrite (xattr_has _ _ _ Hf). cbn [rbind]. rewrite int_str. reflexivity.
  - destruct (xattr_lacks _ _ Hf) as (e & ->). reflexivity.
Qed.
Lemma macro_tagged x mid pid tidx td fd feat : macro_form x mid pid tidx td fd feat -> tagged (u "target-feature-macro") x = [x].
Proof.
  intros (patt & target & T & Ps & Hid & Lp & Hp & Dt & Ht & Df). rewrite tagged_parts by (apply (tag_elem x _ T); discriminate). rewrite T, elements_parts, Ps. cbn [flat_map].
  rewrite (tagged_leaf _ _ _ Lp) by discriminate. destruct (tagged_described (u "target-feature-macro") _ _ _ Dt ltac:(discriminate)) as (? & _ & _ & ->).
  destruct (tagged_described (u "target-feature-macro") _ _ _ Df ltac:(discriminate)) as (? & _ & _ & ->). tageq. reflexivity.
Qed.
Lemma has_elem x k v : has_attr x k v -> is_elem x = true.
Proof. destruct x; [reflexivity|intros []]. Qed.
Lemma tagged_leaf' name tag x : leaf tag x -> is_elem x = true -> tagged name x = if eqb tag name then [x] else [].
Proof. intros [T P] E. rewrite tagged_parts by exact E. rewrite T, elements_parts, P. cbn [flat_map]. now rewrite app_nil_r. Qed.
Lemma find_group gs l : Forall2 (fun g (na : pystr * Z) => leaf (fst na) g /\ has_attr g (u "group") (str_of_Z (snd na))) gs l -> NoDup (map fst l) ->
  forall n, (forall z, In (n, z) l -> exists g, flat_map (tagged n) gs = [g] /\ has_attr g (u "group") (str_of_Z z)) /\ (~ In n (map fst l) -> flat_map (tagged n) gs = []).
Proof.
  intros F. induction F as [|g [a z] gs l [Hl Ha] F IH]; intros Nd n; [split; [intros z []|reflexivity]|]. cbn [fst snd map] in *. inversion Nd as [|? ? Na Nd']; subst.
  destruct (IH Nd' n) as [I1 I2]. cbn [flat_map]. rewrite (tagged_leaf' n a g Hl (has_elem _ _ _ Ha)). split.
  - intros z' [E|I].
    + injection E as -> ->. rewrite eqb_refl. cbn [app]. rewrite I2 by exact Na. exists g. auto.
    + assert (Ne : a <> n) by (intros ->; apply Na; apply in_map_iff; exists (n, z'); auto). rewrite (proj2 (eqb_neq _ _) Ne). cbn [app]. apply I1. exact I.
  - intros Ni. assert (Ne : a <> n) by (intros ->; apply Ni; now left). rewrite (proj2 (eqb_neq _ _) Ne). cbn [app]. apply I2. intros I. apply Ni. now right.
Qed.
Lemma node_elements nf l n : node_form nf l -> (forall z, In (n, z) l -> exists g, elements n nf = [g] /\ has_attr g (u "group") (str_of_Z z)) /\
  (In n reserved -> n <> u "string" -> elements n nf = []).
Proof.
  intros (gs & str & c & T & P & Nn & Nd & (gs' & Pm & F) & Fn & Ts & Hc & Ks). rewrite elements_parts, P, flat_map_app. cbn [flat_map]. rewrite app_nil_r.
  assert (Es : tagged n str = if eqb (u "string") n then [str] else []). { apply tagged_leaf'; [split; [exact Ts|unfold parts; now rewrite Ks]|now apply (has_elem _ _ _ Hc)]. }
  rewrite Es. assert (Pf : Permutation (flat_map (tagged n) gs) (flat_map (tagged n) gs')) by now apply Permutation_flat_map.
  destruct (find_group gs' l F Nd n) as [I1 I2]. split.
  - intros z I. destruct (I1 z I) as (g & Eg & Hg). rewrite Eg in Pf. apply Permutation_sym, Permutation_length_1_inv in Pf. rewrite Pf. exists g. split; [|exact Hg].
    rewrite Forall_forall in Fn. destruct (Fn _ I) as [_ Nr]. replace (eqb (u "string") n) with false; [reflexivity|]. symmetry. apply eqb_neq. intros <-. apply Nr. now left.
  - intros Ir Ns. assert (Ni : ~ In n (map fst l)). { intros I. apply in_map_iff in I as (na & <- & I). rewrite Forall_forall in Fn. now destruct (Fn _ I). }
    rewrite (I2 Ni) in Pf. apply Permutation_sym, Permutation_nil in Pf. rewrite Pf. replace (eqb (u "string") n) with false; [reflexivity|]. symmetry. apply eqb_neq. congruence.
Qed.
Lemma node_string nf l : node_form nf l -> exists str c, elements (u "string") nf = [str] /\ xattr (u "connector") str = Ok [c] /\ data0 str = Ok (join c (map fst l)) /\ split c (join c (map fst l)) = map fst l /\ NoDup (map fst l).
Proof.
  intros (gs & str & c & T & P & Nn & Nd & (gs' & Pm & F) & Fn & Ts & Hc & Ks). exists str, c. rewrite elements_parts, P, flat_map_app. cbn [flat_map]. rewrite app_nil_r.
  assert (Es : forall n, tagged n str = if eqb (u "string") n then [str] else []). { intros n. apply tagged_leaf'; [split; [exact Ts|unfold parts; now rewrite Ks]|now apply (has_elem _ _ _ Hc)]. }
  rewrite Es. tageq. assert (Pf : Permutation (flat_map (tagged (u "string")) gs) (flat_map (tagged (u "string")) gs')) by now apply Permutation_flat_map.
  rewrite (proj2 (find_group gs' l F Nd (u "string"))) in Pf.
  2:{ intros I. apply in_map_iff in I as (na & E & I). rewrite Forall_forall in Fn. destruct (Fn _ I) as [_ Nr]. apply Nr. left. now symmetry. }
  apply Permutation_sym, Permutation_nil in Pf. rewrite Pf. split; [reflexivity|]. split; [now apply xattr_has|]. split; [destruct str as [t a ks|s]; cbn in Ks; [now subst|discriminate]|]. split; [|exact Nd].
  apply split_join; [destruct l; [congruence|discriminate]|]. apply Forall_map. rewrite Forall_forall in *. intros na I. now destruct (Fn _ I).
Qed.
Lemma node_fmt_read f nf l r : parts f = nf :: r -> node_form nf l -> node_fmt f = Ok l.
Proof.
  intros P Hn. unfold node_fmt. rewrite elements_parts, P. cbn [flat_map].
  rewrite (tagged_parts _ nf) by (apply (parts_elem f); rewrite P; now left). assert (T : tag_of nf = u "node-fmt") by (destruct Hn as (? & ? & ? & T & _); exact T). rewrite T. tageq. cbn [first rbind].
  destruct (node_string nf l Hn) as (str & c & -> & C & D & Sp & Nd). cbn [first rbind]. rewrite C. cbn [rbind]. rewrite D. cbn [rbind]. rewrite Sp. clear C D Sp.
  assert (G : forall n z, In (n, z) l -> exists g, elements n nf = [g] /\ has_attr g (u "group") (str_of_Z z)) by (intros n; apply (node_elements nf l n Hn)).
  clear Hn. assert (K : forall l2 d, (forall n z, In (n, z) l2 -> In (n, z) l) -> dwf (d ++ l2) ->
     rfold (fun d a => rbind (first (elements a nf)) (fun e => rmap (dset d a) (rbind (xattr (u "group") e) int_of_str))) (map fst l2) d = Ok (d ++ l2)).
  { induction l2 as [|[n z] l2 IH]; intros d Hl W; cbn [map rfold fst]; [now rewrite app_nil_r|]. destruct (G n z (Hl n z (or_introl eq_refl))) as (g & -> & Hg). cbn [first rbind].
    rewrite (xattr_has _ _ _ Hg). cbn [rbind]. rewrite int_str. cbn [rmap rbind]. rewrite dset_fresh.
    2:{ unfold dwf, dkeys in *. rewrite map_app in W. apply NoDup_remove_2 in W. intros I. apply W. apply in_or_app. now left. }
    rewrite IH; rewrite <- ?app_assoc; [reflexivity|intros n' z' I; apply Hl; now right|exact W]. }
  apply (K l []); [auto|exact Nd].
Qed.
Lemma read_doc {P} root tf ff ms ta fa edge patterns (rs : list (macrox P)) : tag_of root = u "target-feature-list" -> parts root = tf :: ff :: ms -> fmt_forms tf ff ta fa edge ->
  NoDup (map fst patterns) ->
  Forall2 (fun x m => exists pid feat, macro_form x (mx_id m) pid (mx_target m) (mx_tdesc m) (mx_fdesc m) feat /\ feature_index feat (mx_feature m) /\ In (pid, mx_pattern m) patterns) ms rs ->
  read_xml root patterns = Ok (map (fun m => (m, ta, fa, [(edge, 1%Z)])) rs).
Proof.
  intros T Ps (tnf & fnf & ef & Tt & Pt & Nt & Tf & Pf & Nf & Le & ks & Ke) Nd F. unfold read_xml.
  assert (Er : is_elem root = true) by (apply (tag_elem root _ T); discriminate). rewrite !(tagged_parts _ root Er), T, !elements_parts, Ps. tageq. cbn [flat_map].
  assert (Et : is_elem tf = true) by (apply (parts_elem root); rewrite Ps; now left). assert (Ef : is_elem ff = true) by (apply (parts_elem root); rewrite Ps; right; now left).
  assert (Etn : is_elem tnf = true) by (apply (parts_elem tf); rewrite Pt; now left). assert (Efn : is_elem fnf = true) by (apply (parts_elem ff); rewrite Pf; now left).
  assert (Eef : is_elem ef = true) by (apply (parts_elem ff); rewrite Pf; right; now left).
  assert (TT : tag_of tnf = u "node-fmt") by (destruct Nt as (? & ? & ? & ? & _); assumption). assert (TF : tag_of fnf = u "node-fmt") by (destruct Nf as (? & ? & ? & ? & _); assumption).
  rewrite (tagged_parts (u "target-fmt") tf Et), Tt. tageq. cbn [first rbind]. rewrite (node_fmt_read tf tnf ta [] Pt Nt). cbn [rbind].
  assert (Z1 : forall n, In n reserved -> n <> u "string" -> n <> u "target-fmt" -> n <> u "node-fmt" -> tagged n tf = []).
  { intros n I1 I2 I3 I4. rewrite (tagged_parts n tf Et), Tt, elements_parts, Pt. cbn [flat_map]. rewrite (tagged_parts n tnf Etn), TT, (proj2 (node_elements tnf ta n Nt) I1 I2).
    rewrite !(proj2 (eqb_neq _ _)) by congruence. reflexivity. }
  rewrite (Z1 (u "feature-fmt")) by (try discriminate; right; now left). rewrite (Z1 (u "target-feature-macro")) by (try discriminate; do 3 right; now left). cbn [app].
  rewrite (tagged_parts (u "feature-fmt") ff Ef), Tf. tageq. cbn [first rbind]. rewrite (node_fmt_read ff fnf fa [ef] Pf Nf). cbn [rbind].
  assert (Z2 : forall n, In n reserved -> n <> u "string" -> n <> u "node-fmt" -> elements n ff = tagged n ef).
  { intros n I1 I2 I3. rewrite elements_parts, Pf. cbn [flat_map]. rewrite (tagged_parts n fnf Efn), TF, (proj2 (node_elements fnf fa n Nf) I1 I2). rewrite !(proj2 (eqb_neq _ _)) by congruence. cbn [app]. apply app_nil_r. }
  rewrite (Z2 (u "edge-fmt")) by (try discriminate; do 2 right; now left). rewrite (tagged_leaf' _ _ _ Le Eef). tageq. cbn [first rbind].
  assert (D : data0 ef = Ok edge) by (destruct ef as [t a k|s]; cbn in Ke; [now subst|discriminate]). rewrite D. cbn [rbind].
  rewrite (tagged_parts (u "target-feature-macro") ff Ef), Tf, (Z2 (u "target-feature-macro")) by (try discriminate; do 3 right; now left). rewrite (tagged_leaf' _ _ _ Le Eef). tageq.
  clear - F Nd. assert (M : flat_map (tagged (u "target-feature-macro")) ms = ms).
  { induction F as [|x m ms rs (pid & feat & Hm & _) F IH]; [reflexivity|]. cbn [flat_map]. rewrite (macro_tagged _ _ _ _ _ _ _ Hm), IH. reflexivity. }
  rewrite M. apply rmapm_forall2. clear M. induction F as [|x m ms rs (pid & feat & Hm & Hf & Hp) F IH]; [constructor|]. cbn [map]. constructor; [|exact IH].
  rewrite (macro_read _ _ _ _ _ _ _ _ _ Hm Hf). unfold look. assert (Dg : dget (dict_of patterns) pid = Some (mx_pattern m)).
  { unfold dict_of. assert (E : forall (l : list (Z * P)) d, dwf (d ++ l) -> fold_left (fun d kv => dset d (fst kv) (snd kv)) l d = d ++ l).
    { clear. induction l as [|[k v] l IH]; intros d W; [symmetry; apply app_nil_r|]. cbn [fold_left fst snd]. rewrite dset_fresh.
      2:{ unfold dwf, dkeys in *. rewrite map_app in W. apply NoDup_remove_2 in W. intros I. apply W. apply in_or_app. now left. }
      rewrite IH; rewrite <- ?app_assoc; [reflexivity|exact W]. }
    unfold dupdate. rewrite (E patterns []) by exact Nd. cbn [app]. apply dget_In; [exact Nd|exact Hp]. }
  rewrite Dg. destruct m; reflexivity.
Qed.

(** ** GraphML *)
Lemma starts_shorter l : starts (u "</graphml") l = true -> starts (u "</graph") l = true.
Proof.
  unfold starts. intros E. apply (proj1 (eqb_eq _ _)) in E. apply (proj2 (eqb_eq _ _)). apply (f_equal (firstn 7)) in E. rewrite firstn_firstn in E. exact E.
Qed.
Lemma header_cut h l ls : Forall (fun l => opens l = false) h -> opens l = true -> gml_header (h ++ l :: ls) = (h, l :: ls).
Proof.
  intros F O. induction F as [|x h Hx F IH]; cbn [app gml_header].
  - unfold opens in O. now rewrite O.
  - unfold opens in Hx. rewrite Hx, IH. reflexivity.
Qed.
Lemma graphs_body body : Forall (fun l => starts (u "</graph") (strip l) = false) body -> forall cur ls, gml_graphs (body ++ ls) cur = gml_graphs ls (cur ++ body).
Proof.
  intros F. induction F as [|x body Hx F IH]; intros cur ls; cbn [app gml_graphs]; [now rewrite app_nil_r|].
  destruct (starts (u "</graphml") (strip x)) eqn:E; [apply starts_shorter in E; congruence|]. rewrite Hx, IH, <- app_assoc. reflexivity.
Qed.
Lemma graphs_blocks gs : Forall block gs -> forall e rest, starts (u "</graphml") (strip e) = true -> gml_graphs (concat gs ++ e :: rest) [] = (gs, Some e).
Proof.
  intros F. induction F as [|b gs (body & end_ & -> & Hb & He & Hm) F IH]; intros e rest Ee.
  - cbn [concat app gml_graphs]. now rewrite Ee.
  - cbn [concat]. rewrite <- app_assoc, <- app_assoc. rewrite graphs_body by exact Hb. cbn [app gml_graphs]. rewrite Hm, He, IH by exact Ee. reflexivity.
Qed.
Lemma graphs_open gs : Forall block gs -> forall rest, Forall (fun l => starts (u "</graph") (strip l) = false) rest -> gml_graphs (concat gs ++ rest) [] = (gs, None).
Proof.
  intros F. induction F as [|b gs (body & end_ & -> & Hb & He & Hm) F IH]; intros rest Hr.
  - cbn [concat app]. rewrite <- (app_nil_r rest), graphs_body by exact Hr. reflexivity.
  - cbn [concat]. rewrite <- app_assoc, <- app_assoc. rewrite graphs_body by exact Hb. cbn [app gml_graphs]. rewrite Hm, He, IH by exact Hr. reflexivity.
Qed.
Lemma strings_blocks h gs e rest l b ls : Forall (fun l => opens l = false) h -> gs = (l :: b) :: ls -> opens l = true -> Forall block gs ->
  starts (u "</graphml") (strip e) = true -> gml_strings (h ++ concat gs ++ e :: rest) = Ok (map (fun g => concat h ++ concat g ++ e) gs).
Proof.
  intros Fh -> O Fb Ee. unfold gml_strings. pose proof (graphs_blocks _ Fb e rest Ee) as Eg. cbn [concat app] in *. rewrite (header_cut h l _ Fh O), Eg. reflexivity.
Qed.
Lemma strings_unended h gs rest l b ls : Forall (fun l => opens l = false) h -> gs = (l :: b) :: ls -> opens l = true -> Forall block gs ->
  Forall (fun l => starts (u "</graph") (strip l) = false) rest -> gml_strings (h ++ concat gs ++ rest) = Err TypeError.
Proof.
  intros Fh -> O Fb Er. unfold gml_strings. pose proof (graphs_open _ Fb rest Er) as Eg. cbn [concat app] in *. rewrite (header_cut h l _ Fh O), Eg. reflexivity.
Qed.

Definition key_data (k : xml) : res pystr := rbind (first (elements (u "default") k)) data0.
Lemma key_default_data k n v : key_default k n v <-> xattr (u "attr.name") k = Ok n /\ key_data k = Ok v.
Proof.
  unfold key_default, key_data. split.
  - intros [Hn (t & a & ks & more & E)]. split; [now apply xattr_has|]. rewrite E. reflexivity.
  - intros [Hn Hd]. split; [destruct k as [t a ks|s]; cbn [xattr has_attr] in Hn |- *; [destruct (dget a (u "attr.name")); [now injection Hn as ->|discriminate]|discriminate]|].
    destruct (elements (u "default") k) as [|[t a [|[? ? ?|s] ks]|s] more]; cbn in Hd; try discriminate. injection Hd as ->. now exists t, a, ks, more.
Qed.
Lemma defaults_spec doc ds : gml_defaults doc = Ok ds -> forall n v, dget ds n = Some v <-> default_of doc n v.
Proof.
  unfold gml_defaults, default_of. generalize (tagged (u "key") doc) as l. clear doc. intros l. 
  fold (key_data). 
  assert (G : forall l d0 d, rfold (fun d k => rmap (fun name => match rbind (first (elements (u "default") k)) data0 with Ok v => dset d name v | Err _ => d end) (xattr (u "attr.name") k)) l d0 = Ok d ->
    forall n v, dget d n = Some v <-> (exists pre k post, l = pre ++ k :: post /\ key_default k n v /\ forall k' v', In k' post -> ~ key_default k' n v') \/ ((forall k' v', In k' l -> ~ key_default k' n v') /\ dget d0 n = Some v)).
  { clear. induction l as [|k l IH]; intros d0 d E n v; cbn [rfold] in E.
    - injection E as ->. split; [intros H; right; split; [intros k' v' []|exact H]|]. intros [(pre & k & post & E & _)|[_ H]]; [now destruct pre|exact H].
    - destruct (xattr (u "attr.name") k) as [name|e] eqn:Ex; [|discriminate E]. cbn [rmap rbind] in E. rewrite (IH _ _ E n v). clear IH E.
      change (rbind (first (elements (u "default") k)) data0) with (key_data k).
      assert (Hk : forall n v, key_default k n v <-> n = name /\ key_data k = Ok v). { intros n' v'. rewrite key_default_data, Ex. split; [intros [H1 H2]; injection H1 as ->; auto|intros [-> H2]; auto]. }
      split.
      + intros [(pre & k1 & post & -> & Hd & Hp)|[Hl Hg]]; [left; exists (k :: pre), k1, post; auto|].
        destruct (key_data k) as [w|e] eqn:Ek.
        * rewrite dget_dset in Hg. destruct (eqdec n name) as [-> |Nn].
          -- injection Hg as ->. left. exists [], k, l. split; [reflexivity|]. split; [apply Hk; auto|exact Hl].
          -- right. split; [|exact Hg]. intros k' v' [<- |I]; [intros Hd; apply Hk in Hd; now destruct Hd|now apply Hl].
        * right. split; [|exact Hg]. intros k' v' [<- |I]; [intros Hd; apply Hk in Hd; destruct Hd; discriminate|now apply Hl].
      + intros [(pre & k1 & post & E & Hd & Hp)|[Hl Hg]].
        * destruct pre as [|k0 pre]; injection E as <- E; [|left; exists pre, k1, post; auto]. subst post. right. split; [exact Hp|]. apply Hk in Hd as [-> ->]. rewrite dget_dset. now destruct (eqdec name name).
        * right. split; [intros k' v' I; apply Hl; now right|]. destruct (key_data k) as [w|e] eqn:Ek; [|exact Hg]. rewrite dget_dset. destruct (eqdec n name) as [-> |Nn]; [|exact Hg].
          exfalso. apply (Hl k w (or_introl eq_refl)). apply Hk. auto. }
  intros E n v. rewrite (G l [] ds E n v). split; [intros [H|[_ H]]; [exact H|discriminate H]|intros H; now left].
Qed.
Lemma dict_of_wf l d : rfold (fun d k => rmap (fun name => match rbind (first (elements (u "default") k)) data0 with Ok v => dset d name v | Err _ => d end) (xattr (u "attr.name") k)) l [] = Ok d -> dwf d.
Proof.
  assert (G : forall d0 d, dwf d0 -> rfold (fun d k => rmap (fun name => match rbind (first (elements (u "default") k)) data0 with Ok v => dset d name v | Err _ => d end) (xattr (u "attr.name") k)) l d0 = Ok d -> dwf d).
  { induction l as [|k l IH]; intros d0 d1 W E; cbn [rfold] in E; [now injection E as <-|]. destruct (xattr (u "attr.name") k) as [name|e]; [|discriminate E]. cbn [rmap rbind] in E.
    refine (IH _ _ _ E). destruct (rbind (first (elements (u "default") k)) data0); [now apply dwf_dset|exact W]. }
  apply G. apply dwf_nil.
Qed.
Lemma add_defaults_spec ds a k : dwf ds -> dget (add_defaults ds a) k = match dget a k with Some v => Some v | None => option_map AStr (dget ds k) end.
Proof.
  unfold add_defaults. revert a. induction ds as [|[n v] ds IH]; intros a W; cbn [fold_left]; [now destruct (dget a k)|]. cbn [fst snd].
  unfold dwf, dkeys in W. cbn [map fst] in W. inversion W as [|? ? Nn W']; subst. rewrite IH by exact W'. cbn [dget].
  unfold dmem. destruct (dget a n) as [w|] eqn:En.
  - destruct (eqdec k n) as [-> |Nk]; [now rewrite En|reflexivity].
  - rewrite dget_dset. destruct (eqdec k n) as [-> |Nk]; [now rewrite En|reflexivity].
Qed.
Lemma filled doc ds g : gml_defaults doc = Ok ds -> filled_in doc g (with_defaults ds g).
Proof.
  intros E. pose proof (dict_of_wf _ _ E) as W. pose proof (defaults_spec doc ds E) as D. split; [reflexivity|]. unfold with_defaults. cbn [gnodes].
  induction (gnodes g) as [|[n a] l IH]; cbn [map]; [constructor|]. constructor; [|exact IH]. cbn [fst snd]. split; [reflexivity|]. intros k v. rewrite add_defaults_spec by exact W.
  destruct (dget a k) as [w|]; [split; [intros H; now left|intros [H|[H _]]; [exact H|discriminate H]]|].
  split; [intros H; right; split; [reflexivity|]; destruct (dget ds k) as [s|] eqn:Es; [injection H as <-; exists s; split; [now apply D|reflexivity]|discriminate H]|].
  intros [H|[_ (s & Hs & ->)]]; [discriminate H|]. apply D in Hs. now rewrite Hs.
Qed.
Lemma graphml_read px pg lines texts doc ds igs : gml_strings lines = Ok texts -> px (concat lines) = Ok doc -> gml_defaults doc = Ok ds ->
  Forall2 (fun t (ig : Z * graph) => pg t = Ok (snd ig) /\ gnodes (snd ig) <> [] /\ exists x el more, px t = Ok x /\ tagged (u "graph") x = el :: more /\ has_attr el (u "id") (str_of_Z (fst ig))) texts igs ->
  read_graphml px pg lines = Ok (map (fun ig => (fst ig, with_defaults ds (snd ig))) igs).
Proof.
  intros Et Ed Es F. unfold read_graphml. rewrite Et. cbn [rbind]. rewrite Ed. cbn [rbind]. rewrite Es. cbn [rbind]. apply rmapm_forall2. clear Et.
  induction F as [|t ig ts igs (Eg & Nn & x & el & more & Ex & El & Hi) F IH]; cbn [map]; [constructor|]. constructor; [|exact IH]. rewrite Eg. cbn [rbind]. rewrite Ex. cbn [rbind]. rewrite El. cbn [first rbind].
  rewrite (xattr_has _ _ _ Hi). cbn [rbind]. rewrite int_str. destruct (gnodes (snd ig)); [congruence|reflexivity].
Qed.

(** ** Graphs of strings *)
Lemma same_edge_spec a b x y : same_edge (a, b) (x, y) = true <-> (a = x /\ b = y) \/ (a = y /\ b = x).
Proof.
  unfold same_edge. cbn [fst snd]. rewrite orb_true_iff, andb_true_iff, !eqb_eq. split; [intros [E|E]; [injection E as -> ->; auto|auto]|intros [[-> ->]|E]; auto].
Qed.
Lemma uadd_node_In g v w : In w (unodes (uadd_node g v)) <-> In w (unodes g) \/ w = v.
Proof.
  unfold uadd_node. destruct (mem v (unodes g)) eqn:M.
  - apply mem_In in M. split; [now left|intros [H| ->]; assumption].
  - cbn [unodes]. rewrite in_app_iff. cbn [In]. intuition congruence.
Qed.
Lemma uadd_node_edges g v : uedges (uadd_node g v) = uedges g.
Proof. unfold uadd_node. now destruct (mem v (unodes g)). Qed.
Lemma uadd_edge_In g a b r w : In w (unodes (uadd_edge g a b r)) <-> In w (unodes g) \/ w = a \/ w = b.
Proof. unfold uadd_edge. cbn [unodes]. rewrite !uadd_node_In. tauto. Qed.
Lemma uadd_edge_edge g a b r x y s : uedge (uadd_edge g a b r) x y s <->
  (((a = x /\ b = y) \/ (a = y /\ b = x)) /\ s = r) \/ (~ ((a = x /\ b = y) \/ (a = y /\ b = x)) /\ uedge g x y s).
Proof.
  unfold uedge, uadd_edge. cbn [uedges]. rewrite !uadd_node_edges.
  assert (Dec : ((a = x /\ b = y) \/ (a = y /\ b = x)) \/ ~ ((a = x /\ b = y) \/ (a = y /\ b = x))).
  { destruct (eqdec a x), (eqdec b y), (eqdec a y), (eqdec b x); tauto. }
  destruct (existsb (fun e => same_edge (fst e) (a, b)) (uedges g)) eqn:Ex.
  - apply existsb_exists in Ex as ([[p q] t] & It & Se). cbn [fst] in Se. apply same_edge_spec in Se.
    assert (H : forall u0 v0, In ((u0, v0), s) (map (fun e => if same_edge (fst e) (a, b) then (fst e, r) else e) (uedges g)) <->
      (((u0 = a /\ v0 = b) \/ (u0 = b /\ v0 = a)) /\ s = r /\ exists t', In ((u0, v0), t') (uedges g)) \/ (~ ((u0 = a /\ v0 = b) \/ (u0 = b /\ v0 = a)) /\ In ((u0, v0), s) (uedges g))).
    { intros u0 v0. rewrite in_map_iff. split.
      - intros ([[p' q'] t'] & E & I). cbn [fst] in E. destruct (same_edge (p', q') (a, b)) eqn:Se'.
        + injection E as -> -> ->. apply same_edge_spec in Se'. left. split; [tauto|]. split; [reflexivity|]. now exists t'.
        + injection E as -> -> ->. right. split; [|exact I]. intros H. rewrite (proj2 (same_edge_spec _ _ _ _) H) in Se'. discriminate.
      - intros [(H & -> & t' & I)|[H I]].
        + exists ((u0, v0), t'). cbn [fst]. rewrite (proj2 (same_edge_spec _ _ _ _) H). auto.
        + exists ((u0, v0), s). cbn [fst]. destruct (same_edge (u0, v0) (a, b)) eqn:Se'; [apply same_edge_spec in Se'; tauto|auto]. }
    rewrite !H. destruct Dec as [D|D].
    + split.
      * intros [[(_ & -> & _)|[K _]]|[(_ & -> & _)|[K _]]]; [left; tauto|exfalso; apply K; destruct D as [[-> ->]|[-> ->]]; tauto|left; tauto|exfalso; apply K; destruct D as [[-> ->]|[-> ->]]; tauto].
      * intros [[_ ->]|[K _]]; [|tauto]. destruct D as [[-> ->]|[-> ->]], Se as [[-> ->]|[-> ->]]; [left|right|right|left]; left; (split; [tauto|]); (split; [reflexivity|]); now exists t.
    + split.
      * intros [[(K & _)|[_ K]]|[(K & _)|[_ K]]]; [exfalso; apply D; destruct K as [[-> ->]|[-> ->]]; tauto|right; tauto|exfalso; apply D; destruct K as [[-> ->]|[-> ->]]; tauto|right; tauto].
      * intros [[K _]|[_ [K|K]]]; [tauto|left; right; split; [|exact K]|right; right; split; [|exact K]]; intros H'; apply D; destruct H' as [[-> ->]|[-> ->]]; tauto.
  - assert (Nx : forall t, ~ In ((a, b), t) (uedges g) /\ ~ In ((b, a), t) (uedges g)).
    { intros t. split; intros I; (assert (Et : existsb (fun e => same_edge (fst e) (a, b)) (uedges g) = true) by (apply existsb_exists; eexists; split; [exact I|]; cbn [fst]; apply same_edge_spec; tauto)); congruence. }
    rewrite !in_app_iff. cbn [In]. split.
    + intros [[K|[K|[]]]|[K|[K|[]]]]; try (injection K as -> -> ->; left; tauto).
      * right. split; [|tauto]. intros [[-> ->]|[-> ->]]; now destruct (Nx s).
      * right. split; [|tauto]. intros [[-> ->]|[-> ->]]; now destruct (Nx s).
    + intros [[[[-> ->]|[-> ->]] ->]|[_ [K|K]]]; tauto.
Qed.

Definition tlab (tk : Z * pystr * Z * pystr) : pystr := snd (fst (fst tk)).
Definition tidx (tk : Z * pystr * Z * pystr) : Z := fst (fst (fst tk)).
Lemma raw_line_token line tk : token_line line tk -> raw_line line = Ok (Some tk).
Proof.
  destruct tk as [[[i lab] t] rel]. intros (word & pos & type & E & -> & H1 & H2 & H3 & H4). unfold raw_line. rewrite E, split_join; [|discriminate|].
  - rewrite !int_str. reflexivity.
  - assert (D : forall z, ~ In 9%N (str_of_Z z)) by (intros z I; apply str_of_Z_nows in I; discriminate). repeat constructor; auto.
Qed.
Lemma raw_line_other line : count 9%N (strip line) <> 5 -> raw_line line = Ok None.
Proof.
  intros H. unfold raw_line. pose proof (split_length 9%N (strip line)) as E. destruct (split 9%N (strip line)) as [|a [|b [|c [|d [|e [|f [|]]]]]]]; try reflexivity. cbn [length] in E. lia.
Qed.
Lemma raw_fold lines toks : raw_tokens lines toks -> forall ids es g,
  rfold (fun (st : dict Z pystr * list (Z * Z * pystr) * ugraph) line =>
           let '(ids, es, g) := st in
           rmap (fun r => match r with
                          | None => st
                          | Some (i, lab, t, rel) => (dset ids i lab, es ++ [(i, t, rel)], uadd_node g lab)
                          end) (raw_line line)) lines (ids, es, g)
  = Ok (fold_left (fun d tk => dset d (tidx tk) (tlab tk)) toks ids, es ++ map (fun tk => (tidx tk, snd (fst tk), snd tk)) toks, fold_left (fun g tk => uadd_node g (tlab tk)) toks g).
Proof.
  intros R. induction R as [|line ls [[[i lab] t] rel] toks Hl R IH|line ls toks Hc R IH]; intros ids es g; cbn [rfold fold_left map]; [now rewrite app_nil_r| |].
  - rewrite (raw_line_token _ _ Hl). cbn [rmap rbind]. rewrite IH. unfold tidx at 3, tlab at 3. cbn [fst snd]. rewrite <- app_assoc. reflexivity.
  - rewrite (raw_line_other _ Hc). cbn [rmap rbind]. apply IH.
Qed.
Lemma label_look toks i lab : dget (fold_left (fun d tk => dset d (tidx tk) (tlab tk)) toks [(0%Z, u "root")]) i = Some lab <-> label_at toks i lab.
Proof.
  induction toks as [|[[[j l] t] rel] toks IH] using rev_ind.
  - cbn [fold_left dget]. unfold label_at. destruct (eqdec i 0%Z) as [-> |Ni].
    + split; [intros E; injection E as <-; right; repeat split; intros tk []|]. intros [(pre & ? & ? & ? & E & _)|(_ & _ & ->)]; [now destruct pre|reflexivity].
    + split; [discriminate|]. intros [(pre & ? & ? & ? & E & _)|(_ & E & _)]; [now destruct pre|congruence].
  - rewrite fold_left_app. cbn [fold_left]. rewrite dget_dset. unfold tidx at 1, tlab at 1. cbn [fst snd]. destruct (eqdec i j) as [-> |Ni].
    + split.
      * intros E. injection E as ->. left. exists toks, t, rel, []. split; [reflexivity|intros tk []].
      * intros [(pre & t' & rel' & post & E & Hp)|(Hn & _)]; [|exfalso; apply (Hn (j, l, t, rel)); [apply in_or_app; right; now left|reflexivity]].
        destruct post as [|tk post] using rev_ind.
        -- apply app_inj_tail in E as [_ E]. now injection E as -> _ _.
        -- rewrite app_comm_cons, app_assoc in E. apply app_inj_tail in E as [_ <-]. exfalso. apply (Hp (j, l, t, rel)); [apply in_or_app; right; now left|reflexivity].
    + rewrite IH. unfold label_at. split.
      * intros [(pre & t' & rel' & post & -> & Hp)|(Hn & H)].
        -- left. exists pre, t', rel', (post ++ [(j, l, t, rel)]). rewrite <- app_assoc. split; [reflexivity|]. intros tk I. apply in_app_or in I as [I|[<- |[]]]; [now apply Hp|cbn [fst]; congruence].
        -- right. split; [|exact H]. intros tk I. apply in_app_or in I as [I|[<- |[]]]; [now apply Hn|cbn [fst]; congruence].
      * intros [(pre & t' & rel' & post & E & Hp)|(Hn & H)].
        -- left. destruct post as [|tk post] using rev_ind; [apply app_inj_tail in E as [_ E]; injection E as -> _ _ _; congruence|]. rewrite app_comm_cons, app_assoc in E. apply app_inj_tail in E as [-> _].
           exists pre, t', rel', post. split; [reflexivity|]. intros tk' I. apply Hp. apply in_or_app. now left.
        -- right. split; [|exact H]. intros tk I. apply Hn. apply in_or_app. now left.
Qed.
Lemma nodes_fold toks g w : In w (unodes (fold_left (fun g tk => uadd_node g (tlab tk)) toks g)) <-> In w (unodes g) \/ exists tk, In tk toks /\ tlab tk = w.
Proof.
  revert g. induction toks as [|tk toks IH]; intros g; cbn [fold_left]; [split; [now left|intros [H|(tk & [] & _)]; exact H]|]. rewrite IH, uadd_node_In. split.
  - intros [[H| ->]|(tk' & I & E)]; [now left|right; exists tk; split; [now left|reflexivity]|right; exists tk'; split; [now right|exact E]].
  - intros [H|(tk' & [<- |I] & E)]; [now (left; left)|left; right; now symmetry|right; now exists tk'].
Qed.
Lemma nodes_fold_edges toks g : uedges (fold_left (fun g tk => uadd_node g (tlab tk)) toks g) = uedges g.
Proof. revert g. induction toks as [|tk toks IH]; intros g; cbn [fold_left]; [reflexivity|]. now rewrite IH, uadd_node_edges. Qed.
Lemma uadd_node_NoDup g v : NoDup (unodes g) -> NoDup (unodes (uadd_node g v)).
Proof.
  intros D. unfold uadd_node. destruct (mem v (unodes g)) eqn:M; [exact D|]. cbn [unodes]. apply NoDup_snoc; [exact D|]. intros I. apply mem_In in I. congruence.
Qed.
Lemma nodes_fold_NoDup toks g : NoDup (unodes g) -> NoDup (unodes (fold_left (fun g tk => uadd_node g (tlab tk)) toks g)).
Proof. revert g. induction toks as [|tk toks IH]; intros g D; cbn [fold_left]; [exact D|]. now apply IH, uadd_node_NoDup. Qed.
Lemma raw_graph lines toks : raw_tokens lines toks -> (forall tk, In tk toks -> exists lab, label_at toks (snd (fst tk)) lab) ->
  exists g, build_graph_raw lines = Ok g /\ NoDup (unodes g) /\
    (forall v, In v (unodes g) <-> (exists tk, In tk toks /\ tlab tk = v) \/ exists tk, In tk toks /\ label_at toks (snd (fst tk)) v) /\
    forall a b r, uedge g a b r <-> exists pre tk post, toks = pre ++ tk :: post /\ joins toks tk a b /\ snd tk = r /\ forall tk', In tk' post -> ~ joins toks tk' a b.
Proof.
  intros R Hh. unfold build_graph_raw. rewrite (raw_fold _ _ R). cbn [rbind app]. set (ids := fold_left (fun d tk => dset d (tidx tk) (tlab tk)) toks [(0%Z, u "root")]).
  assert (Li : forall i lab, dget ids i = Some lab <-> label_at toks i lab) by (intros; apply label_look).
  assert (Own : forall tk, In tk toks -> exists lab, dget ids (tidx tk) = Some lab /\ exists tk', In tk' toks /\ tlab tk' = lab).
  { intros tk I. assert (K : exists lab, dget ids (tidx tk) = Some lab).
    { destruct (dget ids (tidx tk)) as [lab|] eqn:E; [eauto|]. exfalso. unfold ids in E.
      assert (G : forall l d, In tk l -> dget (fold_left (fun d tk => dset d (tidx tk) (tlab tk)) l d) (tidx tk) <> None).
      { clear. induction l as [|x l IH] using rev_ind; intros d I; [destruct I|]. rewrite fold_left_app. cbn [fold_left]. rewrite dget_dset. destruct (eqdec (tidx tk) (tidx x)); [discriminate|].
        apply in_app_or in I as [I|[-> |[]]]; [now apply IH|congruence]. }
      exact (G toks _ I E). }
    destruct K as (lab & K). exists lab. split; [exact K|]. apply Li in K. destruct K as [(pre & t & rel & post & E & _)|(Hn & _)]; [|exfalso; now apply (Hn tk I)].
    exists (tidx tk, lab, t, rel). split; [rewrite E; apply in_or_app; right; now left|reflexivity]. }
  set (g0 := fold_left (fun g tk => uadd_node g (tlab tk)) toks (UGraph [] [])).
  assert (N0 : forall v, In v (unodes g0) <-> exists tk, In tk toks /\ tlab tk = v) by (intros v; unfold g0; rewrite nodes_fold; cbn [unodes In]; tauto).
  assert (D0 : NoDup (unodes g0)) by (unfold g0; apply nodes_fold_NoDup; constructor).
  assert (E0 : uedges g0 = []) by (unfold g0; now rewrite nodes_fold_edges).
  assert (G : forall l, incl l toks -> exists g,
     rfold (fun g e => let '(i, t, rel) := e in rbind (look ids i) (fun a => rmap (fun b => uadd_edge g a b rel) (look ids t))) (map (fun tk => (tidx tk, snd (fst tk), snd tk)) l) g0 = Ok g /\ NoDup (unodes g) /\
     (forall v, In v (unodes g) <-> (exists tk, In tk toks /\ tlab tk = v) \/ exists tk, In tk l /\ label_at toks (snd (fst tk)) v) /\
     forall a b r, uedge g a b r <-> exists pre tk post, l = pre ++ tk :: post /\ joins toks tk a b /\ snd tk = r /\ forall tk', In tk' post -> ~ joins toks tk' a b).
  { assert (Rf : forall A S (f : S -> A -> res S) l1 l2 s, rfold f (l1 ++ l2) s = rbind (rfold f l1 s) (rfold f l2)).
    { clear. induction l1 as [|x l1 IH]; intros l2 s; cbn [app rfold]; [reflexivity|]. destruct (f s x); cbn [rbind]; auto. }
    induction l as [|tk l IH] using rev_ind; intros Hi.
    - exists g0. split; [reflexivity|]. split; [exact D0|]. split; [intros v; rewrite N0; split; [now left|intros [H|(tk & [] & _)]; exact H]|].
      intros a b r. unfold uedge. rewrite E0. cbn [In]. split; [tauto|]. intros (pre & tk & post & E & _). now destruct pre.
    - destruct (IH (fun x I => Hi x (in_or_app _ _ _ (or_introl I)))) as (g & Eg & Dg & Ng & Ee). assert (Itk : In tk toks) by (apply Hi; apply in_or_app; right; now left).
      destruct (Own tk Itk) as (la & La & tko & Io & Eo). destruct (Hh tk Itk) as (lb & Lb). pose proof (proj2 (Li _ _) Lb) as Lb'.
      exists (uadd_edge g la lb (snd tk)). rewrite map_app, Rf, Eg. cbn [rbind map rfold]. unfold look. rewrite La. cbn [rbind]. rewrite Lb'. cbn [rmap rbind]. split; [reflexivity|]. split; [unfold uadd_edge; cbn [unodes]; now apply uadd_node_NoDup, uadd_node_NoDup|].
      assert (Fn : forall i x y, label_at toks i x -> label_at toks i y -> x = y) by (intros i x y Hx Hy; apply Li in Hx, Hy; congruence).
      apply Li in La. split.
      + intros v. rewrite uadd_edge_In, Ng. split.
        * intros [[H|(t1 & I & H)]|[-> | ->]]; [now left|right; exists t1; split; [apply in_or_app; now left|exact H]|left; now exists tko|right; exists tk; split; [apply in_or_app; right; now left|exact Lb]].
        * intros [H|(t1 & I & H)]; [left; now left|]. apply in_app_or in I as [I|[<- |[]]]; [left; right; now exists t1|right; right; now apply (Fn (snd (fst tk)))].
      + intros a b r. rewrite uadd_edge_edge, Ee.
        assert (Jn : joins toks tk a b <-> (la = a /\ lb = b) \/ (la = b /\ lb = a)).
        { destruct tk as [[[i lab] t] rel]. unfold joins, tidx in *. cbn [fst snd] in *. split.
          - intros [[H1 H2]|[H1 H2]]; [left|right]; split; (eapply Fn; [|eassumption]; assumption).
          - intros [[<- <-]|[<- <-]]; tauto. }
        split.
        * intros [[H ->]|[H (pre & t1 & post & -> & J & E & Hp)]].
          -- exists l, tk, []. split; [reflexivity|]. split; [now apply Jn|]. split; [reflexivity|intros t' []].
          -- exists pre, t1, (post ++ [tk]). rewrite <- app_assoc. split; [reflexivity|]. split; [exact J|]. split; [exact E|]. intros t' I. apply in_app_or in I as [I|[<- |[]]]; [now apply Hp|]. rewrite Jn. exact H.
        * intros (pre & t1 & post & E & J & Er & Hp). destruct post as [|t2 post] using rev_ind.
          -- apply app_inj_tail in E as [-> <-]. left. split; [now apply Jn|now symmetry].
          -- rewrite app_comm_cons, app_assoc in E. apply app_inj_tail in E as [-> <-]. right. split; [rewrite <- Jn; apply Hp; apply in_or_app; right; now left|].
             exists pre, t1, post. split; [reflexivity|]. split; [exact J|]. split; [exact Er|]. intros t' I. apply Hp. apply in_or_app. now left. }
  exact (G toks (incl_refl _)).
Qed.

(** ** Matching *)
Lemma rmapm_err {A B} (f : A -> res B) l x e : In x l -> f x = Err e -> (forall y, In y l -> forall e', f y = Err e' -> e' = e) -> rmapm f l = Err e.
Proof.
  induction l as [|y l IH]; intros I E H; [destruct I|]. cbn [rmapm]. destruct (f y) as [b|e'] eqn:Ey.
  - cbn [rbind]. destruct I as [-> |I]; [congruence|]. rewrite IH; [reflexivity|exact I|exact E|intros z Iz; apply H; now right].
  - cbn [rbind]. f_equal. apply (H y (or_introl eq_refl)). exact Ey.
Qed.
Lemma match_edges re g pnodes pedges : pedges <> [] -> pnodes <> [] ->
  (forall r, match_graph re g pnodes pedges = Ok r -> r = []) /\
  (forall v p, In v (unodes g) -> hd_error pnodes = Some p -> re p v = true -> uneighbors g v <> [] -> match_graph re g pnodes pedges = Err TypeError).
Proof.
  intros Ne Nn. destruct pnodes as [|p ps]; [congruence|]. unfold match_graph. cbn [first rbind].
  set (f := fun nd => if re p nd then match_path0 g (length pedges) nd else Ok []).
  assert (Hf : forall nd, f nd = Ok [] \/ f nd = Err TypeError).
  { intros nd. unfold f. destruct (re p nd); [|now left]. unfold match_path0. destruct pedges as [|e es]; [congruence|]. cbn [length]. destruct (uneighbors g nd); auto. }
  split.
  - intros r E. apply rmap_ok in E as (l & E & ->). apply rmapm_ok in E. clear - Hf E. induction E as [|x y xs ys E F IH]; [reflexivity|]. cbn [concat]. rewrite IH, app_nil_r. destruct (Hf x); congruence.
  - intros v p' I E Hr Hn. injection E as <-. rewrite (rmapm_err f (unodes g) v TypeError I); [reflexivity| |intros y _ e' Ey; destruct (Hf y); congruence].
    unfold f. rewrite Hr. unfold match_path0. destruct pedges as [|e es]; [congruence|]. cbn [length]. now destruct (uneighbors g v).
Qed.
Lemma uneighbors_nil g v : uneighbors g v = [] <-> forall a b l, In (a, b, l) (uedges g) -> v <> a /\ v <> b.
Proof.
  unfold uneighbors. induction (uedges g) as [|[[a b] l] es IH]; cbn [flat_map fst snd]; [split; [intros _ ? ? ? []|reflexivity]|].
  destruct (eqb a v) eqn:Ea; [apply eqb_true in Ea; split; [discriminate|intros H; destruct (H a b l (or_introl eq_refl)); congruence]|].
  destruct (eqb b v) eqn:Eb; [apply eqb_true in Eb; split; [discriminate|intros H; destruct (H a b l (or_introl eq_refl)); congruence]|].
  apply BaseLemmas.eqb_neq in Ea, Eb. cbn [app]. rewrite IH. split; intros H a' b' l' I.
  - destruct I as [E|I]; [injection E as <- <- <-; auto|eauto].
  - apply (H a' b' l'). now right.
Qed.
Lemma match_edges' re g p ps pedges : pedges <> [] ->
  (forall v a b l, In v (unodes g) -> re p v = true -> In (a, b, l) (uedges g) -> v = a \/ v = b -> match_graph re g (p :: ps) pedges = Err TypeError) /\
  ((forall v a b l, In v (unodes g) -> re p v = true -> In (a, b, l) (uedges g) -> v <> a /\ v <> b) -> match_graph re g (p :: ps) pedges = Ok []).
Proof.
  intros Ne. split.
  - intros v a b l I Hr Ie Hv. apply (proj2 (match_edges re g (p :: ps) pedges Ne ltac:(discriminate)) v p I eq_refl Hr).
    intros E. destruct (proj1 (uneighbors_nil g v) E a b l Ie). tauto.
  - intros H. unfold match_graph. cbn [first rbind].
    assert (X : forall vs, (forall v, In v vs -> In v (unodes g)) ->
      rmap (@concat (list pystr)) (rmapm (fun nd => if re p nd then match_path0 g (length pedges) nd else Ok []) vs) = Ok []); [|apply X; auto].
    induction vs as [|v vs IH]; intros Hi; [reflexivity|]. cbn [rmapm].
    assert (E : (if re p v then match_path0 g (length pedges) v else Ok []) = Ok []).
    { destruct (re p v) eqn:Er; [|reflexivity]. unfold match_path0. destruct pedges as [|e es]; [congruence|]. cbn [length].
      rewrite (proj2 (uneighbors_nil g v)); [reflexivity|]. intros a b l Ie. apply (H v a b l); auto. apply Hi. now left. }
    rewrite E. cbn [rbind]. specialize (IH (fun v' I => Hi v' (or_intror I))). destruct (rmapm _ vs) as [r|]; [|discriminate]. cbn [rmap rbind concat app] in *. exact IH.
Qed.
Lemma target_feature_error s v a : In (v, a) (gnodes s) -> dget a (u "label") <> Some (AStr []) -> dget a (u "label") <> Some (AInt 0) -> exists e, match_target_feature s = Err e.
Proof.
  unfold match_target_feature. induction (gnodes s) as [|[v' a'] l IH]; intros I H H0; [destruct I|]. cbn [rfold snd].
  destruct I as [E|I]; [injection E as -> ->; destruct (dget a (u "label")) as [[[|c t]|[|z|z]]|]; cbn [rbind]; eauto; congruence|].
  destruct (dget a' (u "label")) as [[[|c t]|[|z|z]]|]; cbn [rbind]; eauto.
Qed.
Lemma csv_rows rows gs : Forall2 (fun row gr => exists lf s, feature_text (snd row) lf s /\ pattern_of (fst row) lf s (fst gr) /\ snd gr = strip (snd row)) rows gs ->
  pattern_csv rows = Ok gs.
Proof.
  intros F. apply rmapm_forall2. induction F as [|[t f] [g r] rows gs (lf & s & Ef & (na & ea & Fn & Fe & Ni & Gn & Ge) & Er) F IH]; [constructor|]. constructor; [|exact IH]. cbn [fst snd] in *.
  rewrite (row_graph t f lf s na ea Ef Fn Fe Ni). rewrite Er. destruct g as [gn ge]. cbn [gnodes gedges] in *. now subst.
Qed.
Lemma macro_csv_error rows : rows <> [] -> (exists e, macro_csv rows = Err e) /\ forall gs, pattern_csv rows = Ok gs -> macro_csv rows = Err TypeError.
Proof.
  intros Nn. unfold macro_csv. destruct (pattern_csv rows) as [[|g gs]|e] eqn:E; cbn [rbind rmapm]; [|split; [eauto|reflexivity]|split; [eauto|discriminate]].
  apply rmapm_ok in E. inversion E. congruence.
Qed.
Lemma graphml_file px pg h gs e rest l b ls doc ds igs :
  Forall (fun l => opens l = false) h -> gs = (l :: b) :: ls -> opens l = true -> Forall block gs -> starts (u "</graphml") (strip e) = true ->
  let lines := h ++ concat gs ++ e :: rest in
  px (concat lines) = Ok doc -> gml_defaults doc = Ok ds ->
  Forall2 (fun g (ig : Z * graph) => let t := concat h ++ concat g ++ e in pg t = Ok (snd ig) /\ gnodes (snd ig) <> [] /\
             exists x el more, px t = Ok x /\ tagged (u "graph") x = el :: more /\ has_attr el (u "id") (str_of_Z (fst ig))) gs igs ->
  exists rs, read_graphml px pg lines = Ok rs /\ Forall2 (fun ig r => fst r = fst ig /\ filled_in doc (snd ig) (snd r)) igs rs.
Proof.
  intros Fh Eg O Fb Ee lines Ed Es F. exists (map (fun ig => (fst ig, with_defaults ds (snd ig))) igs). split.
  - eapply graphml_read; [exact (strings_blocks h gs e rest l b ls Fh Eg O Fb Ee)|exact Ed|exact Es|].
    clear - F. induction F as [|g ig gs igs H F IH]; cbn [map]; [constructor|]. constructor; [exact H|exact IH].
  - clear - Es. induction igs as [|ig igs IH]; cbn [map]; [constructor|]. constructor; [|exact IH]. split; [reflexivity|]. now apply filled.
Qed.
(** ** Examples *)
Fixpoint arrows_b (op cl : bool) (s : pystr) : bool :=
  (negb (at_arrow s) || (op && negb cl)) && match s with [] => true | c :: s' => arrows_b (op || (c =? lbrack)%N) (cl || (c =? rbrack)%N) s' end.
Lemma arrows_dec s : forall op cl, arrows_b op cl s = true -> guarded op cl s.
Proof.
  intros op cl H a r b Ha. revert s op cl H. induction a as [|x a IH]; intros s op cl H E.
  - cbn [app] in E. assert (Hr : at_arrow s = true) by (subst s; destruct Ha as [-> | ->]; destruct b; reflexivity).
    destruct s as [|c s]; [discriminate Hr|]. cbn [arrows_b] in H. rewrite Hr in H. cbn [negb orb] in H. apply andb_true_iff in H as [H _]. apply andb_true_iff in H as [H1 H2]. apply negb_true_iff in H2. auto.
  - destruct s as [|c s]; [discriminate E|]. cbn [app] in E. injection E as -> E. cbn [arrows_b] in H. apply andb_true_iff in H as [_ H].
    destruct (IH s _ _ H E) as (H1 & H2 & H3). apply orb_false_iff in H2 as [H2 H4]. apply N.eqb_neq in H4. split; [|split].
    + destruct H1 as [H1|H1]; [|right; now right]. apply orb_true_iff in H1 as [H1|H1]; [now left|]. apply N.eqb_eq in H1. right. left. exact H1.
    + exact H2.
    + intros [I|I]; [congruence|now apply H3].
Qed.
Lemma no_arrow_b s : arrows_b false false s = true -> arrows_in_brackets s.
Proof. intros H a r b Ha E. destruct (arrows_dec s _ _ H a r b Ha E) as ([H1|H1] & _ & H3); [discriminate|auto]. Qed.
Definition good_label_b (rel w node : pystr) : bool :=
  eqb (strip rel) rel && negb (eqb rel []) && negb (mem blank rel) && negb (hd 0 rel =? lbrack)%N && forallb is_ws w && eqb (strip node) node && negb (eqb node []) &&
  arrows_b false false (label_text rel w node) && negb (last node 0 =? lt_)%N && (negb (mem lbrack (label_text rel w node)) || mem rbrack (label_text rel w node)).
Lemma good_label_dec rel w node : good_label_b rel w node = true -> good_label rel w node.
Proof.
  unfold good_label_b. rewrite !andb_true_iff, !negb_true_iff, orb_true_iff, negb_true_iff. intros (((((((((A & B) & C) & D) & W) & E) & F) & G) & H) & I).
  repeat split; try (now apply (proj1 (eqb_eq _ _))); try (now apply (proj1 (eqb_neq _ _))); try (now apply N.eqb_neq); try (now apply no_arrow_b).
  - intros J. apply mem_In in J. congruence.
  - apply Forall_forall. now apply forallb_forall.
  - apply no_arrow_b in G. destruct (G a arrow b H0 H1) as [K _]. exact K.
  - apply no_arrow_b in G. destruct (G a arrow b H0 H1) as [_ K]. exact K.
  - intros J. apply mem_In in J. destruct I as [I|I]; [congruence|now apply mem_In].
Qed.
Lemma occurs_dec t s : t <> [] -> find t s = None -> ~ occurs_in t s.
Proof.
  intros Nt H (a & b & ->). revert H. induction a as [|x a IH]; cbn [app find].
  - destruct (t ++ b) as [|c r] eqn:E; [destruct t; [congruence|discriminate E]|]. cbn [find]. rewrite <- E, firstn_app_exact, eqb_refl. discriminate.
  - destruct (eqb (firstn (length t) (x :: a ++ t ++ b)) t); [discriminate|]. intros H. apply IH. now destruct (find t (a ++ t ++ b)).
Qed.
Lemma names_intro name regex reg a b : reg = a ++ group_tag name ++ b -> regex = a ++ b -> mem gt_ name = false -> mem gt_ a = false -> find group_open a = None -> find (group_tag name) b = None ->
  names_group name regex reg.
Proof.
  intros -> -> H1 H2 H3 H4. exists a, b. repeat split; try (intros I; apply mem_In in I; congruence); apply occurs_dec; try assumption; discriminate.
Qed.
Lemma sedges_length s : forall prev lf next, length (sedges prev lf next s) = length (snodes s).
Proof.
  induction s as [rel node|rel node lf' s IH|l F] using sub_ind2; intros prev lf next; cbn [sedges snodes length]; [reflexivity|now rewrite IH|].
  change (length (sedges prev lf next (Many l)) = length (flat_map snodes l)). revert next. induction F as [|s l Hs F IH]; intros next; [reflexivity|]. rewrite sedges_many. cbn [flat_map]. now rewrite !app_length, Hs, IH.
Qed.
