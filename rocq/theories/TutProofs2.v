(** * The token vectors of a corpus: proofs. *)
From Coq Require Import String NArith ZArith Bool Arith Lia Reals Lra Permutation List.
From Verif Require Import Base BaseLemmas Str StrLemmas VocabModel TermsModel TermsProofs CorpusModel CorpusSpec CorpusSegProofs CorpusTokProofs CorpusMoreProofs
  MxModel MxSpec MxProofs MxTtmProofs MxOpsProofs MxCellProofs MxElemProofs MxMoreProofs
  CalcModel CalcSpec CalcProofs CalcProofs2 CalcCellProofs CalcVecModel CalcVecSpec CalcVecProofs CalcVecProofs2 TokMxModel TokMxSpec TokMxProofs TokMxPipeProofs PipeModel PipeSpec PipeProofs
  ParModel ParColModel ParColSpec EndModel EndSpec EndProofs EndProofs2 TutModel TutSpec TutProofs.
From Verif Require DepMatchProofs.
Import ListNotations.
Local Open Scope nat_scope.

Lemma fmt_join_inv a fmt s : fmt_join a fmt = Ok s -> exists vals, Forall2 (fun c v => dget a c = Some (Some v)) (split slash fmt) vals /\ s = join slash vals.
Proof.
  intros E. unfold fmt_join in E. destruct (rmapm _ (split slash fmt)) as [vs|] eqn:R; cbn [rbind] in E; [|discriminate]. apply DepMatchProofs.rmapm_ok in R.
  apply DepMatchProofs.rmap_ok in E as (ws & W & E). apply DepMatchProofs.rmapm_ok in W. exists ws. split; [|exact E]. clear E. revert ws W. induction R as [|c v cs' vs E F IH]; intros ws W; inversion W; subst; [constructor|]. constructor; [|now apply IH].
  destruct (dget _ c) as [[v'|]|]; try discriminate; injection E as <-; congruence.
Qed.

Section Corpus.
  Context {L M : Type} (match_line : L -> option M) (separator : L -> bool) (get_type get_colloc : M -> pystr)
          (word lemma pos : M -> option pystr) (tfmt kfmt cfmt : pystr) (order : list pystr -> list pystr)
          (rv cv tcv : vocab) (l r : nat) (queries : list pystr) (files : list (pystr * list L)).
  Hypothesis order_perm : forall x, Permutation x (order x).
  Hypothesis r_pos : 0 < r.
  Hypothesis cfmt_ne : cfmt <> [].
  Hypothesis colloc_ok : forall m, fmt_join (item_attrs (word m) (lemma m) (pos m)) cfmt = Ok (get_colloc m).
  Hypothesis kfmt_ok : split slash kfmt = split slash cfmt ++ [f_fid; f_lid].
  Hypothesis fids : NoDup (map fst files).
  Hypothesis fids_ok : forall f, In f files -> ~ In slash (fst f).
  Hypothesis tcv0 : v_len tcv = 0.
  Hypothesis type_form : forall f m, In f files -> In m (matches_of match_line (snd f)) -> lemma_pos (get_type m).
  Hypothesis COV : covered match_line get_type get_colloc files rv cv.
  Hypothesis NDQ : NoDup queries.
  Let contents := map snd files.
  Hypothesis NS : forall lines xs, In lines contents -> In xs (file_segs match_line separator lines) -> length xs <= 1 \/ r < length xs.
  Variables (toks freq : ttm Z).
  Hypothesis ET : retrieve_tokens word lemma pos tfmt kfmt cfmt match_line separator get_type get_colloc order tcv l r queries files = Ok toks.
  Hypothesis HC : holds_counts rv cv (Some freq) (corpus_pairs match_line separator get_type get_colloc rv cv l r contents).
  Notation occ := (occurrence match_line separator get_type queries files).
  Notation ctx := (context_word match_line separator get_type get_colloc l r queries files).
  Notation n := (n_tc match_line separator l r get_type get_colloc rv cv contents).

  Lemma colloc_vals m : exists vals, Forall2 (fun c v => dget (item_attrs (word m) (lemma m) (pos m)) c = Some (Some v)) (split slash cfmt) vals /\ get_colloc m = join slash vals.
  Proof.
    exact (fmt_join_inv _ _ _ (colloc_ok m)).
  Qed.
  Lemma token_ok m c : In c (split slash cfmt) -> exists v, dget (item_attrs (word m) (lemma m) (pos m)) c = Some (Some v).
  Proof. destruct (colloc_vals m) as (vals & F & _). clear kfmt_ok. induction F as [|a v cs' vs E F IH]; [intros []|]. intros [<-|I]; [eauto|auto]. Qed.
  Lemma token_form fid (t : @token M) s : ct_str (ctok_of word lemma pos tfmt kfmt cfmt fid t) = Ok s -> exists rest, s = get_colloc (fst (tk_node t)) ++ slash :: rest.
  Proof.
    destruct (colloc_vals (fst (tk_node t))) as (vals & F & Ev). unfold ct_str, ctok_of, kn_token. cbn [ct_node kn_attrs kn_format].
    rewrite (fmt_join_ok _ _ (vals ++ [fid; str_of_Z (Z.of_nat (snd (tk_node t)))])).
    - intros [= <-]. assert (N : vals <> []) by (intros ->; assert (X := split_nonempty slash cfmt); inversion F; congruence).
      change [fid; str_of_Z (Z.of_nat (snd (tk_node t)))] with ([fid] ++ [str_of_Z (Z.of_nat (snd (tk_node t)))]). rewrite app_assoc, join_snoc by (destruct vals; discriminate). rewrite join_snoc by exact N. rewrite Ev, <- app_assoc. eexists. reflexivity.
    - rewrite kfmt_ok. apply Forall2_app.
      + clear -F. induction F as [|c v cs vs E F IH]; constructor; auto. now rewrite dget_app, E.
      + repeat constructor; rewrite dget_app; reflexivity.
  Qed.
  Lemma seg_pairs_In xs i j (x y : M) : i < foci_spec r (length xs) -> in_window l r i j = true -> nth_error xs i = Some x -> nth_error xs j = Some y -> In (x, y) (seg_pairs l r xs).
  Proof.
    intros F W X Y. unfold seg_pairs. apply in_flat_map. exists i. split; [apply in_seq; assert (i < length xs) by (apply nth_error_Some; congruence); lia|].
    apply in_flat_map. exists j. split; [apply in_seq; assert (j < length xs) by (apply nth_error_Some; congruence); lia|]. rewrite W, X, Y. rewrite (proj2 (Nat.ltb_lt _ _) F). now left.
  Qed.
  Lemma line_match (f : pystr * list L) xs i (x : M * nat) : In xs (segments match_line separator (snd f)) -> nth_error xs i = Some x -> In (fst x) (matches_of match_line (snd f)).
  Proof.
    intros I E. rewrite <- (segments_concat match_line separator 0 (snd f)). apply in_map. apply in_concat. exists xs. split; [exact I|]. eapply nth_error_In; exact E.
  Qed.
  Lemma pair_counted f xs i x j c : occ f xs i x -> seen_at get_colloc l r xs i c j -> (0 < n (get_type (fst x)) c)%Z /\ dmem (fd rv) c = true.
  Proof.
    intros (If & Ixs & Ex & Iq) (W & y & Ey & <-). destruct (COV f (fst x) If (line_match f xs i x Ixs Ex)) as (_ & Tx & _). destruct (COV f (fst y) If (line_match f xs j y Ixs Ey)) as (Qy & Ty & Fy).
    split; [|now rewrite Qy]. unfold n_tc. apply (n_pairs_pos match_line separator get_type get_colloc l r). exists (fst x), (fst y). split.
    - unfold window_pairs. apply in_flat_map. exists (map fst xs). split.
      + apply in_flat_map. exists (snd f). split; [now apply in_map|]. unfold file_segs. now apply in_map.
      + apply (seg_pairs_In (map fst xs) i j); [|exact W|now rewrite nth_error_map, Ex|now rewrite nth_error_map, Ey].
        assert (B := NS (snd f) (map fst xs) (in_map snd _ _ If) (in_map _ _ _ Ixs)). assert (i < length xs) by (apply nth_error_Some; congruence). assert (j < length xs) by (apply nth_error_Some; congruence).
        unfold in_window in W. rewrite !andb_true_iff, negb_true_iff, Nat.eqb_neq in W. rewrite map_length in *. unfold foci_spec. destruct (Nat.leb_spec 2 (length xs)), (Nat.leb_spec (length xs) r); cbn [andb]; lia.
    - unfold is_target, target, is_feature. rewrite Tx, Fy, !eqb_refl. auto.
  Qed.
  Lemma toks_cols c : In c (tcols toks) <-> ctx c.
  Proof.
    destruct (retrieve_inv match_line separator get_type get_colloc word lemma pos tfmt kfmt cfmt order tcv l r queries files toks ET) as (ds & En & Hds).
    destruct (token_matrix order order_perm _ _ _ En) as (_ & _ & HCc & _).
    assert (KA : forall ys : list (M * nat), filter (fun x => if v_len tcv =? 0 then true else v_contains tcv (get_colloc (fst x))) ys = ys).
    { intros ys. rewrite tcv0. cbn. induction ys as [|y ys IH]; [reflexivity|]. cbn [filter]. now rewrite IH. }
    assert (WI : forall xs i c, i < length xs -> In c (map (fun x => get_colloc (fst x)) (left_ctx l xs i) ++ map (fun x => get_colloc (fst x)) (right_ctx r xs i)) <-> exists j, seen_at get_colloc l r xs i c j).
    { intros xs i c' Li. split.
      - intros I. assert (O : exists z, occurs (map (fun x => get_colloc (fst x)) (left_ctx l xs i)) (map (fun x => get_colloc (fst x)) (right_ctx r xs i)) c' z)
          by (apply in_app_or in I as [I|I]; apply In_nth_error in I as (k & Nk); eexists; [left|right]; eauto). destruct O as (z & O).
        apply (occurs_window get_colloc l r xs i c' z Li) in O as (j & S' & _). eauto.
      - intros (j & S'). assert (O := proj2 (occurs_window get_colloc l r xs i c' (Z.of_nat j - Z.of_nat i) Li) (ex_intro _ j (conj S' eq_refl))).
        destruct O as [(k & Nk & _)|(k & Nk & _)]; apply in_or_app; apply nth_error_In in Nk; auto. }
    rewrite HCc. split.
    - intros (t & ls & rs & It & Cl & Ic).
      rewrite (toks_ptoks match_line separator get_type get_colloc word lemma pos tfmt kfmt cfmt tcv l r queries files ds Hds) in It. apply in_map_iff in It as ([fid t'] & <- & Ip). cbn [fst snd] in *.
      apply (ptoks_In match_line separator get_type get_colloc word lemma pos tfmt kfmt cfmt tcv l r queries files r_pos ds Hds) in Ip as (f & xs & i & x & If & <- & Ixs & Nx & Iq & ->).
      destruct (TokMxPipeProofs.collocs_fun _ _ _ _ _ _ Cl (tok_collocs get_colloc word lemma pos tfmt kfmt cfmt cfmt_ne colloc_ok (fst f) (tok_at get_colloc tcv l r xs i x))) as [-> ->].
      unfold tok_at in Ic. cbn [tk_left tk_right] in Ic. rewrite !KA in Ic. apply WI in Ic as (j & S'); [|apply nth_error_Some; congruence]. exists f, xs, i, x, j. repeat split; assumption || apply S'.
    - intros (f & xs & i & x & j & (If & Ixs & Nx & Iq) & S').
      exists (ctok_of word lemma pos tfmt kfmt cfmt (fst f) (tok_at get_colloc tcv l r xs i x)). eexists. eexists. split.
      + rewrite (toks_ptoks match_line separator get_type get_colloc word lemma pos tfmt kfmt cfmt tcv l r queries files ds Hds). apply in_map_iff. exists (fst f, tok_at get_colloc tcv l r xs i x). split; [reflexivity|].
        apply (ptoks_In match_line separator get_type get_colloc word lemma pos tfmt kfmt cfmt tcv l r queries files r_pos ds Hds). exists f, xs, i, x. auto 10.
      + split; [apply (tok_collocs get_colloc word lemma pos tfmt kfmt cfmt cfmt_ne colloc_ok)|]. unfold tok_at. cbn [tk_left tk_right]. rewrite !KA. apply WI; [apply nth_error_Some; congruence|eauto].
  Qed.

  (** ** The matrix of the corpus *)
  Variables (c1 c2 : pystr).
  Hypothesis two : c1 <> c2 /\ ctx c1 /\ ctx c2.
  Lemma ctx_counted c : ctx c -> exists q, In q queries /\ (0 < n q c)%Z /\ dmem (fd rv) c = true.
  Proof. intros (f & xs & i & x & j & O & S'). exists (get_type (fst x)). split; [apply O|]. exact (pair_counted f xs i x j c O S'). Qed.
  Lemma freq_facts : tgood freq /\ (forall t c, val freq t c = n t c) /\ (forall t, row_total freq t = n_row match_line separator l r get_type get_colloc rv cv contents t) /\
    (forall c, col_total freq c = n_col match_line separator l r get_type get_colloc rv cv contents c) /\ tt_total freq = n_all match_line separator l r get_type get_colloc rv cv contents /\
    (forall t, In t (trows freq) <-> dmem (fd rv) t = true) /\ (forall t c, (0 < n t c)%Z -> In t (trows freq) /\ In c (tcols freq)).
  Proof.
    destruct (holds_items match_line separator get_type get_colloc rv cv l r contents freq HC) as (RS & CS).
    destruct (holds_cases match_line separator get_type get_colloc rv cv l r contents (trows freq) (tcols freq) RS CS (Some freq) HC) as (_ & G & _ & _ & V & RT & CT & TT).
    split; [exact G|]. split; [exact V|]. split; [exact RT|]. split; [exact CT|]. split; [exact TT|]. split; [apply RS|]. intros t c N.
    apply n_pairs_pos in N as (x & y & I & A & B); try exact get_type; try exact get_colloc. unfold is_target, is_feature in A, B. apply andb_true_iff in A as (A1 & A2). apply andb_true_iff in B as (B1 & B2).
    apply (proj1 (eqb_eq _ _)) in A2. apply (proj1 (eqb_eq _ _)) in B2. subst t c. split; [apply RS; exact A1|]. apply CS. unfold feature in B1. destruct (any_column cv) eqn:E.
    - apply (n_pairs_pos match_line separator get_type get_colloc l r). exists x, y. split; [exact I|]. split; [exact A1|]. unfold is_feature, feature. rewrite E, eqb_refl. reflexivity.
    - exact B1.
  Qed.
  Lemma two_len {A} (a b : A) ys : a <> b -> In a ys -> In b ys -> 2 <= length ys.
  Proof. destruct ys as [|x [|y ys]]; cbn; intros; [tauto| |lia]. intuition congruence. Qed.
  Lemma n_nonneg t c : (0 <= n t c)%Z. Proof. unfold n_tc. apply n_pairs_nonneg; exact get_type || exact get_colloc. Qed.
  Lemma corpus_scorable : scorable freq.
  Proof.
    destruct freq_facts as (G & V & RT & CT & TT & R & C). destruct two as (NE & X1 & X2). destruct (ctx_counted c1 X1) as (q1 & _ & N1 & D1). destruct (ctx_counted c2 X2) as (q2 & _ & N2 & D2). split.
    - exact G.
    - intros t c. rewrite V. apply n_nonneg.
    - rewrite TT. unfold n_all. apply (n_pairs_pos match_line separator get_type get_colloc l r). unfold n_tc in N1. apply (n_pairs_pos match_line separator get_type get_colloc l r) in N1 as (x & y & I & A & B).
      exists x, y. split; [exact I|]. unfold is_target, is_feature in A, B. apply andb_true_iff in A, B. tauto.
    - apply (two_len c1 c2); [exact NE|now apply R|now apply R].
    - apply (two_len c1 c2); [exact NE|apply (C _ _ N1)|apply (C _ _ N2)].
  Qed.
  Notation P := (Pf freq).
  Lemma corpus_ppmi : corpus_ppmi_of match_line separator get_type get_colloc l r files rv cv P.
  Proof.
    destruct freq_facts as (G & V & RT & CT & TT & R & C). intros t c. destruct (P_ppmi freq corpus_scorable t c) as (A & B & D). split; [exact A|]. split; [intros Z0; apply B; rewrite V; exact Z0|].
    intros N. destruct (C t c N) as (It & Ic). specialize (D It Ic). rewrite V, RT, CT, TT in D. exact D.
  Qed.
  Lemma corpus_has : has_vectors P freq toks queries <-> exists c f, ctx c /\ P c f <> 0%R.
  Proof.
    destruct freq_facts as (G & V & RT & CT & TT & R & C). destruct two as (NE & X1 & X2). unfold has_vectors, informative. split.
    - intros (_ & _ & _ & (c & f & I & N) & _). exists c, f. split; [now apply toks_cols|exact N].
    - intros (c & f & I & N). split; [|split; [|split; [|split]]].
      + exists c1, c2. split; [exact NE|]. split; (split; [now apply toks_cols|]); [destruct (ctx_counted c1 X1) as (q & _ & K & _)|destruct (ctx_counted c2 X2) as (q & _ & K & _)]; apply (C _ _ K).
      + intros c' I'. apply toks_cols in I'. destruct (ctx_counted c' I') as (q & Iq & K & _). exists q. split; [exact Iq|]. rewrite V. lia.
      + intros c' I'. apply toks_cols in I'. destruct (ctx_counted c' I') as (q & Iq & _ & K). now apply R.
      + exists c, f. split; [now apply toks_cols|exact N].
      + destruct I as (g & xs & i & x & j & (If & Ixs & Ex & Iq) & _).
        destruct (distance match_line separator get_type get_colloc word lemma pos tfmt kfmt cfmt (split slash cfmt) order tcv l r queries files order_perm r_pos cfmt_ne colloc_ok kfmt_ok token_ok fids fids_ok toks g xs i x tcv0 ET If Ixs Ex Iq) as (s & _ & Is & _).
        intros Z. rewrite Z in Is. destruct Is.
  Qed.
  Lemma corpus_no : ~ (exists c f, ctx c /\ P c f <> 0%R) -> fails P freq toks queries AssertionError.
  Proof.
    destruct freq_facts as (G & V & RT & CT & TT & R & C). destruct two as (NE & X1 & X2). intros N. apply (no_information _ _ _ _ c1).
    - exists c1, c2. split; [exact NE|]. split; (split; [now apply toks_cols|]); [destruct (ctx_counted c1 X1) as (q & _ & K & _)|destruct (ctx_counted c2 X2) as (q & _ & K & _)]; apply (C _ _ K).
    - intros c' I'. apply toks_cols in I'. destruct (ctx_counted c' I') as (q & Iq & K & _). exists q. split; [exact Iq|]. rewrite V. lia.
    - now apply toks_cols.
    - destruct (ctx_counted c1 X1) as (q & _ & _ & K). now apply R.
    - intros (c & f & I & Np). apply N. exists c, f. split; [now apply toks_cols|exact Np].
  Qed.
  Lemma sumr_same {A} `{EqDec A} (f : A -> R) xs ys : NoDup xs -> NoDup ys -> (forall x, f x <> 0%R -> In x xs <-> In x ys) -> sumr (map f xs) = sumr (map f ys).
  Proof.
    intros N1 N2 S'. set (k := fun x => if Req_EM_T (f x) 0 then false else true).
    assert (F : forall l, sumr (map f l) = sumr (map f (filter k l))).
    { induction l0 as [|x l0 IH]; [reflexivity|]. cbn [map filter]. unfold k at 1. destruct (Req_EM_T (f x) 0) as [E|E]; cbn [map sumr fold_right]; unfold sumr in *; cbn [fold_right]; rewrite IH; [rewrite E; apply Rplus_0_l|reflexivity]. }
    rewrite (F xs), (F ys). apply sumr_perm, Permutation_map, NoDup_Permutation; try now apply NoDup_filter. intros x. rewrite !filter_In. unfold k. destruct (Req_EM_T (f x) 0) as [E|E]; [intuition discriminate|]. rewrite (S' x E). reflexivity.
  Qed.
  Lemma seen_last (xs : list (M * nat)) i c j0 : seen_at get_colloc l r xs i c j0 -> exists j, seen_at get_colloc l r xs i c j /\ forall j', seen_at get_colloc l r xs i c j' -> j' <= j.
  Proof.
    set (sb := fun j => in_window l r i j && match nth_error xs j with Some x => eqb (get_colloc (fst x)) c | None => false end).
    assert (SB : forall j, sb j = true <-> seen_at get_colloc l r xs i c j).
    { intros j. unfold sb, seen_at. rewrite andb_true_iff. destruct (nth_error xs j) as [x|]; split; intros (A & B); (split; [exact A|]).
      - exists x. split; [reflexivity|]. now apply eqb_eq.
      - destruct B as (y & [= <-] & B). now apply eqb_eq.
      - discriminate.
      - now destruct B as (y & [=] & _). }
    assert (LT : forall j, sb j = true -> j < length xs).
    { intros j B. apply SB in B as (_ & x & E & _). apply nth_error_Some. congruence. }
    assert (MX : forall k, (exists j, j < k /\ sb j = true) -> exists j, sb j = true /\ forall j', j' < k -> sb j' = true -> j' <= j).
    { induction k as [|k IH]; intros (j & Lj & B); [lia|]. destruct (sb k) eqn:E; [exists k; split; [exact E|lia]|].
      destruct IH as (j1 & B1 & M1); [exists j; split; [|exact B]; destruct (Nat.eq_dec j k) as [->|]; [congruence|lia]|]. exists j1. split; [exact B1|]. intros j' L' B'. destruct (Nat.eq_dec j' k) as [->|]; [congruence|]. apply M1; [lia|exact B']. }
    intros S0. apply SB in S0. destruct (MX (length xs)) as (j & B & X); [exists j0; split; [now apply LT|exact S0]|]. exists j. split; [now apply SB|]. intros j' S'. apply SB in S'. apply X; [now apply LT|exact S'].
  Qed.
  Lemma classic_sum {A} (f : A -> R) ys : sumr (map f ys) <> 0%R -> exists x, f x <> 0%R.
  Proof.
    induction ys as [|y ys IH]; [intros N; now contradiction N|]. destruct (Req_EM_T (f y) 0) as [E|E]; [|eauto]. intros N. apply IH. intros Z0. apply N. cbn [map]. unfold sumr in *. cbn [fold_right]. rewrite E, Z0. apply Rplus_0_l.
  Qed.
  Lemma pair_form t c : (0 < n t c)%Z -> exists f m, In f files /\ In m (matches_of match_line (snd f)) /\ get_type m = c.
  Proof.
    intros N. unfold n_tc in N. apply (n_pairs_pos match_line separator get_type get_colloc l r) in N as (x & y & I & A & B). unfold window_pairs in I. apply in_flat_map in I as (xs & I1 & I2). apply in_flat_map in I1 as (lines & I0 & I1).
    apply in_map_iff in I0 as (f & <- & If). unfold file_segs in I1. apply in_map_iff in I1 as (ys & <- & Iy). unfold seg_pairs in I2. apply in_flat_map in I2 as (i & _ & I2). apply in_flat_map in I2 as (j & _ & I2).
    destruct (_ && _); [|contradiction]. rewrite !nth_error_map in I2. destruct (nth_error ys i) as [x'|]; [|contradiction]. destruct (nth_error ys j) as [y'|] eqn:Ey; [|contradiction]. cbn [option_map] in I2. destruct I2 as [[= <- <-]|[]].
    assert (Im := line_match f ys j y' Iy Ey). exists f, (fst y'). split; [exact If|]. split; [exact Im|]. unfold is_feature in B. apply andb_true_iff in B as (_ & B). apply (proj1 (eqb_eq _ _)) in B. rewrite <- B. symmetry. apply (COV f _ If Im).
  Qed.
  Lemma toks_good : tgood toks.
  Proof.
    destruct (retrieve_inv match_line separator get_type get_colloc word lemma pos tfmt kfmt cfmt order tcv l r queries files toks ET) as (ds & En & Hds).
    apply (token_matrix order order_perm _ _ _ En).
  Qed.
  Lemma corpus_cell m items f xs i x sees feat : forms_of match_line get_type files items -> vectors_are P freq toks queries m -> occ f xs i x ->
    (forall c, sees c = true <-> exists j, seen_at get_colloc l r xs i c j) ->
    exists s, ct_str (ctok_of word lemma pos tfmt kfmt cfmt (fst f) (tok_at get_colloc tcv l r xs i x)) = Ok s /\ In s (trows m) /\
      val m s feat = occ_vector P items sees (get_type (fst x)) feat.
  Proof.
    intros (ND & FO) VA O SE. pose proof O as (If & Ixs & Ex & Iq).
    destruct (distance match_line separator get_type get_colloc word lemma pos tfmt kfmt cfmt (split slash cfmt) order tcv l r queries files order_perm r_pos cfmt_ne colloc_ok kfmt_ok token_ok fids fids_ok toks f xs i x tcv0 ET If Ixs Ex Iq) as (s & Es & Is & D).
    exists s. split; [exact Es|]. split; [rewrite (vc_rows _ _ _ _ _ VA); exact Is|].
    destruct (token_form _ _ _ Es) as (rest & E). unfold tok_at in E. cbn [tk_node] in E. rewrite (proj1 (COV f (fst x) If (line_match f xs i x Ixs Ex))) in E. subst s.
    rewrite (vc_cells _ _ _ _ _ VA _ _ feat (type_form f (fst x) If (line_match f xs i x Ixs Ex)) Is).
    assert (IN : forall c, sees c = true -> In c items).
    { intros c S'. apply SE in S' as (j & W & y & Ey & <-). apply FO. exists f, (fst y). split; [exact If|]. assert (I := line_match f xs j y Ixs Ey). split; [exact I|]. symmetry. apply (COV f (fst y) If I). }
    assert (SV : forall c, (val toks (get_type (fst x) ++ slash :: rest) c =? 0)%Z = negb (sees c)).
    { intros c. destruct (D c) as (D1 & D2). destruct (sees c) eqn:S'; cbn [negb].
      - apply SE in S' as (j0 & S0). destruct (seen_last xs i c j0 S0) as (j & S1 & S2). rewrite (D1 j S1 S2). apply Z.eqb_neq. destruct S1 as (W & _). unfold in_window in W. rewrite !andb_true_iff, negb_true_iff, Nat.eqb_neq in W. lia.
      - apply Z.eqb_eq, D2. intros j S1. assert (sees c = true) by (apply SE; eauto). congruence. }
    assert (SU : forall g, tok_sum P toks queries (get_type (fst x)) (get_type (fst x) ++ slash :: rest) g = occ_sum P items sees (get_type (fst x)) g).
    { intros g. unfold tok_sum, occ_sum. rewrite (map_ext (fun c => tok_weight P toks queries (get_type (fst x)) (get_type (fst x) ++ slash :: rest) c * P c g)%R (fun c => if sees c then P (get_type (fst x)) c * P c g else 0)%R).
      2: { intros c. unfold tok_weight. rewrite SV. destruct (sees c); cbn [negb]; [|apply Rmult_0_l]. rewrite (proj2 (mem_In (get_type (fst x)) queries) Iq). reflexivity. }
      apply sumr_same; [apply toks_good|exact ND|]. intros c N. destruct (sees c) eqn:S'; [|now contradiction N]. split; intros _; [now apply IN|]. apply toks_cols. apply SE in S' as (j & S1). exists f, xs, i, x, j. auto. }
    unfold tok_vector, occ_vector. rewrite SU. 
    assert (SS : sumr (map (tok_sum P toks queries (get_type (fst x)) (get_type (fst x) ++ slash :: rest)) (tcols freq)) = sumr (map (occ_sum P items sees (get_type (fst x))) items)).
    { rewrite (map_ext _ _ SU). apply sumr_same; [apply freq_facts|exact ND|]. intros g N.
      assert (X : exists c, P c g <> 0%R).
      { destruct (classic_sum (fun c => if sees c then (P (get_type (fst x)) c * P c g)%R else 0%R) items N) as (c & Nc). exists c. intros E0. apply Nc. destruct (sees c); [rewrite E0; apply Rmult_0_r|reflexivity]. }
      destruct X as (c & Nc). assert (Np : (0 < n c g)%Z) by (pose proof (n_nonneg c g); destruct (Z.eq_dec (n c g) 0) as [Z0|]; [contradiction Nc; apply corpus_ppmi; exact Z0|lia]).
      split; intros _; [|apply freq_facts in Np; apply Np]. apply FO. exact (pair_form _ _ Np). }
    rewrite SS. reflexivity.
  Qed.
  Theorem corpus_vectors : corpus_ppmi_of match_line separator get_type get_colloc l r files rv cv P /\
    corpus_vectors_are match_line separator get_type get_colloc l r queries files (fun f xs i x => ct_str (ctok_of word lemma pos tfmt kfmt cfmt (fst f) (tok_at get_colloc tcv l r xs i x))) P (tutorial_vectors freq toks queries).
  Proof.
    split; [exact corpus_ppmi|]. destruct (tutorial_vectors_ok freq toks queries corpus_scorable toks_good NDQ) as (H1 & H2 & H3). split.
    - intros I. apply corpus_has in I. apply H1 in I as (m & E). exists m. split; [exact E|]. specialize (H2 m E). split; [apply H2|]. split; [|split].
      + rewrite (vc_rows _ _ _ _ _ H2). apply (one_row_each match_line separator get_type get_colloc word lemma pos tfmt kfmt cfmt (split slash cfmt) order tcv l r queries files order_perm r_pos kfmt_ok token_ok fids fids_ok toks ET).
      + intros f. rewrite (vc_cols _ _ _ _ _ H2). split; intros (c & I & N); exists c; (split; [now apply toks_cols|exact N]).
      + intros items f xs i x sees feat FO O SE. exact (corpus_cell m items f xs i x sees feat FO H2 O SE).
    - intros N. apply H3. now apply corpus_no.
  Qed.
End Corpus.

(** ** Weighted means and sums *)
Local Open Scope R_scope.
Lemma max_scale k (g : pystr -> R) l : 0 <= k -> fold_right Rmax 0 (map (fun y => k * g y) l) = k * fold_right Rmax 0 (map g l).
Proof. intros K. induction l as [|x l IH]; [cbn; ring|]. cbn [map fold_right]. rewrite IH. now apply RmaxRmult. Qed.
Lemma norm_zero norm row : vec_norm norm row = 0 -> forall x, In x row -> x = 0.
Proof.
  unfold vec_norm. destruct (eqb norm (u "l1")); [|destruct (eqb norm (u "l2"))].
  - intros E x I. assert (X := sumr_nonneg_zero (map Rabs row)). specialize (X ltac:(intros y J; apply in_map_iff in J as (z & <- & _); apply Rabs_pos) E (Rabs x) (in_map Rabs _ _ I)). destruct (Req_EM_T x 0) as [|N]; [assumption|]. elim (Rabs_no_R0 x N X).
  - intros E. apply norm2_zero in E. now rewrite Forall_forall in E.
  - assert (M : forall l, 0 <= fold_right Rmax 0 (map Rabs l)) by (induction l as [|x l IH]; cbn; [lra|]; eapply Rle_trans; [exact IH|apply Rmax_r]).
    induction row as [|y row IH]; [intros _ x []|]. cbn [map fold_right]. intros E. pose proof (Rmax_l (Rabs y) (fold_right Rmax 0 (map Rabs row))). pose proof (Rmax_r (Rabs y) (fold_right Rmax 0 (map Rabs row))). pose proof (Rabs_pos y). pose proof (M row).
    intros x [<-|I]; [|apply IH; [lra|exact I]]. destruct (Req_EM_T y 0) as [|N]; [assumption|]. assert (X : Rabs y = 0) by lra. elim (Rabs_no_R0 y N X).
Qed.
Lemma vec_norm_scale norm k (g : pystr -> R) l : vec_norm norm (map (fun y => k * g y) l) = Rabs k * vec_norm norm (map g l).
Proof.
  pose proof (Rabs_pos k) as K. unfold vec_norm. destruct (eqb norm (u "l1")); [|destruct (eqb norm (u "l2"))].
  - rewrite !map_map, <- sumr_scale. f_equal. apply map_ext. intros y. apply Rabs_mult.
  - unfold norm2. replace (dot (map (fun y => k * g y) l) (map (fun y => k * g y) l)) with (Rsqr k * dot (map g l) (map g l)).
    + rewrite sqrt_mult by (apply Rle_0_sqr || apply dot_self_nonneg). now rewrite sqrt_Rsqr_abs.
    + induction l as [|x l IH]; [cbn; ring|]. cbn [map]. rewrite !dot_cons, <- IH. unfold Rsqr. ring.
  - rewrite !map_map, <- max_scale by exact K. f_equal. apply map_ext. intros y. apply Rabs_mult.
Qed.
Definition sgn (w : R) : R := if Rlt_dec 0 w then 1 else -1.
Lemma norm_scale norm k (g : pystr -> R) l x : norm <> u "no" -> k <> 0 -> In x l -> norm_by norm (map (fun y => k * g y) l) (k * g x) = sgn k * norm_by norm (map g l) (g x).
Proof.
  intros N K I. unfold norm_by. destruct (eqb norm (u "no")) eqn:E; [apply eqb_true in E; contradiction|]. cbv zeta. rewrite vec_norm_scale. pose proof (Rabs_pos_lt k K) as KP. set (v := vec_norm norm (map g l)).
  assert (SA : k = sgn k * Rabs k). { unfold sgn. destruct (Rlt_dec 0 k); [rewrite Rabs_right by lra; ring|rewrite Rabs_left by lra; ring]. }
  destruct (Req_EM_T v 0) as [Z0|NZ].
  - rewrite Z0, Rmult_0_r. destruct (Req_EM_T 0 0) as [_|X]; [|now elim X].
    assert (G0 : g x = 0) by (apply (norm_zero norm (map g l)); [exact Z0|now apply in_map]). rewrite G0. ring.
  - destruct (Req_EM_T (Rabs k * v) 0) as [X|_]; [exfalso; apply Rmult_integral in X as [X|X]; [lra|contradiction]|]. rewrite SA at 1. field. split; [exact NZ|lra].
Qed.
Section Mean.
  Variables (w soc : ttm R) (norm : pystr) (ma mm : ttm R).
  Hypothesis GW : tgood w. Hypothesis GS : tgood soc.
  Hypothesis EA : compute_token_vectors w soc (u "addition") norm = Ok ma.
  Hypothesis EM : compute_token_vectors w soc (u "weightedmean") norm = Ok mm.
  Notation W t := (sumr (map (val w t) (tcols w))).
  Lemma mean_facts : trows ma = trows w /\ tcols ma = tcols soc /\ trows mm = trows w /\ tcols mm = tcols soc /\ In norm [u "no"; u "l1"; u "l2"; u "max"] /\ tgood ma /\ tgood mm /\
    (forall t f, In t (trows w) -> In f (tcols soc) -> val ma t f = norm_by norm (map (weighted_sum w soc t) (tcols soc)) (weighted_sum w soc t f)) /\
    (forall t f, In t (trows w) -> In f (tcols soc) -> val mm t f = norm_by norm (map (fun f => nan_div (weighted_sum w soc t f) (W t)) (tcols soc)) (nan_div (weighted_sum w soc t f) (W t))).
  Proof.
    assert (SS : forall x, In x (tcols w) <-> In x (trows soc)). { destruct (same_set (tcols w) (trows soc)) eqn:Q; [now apply same_set_ok|]. unfold compute_token_vectors in EA. rewrite Q in EA. discriminate. }
    assert (IN : In norm [u "no"; u "l1"; u "l2"; u "max"]). { destruct (in_dec eqdec norm [u "no"; u "l1"; u "l2"; u "max"]) as [I|N]; [exact I|]. destruct (vectors_unknown_norm w soc (u "weightedmean") norm GW GS N) as [X|X]; rewrite X in EM; discriminate. }
    assert (F : sfmt (tmx w) = Csr /\ sfmt (tmx soc) = Csr). { destruct (sfmt (tmx w)) eqn:F1; [destruct (sfmt (tmx soc)) eqn:F2; [auto|]|]; rewrite addition_csc in EA; auto; discriminate. }
    assert (NE := vectors_inv _ _ _ _ _ GW GS EA). destruct (addition_ok w soc norm GW GS SS IN NE (proj1 F) (proj2 F)) as (a & A1 & A2 & A3 & A4 & A5). destruct (weighted_mean_ok w soc norm GW GS SS IN NE) as (b & B1 & B2 & B3 & B4 & B5).
    rewrite A1 in EA. rewrite B1 in EM. injection EA as <-. injection EM as <-. cbv zeta in B5. tauto.
  Qed.
  Lemma nan_inv a k : k <> 0 -> nan_div a k = / k * a.
  Proof. intros K. unfold nan_div. destruct (Req_EM_T k 0); [contradiction|]. unfold Rdiv. apply Rmult_comm. Qed.
  Lemma outside m t f : tgood m -> ~ (In t (trows m) /\ In f (tcols m)) -> val m t f = 0.
  Proof.
    intros G N. destruct (in_dec eqdec t (trows m)) as [I|I]; [destruct (in_dec eqdec f (tcols m)) as [J|J]; [tauto|]|]; [refine (val_no_col m _ _ _)|refine (val_no_row m _ _ _)]; assumption.
  Qed.
  Lemma mean_sign t f : norm <> u "no" -> W t <> 0 -> val mm t f = sgn (W t) * val ma t f.
  Proof.
    intros N K. destruct mean_facts as (R1 & C1 & R2 & C2 & _ & Ga & Gm & VA & VM). destruct (in_dec eqdec t (trows w)) as [It|It]; [destruct (in_dec eqdec f (tcols soc)) as [If|If]|].
    - rewrite VM, VA by assumption. rewrite (map_ext _ (fun f => / W t * weighted_sum w soc t f)) by (intros; now apply nan_inv). rewrite nan_inv by exact K. rewrite norm_scale; [|exact N|now apply Rinv_neq_0_compat|exact If].
      f_equal. unfold sgn. destruct (Rlt_dec 0 (/ W t)) as [X|X], (Rlt_dec 0 (W t)) as [Y|Y]; try reflexivity; exfalso; [apply Y; apply Rinv_0_lt_compat in X; now rewrite Rinv_involutive in X|apply X; now apply Rinv_0_lt_compat].
    - rewrite !outside; [ring| | | |]; try assumption; rewrite ?C1, ?C2; tauto.
    - rewrite !outside; [ring| | | |]; try assumption; rewrite ?R1, ?R2; tauto.
  Qed.
  Lemma mean_plain t f : norm = u "no" -> W t <> 0 -> val mm t f = val ma t f / W t.
  Proof.
    intros N K. destruct mean_facts as (R1 & C1 & R2 & C2 & _ & Ga & Gm & VA & VM). destruct (in_dec eqdec t (trows w)) as [It|It]; [destruct (in_dec eqdec f (tcols soc)) as [If|If]|].
    - rewrite VM, VA by assumption. rewrite N. unfold norm_by. rewrite eqb_refl. rewrite nan_inv by exact K. unfold Rdiv. apply Rmult_comm.
    - rewrite !outside; [unfold Rdiv; ring| | | |]; try assumption; rewrite ?C1, ?C2; tauto.
    - rewrite !outside; [unfold Rdiv; ring| | | |]; try assumption; rewrite ?R1, ?R2; tauto.
  Qed.
  Lemma mean_nonneg t f : norm <> u "no" -> (forall c, 0 <= val w t c) -> val mm t f = val ma t f.
  Proof.
    intros N NN. destruct (Req_EM_T (W t) 0) as [Z0|K].
    - destruct mean_facts as (R1 & C1 & R2 & C2 & _ & Ga & Gm & VA & VM). destruct (in_dec eqdec t (trows w)) as [It|It]; [destruct (in_dec eqdec f (tcols soc)) as [If|If]|].
      + assert (S0 : forall g, weighted_sum w soc t g = 0).
        { intros g. unfold weighted_sum. apply sumr_zero. intros x I. apply in_map_iff in I as (c & <- & I). rewrite (sumr_nonneg_zero (map (val w t) (tcols w))) with (x := val w t c); [ring| |exact Z0|now apply in_map]. intros y J. apply in_map_iff in J as (c' & <- & _). apply NN. }
        rewrite VM, VA by assumption. assert (D0 : forall g, nan_div (weighted_sum w soc t g) (W t) = weighted_sum w soc t g). { intros g. rewrite S0. unfold nan_div. rewrite Z0. destruct (Req_EM_T 0 0); [reflexivity|contradiction]. }
        rewrite D0. f_equal. apply map_ext. exact D0.
      + rewrite !outside; [reflexivity| | | |]; try assumption; rewrite ?C1, ?C2; tauto.
      + rewrite !outside; [reflexivity| | | |]; try assumption; rewrite ?R1, ?R2; tauto.
    - rewrite mean_sign by assumption. unfold sgn. destruct (Rlt_dec 0 (W t)) as [_|X]; [ring|]. elim X. assert (0 <= W t); [|lra]. apply sumr_nonneg. intros y J. apply in_map_iff in J as (c' & <- & _). apply NN.
  Qed.
End Mean.

(** ** No component is negative *)
Lemma tok_vector_nonneg freq (SB : scorable freq) toks queries s t f : 0 <= tok_vector (Pf freq) freq toks queries s t f.
Proof.
  pose proof (P_nonneg freq SB) as PN. assert (N : forall g, 0 <= tok_sum (Pf freq) toks queries s t g).
  { intros g. unfold tok_sum. apply sumr_nonneg. intros x I. apply in_map_iff in I as (c & <- & _). apply Rmult_le_pos; [|apply PN]. unfold tok_weight. destruct (_ =? _)%Z; [lra|]. destruct (mem _ _); [apply PN|lra]. }
  unfold tok_vector. cbv zeta. set (n := sumr (map (tok_sum (Pf freq) toks queries s t) (tcols freq))). destruct (Req_EM_T n 0) as [_|NZ]; [lra|]. assert (0 <= n) by (apply sumr_nonneg; intros x I; apply in_map_iff in I as (c & <- & _); apply N).
  apply Rmult_le_pos; [apply N|]. apply Rlt_le, Rinv_0_lt_compat. lra.
Qed.
Lemma dot_nonneg a : forall b, (forall x, In x a -> 0 <= x) -> (forall x, In x b -> 0 <= x) -> 0 <= dot a b.
Proof.
  induction a as [|x a IH]; intros b A B; [unfold dot; cbn; lra|]. destruct b as [|y b]; [unfold dot; cbn; lra|]. rewrite dot_cons. assert (0 <= x) by (apply A; now left). assert (0 <= y) by (apply B; now left).
  assert (0 <= dot a b) by (apply IH; intros z I; [apply A|apply B]; now right). nra.
Qed.
Lemma cos_nonneg a b : (forall x, In x a -> 0 <= x) -> (forall x, In x b -> 0 <= x) -> 0 <= cos_of a b.
Proof.
  intros A B. unfold cos_of. destruct (Req_EM_T (norm2 a) 0) as [|Na]; [lra|]. destruct (Req_EM_T (norm2 b) 0) as [|Nb]; [lra|]. apply Rmult_le_pos; [now apply dot_nonneg|]. apply Rlt_le, Rinv_0_lt_compat.
  assert (0 <= norm2 a) by apply sqrt_pos. assert (0 <= norm2 b) by apply sqrt_pos. nra.
Qed.
