(** * Claims about the token vectors of the tutorial: C186 to C188. *)
From Coq Require Import String NArith ZArith Bool Arith Lia Permutation Reals Lra List.
From Verif Require Import Base BaseLemmas Str VocabModel TermsModel CorpusModel CorpusSpec CorpusExamples MxModel MxSpec MxTtmProofs MxProps CalcModel CalcSpec CalcProofs CalcProofs2 CalcVecModel CalcVecSpec CalcVecProofs CalcVecProofs2
  CalcVecProps ParModel ParColModel ParColSpec PipeModel PipeSpec PipeProofs TokMxModel TokMxSpec TokMxPipeProofs TokMxProps EndModel EndSpec EndProofs EndProofs2 EndProps TutModel TutSpec TutProofs TutProofs2.
Import ListNotations.
Local Open Scope string_scope.
Local Open Scope nat_scope.
Local Open Scope list_scope.

(** ** C186: which vectors come out, and when *)
(** For any frequency matrix and any token matrix: when vectors come out, what is in them, and which exception is raised when they do
    not.  P does not depend on the tokens. *)
Theorem C186_vectors : forall freq, scorable freq -> exists P, ppmi_of freq P /\ forall toks queries, tgood toks -> NoDup queries ->
  (has_vectors P freq toks queries <-> exists m, tutorial_vectors freq toks queries = Ok m) /\
  (forall m, tutorial_vectors freq toks queries = Ok m -> vectors_are P freq toks queries m) /\
  (forall e, tutorial_vectors freq toks queries = Err e <-> fails P freq toks queries e).
Proof. intros freq SB. exists (Pf freq). split; [now apply P_ppmi|]. intros toks queries GT ND. now apply tutorial_vectors_ok. Qed.
Print Assumptions C186_vectors.
(** The distances of the vectors: between 0 and 1, as no component is negative. *)
Theorem C186_distances : forall other freq toks queries, scorable freq -> tgood toks -> NoDup queries ->
  (forall t, In t (trows toks) -> exists s rest, lemma_pos s /\ t = s ++ slash :: rest) ->
  (forall e, tutorial_distances other freq toks queries = Err e <-> tutorial_vectors freq toks queries = Err e) /\
  forall d, tutorial_distances other freq toks queries = Ok d -> snd d = trows toks /\
    forall t t', In t (trows toks) -> In t' (trows toks) -> (0 <= sim_of d t t' <= 1 /\ sim_of d t t' = sim_of d t' t /\ sim_of d t t = 0)%R.
Proof.
  intros other freq toks queries SB GT ND NM. destruct (tutorial_vectors_ok freq toks queries SB GT ND) as (H1 & H2 & _). unfold tutorial_distances.
  destruct (tutorial_vectors freq toks queries) as [m|e0]; [|cbn [rbind]; split; [intros e; split; intros [= ->]; reflexivity|discriminate]]. specialize (H2 m eq_refl). cbn [rbind].
  assert (HN : trows m <> [] /\ tcols m <> []).
  { destruct (proj2 H1 (ex_intro _ m eq_refl)) as (_ & _ & _ & (c & f & Ic & N) & RN). split; [now rewrite (vc_rows _ _ _ _ _ H2)|]. intros Z. assert (I : In f (tcols m)) by (apply (vc_cols _ _ _ _ _ H2); eauto). rewrite Z in I. destruct I. }
  destruct HN as (HR & HC). destruct (compute_distance_ok other m 0 (vc_good _ _ _ _ _ H2) HR HC (or_introl eq_refl)) as (a & d' & EC & ED & _ & V). rewrite ED. split; [intros e; split; discriminate|]. intros d [= <-]. change (axis_items m 0) with (trows m) in *. cbn [snd]. rewrite (vc_rows _ _ _ _ _ H2) in *. split; [reflexivity|].
  assert (NN : forall t f, In t (trows toks) -> (0 <= val m t f)%R).
  { intros t f It. destruct (NM t It) as (s & rest & LP & ->). rewrite (vc_cells _ _ _ _ _ H2 s rest f LP It). apply (tok_vector_nonneg freq SB). }
  intros t t' It It'. destruct (compute_cosine_ok m 0 (vc_good _ _ _ _ _ H2) ltac:(now rewrite (vc_rows _ _ _ _ _ H2)) HC (or_introl eq_refl)) as (a' & EC' & _ & VC). rewrite EC in EC'. change (axis_items m 0) with (trows m) in *. rewrite (vc_rows _ _ _ _ _ H2) in *. injection EC' as <-.
  rewrite !V, !VC by assumption. rewrite !eqb_refl. assert (CB : (0 <= cos_of (axis_vec m 0 t) (axis_vec m 0 t') <= 1)%R).
  { split; [|apply cos_bounds]. apply cos_nonneg; intros x I; unfold axis_vec, row_vec in I; cbn in I; apply in_map_iff in I as (f & <- & _); now apply NN. }
  split; [|split]; [destruct (eqb t t'); lra| |lra]. destruct (eqb t t') eqn:Q; [apply eqb_true in Q; subst; rewrite eqb_refl; reflexivity|]. apply eqb_neq in Q. rewrite (proj2 (eqb_neq t' t)) by congruence. now rewrite cos_sym.
Qed.
Print Assumptions C186_distances.
(** "cat dog elk" with a span of 1: the two context words of dog have dog as their only context word. *)
Definition ex_tfreq : ttm Z := Ttm (Sp Csr [[(1, 1%Z)]; [(0, 1%Z); (2, 1%Z)]; [(1, 1%Z)]] 3) (map u ["cat/n"; "dog/n"; "elk/n"]) (map u ["cat/n"; "dog/n"; "elk/n"]).
Definition ex_ttoks : ttm Z := Ttm (Sp Csr [[(0, (-1)%Z); (1, 1%Z)]] 2) [u "dog/n/f/2"] (map u ["cat/n"; "elk/n"]).
Lemma ex_tfreq_ok : scorable ex_tfreq.
Proof.
  assert (G : tgood ex_tfreq) by good. split; [exact G| |reflexivity|cbn; lia|cbn; lia]. intros r c. unfold val. destruct (index_of r _) as [i|]; [|cbn; lia]. destruct (index_of c _) as [j|]; [|cbn; lia].
  destruct i as [|[|[|i]]]; destruct j as [|[|[|j]]]; try (cbn; lia); destruct i; cbn; lia.
Qed.
Lemma ex_ttoks_ok : tgood ex_ttoks. Proof. good. Qed.
Lemma ex_positive P : ppmi_of ex_tfreq P -> forall r c, In (r, c) [(u "cat/n", u "dog/n"); (u "dog/n", u "cat/n"); (u "dog/n", u "elk/n"); (u "elk/n", u "dog/n")] -> (0 < P r c)%R.
Proof.
  intros PP. assert (L2 : (/ 2 < ln 2)%R) by exact ln_lt_2.
  assert (ID : forall n m k, (n * m = 2)%R -> (k = 4)%R -> ideal_ppmi 1 n m k = ln 2).
  { intros n m k E ->. unfold ideal_ppmi, ideal_pmi. destruct (Rlt_dec 0 1) as [_|X]; [|lra]. rewrite E. replace (1 * 4 / 2)%R with 2%R by field. apply Rmax_right. lra. }
  intros r c I. destruct I as [[= <- <-]|[[= <- <-]|[[= <- <-]|[[= <- <-]|[]]]]];
  match goal with |- (0 < P ?r ?c)%R => destruct (PP r c) as (_ & _ & K) end; specialize (K ltac:(cbn; tauto) ltac:(cbn; tauto));
  [change (Rabs (P (u "cat/n") (u "dog/n") - ideal_ppmi 1 1 2 4) <= 22 / 100000000000)%R in K|change (Rabs (P (u "dog/n") (u "cat/n") - ideal_ppmi 1 2 1 4) <= 22 / 100000000000)%R in K|change (Rabs (P (u "dog/n") (u "elk/n") - ideal_ppmi 1 2 1 4) <= 22 / 100000000000)%R in K|change (Rabs (P (u "elk/n") (u "dog/n") - ideal_ppmi 1 1 2 4) <= 22 / 100000000000)%R in K];
  rewrite ID in K by lra; apply Rabs_le_inv in K; lra.
Qed.
Example C186_ex : scorable ex_tfreq /\ tgood ex_ttoks /\ exists m, tutorial_vectors ex_tfreq ex_ttoks [u "dog/n"] = Ok m /\ trows m = [u "dog/n/f/2"] /\ tcols m = [u "dog/n"] /\ val m (u "dog/n/f/2") (u "dog/n") = 1%R.
Proof.
  split; [apply ex_tfreq_ok|]. split; [apply ex_ttoks_ok|]. destruct (C186_vectors ex_tfreq ex_tfreq_ok) as (P & PP & H). assert (PO := ex_positive P PP).
  assert (ND : NoDup [u "dog/n"]) by (repeat constructor; intros []). destruct (H ex_ttoks [u "dog/n"] ex_ttoks_ok ND) as (H1 & H2 & _).
  assert (HV : has_vectors P ex_tfreq ex_ttoks [u "dog/n"]).
  { split; [|split; [|split; [|split]]].
    - exists (u "cat/n"), (u "elk/n"). split; [discriminate|]. split; split; cbn; tauto.
    - intros c [<-|[<-|[]]]; (exists (u "dog/n"); split; [now left|vm_compute; discriminate]).
    - intros c [<-|[<-|[]]]; cbn; tauto.
    - exists (u "cat/n"), (u "dog/n"). split; [cbn; tauto|]. apply Rgt_not_eq, PO. cbn; tauto.
    - discriminate. }
  apply H1 in HV as (m & E). exists m. split; [exact E|]. specialize (H2 m E).
  assert (PZ : forall r c, val ex_tfreq r c = 0%Z -> P r c = 0%R) by (intros r c Z0; apply (PP r c), Z0).
  assert (TC : forall f, In f (tcols m) <-> f = u "dog/n").
  { intros f. rewrite (vc_cols _ _ _ _ _ H2). split.
    - intros (c & Ic & N). destruct (in_dec eqdec f (map u ["cat/n"; "dog/n"; "elk/n"])) as [I|I].
      + destruct I as [<-|[<-|[<-|[]]]]; try reflexivity; elim N; apply PZ; destruct Ic as [<-|[<-|[]]]; reflexivity.
      + elim N. apply PZ. refine (MxOpsProofs.val_no_col ex_tfreq _ _ I).
    - intros ->. exists (u "cat/n"). split; [now left|]. apply Rgt_not_eq, PO. cbn; tauto. }
  split; [apply H2|]. split.
  - assert (ND' := tg_nc _ (vc_good _ _ _ _ _ H2)). destruct (tcols m) as [|a [|b l0]].
    + elim (proj2 (TC (u "dog/n")) eq_refl).
    + now rewrite (proj1 (TC a) (or_introl eq_refl)).
    + assert (a = b) by (rewrite (proj1 (TC a)), (proj1 (TC b)); cbn; auto). subst. inversion ND'; subst. cbn in *. tauto.
  - change (u "dog/n/f/2") with (u "dog/n" ++ slash :: u "f/2"). rewrite (vc_cells _ _ _ _ _ H2 (u "dog/n") (u "f/2") (u "dog/n")); [|exists (u "dog"), (u "n"); repeat split; cbn; intuition discriminate|now left].
    unfold tok_vector. assert (S0 : forall g, tok_sum P ex_ttoks [u "dog/n"] (u "dog/n") (u "dog/n" ++ slash :: u "f/2") g = (P (u "dog/n") (u "cat/n") * P (u "cat/n") g + (P (u "dog/n") (u "elk/n") * P (u "elk/n") g + 0))%R).
    { intros g. reflexivity. }
    change (tcols ex_tfreq) with (map u ["cat/n"; "dog/n"; "elk/n"]). cbn [map sumr fold_right]. unfold sumr. cbn [fold_right]. rewrite !S0.
    rewrite (PZ (u "cat/n") (u "cat/n")), (PZ (u "elk/n") (u "cat/n")), (PZ (u "cat/n") (u "elk/n")), (PZ (u "elk/n") (u "elk/n")) by reflexivity.
    pose proof (PO (u "dog/n") (u "cat/n") ltac:(cbn; tauto)). pose proof (PO (u "dog/n") (u "elk/n") ltac:(cbn; tauto)). pose proof (PO (u "cat/n") (u "dog/n") ltac:(cbn; tauto)). pose proof (PO (u "elk/n") (u "dog/n") ltac:(cbn; tauto)).
    set (v := (P (u "dog/n") (u "cat/n") * P (u "cat/n") (u "dog/n") + (P (u "dog/n") (u "elk/n") * P (u "elk/n") (u "dog/n") + 0))%R).
    assert (0 < v)%R by (unfold v; nra). destruct (Req_EM_T _ 0) as [X|X]; [lra|]. field_simplify_eq; [ring|lra].
Qed.
(** No tokens *)
Example C186_ex_no_tokens : tutorial_vectors ex_tfreq (Ttm (Sp Csr [] 2) [] (map u ["cat/n"; "elk/n"])) [u "dog/n"] = Err ValueError.
Proof.
  set (toks := Ttm (Sp Csr [] 2) [] (map u ["cat/n"; "elk/n"]) : ttm Z). assert (G : tgood toks) by good. destruct (C186_vectors ex_tfreq ex_tfreq_ok) as (P & PP & H). assert (PO := ex_positive P PP).
  destruct (H toks [u "dog/n"] G ltac:(repeat constructor; intros [])) as (_ & _ & HF). apply HF. apply no_token.
  - exists (u "cat/n"), (u "elk/n"). split; [discriminate|]. split; split; cbn; tauto.
  - intros c [<-|[<-|[]]]; (exists (u "dog/n"); split; [now left|vm_compute; discriminate]).
  - intros c [<-|[<-|[]]]; cbn; tauto.
  - exists (u "cat/n"), (u "dog/n"). split; [cbn; tauto|]. apply Rgt_not_eq, PO. cbn; tauto.
  - reflexivity.
Qed.
(** Tokens with a single context word: IndexError, whatever the frequencies. *)
Theorem C186_total_refuted : exists toks, tgood toks /\ tcols toks <> [] /\ (forall c, In c (tcols toks) -> val ex_tfreq (u "dog/n") c <> 0%Z) /\ tutorial_vectors ex_tfreq toks [u "dog/n"] = Err IndexError.
Proof.
  set (toks := Ttm (Sp Csr [[(0, (-1)%Z)]] 1) [u "dog/n/f/2"] [u "cat/n"]). assert (G : tgood toks) by good. exists toks. split; [exact G|]. split; [discriminate|]. split; [intros c [<-|[]]; vm_compute; discriminate|].
  destruct (C186_vectors ex_tfreq ex_tfreq_ok) as (P & _ & H). destruct (H toks [u "dog/n"] G ltac:(repeat constructor; intros [])) as (_ & _ & HF). apply HF. apply (one_context _ _ _ _ (u "cat/n")).
  - exists (u "dog/n"). split; cbn; tauto.
  - split; cbn; tauto.
  - intros c' ([<-|[]] & _). reflexivity.
Qed.
Print Assumptions C186_total_refuted.

(** ** C187: the token vectors of a corpus *)
(** One vector for each occurrence of a query: the rows of the context words that it really has, each times its association with the
    query in the corpus, added up and divided by the total; an assertion fails if nothing in the corpus informs any context word.
    Types, collocates and tokens are written in the formats of the default settings.  Full statement: any corpus with two context words.
    Missing: segments not longer than the span; lines outside the vocabularies. *)
Theorem C187_corpus_partial : forall {L M} (match_line : L -> option M) (separator : L -> bool) (get_type get_colloc : M -> pystr)
    (word lemma pos : M -> option pystr) (tfmt kfmt cfmt : pystr) (order : list pystr -> list pystr) (rv cv tcv : vocab) (l r : nat)
    (queries : list pystr) (files : list (pystr * list L)),
  (forall x, Permutation x (order x)) -> 0 < r -> cfmt <> [] ->
  (forall m, fmt_join (item_attrs (word m) (lemma m) (pos m)) cfmt = Ok (get_colloc m)) ->
  split slash kfmt = split slash cfmt ++ [f_fid; f_lid] ->
  NoDup (map fst files) -> (forall f, In f files -> ~ In slash (fst f)) -> v_len tcv = 0 ->
  (forall f m, In f files -> In m (matches_of match_line (snd f)) -> lemma_pos (get_type m)) ->
  covered match_line get_type get_colloc files rv cv -> NoDup queries ->
  (forall lines xs, In lines (map snd files) -> In xs (file_segs match_line separator lines) -> length xs <= 1 \/ r < length xs) ->
  (exists c c', c <> c' /\ context_word match_line separator get_type get_colloc l r queries files c /\ context_word match_line separator get_type get_colloc l r queries files c') ->
  forall built toks, proper rv cv -> build_col_freq match_line separator get_type get_colloc rv cv l r (map snd files) built ->
  retrieve_tokens word lemma pos tfmt kfmt cfmt match_line separator get_type get_colloc order tcv l r queries files = Ok toks ->
  exists freq P, built = Ok (Some freq) /\ corpus_ppmi_of match_line separator get_type get_colloc l r files rv cv P /\
    corpus_vectors_are match_line separator get_type get_colloc l r queries files
      (fun f xs i x => ct_str (ctok_of word lemma pos tfmt kfmt cfmt (fst f) (tok_at get_colloc tcv l r xs i x))) P (tutorial_vectors freq toks queries).
Proof.
  intros L M match_line separator get_type get_colloc word lemma pos tfmt kfmt cfmt order rv cv tcv l r queries files OP RP CN CO KO FI FO T0 TF CV NQ NS (c1 & c2 & two) built toks PR B ET.
  destruct (built_holds _ _ _ _ _ _ _ _ _ _ PR B) as (o & -> & HO). destruct o as [freq|].
  - exists freq, (Pf freq). split; [reflexivity|]. exact (corpus_vectors match_line separator get_type get_colloc word lemma pos tfmt kfmt cfmt order rv cv tcv l r queries files OP RP CN CO KO FI FO T0 TF CV NQ NS toks freq ET HO c1 c2 two).
  - exfalso. destruct two as (_ & (f & xs & i & x & j & O & S1) & _).
    destruct (pair_counted match_line separator get_type get_colloc rv cv tcv l r queries files RP T0 CV NS f xs i x j c1 O S1) as (N & _).
    unfold n_tc in N. apply (n_pairs_pos match_line separator get_type get_colloc l r) in N as (y & z & I & A & D).
    assert (Z0 : n_pairs match_line separator l r (target get_type rv) (feature get_colloc cv) (map snd files) = 0%Z).
    { destruct (corpus_items match_line separator get_type get_colloc rv cv l r (map snd files)) as (rows & cols & R & C). exact (holds_cases match_line separator get_type get_colloc rv cv l r (map snd files) rows cols R C None HO). }
    assert (P0 : (0 < n_pairs match_line separator l r (target get_type rv) (feature get_colloc cv) (map snd files))%Z).
    { apply (n_pairs_pos match_line separator get_type get_colloc l r). exists y, z. split; [exact I|]. unfold is_target, is_feature in A, D. apply andb_true_iff in A, D. tauto. }
    lia.
Qed.
Print Assumptions C187_corpus_partial.
Definition ex_trv : vocab := vocab_init true (map (fun s => (u s, 1%Z)) ["cat/n"; "dog/n"; "elk/n"]).
Definition ex_tfiles : list (pystr * list pystr) := [(u "f", map u ["cat"; "dog"; "elk"])].
Lemma ex_tbuilt : build_col_freq ex_match ex_is_sep ex_ty ex_ty ex_trv no_vocab 1 1 (map snd ex_tfiles) (Ok (Some ex_tfreq)).
Proof. exists 1, (repeat Producer 2 ++ repeat (Worker 0) 4). eexists. split; [auto|]. split; [vm_compute; reflexivity|]. split; vm_compute; reflexivity. Qed.
Lemma ex_ttoks_read : ex_retrieve no_vocab 1 1 [u "dog/n"] ex_tfiles = Ok ex_ttoks.
Proof. vm_compute. reflexivity. Qed.
Lemma ex_tproper : proper ex_trv no_vocab.
Proof. split; [reflexivity|]. split; [repeat constructor; cbn; intuition discriminate|now left]. Qed.
Lemma ex_tmatch f m : In f ex_tfiles -> In m (matches_of ex_match (snd f)) -> In m (map u ["cat"; "dog"; "elk"]).
Proof. intros [<-|[]]. vm_compute. tauto. Qed.
Lemma ex_tcovered : covered ex_match ex_ty ex_ty ex_tfiles ex_trv no_vocab.
Proof. intros f m If Im. apply (ex_tmatch f m If) in Im. split; [reflexivity|]. split; [|reflexivity]. destruct Im as [<-|[<-|[<-|[]]]]; reflexivity. Qed.
Lemma ex_tlp f m : In f ex_tfiles -> In m (matches_of ex_match (snd f)) -> lemma_pos (ex_ty m).
Proof. intros If Im. apply (ex_tmatch f m If) in Im. exists m, (u "n"). split; [|split; [cbn; intuition discriminate|reflexivity]]. destruct Im as [<-|[<-|[<-|[]]]]; cbn; intuition discriminate. Qed.
Lemma ex_tsees c : In c (map u ["cat/n"; "elk/n"]) -> exists j, seen_at ex_ty 1 1 [(u "cat", 1); (u "dog", 2); (u "elk", 3)] 1 c j.
Proof. intros [<-|[<-|[]]]; [exists 0|exists 2]; (split; [reflexivity|]); eexists; split; reflexivity. Qed.
Lemma ex_tocc : occurrence ex_match ex_is_sep ex_ty [u "dog/n"] ex_tfiles (u "f", map u ["cat"; "dog"; "elk"]) [(u "cat", 1); (u "dog", 2); (u "elk", 3)] 1 (u "dog", 2).
Proof. split; [now left|]. split; [vm_compute; tauto|]. split; [reflexivity|now left]. Qed.
Lemma ex_tcontexts : exists c c', c <> c' /\ context_word ex_match ex_is_sep ex_ty ex_ty 1 1 [u "dog/n"] ex_tfiles c /\ context_word ex_match ex_is_sep ex_ty ex_ty 1 1 [u "dog/n"] ex_tfiles c'.
Proof.
  exists (u "cat/n"), (u "elk/n"). split; [discriminate|]. split; [destruct (ex_tsees (u "cat/n")) as (j & S1)|destruct (ex_tsees (u "elk/n")) as (j & S1)]; try (cbn; tauto);
  (exists (u "f", map u ["cat"; "dog"; "elk"]), [(u "cat", 1); (u "dog", 2); (u "elk", 3)], 1, (u "dog", 2), j); (split; [apply ex_tocc|exact S1]).
Qed.
Example C187_ex : exists freq P, Ok (Some ex_tfreq) = Ok (Some freq) /\ corpus_ppmi_of ex_match ex_is_sep ex_ty ex_ty 1 1 ex_tfiles ex_trv no_vocab P /\
  corpus_vectors_are ex_match ex_is_sep ex_ty ex_ty 1 1 [u "dog/n"] ex_tfiles (fun f xs i x => ct_str (ctok_of ex_some ex_some ex_noun lp kp lp (fst f) (tok_at ex_ty no_vocab 1 1 xs i x))) P (tutorial_vectors freq ex_ttoks [u "dog/n"]).
Proof.
  apply (C187_corpus_partial ex_match ex_is_sep ex_ty ex_ty ex_some ex_some ex_noun lp kp lp (fun x => x) ex_trv no_vocab no_vocab 1 1 [u "dog/n"] ex_tfiles).
  - intros x. apply Permutation_refl.
  - lia.
  - discriminate.
  - apply ex_colloc.
  - reflexivity.
  - repeat constructor; intros [].
  - intros f [<-|[]]. cbn. intuition discriminate.
  - reflexivity.
  - exact ex_tlp.
  - exact ex_tcovered.
  - repeat constructor; intros [].
  - intros lines xs [<-|[]]. vm_compute. intros [<-|[]]. right. cbn. lia.
  - exact ex_tcontexts.
  - exact ex_tproper.
  - exact ex_tbuilt.
  - exact ex_ttoks_read.
Qed.
(** A sentence shorter than the span ends in a query: TokenHandler sees its context, ColFreqHandler does not count it (C05), and the
    columns of the tokens and the rows of the second matrix no longer agree. *)
Definition ex_srv : vocab := vocab_init true (map (fun s => (u s, 1%Z)) ["ape/n"; "bat/n"; "cat/n"; "dog/n"; "elk/n"]).
Definition ex_sfiles : list (pystr * list pystr) := [(u "f", map u ["cat"; "bat"; "cat"; "dog"; "elk"; "</s>"; "ape"; "bat"])].
Theorem C187_corpus_refuted : proper ex_srv no_vocab /\ covered ex_match ex_ty ex_ty ex_sfiles ex_srv no_vocab /\
  exists freq toks, build_col_freq ex_match ex_is_sep ex_ty ex_ty ex_srv no_vocab 4 4 (map snd ex_sfiles) (Ok (Some freq)) /\
    ex_retrieve no_vocab 4 4 [u "bat/n"] ex_sfiles = Ok toks /\ length (tcols toks) = 4 /\ tutorial_vectors freq toks [u "bat/n"] = Err ValueError.
Proof.
  split; [split; [reflexivity|]; split; [repeat constructor; cbn; intuition discriminate|now left]|]. split.
  { intros f m [<-|[]] Im. split; [reflexivity|]. split; [|reflexivity]. vm_compute in Im. repeat (destruct Im as [<-|Im]; [reflexivity|]). destruct Im. }
  eexists. eexists. split; [exists 1, (repeat Producer 2 ++ repeat (Worker 0) 4); eexists; split; [auto|]; split; [vm_compute; reflexivity|]; split; vm_compute; reflexivity|].
  split; [vm_compute; reflexivity|]. split; [reflexivity|].
  match goal with |- tutorial_vectors ?f ?t _ = _ => set (freq := f); set (toks := t) end.
  assert (GF : tgood freq) by good. assert (GT : tgood toks) by good.
  assert (SB : scorable freq).
  { split; [exact GF| |reflexivity|cbn; lia|cbn; lia]. intros r c. unfold val. destruct (index_of r _) as [i|]; [|cbn; lia]. destruct (index_of c _) as [j|]; [|cbn; lia].
    do 6 (destruct i as [|i]; [do 6 (destruct j as [|j]; [vm_compute; discriminate|]); vm_compute; destruct j; discriminate|]). vm_compute. destruct i; discriminate. }
  destruct (C186_vectors freq SB) as (P & _ & H). destruct (H toks [u "bat/n"] GT ltac:(repeat constructor; intros [])) as (_ & _ & HF). apply HF.
  apply (not_all_counted _ _ _ _ (u "cat/n") (u "ape/n")).
  - exists (u "cat/n"), (u "dog/n"). split; [discriminate|]. split; split; vm_compute; tauto.
  - vm_compute; tauto.
  - exists (u "bat/n"). split; [now left|]. vm_compute. discriminate.
  - vm_compute; tauto.
  - intros (q & [<-|[]] & N). apply N. vm_compute. reflexivity.
Qed.
Print Assumptions C187_corpus_refuted.

(** ** C188: weighted means are sums *)
(** With one of the three normalisations (l1 is the default) and weights that are not negative, operation='weightedmean' gives exactly
    what operation='addition' gives. *)
Theorem C188_nonnegative : forall w soc norm ma mm, tgood w -> tgood soc -> norm <> u "no" -> (forall t c, 0 <= val w t c)%R ->
  compute_token_vectors w soc (u "addition") norm = Ok ma -> compute_token_vectors w soc (u "weightedmean") norm = Ok mm ->
  trows mm = trows ma /\ tcols mm = tcols ma /\ forall t f, val mm t f = val ma t f.
Proof.
  intros w soc norm ma mm GW GS N NN EA EM. destruct (mean_facts w soc norm ma mm GW GS EA EM) as (R1 & C1 & R2 & C2 & _). split; [congruence|]. split; [congruence|].
  intros t f. apply (mean_nonneg w soc norm ma mm GW GS EA EM t f N). intros c. apply NN.
Qed.
Print Assumptions C188_nonnegative.
(** With any weights: the sign of the sum of the weights times the sum, if that sum is not 0. *)
Theorem C188_sign_partial : forall w soc norm ma mm, tgood w -> tgood soc -> norm <> u "no" ->
  compute_token_vectors w soc (u "addition") norm = Ok ma -> compute_token_vectors w soc (u "weightedmean") norm = Ok mm ->
  forall t f, let total := sumr (map (val w t) (tcols w)) in
    ((0 < total)%R -> val mm t f = val ma t f) /\ ((total < 0)%R -> val mm t f = (- val ma t f)%R).
Proof.
  intros w soc norm ma mm GW GS N EA EM t f total. pose proof (mean_sign w soc norm ma mm GW GS EA EM t f N) as H. fold total in H. unfold sgn in H. split; intros T; (rewrite H by lra); destruct (Rlt_dec 0 total); lra.
Qed.
Print Assumptions C188_sign_partial.
(** Without normalisation the mean divides by the sum of the weights. *)
Theorem C188_plain : forall w soc ma mm, tgood w -> tgood soc ->
  compute_token_vectors w soc (u "addition") (u "no") = Ok ma -> compute_token_vectors w soc (u "weightedmean") (u "no") = Ok mm ->
  forall t f, let total := sumr (map (val w t) (tcols w)) in total <> 0%R -> val mm t f = (val ma t f / total)%R.
Proof. intros w soc ma mm GW GS EA EM t f total T. exact (mean_plain w soc (u "no") ma mm GW GS EA EM t f eq_refl T). Qed.
Print Assumptions C188_plain.
(** A token with negative weights: the mean is minus the sum. *)
Theorem C188_always_refuted : exists ma mm, compute_token_vectors ex_w ex_soc (u "addition") (u "l1") = Ok ma /\ compute_token_vectors ex_w ex_soc (u "weightedmean") (u "l1") = Ok mm /\
  val ma (u "t2") (u "f") = (-1)%R /\ val mm (u "t2") (u "f") = 1%R.
Proof.
  assert (NE : u "l1" = u "no" \/ (trows ex_w <> [] /\ tcols ex_soc <> [])) by (right; split; discriminate).
  destruct (addition_ok ex_w ex_soc (u "l1") ex_w_good ex_soc_good ex_set (or_intror (or_introl eq_refl)) NE eq_refl eq_refl) as (ma & EA & _ & _ & _ & VA).
  destruct (weighted_mean_ok ex_w ex_soc (u "l1") ex_w_good ex_soc_good ex_set (or_intror (or_introl eq_refl)) NE) as (mm & EM & _).
  exists ma, mm. split; [exact EA|]. split; [exact EM|].
  assert (A : val ma (u "t2") (u "f") = (-1)%R).
  { rewrite VA by (cbn; tauto). unfold norm_by. change (eqb (u "l1") (u "no")) with false. cbn iota. unfold vec_norm. rewrite eqb_refl. cellv.
    match goal with |- context [Req_EM_T ?n 0] => replace n with 5%R end; [destruct (Req_EM_T 5 0); lra|]. rewrite Rabs_left, Rabs_right by lra. lra. }
  split; [exact A|]. destruct (C188_sign_partial ex_w ex_soc (u "l1") ma mm ex_w_good ex_soc_good ltac:(discriminate) EA EM (u "t2") (u "f")) as (_ & H). rewrite H, A; [lra|].
  cellv. lra.
Qed.
Print Assumptions C188_always_refuted.
Definition ex_wp : ttm R := Ttm (Sp Csr [[(0, 2%R); (1, 1%R)]; [(1, 3%R)]] 2) [u "t1"; u "t2"] [u "x"; u "y"].
Lemma ex_wp_good : tgood ex_wp. Proof. good. Qed.
(** t1: 2 * (3, 4) + 1 * (5, 0) = (11, 8) *)
Example C188_ex : (forall t c, 0 <= val ex_wp t c)%R /\ exists ma mm, compute_token_vectors ex_wp ex_soc (u "addition") (u "l1") = Ok ma /\ compute_token_vectors ex_wp ex_soc (u "weightedmean") (u "l1") = Ok mm /\
  val ma (u "t1") (u "f") = (11 / 19)%R /\ val mm (u "t1") (u "f") = (11 / 19)%R.
Proof.
  assert (NN : (forall t c, 0 <= val ex_wp t c)%R).
  { intros t c. unfold val. destruct (index_of t _) as [i|]; [|cbn; lra]. destruct (index_of c _) as [j|]; [|cbn; lra]. destruct i as [|[|i]]; destruct j as [|[|j]]; try (cbn; lra); destruct i; cbn; lra. }
  split; [exact NN|]. assert (NE : u "l1" = u "no" \/ (trows ex_wp <> [] /\ tcols ex_soc <> [])) by (right; split; discriminate).
  destruct (addition_ok ex_wp ex_soc (u "l1") ex_wp_good ex_soc_good ex_set (or_intror (or_introl eq_refl)) NE eq_refl eq_refl) as (ma & EA & _ & _ & _ & VA).
  destruct (weighted_mean_ok ex_wp ex_soc (u "l1") ex_wp_good ex_soc_good ex_set (or_intror (or_introl eq_refl)) NE) as (mm & EM & _).
  exists ma, mm. split; [exact EA|]. split; [exact EM|].
  assert (A : val ma (u "t1") (u "f") = (11 / 19)%R).
  { rewrite VA by (cbn; tauto). unfold norm_by. change (eqb (u "l1") (u "no")) with false. cbn iota. unfold vec_norm. rewrite eqb_refl. cellv.
    match goal with |- context [Req_EM_T ?n 0] => replace n with 19%R end; [destruct (Req_EM_T 19 0); lra|]. rewrite !Rabs_right by lra. lra. }
  split; [exact A|]. destruct (C188_nonnegative ex_wp ex_soc (u "l1") ma mm ex_wp_good ex_soc_good ltac:(discriminate) NN EA EM) as (_ & _ & ->). exact A.
Qed.
