(** * Claims that relate runs of build_col_freq over the same corpus: C189 to C192. *)
From Coq Require Import String NArith ZArith Bool Arith Lia Permutation Reals Lra List.
From Verif Require Import Base BaseLemmas VocabModel CorpusModel CorpusSpec CorpusExamples MxModel MxSpec CalcModel CalcSpec
  ParModel ParColModel ParColSpec ParColProofs ParColProps PipeModel MxProps EndModel EndSpec EndProofs EndProofs2 EndProps RelProofs.
Import ListNotations.
Local Open Scope nat_scope.

Ltac one_file := exists 1, (repeat Producer 2 ++ repeat (Worker 0) 4); eexists; split; [auto|]; split; [vm_compute; reflexivity|]; split; [vm_compute; reflexivity|]; vm_compute; reflexivity.

(** ** C189: targets and collocates exchanged *)
(** A vocabulary of some items *)
Definition listed (v : vocab) : Prop := filt v = true /\ dwf (fd v) /\ fd v <> [].
Lemma listed_proper rv cv : listed rv -> listed cv -> proper rv cv.
Proof. intros (A & B & _) (C & D & _). split; [exact A|]. split; [exact B|]. now right. Qed.
Lemma listed_any v : listed v -> any_column v = false.
Proof. intros (_ & _ & N). unfold any_column. destruct (fd v); [contradiction|reflexivity]. Qed.
Definition transposed (a b : res (option (ttm Z))) : Prop :=
  match a, b with
  | Ok None, Ok None => True
  | Ok (Some m), Ok (Some m') => trows m' = tcols m /\ tcols m' = trows m /\ forall t c, val m' c t = val m t c
  | _, _ => False
  end.
Definition transposed_scores (a b : res (ttm R)) : Prop :=
  match a, b with
  | Ok m, Ok m' => trows m' = tcols m /\ tcols m' = trows m /\ forall t c, In t (trows m) -> In c (tcols m) -> val m' c t = val m t c
  | Err e, Err e' => e = e'
  | _, _ => False
  end.
(** Full statement: row and column vocabulary, the formats of targets and collocates, and the spans exchanged transposes the matrix. *)
Definition exchange : Prop := forall (rv cv : vocab) l r contents built built', listed rv -> listed cv ->
  build_col_freq ex_match ex_is_sep ex_id ex_id rv cv l r contents built -> build_col_freq ex_match ex_is_sep ex_id ex_id cv rv r l contents built' ->
  transposed built built'.
Lemma exchanged_pairs {L M} (match_line : L -> option M) separator (get_type get_colloc : M -> pystr) rv cv l r contents : listed rv -> listed cv ->
  no_short_segments match_line separator (Nat.max l r) contents ->
  let np := n_pairs match_line separator l r in let np' := n_pairs match_line separator r l in
  (forall P Q, np' Q P contents = np P Q contents) /\
  (forall x, feature get_type rv x = target get_type rv x) /\ (forall x, feature get_colloc cv x = target get_colloc cv x) /\
  (forall c x, is_feature get_type rv c x = is_target get_type rv c x) /\ (forall c x, is_feature get_colloc cv c x = is_target get_colloc cv c x).
Proof.
  intros LR LC NS np np'. split.
  - intros P Q. symmetry. apply n_pairs_swap. intros xs I. apply in_segs in I as (lines & I & J). destruct (NS lines xs I J); split; apply full_foci; lia.
  - pose proof (listed_any _ LR) as AR. pose proof (listed_any _ LC) as AC. unfold is_feature, is_target, feature, target. rewrite AR, AC. auto.
Qed.
(** Missing: segments of 2 to max(l, r) tokens. *)
Theorem C189_exchange_partial : forall {L M} (match_line : L -> option M) separator (get_type get_colloc : M -> pystr) rv cv l r contents built built', listed rv -> listed cv ->
  no_short_segments match_line separator (Nat.max l r) contents ->
  build_col_freq match_line separator get_type get_colloc rv cv l r contents built ->
  build_col_freq match_line separator get_colloc get_type cv rv r l contents built' ->
  transposed built built' /\ transposed_scores (corpus_ppmi built) (corpus_ppmi built').
Proof.
  intros * LR LC NS B B'. pose proof (listed_proper _ _ LR LC) as PR. pose proof (listed_proper _ _ LC LR) as PR'. pose proof (listed_any _ LR) as AR. pose proof (listed_any _ LC) as AC.
  destruct (exchanged_pairs match_line separator get_type get_colloc rv cv l r contents LR LC NS) as (SW & F1 & F2 & F3 & F4).
  assert (NT : forall t c, n_tc match_line separator r l get_colloc get_type cv rv contents c t = n_tc match_line separator l r get_type get_colloc rv cv contents t c).
  { intros t c. unfold n_tc. rewrite <- SW. apply n_pairs_ext; auto. }
  assert (NR : forall c, n_row match_line separator r l get_colloc get_type cv rv contents c = n_col match_line separator l r get_type get_colloc rv cv contents c).
  { intros c. unfold n_row, n_col. rewrite <- SW. apply n_pairs_ext; auto. }
  assert (NC : forall t, n_col match_line separator r l get_colloc get_type cv rv contents t = n_row match_line separator l r get_type get_colloc rv cv contents t).
  { intros t. unfold n_row, n_col. rewrite <- SW. apply n_pairs_ext; auto. }
  assert (NA : n_all match_line separator r l get_colloc get_type cv rv contents = n_all match_line separator l r get_type get_colloc rv cv contents).
  { unfold n_all. rewrite <- SW. apply n_pairs_ext; auto. }
  assert (SSR : forall xs, corpus_rows cv xs <-> corpus_cols match_line separator l r get_type get_colloc rv cv contents xs) by (intros xs; unfold corpus_rows, corpus_cols; now rewrite AC).
  assert (SSC : forall xs, corpus_cols match_line separator r l get_colloc get_type cv rv contents xs <-> corpus_rows rv xs) by (intros xs; unfold corpus_rows, corpus_cols; now rewrite AR).
  pose proof (C182_ppmi _ _ _ _ _ _ _ _ _ _ PR B) as SC. pose proof (C182_ppmi _ _ _ _ _ _ _ _ _ _ PR' B') as SC'. split.
  - clear SC SC'. destruct (built_holds _ _ _ _ _ _ _ _ _ _ PR B) as (o & -> & HO). destruct (built_holds _ _ _ _ _ _ _ _ _ _ PR' B') as (o' & -> & HO').
    destruct (corpus_items match_line separator get_type get_colloc rv cv l r contents) as (rows & cols & R & C).
    pose proof (holds_cases match_line separator get_type get_colloc rv cv l r contents rows cols R C o HO) as H.
    pose proof (holds_cases match_line separator get_colloc get_type cv rv r l contents cols rows (proj2 (SSR cols) C) (proj2 (SSC rows) R) o' HO') as H'.
    change (n_pairs match_line separator r l (target get_colloc cv) (feature get_type rv) contents) with (n_all match_line separator r l get_colloc get_type cv rv contents) in H'. rewrite NA in H'.
    unfold n_all in H'. destruct o as [m|], o' as [m'|]; cbn [transposed]; [|tauto..|exact I]. destruct H as (_ & _ & E1 & E2 & V & _). destruct H' as (_ & _ & E1' & E2' & V' & _).
    split; [congruence|]. split; [congruence|]. intros t c. rewrite V, V'. apply NT.
  - destruct SC as (rows & cols & R & C & S1 & S2 & S3). destruct SC' as (rows' & cols' & R' & C' & S1' & S2' & S3').
    apply SSR in R'. apply SSC in C'. pose proof (sorted_set_unique _ _ _ R' C) as ->. pose proof (sorted_set_unique _ _ _ C' R) as ->. rewrite NA in S1', S2', S3'.
    destruct (Z.eq_dec (n_all match_line separator l r get_type get_colloc rv cv contents) 0) as [Z0|Z0]; [now rewrite S1, S1'|].
    destruct (Nat.eq_dec (length rows) 1) as [E|E]; [rewrite S2, S2' by tauto; reflexivity|]. destruct (Nat.eq_dec (length cols) 1) as [E'|E']; [rewrite S2, S2' by tauto; reflexivity|].
    destruct (S3 Z0 E E') as (m & -> & _ & Rm & Cm & V). destruct (S3' Z0 E' E) as (m' & -> & _ & Rm' & Cm' & V'). cbn [transposed_scores]. split; [congruence|]. split; [congruence|].
    rewrite Rm, Cm. intros t c It Ic. rewrite (V t c It Ic), (V' c t Ic It). unfold ppmi_tc. rewrite NT, NR, NC, NA. unfold ideal_ppmi, ideal_pmi. destruct (Rlt_dec _ _); [|reflexivity]. do 3 f_equal. apply Rmult_comm.
Qed.
Print Assumptions C189_exchange_partial.
(** In particular a matrix of the same items as rows and columns, with equal spans, is symmetric. *)
Theorem C189_symmetric_partial : forall {L M} (match_line : L -> option M) separator (get_type : M -> pystr) v s contents m, listed v ->
  no_short_segments match_line separator s contents ->
  build_col_freq match_line separator get_type get_type v v s s contents (Ok (Some m)) ->
  trows m = tcols m /\ (forall t c, val m t c = val m c t) /\
  forall p, corpus_ppmi (Ok (Some m)) = Ok p -> forall t c, In t (trows p) -> In c (trows p) -> val p t c = val p c t.
Proof.
  intros * LV NS B. assert (NS' : no_short_segments match_line separator (Nat.max s s) contents) by now rewrite Nat.max_id.
  destruct (C189_exchange_partial _ _ _ _ _ _ _ _ _ _ _ LV LV NS' B B) as ((E & _ & V) & H). split; [exact E|]. split; [intros; symmetry; apply V|]. intros p Ep. rewrite Ep in H. destruct H as (E' & _ & H).
  intros t c It Ic. symmetry. apply H; congruence.
Qed.
Print Assumptions C189_symmetric_partial.
(** "a b" with spans of two: b is no target. *)
Lemma ex_listed : listed ex_rv.
Proof. split; [reflexivity|]. split; [repeat constructor; cbn; intuition discriminate|discriminate]. Qed.
Theorem C189_exchange_refuted : ~ exchange.
Proof.
  intros H. assert (B : exists m, build_col_freq ex_match ex_is_sep ex_id ex_id ex_rv ex_rv 2 2 [map u ["a"; "b"]%string] (Ok (Some m)) /\ val m (u "a") (u "b") = 1%Z /\ val m (u "b") (u "a") = 0%Z).
  { eexists. split; [one_file|]. split; vm_compute; reflexivity. }
  destruct B as (m & B & V1 & V2). destruct (H ex_rv ex_rv 2 2 _ _ _ ex_listed ex_listed B B) as (_ & _ & V). specialize (V (u "a") (u "b")). rewrite V1, V2 in V. discriminate.
Qed.
Print Assumptions C189_exchange_refuted.
(** b before a twice and after it once: one line to the left, none to the right, and the other way round. *)
Definition ex_bc : vocab := vocab_init false [(u "b", 2%Z); (u "c", 1%Z)].
Example C189_ex : listed ex_rv /\ listed ex_bc /\ no_short_segments ex_match ex_is_sep (Nat.max 1 0) [map u ["b"; "a"; "b"; "a"; "c"]%string] /\
  exists m m', build_col_freq ex_match ex_is_sep ex_id ex_id ex_rv ex_bc 1 0 [map u ["b"; "a"; "b"; "a"; "c"]%string] (Ok (Some m)) /\
    build_col_freq ex_match ex_is_sep ex_id ex_id ex_bc ex_rv 0 1 [map u ["b"; "a"; "b"; "a"; "c"]%string] (Ok (Some m')) /\
    map (fun tc => val m (fst tc) (snd tc)) (list_prod (trows m) (tcols m)) = [2; 0; 0; 0]%Z /\ map (fun tc => val m' (fst tc) (snd tc)) (list_prod (trows m') (tcols m')) = [2; 0; 0; 0]%Z /\
    val m (u "a") (u "b") = 2%Z /\ val m' (u "b") (u "a") = 2%Z.
Proof.
  split; [exact ex_listed|]. split; [split; [reflexivity|]; split; [repeat constructor; cbn; intuition discriminate|discriminate]|]. split.
  - intros lines xs [<-|[]] I. vm_compute in I. destruct I as [<-|[]]; cbn. right. lia.
  - eexists. eexists. split; [one_file|]. split; [one_file|]. repeat split; vm_compute; reflexivity.
Qed.
Example C189_symmetric_ex : no_short_segments ex_match ex_is_sep 1 [map u ["b"; "a"; "b"; "a"; "c"]%string] /\
  exists m, build_col_freq ex_match ex_is_sep ex_id ex_id ex_rv ex_rv 1 1 [map u ["b"; "a"; "b"; "a"; "c"]%string] (Ok (Some m)) /\ val m (u "a") (u "b") = 3%Z /\ val m (u "b") (u "a") = 3%Z /\
  exists p, corpus_ppmi (Ok (Some m)) = Ok p.
Proof.
  split.
  - intros lines xs [<-|[]] I. vm_compute in I. destruct I as [<-|[]]; cbn. right. lia.
  - eexists. assert (B : build_col_freq ex_match ex_is_sep ex_id ex_id ex_rv ex_rv 1 1 [map u ["b"; "a"; "b"; "a"; "c"]%string] (Ok (Some (Ttm (Sp Csr [[(1, 3%Z)]; [(0, 3%Z)]] 2) (map u ["a"; "b"]%string) (map u ["a"; "b"]%string))))) by one_file.
    split; [exact B|]. split; [vm_compute; reflexivity|]. split; [vm_compute; reflexivity|].
    destruct (C182_ppmi _ _ _ _ _ _ _ _ _ _ (listed_proper _ _ ex_listed ex_listed) B) as (rows & cols & R & C & _ & _ & H).
    destruct (built_holds _ _ _ _ _ _ _ _ _ _ (listed_proper _ _ ex_listed ex_listed) B) as (o & Eo & HO). injection Eo as <-. apply holds_items in HO as (R' & C').
    rewrite (sorted_set_unique _ _ _ R R') in H. rewrite (sorted_set_unique _ _ _ C C') in H. destruct H as (p & -> & _); [vm_compute; discriminate|discriminate|discriminate|]. now exists p.
Qed.

(** ** C190: fewer items *)
(** Every item of v (if v lists any, as a column vocabulary) is an item of v'. *)
Definition fewer_rows (rv rv' : vocab) : Prop := forall t, dmem (fd rv) t = true -> dmem (fd rv') t = true.
Definition is_column (cv : vocab) (c : pystr) : Prop := any_column cv = true \/ dmem (fd cv) c = true.
Theorem C190_restrict : forall {L M} (match_line : L -> option M) separator (get_type get_colloc : M -> pystr) rv cv rv' cv' l r contents built built', proper rv cv -> proper rv' cv' ->
  fewer_rows rv rv' -> (forall c, is_column cv c -> is_column cv' c) ->
  build_col_freq match_line separator get_type get_colloc rv cv l r contents built ->
  build_col_freq match_line separator get_type get_colloc rv' cv' l r contents built' ->
  exists o o', built = Ok o /\ built' = Ok o' /\
    (forall t c, dmem (fd rv) t = true -> is_column cv c -> cell_of o t c = cell_of o' t c) /\
    (forall t c, dmem (fd rv) t = false \/ ~ is_column cv c -> cell_of o t c = 0%Z).
Proof.
  intros * PR PR' FR FC B B'. destruct (built_holds _ _ _ _ _ _ _ _ _ _ PR B) as (o & -> & HO). destruct (built_holds _ _ _ _ _ _ _ _ _ _ PR' B') as (o' & -> & HO').
  exists o, o'. do 2 (split; [reflexivity|]). assert (CB : forall v c, is_column v c <-> any_column v || dmem (fd v) c = true) by (intros; now rewrite orb_true_iff). split.
  - intros t c It Ic. rewrite (cell_count _ _ _ _ _ _ _ _ _ _ HO), (cell_count _ _ _ _ _ _ _ _ _ _ HO'). unfold n_tc. apply n_pairs_ext; intros x.
    + now rewrite !eqb_and, It, (FR t It).
    + rewrite !eqb_andf. apply FC in Ic as Ic'. apply CB in Ic, Ic'. now rewrite Ic, Ic'.
  - intros t c H. rewrite (cell_count _ _ _ _ _ _ _ _ _ _ HO). unfold n_tc. pose proof (n_pairs_nonneg match_line separator l r (is_target get_type rv t) (is_feature get_colloc cv c) contents) as G.
    enough (~ (0 < n_pairs match_line separator l r (is_target get_type rv t) (is_feature get_colloc cv c) contents)%Z) by lia. intros K. apply (n_pairs_pos match_line separator get_type get_colloc l r) in K as (x & y & _ & A & D).
    rewrite eqb_and in A. rewrite eqb_andf in D. apply andb_true_iff in A as (A & _), D as (D & _). apply CB in D. destruct H as [H|H]; [congruence|contradiction].
Qed.
Print Assumptions C190_restrict.
(** The scores are of the pairs of the items that are left, so they are not those of the larger matrix. *)
Definition restrict_scores : Prop := forall (rv cv rv' cv' : vocab) l r contents built built' m m', proper rv cv -> proper rv' cv' ->
  fewer_rows rv rv' -> (forall c, is_column cv c -> is_column cv' c) ->
  build_col_freq ex_match ex_is_sep ex_id ex_id rv cv l r contents built -> build_col_freq ex_match ex_is_sep ex_id ex_id rv' cv' l r contents built' ->
  corpus_ppmi built = Ok m -> corpus_ppmi built' = Ok m' -> forall t c, In t (trows m) -> In c (tcols m) -> val m t c = val m' t c.
Theorem C190_scores_refuted : ~ restrict_scores.
Proof.
  intros H. assert (B : build_col_freq ex_match ex_is_sep ex_id ex_id ex_rv ex_rv 1 1 ex_cfiles (Ok (Some (Ttm (Sp Csr [[(1, 2%Z)]; [(0, 2%Z)]] 2) (map u ["a"; "b"]%string) (map u ["a"; "b"]%string))))).
  { exists 2, ex_csched. eexists. split; [auto|]. split; [vm_compute; reflexivity|]. split; vm_compute; reflexivity. }
  pose proof (listed_proper _ _ ex_listed ex_listed) as PR. destruct (C182_ppmi _ _ _ _ _ _ _ _ _ _ PR B) as (rows & cols & R & C & _ & _ & K).
  destruct (built_holds _ _ _ _ _ _ _ _ _ _ PR B) as (o & Eo & HO). injection Eo as <-. apply holds_items in HO as (R' & C').
  rewrite (sorted_set_unique _ _ _ R R') in K. rewrite (sorted_set_unique _ _ _ C C') in K. destruct K as (m & E & _ & Rm & Cm & V); [vm_compute; discriminate|discriminate|discriminate|].
  destruct C182_ex as (_ & _ & m' & E' & _ & _ & V' & _).
  specialize (H ex_rv ex_rv ex_rv no_vocab 1 1 ex_cfiles _ _ m m' PR ex_proper (fun t I => I) (fun c _ => or_introl eq_refl) B ex_built_ok E E' (u "a") (u "b") ltac:(rewrite Rm; now left) ltac:(rewrite Cm; right; now left)).
  rewrite V', V in H; [|now left|right; now left]. change (ideal_ppmi 2 2 2 4 = ln (2 * 5 / (2 * 2))) in H.
  unfold ideal_ppmi, ideal_pmi in H. destruct (Rlt_dec 0 2) as [_|]; [|lra]. rewrite Rmax_right in H.
  - apply ln_inv in H; lra.
  - rewrite <- ln_1. apply Rlt_le, ln_increasing; lra.
Qed.
Print Assumptions C190_scores_refuted.
Example C190_ex : proper ex_rv no_vocab /\ proper ex_rv ex_rv /\ fewer_rows ex_rv ex_rv /\ (forall c, is_column ex_rv c -> is_column no_vocab c) /\
  exists m m', build_col_freq ex_match ex_is_sep ex_id ex_id ex_rv ex_rv 1 1 ex_cfiles (Ok (Some m)) /\ build_col_freq ex_match ex_is_sep ex_id ex_id ex_rv no_vocab 1 1 ex_cfiles (Ok (Some m')) /\
    tcols m = map u ["a"; "b"]%string /\ tcols m' = map u ["a"; "b"; "c"]%string /\ val m (u "b") (u "a") = 2%Z /\ val m' (u "b") (u "a") = 2%Z /\ val m (u "b") (u "c") = 0%Z /\ val m' (u "b") (u "c") = 1%Z.
Proof.
  split; [exact ex_proper|]. split; [apply listed_proper; exact ex_listed|]. split; [intros t I; exact I|]. split; [now left|]. eexists. eexists. split; [|split; [exact ex_built_ok|]].
  - exists 2, ex_csched. eexists. split; [auto|]. split; [vm_compute; reflexivity|]. split; vm_compute; reflexivity.
  - repeat split; vm_compute; reflexivity.
Qed.

(** ** C191: other names *)
(** Names written in another way, different ones differently: f for targets, g for collocates. *)
Definition injective (f : pystr -> pystr) : Prop := forall x y, f x = f y -> x = y.
Definition renamed (f : pystr -> pystr) (v v' : vocab) : Prop := forall x, dmem (fd v') x = true <-> exists t, x = f t /\ dmem (fd v) t = true.
Definition renamed_items (f : pystr -> pystr) (xs xs' : list pystr) : Prop := forall x, In x xs' <-> exists t, x = f t /\ In t xs.
Definition renamed_matrix (f g : pystr -> pystr) (a b : res (option (ttm Z))) : Prop :=
  match a, b with
  | Ok None, Ok None => True
  | Ok (Some m), Ok (Some m') => renamed_items f (trows m) (trows m') /\ renamed_items g (tcols m) (tcols m') /\ forall t c, val m' (f t) (g c) = val m t c
  | _, _ => False
  end.
Definition renamed_scores (f g : pystr -> pystr) (a b : res (ttm R)) : Prop :=
  match a, b with
  | Ok m, Ok m' => renamed_items f (trows m) (trows m') /\ renamed_items g (tcols m) (tcols m') /\ forall t c, In t (trows m) -> In c (tcols m) -> val m' (f t) (g c) = val m t c
  | Err e, Err e' => e = e'
  | _, _ => False
  end.
Lemma renamed_mem f v v' t : injective f -> renamed f v v' -> dmem (fd v') (f t) = dmem (fd v) t.
Proof. intros I R. apply eq_true_iff_eq. rewrite (R (f t)). split; [intros (s & E & H); apply I in E; now subst|intros H; now exists t]. Qed.
Lemma renamed_any f v v' : renamed f v v' -> any_column v' = any_column v.
Proof.
  intros R. unfold any_column. destruct (fd v) as [|(k, n) d] eqn:E, (fd v') as [|(k', n') d'] eqn:E'; try reflexivity; exfalso.
  - destruct (proj1 (R k')) as (t & _ & H); [apply dmem_In; rewrite E'; now left|]. rewrite E in H. discriminate.
  - assert (H : dmem (fd v') (f k) = true) by (apply R; exists k; split; [reflexivity|]; apply dmem_In; rewrite E; now left). rewrite E' in H. discriminate.
Qed.
Lemma renamed_eqb f x y : injective f -> eqb (f x) (f y) = eqb x y.
Proof. intros I. destruct (eqb x y) eqn:E; [apply eqb_true in E; subst; apply eqb_refl|]. apply eqb_neq. intros Q. apply I in Q. subst. now rewrite eqb_refl in E. Qed.
Theorem C191_renamed : forall {L M} (match_line : L -> option M) separator (get_type get_colloc : M -> pystr) f g rv cv rv' cv' l r contents built built', proper rv cv -> proper rv' cv' ->
  injective f -> injective g -> renamed f rv rv' -> renamed g cv cv' ->
  build_col_freq match_line separator get_type get_colloc rv cv l r contents built ->
  build_col_freq match_line separator (fun x => f (get_type x)) (fun x => g (get_colloc x)) rv' cv' l r contents built' ->
  renamed_matrix f g built built' /\ renamed_scores f g (corpus_ppmi built) (corpus_ppmi built').
Proof.
  intros * PR PR' If Ig Rf Rg B B'. pose proof (renamed_any _ _ _ Rg) as AC.
  assert (ET : forall x, target (fun x => f (get_type x)) rv' x = target get_type rv x) by (intros; unfold target; now apply renamed_mem).
  assert (EF : forall x, feature (fun x => g (get_colloc x)) cv' x = feature get_colloc cv x) by (intros; unfold feature; rewrite AC; f_equal; now apply renamed_mem).
  assert (EIT : forall t x, is_target (fun x => f (get_type x)) rv' (f t) x = is_target get_type rv t x) by (intros; unfold is_target; now rewrite ET, renamed_eqb).
  assert (EIF : forall c x, is_feature (fun x => g (get_colloc x)) cv' (g c) x = is_feature get_colloc cv c x) by (intros; unfold is_feature; now rewrite EF, renamed_eqb).
  set (gt' := fun x => f (get_type x)) in *. set (gc' := fun x => g (get_colloc x)) in *.
  assert (NT : forall t c, n_tc match_line separator l r gt' gc' rv' cv' contents (f t) (g c) = n_tc match_line separator l r get_type get_colloc rv cv contents t c) by (intros; unfold n_tc; apply n_pairs_ext; auto).
  assert (NR : forall t, n_row match_line separator l r gt' gc' rv' cv' contents (f t) = n_row match_line separator l r get_type get_colloc rv cv contents t) by (intros; unfold n_row; apply n_pairs_ext; auto).
  assert (NC : forall c, n_col match_line separator l r gt' gc' rv' cv' contents (g c) = n_col match_line separator l r get_type get_colloc rv cv contents c) by (intros; unfold n_col; apply n_pairs_ext; auto).
  assert (NA : n_all match_line separator l r gt' gc' rv' cv' contents = n_all match_line separator l r get_type get_colloc rv cv contents) by (unfold n_all; apply n_pairs_ext; auto).
  assert (RR : forall rows rows', corpus_rows rv rows -> corpus_rows rv' rows' -> renamed_items f rows rows').
  { intros rows rows' (_ & _ & R) (_ & _ & R') x. rewrite R', (Rf x). split; intros (t & E & H); exists t; split; auto; now apply R. }
  assert (RC : forall cols cols', corpus_cols match_line separator l r get_type get_colloc rv cv contents cols -> corpus_cols match_line separator l r gt' gc' rv' cv' contents cols' -> renamed_items g cols cols').
  { intros cols cols' (_ & _ & C) (_ & _ & C') x. rewrite C', AC. destruct (any_column cv) eqn:A.
    - split.
      + intros H. apply (n_pairs_pos match_line separator get_type get_colloc l r) in H as H0. destruct H0 as (y & z & _ & _ & D). rewrite eqb_andf in D. apply andb_true_iff in D as (_ & D). apply eqb_true in D. unfold gc' in D. subst x. exists (get_colloc z). split; [reflexivity|].
        apply C. change (0 < n_col match_line separator l r get_type get_colloc rv cv contents (get_colloc z))%Z. now rewrite <- NC.
      + intros (t & -> & H). apply C in H. change (0 < n_col match_line separator l r gt' gc' rv' cv' contents (g t))%Z. now rewrite NC.
    - rewrite (Rg x). split; intros (t & E & H); exists t; split; auto; now apply C. }
  pose proof (C182_ppmi _ _ _ _ _ _ _ _ _ _ PR B) as SC. pose proof (C182_ppmi _ _ _ _ _ _ _ _ _ _ PR' B') as SC'. split.
  - clear SC SC'. destruct (built_holds _ _ _ _ _ _ _ _ _ _ PR B) as (o & -> & HO). destruct (built_holds _ _ _ _ _ _ _ _ _ _ PR' B') as (o' & -> & HO').
    destruct (corpus_items match_line separator get_type get_colloc rv cv l r contents) as (rows & cols & R & C). destruct (corpus_items match_line separator gt' gc' rv' cv' l r contents) as (rows' & cols' & R' & C').
    pose proof (holds_cases match_line separator get_type get_colloc rv cv l r contents rows cols R C o HO) as H.
    pose proof (holds_cases match_line separator gt' gc' rv' cv' l r contents rows' cols' R' C' o' HO') as H'.
    change (n_pairs match_line separator l r (target gt' rv') (feature gc' cv') contents) with (n_all match_line separator l r gt' gc' rv' cv' contents) in H'. rewrite NA in H'.
    unfold n_all in H'. destruct o as [m|], o' as [m'|]; cbn [renamed_matrix]; [|tauto..|exact I]. destruct H as (_ & _ & -> & -> & V & _). destruct H' as (_ & _ & -> & -> & V' & _).
    split; [now apply RR|]. split; [now apply RC|]. intros t c. rewrite V, V'. apply NT.
  - destruct SC as (rows & cols & R & C & S1 & S2 & S3). destruct SC' as (rows' & cols' & R' & C' & S1' & S2' & S3'). rewrite NA in S1', S2', S3'.
    assert (LR : length rows' = length rows) by (apply (same_card f); [exact If|apply R|apply R'|now apply RR]).
    assert (LC : length cols' = length cols) by (apply (same_card g); [exact Ig|apply C|apply C'|now apply RC]). rewrite LR, LC in S2', S3'.
    destruct (Z.eq_dec (n_all match_line separator l r get_type get_colloc rv cv contents) 0) as [Z0|Z0]; [now rewrite S1, S1'|].
    destruct (Nat.eq_dec (length rows) 1) as [E|E]; [rewrite S2, S2' by tauto; reflexivity|]. destruct (Nat.eq_dec (length cols) 1) as [E'|E']; [rewrite S2, S2' by tauto; reflexivity|].
    destruct (S3 Z0 E E') as (m & -> & _ & Rm & Cm & V). destruct (S3' Z0 E E') as (m' & -> & _ & Rm' & Cm' & V'). cbn [renamed_scores]. rewrite Rm, Cm, Rm', Cm'.
    pose proof (RR _ _ R R') as QR. pose proof (RC _ _ C C') as QC. split; [exact QR|]. split; [exact QC|]. intros t c It Ic. rewrite (V t c It Ic), V'.
    + unfold ppmi_tc. now rewrite NT, NR, NC, NA.
    + apply QR. now exists t.
    + apply QC. now exists c.
Qed.
Print Assumptions C191_renamed.
(** Every name with the tag "/noun" *)
Definition noun (x : pystr) : pystr := x ++ u "/noun".
Lemma noun_inj : injective noun. Proof. intros x y H. now apply app_inv_tail in H. Qed.
Definition ex_rv_noun : vocab := vocab_init false [(u "a/noun", 3%Z); (u "b/noun", 2%Z)].
Example C191_ex : proper ex_rv_noun no_vocab /\ injective noun /\ renamed noun ex_rv ex_rv_noun /\ renamed noun no_vocab no_vocab /\
  exists m', build_col_freq ex_match ex_is_sep (fun x => noun (ex_id x)) (fun x => noun (ex_id x)) ex_rv_noun no_vocab 1 1 ex_cfiles (Ok (Some m')) /\
    tcols m' = map u ["a/noun"; "b/noun"; "c/noun"]%string /\ val m' (u "b/noun") (u "c/noun") = 1%Z /\ val m' (u "a/noun") (u "b/noun") = 2%Z.
Proof.
  split; [split; [reflexivity|]; split; [repeat constructor; cbn; intuition discriminate|now left]|]. split; [exact noun_inj|]. split; [|split].
  - intros x. rewrite dmem_In. change (dkeys (fd ex_rv_noun)) with (map u ["a/noun"; "b/noun"]%string). split.
    + intros [<-|[<-|[]]]; [exists (u "a")|exists (u "b")]; split; reflexivity.
    + intros (t & -> & H). apply dmem_In in H. change (dkeys (fd ex_rv)) with (map u ["a"; "b"]%string) in H. destruct H as [<-|[<-|[]]]; [left|right; left]; reflexivity.
  - intros x. split; [discriminate|]. intros (t & _ & H). discriminate.
  - eexists. split.
    + exists 2, ex_csched. eexists. split; [auto|]. split; [vm_compute; reflexivity|]. split; vm_compute; reflexivity.
    + repeat split; vm_compute; reflexivity.
Qed.

(** ** C192: other spans *)
Definition spans_add : Prop := forall (rv cv : vocab) l r contents o ol or, proper rv cv ->
  build_col_freq ex_match ex_is_sep ex_id ex_id rv cv l r contents (Ok o) -> build_col_freq ex_match ex_is_sep ex_id ex_id rv cv l 0 contents (Ok ol) ->
  build_col_freq ex_match ex_is_sep ex_id ex_id rv cv 0 r contents (Ok or) -> forall t c, cell_of o t c = (cell_of ol t c + cell_of or t c)%Z.
(** Missing: segments of 2 to r tokens. *)
Theorem C192_add_partial : forall {L M} (match_line : L -> option M) separator (get_type get_colloc : M -> pystr) rv cv l r contents built builtl builtr, proper rv cv ->
  no_short_segments match_line separator r contents ->
  build_col_freq match_line separator get_type get_colloc rv cv l r contents built ->
  build_col_freq match_line separator get_type get_colloc rv cv l 0 contents builtl ->
  build_col_freq match_line separator get_type get_colloc rv cv 0 r contents builtr ->
  exists o ol or, built = Ok o /\ builtl = Ok ol /\ builtr = Ok or /\ forall t c, cell_of o t c = (cell_of ol t c + cell_of or t c)%Z.
Proof.
  intros * PR NS B B1 B2. destruct (built_holds _ _ _ _ _ _ _ _ _ _ PR B) as (o & -> & H). destruct (built_holds _ _ _ _ _ _ _ _ _ _ PR B1) as (ol & -> & H1). destruct (built_holds _ _ _ _ _ _ _ _ _ _ PR B2) as (or & -> & H2).
  exists o, ol, or. do 3 (split; [reflexivity|]). intros t c. rewrite (cell_count _ _ _ _ _ _ _ _ _ _ H), (cell_count _ _ _ _ _ _ _ _ _ _ H1), (cell_count _ _ _ _ _ _ _ _ _ _ H2). unfold n_tc. apply n_pairs_spans.
  intros xs I. apply in_segs in I as (lines & I & J). apply full_foci. exact (NS lines xs I J).
Qed.
Print Assumptions C192_add_partial.
(** A wider left span never loses a pair; a wider right span neither, if it makes no segment short. *)
Theorem C192_left : forall {L M} (match_line : L -> option M) separator (get_type get_colloc : M -> pystr) rv cv l l' r contents built built', proper rv cv -> l <= l' ->
  build_col_freq match_line separator get_type get_colloc rv cv l r contents built ->
  build_col_freq match_line separator get_type get_colloc rv cv l' r contents built' ->
  exists o o', built = Ok o /\ built' = Ok o' /\ forall t c, (cell_of o t c <= cell_of o' t c)%Z.
Proof.
  intros * PR Hl B B'. destruct (built_holds _ _ _ _ _ _ _ _ _ _ PR B) as (o & -> & H). destruct (built_holds _ _ _ _ _ _ _ _ _ _ PR B') as (o' & -> & H').
  exists o, o'. do 2 (split; [reflexivity|]). intros t c. rewrite (cell_count _ _ _ _ _ _ _ _ _ _ H), (cell_count _ _ _ _ _ _ _ _ _ _ H'). apply n_pairs_wider; auto.
Qed.
Print Assumptions C192_left.
Theorem C192_right_partial : forall {L M} (match_line : L -> option M) separator (get_type get_colloc : M -> pystr) rv cv l l' r r' contents built built', proper rv cv -> l <= l' -> r <= r' ->
  (forall lines xs, In lines contents -> In xs (file_segs match_line separator lines) -> length xs <= r \/ r' < length xs) ->
  build_col_freq match_line separator get_type get_colloc rv cv l r contents built ->
  build_col_freq match_line separator get_type get_colloc rv cv l' r' contents built' ->
  exists o o', built = Ok o /\ built' = Ok o' /\ forall t c, (cell_of o t c <= cell_of o' t c)%Z.
Proof.
  intros * PR Hl Hr NS B B'. destruct (built_holds _ _ _ _ _ _ _ _ _ _ PR B) as (o & -> & H). destruct (built_holds _ _ _ _ _ _ _ _ _ _ PR B') as (o' & -> & H').
  exists o, o'. do 2 (split; [reflexivity|]). intros t c. rewrite (cell_count _ _ _ _ _ _ _ _ _ _ H), (cell_count _ _ _ _ _ _ _ _ _ _ H'). apply n_pairs_wider; auto.
  intros xs I. apply in_segs in I as (lines & I & J). specialize (NS lines xs I J). unfold foci_spec. destruct (Nat.leb_spec 2 (length xs)), (Nat.leb_spec (length xs) r), (Nat.leb_spec (length xs) r'); cbn; lia.
Qed.
Print Assumptions C192_right_partial.
Definition wider_right : Prop := forall (rv cv : vocab) l r r' contents o o', proper rv cv -> r <= r' ->
  build_col_freq ex_match ex_is_sep ex_id ex_id rv cv l r contents (Ok o) -> build_col_freq ex_match ex_is_sep ex_id ex_id rv cv l r' contents (Ok o') ->
  forall t c, (cell_of o t c <= cell_of o' t c)%Z.
(** "a b" again: with a right span of two, b is no target, and its pair with a is lost. *)
Lemma ex_span_built : exists m11 m12 m10 m02,
  build_col_freq ex_match ex_is_sep ex_id ex_id ex_rv no_vocab 1 1 [map u ["a"; "b"]%string] (Ok (Some m11)) /\ build_col_freq ex_match ex_is_sep ex_id ex_id ex_rv no_vocab 1 2 [map u ["a"; "b"]%string] (Ok (Some m12)) /\
  build_col_freq ex_match ex_is_sep ex_id ex_id ex_rv no_vocab 1 0 [map u ["a"; "b"]%string] (Ok (Some m10)) /\ build_col_freq ex_match ex_is_sep ex_id ex_id ex_rv no_vocab 0 2 [map u ["a"; "b"]%string] (Ok (Some m02)) /\
  val m11 (u "b") (u "a") = 1%Z /\ val m12 (u "b") (u "a") = 0%Z /\ val m10 (u "b") (u "a") = 1%Z /\ val m02 (u "b") (u "a") = 0%Z.
Proof. do 4 eexists. do 4 (split; [one_file|]). repeat split; vm_compute; reflexivity. Qed.
Theorem C192_right_refuted : ~ wider_right.
Proof.
  intros H. destruct ex_span_built as (m11 & m12 & _ & _ & B1 & B2 & _ & _ & V1 & V2 & _). specialize (H ex_rv no_vocab 1 1 2 _ _ _ ex_proper ltac:(lia) B1 B2 (u "b") (u "a")). cbn [cell_of] in H. rewrite V1, V2 in H. lia.
Qed.
Print Assumptions C192_right_refuted.
Theorem C192_add_refuted : ~ spans_add.
Proof.
  intros H. destruct ex_span_built as (_ & m12 & m10 & m02 & _ & B & B1 & B2 & _ & V & V1 & V2). specialize (H ex_rv no_vocab 1 2 _ _ _ _ ex_proper B B1 B2 (u "b") (u "a")). cbn [cell_of] in H. rewrite V, V1, V2 in H. discriminate.
Qed.
Print Assumptions C192_add_refuted.
Example C192_ex : no_short_segments ex_match ex_is_sep 2 [map u ["a"; "b"; "a"]%string] /\ exists m21 m22 m20 m02,
  build_col_freq ex_match ex_is_sep ex_id ex_id ex_rv no_vocab 2 1 [map u ["a"; "b"; "a"]%string] (Ok (Some m21)) /\ build_col_freq ex_match ex_is_sep ex_id ex_id ex_rv no_vocab 2 2 [map u ["a"; "b"; "a"]%string] (Ok (Some m22)) /\
  build_col_freq ex_match ex_is_sep ex_id ex_id ex_rv no_vocab 2 0 [map u ["a"; "b"; "a"]%string] (Ok (Some m20)) /\ build_col_freq ex_match ex_is_sep ex_id ex_id ex_rv no_vocab 0 2 [map u ["a"; "b"; "a"]%string] (Ok (Some m02)) /\
  val m21 (u "a") (u "a") = 1%Z /\ val m22 (u "a") (u "a") = 2%Z /\ val m20 (u "a") (u "a") = 1%Z /\ val m02 (u "a") (u "a") = 1%Z.
Proof.
  split.
  - intros lines xs [<-|[]] I. vm_compute in I. destruct I as [<-|[]]; cbn. right. lia.
  - do 4 eexists. do 4 (split; [one_file|]). repeat split; vm_compute; reflexivity.
Qed.
