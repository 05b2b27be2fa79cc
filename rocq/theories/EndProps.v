(** * Claims about whole programs, from a corpus to scores: C182 to C185. *)
From Coq Require Import String NArith ZArith Bool Arith Lia Permutation Reals Lra List.
From Verif Require Import Base BaseLemmas VocabModel CorpusModel CorpusSpec CorpusExamples MxModel MxSpec CalcModel CalcSpec CalcProofs CalcProofs2
  ParModel ParProofs ParColModel ParColSpec ParColProofs ParColProps PipeModel MxProps EndModel EndSpec EndProofs EndProofs2.
Import ListNotations.
Local Open Scope nat_scope.

(** Vocabularies as the tutorial makes them: a row vocabulary with items, and a column vocabulary with items or none. *)
Definition proper (rv cv : vocab) : Prop := filt rv = true /\ dwf (fd rv) /\ (any_column cv = true \/ (filt cv = true /\ dwf (fd cv))).
Lemma built_holds {L M} (match_line : L -> option M) separator (get_type get_colloc : M -> pystr) rv cv l r contents built : proper rv cv ->
  build_col_freq match_line separator get_type get_colloc rv cv l r contents built ->
  exists o, built = Ok o /\ holds_counts rv cv o (corpus_pairs match_line separator get_type get_colloc rv cv l r contents).
Proof. intros (F & W & C) (nw & sched & st & N & E & Jn & ->). exact (C10_counts match_line separator get_type get_colloc rv cv l r F W C nw contents sched st N E Jn). Qed.

(** ** C182: the scores of a corpus *)
(** compute_ppmi on the matrix of a corpus: the textbook's PPMI of the numbers of pairs, whatever the workers do; an error if there is
    nothing to count, or one row or one column only. *)
Theorem C182_ppmi : forall {L M} (match_line : L -> option M) separator (get_type get_colloc : M -> pystr) rv cv l r contents built, proper rv cv ->
  build_col_freq match_line separator get_type get_colloc rv cv l r contents built ->
  scored match_line separator l r get_type get_colloc rv cv contents (corpus_ppmi built)
    (fun t c x => x = ppmi_tc match_line separator l r get_type get_colloc rv cv contents t c).
Proof.
  intros L M match_line separator get_type get_colloc rv cv l r contents built PR B. destruct (built_holds _ _ _ _ _ _ _ _ _ _ PR B) as (o & -> & HO). destruct (corpus_items match_line separator get_type get_colloc rv cv l r contents) as (rows & cols & R & C).
  exists rows, cols. split; [exact R|]. split; [exact C|].
  destruct (scores_fail match_line separator get_type get_colloc rv cv l r contents rows cols R C o HO (fun m nf cf => compute_ppmi m (Some nf) (Some cf) true)) as (F1 & F2).
  split; [exact F1|]. split; [exact F2|]. intros N S S'. exact (ppmi_scores match_line separator get_type get_colloc rv cv l r contents rows cols R C o HO N S S').
Qed.
Print Assumptions C182_ppmi.
(** The same with compute_association, up to its smoothing *)
Theorem C182_association : forall {L M} (match_line : L -> option M) separator (get_type get_colloc : M -> pystr) rv cv l r contents built, proper rv cv ->
  build_col_freq match_line separator get_type get_colloc rv cv l r contents built ->
  scored match_line separator l r get_type get_colloc rv cv contents (corpus_scores (u "ppmi") built)
    (fun t c x => 0 <= x /\ Rabs (x - ppmi_tc match_line separator l r get_type get_colloc rv cv contents t c) <= 22 / 100000000000)%R.
Proof.
  intros L M match_line separator get_type get_colloc rv cv l r contents built PR B. destruct (built_holds _ _ _ _ _ _ _ _ _ _ PR B) as (o & -> & HO). destruct (corpus_items match_line separator get_type get_colloc rv cv l r contents) as (rows & cols & R & C).
  exists rows, cols. split; [exact R|]. split; [exact C|].
  destruct (scores_fail match_line separator get_type get_colloc rv cv l r contents rows cols R C o HO (fun m nf cf => compute_association m nf cf None (u "ppmi"))) as (F1 & F2).
  split; [exact F1|]. split; [exact F2|]. intros N S S'. exact (association_scores match_line separator get_type get_colloc rv cv l r contents rows cols R C o HO N S S').
Qed.
Print Assumptions C182_association.
(** Any measure: each pair that occurs is scored with the table of the numbers of pairs. *)
Theorem C182_measures : forall {L M} (match_line : L -> option M) separator (get_type get_colloc : M -> pystr) rv cv l r contents built, proper rv cv ->
  build_col_freq match_line separator get_type get_colloc rv cv l r contents built ->
  forall meas f m, dget func_dict meas = Some f -> corpus_scores meas built = Ok m ->
  corpus_rows rv (trows m) /\ corpus_cols match_line separator l r get_type get_colloc rv cv contents (tcols m) /\
  forall t c, let n := n_tc match_line separator l r get_type get_colloc rv cv contents t c in (0 < n)%Z ->
    of_table f n (n_row match_line separator l r get_type get_colloc rv cv contents t) (n_col match_line separator l r get_type get_colloc rv cv contents c)
      (n_all match_line separator l r get_type get_colloc rv cv contents) = Ok (val m t c).
Proof.
  intros L M match_line separator get_type get_colloc rv cv l r contents built PR B meas f m EF E. destruct (built_holds _ _ _ _ _ _ _ _ _ _ PR B) as (o & -> & HO). destruct (corpus_items match_line separator get_type get_colloc rv cv l r contents) as (rows & cols & R & C).
  destruct (measure_scores match_line separator get_type get_colloc rv cv l r contents rows cols R C o HO meas f m EF E) as (_ & -> & -> & V). auto.
Qed.
Print Assumptions C182_measures.
Lemma ex_proper : proper ex_rv no_vocab.
Proof. split; [reflexivity|]. split; [repeat constructor; cbn; intuition discriminate|now left]. Qed.
Definition ex_built : res (option (ttm Z)) := Ok (Some (Ttm (Sp Csr [[(1, 2%Z)]; [(0, 2%Z); (2, 1%Z)]] 3) (map u ["a"; "b"]%string) (map u ["a"; "b"; "c"]%string))).
Lemma ex_built_ok : build_col_freq ex_match ex_is_sep ex_id ex_id ex_rv no_vocab 1 1 ex_cfiles ex_built.
Proof. exists 2, ex_csched. eexists. split; [auto|]. split; [vm_compute; reflexivity|]. split; vm_compute; reflexivity. Qed.
(** a, b occur twice next to each other in five pairs: ln (2 * 5 / (2 * 2)) *)
Example C182_ex : proper ex_rv no_vocab /\ build_col_freq ex_match ex_is_sep ex_id ex_id ex_rv no_vocab 1 1 ex_cfiles ex_built /\
  exists m, corpus_ppmi ex_built = Ok m /\ trows m = map u ["a"; "b"]%string /\ tcols m = map u ["a"; "b"; "c"]%string /\
    val m (u "a") (u "b") = ln (2 * 5 / (2 * 2)) /\ val m (u "a") (u "c") = 0%R /\ val m (u "b") (u "c") = ln (1 * 5 / (3 * 1)).
Proof.
  split; [apply ex_proper|]. split; [apply ex_built_ok|].
  destruct (C182_ppmi ex_match ex_is_sep ex_id ex_id ex_rv no_vocab 1 1 ex_cfiles ex_built ex_proper ex_built_ok) as (rows & cols & R & C & _ & _ & H).
  assert (ER : rows = map u ["a"; "b"]%string).
  { eapply sorted_set_unique; [exact R|]. split; [apply nodup_of_dedup; reflexivity|]. split; [repeat constructor|]. intros x. rewrite dmem_In. cbn. tauto. }
  assert (EC : cols = map u ["a"; "b"; "c"]%string).
  { destruct (built_holds _ _ _ _ _ _ _ _ _ _ ex_proper ex_built_ok) as (o & Eo & HO). injection Eo as <-. apply holds_items in HO as (_ & C'). eapply sorted_set_unique; [exact C|exact C']. }
  destruct H as (m & E & _ & Rm & Cm & V); [vm_compute; discriminate|rewrite ER; discriminate|rewrite EC; discriminate|].
  assert (PP : forall c r cc n : Z, (0 < c)%Z -> (r * cc < c * n)%Z -> (0 < r)%Z -> (0 < cc)%Z -> ideal_ppmi (IZR c) (IZR r) (IZR cc) (IZR n) = ln (IZR c * IZR n / (IZR r * IZR cc))).
  { intros c r cc n0 A B D F. unfold ideal_ppmi, ideal_pmi. destruct (Rlt_dec 0 (IZR c)) as [_|X]; [|exfalso; apply X; now apply IZR_lt]. apply Rmax_right. rewrite <- !mult_IZR. apply Rlt_le. rewrite <- ln_1. apply ln_increasing; [lra|].
    assert (0 < r * cc)%Z by nia. apply IZR_lt in H, B. apply (Rmult_lt_reg_r (IZR (r * cc))); [assumption|]. unfold Rdiv. rewrite Rmult_assoc, Rinv_l, Rmult_1_r by lra. lra. }
  exists m. split; [exact E|]. split; [congruence|]. split; [congruence|]. split; [|split].
  - rewrite V; [|rewrite ER; cbn; tauto|rewrite EC; cbn; tauto].
    change (ideal_ppmi 2 2 2 5 = ln (2 * 5 / (2 * 2))). apply PP; lia.
  - rewrite V; [|rewrite ER; cbn; tauto|rewrite EC; cbn; tauto]. change (ideal_ppmi 0 2 1 5 = 0%R). unfold ideal_ppmi. destruct (Rlt_dec 0 0); lra.
  - rewrite V; [|rewrite ER; cbn; tauto|rewrite EC; cbn; tauto]. change (ideal_ppmi 1 3 1 5 = ln (1 * 5 / (3 * 1))). apply PP; lia.
Qed.

(** ** C183: copies of a corpus *)
Definition same_scores (a b : res (ttm R)) (close : R -> R -> Prop) : Prop :=
  match a, b with
  | Ok m, Ok m' => trows m = trows m' /\ tcols m = tcols m' /\ forall t c, In t (trows m) -> In c (tcols m) -> close (val m t c) (val m' t c)
  | Err e, Err e' => e = e'
  | _, _ => False
  end.
(** The files of a corpus k times, in any order: the scores of compute_ppmi do not change.  With k = 1: files in another order, other
    workers, another schedule. *)
Theorem C183_copies : forall {L M} (match_line : L -> option M) separator (get_type get_colloc : M -> pystr) rv cv l r k contents contents' built built', proper rv cv ->
  1 <= k -> Permutation contents' (copies k contents) ->
  build_col_freq match_line separator get_type get_colloc rv cv l r contents built ->
  build_col_freq match_line separator get_type get_colloc rv cv l r contents' built' ->
  same_scores (corpus_ppmi built) (corpus_ppmi built') eq.
Proof.
  intros * PR K P B B'. destruct (built_holds _ _ _ _ _ _ _ _ _ _ PR B) as (o & -> & HO). destruct (built_holds _ _ _ _ _ _ _ _ _ _ PR B') as (o' & -> & HO'). exact (copies_ppmi _ _ _ _ _ _ _ _ k contents contents' o o' K P HO HO').
Qed.
Print Assumptions C183_copies.
(** Full statement for compute_association. *)
Definition copies_exact : Prop := forall (rv cv : vocab) l r k contents contents' built built', proper rv cv ->
  1 <= k -> Permutation contents' (copies k contents) ->
  build_col_freq ex_match ex_is_sep ex_id ex_id rv cv l r contents built -> build_col_freq ex_match ex_is_sep ex_id ex_id rv cv l r contents' built' ->
  same_scores (corpus_scores (u "ppmi") built) (corpus_scores (u "ppmi") built') eq.
(** Missing: equality; the smoothing replaces an expected count of exactly 1, which copying the corpus changes. *)
Theorem C183_association_partial : forall {L M} (match_line : L -> option M) separator (get_type get_colloc : M -> pystr) rv cv l r k contents contents' built built', proper rv cv ->
  1 <= k -> Permutation contents' (copies k contents) ->
  build_col_freq match_line separator get_type get_colloc rv cv l r contents built ->
  build_col_freq match_line separator get_type get_colloc rv cv l r contents' built' ->
  same_scores (corpus_scores (u "ppmi") built) (corpus_scores (u "ppmi") built') (fun x y => Rabs (x - y) <= 44 / 100000000000)%R.
Proof.
  intros * PR K P B B'. destruct (built_holds _ _ _ _ _ _ _ _ _ _ PR B) as (o & -> & HO). destruct (built_holds _ _ _ _ _ _ _ _ _ _ PR B') as (o' & -> & HO'). exact (copies_association _ _ _ _ _ _ _ _ k contents contents' o o' K P HO HO').
Qed.
Print Assumptions C183_association_partial.
(** The sentence "a b" in two files: a and b meet twice, 2 * 2 / 4 = 1 times by chance; in four files 4 times, 2 by chance. *)
Definition ex_ab (k : nat) : list (list pystr) := repeat (map u ["a"; "b"]%string) k.
Definition ex_ab_built (n : Z) : res (option (ttm Z)) := Ok (Some (Ttm (Sp Csr [[(1, n)]; [(0, n)]] 2) (map u ["a"; "b"]%string) (map u ["a"; "b"]%string))).
Lemma ex_ab_ok k n : (k, n) = (2, 2%Z) \/ (k, n) = (4, 4%Z) -> build_col_freq ex_match ex_is_sep ex_id ex_id ex_rv no_vocab 1 1 (ex_ab k) (ex_ab_built n).
Proof.
  intros [[= -> ->]|[= -> ->]].
  - exists 1, (repeat Producer 3 ++ repeat (Worker 0) 5). eexists. split; [auto|]. split; [vm_compute; reflexivity|]. split; vm_compute; reflexivity.
  - exists 1, (repeat Producer 5 ++ repeat (Worker 0) 7). eexists. split; [auto|]. split; [vm_compute; reflexivity|]. split; vm_compute; reflexivity.
Qed.
Lemma ex_ab_score : of_table calc_ppmi 2 2 2 4 = Ok (ln (2 / (9999999999 / 10000000000))) /\ of_table calc_ppmi 4 4 4 8 = Ok (ln 2).
Proof.
  assert (P : forall x, (1 < x)%R -> (0 < ln x)%R) by (intros x H; rewrite <- ln_1; apply ln_increasing; lra).
  unfold of_table. rewrite !ppmi_of_pmi. change (rmap (Rmax 0) (calc_pmi 2%R 0%R 0%R 2%R) = Ok (ln (2 / (9999999999 / 10000000000))) /\ rmap (Rmax 0) (calc_pmi 4%R 0%R 0%R 4%R) = Ok (ln 2)). unfold calc_pmi. split.
  - rewrite fdiv_ok by lra. cbn [rbind]. replace ((2 + 0) * (2 + 0) / (2 + 0 + 0 + 2))%R with 1%R by field. assert (A1 : adjust_val 1 = (9999999999 / 10000000000)%R) by (unfold adjust_val; destruct (Req_EM_T 1 0); [lra|]; destruct (Req_EM_T 1 1); [reflexivity|lra]). rewrite A1.
    rewrite fdiv_ok by lra. cbn [rbind]. rewrite adjust_id by lra. rewrite flog_ok by lra. cbn [rmap]. f_equal. apply Rmax_right, Rlt_le, P. lra.
  - rewrite fdiv_ok by lra. cbn [rbind]. replace ((4 + 0) * (4 + 0) / (4 + 0 + 0 + 4))%R with 2%R by field. rewrite adjust_id by lra.
    rewrite fdiv_ok by lra. cbn [rbind]. replace (4 / 2)%R with 2%R by field. rewrite adjust_id by lra. rewrite flog_ok by lra. cbn [rmap]. f_equal. apply Rmax_right, Rlt_le, P. lra.
Qed.
Theorem C183_association_refuted : ~ copies_exact.
Proof.
  intros H. specialize (H ex_rv no_vocab 1 1 2 (ex_ab 2) (ex_ab 4) (ex_ab_built 2) (ex_ab_built 4) ex_proper ltac:(lia) (Permutation_refl _) (ex_ab_ok 2 2 ltac:(now left)) (ex_ab_ok 4 4 ltac:(now right))).
  destruct (corpus_scores (u "ppmi") (ex_ab_built 2)) as [m|e] eqn:E; destruct (corpus_scores (u "ppmi") (ex_ab_built 4)) as [m'|e'] eqn:E'; cbn [same_scores] in H; try contradiction.
  - destruct (C182_measures _ _ _ _ _ _ _ _ _ _ ex_proper (ex_ab_ok 2 2 ltac:(now left)) (u "ppmi") calc_ppmi m eq_refl E) as (R & C & V).
    destruct (C182_measures _ _ _ _ _ _ _ _ _ _ ex_proper (ex_ab_ok 4 4 ltac:(now right)) (u "ppmi") calc_ppmi m' eq_refl E') as (_ & _ & V').
    specialize (V (u "a") (u "b") ltac:(reflexivity)). specialize (V' (u "a") (u "b") ltac:(reflexivity)).
    change (of_table calc_ppmi 2 2 2 4 = Ok (val m (u "a") (u "b"))) in V. change (of_table calc_ppmi 4 4 4 8 = Ok (val m' (u "a") (u "b"))) in V'. rewrite (proj1 ex_ab_score) in V. rewrite (proj2 ex_ab_score) in V'.
    destruct H as (_ & _ & H). specialize (H (u "a") (u "b")). rewrite <- (f_equal (fun x => match x with Ok y => y | Err _ => 0%R end) V), <- (f_equal (fun x => match x with Ok y => y | Err _ => 0%R end) V') in H.
    assert (Q : (2 / (9999999999 / 10000000000) = 2)%R) by (apply ln_inv; [lra|lra|apply H; [apply R; reflexivity|apply C; reflexivity]]). lra.
  - destruct (C182_association _ _ _ _ _ _ _ _ _ _ ex_proper (ex_ab_ok 2 2 ltac:(now left))) as (rows & cols & R & C & _ & _ & K). rewrite E in K.
    destruct (built_holds _ _ _ _ _ _ _ _ _ _ ex_proper (ex_ab_ok 2 2 ltac:(now left))) as (o & Eo & HO). injection Eo as <-. apply holds_items in HO as (R' & C').
    rewrite (sorted_set_unique _ _ _ R R') in K. rewrite (sorted_set_unique _ _ _ C C') in K. destruct K as (m & K & _); discriminate.
Qed.
Print Assumptions C183_association_refuted.
(** The corpus of C182_ex three times gives the scores of C182_ex. *)
Example C183_ex : 1 <= 3 /\ Permutation (copies 3 ex_cfiles) (copies 3 ex_cfiles) /\ length (copies 3 ex_cfiles) = 6 /\
  exists built', build_col_freq ex_match ex_is_sep ex_id ex_id ex_rv no_vocab 1 1 (copies 3 ex_cfiles) built' /\
  exists m, corpus_ppmi built' = Ok m /\ val m (u "a") (u "b") = ln (2 * 5 / (2 * 2)).
Proof.
  split; [lia|]. split; [apply Permutation_refl|]. split; [reflexivity|]. eexists. assert (B : build_col_freq ex_match ex_is_sep ex_id ex_id ex_rv no_vocab 1 1 (copies 3 ex_cfiles)
    (Ok (Some (Ttm (Sp Csr [[(1, 6%Z)]; [(0, 6%Z); (2, 3%Z)]] 3) (map u ["a"; "b"]%string) (map u ["a"; "b"; "c"]%string))))).
  { exists 1, (repeat Producer 7 ++ repeat (Worker 0) 9). eexists. split; [auto|]. split; [vm_compute; reflexivity|]. split; vm_compute; reflexivity. }
  split; [exact B|]. pose proof (C183_copies _ _ _ _ _ _ _ _ 3 _ _ _ _ ex_proper ltac:(lia) (Permutation_refl _) ex_built_ok B) as H. destruct C182_ex as (_ & _ & m & E & R & C & V & _). rewrite E in H. cbn [same_scores] in H.
  destruct (corpus_ppmi _) as [m'|]; [|contradiction]. exists m'. split; [reflexivity|]. destruct H as (_ & _ & H). rewrite <- H; [exact V| |]; [rewrite R|rewrite C]; cbn; tauto.
Qed.

(** ** C184: two corpora together *)
(** Cells add up; None stands for no pairs at all; the columns are those of either. *)
Theorem C184_joint : forall {L M} (match_line : L -> option M) separator (get_type get_colloc : M -> pystr) rv cv l r contents1 contents2 built1 built2 built, proper rv cv ->
  build_col_freq match_line separator get_type get_colloc rv cv l r contents1 built1 ->
  build_col_freq match_line separator get_type get_colloc rv cv l r contents2 built2 ->
  build_col_freq match_line separator get_type get_colloc rv cv l r (contents1 ++ contents2) built ->
  exists o1 o2 o, built1 = Ok o1 /\ built2 = Ok o2 /\ built = Ok o /\
    (forall t c, cell_of o t c = cell_of o1 t c + cell_of o2 t c)%Z /\
    (o = None <-> o1 = None /\ o2 = None) /\
    (forall m m1 m2, o = Some m -> o1 = Some m1 -> o2 = Some m2 -> trows m = trows m1 /\ trows m = trows m2 /\ forall c, In c (tcols m) <-> In c (tcols m1) \/ In c (tcols m2)).
Proof.
  intros * PR B1 B2 B. destruct (built_holds _ _ _ _ _ _ _ _ _ _ PR B1) as (o1 & -> & H1). destruct (built_holds _ _ _ _ _ _ _ _ _ _ PR B2) as (o2 & -> & H2). destruct (built_holds _ _ _ _ _ _ _ _ _ _ PR B) as (o & -> & H).
  exists o1, o2, o. do 3 (split; [reflexivity|]). exact (joint_cells _ _ _ _ _ _ _ _ contents1 contents2 o1 o2 o H1 H2 H).
Qed.
Print Assumptions C184_joint.
Example C184_ex : exists built, build_col_freq ex_match ex_is_sep ex_id ex_id ex_rv no_vocab 1 1 (ex_cfiles ++ ex_ab 2) built /\
  exists m, built = Ok (Some m) /\ val m (u "a") (u "b") = (2 + 2)%Z /\ val m (u "b") (u "c") = (1 + 0)%Z.
Proof.
  eexists. split.
  - exists 1, (repeat Producer 5 ++ repeat (Worker 0) 7). eexists. split; [auto|]. split; [vm_compute; reflexivity|]. split; [vm_compute; reflexivity|]. vm_compute. reflexivity.
  - eexists. split; [reflexivity|]. split; vm_compute; reflexivity.
Qed.

(** ** C185: corpora read backwards *)
(** No segment has 2 to max(l, r) tokens, so that all tokens are targets (C05). *)
Definition no_short_segments {L M} (match_line : L -> option M) separator (n : nat) (contents : list (list L)) : Prop :=
  forall lines xs, In lines contents -> In xs (file_segs match_line separator lines) -> length xs <= 1 \/ n < length xs.
Definition same_matrix (a b : res (option (ttm Z))) : Prop :=
  match a, b with
  | Ok None, Ok None => True
  | Ok (Some m), Ok (Some m') => trows m = trows m' /\ tcols m = tcols m' /\ forall t c, val m t c = val m' t c
  | _, _ => False
  end.
Definition backwards : Prop := forall (rv cv : vocab) l r contents built built', proper rv cv ->
  build_col_freq ex_match ex_is_sep ex_id ex_id rv cv l r contents built -> build_col_freq ex_match ex_is_sep ex_id ex_id rv cv r l (map (@rev pystr) contents) built' ->
  same_matrix built built'.
(** Missing: segments of 2 to max(l, r) tokens. *)
Theorem C185_backwards_partial : forall {L M} (match_line : L -> option M) separator (get_type get_colloc : M -> pystr) rv cv l r contents built built', proper rv cv ->
  no_short_segments match_line separator (Nat.max l r) contents ->
  build_col_freq match_line separator get_type get_colloc rv cv l r contents built ->
  build_col_freq match_line separator get_type get_colloc rv cv r l (map (@rev L) contents) built' ->
  same_matrix built built'.
Proof.
  intros * PR NS B B'. destruct (built_holds _ _ _ _ _ _ _ _ _ _ PR B) as (o & -> & HO). destruct (built_holds _ _ _ _ _ _ _ _ _ _ PR B') as (o' & -> & HO').
  assert (F : forall n k, k <= 1 \/ n < k -> foci_spec n k = k). { intros n k H. unfold foci_spec. destruct (Nat.leb_spec 2 k), (Nat.leb_spec k n); cbn; lia. }
  assert (E : forall t c, corpus_pairs match_line separator get_type get_colloc rv cv r l (map (@rev L) contents) t c = corpus_pairs match_line separator get_type get_colloc rv cv l r contents t c).
  { apply mirror_counts. intros lines xs I J. destruct (NS lines xs I J); split; apply F; lia. }
  destruct PR as (_ & _ & FC). pose proof (holds_unique rv cv o o' _ HO (holds_ext rv cv FC o' _ _ E HO')) as H. destruct o, o'; exact H.
Qed.
Print Assumptions C185_backwards_partial.
Theorem C185_backwards_refuted : ~ backwards.
Proof.
  intros H. assert (B : forall x, x = "a"%string \/ x = "b"%string -> exists m, build_col_freq ex_match ex_is_sep ex_id ex_id ex_rv no_vocab 2 2
      [map u [x; if String.eqb x "a" then "b" else "a"]%string] (Ok (Some m)) /\ val m (u x) (u (if String.eqb x "a" then "b" else "a")%string) = 1%Z /\ val m (u (if String.eqb x "a" then "b" else "a")%string) (u x) = 0%Z).
  { intros x [-> | ->]; eexists; split.
    1, 3: exists 1, (repeat Producer 2 ++ repeat (Worker 0) 4); eexists; split; [auto|]; split; [vm_compute; reflexivity|]; split; [vm_compute; reflexivity|]; vm_compute; reflexivity.
    all: split; vm_compute; reflexivity. }
  destruct (B "a"%string) as (m & B1 & V1 & _); [now left|]. destruct (B "b"%string) as (m' & B2 & _ & V2); [now right|].
  specialize (H ex_rv no_vocab 2 2 _ _ _ ex_proper B1 B2). destruct H as (_ & _ & H). cbn [String.eqb] in *. rewrite H in V1. vm_compute in V1, V2. congruence.
Qed.
Print Assumptions C185_backwards_refuted.
Example C185_ex : no_short_segments ex_match ex_is_sep (Nat.max 2 1) [map u ["a"; "b"; "c"; "</s>"; "a"]%string] /\
  exists m m', build_col_freq ex_match ex_is_sep ex_id ex_id ex_rv no_vocab 2 1 [map u ["a"; "b"; "c"; "</s>"; "a"]%string] (Ok (Some m)) /\
    build_col_freq ex_match ex_is_sep ex_id ex_id ex_rv no_vocab 1 2 [map u ["a"; "</s>"; "c"; "b"; "a"]%string] (Ok (Some m')) /\
    map (fun tc => val m (fst tc) (snd tc)) (list_prod (trows m) (tcols m)) = [0; 1; 0; 1; 0; 1]%Z /\ tcols m = map u ["a"; "b"; "c"]%string /\ m' = m.
Proof.
  split.
  - intros lines xs [<-|[]] I. vm_compute in I. destruct I as [<-|[<-|[]]]; cbn; [right|left]; lia.
  - eexists. eexists. split; [|split].
    1, 2: exists 1, (repeat Producer 2 ++ repeat (Worker 0) 4); eexists; split; [auto|]; split; [vm_compute; reflexivity|]; split; [vm_compute; reflexivity|]; vm_compute; reflexivity.
    split; [vm_compute; reflexivity|]. split; reflexivity.
Qed.
