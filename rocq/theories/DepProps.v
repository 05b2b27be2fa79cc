(** * Claims about dependency patterns: C46-C52, C84-C87. *)
From Coq Require Import String NArith ZArith Bool Arith Lia Permutation List.
From Verif Require Import Base BaseLemmas Str VocabModel CorpusModel ParModel ParProofs MxModel MxSpec DepModel DepSpec DepFullSpec DepFullProofs
  DepGraphProofs DepTreeProofs DepMatchProofs DepEmbProofs DepMainProofs DepTotalProofs DepCountProofs DepReadProofs DepUseProofs DepLinearProofs.
Import ListNotations.

(** ** Example data: regular expressions "." (anything) and literal prefixes; group 0 is the whole value, group 1 what the
    expression stands for. *)
Fixpoint starts (r s : pystr) : bool := match r, s with [], _ => true | a :: r', b :: s' => eqb a b && starts r' s' | _, _ => false end.
Definition ex_re (r s : pystr) : option (pystr * pystr) := if eqb r (u ".") then Some (s, s) else if starts r s then Some (s, r) else None.
Definition ex_group (m : pystr * pystr) (g : Z) : res (option pystr) :=
  if (g =? 0)%Z then Ok (Some (fst m)) else if (g =? 1)%Z then Ok (Some (snd m)) else Err IndexError.
Definition lp (l p : pystr) : attrs := [(u "lemma", AStr l); (u "pos", AStr p)].
Definition rel (i : Z) (r : pystr) : attrs := [(u "id", AInt i); (u "deprel", AStr r)].
(** A noun with the verb it is the subject of; the verb is the feature. *)
Definition ex_pattern : graph := Graph [(1%Z, lp (u ".") (u "N")); (2%Z, lp (u ".") (u "V"))] [((2, 1)%Z, rel 1 (u "nsubj"))].
Definition ex_macro : macro := Macro ex_pattern 2 1 2 [(u "lemma", 1%Z); (u "pos", 1%Z)] [(u "lemma", 1%Z)] [(u "deprel", 1%Z)] None [].
(** boy and girl, both subjects of eat; the root has no attributes *)
Definition ex_tree : graph :=
  Graph [(1%Z, lp (u "boy") (u "NN")); (2%Z, lp (u "eat") (u "VB")); (3%Z, lp (u "girl") (u "NN")); (0%Z, [])]
        [((2, 1)%Z, rel 1 (u "nsubj")); ((0, 2)%Z, rel 2 (u "root")); ((2, 3)%Z, rel 3 (u "nsubj"))].
Definition ex_sent : sentence := Sentence ex_tree false (u "").
Definition ex_rec (n : pystr) (i : Z) : mrec := MRec [(2%Z, lp (u "eat") (u "VB")); (1%Z, lp n (u "NN"))] [((2, 1)%Z, rel i (u "nsubj"))].
Definition ex_recs : list mrec := [ex_rec (u "boy") 1; ex_rec (u "girl") 3].
Lemma ex_gwf_tree : gwf ex_tree.
Proof.
  split; [repeat constructor; cbn; intuition discriminate|]. split; [repeat constructor; cbn; intuition discriminate|].
  intros a b E. cbn in E. destruct E as [E|[E|[E|[]]]]; injection E as <- <-; cbn; auto 8.
Qed.
Lemma ex_gwf_pattern : gwf ex_pattern.
Proof.
  split; [repeat constructor; cbn; intuition discriminate|]. split; [repeat constructor; cbn; intuition discriminate|].
  intros a b E. cbn in E. destruct E as [E|[]]. injection E as <- <-. cbn; auto.
Qed.
Lemma ex_rooted : rooted ex_pattern 2.
Proof.
  split; [cbn; auto|]. split; [intros a [E|[]]; discriminate|]. split.
  - intros a b c [E|[]] [F|[]]. congruence.
  - intros v [<-|[<-|[]]]; [exists 1|exists 0]; [|constructor]. apply below_S with 2%Z; [constructor|]. left. reflexivity.
Qed.
Lemma ex_macro_wf : macro_wf ex_macro.
Proof. split; [apply ex_gwf_pattern|]. split; [cbn; auto|]. split; [exists 2%Z; apply ex_rooted|]. vm_compute. reflexivity. Qed.

(** ** C46 *)
(** Every recorded match is the record of an embedding that passes the target filter. *)
Theorem C46_sound : forall {M} (re_match : pystr -> pystr -> option M) s m recs, gwf (sgraph s) -> macro_wf m ->
  tree_match re_match s m = Some (Ok recs) ->
  Forall (fun rec => exists f, embedding re_match (mgraph m) (sgraph s) f /\ passes m s f /\ records (mgraph m) s f rec) recs.
Proof.
  intros * W Wm E. destruct (istree (sgraph s)) eqn:T.
  - destruct (tree_match_correct re_match s m recs W Wm T E) as (fs & F & _). apply Forall_forall. intros rec I. destruct (Forall2_In_r _ _ _ _ F I) as (f & _ & H). eauto.
  - unfold tree_match in E. rewrite T in E. injection E as <-. constructor.
Qed.
Print Assumptions C46_sound.
(** Matching returns when the attributes the pattern looks at are there. *)
Theorem C46_returns : forall {M} (re_match : pystr -> pystr -> option M) s m, gwf (sgraph s) -> macro_wf m -> covers (sgraph s) m ->
  exists recs, tree_match re_match s m = Some (Ok recs).
Proof. exact @tree_match_total. Qed.
Print Assumptions C46_returns.
(** The graphs made from the lines of a file are such graphs, and give every node at most one head if the ids are distinct. *)
Theorem C46_sentence_graphs : forall {L LM} (match_line : L -> option LM) (get_col : LM -> pystr -> pystr) (f : fmt) token fid ss sg,
  sentence_graph match_line get_col f token fid ss = Ok sg ->
  gwf (sgraph sg) /\ stoken sg = token /\ sfid sg = fid /\
  (forall h i, edge (sgraph sg) h i -> exists ll m, In ll ss /\ match_line (snd ll) = Some m /\ int_of_str (get_col m (currID f)) = Ok i /\ int_of_str (get_col m (headID f)) = Ok h).
Proof.
  intros * E. destruct (sentence_graph_wf match_line get_col f token fid ss sg E) as (A & B & C & D & _). repeat (split; auto).
  intros h i Ei. destruct (D h i Ei) as (ll & I & K). unfold line_ids in K. destruct (match_line (snd ll)) as [m|] eqn:Em; [|discriminate].
  destruct (int_of_str (get_col m (currID f))) as [i'|] eqn:E1; [|discriminate]. destruct (int_of_str (get_col m (headID f))) as [h'|] eqn:E2; [|discriminate]. injection K as -> ->. eauto 8.
Qed.
Print Assumptions C46_sentence_graphs.
Example C46_ex : gwf (sgraph ex_sent) /\ macro_wf ex_macro /\ covers (sgraph ex_sent) ex_macro /\ tree_match ex_re ex_sent ex_macro = Some (Ok ex_recs).
Proof.
  split; [apply ex_gwf_tree|]. split; [apply ex_macro_wf|]. split; [|vm_compute; reflexivity].
  assert (Nd : forall w a, dget (gnodes ex_tree) w = Some a -> a = [] \/ (gives a (u "lemma") /\ gives a (u "pos"))).
  { intros w a E. apply dget_Some_In in E. destruct E as [E|[E|[E|[E|[]]]]]; injection E as <- <-; auto; right; split; eexists; reflexivity. }
  split; [|split].
  - intros v pa attr x E I. apply dget_Some_In in E. destruct E as [E|[E|[]]]; injection E as <- <-; destruct I as [I|[I|[]]]; injection I as <- <-;
      (split; [eexists; reflexivity|]); intros w a Ew; destruct (Nd w a Ew) as [|[]]; auto.
  - intros e pa attr x E I. apply dget_Some_In in E. destruct E as [E|[]]. injection E as <- <-. destruct I as [I|[]]. injection I as <- <-. split; [eexists; reflexivity|].
    intros e' a Ee. apply dget_Some_In in Ee. destruct Ee as [E|[E|[E|[]]]]; injection E as <- <-; eexists; reflexivity.
  - intros H. now elim H.
Qed.

(** ** C47: complete when every node and every edge of the pattern has some constraint. *)
Theorem C47_complete_partial : forall {M} (re_match : pystr -> pystr -> option M) s m recs, gwf (sgraph s) -> macro_wf m -> istree (sgraph s) = true ->
  tree_match re_match s m = Some (Ok recs) -> constrained (mgraph m) ->
  forall f, embedding re_match (mgraph m) (sgraph s) f -> passes m s f ->
  exists g rec, In rec recs /\ same_on (mgraph m) f g /\ records (mgraph m) s g rec.
Proof.
  intros * W Wm T E C f Ef Pf. destruct (tree_match_correct re_match s m recs W Wm T E) as (fs & F & Co & _). destruct (Co C f Ef Pf) as (g & Ig & Sg).
  destruct (Forall2_In_l _ _ _ _ F Ig) as (rec & Ir & _ & _ & R). eauto.
Qed.
Print Assumptions C47_complete_partial.
Example C47_ex : istree ex_tree = true /\ constrained (mgraph ex_macro) /\
  exists f, embedding ex_re (mgraph ex_macro) (sgraph ex_sent) f /\ passes ex_macro ex_sent f /\ f 1%Z = 3%Z /\ f 2%Z = 2%Z.
Proof.
  split; [vm_compute; reflexivity|]. split.
  - split; intros v pa E; apply dget_Some_In in E.
    + destruct E as [E|[E|[]]]; injection E as <- <-; discriminate.
    + destruct E as [E|[]]; injection E as <- <-; discriminate.
  - exists (fun v => if (v =? 1)%Z then 3%Z else 2%Z). split; [|split; [exact I|split; reflexivity]]. split; [|split].
    + intros v pa E. apply dget_Some_In in E. destruct E as [E|[E|[]]]; injection E as <- <-; eexists; (split; [vm_compute; reflexivity|]);
        intros attr rg [I|[I|[]]]; injection I as <- <-; eexists; eexists; repeat split; vm_compute; discriminate.
    + intros h t pa E. apply dget_Some_In in E. destruct E as [E|[]]. injection E as <- <- <-. eexists. split; [vm_compute; reflexivity|].
      intros attr rg [I|[]]. injection I as <- <-. eexists. eexists. repeat split; vm_compute; discriminate.
    + intros v w [<-|[<-|[]]] [<-|[<-|[]]]; auto; discriminate.
Qed.
(** A pattern node without constraints never matches anything, although every node satisfies it. *)
Definition ex_free : macro :=
  Macro (Graph [(1%Z, lp (u ".") (u "N")); (2%Z, [])] [((2, 1)%Z, rel 1 (u "nsubj"))]) 2 1 2 [(u "lemma", 1%Z)] [] [(u "deprel", 1%Z)] None [].
Theorem C47_unconstrained_refuted : exists s m f, gwf (sgraph s) /\ macro_wf m /\ istree (sgraph s) = true /\
  embedding ex_re (mgraph m) (sgraph s) f /\ passes m s f /\ tree_match ex_re s m = Some (Ok []).
Proof.
  exists ex_sent, ex_free, (fun v => v). split; [apply ex_gwf_tree|]. split.
  { split; [|split; [cbn; auto|split; [|vm_compute; reflexivity]]].
    - split; [repeat constructor; cbn; intuition discriminate|]. split; [repeat constructor; cbn; intuition discriminate|]. intros a b [E|[]]. injection E as <- <-. cbn; auto.
    - exists 2%Z. split; [cbn; auto|]. split; [intros a [E|[]]; discriminate|]. split; [intros a b c [E|[]] [F|[]]; congruence|].
      intros v [<-|[<-|[]]]; [exists 1|exists 0]; [|constructor]. apply below_S with 2%Z; [constructor|]. left. reflexivity. }
  split; [vm_compute; reflexivity|]. split; [|split; [exact I|vm_compute; reflexivity]]. split; [|split; [|auto]].
  - intros v pa E. apply dget_Some_In in E. destruct E as [E|[E|[]]]; injection E as <- <-; eexists; (split; [vm_compute; reflexivity|]).
    + intros attr rg [I|[I|[]]]; injection I as <- <-; eexists; eexists; repeat split; vm_compute; discriminate.
    + intros attr rg [].
  - intros h t pa E. apply dget_Some_In in E. destruct E as [E|[]]. injection E as <- <- <-. eexists. split; [vm_compute; reflexivity|].
    intros attr rg [I|[]]. injection I as <- <-. eexists. eexists. repeat split; vm_compute; discriminate.
Qed.
Print Assumptions C47_unconstrained_refuted.

(** ** C48: the records are those of pairwise different embeddings. *)
Theorem C48_once : forall {M} (re_match : pystr -> pystr -> option M) s m recs, gwf (sgraph s) -> macro_wf m -> istree (sgraph s) = true ->
  tree_match re_match s m = Some (Ok recs) ->
  exists fs, Forall2 (fun f rec => embedding re_match (mgraph m) (sgraph s) f /\ records (mgraph m) s f rec) fs recs /\
    forall i j f g, nth_error fs i = Some f -> nth_error fs j = Some g -> same_on (mgraph m) f g -> i = j.
Proof.
  intros * W Wm T E. destruct (tree_match_correct re_match s m recs W Wm T E) as (fs & F & _ & U). exists fs. split; auto. eapply Forall2_weak; [|exact F]. intros a b (A & _ & B). auto.
Qed.
Print Assumptions C48_once.
(** Hypotheses met with two records: [C46_ex], [C47_ex].  Here the same attributes occur twice: two embeddings, two
    records. *)
Definition ex_twins : sentence :=
  Sentence (Graph [(1%Z, lp (u "boy") (u "NN")); (2%Z, lp (u "eat") (u "VB")); (3%Z, lp (u "boy") (u "NN"))]
                  [((2, 1)%Z, rel 1 (u "nsubj")); ((2, 3)%Z, rel 1 (u "nsubj"))]) false (u "").
Example C48_ex : istree (sgraph ex_twins) = true /\ tree_match ex_re ex_twins ex_macro = Some (Ok [ex_rec (u "boy") 1; ex_rec (u "boy") 1]).
Proof. split; vm_compute; reflexivity. Qed.

(** ** C49 *)
(** The matrix built from the recorded matches has in every cell the number of matches with that target and feature. *)
Theorem C49_cells : forall {M} (re_match : pystr -> pystr -> option M) re_group ms token X,
  build_matrix_by_matches re_match re_group ms token = Ok X ->
  exists pairs, Forall2 (fun mr x => target re_match re_group (fst mr) token (snd mr) = Ok (fst x) /\ feature re_match re_group (fst mr) (snd mr) = Ok (snd x)) (all_matches ms) pairs /\
    counts_of pairs X.
Proof. exact @build_inv. Qed.
Print Assumptions C49_cells.
(** It is built whenever there is a match and all targets and features can be made; no matches: ValueError. *)
Theorem C49_built : forall {M} (re_match : pystr -> pystr -> option M) re_group ms token pairs,
  Forall2 (fun mr x => target re_match re_group (fst mr) token (snd mr) = Ok (fst x) /\ feature re_match re_group (fst mr) (snd mr) = Ok (snd x)) (all_matches ms) pairs ->
  match pairs with
  | [] => build_matrix_by_matches re_match re_group ms token = Err ValueError
  | _ => exists X, build_matrix_by_matches re_match re_group ms token = Ok X /\ counts_of pairs X
  end.
Proof. exact @build_ok. Qed.
Print Assumptions C49_built.
(** Executions of the pool end. *)
Theorem C49_terminates : forall {L LM} (match_line : L -> option LM) separator get_col f {M} (re_match : pystr -> pystr -> option M) token targets macros nw files sched st,
  run (dep_pool_job match_line separator get_col f re_match token targets macros) dep_finish (start tt nw files) sched = Some st ->
  length sched <= 4 * length files + 6 * nw /\
  ((forall a, pstep (dep_pool_job match_line separator get_col f re_match token targets macros) dep_finish st a = None) -> joined st = true).
Proof.
  intros * E. split.
  - apply run_bound in E. rewrite mu_start in E. lia.
  - intros H. destruct (joined st) eqn:Jn; auto.
    destruct (progress tt _ _ _ _ st (reach tt _ _ nw files sched st E) Jn) as (a & st' & E'). rewrite H in E'. discriminate.
Qed.
Print Assumptions C49_terminates.
(** Whatever the number of workers, the schedule and the order of the files: the same matrix, an exception in both cases, or
    both calls block. *)
Theorem C49_schedule_independent : forall {L LM} (match_line : L -> option LM) separator get_col f {M} (re_match : pystr -> pystr -> option M) re_group token targets macros
  files files' nw nw' sched sched' st st', 1 <= nw -> 1 <= nw' -> Permutation files files' ->
  run (dep_pool_job match_line separator get_col f re_match token targets macros) dep_finish (start tt nw files) sched = Some st -> joined st = true ->
  run (dep_pool_job match_line separator get_col f re_match token targets macros) dep_finish (start tt nw' files') sched' = Some st' -> joined st' = true ->
  match dep_result re_match re_group token macros (length files) st, dep_result re_match re_group token macros (length files') st' with
  | None, None => True
  | Some (Err _), Some (Err _) => True
  | Some (Ok X), Some (Ok X') => trows X = trows X' /\ tcols X = tcols X' /\ forall t c, val X t c = val X' t c
  | _, _ => False
  end.
Proof. exact @pool_independent. Qed.
Print Assumptions C49_schedule_independent.
(** What a file contributes: for every macro, what tree_match records for each of its sentences. *)
Theorem C49_file : forall {L LM} (match_line : L -> option LM) separator get_col f {M} (re_match : pystr -> pystr -> option M) token targets macros fid lines ms,
  dep_job match_line separator get_col f re_match token targets macros fid lines = Some (Ok ms) <->
  exists sgs, Forall2 (fun s sg => sentence_graph match_line get_col f token fid s = Ok sg) (read_sentence match_line separator lines) sgs /\
    Forall2 (fun m m' => exists rss, Forall2 (fun sg rs => tree_match re_match sg (with_filter m (Some (handler_targets targets))) = Some (Ok rs)) sgs rss /\
                         m' = with_matched (with_filter m (Some (handler_targets targets))) (matched m ++ concat rss)) macros ms.
Proof. exact @dep_job_ok. Qed.
Print Assumptions C49_file.
(** The matrix of a corpus: the counts of the targets and features of all matches in all files. *)
Theorem C49_corpus : forall {L LM} (match_line : L -> option LM) separator get_col f {M} (re_match : pystr -> pystr -> option M) re_group token targets macros files mss nw sched st,
  1 <= nw -> (forall m, In m macros -> matched m = []) ->
  Forall2 (fun file ms => exists lines, snd file = Ok lines /\ dep_job match_line separator get_col f re_match token targets macros (fst file) lines = Some (Ok ms)) files mss ->
  run (dep_pool_job match_line separator get_col f re_match token targets macros) dep_finish (start tt nw files) sched = Some st -> joined st = true ->
  forall pairs, Forall2 (fun mr x => target re_match re_group (fst mr) token (snd mr) = Ok (fst x) /\ feature re_match re_group (fst mr) (snd mr) = Ok (snd x)) (flat_map all_matches mss) pairs ->
  pairs <> [] -> exists X, dep_result re_match re_group token macros (length files) st = Some (Ok X) /\ counts_of pairs X.
Proof.
  intros * N Fr F E Jn pairs FP Ne. assert (Z : all_matches macros = []).
  { clear - Fr. unfold all_matches. induction macros as [|m macros IH]; auto. cbn [flat_map]. rewrite (Fr m) by (cbn; auto). apply IH. intros; apply Fr; cbn; auto. }
  pose proof (pool_result match_line separator get_col f re_match re_group token targets macros files mss nw sched st N F E Jn pairs) as R. rewrite Z in R. specialize (R FP).
  destruct pairs; [congruence|exact R].
Qed.
Print Assumptions C49_corpus.

(** A corpus: lines of columns lemma, pos, id, head, relation *)
Definition cols : list pystr := map u ["lemma"; "pos"; "id"; "head"; "deprel"]%string.
Definition ex_ml (l : list pystr) : option (list pystr) := if length l =? 5 then Some l else None.
Definition ex_sp (l : list pystr) : bool := eqb l [u "</s>"].
Definition ex_gc (l : list pystr) (c : pystr) : pystr := nth (match index_of c cols with Some i => i | None => 5 end) l [].
Definition ex_fmt : fmt := Fmt cols (map u ["lemma"; "pos"]%string) (Some [u "deprel"]) (u "id") (u "head").
Definition w (a b c d e : string) : list pystr := map u [a; b; c; d; e].
Definition ex_lines1 : list (list pystr) := [w "boy" "NN" "1" "2" "nsubj"; w "eat" "VB" "2" "0" "root"; w "girl" "NN" "3" "2" "nsubj"; [u "</s>"];
                                             w "boy" "NN" "1" "2" "nsubj"; w "run" "VB" "2" "0" "root"].
Definition ex_lines2 : list (list pystr) := [w "girl" "NN" "1" "2" "nsubj"; w "eat" "VB" "2" "0" "root"; [u "</s>"]].
Definition ex_files : list (pystr * res (list (list pystr))) := [(u "f1", Ok ex_lines1); (u "f2", Ok ex_lines2)].
Definition ex_targets : option (list pystr) := Some [u "boy/NN"; u "girl/NN"].
Definition ex_job := dep_pool_job ex_ml ex_sp ex_gc ex_fmt ex_re false ex_targets [ex_macro].
Definition ex_run (files : list (pystr * res (list (list pystr)))) : list actor :=
  [Producer; Worker 1; Producer; Producer; Worker 0; Worker 1; Producer; Worker 0; Worker 1; Worker 1; Worker 0; Worker 0].
Example C49_ex : exists st X, run ex_job dep_finish (start tt 2 ex_files) (ex_run ex_files) = Some st /\ joined st = true /\
  dep_result ex_re ex_group false [ex_macro] 2 st = Some (Ok X) /\ trows X = [u "boy/N"; u "girl/N"] /\ tcols X = [u "eat"; u "run"] /\
  val X (u "boy/N") (u "eat") = 1%Z /\ val X (u "boy/N") (u "run") = 1%Z /\ val X (u "girl/N") (u "eat") = 2%Z /\ val X (u "girl/N") (u "run") = 0%Z.
Proof. vm_compute. eexists. eexists. repeat split. Qed.

(** ** C50 *)
(** With a target list, exactly the matches whose target (the attribute values joined by slashes) is in the list are
    recorded, in the same order. *)
Theorem C50_filter_partial : forall {M} (re_match : pystr -> pystr -> option M) s m l r o,
  tree_match re_match s (with_filter m None) = Some (Ok r) -> tree_match re_match s (with_filter m (Some l)) = Some (Ok o) ->
  o = filter (in_targets m l) r.
Proof. exact @tree_match_filter. Qed.
Print Assumptions C50_filter_partial.
Example C50_ex : tree_match ex_re ex_sent (with_filter ex_macro None) = Some (Ok ex_recs) /\
  tree_match ex_re ex_sent (with_filter ex_macro (Some [u "girl/NN"; u "ape/NN"])) = Some (Ok [ex_rec (u "girl") 3]).
Proof. split; vm_compute; reflexivity. Qed.
(** When the label of the target shows whole values, the rows of the matrix are in the list: the label is what is compared. *)
Theorem C50_label_partial : forall {M} (re_match : pystr -> pystr -> option M) re_group m r t,
  (forall regex s x g, re_match regex s = Some x -> In g (dvals (target_attrs m)) -> re_group x g = Ok (Some s)) ->
  (forall attr g pa a regex s, In (attr, g) (target_attrs m) -> special_attr attr = false -> dget (gnodes (mgraph m)) (target_idx m) = Some pa -> dget (m_nodes r) (target_idx m) = Some a ->
     dget pa attr = Some (AStr regex) -> dget a attr = Some (AStr s) -> re_match regex s <> None) ->
  target re_match re_group m false r = Ok t -> (exists at_, In at_ (target_attrs m) /\ special_attr (fst at_) = false) -> rec_type m r = Some t.
Proof. exact @label_type. Qed.
Print Assumptions C50_label_partial.
Example C50_label_ex : let m := Macro ex_pattern 2 1 2 [(u "lemma", 0%Z); (u "pos", 0%Z)] [(u "lemma", 1%Z)] [(u "deprel", 1%Z)] None [] in
  target ex_re ex_group m false (ex_rec (u "boy") 1) = Ok (u "boy/NN") /\ rec_type m (ex_rec (u "boy") 1) = Some (u "boy/NN").
Proof. split; vm_compute; reflexivity. Qed.
(** Otherwise the list must hold full values, not the labels of the rows: the match labelled boy/N is lost when the
    list holds boy/N. *)
Theorem C50_label_refuted : exists m s l r t, tree_match ex_re s (with_filter m None) = Some (Ok [r]) /\
  target ex_re ex_group m false r = Ok t /\ In t l /\ tree_match ex_re s (with_filter m (Some l)) = Some (Ok []).
Proof.
  exists ex_macro, (Sentence (Graph [(1%Z, lp (u "boy") (u "NN")); (2%Z, lp (u "eat") (u "VB"))] [((2, 1)%Z, rel 1 (u "nsubj"))]) false (u "")), [u "boy/N"], (ex_rec (u "boy") 1), (u "boy/N").
  repeat split; try (vm_compute; reflexivity). cbn; auto.
Qed.
Print Assumptions C50_label_refuted.
(** Without a target list nothing is counted, in any corpus: build_dependency raises ValueError (or blocks). *)
Theorem C50_none_refuted : forall {L LM} (match_line : L -> option LM) separator get_col f {M} (re_match : pystr -> pystr -> option M) re_group token macros files nw sched st,
  run (dep_pool_job match_line separator get_col f re_match token None (read_templates macros)) dep_finish (start tt nw files) sched = Some st -> joined st = true ->
  dep_result re_match re_group token (read_templates macros) (length files) st = None \/
  dep_result re_match re_group token (read_templates macros) (length files) st = Some (Err ValueError).
Proof. exact @build_none. Qed.
Print Assumptions C50_none_refuted.
Example C50_none_ex : exists st, run (dep_pool_job ex_ml ex_sp ex_gc ex_fmt ex_re false None (read_templates [ex_macro])) dep_finish (start tt 2 ex_files) (ex_run ex_files) = Some st /\
  joined st = true /\ dep_result ex_re ex_group false (read_templates [ex_macro]) 2 st = Some (Err ValueError).
Proof. vm_compute. eexists. repeat split. Qed.

(** ** C51 *)
(** The sentences hold the matching lines with their numbers, in order. *)
Theorem C51_lines : forall {L LM} (match_line : L -> option LM) separator lines,
  concat (read_sentence match_line separator lines) = filter (fun il => is_some (match_line (snd il))) (numbered lines).
Proof. exact @read_lines. Qed.
Print Assumptions C51_lines.
(** Two matching lines are in the same sentence exactly if there is no separator from the first up to the second (exclusive). *)
Theorem C51_groups : forall {L LM} (match_line : L -> option LM) separator lines i a j b,
  In (i, a) (filter (fun il => is_some (match_line (snd il))) (numbered lines)) -> In (j, b) (filter (fun il => is_some (match_line (snd il))) (numbered lines)) -> i < j ->
  (exists s, In s (read_sentence match_line separator lines) /\ In (i, a) s /\ In (j, b) s) <->
  (forall k x, In (k, x) (numbered lines) -> i <= k < j -> separator x = false).
Proof. exact @read_groups. Qed.
Print Assumptions C51_groups.
Example C51_ex : read_sentence ex_ml ex_sp ex_lines1 =
  [[(1, w "boy" "NN" "1" "2" "nsubj"); (2, w "eat" "VB" "2" "0" "root"); (3, w "girl" "NN" "3" "2" "nsubj")];
   [(5, w "boy" "NN" "1" "2" "nsubj"); (6, w "run" "VB" "2" "0" "root")]].
Proof. vm_compute. reflexivity. Qed.

(** ** C52: exact for tree patterns of two or more nodes, none with id 0, with at most three neighbours per node. *)
Theorem C52_exact_partial : forall g, gwf g -> istree g = true ->
  (forall v l, NoDup l -> (forall w, In w l -> edge g v w \/ edge g w v) -> length l <= 3) ->
  2 <= length (nodes g) -> ~ In 0%Z (nodes g) ->
  exists b, islinear g = Some b /\ (b = true <-> simple_path g).
Proof.
  intros g W T D N Z. apply islinear_exact; auto.
  - intros a b Ia Ib. apply connected_linked; auto. unfold istree in T. now apply andb_true_iff in T.
  - intros a E. assert (Ia : In a (nodes g)) by (now apply (proj2 (proj2 W)) in E). exact (no_opposite g W T a Ia a a E E).
Qed.
Print Assumptions C52_exact_partial.
(** The same for patterns that are not trees, if they are connected and have no loops. *)
Theorem C52_connected_partial : forall g, gwf g -> (forall a b, In a (nodes g) -> In b (nodes g) -> linked g a b) -> (forall a, ~ edge g a a) ->
  (forall v l, NoDup l -> (forall w, In w l -> edge g v w \/ edge g w v) -> length l <= 3) ->
  2 <= length (nodes g) -> ~ In 0%Z (nodes g) ->
  exists b, islinear g = Some b /\ (b = true <-> simple_path g).
Proof. exact islinear_exact. Qed.
Print Assumptions C52_connected_partial.
Definition bare_graph (ns : list Z) (es : list (Z * Z)) : graph := Graph (map (fun v => (v, [])) ns) (map (fun e => (e, [])) es).
(** A fork is not linear, a path is. *)
Example C52_ex : islinear (bare_graph [1; 2; 3; 4]%Z [(1, 2); (2, 3); (2, 4)]%Z) = Some false /\ islinear (bare_graph [1; 2; 3; 4]%Z [(2, 1); (2, 3); (3, 4)]%Z) = Some true.
Proof. split; vm_compute; reflexivity. Qed.
Example C52_ex_hyps : let g := bare_graph [1; 2; 3; 4]%Z [(1, 2); (2, 3); (2, 4)]%Z in
  gwf g /\ istree g = true /\ (forall a b, In a (nodes g) -> In b (nodes g) -> linked g a b) /\ (forall a, ~ edge g a a) /\
  (forall v l, NoDup l -> (forall w, In w l -> edge g v w \/ edge g w v) -> length l <= 3) /\ 2 <= length (nodes g) /\ ~ In 0%Z (nodes g).
Proof.
  intros g.
  assert (W : gwf g).
  { split; [repeat constructor; cbn; intuition discriminate|]. split; [repeat constructor; cbn; intuition discriminate|].
    intros a b E. cbn in E. destruct E as [E|[E|[E|[]]]]; injection E as <- <-; cbn; auto 8. }
  split; auto. split; [vm_compute; reflexivity|]. split; [intros; apply connected_linked; auto; vm_compute; reflexivity|]. split; [intros a E; cbn in E; intuition congruence|].
  split; [|split; [cbn; lia|cbn; intuition discriminate]].
  intros v l N H. change 3 with (length [1; 3; 4]%Z) at 1. destruct (Z.eq_dec v 2) as [->|Nv].
  - apply NoDup_incl_length; auto. intros x I. apply H in I. cbn in I. cbn. intuition congruence.
  - apply Nat.le_trans with (length [2%Z]); [|cbn; lia]. apply NoDup_incl_length; auto. intros x I. apply H in I. cbn in I. cbn. intuition congruence.
Qed.
(** Any numbers of neighbours: for tree patterns islinear ends, paths are answered True, and the answer False means that some node has
    exactly three neighbours.  So the answer True is all that a tree without such a node can get, path or not. *)
Theorem C52_trees : forall g, gwf g -> istree g = true -> 2 <= length (nodes g) -> ~ In 0%Z (nodes g) ->
  exists b, islinear g = Some b /\ (simple_path g -> b = true) /\ (b = false -> exists v, has_neighbours g v 3).
Proof. exact islinear_tree. Qed.
Print Assumptions C52_trees.
(** Two centres with four neighbours each, and the same with a node of three neighbours on the way. *)
Example C52_trees_ex :
  let g := bare_graph [1; 2; 3; 4; 5; 6; 7; 8]%Z [(1, 2); (1, 3); (1, 4); (1, 5); (5, 6); (5, 7); (5, 8)]%Z in
  gwf g /\ istree g = true /\ islinear g = Some true /\ islinear (bare_graph [1; 2; 3; 4; 5; 6; 7]%Z [(1, 5); (1, 2); (1, 3); (1, 4); (5, 6); (5, 7)]%Z) = Some false.
Proof.
  intros g. cbn zeta. split.
  { split; [repeat constructor; cbn; intuition discriminate|]. split; [repeat constructor; cbn; intuition discriminate|].
    intros a b E. cbn in E. repeat (destruct E as [E|E]; [injection E as <- <-; cbn; auto 12|]). destruct E. }
  split; [vm_compute; reflexivity|]. split; vm_compute; reflexivity.
Qed.
(** A circle of three nodes with two leaves: the walk goes round for ever, so PatternGraph(...) never returns. *)
Theorem C52_circle_refuted : let g := bare_graph [1; 2; 3; 4; 5]%Z [(2, 3); (3, 4); (4, 2); (2, 1); (2, 5)]%Z in
  gwf g /\ islinear g = None /\ filter (fun v => udegree g v =? 1) (nodes g) = [1; 5]%Z /\ neighbors g 1 = [2]%Z /\ forall fuel, il_walk g fuel 1 2 = None.
Proof.
  intros g. split.
  { split; [repeat constructor; cbn; intuition discriminate|]. split; [repeat constructor; cbn; intuition discriminate|].
    intros a b E. cbn in E. repeat (destruct E as [E|E]; [injection E as <- <-; cbn; auto 12|]). destruct E. }
  split; [vm_compute; reflexivity|]. split; [vm_compute; reflexivity|]. split; [vm_compute; reflexivity|].
  assert (E2 : neighbors g 2 = [3; 1; 5; 4]%Z) by (vm_compute; reflexivity). assert (E3 : neighbors g 3 = [2; 4]%Z) by (vm_compute; reflexivity). assert (E4 : neighbors g 4 = [3; 2]%Z) by (vm_compute; reflexivity).
  assert (K : forall fuel, il_walk g fuel 4 2 = None /\ il_walk g fuel 2 3 = None /\ il_walk g fuel 3 4 = None).
  { induction fuel as [|fuel (K1 & K2 & K3)]; cbn [il_walk]; rewrite E2, E3, E4; repeat split; auto. }
  intros [|fuel]; cbn [il_walk]; rewrite E2; [reflexivity|]. apply K.
Qed.
Print Assumptions C52_circle_refuted.
(** Four leaves around a centre: answered True, but not a path. *)
Theorem C52_star_refuted : let g := bare_graph [1; 2; 3; 4; 5]%Z [(1, 2); (1, 3); (1, 4); (1, 5)]%Z in
  gwf g /\ istree g = true /\ islinear g = Some true /\ ~ simple_path g.
Proof.
  intros g. assert (W : gwf g).
  { split; [repeat constructor; cbn; intuition discriminate|]. split; [repeat constructor; cbn; intuition discriminate|].
    intros a b E. cbn in E. destruct E as [E|[E|[E|[E|[]]]]]; injection E as <- <-; cbn; auto 8. }
  split; auto. split; [vm_compute; reflexivity|]. split; [vm_compute; reflexivity|]. intros P. apply (path_degree g W 1%Z) in P. vm_compute in P. lia.
Qed.
Print Assumptions C52_star_refuted.
(** The path 0 - 1 - 2, and a single node: answered False. *)
Theorem C52_zero_refuted : let g := bare_graph [0; 1; 2]%Z [(0, 1); (1, 2)]%Z in gwf g /\ istree g = true /\ islinear g = Some false /\ simple_path g.
Proof.
  intros g. split.
  { split; [repeat constructor; cbn; intuition discriminate|]. split; [repeat constructor; cbn; intuition discriminate|].
    intros a b E. cbn in E. destruct E as [E|[E|[]]]; injection E as <- <-; cbn; auto 8. }
  split; [vm_compute; reflexivity|]. split; [vm_compute; reflexivity|]. exists [0; 1; 2]%Z. split; [reflexivity|]. intros a b. rewrite !cons_cons. cbn. split.
  - intros H. assert (X := cons_one 2%Z). intuition (try congruence); repeat match goal with H : (_, _) = (_, _) |- _ => injection H as <- <- end; auto 8.
  - intros H. intuition (try (exfalso; eapply cons_one; eassumption)); subst; auto.
Qed.
Print Assumptions C52_zero_refuted.
Theorem C52_single_refuted : let g := bare_graph [1]%Z [] in gwf g /\ istree g = true /\ islinear g = Some false /\ simple_path g.
Proof.
  intros g. split.
  { split; [repeat constructor; cbn; intuition discriminate|]. split; [constructor|]. intros a b []. }
  split; [vm_compute; reflexivity|]. split; [vm_compute; reflexivity|]. exists [1]%Z. split; [reflexivity|]. intros a b. cbn. split; [tauto|]. intros [H|H]; now apply cons_one in H.
Qed.
Print Assumptions C52_single_refuted.

(** ** C84: a file with an empty sentence.  Two separators without a matching line between them: the worker that reads the file
    dies and build_dependency never returns. *)
Theorem C84_empty_sentence_refuted : forall {L LM} (match_line : L -> option LM) separator get_col f {M} (re_match : pystr -> pystr -> option M) re_group token targets macros files fid l1 a l2 b l3 nw sched st,
  separator a = true -> separator b = true -> match_line b = None -> (forall y, In y l2 -> match_line y = None) ->
  In (fid, Ok (l1 ++ a :: l2 ++ b :: l3)) files ->
  run (dep_pool_job match_line separator get_col f re_match token targets macros) dep_finish (start tt nw files) sched = Some st -> joined st = true ->
  dep_result re_match re_group token macros (length files) st = None.
Proof. intros * Sa Sb Mb H I E Jn. eapply empty_blocks; eauto. now apply blank_sentence. Qed.
Print Assumptions C84_empty_sentence_refuted.
Definition ex_blank : list (pystr * res (list (list pystr))) := [(u "f1", Ok (ex_lines1 ++ [[u "</s>"]; [u "</s>"]])); (u "f2", Ok ex_lines2)].
Example C84_ex : (exists st, run ex_job dep_finish (start tt 2 ex_files) (ex_run ex_files) = Some st /\ joined st = true /\ dep_result ex_re ex_group false [ex_macro] 2 st <> None) /\
  exists sched st, run ex_job dep_finish (start tt 2 ex_blank) sched = Some st /\ joined st = true /\ dep_result ex_re ex_group false [ex_macro] 2 st = None.
Proof.
  split.
  - vm_compute. eexists. repeat split. discriminate.
  - exists [Producer; Worker 1; Producer; Producer; Producer; Worker 0; Worker 0; Worker 0; Worker 0]. vm_compute. eexists. repeat split.
Qed.

(** ** C85: building again without reading the templates again.  Every match of the first call counts once for itself and
    once more per file of the second call. *)
Theorem C85_again_partial : forall {L LM} (match_line : L -> option LM) separator get_col f {M} (re_match : pystr -> pystr -> option M) re_group token targets macros files mss0 old news nw sched st,
  1 <= nw ->
  Forall2 (fun file ms0 => exists lines, snd file = Ok lines /\ dep_job match_line separator get_col f re_match token targets (read_templates macros) (fst file) lines = Some (Ok ms0)) files mss0 ->
  Forall2 (pair_of re_match re_group token) (all_matches macros) old -> Forall2 (pair_of re_match re_group token) (flat_map all_matches mss0) news -> old ++ news <> [] ->
  run (dep_pool_job match_line separator get_col f re_match token targets macros) dep_finish (start tt nw files) sched = Some st -> joined st = true ->
  exists X, dep_result re_match re_group token macros (length files) st = Some (Ok X) /\
    forall t c, val X t c = ((1 + Z.of_nat (length files)) * Z.of_nat (count (t, c) old) + Z.of_nat (count (t, c) news))%Z.
Proof. exact @build_again. Qed.
Print Assumptions C85_again_partial.
(** The same file twice: 1 match in the first call, 3 in the second. *)
Theorem C85_again_refuted : let job ms := dep_pool_job ex_ml ex_sp ex_gc ex_fmt ex_re false ex_targets ms in
  let sched := [Producer; Worker 0; Producer; Worker 0; Worker 0; Worker 0] in
  let files := [(u "f2", Ok ex_lines2)] in
  exists st items X st' X',
    run (job [ex_macro]) dep_finish (start tt 1 files) sched = Some st /\ joined st = true /\ read_n 1 st = Some items /\
    dep_result ex_re ex_group false [ex_macro] 1 st = Some (Ok X) /\ val X (u "girl/N") (u "eat") = 1%Z /\
    run (job (dep_process_results [ex_macro] items)) dep_finish (start tt 1 files) sched = Some st' /\ joined st' = true /\
    dep_result ex_re ex_group false (dep_process_results [ex_macro] items) 1 st' = Some (Ok X') /\ val X' (u "girl/N") (u "eat") = 3%Z.
Proof. vm_compute. do 5 eexists. repeat split. Qed.
Print Assumptions C85_again_refuted.

(** ** C86: the full feature starts at node 1, so with node 1 as target and leaf all matches have the same feature. *)
Theorem C86_full_feature_refuted : forall {M} (re_match : pystr -> pystr -> option M) re_group m r,
  target_idx m = 1%Z -> feature_idx m = (-1)%Z -> (forall b, ~ edge (mgraph m) 1%Z b) -> feature re_match re_group m r = Ok (u "#T#").
Proof. exact @full_leaf. Qed.
Print Assumptions C86_full_feature_refuted.
(** Boy as subject of eat and of run: one feature. *)
Example C86_ex : let m := Macro ex_pattern 2 1 (-1) [(u "lemma", 1%Z)] [(u "lemma", 1%Z)] [(u "deprel", 1%Z)] None [] in
  feature ex_re ex_group m (MRec [(2%Z, lp (u "eat") (u "VB")); (1%Z, lp (u "boy") (u "NN"))] [((2, 1)%Z, rel 1 (u "nsubj"))]) = Ok (u "#T#") /\
  feature ex_re ex_group m (MRec [(2%Z, lp (u "run") (u "VB")); (1%Z, lp (u "boy") (u "NN"))] [((2, 1)%Z, rel 1 (u "nsubj"))]) = Ok (u "#T#") /\
  (* the same pattern with the ids exchanged *)
  feature ex_re ex_group (Macro (Graph [(2%Z, lp (u ".") (u "N")); (1%Z, lp (u ".") (u "V"))] [((1, 2)%Z, rel 1 (u "nsubj"))]) 2 2 (-1) [(u "lemma", 1%Z)] [(u "lemma", 1%Z)] [(u "deprel", 1%Z)] None [])
    (MRec [(1%Z, lp (u "run") (u "VB")); (2%Z, lp (u "boy") (u "NN"))] [((1, 2)%Z, rel 1 (u "nsubj"))]) = Ok (u "run->nsubj:#T#").
Proof. repeat split; vm_compute; reflexivity. Qed.
(** What the full feature is when no node of the pattern has two dependents: the text of node 1,
    then for each node below it an arrow, the text of its edge, a colon and its own text; the target shows as #T#. *)
Theorem C86_full_chain : forall {M} (re_match : pystr -> pystr -> option M) re_group m r ws start rest,
  gwf (mgraph m) -> feature_idx m = (-1)%Z -> NoDup (1%Z :: ws) -> In 1%Z (nodes (mgraph m)) ->
  (target_idx m = 1%Z -> start = u "#T#") -> (target_idx m <> 1%Z -> node_label re_match re_group m r 1 start) ->
  chain_text re_match re_group m r 1 ws rest -> feature re_match re_group m r = Ok (start ++ rest).
Proof. exact @full_chain. Qed.
Print Assumptions C86_full_chain.
Definition ex86_m : macro :=
  Macro (Graph [(1%Z, lp (u ".") (u "V")); (2%Z, lp (u ".") (u "N")); (3%Z, lp (u ".") (u "J"))] [((1, 2)%Z, rel 1 (u "nsubj")); ((2, 3)%Z, rel 1 (u "amod"))])
    3 2 (-1) [(u "lemma", 1%Z)] [(u "lemma", 1%Z)] [(u "deprel", 1%Z)] None [].
Definition ex86_r : mrec :=
  MRec [(1%Z, lp (u "run") (u "VB")); (2%Z, lp (u "boy") (u "NN")); (3%Z, lp (u "old") (u "JJ"))] [((1, 2)%Z, rel 1 (u "nsubj")); ((2, 3)%Z, rel 1 (u "amod"))].
Example C86_ex_chain : feature ex_re ex_group ex86_m ex86_r = Ok (u "run" ++ u "->nsubj:#T#->amod:old").
Proof.
  apply (C86_full_chain ex_re ex_group ex86_m ex86_r [2; 3]%Z).
  - split; [repeat constructor; cbn; intuition discriminate|]. split; [repeat constructor; cbn; intuition discriminate|].
    intros a b E. cbn in E. destruct E as [E|[E|[]]]; injection E as <- <-; cbn; auto.
  - reflexivity.
  - repeat constructor; cbn; intuition discriminate.
  - now left.
  - discriminate.
  - intros _. do 2 eexists. split; [reflexivity|]. split; [reflexivity|]. exists [u "run"]. split; [|reflexivity]. constructor; [|constructor].
    do 2 eexists. split; [reflexivity|]. split; [reflexivity|]. left. eexists. split; vm_compute; reflexivity.
  - apply (ct_step ex_re ex_group ex86_m ex86_r 1 2 [3%Z] (u "nsubj") (u "boy") (u "#T#") (u "->amod:old")).
    + intros b. unfold edge. cbn. split; [intros [E|[E|[]]]; congruence|intros ->; now left].
    + do 2 eexists. split; [reflexivity|]. split; [reflexivity|]. exists [u "nsubj"]. split; [|reflexivity]. constructor; [|constructor].
      do 2 eexists. split; [reflexivity|]. split; [reflexivity|]. left. eexists. split; vm_compute; reflexivity.
    + do 2 eexists. split; [reflexivity|]. split; [reflexivity|]. exists [u "boy"]. split; [|reflexivity]. constructor; [|constructor].
      do 2 eexists. split; [reflexivity|]. split; [reflexivity|]. left. eexists. split; vm_compute; reflexivity.
    + reflexivity.
    + intros X. now elim X.
    + apply (ct_step ex_re ex_group ex86_m ex86_r 2 3 [] (u "amod") (u "old") (u "old") []).
      * intros b. unfold edge. cbn. split; [intros [E|[E|[]]]; congruence|intros ->; right; now left].
      * do 2 eexists. split; [reflexivity|]. split; [reflexivity|]. exists [u "amod"]. split; [|reflexivity]. constructor; [|constructor].
        do 2 eexists. split; [reflexivity|]. split; [reflexivity|]. left. eexists. split; vm_compute; reflexivity.
      * do 2 eexists. split; [reflexivity|]. split; [reflexivity|]. exists [u "old"]. split; [|reflexivity]. constructor; [|constructor].
        do 2 eexists. split; [reflexivity|]. split; [reflexivity|]. left. eexists. split; vm_compute; reflexivity.
      * discriminate.
      * reflexivity.
      * constructor. intros b E. unfold edge in E. cbn in E. destruct E as [E|[E|[]]]; discriminate.
Qed.

(** ** C87: sentences taken for trees.  With distinct ids, a sentence is matched at all exactly if all its nodes hang below one
    root. *)
Theorem C87_trees : forall {L LM} (match_line : L -> option LM) (get_col : LM -> pystr -> pystr) (f : fmt) token fid ss sg,
  sentence_graph match_line get_col f token fid ss = Ok sg ->
  NoDup (map (fun ll => option_map (fun m => int_of_str (get_col m (currID f))) (match_line (snd ll))) (filter (fun ll => is_some (match_line (snd ll))) ss)) ->
  istree (sgraph sg) = true <-> exists r, rooted (sgraph sg) r.
Proof.
  intros * E N. destruct (sentence_graph_wf match_line get_col f token fid ss sg E) as (A & _ & _ & D & H). split.
  - intros T. apply istree_rooted; auto. intros a b c Ea Eb. destruct (D a c Ea) as (l1 & I1 & K1), (D b c Eb) as (l2 & I2 & K2).
    assert (G : forall ll p, line_ids match_line get_col f ll = Some p -> exists m, match_line (snd ll) = Some m /\ int_of_str (get_col m (currID f)) = Ok (fst p)).
    { intros ll p. unfold line_ids. destruct (match_line (snd ll)) as [m|]; [|discriminate]. destruct (int_of_str (get_col m (currID f))) as [i|] eqn:Ei; [|discriminate].
      destruct (int_of_str (get_col m (headID f))); [|discriminate]. intros X. injection X as <-. eauto. }
    destruct (G l1 _ K1) as (m1 & M1 & X1), (G l2 _ K2) as (m2 & M2 & X2).
    assert (l1 = l2); [|congruence]. eapply (nodup_map_eq (fun ll => option_map (fun m => int_of_str (get_col m (currID f))) (match_line (snd ll)))); [exact N| | |].
    + apply filter_In. rewrite M1. auto.
    + apply filter_In. rewrite M2. auto.
    + cbn beta. rewrite M1, M2. cbn [option_map fst] in *. congruence.
  - intros (r & R). eapply rooted_istree; eauto.
Qed.
Print Assumptions C87_trees.
Example C87_ex : exists sg, sentence_graph ex_ml ex_gc ex_fmt false (u "f1") (combine (seq 1 3) (firstn 3 ex_lines1)) = Ok sg /\ istree (sgraph sg) = true.
Proof. vm_compute. eexists. split; reflexivity. Qed.
