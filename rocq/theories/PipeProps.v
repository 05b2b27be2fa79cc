(** * Claims C140-C145: token vectors of concepts, weights of tokens, the class TypeToken. *)
From Coq Require Import String NArith ZArith Bool Arith Lia Reals Lra Permutation List.
From Verif Require Import Base BaseLemmas Str StrLemmas VocabModel TermsModel TermsProofs MxModel MxSpec MxTtmProofs MxCellProofs MxElemProofs
  CalcModel CalcSpec CalcProofs CalcProofs2 CalcVecModel CalcVecSpec TokMxModel TokMxSpec TokMxProofs PipeModel PipeSpec PipeProofs PipeProofs2.
From Verif Require TokMxPipeProofs CalcVecProps.
Import ListNotations.
Local Open Scope string_scope.
Local Open Scope nat_scope.
Local Open Scope list_scope.

(** ** C140: the vectors of the tokens of a concept *)
(** The measures depend on the frequency matrix alone; cutoffs, concepts and orders of sets vary. *)
Theorem C140_vectors : forall freq, table_ok freq -> exists P L, measures freq P L /\
  forall (order1 order2 : list pystr -> list pystr), (forall l, Permutation l (order1 l)) -> (forall l, Permutation l (order2 l)) ->
  forall (fc : Z) (pc lc : R) concepts, (0 <= fc)%Z -> NoDup (dkeys concepts) ->
  (forall k vs, In (k, vs) concepts -> exists strs, variants_ok vs strs /\ has_vectors freq P L fc pc lc vs strs) ->
  exists d, generate_vectors order1 order2 freq fc pc lc concepts = Ok d /\
    Forall2 (fun kv km => fst km = fst kv /\ vectors_are freq P L fc pc lc (snd kv) (snd km)) concepts d.
Proof.
  intros freq T. exists (Pf freq), (Lf freq). split; [exact (table_measures freq T)|]. intros o1 o2 P1 P2 fc pc lc concepts FC ND A.
  apply generate_ok; [exact P1|exact P2|exact T|exact FC|exact ND|]. apply Forall_forall. intros [k vs] I. exact (A k vs I).
Qed.
Print Assumptions C140_vectors.

(** Frequencies, and a concept with one variant and two tokens:
<<
          cat/n  sun/n
   dog/n    2      .
   cat/n    .      3      >> *)
Definition ex_fr : ttm Z := Ttm (Sp Csr [[(0, 2%Z)]; [(1, 3%Z)]] 2) (map u ["dog/n"; "cat/n"]) (map u ["cat/n"; "sun/n"]).
Definition ex_it (s : string) : inode := INode (item_attrs (Some (u s)) (Some (u s)) (Some (u "n"))) None None.
Definition ex_tk (lid : string) (ls rs : list string) : ctok :=
  CTok (KNode (item_attrs (Some (u "dog")) (Some (u "dog")) (Some (u "n")) ++ [(f_fid, Some (u "f")); (f_lid, Some (u lid))]) (u "lemma/pos/fid/lid"))
       (map ex_it ls) (map ex_it rs).
Definition ex_vs (ts : list ctok) : list (tnode ctok) := [TNode (item_attrs None (Some (u "dog")) (Some (u "n"))) (u "lemma/pos") ts].
Definition ex_ts : list ctok := [ex_tk "5" ["sun"] ["cat"]; ex_tk "6" [] ["sun"]].
Lemma ex_fr_good : tgood ex_fr.
Proof. constructor; cbn; [unfold spwf; cbn; repeat (apply Forall_cons || apply Forall_nil); (split; [repeat constructor; cbn; intuition discriminate|repeat constructor])|reflexivity|reflexivity|repeat constructor; cbn; intuition discriminate|repeat constructor; cbn; intuition discriminate]. Qed.
Lemma ex_fr_val r c : val ex_fr r c = (if eqb r (u "dog/n") then (if eqb c (u "cat/n") then 2 else 0) else if eqb r (u "cat/n") then (if eqb c (u "sun/n") then 3 else 0) else 0)%Z.
Proof.
  unfold val. cbn [trows tcols ex_fr map index_of]. unfold eqb.
  repeat match goal with |- context [eqdec ?a ?b] => let E := fresh in destruct (eqdec a b) as [E|E]; cbn [tmx] end; try subst; try discriminate; try reflexivity; try congruence.
Qed.
Lemma ex_fr_ok : table_ok ex_fr.
Proof.
  constructor; [exact ex_fr_good| |cbn; lia|cbn; lia|].
  - intros r c. rewrite ex_fr_val. destruct (eqb r (u "dog/n")); destruct (eqb c (u "cat/n")); destruct (eqb r (u "cat/n")); destruct (eqb c (u "sun/n")); lia.
  - intros c [<-|[<-|[]]]; vm_compute; reflexivity.
Qed.
Lemma ex_collocs lid ls rs : collocs_are (Some (u "lemma/pos")) (ex_tk lid ls rs) (map (fun s => u s ++ u "/n") ls) (map (fun s => u s ++ u "/n") rs).
Proof.
  assert (A : forall l, Forall2 (colloc_string (Some (u "lemma/pos"))) (map ex_it l) (map (fun s => u s ++ u "/n") l)).
  { induction l as [|x l IH]; cbn [map]; constructor; [|exact IH]. apply to_colloc_string. unfold to_colloc, to_fmt, ex_it. cbn [truthy u in_attrs]. apply fmt_join_ok with (vals := [u x; u "n"]). repeat constructor. }
  split; cbn [ct_l ct_r ex_tk]; apply A.
Qed.
Lemma ex_collocs_fun tk ls rs ls' rs' : collocs_are (Some (u "lemma/pos")) tk ls rs -> collocs_are (Some (u "lemma/pos")) tk ls' rs' -> ls = ls' /\ rs = rs'.
Proof. apply collocs_fun. Qed.
Lemma ex_variants ts lids : Forall2 (fun t lid => exists ls rs, t = ex_tk lid ls rs) ts lids -> variants_ok (ex_vs ts) [u "dog/n"].
Proof.
  intros F. constructor.
  - constructor; [reflexivity|constructor].
  - repeat constructor. intros [].
  - intros s [<-|[]]. exists (u "dog"), (u "n"). repeat split; cbn; intuition discriminate.
  - intros s t (n & tk & [<-|[]] & E & I & Et). cbn in I. assert (Es : s = u "dog/n") by (vm_compute in E; injection E as <-; reflexivity). subst s.
    pose proof I as It. clear I.
    assert (X : exists lid ls rs, tk = ex_tk lid ls rs). { clear - F It. induction F as [|x y l l' (ls & rs & ->) F IH]; [destruct It|]. destruct It as [<-|It]; [eauto|now apply IH]. }
    destruct X as (lid & ls & rs & ->). exists (u "f/" ++ u lid). unfold ct_str, kn_token in Et. cbn [ct_node ex_tk] in Et.
    rewrite (fmt_join_ok _ _ [u "dog"; u "n"; u "f"; u lid]) in Et by (repeat constructor). injection Et as <-. reflexivity.
  - intros tk I. cbn in I. rewrite app_nil_r in I. assert (X : exists lid ls rs, tk = ex_tk lid ls rs). { clear - F I. induction F as [|x y l l' (ls & rs & ->) F IH]; [destruct I|]. destruct I as [<-|I]; [eauto|now apply IH]. }
    destruct X as (lid & ls & rs & ->). split; [|eexists; eexists; apply ex_collocs]. eexists. unfold ct_str, kn_token. cbn [ct_node ex_tk]. apply fmt_join_ok with (vals := [u "dog"; u "n"; u "f"; u lid]). repeat constructor.
Qed.
Lemma ex_variants_ok : variants_ok (ex_vs ex_ts) [u "dog/n"].
Proof. apply ex_variants with (lids := ["5"; "6"]%string). repeat constructor; eexists; eexists; reflexivity. Qed.
(** whatever the measures, within their accuracy: cat/n is the one collocate of dog/n with a weight *)
Lemma ex_weight P L : measures ex_fr P L -> forall c, weight ex_fr P L 0 0 (-1) (u "dog/n") c <> 0%R <-> c = u "cat/n".
Proof.
  intros M c. unfold weight. rewrite ex_fr_val. cbn [eqb]. rewrite (eqb_refl (u "dog/n")). destruct (eqb c (u "cat/n")) eqn:E.
  - apply (proj1 (eqb_eq _ _)) in E. subst c. split; [reflexivity|intros _]. cbn [Z.ltb Z.compare].
    destruct (ms_ppmi _ _ _ M (u "dog/n") (u "cat/n")) as [_ A]; [cbn; auto|cbn; auto|]. pose proof (ms_lik _ _ _ M (u "dog/n") (u "cat/n")) as B.
    rewrite ex_fr_val in A, B. cbv zeta in B. change (eqb (u "dog/n") (u "dog/n")) with true in A, B. change (eqb (u "cat/n") (u "cat/n")) with true in A, B. cbn iota in A, B. specialize (B ltac:(lia)).
    assert (R1 : row_total ex_fr (u "dog/n") = 2%Z) by (vm_compute; reflexivity). assert (C1 : col_total ex_fr (u "cat/n") = 2%Z) by (vm_compute; reflexivity). assert (T1 : tt_total ex_fr = 5%Z) by (vm_compute; reflexivity).
    rewrite R1, C1, T1 in A, B. unfold of_table in B. change (2 - 2)%Z with 0%Z in B. change (5 - 2 - 2 + 2)%Z with 3%Z in B.
    assert (G : (0 <= G2 2 0 0 3)%R) by (apply G2_nonneg; lra).
    unfold ideal_ppmi in A. destruct (Rlt_dec 0 2) as [_|X]; [|lra]. unfold ideal_pmi in A. pose proof (ln_ge (2 * 5 / (2 * 2)) ltac:(lra)) as Q. assert (I : (/ (2 * 5 / (2 * 2)) = 2 / 5)%R) by field. rewrite I in Q.
    rewrite Rmax_right in A by lra. apply Rabs_le_inv in A. destruct (Rlt_dec 0 (P (u "dog/n") (u "cat/n"))); [|lra]. destruct (Rlt_dec (-1) (L (u "dog/n") (u "cat/n"))); lra.
  - change (0 <? 0)%Z with false. cbn iota. split; [congruence|]. intros ->. discriminate.
Qed.
Lemma ex_has P L : measures ex_fr P L -> has_vectors ex_fr P L 0 0 (-1) (ex_vs ex_ts) [u "dog/n"] /\ weighted ex_fr P L 0 0 (-1) (ex_vs ex_ts) (u "dog/n") (u "dog/n/f/5").
Proof.
  intros M. assert (W : weighted ex_fr P L 0 0 (-1) (ex_vs ex_ts) (u "dog/n") (u "dog/n/f/5")).
  { split.
    - eexists. exists (ex_tk "5" ["sun"] ["cat"]). split; [left; reflexivity|]. split; [reflexivity|]. split; [left; reflexivity|reflexivity].
    - exists (u "cat/n"). split; [|now apply ex_weight]. exists [], (ex_tk "5" ["sun"] ["cat"]), [ex_tk "6" [] ["sun"]], [u "sun/n"], [u "cat/n"].
      split; [reflexivity|]. split; [reflexivity|]. split; [intros t' [<-|[]]; vm_compute; discriminate|]. split; [apply (ex_collocs "5" ["sun"] ["cat"])|cbn; auto]. }
  split; [|exact W]. split; [eauto|]. intros c [(v & [<-|[]] & N) _]. apply (ex_weight P L M) in N. subst c. cbn. auto.
Qed.
Example C140_ex : exists P L, measures ex_fr P L /\ forall (order1 order2 : list pystr -> list pystr), (forall l, Permutation l (order1 l)) -> (forall l, Permutation l (order2 l)) ->
  exists m, generate_vectors order1 order2 ex_fr 0 0 (-1) [(u "dogs", ex_vs ex_ts)] = Ok [(u "dogs", m)] /\ vectors_are ex_fr P L 0 0 (-1) (ex_vs ex_ts) m /\ In (u "dog/n/f/5") (trows m).
Proof.
  destruct (C140_vectors ex_fr ex_fr_ok) as (P & L & M & A). exists P, L. split; [exact M|]. intros o1 o2 P1 P2.
  destruct (A o1 o2 P1 P2 0%Z 0%R (-1)%R [(u "dogs", ex_vs ex_ts)]) as (d & E & F); [lia|repeat constructor; intros []| |].
  - intros k vs [[= <- <-]|[]]. exists [u "dog/n"]. split; [apply ex_variants_ok|now apply ex_has].
  - inversion F as [|x [k m] l l' [K V] F' X Y]; subst. inversion F'; subst. cbn [fst snd] in K, V. subst k. exists m. split; [exact E|]. split; [exact V|].
    apply (va_rows _ _ _ _ _ _ _ _ V). exists (u "dog/n"). now apply ex_has.
Qed.

(** ** C141: every outcome of generate_vectors *)
Theorem C141_outcomes : forall freq, table_ok freq -> exists P L, measures freq P L /\
  forall (order1 order2 : list pystr -> list pystr), (forall l, Permutation l (order1 l)) -> (forall l, Permutation l (order2 l)) ->
  forall (fc : Z) (pc lc : R), (0 <= fc)%Z ->
  (forall vs strs, variants_ok vs strs ->
     (has_vectors freq P L fc pc lc vs strs \/ exists e, no_vectors freq P L fc pc lc vs strs e) /\
     forall e, no_vectors freq P L fc pc lc vs strs e -> ~ has_vectors freq P L fc pc lc vs strs /\ forall e', no_vectors freq P L fc pc lc vs strs e' -> e' = e) /\
  (forall concepts, NoDup (dkeys concepts) -> (forall k vs, In (k, vs) concepts -> exists strs, variants_ok vs strs) ->
     (exists d, generate_vectors order1 order2 freq fc pc lc concepts = Ok d) <->
     forall k vs strs, In (k, vs) concepts -> variants_ok vs strs -> has_vectors freq P L fc pc lc vs strs) /\
  (forall pre k vs post strs e, NoDup (dkeys (pre ++ (k, vs) :: post)) ->
     (forall k' vs', In (k', vs') pre -> exists strs', variants_ok vs' strs' /\ has_vectors freq P L fc pc lc vs' strs') ->
     variants_ok vs strs -> no_vectors freq P L fc pc lc vs strs e ->
     generate_vectors order1 order2 freq fc pc lc (pre ++ (k, vs) :: post) = Err e).
Proof.
  intros freq T. exists (Pf freq), (Lf freq). split; [exact (table_measures freq T)|]. intros o1 o2 P1 P2 fc pc lc FC. split; [|split].
  - intros vs strs VO. split; [exact (generate_cases o1 o2 P1 P2 freq T fc pc lc FC vs strs VO)|]. intros e N. split; [intros H; exact (excludes _ _ _ _ _ _ _ _ VO e H N)|]. intros e' N'. exact (one_reason _ _ _ _ _ _ _ _ e' e N' N).
  - intros concepts ND VO. exact (generate_iff o1 o2 P1 P2 freq T fc pc lc FC concepts ND VO).
  - intros pre k vs post strs e ND G VO N. apply (generate_bad o1 o2 P1 P2 freq T fc pc lc FC pre k vs post strs e ND); [|exact VO|exact N]. apply Forall_forall. intros [k' vs'] I. exact (G k' vs' I).
Qed.
Print Assumptions C141_outcomes.
(** A concept whose tokens have no collocate with a weight stops all concepts after it. *)
Example C141_ex : exists P L, measures ex_fr P L /\ no_vectors ex_fr P L 0 0 (-1) (ex_vs [ex_tk "6" [] ["sun"]]) [u "dog/n"] AttributeError /\
  generate_vectors (fun l => l) (fun l => l) ex_fr 0 0 (-1) [(u "dogs", ex_vs ex_ts); (u "rest", ex_vs [ex_tk "6" [] ["sun"]]); (u "more", ex_vs ex_ts)] = Err AttributeError.
Proof.
  destruct (C141_outcomes ex_fr ex_fr_ok) as (P & L & M & A). exists P, L. split; [exact M|].
  assert (N : no_vectors ex_fr P L 0 0 (-1) (ex_vs [ex_tk "6" [] ["sun"]]) [u "dog/n"] AttributeError).
  { apply nv_features.
    - exists (u "dog/n/f/6"), (u "sun/n"). exists [], (ex_tk "6" [] ["sun"]), [], [], [u "sun/n"]. split; [reflexivity|]. split; [reflexivity|]. split; [intros t' []|]. split; [apply (ex_collocs "6" [] ["sun"])|cbn; auto].
    - intros c [(v & [<-|[]] & Nw) (tk & ls & rs & I & C & Ic)]. apply (ex_weight P L M) in Nw. subst c. destruct I as [<-|[]].
      destruct (collocs_fun _ _ _ _ _ C (ex_collocs "6" [] ["sun"])) as [-> ->]. destruct Ic as [X|[]]. discriminate. }
  split; [exact N|]. destruct (A (fun l => l) (fun l => l) (fun l => Permutation_refl l) (fun l => Permutation_refl l) 0%Z 0%R (-1)%R ltac:(lia)) as (_ & _ & B).
  apply (B [(u "dogs", ex_vs ex_ts)] (u "rest") (ex_vs [ex_tk "6" [] ["sun"]]) [(u "more", ex_vs ex_ts)] [u "dog/n"]).
  - repeat constructor; cbn; intuition discriminate.
  - intros k' vs' [[= <- <-]|[]]. exists [u "dog/n"]. split; [apply ex_variants_ok|now apply ex_has].
  - apply ex_variants with (lids := ["6"]%string). repeat constructor. eexists. eexists. reflexivity.
  - exact N.
Qed.

(** ** C142: frequency matrices that fail *)
Theorem C142_bad_tables : forall (order1 order2 : list pystr -> list pystr) freq (fc : Z) (pc lc : R) k vs post strs,
  tgood freq -> (forall r c, 0 <= val freq r c)%Z -> (0 <= fc)%Z -> Forall2 (fun n s => tn_type n = Ok s) vs strs -> NoDup strs ->
  (exists v c, In v strs /\ (fc < val freq v c)%Z) ->
  (length (trows freq) = 1 \/ length (tcols freq) = 1 -> generate_vectors order1 order2 freq fc pc lc ((k, vs) :: post) = Err TypeError) /\
  (2 <= length (trows freq) -> 2 <= length (tcols freq) -> (exists c, In c (tcols freq) /\ col_total freq c = tt_total freq) ->
     generate_vectors order1 order2 freq fc pc lc ((k, vs) :: post) = Err ZeroDivisionError).
Proof.
  intros o1 o2 freq fc pc lc k vs post strs G NN FC TS ND AB. split.
  - intros S1. unfold generate_vectors. cbn [rfold snd]. now rewrite (single_fails o1 o2 freq G fc pc lc FC vs strs TS ND AB S1).
  - intros R2 C2 (c & I & E). unfold generate_vectors. cbn [rfold snd]. now rewrite (full_column_fails o1 o2 freq G NN fc pc lc FC vs strs TS ND AB c R2 C2 I E).
Qed.
Print Assumptions C142_bad_tables.
Definition ex_one_row : ttm Z := Ttm (Sp Csr [[(0, 2%Z)]] 2) (map u ["dog/n"]) (map u ["cat/n"; "sun/n"]).
Definition ex_one_col : ttm Z := Ttm (Sp Csr [[(0, 2%Z)]; [(0, 1%Z)]] 2) (map u ["dog/n"; "cat/n"]) (map u ["cat/n"; "sun/n"]).
Ltac good := constructor; cbn; [unfold spwf; cbn; repeat (apply Forall_cons || apply Forall_nil); (split; [repeat constructor; cbn; intuition discriminate|repeat constructor])|reflexivity|reflexivity|repeat constructor; cbn; intuition discriminate|repeat constructor; cbn; intuition discriminate].
Lemma ex_one_row_pos r c : (0 <= val ex_one_row r c)%Z.
Proof. unfold val. cbn [trows tcols ex_one_row map index_of]. repeat match goal with |- context [eqdec ?a ?b] => destruct (eqdec a b) end; cbn; lia. Qed.
Lemma ex_one_col_pos r c : (0 <= val ex_one_col r c)%Z.
Proof. unfold val. cbn [trows tcols ex_one_col map index_of]. repeat match goal with |- context [eqdec ?a ?b] => destruct (eqdec a b) end; cbn; lia. Qed.
Example C142_ex : generate_vectors (fun l => l) (fun l => l) ex_one_row 0 0 0 [(u "dogs", ex_vs ex_ts)] = Err TypeError /\
  generate_vectors (fun l => l) (fun l => l) ex_one_col 0 0 0 [(u "dogs", ex_vs ex_ts)] = Err ZeroDivisionError.
Proof.
  split.
  - apply (C142_bad_tables (fun l => l) (fun l => l) ex_one_row 0 0 0 (u "dogs") (ex_vs ex_ts) [] [u "dog/n"]); [good|exact ex_one_row_pos|lia|repeat constructor|repeat constructor; intros []| |left; reflexivity].
    exists (u "dog/n"), (u "cat/n"). split; [cbn; auto|vm_compute; reflexivity].
  - apply (C142_bad_tables (fun l => l) (fun l => l) ex_one_col 0 0 0 (u "dogs") (ex_vs ex_ts) [] [u "dog/n"]); [good|exact ex_one_col_pos|lia|repeat constructor|repeat constructor; intros []| |cbn; lia|cbn; lia|].
    + exists (u "dog/n"), (u "cat/n"). split; [cbn; auto|vm_compute; reflexivity].
    + exists (u "cat/n"). split; [cbn; auto|vm_compute; reflexivity].
Qed.

(** ** C143: the weights of tokens from a position matrix and the weights of types *)
(** Every token is written as a type, a file and a line; every token of a type with weights has contexts. *)
Definition tokens_typed (pos tw : ttm R) : Prop := forall t, In t (trows pos) -> exists ty, token_with_type t ty /\ ((exists c, tstored tw ty c) -> exists c, tstored pos t c).
Definition some_context (pos tw : ttm R) : Prop := exists t ty c, In t (trows pos) /\ token_with_type t ty /\ tstored pos t c /\ tstored tw ty c.
Theorem C143_weights_partial : forall pos tw, tgood pos -> tgood tw -> tokens_typed pos tw -> some_context pos tw -> tcols pos = tcols tw ->
  exists m, build_tc_weight_matrix pos tw = Ok m /\ tgood m /\ trows m = trows pos /\ tcols m = tcols pos /\
    forall t ty c, In t (trows pos) -> token_with_type t ty -> In c (tcols pos) -> val m t c = tc_weight pos tw ty t c.
Proof. intros pos tw G1 G2 A B E. apply tc_correct; [exact G1|exact G2|exact (typed_known pos tw A)|exact (some_known pos tw B)|exact E]. Qed.
Print Assumptions C143_weights_partial.
(** Missing: matrices whose columns differ.  Weights then go under the label with the same number. *)
Theorem C143_column_numbers : forall pos tw, tgood pos -> tgood tw -> tokens_typed pos tw -> some_context pos tw ->
  (length (tcols pos) <> length (tcols tw) -> build_tc_weight_matrix pos tw = Err ValueError) /\
  (length (tcols pos) = length (tcols tw) -> exists m, build_tc_weight_matrix pos tw = Ok m /\ trows m = trows pos /\ tcols m = tcols pos /\
     forall t ty j c c', In t (trows pos) -> token_with_type t ty -> nth_error (tcols pos) j = Some c -> nth_error (tcols tw) j = Some c' -> val m t c = tc_weight pos tw ty t c').
Proof.
  intros pos tw G1 G2 A B. destruct (tc_general pos tw G1 G2 (typed_known pos tw A) (some_known pos tw B)) as [X Y]. split; [exact X|]. intros E. destruct (Y E) as (m & Q & _ & R & C & V). exists m.
  split; [exact Q|]. split; [exact R|]. split; [exact C|]. intros t ty j c c' It T Ec Ec'. rewrite <- (token_type_spec t ty T). exact (V t j c c' It Ec Ec').
Qed.
Print Assumptions C143_column_numbers.
Definition right_labels : Prop := forall pos tw m, tgood pos -> tgood tw -> build_tc_weight_matrix pos tw = Ok m ->
  forall t ty c, In t (trows pos) -> token_with_type t ty -> In c (tcols pos) -> val m t c = tc_weight pos tw ty t c.
Definition ex_ps : ttm R := Ttm (Sp Csr [[(0, 1%R)]; [(0, 2%R); (1, 5%R)]] 2) (map u ["and/or/CC/f/1"; "run/V/f/2"]) (map u ["x"; "y"]).
Definition ex_tw : ttm R := Ttm (Sp Csr [[(0, 3%R)]; [(0, 4%R); (1, 7%R)]] 2) (map u ["and/or/CC"; "run/V"]) (map u ["x"; "y"]).
Definition ex_tw' : ttm R := Ttm (tmx ex_tw) (trows ex_tw) (map u ["y"; "x"]).
Lemma ex_ps_good : tgood ex_ps. Proof. good. Qed.
Lemma ex_tw_good : tgood ex_tw. Proof. good. Qed.
Lemma ex_tw_good' : tgood ex_tw'. Proof. good. Qed.
Lemma ex_ty1 : token_with_type (u "and/or/CC/f/1") (u "and/or/CC"). Proof. exists (u "f"), (u "1"). repeat split; cbn; intuition discriminate. Qed.
Lemma ex_ty2 : token_with_type (u "run/V/f/2") (u "run/V"). Proof. exists (u "f"), (u "2"). repeat split; cbn; intuition discriminate. Qed.
Lemma ex_stored : tstored ex_ps (u "and/or/CC/f/1") (u "x") /\ tstored ex_ps (u "run/V/f/2") (u "x") /\ tstored ex_ps (u "run/V/f/2") (u "y") /\ ~ tstored ex_ps (u "and/or/CC/f/1") (u "y") /\
  tstored ex_tw (u "run/V") (u "x") /\ tstored ex_tw' (u "run/V") (u "x").
Proof. unfold tstored, stored. vm_compute. intuition discriminate. Qed.
Lemma ex_typed tw : tokens_typed ex_ps tw.
Proof.
  intros t [<-|[<-|[]]]; [exists (u "and/or/CC"); split; [exact ex_ty1|]|exists (u "run/V"); split; [exact ex_ty2|]]; intros _; exists (u "x"); apply ex_stored.
Qed.
Theorem C143_labels_refuted : ~ right_labels.
Proof.
  intros H. destruct (proj2 (C143_column_numbers ex_ps ex_tw' ex_ps_good ex_tw_good' (ex_typed _) ltac:(exists (u "run/V/f/2"), (u "run/V"), (u "x"); repeat split; try apply ex_ty2; try apply ex_stored; cbn; auto))) as (m & E & _ & _ & V); [reflexivity|].
  specialize (H ex_ps ex_tw' m ex_ps_good ex_tw_good' E (u "run/V/f/2") (u "run/V") (u "x") ltac:(cbn; auto) ex_ty2 ltac:(cbn; auto)).
  rewrite (V (u "run/V/f/2") (u "run/V") 0 (u "x") (u "y")) in H; [|cbn; auto|apply ex_ty2|reflexivity|reflexivity]. unfold tc_weight in H.
  destruct (tstored_dec ex_ps (u "run/V/f/2") (u "x")); [|elim n; apply ex_stored]. destruct (tstored_dec ex_ps (u "run/V/f/2") (u "y")); [|elim n; apply ex_stored].
  assert (A : val ex_tw' (u "run/V") (u "x") = 7%R) by (CalcVecProps.cellv; lra). assert (B : val ex_tw' (u "run/V") (u "y") = 4%R) by (CalcVecProps.cellv; lra). rewrite A, B in H. lra.
Qed.
Print Assumptions C143_labels_refuted.
(** A token whose contexts are all outside the vocabulary makes the call fail. *)
Theorem C143_failures : forall pos tw, tgood pos -> tgood tw ->
  (forall t ty, In t (trows pos) -> token_with_type t ty -> (exists c, tstored tw ty c) -> (forall c, ~ tstored pos t c) -> build_tc_weight_matrix pos tw = Err KeyError) /\
  (tokens_typed pos tw -> ~ some_context pos tw -> build_tc_weight_matrix pos tw = Err ValueError).
Proof.
  intros pos tw G1 G2. split; [intros t ty; exact (tc_keyerror pos tw G1 G2 t ty)|]. intros A B. apply (tc_nothing pos tw G1 G2 (typed_known pos tw A)). intros C. apply B. exact (known_some pos tw A C).
Qed.
Print Assumptions C143_failures.
Example C143_ex : tokens_typed ex_ps ex_tw /\ exists m, build_tc_weight_matrix ex_ps ex_tw = Ok m /\ val m (u "and/or/CC/f/1") (u "x") = 3%R /\ val m (u "and/or/CC/f/1") (u "y") = 0%R /\ val m (u "run/V/f/2") (u "y") = 7%R.
Proof.
  split; [apply ex_typed|]. destruct (C143_weights_partial ex_ps ex_tw ex_ps_good ex_tw_good (ex_typed _)) as (m & E & _ & _ & _ & V); [|reflexivity|].
  { exists (u "run/V/f/2"), (u "run/V"), (u "x"). repeat split; try apply ex_ty2; try apply ex_stored; cbn; auto. }
  exists m. split; [exact E|]. rewrite (V _ (u "and/or/CC")), (V _ (u "and/or/CC")), (V _ (u "run/V")); try apply ex_ty1; try apply ex_ty2; try (cbn; auto; fail). unfold tc_weight.
  destruct (tstored_dec ex_ps (u "and/or/CC/f/1") (u "x")); [|elim n; apply ex_stored]. destruct (tstored_dec ex_ps (u "and/or/CC/f/1") (u "y")); [now elim (proj1 (proj2 (proj2 (proj2 ex_stored))))|].
  destruct (tstored_dec ex_ps (u "run/V/f/2") (u "y")); [|elim n0; apply ex_stored]. repeat split; CalcVecProps.cellv; lra.
Qed.
(** a token of a type with weights, without contexts *)
Example C143_ex_fails : build_tc_weight_matrix (Ttm (Sp Csr [[]; [(0, 2%R); (1, 5%R)]] 2) (trows ex_ps) (tcols ex_ps)) ex_tw = Err KeyError.
Proof.
  apply (proj1 (C143_failures (Ttm (Sp Csr [[]; [(0, 2%R); (1, 5%R)]] 2) (trows ex_ps) (tcols ex_ps)) ex_tw ltac:(good) ex_tw_good) (u "and/or/CC/f/1") (u "and/or/CC")); [cbn; auto|apply ex_ty1| |].
  - exists (u "x"). unfold tstored, stored. vm_compute. auto.
  - intros c (_ & _ & S). unfold stored in S. cbn in S. intuition discriminate.
Qed.

(** ** C144: what a TypeToken model can do *)
Theorem C144_calls : forall (distances : pystr -> dense -> res dense) (ranks : bool -> simmx -> list (list nat)) cs,
  let (st, rs) := run distances ranks fresh cs in
  nothing_built st /\ Forall2 (answers distances ranks) cs rs /\ m_simmx st = last_sim None rs /\ m_rankmx st = last_rank ranks None (combine cs rs).
Proof. exact run_fresh. Qed.
Print Assumptions C144_calls.
Theorem C144_answers_unique : forall (distances : pystr -> dense -> res dense) (ranks : bool -> simmx -> list (list nat)) c r r',
  answers distances ranks c r -> answers distances ranks c r' -> r = r'.
Proof. exact answers_fun. Qed.
Print Assumptions C144_answers_unique.
(** The similarities of a model are lost when its distances are asked for; the attribute for distances stays empty. *)
Theorem C144_similarities_kept_refuted : forall (distances : pystr -> dense -> res dense) (ranks : bool -> simmx -> list (list nat)), exists m s d st,
  run distances ranks fresh [ComputeSimilarity (Some m) (u "cosine") false 0; ComputeDistance (Some m) (u "cosine")] = (st, [Ok (VSim s); Ok (VSim d)]) /\
  m_simmx st = Some d /\ d <> s /\ m_distmx st = None.
Proof.
  intros distances ranks. destruct CalcVecProps.C42_ex as (s & E1 & V1 & _). destruct (CalcVecProps.C83_distance distances CalcVecProps.ex_v 0 CalcVecProps.ex_v_good ltac:(discriminate) ltac:(discriminate) (or_introl eq_refl)) as (a & d0 & EC & E2 & _ & V). set (d := (d0, _)) in E2.
  assert (V2 : sim_of d (u "a") (u "b") = 0%R) by (unfold d; rewrite V by (cbn; tauto); rewrite EC in E1; injection E1 as <-; rewrite V1; lra). exists CalcVecProps.ex_v, s, d. eexists. split.
  - cbn [run step]. change (eqb (u "cosine") (u "cos") || eqb (u "cosine") (u "cosine")) with true. cbn iota. unfold on_axis. cbn [given Z.eqb orb rbind]. rewrite E1. cbn [rbind]. rewrite E2. reflexivity.
  - split; [reflexivity|]. split; [|reflexivity]. intros ->. rewrite V1 in V2. lra.
Qed.
Print Assumptions C144_similarities_kept_refuted.
Example C144_ex : let (st, rs) := run (fun _ _ => Err ValueError) (fun _ _ => [[2; 1]]) fresh
    [BuildVocab; ComputeSimrank (Some ([[1]], [u "a"])%R) false; RetrieveTokens (QList [u "a"]) None None; ComputeAssociation None (u "ppmi"); ComputeSimilarity None (u "cos") false 0] in
  rs = [Err NameError; Ok (VRank [[2; 1]]); Err ValueError; Err TypeError; Err AttributeError] /\ m_rankmx st = Some [[2; 1]].
Proof. cbv beta iota zeta delta [run step]. split; reflexivity. Qed.

(** ** C145: the name of the corpus *)
(** A name given to the constructor of TypeVectorizer, TokenVectorizer or TypeToken is kept. *)
Definition name_kept : Prop := forall n path, n <> [] -> corpus_name (Some n) path = Ok (Some n).
Theorem C145_name_refuted : ~ name_kept.
Proof. intros H. specialize (H (u "brown") (Some (u "/data/x")) ltac:(discriminate)). vm_compute in H. discriminate. Qed.
Print Assumptions C145_name_refuted.
Theorem C145_name : (forall path, corpus_name None path = Ok None /\ corpus_name (Some []) path = Ok (Some [])) /\
  (forall n, n <> [] -> corpus_name (Some n) None = Err AttributeError) /\
  forall n dir x, n <> [] -> ~ In slash x -> corpus_name (Some n) (Some (dir ++ slash :: x)) = Ok (Some x) /\ corpus_name (Some n) (Some x) = Ok (Some x).
Proof.
  destruct corpus_name_cases as (A & B & C). split; [exact A|]. split; [exact C|]. intros n dir x N Nx. rewrite !B by exact N.
  rewrite TokMxPipeProofs.split_app, (split_noc_id _ _ Nx), last_last. split; reflexivity.
Qed.
Print Assumptions C145_name.
Example C145_ex : corpus_name (Some (u "brown")) (Some (u "/data/corpora/brown-v2")) = Ok (Some (u "brown-v2")).
Proof. vm_compute. reflexivity. Qed.
