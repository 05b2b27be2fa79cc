(** * Pipelines, continued: generate_vectors, build_tc_weight_matrix, the class TypeToken. *)
From Coq Require Import String NArith ZArith Bool Arith Lia Reals Lra Permutation List.
From Verif Require Import Base BaseLemmas Str StrLemmas VocabModel TermsModel MxModel MxSpec MxProofs MxTtmProofs MxOpsProofs MxCellProofs MxElemProofs MxMoreProofs
  CalcModel CalcSpec CalcProofs CalcProofs2 CalcCellProofs CalcVecModel CalcVecSpec CalcVecProofs CalcVecProofs2 TokMxModel TokMxSpec TokMxProofs PipeModel PipeSpec PipeProofs.
From Verif Require DepMatchProofs TokMxPipeProofs.
Import ListNotations.
Local Open Scope nat_scope.

(** ** Which case applies *)
Section Cases.
  Variables (freq : ttm Z) (P L : pystr -> pystr -> R) (fc : Z) (pc lc : R) (variants : list (tnode ctok)) (strs : list pystr).
  Hypothesis VO : variants_ok variants strs.
  Lemma token_str s t : token_of variants s t -> In s strs.
  Proof. intros (n & tk & In_ & E & _). destruct (Forall2_In_l _ _ _ _ (vo_types _ _ VO) In_) as (s' & Is & E'). cbn in E'. congruence. Qed.
  Lemma weighted_facts s t : weighted freq P L fc pc lc variants s t ->
    exists c, In s strs /\ seen variants t c /\ weight freq P L fc pc lc s c <> 0%R /\ feature freq P L fc pc lc variants strs c.
  Proof.
    intros [T (c & S & N)]. exists c. pose proof (token_str s t T) as Is. split; [exact Is|]. split; [exact S|]. split; [exact N|]. split; [eauto|]. eapply seen_near; exact S.
  Qed.
  Lemma excludes e : has_vectors freq P L fc pc lc variants strs -> ~ no_vectors freq P L fc pc lc variants strs e.
  Proof.
    intros [(s & t & W) A] N. destruct (weighted_facts s t W) as (c & Is & S & Nw & F). destruct N as [X|X Y|X Y|X Y|X Y Z|X Y (c' & F' & Z)].
    - now apply Nw, X. - now apply (Y t c). - now apply (Y c). - now apply (Y c F), A. - now apply (Z s t). - now apply Z, A.
  Qed.
  Lemma one_reason e e' : no_vectors freq P L fc pc lc variants strs e -> no_vectors freq P L fc pc lc variants strs e' -> e = e'.
  Proof.
    assert (FW : forall c, feature freq P L fc pc lc variants strs c -> ~ (forall v c, In v strs -> weight freq P L fc pc lc v c = 0%R)) by (intros c [(v & Iv & N) _] X; now apply N, X).
    assert (WS : (exists s t, weighted freq P L fc pc lc variants s t) -> ~ forall t c, ~ seen variants t c) by (intros (s & t & _ & c & S & _) X; now apply (X t c)).
    assert (NS : (exists t c, seen variants t c) -> ~ forall t c, ~ seen variants t c) by (intros (t & c & S) X; now apply (X t c)).
    intros N N'. destruct N as [X|X Y|X Y|X Y|X (c & F & R) Z|X (c & F & R) Z]; destruct N' as [X'|X' Y'|X' Y'|X' Y'|X' (c' & F' & R') Z'|X' (c' & F' & R') Z']; try reflexivity; exfalso.
    - destruct X' as (v & c & Iv & N). now apply N, X.
    - now apply (FW _ F').
    - now apply (FW _ F').
    - destruct X as (v & c & Iv & N). now apply N, X'.
    - now apply NS.
    - now apply NS.
    - now apply NS.
    - now apply NS.
    - now apply (Y c').
    - now apply (Y c').
    - now apply NS.
    - now apply (Y c' F').
    - now apply (Y c' F').
    - now apply (FW _ F).
    - now apply NS.
    - now apply (Y' c).
    - now apply (Y' c F).
    - destruct X' as (s & t & W). now apply (Z s t).
    - now apply (FW _ F).
    - now apply (Y' c).
    - now apply (Y' c F).
    - destruct X as (s & t & W). now apply (Z' s t).
  Qed.
End Cases.

(** ** generate_vectors *)
Section Generate.
  Variables order1 order2 : list pystr -> list pystr.
  Hypothesis perm1 : forall l, Permutation l (order1 l).
  Hypothesis perm2 : forall l, Permutation l (order2 l).
  Variable freq : ttm Z.
  Hypothesis T : table_ok freq.
  Variables (fc : Z) (pc lc : R).
  Hypothesis FC : (0 <= fc)%Z.
  Local Notation P := (Pf freq).
  Local Notation L := (Lf freq).
  Definition good_concept (kv : pystr * list (tnode ctok)) : Prop := exists strs, variants_ok (snd kv) strs /\ has_vectors freq P L fc pc lc (snd kv) strs.
  Local Notation body := (fun d cv => rbind (concept_vectors order1 order2 freq fc pc lc (snd cv)) (fun m => Ok (dset d (fst cv) m))).

  Lemma concept_good kv : good_concept kv -> exists m, concept_vectors order1 order2 freq fc pc lc (snd kv) = Ok m /\ vectors_are freq P L fc pc lc (snd kv) m.
  Proof.
    intros (strs & VO & H). destruct (concept_outcome order1 order2 perm1 perm2 freq fc pc lc (snd kv) strs T FC VO) as [(e & N & _)|(_ & m & E & V)]; [now apply excludes in N|eauto].
  Qed.
  Lemma concept_bad vs strs e : variants_ok vs strs -> no_vectors freq P L fc pc lc vs strs e -> concept_vectors order1 order2 freq fc pc lc vs = Err e.
  Proof.
    intros VO N. destruct (concept_outcome order1 order2 perm1 perm2 freq fc pc lc vs strs T FC VO) as [(e' & N' & E)|(H & _)]; [|now apply excludes with (e := e) in H].
    rewrite E. f_equal. eapply one_reason; eassumption.
  Qed.
  Lemma generate_fold l : Forall good_concept l -> NoDup (dkeys l) -> forall d, (forall k, In k (dkeys l) -> ~ In k (dkeys d)) ->
    exists d', rfold body l d = Ok (d ++ d') /\ Forall2 (fun kv km => fst km = fst kv /\ vectors_are freq P L fc pc lc (snd kv) (snd km)) l d'.
  Proof.
    induction 1 as [|[k vs] l G F IH]; intros ND d Fr; [exists []; cbn; rewrite app_nil_r; auto|]. cbn [rfold fst snd]. destruct (concept_good _ G) as (m & E & V). cbn [snd] in E, V.
    rewrite E. cbn [rbind]. inversion ND as [|? ? NI ND']; subst. rewrite DepMatchProofs.dset_fresh by (apply Fr; cbn; auto).
    destruct (IH ND' (d ++ [(k, m)])) as (d' & E' & F').
    - intros k' J J'. unfold dkeys in J'. rewrite map_app, in_app_iff in J'. destruct J' as [J'|[<-|[]]]; [|contradiction]. apply (Fr k'); cbn; auto.
    - exists ((k, m) :: d'). split; [rewrite E', <- app_assoc; reflexivity|]. constructor; auto.
  Qed.
  Lemma generate_ok concepts : NoDup (dkeys concepts) -> Forall good_concept concepts ->
    exists d, generate_vectors order1 order2 freq fc pc lc concepts = Ok d /\
      Forall2 (fun kv km => fst km = fst kv /\ vectors_are freq P L fc pc lc (snd kv) (snd km)) concepts d.
  Proof. intros ND F. destruct (generate_fold concepts F ND []) as (d & E & F'); [intros k _ []|]. exists d. auto. Qed.
  Lemma rfold_app_ {S A} (f : S -> A -> res S) a b s : rfold f (a ++ b) s = rbind (rfold f a s) (rfold f b).
  Proof. revert s. induction a as [|x a IH]; intros s; [reflexivity|]. cbn [rfold app]. destruct (f s x); [|reflexivity]. cbn [rbind]. apply IH. Qed.
  Lemma generate_bad pre k vs post strs e : NoDup (dkeys (pre ++ (k, vs) :: post)) -> Forall good_concept pre -> variants_ok vs strs -> no_vectors freq P L fc pc lc vs strs e ->
    generate_vectors order1 order2 freq fc pc lc (pre ++ (k, vs) :: post) = Err e.
  Proof.
    intros ND F VO N. unfold generate_vectors. rewrite rfold_app_. destruct (generate_fold pre F) with (d := @nil (pystr * ttm R)) as (d & E & _).
    - unfold dkeys in *. rewrite map_app in ND. now apply DepMatchProofs.NoDup_app_l in ND.
    - intros k' _ [].
    - rewrite E. cbn [rbind rfold snd]. now rewrite (concept_bad vs strs e VO N).
  Qed.
  Lemma generate_cases vs strs : variants_ok vs strs -> has_vectors freq P L fc pc lc vs strs \/ exists e, no_vectors freq P L fc pc lc vs strs e.
  Proof. intros VO. destruct (concept_outcome order1 order2 perm1 perm2 freq fc pc lc vs strs T FC VO) as [(e & N & _)|(H & _)]; eauto. Qed.
  Lemma first_bad concepts : (forall k vs, In (k, vs) concepts -> exists strs, variants_ok vs strs) ->
    Forall good_concept concepts \/ exists pre k vs post strs e, concepts = pre ++ (k, vs) :: post /\ Forall good_concept pre /\ variants_ok vs strs /\ no_vectors freq P L fc pc lc vs strs e.
  Proof.
    induction concepts as [|[k vs] l IH]; intros A; [auto|]. destruct (A k vs (or_introl eq_refl)) as (strs & VO). destruct (generate_cases vs strs VO) as [H|(e & N)].
    - destruct (IH (fun k vs I => A k vs (or_intror I))) as [F|(pre & k' & vs' & post & strs' & e & -> & F & VO' & N)].
      + left. constructor; [exists strs; auto|exact F].
      + right. exists ((k, vs) :: pre), k', vs', post, strs', e. split; [reflexivity|]. split; [constructor; [exists strs; auto|exact F]|auto].
    - right. exists [], k, vs, l, strs, e. auto.
  Qed.
  Lemma strs_fun vs strs strs' : variants_ok vs strs -> variants_ok vs strs' -> strs = strs'.
  Proof.
    intros [A _ _ _ _] [B _ _ _ _]. revert strs' B. induction A as [|n s l l' E F IH]; intros strs' B; inversion B as [|? ? ? ? E' F']; subst; [reflexivity|]. f_equal; [congruence|now apply IH].
  Qed.
  Lemma generate_iff concepts : NoDup (dkeys concepts) -> (forall k vs, In (k, vs) concepts -> exists strs, variants_ok vs strs) ->
    (exists d, generate_vectors order1 order2 freq fc pc lc concepts = Ok d) <-> forall k vs strs, In (k, vs) concepts -> variants_ok vs strs -> has_vectors freq P L fc pc lc vs strs.
  Proof.
    intros ND A. split.
    - intros (d & E) k vs strs I VO. destruct (first_bad concepts A) as [F|(pre & k' & vs' & post & strs' & e & -> & F & VO' & N)].
      + rewrite Forall_forall in F. destruct (F _ I) as (strs' & VO' & H). cbn [snd] in VO', H. now rewrite (strs_fun vs strs strs' VO VO').
      + rewrite (generate_bad pre k' vs' post strs' e ND F VO' N) in E. discriminate.
    - intros H. destruct (generate_ok concepts ND) as (d & E & _); [|eauto]. apply Forall_forall. intros [k vs] I. destruct (A k vs I) as (strs & VO). exists strs. split; [exact VO|exact (H k vs strs I VO)].
  Qed.
End Generate.

(** ** Frequency matrices that fail *)
Lemma association_all m nf cf (F C : pystr -> Z) N meas f e : tgood m -> (forall r, In r (trows m) -> freq_of nf r = Some (F r)) -> (forall c, In c (tcols m) -> freq_of cf c = Some (C c)) ->
  dget func_dict meas = Some f -> (exists r c, tstored m r c) -> (forall r c, tstored m r c -> of_table f (val m r c) (F r) (C c) (total_of nf cf N) = Err e) ->
  compute_association m nf cf N meas = Err e.
Proof.
  intros G HF HC EF (r0 & c0 & S0) A. unfold compute_association. fold (total_of nf cf N). rewrite (marginals_ok _ _ F HF), (marginals_ok _ _ C HC). cbn [rbind]. unfold calc_association. rewrite EF.
  assert (X : forall x, In x (entries (tmx m)) -> calc_cell f (map F (trows m)) (map C (tcols m)) (total_of nf cf N) x = Err e).
  { intros [[i j] v] I. pose proof (entries_range _ (tg_wf _ G)) as RG. unfold in_range in RG. rewrite Forall_forall in RG. destruct (RG _ I) as [Li Lj]. cbn in Li, Lj.
    rewrite (tg_rows _ G) in Li. rewrite (tg_cols _ G) in Lj.
    destruct (nth_error (trows m) i) as [r|] eqn:Er; [|apply nth_error_None in Er; lia]. destruct (nth_error (tcols m) j) as [c|] eqn:Ec; [|apply nth_error_None in Ec; lia].
    pose proof (idx_of_nth _ _ _ (tg_nr _ G) Er) as Xi. pose proof (idx_of_nth _ _ _ (tg_nc _ G) Ec) as Xj.
    assert (Ir : In r (trows m)) by (eapply nth_error_In; eassumption). assert (Ic : In c (tcols m)) by (eapply nth_error_In; eassumption).
    assert (S : tstored m r c). { split; [exact Ir|]. split; [exact Ic|]. rewrite Xi, Xj. apply in_map_iff. now exists (i, j, v). }
    pose proof (A r c S) as E. assert (V : val m r c = v). { rewrite val_idx by assumption. rewrite Xi, Xj. apply entries_value; [apply G|exact I]. }
    rewrite <- Xi, <- Xj. rewrite (calc_cell_at m F C) by assumption. rewrite V in E. now rewrite E. }
  destruct (entries (tmx m)) as [|x l] eqn:EE.
  - destruct S0 as (_ & _ & S0). unfold stored in S0. rewrite EE in S0. destruct S0.
  - cbn [rmapm]. rewrite X by (cbn; auto). reflexivity.
Qed.
Lemma two_columns (freq : ttm Z) c c' : tgood freq -> (forall r c, 0 <= val freq r c)%Z -> In c (tcols freq) -> In c' (tcols freq) -> c <> c' ->
  (col_total freq c + col_total freq c' <= tt_total freq)%Z.
Proof.
  intros G NN Ic Ic' N. rewrite (proj2 (tt_total_ok freq G)), sumv_Z. pose proof (tg_nc _ G) as ND. pose proof (col_nonneg freq NN) as CN. revert ND Ic Ic'. generalize (tcols freq). 
  induction l as [|x l IH]; intros ND Ic Ic'; [destruct Ic|]. inversion ND as [|? ? NI ND']; subst. change (sumZ (map (col_total freq) (x :: l))) with (col_total freq x + sumZ (map (col_total freq) l))%Z.
  assert (M : forall y, In y l -> (col_total freq y <= sumZ (map (col_total freq) l))%Z).
  { intros y Iy. apply sumZ_member; [intros z J; apply in_map_iff in J as (? & <- & _); apply CN|]. apply in_map_iff. eauto. }
  destruct Ic as [->|Ic]; destruct Ic' as [->|Ic']; [now elim N| | |].
  - pose proof (M _ Ic'). lia. - pose proof (M _ Ic). lia. - specialize (IH ND' Ic Ic'). pose proof (CN x). lia.
Qed.
Lemma types_of (vs : list (tnode ctok)) strs : Forall2 (fun n s => tn_type n = Ok s) vs strs -> rmapm tn_type vs = Ok strs.
Proof. induction 1 as [|n s l l' E F IH]; [reflexivity|]. cbn [rmapm]. rewrite E. cbn [rbind]. rewrite IH. reflexivity. Qed.
Section BadTable.
  Variables order1 order2 : list pystr -> list pystr.
  Variable freq : ttm Z.
  Hypothesis GF : tgood freq.
  Hypothesis NN : forall r c, (0 <= val freq r c)%Z.
  Variables (fc : Z) (pc lc : R).
  Hypothesis FC : (0 <= fc)%Z.
  Variables (vs : list (tnode ctok)) (strs : list pystr).
  Hypothesis TS : Forall2 (fun n s => tn_type n = Ok s) vs strs.
  Hypothesis ND : NoDup strs.
  Hypothesis AB : exists v c, In v strs /\ (fc < val freq v c)%Z.
  Lemma bad_prefix : exists cut, rmapm tn_type vs = Ok strs /\ concept_freq freq strs fc = Ok cut /\ tgood cut /\ incl (trows cut) (trows freq) /\ incl (tcols cut) (tcols freq) /\
    (forall r c, tstored cut r c -> val cut r c = val freq r c) /\ lnz (tmx cut) /\ exists r c, tstored cut r c.
  Proof.
    destruct AB as (v & c & Iv & A). assert (C1 : 1 <= length (tcols freq)).
    { destruct (above_row freq GF fc FC v c A) as [_ Ic]. destruct (tcols freq); [destruct Ic|cbn; lia]. }
    destruct (concept_freq_ok freq GF C1 fc FC strs ND) as [(X & _)|(_ & cut & E & GC & IR & IC & _ & _ & VC & SV & NZ)]; [specialize (X v c Iv); lia|].
    exists cut. split; [now apply types_of|].
    repeat (split; [assumption|]). exists v, c. apply stored_val; [exact GC|]. rewrite VC, (proj2 (Z.ltb_lt _ _) A) by exact Iv. cbn. lia.
  Qed.
  Lemma single_fails : length (trows freq) = 1 \/ length (tcols freq) = 1 -> concept_vectors order1 order2 freq fc pc lc vs = Err TypeError.
  Proof.
    intros S1. destruct bad_prefix as (cut & E1 & E2 & _). unfold concept_vectors. rewrite E1. cbn [rbind]. rewrite E2. cbn [rbind].
    destruct (Nat.eq_dec (length (trows freq)) 1) as [R|R].
    - rewrite (tt_sum_single freq true GF R). reflexivity.
    - destruct S1 as [S1|S1]; [contradiction|]. destruct (tt_sum_ok freq true GF R) as (d & -> & _). cbn [rmap rbind]. rewrite (tt_sum_single freq false GF S1). reflexivity.
  Qed.
  Lemma full_column_fails c0 : 2 <= length (trows freq) -> 2 <= length (tcols freq) -> In c0 (tcols freq) -> col_total freq c0 = tt_total freq ->
    concept_vectors order1 order2 freq fc pc lc vs = Err ZeroDivisionError.
  Proof.
    intros R2 C2 I0 E0. destruct bad_prefix as (cut & E1 & E2 & GC & IR & IC & SV & NZ & ST). unfold concept_vectors. rewrite E1. cbn [rbind]. rewrite E2. cbn [rbind].
    destruct (marginal_vocabs freq GF R2 C2) as (nf & cf & NF & CF). rewrite NF, CF. cbn [rbind].
    assert (POS : forall r c, tstored cut r c -> (0 < val freq r c)%Z).
    { intros r c S. pose proof (lnz_val _ _ _ GC NZ S) as N. rewrite SV in N by exact S. pose proof (NN r c). cbn in N. lia. }
    assert (CE : forall r c, tstored cut r c -> c = c0).
    { intros r c S. destruct (eqdec c c0) as [E|N]; [exact E|]. exfalso. destruct S as (Ir & Ic & S). pose proof (two_columns freq c c0 GF NN (IC _ Ic) I0 N).
      destruct (reference_bounds freq r c GF NN (IR _ Ir) (IC _ Ic)) as (_ & B & _). pose proof (POS r c (conj Ir (conj Ic S))). lia. }
    assert (TP : (0 < tt_total freq)%Z).
    { destruct ST as (r & c & S). pose proof (POS r c S). destruct S as (Ir & Ic & S). destruct (reference_bounds freq r c GF NN (IR _ Ir) (IC _ Ic)) as (B1 & B & B2). lia. }
    assert (C1 : 1 <= length (tcols freq)) by lia.
    unfold concept_weights. destruct (assoc_ppmi freq GF NN C1 TP nf cf NF CF cut GC IR IC SV) as (pm & -> & _). cbn [rbind].
    rewrite (association_all cut nf cf (row_total freq) (col_total freq) None (u "lik") calc_lik ZeroDivisionError); [reflexivity|exact GC| | |reflexivity|exact ST|].
    - intros r Ir. apply nf_of; auto.
    - intros c Ic. eapply cf_of; eauto.
    - intros r c S. rewrite (total_is freq GF nf cf NF CF), SV by exact S. pose proof (CE r c S). subst c. pose proof (POS r c0 S). unfold of_table, calc_lik.
      assert (A : (IZR (val freq r c0) + IZR (col_total freq c0 - val freq r c0) = IZR (col_total freq c0))%R) by (rewrite <- plus_IZR; f_equal; lia).
      assert (B : (IZR (row_total freq r - val freq r c0) + IZR (tt_total freq - row_total freq r - col_total freq c0 + val freq r c0) = 0)%R) by (rewrite <- plus_IZR; apply f_equal; lia).
      unfold fdiv at 1. rewrite A. destruct (Req_EM_T (IZR (col_total freq c0)) 0) as [Z0|_]; [apply eq_IZR_R0 in Z0; lia|]. cbn [rbind]. unfold fdiv at 1. rewrite B.
      destruct (Req_EM_T 0 0); [reflexivity|contradiction].
  Qed.
End BadTable.

(** ** build_tc_weight_matrix *)
Lemma token_type_spec t ty : token_with_type t ty -> token_type t = ty.
Proof.
  intros (f & l & Nf & Nl & ->). unfold token_type. rewrite TokMxPipeProofs.split_app, split_app_noc by exact Nf. rewrite (split_noc_id _ _ Nl).
  rewrite app_length. cbn [length]. replace (length (split slash ty) + 2 - 2) with (length (split slash ty) + 0) by lia. rewrite firstn_app_2. cbn [firstn]. rewrite app_nil_r. apply join_split.
Qed.
Definition of_type (ty tok : pystr) : bool := eqb (token_type tok) ty.
Lemma of_type_eq ty tok : of_type ty tok = true <-> token_type tok = ty.
Proof. apply eqb_eq. Qed.
Lemma of_type_self tok : of_type (token_type tok) tok = true.
Proof. apply eqb_refl. Qed.
Lemma of_type_no ty tok : ty <> token_type tok -> of_type ty tok = false.
Proof. intros N. apply eqb_neq. congruence. Qed.
Lemma type2token_get types tokens : dwf (type2token types tokens) /\ forall ty,
  dget (type2token types tokens) ty = if mem ty types && negb (match filter (of_type ty) tokens with [] => true | _ => false end) then Some (filter (of_type ty) tokens) else None.
Proof.
  unfold type2token. induction tokens as [|tok tokens IH] using rev_ind; [split; [apply dwf_nil|]; intros ty; cbn; now rewrite andb_false_r|].
  rewrite fold_left_app. cbn [fold_left]. match type of IH with dwf ?x /\ _ => set (d := x) in * end. destruct IH as [W IH].
  destruct (mem (token_type tok) types) eqn:M; cbn [negb].
  - assert (D : forall ty, dget (if dmem d (token_type tok) then d else dset d (token_type tok) []) ty = if eqdec ty (token_type tok) then Some (filter (of_type ty) tokens) else dget d ty).
    { intros ty. unfold dmem. destruct (eqdec ty (token_type tok)) as [->|N].
      - pose proof (IH (token_type tok)) as Q. rewrite M in Q. cbn [andb] in Q. destruct (filter (of_type (token_type tok)) tokens) as [|x l] eqn:E; cbn [negb] in Q; rewrite Q.
        + rewrite dget_dset. now destruct (eqdec (token_type tok) (token_type tok)).
        + exact Q.
      - destruct (dget d (token_type tok)); [reflexivity|]. rewrite dget_dset. destruct (eqdec ty (token_type tok)); [contradiction|reflexivity]. }
    set (d' := if dmem d (token_type tok) then d else dset d (token_type tok) []) in *.
    assert (W' : dwf d') by (unfold d'; destruct (dmem d (token_type tok)); [exact W|now apply dwf_dset]).
    split; [now apply dwf_dset|]. intros ty. rewrite dget_dset, !D. rewrite filter_app. cbn [filter].
    destruct (eqdec ty (token_type tok)) as [->|N].
    + rewrite M. cbn [andb]. destruct (eqdec (token_type tok) (token_type tok)); [|congruence]. rewrite of_type_self. destruct (filter (of_type (token_type tok)) tokens); reflexivity.
    + rewrite IH. rewrite (of_type_no _ _ N), app_nil_r. reflexivity.
  - split; [exact W|]. intros ty. rewrite IH, filter_app. cbn [filter]. destruct (of_type ty tok) eqn:E; [|now rewrite app_nil_r].
    apply of_type_eq in E. subst ty. rewrite M. reflexivity.
Qed.
Lemma token_row_get (ctx row : dict pystr R) d tok t c :
  dget2 (token_row ctx row d tok) t c = if eqdec t tok then (if mem c (dkeys ctx) then match dget row c with Some v => Some v | None => dget2 d t c end else dget2 d t c) else dget2 d t c.
Proof.
  unfold token_row. revert d. induction (dkeys ctx) as [|k l IH]; intros d; [cbn; now destruct (eqdec t tok)|]. cbn [fold_left]. rewrite IH. clear IH. destruct (eqdec t tok) as [->|N].
  - assert (X : dget2 (match dget row k with Some v => dput d tok k v | None => d end) tok c = if eqdec c k then match dget row c with Some v => Some v | None => dget2 d tok c end else dget2 d tok c).
    { destruct (eqdec c k) as [->|N]; destruct (dget row k) as [v|]; try reflexivity; rewrite dget2_dput.
      - destruct (eqdec (tok, k) (tok, k)); [reflexivity|congruence]. - destruct (eqdec (tok, c) (tok, k)); [congruence|reflexivity]. }
    rewrite X. destruct (eqdec c k) as [->|N].
    + rewrite (mem_true k (k :: l)) by (cbn; auto). destruct (dget row k); destruct (mem k l); reflexivity.
    + assert (M : mem c (k :: l) = mem c l). { destruct (mem c l) eqn:E; [apply mem_In; apply mem_In in E; cbn; auto|]. apply mem_nIn. apply mem_nIn in E. cbn. intros [->|J]; contradiction. }
      rewrite M. reflexivity.
  - destruct (dget row k) as [v|]; [|reflexivity]. rewrite dget2_dput. destruct (eqdec (t, c) (tok, k)); [congruence|reflexivity].
Qed.
Lemma token_row_wf (ctx row : dict pystr R) d tok rows cols : mxwf d rows cols -> In tok rows -> incl (dkeys row) cols -> mxwf (token_row ctx row d tok) rows cols.
Proof.
  intros W It Ic. unfold token_row. revert d W. induction (dkeys ctx) as [|k l IH]; intros d W; [exact W|]. cbn [fold_left]. apply IH. destruct (dget row k) as [v|] eqn:E; [|exact W].
  apply (fold_dput_wf [(tok, k, v)] d rows cols W). constructor; [|constructor]. cbn. split; [exact It|]. apply Ic. eapply dget_Some_key; exact E.
Qed.
Lemma dict_rows (m : ttm R) d : tgood m -> sp_to_dict (tmx m) (trows m) (tcols m) = Ok d ->
  (forall r c v, dget2 d r c = Some v <-> tstored m r c /\ v = val m r c) /\ mxwf d (trows m) (tcols m) /\ forall r, In r (dkeys d) <-> exists c, tstored m r c.
Proof.
  intros G E. destruct (sp_to_dict_ok (tmx m) (trows m) (tcols m)) as (d' & E' & W & K); try apply G. assert (d' = d) by congruence. subst d'.
  assert (K' : forall r c v, dget2 d r c = Some v <-> tstored m r c /\ v = val m r c).
  { intros r c v. rewrite K. split.
    - intros (i & j & Er & Ec & I). pose proof (idx_of_nth _ _ _ (tg_nr _ G) Er) as Xi. pose proof (idx_of_nth _ _ _ (tg_nc _ G) Ec) as Xj.
      assert (Ir : In r (trows m)) by (eapply nth_error_In; eassumption). assert (Ic : In c (tcols m)) by (eapply nth_error_In; eassumption). split.
      + split; [exact Ir|]. split; [exact Ic|]. rewrite Xi, Xj. apply in_map_iff. now exists (i, j, v).
      + rewrite val_idx by assumption. rewrite Xi, Xj. symmetry. apply entries_value; [apply G|exact I].
    - intros ((Ir & Ic & S) & ->). exists (idx (trows m) r), (idx (tcols m) c). split; [now apply idx_nth|]. split; [now apply idx_nth|].
      unfold stored in S. apply in_map_iff in S as ([[i j] v] & Ex & I). cbn in Ex. injection Ex as -> ->. rewrite val_idx by assumption. rewrite (entries_value _ _ _ v (tg_wf _ G) I). exact I. }
  split; [exact K'|]. split; [exact W|]. intros r. split.
  - intros I. rewrite sp_to_dict_fold in E by apply G. injection E as <-.
    assert (X : forall es (d : dict pystr (dict pystr R)), (forall r row, dget d r = Some row -> row <> []) -> forall r row, dget (fold_left dput3 es d) r = Some row -> row <> []).
    { clear. induction es as [|e es IH]; intros d N r row; [apply N|]. cbn [fold_left]. apply IH. clear r row. intros r row. unfold dput3, dput. rewrite dget_dset. destruct (eqdec r (fst (fst e))); [|apply N].
      intros [= <-]. set (base := match dget d (fst (fst e)) with Some x => x | None => [] end). intros Z. assert (Q : dget (dset base (snd (fst e)) (snd e)) (snd (fst e)) = Some (snd e)) by (rewrite dget_dset; now destruct (eqdec (snd (fst e)) (snd (fst e)))).
      rewrite Z in Q. discriminate. }
    match type of I with In _ (dkeys ?x) => set (d := x) in * end. destruct (dget d r) as [row|] eqn:Dr; [|apply dget_None in Dr; contradiction]. pose proof (X _ [] ltac:(discriminate) r row Dr) as NE.
    destruct row as [|[c v] row]; [congruence|]. exists c. apply (K' r c v). unfold dget2. rewrite Dr. cbn. now destruct (eqdec c c).
  - intros (c & S). assert (Q : dget2 d r c = Some (val m r c)) by (now apply K'). unfold dget2 in Q. destruct (dget d r) as [row|] eqn:Dr; [|discriminate]. eapply dget_Some_key; exact Dr.
Qed.

Section TcWeights.
  Variables (pos tw : ttm R) (D1 D2 : dict pystr (dict pystr R)).
  Hypothesis GP : tgood pos.
  Hypothesis GT : tgood tw.
  Hypothesis E1 : sp_to_dict (tmx pos) (trows pos) (tcols pos) = Ok D1.
  Hypothesis E2 : sp_to_dict (tmx tw) (trows tw) (tcols tw) = Ok D2.
  Let t2t := type2token (dkeys D2) (trows pos).
  Let inner (row : dict pystr R) : dict pystr (dict pystr R) -> pystr -> res (dict pystr (dict pystr R)) := (fun d tok => match dget D1 tok with None => Err KeyError | Some ctx => Ok (token_row ctx row d tok) end).
  Let outer : dict pystr (dict pystr R) -> pystr * list pystr -> res (dict pystr (dict pystr R)) := (fun d tt => match dget D2 (fst tt) with None => Err KeyError | Some tw_row => rfold (inner tw_row) (snd tt) d end).

  Lemma inner_ok ty row toks : dget D2 ty = Some row -> (forall t, In t toks -> In t (trows pos) /\ token_type t = ty /\ In t (dkeys D1)) -> forall d, mxwf d (trows pos) (tcols tw) ->
    exists d', rfold (inner row) toks d = Ok d' /\ mxwf d' (trows pos) (tcols tw) /\
      forall t c, dget2 d' t c = if mem t toks then match dget2 D1 t c, dget2 D2 (token_type t) c with Some _, Some v => Some v | _, _ => dget2 d t c end else dget2 d t c.
  Proof.
    intros ER. induction toks as [|tok toks IH]; intros A d W; [exists d; auto|]. cbn [rfold]. unfold inner at 1. destruct (A tok (or_introl eq_refl)) as (It & Ty & K).
    destruct (dget D1 tok) as [ctx|] eqn:EC; [|apply dget_None in EC; contradiction]. cbn [rbind].
    destruct (IH (fun t I => A t (or_intror I)) (token_row ctx row d tok)) as (d' & E & W' & V).
    { apply token_row_wf; [exact W|exact It|]. destruct (dict_rows tw D2 GT E2) as (_ & (_ & W2) & _). apply (W2 ty row). now apply dget_Some_In. }
    exists d'. split; [exact E|]. split; [exact W'|]. intros t c. rewrite V, !token_row_get.
    assert (R1 : forall c, dget2 D1 tok c = dget ctx c) by (intros; unfold dget2; now rewrite EC). assert (R2 : forall c, dget2 D2 ty c = dget row c) by (intros; unfold dget2; now rewrite ER).
    destruct (eqdec t tok) as [->|N].
    - rewrite (mem_true tok (tok :: toks)) by (cbn; auto). rewrite Ty, R1, R2. destruct (dget ctx c) as [x|] eqn:Ec.
      + rewrite (mem_true c (dkeys ctx)) by (eapply dget_Some_key; exact Ec). destruct (mem tok toks); destruct (dget row c); reflexivity.
      + assert (M : mem c (dkeys ctx) = false) by (now apply mem_nIn, dget_None). rewrite M. now destruct (mem tok toks).
    - assert (M : mem t (tok :: toks) = mem t toks). { destruct (mem t toks) eqn:E'; [apply mem_In; apply mem_In in E'; cbn; auto|]. apply mem_nIn. apply mem_nIn in E'. cbn. intros [->|J]; contradiction. }
      now rewrite M.
  Qed.
  Lemma outer_ok l : (forall ty toks, In (ty, toks) l -> In ty (dkeys D2) /\ forall t, In t toks -> In t (trows pos) /\ token_type t = ty /\ In t (dkeys D1)) -> forall d, mxwf d (trows pos) (tcols tw) ->
    exists d', rfold outer l d = Ok d' /\ mxwf d' (trows pos) (tcols tw) /\
      forall t c, dget2 d' t c = if existsb (fun tt => mem t (snd tt)) l then match dget2 D1 t c, dget2 D2 (token_type t) c with Some _, Some v => Some v | _, _ => dget2 d t c end else dget2 d t c.
  Proof.
    induction l as [|[ty toks] l IH]; intros A d W; [exists d; auto|]. cbn [rfold]. unfold outer at 1. cbn [fst snd]. destruct (A ty toks (or_introl eq_refl)) as (Ity & At).
    destruct (dget D2 ty) as [row|] eqn:ER; [|apply dget_None in ER; contradiction]. destruct (inner_ok ty row toks ER At d W) as (d1 & E & W1 & V1). rewrite E. cbn [rbind].
    destruct (IH (fun ty' toks' I => A ty' toks' (or_intror I)) d1 W1) as (d' & E' & W' & V'). exists d'. split; [exact E'|]. split; [exact W'|]. intros t c. rewrite V', V1. cbn [existsb snd].
    destruct (mem t toks); destruct (existsb (fun tt => mem t (snd tt)) l); cbn [orb]; try reflexivity. destruct (dget2 D1 t c); [|reflexivity]. destruct (dget2 D2 (token_type t) c); reflexivity.
  Qed.
  Lemma t2t_facts ty toks : In (ty, toks) t2t -> In ty (dkeys D2) /\ forall t, In t toks <-> In t (trows pos) /\ token_type t = ty.
  Proof.
    intros I. destruct (type2token_get (dkeys D2) (trows pos)) as [W Q]. apply (proj1 (dget_In _ _ _ W)) in I. rewrite Q in I. destruct (mem ty (dkeys D2)) eqn:M; [|discriminate]. cbn [andb] in I.
    destruct (negb _); [|discriminate]. injection I as <-. split; [now apply mem_In|]. intros t. rewrite filter_In. unfold of_type. rewrite eqb_eq. tauto.
  Qed.
  Lemma t2t_has t : In t (trows pos) -> In (token_type t) (dkeys D2) -> exists toks, In (token_type t, toks) t2t /\ In t toks.
  Proof.
    intros It M. destruct (type2token_get (dkeys D2) (trows pos)) as [W Q]. exists (filter (of_type (token_type t)) (trows pos)).
    assert (J : In t (filter (of_type (token_type t)) (trows pos))) by (apply filter_In; split; [exact It|]; apply eqb_refl). split; [|exact J].
    apply dget_Some_In. rewrite Q, (proj2 (mem_In _ _) M). cbn [andb]. destruct (filter (of_type (token_type t)) (trows pos)); [destruct J|reflexivity].
  Qed.
  Lemma existsb_t2t t : existsb (fun tt => mem t (snd tt)) t2t = true <-> In t (trows pos) /\ In (token_type t) (dkeys D2).
  Proof.
    rewrite existsb_exists. split.
    - intros ([ty toks] & I & M). cbn [snd] in M. apply mem_In in M. destruct (t2t_facts ty toks I) as (K & A). apply A in M as [M <-]. auto.
    - intros [It M]. destruct (t2t_has t It M) as (toks & I & J). exists (token_type t, toks). split; [exact I|now apply mem_In].
  Qed.
  (** all tokens with a known type have contexts *)
  Lemma weight_dict_ok : (forall t, In t (trows pos) -> In (token_type t) (dkeys D2) -> In t (dkeys D1)) ->
    exists d, weight_dict D1 D2 t2t = Ok d /\ mxwf d (trows pos) (tcols tw) /\
      forall t c v, dget2 d t c = Some v <-> tstored pos t c /\ tstored tw (token_type t) c /\ v = val tw (token_type t) c.
  Proof.
    intros A. destruct (outer_ok t2t) with (d := @nil (pystr * dict pystr R)) as (d & E & W & V).
    - intros ty toks I. destruct (t2t_facts ty toks I) as (K & B). split; [exact K|]. intros t J. apply B in J as [It Ty]. repeat split; auto. apply A; [exact It|]. now rewrite Ty.
    - split; [apply dwf_nil|intros r row []].
    - exists d. split; [exact E|]. split; [exact W|]. intros t c v. rewrite V. destruct (dict_rows pos D1 GP E1) as (K1 & _ & R1). destruct (dict_rows tw D2 GT E2) as (K2 & _ & R2).
      destruct (existsb (fun tt => mem t (snd tt)) t2t) eqn:X.
      + destruct (dget2 D1 t c) as [x|] eqn:Q1; [|split; [cbn; discriminate|intros (S & _); assert (dget2 D1 t c = Some (val pos t c)) by (now apply K1); congruence]].
        destruct (dget2 D2 (token_type t) c) as [y|] eqn:Q2; [|split; [cbn; discriminate|intros (_ & S & _); assert (dget2 D2 (token_type t) c = Some (val tw (token_type t) c)) by (now apply K2); congruence]].
        apply K1 in Q1 as [S1 _]. apply K2 in Q2 as [S2 ->]. split; [intros [= <-]; auto|]. intros (_ & _ & ->). reflexivity.
      + split; [cbn; discriminate|]. intros (S1 & S2 & _). exfalso. apply not_true_iff_false in X. apply X, existsb_t2t. split; [apply S1|]. apply R2. eauto.
  Qed.
  Lemma weight_dict_missing t : In t (trows pos) -> In (token_type t) (dkeys D2) -> ~ In t (dkeys D1) -> weight_dict D1 D2 t2t = Err KeyError.
  Proof.
    intros It M N. destruct (t2t_has t It M) as (toks & I & J). unfold weight_dict.
    assert (IN : forall row l d, In t l -> rfold (inner row) l d = Err KeyError).
    { intros row. induction l as [|x l IH]; intros d K; [destruct K|]. cbn [rfold]. unfold inner at 1. destruct (eqdec t x) as [->|Nx].
      - rewrite (proj2 (dget_None D1 x)) by exact N. reflexivity.
      - destruct K as [->|K]; [congruence|]. destruct (dget D1 x); [|reflexivity]. cbn [rbind]. now apply IH. }
    assert (IE : forall row l d, rfold (inner row) l d = Err KeyError \/ exists d', rfold (inner row) l d = Ok d').
    { intros row. induction l as [|x l IH]; intros d; [right; exists d; reflexivity|]. cbn [rfold]. unfold inner at 1 3. destruct (dget D1 x); [|auto]. cbn [rbind]. apply IH. }
    assert (OUT : forall l d, In (token_type t, toks) l -> rfold outer l d = Err KeyError).
    { induction l as [|[ty ts] l IH]; intros d K; [destruct K|]. cbn [rfold]. unfold outer at 1. cbn [fst snd]. destruct K as [K|K].
      - injection K as -> ->. destruct (dget D2 (token_type t)) as [row|]; [|reflexivity]. rewrite IN by exact J. reflexivity.
      - destruct (dget D2 ty) as [row|]; [|reflexivity]. destruct (IE row ts d) as [->|(d' & ->)]; [reflexivity|]. cbn [rbind]. now apply IH. }
    now apply OUT.
  Qed.
End TcWeights.

Section TcMatrix.
  Variables pos tw : ttm R.
  Hypothesis GP : tgood pos.
  Hypothesis GT : tgood tw.
  Definition contexts_known : Prop := forall t, In t (trows pos) -> (exists c, tstored tw (token_type t) c) -> exists c, tstored pos t c.
  Definition some_weight : Prop := exists t c, tstored pos t c /\ tstored tw (token_type t) c.
  Lemma tc_dicts : exists D1 D2, sp_to_dict (tmx pos) (trows pos) (tcols pos) = Ok D1 /\ sp_to_dict (tmx tw) (trows tw) (tcols tw) = Ok D2.
  Proof.
    destruct (sp_to_dict_ok (tmx pos) (trows pos) (tcols pos)) as (D1 & E1 & _); try apply GP. destruct (sp_to_dict_ok (tmx tw) (trows tw) (tcols tw)) as (D2 & E2 & _); try apply GT. eauto.
  Qed.
  (** The result, whatever the columns: column number j of the result has the weights of column number j of [tw]. *)
  Lemma tc_general : contexts_known -> some_weight ->
    (length (tcols pos) <> length (tcols tw) -> build_tc_weight_matrix pos tw = Err ValueError) /\
    (length (tcols pos) = length (tcols tw) -> exists m, build_tc_weight_matrix pos tw = Ok m /\ tgood m /\ trows m = trows pos /\ tcols m = tcols pos /\
       forall t j c c', In t (trows pos) -> nth_error (tcols pos) j = Some c -> nth_error (tcols tw) j = Some c' -> val m t c = tc_weight pos tw (token_type t) t c').
  Proof.
    intros A (t0 & c0 & S0 & S0'). destruct tc_dicts as (D1 & D2 & E1 & E2). unfold build_tc_weight_matrix. rewrite E1, E2. cbn [rbind].
    destruct (dict_rows pos D1 GP E1) as (_ & _ & R1). destruct (dict_rows tw D2 GT E2) as (_ & _ & R2).
    destruct (weight_dict_ok pos tw D1 D2 GP GT E1 E2) as (d & -> & W & V). { intros t It K. apply R1. apply A; [exact It|]. now apply R2. } cbn [rbind].
    destruct (dict_to_sp_ok d (trows pos) (tcols tw)) as (s & -> & Ws & Fs & Rs & Cs & _ & Gs); [apply GP|apply GT|exact W|exists t0, c0, (val tw (token_type t0) c0); now apply V|]. cbn [rbind].
    unfold mk_ttm. rewrite Rs, Nat.eqb_refl. cbn [negb]. rewrite Cs. split; intros E.
    - rewrite (proj2 (Nat.eqb_neq _ _)) by congruence. reflexivity.
    - rewrite <- E, Nat.eqb_refl. cbn [negb]. eexists. split; [reflexivity|].
      assert (GM : tgood (Ttm s (trows pos) (tcols pos))) by (constructor; cbn [tmx trows tcols]; try assumption; try apply GP; congruence).
      split; [exact GM|]. split; [reflexivity|]. split; [reflexivity|]. intros t j c c' It Ec Ec'.
      rewrite (val_at _ (idx (trows pos) t) j t c GM); [|now apply idx_nth|exact Ec]. cbn [tmx].
      assert (Ic' : In c' (tcols tw)) by (eapply nth_error_In; exact Ec'). pose proof (idx_of_nth _ _ _ (tg_nc _ GT) Ec') as X. rewrite <- X, Gs by assumption.
      unfold tc_weight. destruct (tstored_dec pos t c') as [S|S].
      + destruct (tstored_dec tw (token_type t) c') as [S'|S'].
        * rewrite (proj2 (V t c' (val tw (token_type t) c'))) by auto. reflexivity.
        * destruct (dget2 d t c') as [v|] eqn:Q; [apply V in Q; tauto|]. cbn [oz]. symmetry. destruct (Req_EM_T (val tw (token_type t) c') 0) as [Z|N]; [exact Z|]. exfalso. now apply S', stored_val.
      + destruct (dget2 d t c') as [v|] eqn:Q; [apply V in Q; tauto|reflexivity].
  Qed.
  Lemma tc_correct : contexts_known -> some_weight -> tcols pos = tcols tw ->
    exists m, build_tc_weight_matrix pos tw = Ok m /\ tgood m /\ trows m = trows pos /\ tcols m = tcols pos /\
      forall t ty c, In t (trows pos) -> token_with_type t ty -> In c (tcols pos) -> val m t c = tc_weight pos tw ty t c.
  Proof.
    intros A B E. destruct (proj2 (tc_general A B)) as (m & Q & G & R & C & V); [now rewrite E|]. exists m. repeat (split; [assumption|]). intros t ty c It T Ic.
    rewrite <- (token_type_spec t ty T). apply In_nth_error in Ic as (j & Ej). apply (V t j); [exact It|exact Ej|now rewrite <- E].
  Qed.
  Lemma tc_keyerror t ty : In t (trows pos) -> token_with_type t ty -> (exists c, tstored tw ty c) -> (forall c, ~ tstored pos t c) -> build_tc_weight_matrix pos tw = Err KeyError.
  Proof.
    intros It T K N. destruct tc_dicts as (D1 & D2 & E1 & E2). unfold build_tc_weight_matrix. rewrite E1, E2. cbn [rbind].
    destruct (dict_rows pos D1 GP E1) as (_ & _ & R1). destruct (dict_rows tw D2 GT E2) as (_ & _ & R2).
    rewrite (weight_dict_missing pos D1 D2 t); [reflexivity|exact It|apply R2; now rewrite (token_type_spec t ty T)|]. intros J. apply R1 in J as (c & S). now apply (N c).
  Qed.
  Lemma tc_nothing : contexts_known -> ~ some_weight -> build_tc_weight_matrix pos tw = Err ValueError.
  Proof.
    intros A N. destruct tc_dicts as (D1 & D2 & E1 & E2). unfold build_tc_weight_matrix. rewrite E1, E2. cbn [rbind].
    destruct (dict_rows pos D1 GP E1) as (_ & _ & R1). destruct (dict_rows tw D2 GT E2) as (_ & _ & R2).
    destruct (weight_dict_ok pos tw D1 D2 GP GT E1 E2) as (d & -> & W & V). { intros t It K. apply R1. apply A; [exact It|]. now apply R2. } cbn [rbind].
    rewrite dict_to_sp_empty; [reflexivity|apply GP|apply GT|exact W|]. intros t c. destruct (dget2 d t c) as [v|] eqn:Q; [|reflexivity]. apply V in Q as (S & S' & _). elim N. exists t, c. auto.
  Qed.
End TcMatrix.

(** The same in terms of the way token strings are written *)
Lemma typed_known pos tw : (forall t, In t (trows pos) -> exists ty, token_with_type t ty /\ ((exists c, tstored tw ty c) -> exists c, tstored pos t c)) -> contexts_known pos tw.
Proof. intros A t It K. destruct (A t It) as (ty & T & B). apply B. now rewrite <- (token_type_spec t ty T). Qed.
Lemma some_known pos tw : (exists t ty c, In t (trows pos) /\ token_with_type t ty /\ tstored pos t c /\ tstored tw ty c) -> some_weight pos tw.
Proof. intros (t & ty & c & It & T & S & S'). exists t, c. split; [exact S|]. now rewrite (token_type_spec t ty T). Qed.
Lemma known_some pos tw : (forall t, In t (trows pos) -> exists ty, token_with_type t ty /\ ((exists c, tstored tw ty c) -> exists c, tstored pos t c)) -> some_weight pos tw ->
  exists t ty c, In t (trows pos) /\ token_with_type t ty /\ tstored pos t c /\ tstored tw ty c.
Proof.
  intros A (t & c & S & S'). destruct (A t (proj1 S)) as (ty & T & _). exists t, ty, c. split; [apply S|]. split; [exact T|]. split; [exact S|]. now rewrite <- (token_type_spec t ty T).
Qed.

(** ** The class TypeToken *)
Section Typetoken.
  Variable distances : pystr -> dense -> res dense.
  Variable ranks : bool -> simmx -> list (list nat).
  Lemma step_ok st c : nothing_built st -> let (st', r) := step distances ranks st c in
    nothing_built st' /\ answers distances ranks c r /\ m_simmx st' = last_sim (m_simmx st) [r] /\ m_rankmx st' = last_rank ranks (m_rankmx st) [(c, r)].
  Proof.
    intros N. pose proof N as (N1 & N2 & N3 & N4 & N5 & N6 & N7 & N8).
    destruct c as [| | |row col|m meas|m metric rank axis|m metric|s reverse|q|q row col|pos tw|w soc o|q|n]; cbn [step].
    - rewrite N1. repeat split; auto. constructor.
    - repeat split; auto. constructor.
    - repeat split; auto. constructor.
    - repeat split; auto. constructor.
    - repeat split; auto. constructor.
    - destruct (eqb metric (u "cos") || eqb metric (u "cosine")) eqn:M.
      + assert (M' : metric = u "cos" \/ metric = u "cosine") by (apply orb_true_iff in M as [M|M]; apply (proj1 (eqb_eq _ _)) in M; auto).
        rewrite N3. unfold on_axis, given. destruct ((axis =? 0)%Z || (axis =? 1)%Z) eqn:A.
        * assert (A' : axis = 0%Z \/ axis = 1%Z) by (apply orb_true_iff in A as [A|A]; apply Z.eqb_eq in A; auto). destruct m as [m|]; cbn [rbind].
          -- destruct (compute_cosine m axis) as [s|e] eqn:E.
             ++ split; [destruct rank; repeat split; auto|]. split; [exact (an_cosine distances ranks m metric rank axis (Ok s) M' A' E)|]. destruct rank; split; reflexivity.
             ++ split; [exact N|]. split; [exact (an_cosine distances ranks m metric rank axis (Err e) M' A' E)|]. destruct rank; split; reflexivity.
          -- split; [exact N|]. split; [now constructor|]. destruct rank; split; reflexivity.
        * apply orb_false_iff in A as [A B]. apply Z.eqb_neq in A, B. split; [exact N|]. split; [now constructor|]. destruct rank; split; reflexivity.
      + apply orb_false_iff in M as [A B]. apply eqb_neq in A, B. split; [exact N|]. split; [now constructor|]. destruct rank; split; reflexivity.
    - rewrite N3. unfold on_axis, given. cbn [Z.eqb orb]. destruct m as [m|]; cbn [rbind].
      + destruct (compute_distance distances m 0 metric) as [s|e] eqn:E.
        * split; [repeat split; auto|]. split; [exact (an_distance distances ranks m metric (Ok s) E)|]. split; reflexivity.
        * split; [exact N|]. split; [exact (an_distance distances ranks m metric (Err e) E)|]. split; reflexivity.
      + split; [exact N|]. split; [constructor|]. split; reflexivity.
    - destruct s as [s|]; (split; [repeat split; auto|]); (split; [constructor|]); split; reflexivity.
    - unfold select_types. rewrite N1. split; [exact N|]. destruct q; (split; [constructor|]); split; reflexivity.
    - unfold select_types. rewrite N1. split; [exact N|]. destruct q as [|[|x l]|]; cbn [asked]; destruct (usable row) eqn:U; (split; [|split; reflexivity]);
        first [apply an_retrieve_name; [tauto|exact U] | apply an_retrieve_value; right; exact U | apply an_retrieve_value; left; split; discriminate].
    - destruct tw; (split; [exact N|]); (split; [constructor|]); split; reflexivity.
    - rewrite N6. split; [exact N|]. destruct w as [w|]; destruct soc as [soc|]; cbn [given]; (split; [constructor; auto|]); split; reflexivity.
    - rewrite N1. split; [exact N|]. split; [constructor|]. split; reflexivity.
    - rewrite N8. split; [exact N|]. split; [constructor|]. split; reflexivity.
  Qed.
  Lemma last_sim_cons b r rs : last_sim b (r :: rs) = last_sim (last_sim b [r]) rs.
  Proof. destruct r as [[]|]; reflexivity. Qed.
  Lemma last_rank_cons b x xs : last_rank ranks b (x :: xs) = last_rank ranks (last_rank ranks b [x]) xs.
  Proof. destruct x as [c r]. destruct c as [| | | | |m me [|] a| | | | | | | |]; destruct r as [[]|]; reflexivity. Qed.
  Lemma run_from cs : forall st, nothing_built st -> let (st', rs) := run distances ranks st cs in
    nothing_built st' /\ Forall2 (answers distances ranks) cs rs /\ m_simmx st' = last_sim (m_simmx st) rs /\ m_rankmx st' = last_rank ranks (m_rankmx st) (combine cs rs).
  Proof.
    induction cs as [|c cs IH]; intros st N; [cbn; repeat split; auto; apply N|]. cbn [run]. pose proof (step_ok st c N) as A. destruct (step distances ranks st c) as [st1 r]. destruct A as (N1 & A & S & K).
    specialize (IH st1 N1). destruct (run distances ranks st1 cs) as [st2 rs]. destruct IH as (N2 & F & S2 & K2). split; [exact N2|]. split; [now constructor|].
    cbn [combine]. rewrite last_sim_cons, last_rank_cons, <- S, <- K. auto.
  Qed.
  Lemma run_fresh cs : let (st, rs) := run distances ranks fresh cs in
    nothing_built st /\ Forall2 (answers distances ranks) cs rs /\ m_simmx st = last_sim None rs /\ m_rankmx st = last_rank ranks None (combine cs rs).
  Proof. apply (run_from cs fresh). repeat split. Qed.
  (** one answer per call *)
  Lemma answers_fun c r r' : answers distances ranks c r -> answers distances ranks c r' -> r = r'.
  Proof.
    intros A B. destruct A; inversion B; subst; try reflexivity; try congruence; try tauto; exfalso;
      repeat match goal with H : _ \/ _ |- _ => destruct H end; try congruence; try tauto; try (match goal with H : _ /\ _ |- _ => destruct H; congruence end).
  Qed.
End Typetoken.

(** ** The name of the corpus *)
Lemma corpus_name_cases : (forall path, corpus_name None path = Ok None /\ corpus_name (Some []) path = Ok (Some [])) /\
  (forall n p, n <> [] -> corpus_name (Some n) (Some p) = Ok (Some (last (split slash p) []))) /\ (forall n, n <> [] -> corpus_name (Some n) None = Err AttributeError).
Proof. split; [intros path; split; reflexivity|]. split; [intros [|x n] p N; [congruence|reflexivity]|]. intros [|x n] N; [congruence|reflexivity]. Qed.
Lemma corpus_name_kept n p x : n <> [] -> ~ In slash x -> corpus_name (Some n) (Some (p ++ slash :: x)) = Ok (Some n) <-> n = x.
Proof.
  intros N Nx. rewrite (proj1 (proj2 corpus_name_cases)) by exact N. rewrite TokMxPipeProofs.split_app, (split_noc_id _ _ Nx), last_last. split; [congruence|now intros ->].
Qed.
