(** * The token vectors of the tutorial: proofs. *)
From Coq Require Import String NArith ZArith Bool Arith Lia Reals Lra Permutation List.
From Verif Require Import Base BaseLemmas Str StrLemmas VocabModel TermsModel MxModel MxSpec MxProofs MxTtmProofs MxOpsProofs MxCellProofs MxElemProofs MxMoreProofs
  CalcModel CalcSpec CalcProofs CalcProofs2 CalcCellProofs CalcVecModel CalcVecSpec CalcVecProofs CalcVecProofs2 TokMxModel TokMxSpec TokMxProofs PipeModel PipeSpec PipeProofs
  EndModel EndProofs2 TutModel TutSpec.
Import ListNotations.
Local Open Scope nat_scope.

(** ** submatrix and drop *)
Section Cut.
  Context {V : Type} {NV : Num V}.
  Definition some_nz (m : ttm V) (rows : list pystr) (c : pystr) : bool := existsb (fun r => negb (isz (val m r c))) rows.
  Lemma some_nz_ok m rows c : some_nz m rows c = true <-> exists r, In r rows /\ val m r c <> zero.
  Proof.
    unfold some_nz. rewrite existsb_exists. split; intros (r & I & H); exists r; (split; [exact I|]).
    - apply negb_true_iff in H. now apply isz_false in H.
    - apply negb_true_iff. now apply isz_false.
  Qed.
  Lemma requested_NoDup items req : NoDup items -> (forall l, req = Some l -> NoDup l) -> NoDup (requested items req).
  Proof. intros A B. destruct req as [l|]; cbn [requested]; [apply NoDup_filter; auto|exact A]. Qed.
  Lemma filter_len {A} (p : A -> bool) l : (0 <? length (filter p l)) = existsb p l.
  Proof. induction l as [|x l IH]; [reflexivity|]. cbn [filter existsb]. destruct (p x); [reflexivity|exact IH]. Qed.
  Lemma cut_ok (m : ttm V) row col : tgood m -> (forall l, row = Some l -> NoDup l) -> (forall l, col = Some l -> NoDup l) ->
    let rows := requested (trows m) row in let cols := requested (tcols m) col in let kept := filter (some_nz m rows) cols in
    (~ (found (trows m) row /\ found (tcols m) col) /\ cut_columns m row col = Err AttributeError) \/
    (found (trows m) row /\ found (tcols m) col /\
      (length cols = 1 /\ cut_columns m row col = Err IndexError \/
       length cols <> 1 /\ kept = [] /\ cut_columns m row col = Ok None \/
       length cols <> 1 /\ kept <> [] /\ exists m', cut_columns m row col = Ok (Some m') /\ tgood m' /\ trows m' = rows /\ tcols m' = kept /\
         forall r c, In r rows -> In c kept -> val m' r c = val m r c)).
  Proof.
    intros G NR NC rows cols kept. unfold cut_columns. destruct (found_dec (trows m) row) as [Fr|Fr]; [destruct (found_dec (tcols m) col) as [Fc|Fc]|].
    2, 3: left; split; [tauto|rewrite submatrix_none by tauto; reflexivity].
    right. split; [exact Fr|]. split; [exact Fc|]. destruct (submatrix_ok m row col G Fr Fc) as (s & E & ER & EC & _). destruct (submatrix_val m row col s G E NR NC) as (Gs & Vs).
    rewrite E. unfold deref. cbn [rbind]. rewrite ER, EC in Vs. fold rows in ER, Vs. fold cols in EC, Vs. destruct (Nat.eq_dec (length cols) 1) as [L|L].
    - left. split; [exact L|]. apply drop_single; [exact Gs|now rewrite EC].
    - right. assert (K : filter (fun x => 0 <? col_nonzeros s x) (tcols s) = kept).
      { unfold kept. rewrite EC. apply filter_ext_in. intros c Ic. unfold col_nonzeros, MxCellProofs.nz. rewrite filter_len, ER. unfold some_nz.
        apply eq_true_iff_eq. rewrite !existsb_exists. split; intros (r & I & H); exists r; (split; [exact I|]); cbv beta in *.
        - rewrite Vs, (mem_true _ _ I), (mem_true _ _ Ic) in H. exact H.
        - rewrite Vs, (mem_true _ _ I), (mem_true _ _ Ic). exact H. }
      destruct (drop_cols s 0 Gs) as [(K0 & D)|(m' & D & G' & C' & R' & V')]; [now rewrite EC| |].
      + left. rewrite K in K0. auto.
      + right. split; [exact L|]. split. { rewrite <- K. intros Q. rewrite (drop_submatrix s true 0) in D; [|exact Gs|now rewrite EC]. rewrite Q in D. rewrite submatrix_none in D; [discriminate|exact Gs|]. cbn [found requested filter]. intros [_ X]. now apply X. }
        exists m'. split; [exact D|]. split; [exact G'|]. rewrite K in C'. rewrite ER in R'. split; [exact R'|]. split; [exact C'|].
        intros r c Ir Ic. rewrite V' by now rewrite C'. unfold kept in Ic. apply filter_In in Ic as (Ic & _). rewrite Vs, (mem_true _ _ Ir), (mem_true _ _ Ic). reflexivity.
  Qed.
End Cut.

(** ** Numbers *)
Lemma norm_l1_mean {A} (g : A -> R) (l : list A) (w : R) x : (0 <= w)%R -> (w = 0%R -> forall y, In y l -> g y = 0%R) -> (forall y, In y l -> 0 <= g y)%R -> In x l ->
  norm_by (u "l1") (map (fun y => nan_div (g y) w) l) (nan_div (g x) w) = if Req_EM_T (sumr (map g l)) 0 then 0%R else (g x / sumr (map g l))%R.
Proof.
  intros W0 WZ NN Ix. unfold norm_by. change (eqb (u "l1") (u "no")) with false. cbn iota. unfold vec_norm. rewrite eqb_refl. rewrite map_map. unfold nan_div.
  destruct (Req_EM_T w 0) as [Z|NZ].
  - assert (E : forall y, In y l -> (if Req_EM_T (g y) 0 then 0 else if Rlt_dec 0 (g y) then dbl_max else - dbl_max)%R = 0%R).
    { intros y I. destruct (Req_EM_T (g y) 0); [reflexivity|]. elim n. auto. }
    rewrite (sumr_zero (map g l)). 2: { intros y I. apply in_map_iff in I as (z & <- & I). auto. }
    destruct (Req_EM_T 0 0) as [_|N]; [|now elim N]. rewrite E by exact Ix. destruct (Req_EM_T _ 0); [reflexivity|]. unfold Rdiv. apply Rmult_0_l.
  - assert (E : sumr (map (fun y => Rabs (g y / w)) l) = (sumr (map g l) / w)%R).
    { unfold Rdiv at 2. rewrite Rmult_comm, <- sumr_scale. f_equal. apply map_ext_in. intros y I. rewrite Rabs_right; [unfold Rdiv; apply Rmult_comm|]. apply Rle_ge. apply Rmult_le_pos; [auto|].
      apply Rlt_le, Rinv_0_lt_compat. lra. }
    rewrite E. assert (Pw : (0 < w)%R) by lra. destruct (Req_EM_T (sumr (map g l)) 0) as [S|S].
    + rewrite (sumr_nonneg_zero (map g l)) with (x := g x); [| |exact S|now apply in_map].
      2: { intros y I. apply in_map_iff in I as (z & <- & I). auto. }
      destruct (Req_EM_T _ 0); unfold Rdiv; rewrite ?Rmult_0_l; reflexivity.
    + destruct (Req_EM_T (sumr (map g l) / w) 0) as [Q|Q]; [|field; auto]. exfalso. apply S. apply Rmult_eq_reg_r with (/ w)%R; [|apply Rinv_neq_0_compat; lra]. rewrite Rmult_0_l. exact Q.
Qed.

Section Tut.
  Variables (freq toks : ttm Z) (queries : list pystr).
  Hypothesis SB : scorable freq.
  Hypothesis GT : tgood toks.
  Hypothesis ND : NoDup queries.
  Local Notation P := (Pf freq).
  Let GF := sb_good _ SB.
  Let NN := sb_counts _ SB.
  Let TP := sb_some _ SB.

  Lemma C1 : 1 <= length (tcols freq). Proof. clear GF NN TP. pose proof (sb_cols _ SB). lia. Qed.
  Lemma P_zero r c : val freq r c = 0%Z -> P r c = 0%R.
  Proof. intros E. unfold Pf. now rewrite E. Qed.
  Lemma P_in r c : P r c <> 0%R -> val freq r c <> 0%Z /\ In r (trows freq) /\ In c (tcols freq).
  Proof.
    intros N. assert (V : val freq r c <> 0%Z) by (intros E; apply N, P_zero, E). split; [exact V|].
    destruct (in_dec eqdec r (trows freq)) as [A|A]; [|elim V; exact (val_no_row freq r c A)]. destruct (in_dec eqdec c (tcols freq)) as [B|B]; [|elim V; exact (val_no_col freq r c B)]. auto.
  Qed.
  Lemma P_ppmi : ppmi_of freq P.
  Proof.
    assert (K : forall r c, In r (trows freq) -> In c (tcols freq) -> (0 <= P r c /\
      Rabs (P r c - ideal_ppmi (IZR (val freq r c)) (IZR (row_total freq r)) (IZR (col_total freq c)) (IZR (tt_total freq))) <= 22 / 100000000000)%R).
    { intros r c Ir Ic. destruct (reference_bounds freq r c GF NN Ir Ic) as (A & B & C). pose proof (NN r c).
      destruct (ppmi_table_close (val freq r c) (row_total freq r) (col_total freq c) (tt_total freq)) as (p & E & K); [exact TP|lia|lia|].
      rewrite (P_table freq GF NN C1 TP) in E by assumption. injection E as <-. exact K. }
    intros r c. split; [|split; [apply P_zero|intros Ir Ic; apply K; assumption]].
    destruct (Req_EM_T (P r c) 0) as [->|N]; [lra|]. destruct (P_in r c N) as (_ & Ir & Ic). apply K; assumption.
  Qed.
  Lemma P_nonneg r c : (0 <= P r c)%R. Proof. apply P_ppmi. Qed.

  Section Marginals.
  Variables nf cf : vocab.
  Hypothesis NF : rmap (vocab_init false) (tt_sum freq true) = Ok nf.
  Hypothesis CF : rmap (vocab_init false) (tt_sum freq false) = Ok cf.
  Lemma assoc_sub (m : ttm Z) : tgood m -> incl (trows m) (trows freq) -> incl (tcols m) (tcols freq) ->
    (forall r c, In r (trows m) -> In c (tcols m) -> val m r c = val freq r c) ->
    exists m', compute_association m nf cf None (u "ppmi") = Ok m' /\ tgood m' /\ trows m' = trows m /\ tcols m' = tcols m /\
      forall r c, In r (trows m) -> In c (tcols m) -> val m' r c = P r c.
  Proof.
    intros G IR IC V. assert (C1 : 1 <= length (tcols freq)) by (pose proof (sb_cols _ SB); lia).
    destruct (assoc_ppmi freq GF NN C1 TP nf cf NF CF m G IR IC) as (m' & E & G' & R' & C' & _ & V' & Z' & _); [intros r c (Ir & Ic & _); auto|].
    exists m'. do 4 (split; [assumption|]). intros r c Ir Ic. destruct (tstored_dec m r c) as [T|T]; [auto|]. rewrite Z' by exact T. symmetry. apply P_zero. rewrite <- V by assumption.
    destruct (Z.eq_dec (val m r c) 0) as [E0|N]; [exact E0|]. elim T. now apply tstored_nonzero.
  Qed.

  Local Notation qs := (filter (fun e => mem e (trows freq)) queries).
  Local Notation cs := (filter (fun e => mem e (tcols freq)) (tcols toks)).
  Lemma qs_In q : In q qs <-> In q queries /\ In q (trows freq).
  Proof. rewrite filter_In. split; intros (A & B); (split; [exact A|]); now apply mem_In. Qed.
  Lemma cs_In c : In c cs <-> shared freq toks c.
  Proof. rewrite filter_In. unfold shared. split; intros (A & B); (split; [exact A|]); now apply mem_In. Qed.
  Lemma cs_NoDup : NoDup cs. Proof. apply NoDup_filter, GT. Qed.
  Lemma counted_in c : counted freq queries c -> In c (tcols freq) /\ exists q, In q qs /\ val freq q c <> 0%Z.
  Proof.
    intros (q & Iq & N). destruct (in_dec eqdec q (trows freq)) as [A|A]; [|elim N; exact (val_no_row freq q c A)].
    destruct (in_dec eqdec c (tcols freq)) as [B|B]; [|elim N; exact (val_no_col freq q c B)]. split; [exact B|]. exists q. split; [now apply qs_In|exact N].
  Qed.
  Lemma counted_ok c : some_nz freq qs c = true <-> counted freq queries c.
  Proof.
    rewrite some_nz_ok. split; [intros (q & I & N); apply qs_In in I as (I & _); exists q; auto|]. intros C. apply counted_in in C. apply C.
  Qed.
  Lemma several_ok : several freq toks <-> 2 <= length cs.
  Proof.
    split.
    - intros (c & c' & N & S & S'). apply cs_In in S, S'. destruct cs as [|x [|y l]]; [destruct S| |cbn; lia]. destruct S as [<-|[]], S' as [<-|[]]. congruence.
    - intros L. pose proof cs_NoDup as D. destruct cs as [|x [|y l]] eqn:E; [cbn in L; lia|cbn in L; lia|]. exists x, y. split.
      + intros ->. inversion D as [|? ? NI _]; subst. apply NI. now left.
      + split; apply cs_In; rewrite E; cbn; auto.
  Qed.
  (** ** The weights *)
  Definition weights_stage (r : res (ttm R)) : Prop :=
    (forall e, r = Err e -> fails P freq toks queries e) /\
    forall w, r = Ok w -> several freq toks /\ all_counted freq toks queries /\ tgood w /\ trows w = trows toks /\ tcols w = tcols toks /\
      forall s rest c, lemma_pos s -> In (s ++ slash :: rest) (trows toks) -> In c (tcols toks) -> val w (s ++ slash :: rest) c = tok_weight P toks queries s (s ++ slash :: rest) c.
  Lemma weights_ok : weights_stage (tutorial_weights freq toks queries nf cf).
  Proof.
    unfold tutorial_weights. assert (NQ : forall l, Some queries = Some l -> NoDup l) by (intros ? [= <-]; exact ND). assert (NC : forall l, Some (tcols toks) = Some l -> NoDup l) by (intros ? [= <-]; apply GT).
    destruct (cut_ok freq (Some queries) (Some (tcols toks)) GF NQ NC) as [(NF' & ->)|(Fr & Fc & K)]; cbn [requested found deref rbind] in *.
    - split; [|discriminate]. intros e [= <-]. destruct qs as [|q l] eqn:Q; [|destruct cs as [|c l'] eqn:C].
      + apply no_query. intros (q & I). apply qs_In in I. rewrite Q in I. destruct I.
      + apply no_context. intros c I. apply cs_In in I. rewrite C in I. destruct I.
      + elim NF'. split; discriminate.
    - assert (QR : query_row freq queries). { destruct qs as [|q l] eqn:Q; [now elim Fr|]. exists q. apply qs_In. rewrite Q. now left. }
      destruct K as [(L & ->)|[(L & K0 & ->)|(L & KN & sub & -> & GS & RS & CS & VS)]]; cbn [deref rbind].
      + split; [|discriminate]. intros e [= <-]. destruct cs as [|c [|]] eqn:C; try discriminate L. apply (one_context _ _ _ _ c); [exact QR|apply cs_In; rewrite C; now left|].
        intros c' I. apply cs_In in I. rewrite C in I. destruct I as [<-|[]]. reflexivity.
      + assert (SV : several freq toks). { apply several_ok. destruct cs as [|c [|]]; [now elim Fc|now elim L|cbn; lia]. }
        split; [|discriminate]. intros e [= <-]. apply none_counted; [exact QR|exact SV|]. intros c I CC. assert (X : In c (filter (some_nz freq qs) cs)).
        { apply filter_In. split; [apply cs_In; split; [exact I|now apply counted_in]|now apply counted_ok]. } rewrite K0 in X. destruct X.
      + assert (SV : several freq toks). { apply several_ok. destruct cs as [|c [|]]; [now elim Fc|now elim L|cbn; lia]. }
        destruct (assoc_sub sub GS) as (wt & Ew & Gw & Rw & Cw & Vw).
        { rewrite RS. intros q I. apply qs_In in I. apply I. } { rewrite CS. intros c I. apply filter_In in I as (I & _). apply cs_In in I. apply I. }
        { intros r c Ir Ic. rewrite RS in Ir. rewrite CS in Ic. auto. }
        rewrite Ew. cbn [rbind]. destruct (ttm_map_good toks GT) as (GT' & VT').
        assert (NE : exists c, In c (tcols toks) /\ counted freq queries c).
        { destruct (filter (some_nz freq qs) cs) as [|c l] eqn:E0; [now elim KN|]. exists c. assert (I : In c (filter (some_nz freq qs) cs)) by (rewrite E0; now left). apply filter_In in I as (I & C). split; [apply cs_In in I; apply I|now apply counted_ok]. }
        rewrite CS in Cw. rewrite RS in Rw. destruct (list_eq_dec eqdec (tcols toks) (filter (some_nz freq qs) cs)) as [EQ|NEQ].
        * destruct (token_weights_ok (ttm_map IZR toks) wt true (u "lemma/pos") GT' Gw) as (w & Et & Gt & Rt & Ct & Vt); [cbn [ttm_map tcols]; rewrite Cw; exact EQ|].
          rewrite Et. split; [discriminate|]. intros w' [= <-]. assert (AC : all_counted freq toks queries).
          { intros c I. rewrite EQ in I. apply filter_In in I as (_ & I). now apply counted_ok. }
          split; [exact SV|]. split; [exact AC|]. split; [exact Gt|]. split; [exact Rt|]. split; [exact Ct|].
          intros s rest c (a & b & Na & Nb & ->) It Ic. rewrite <- app_assoc in *. cbn [app] in *. rewrite Vt by assumption. rewrite VT', type_of_lemma_pos by assumption. unfold masked, tok_weight.
          destruct (Z.eqb_spec (val toks (a ++ slash :: b ++ slash :: rest) c) 0) as [Z|Z]; [rewrite Z; destruct (Req_EM_T 0 0); [reflexivity|lra]|].
          destruct (Req_EM_T (IZR (val toks (a ++ slash :: b ++ slash :: rest) c)) 0) as [Q|_]; [elim Z; now apply eq_IZR|].
          match goal with |- context [if ?y then P _ _ else _] => destruct y eqn:Mq end.
          -- destruct (in_dec eqdec (a ++ slash :: b) (trows freq)) as [I|I].
             ++ rewrite RS, CS in Vw. apply Vw; [apply qs_In; split; [now apply mem_In|exact I]|now rewrite <- EQ].
             ++ rewrite P_zero by exact (val_no_row freq _ c I). refine (val_no_row wt _ _ _). rewrite Rw. intros J. apply qs_In in J. tauto.
          -- refine (val_no_row wt _ _ _). rewrite Rw. intros J. apply qs_In in J as (J & _). apply mem_In in J. congruence.
        * assert (X : compute_token_weights (ttm_map IZR toks) wt true (u "lemma/pos") = Err ValueError).
          { unfold compute_token_weights. cbn [ttm_map tcols]. rewrite Cw. now rewrite (proj2 (eqb_neq _ _) NEQ). }
          rewrite X. split; [|discriminate]. intros e [= <-]. destruct NE as (c & Ic & C). destruct (existsb (fun c => negb (some_nz freq qs c)) (tcols toks)) eqn:B.
          -- apply existsb_exists in B as (c' & Ic' & B). apply negb_true_iff in B. apply (not_all_counted _ _ _ _ c c'); try assumption. intros X'. apply counted_ok in X'. congruence.
          -- exfalso. apply NEQ. assert (A : forall c, In c (tcols toks) -> some_nz freq qs c = true).
             { intros c' I. destruct (some_nz freq qs c') eqn:Q; [reflexivity|]. exfalso. apply not_true_iff_false in B. apply B, existsb_exists. exists c'. now rewrite Q. }
             symmetry. transitivity (filter (fun c => mem c (tcols freq) && some_nz freq qs c) (tcols toks)).
             ++ clear. induction (tcols toks) as [|x l IH]; [reflexivity|]. cbn [filter]. destruct (mem x (tcols freq)); cbn [andb filter]; [destruct (some_nz freq qs x); now rewrite IH|exact IH].
             ++ apply filter_all. intros x I. rewrite (A x I), andb_true_r. apply mem_true. apply (counted_in x). apply counted_ok. auto.
  Qed.
  (** ** The vectors *)
  Local Notation tsum := (tok_sum P toks queries).
  Lemma tok_weight_nonneg s t c : (0 <= tok_weight P toks queries s t c)%R.
  Proof. unfold tok_weight. destruct (val toks t c =? 0)%Z; [lra|]. destruct (mem s queries); [apply P_nonneg|lra]. Qed.
  Lemma tok_sum_nonneg s t f : (0 <= tsum s t f)%R.
  Proof. apply sumr_nonneg. intros x I. apply in_map_iff in I as (c & <- & _). apply Rmult_le_pos; [apply tok_weight_nonneg|apply P_nonneg]. Qed.
  Definition vectors_stage (r : res (ttm R)) : Prop :=
    (forall e, r = Err e -> fails P freq toks queries e) /\
    forall m, r = Ok m -> has_vectors P freq toks queries /\ vectors_are P freq toks queries m.
  Lemma vectors_ok : vectors_stage
    (rbind (compute_association freq nf cf None (u "ppmi")) (fun ppmi => rbind (tutorial_weights freq toks queries nf cf) (fun weighted =>
     rbind (cut_columns ppmi (Some (tcols weighted)) None) (fun soc =>
     match soc with Some soc => compute_token_vectors weighted soc (u "weightedmean") (u "l1") | None => Err AssertionError end)))).
  Proof.
    destruct (assoc_sub freq GF) as (ppmi & Ep & Gp & Rp & Cp & Vp); [apply incl_refl|apply incl_refl|reflexivity|]. rewrite Ep. cbn [rbind].
    destruct weights_ok as (WE & WO). destruct (tutorial_weights freq toks queries nf cf) as [w|e]; cbn [rbind].
    2: { split; [|discriminate]. intros e' [= <-]. auto. }
    destruct (WO w eq_refl) as (SV & AC & Gw & Rw & Cw & Vw). clear WE WO.
    assert (P' : forall c f, P c f = val ppmi c f).
    { intros c f. destruct (in_dec eqdec c (trows freq)) as [A|A]; [destruct (in_dec eqdec f (tcols freq)) as [B|B]|].
      - symmetry. auto.
      - rewrite P_zero by exact (val_no_col freq c f B). symmetry. refine (val_no_col ppmi c f _). now rewrite Cp.
      - rewrite P_zero by exact (val_no_row freq c f A). symmetry. refine (val_no_row ppmi c f _). now rewrite Rp. }
    rewrite Cw. destruct (cut_ok ppmi (Some (tcols toks)) None Gp) as [(NF' & ->)|(Fr & _ & K)]; [intros ? [= <-]; apply GT|discriminate| |]; cbn [requested found deref rbind] in *.
    { split; [|discriminate]. intros e [= <-]. apply no_row; [exact SV|exact AC|]. intros c Ic Ir. apply NF'. split; [|exact I]. rewrite Rp. intros Q.
      assert (X : In c (filter (fun e => mem e (trows freq)) (tcols toks))) by (apply filter_In; split; [exact Ic|now apply mem_In]). rewrite Q in X. destruct X. }
    rewrite Rp, Cp in K. rewrite Rp in Fr. set (rs := filter (fun e => mem e (trows freq)) (tcols toks)) in *. set (kept := filter (some_nz ppmi rs) (tcols freq)) in *.
    assert (RI : forall c, In c rs <-> In c (tcols toks) /\ In c (trows freq)).
    { intros c. unfold rs. rewrite filter_In. split; intros (A & B); (split; [exact A|]); now apply mem_In. }
    assert (KI : forall f, In f kept <-> exists c, In c (tcols toks) /\ P c f <> 0%R).
    { intros f. unfold kept. rewrite filter_In, some_nz_ok. split.
      - intros (_ & c & Ic & N). apply RI in Ic as (Ic & _). exists c. split; [exact Ic|]. rewrite P'. exact N.
      - intros (c & Ic & N). destruct (P_in c f N) as (_ & Ir & If). split; [exact If|]. exists c. split; [now apply RI|]. rewrite <- P'. exact N. }
    destruct K as [(L & _)|[(L & K0 & ->)|(L & KN & soc & -> & Gs & Rs & Cs & Vs)]]; cbn [rbind].
    - pose proof (sb_cols _ SB). lia.
    - split; [|discriminate]. intros e [= <-]. assert (X : exists c, In c rs) by (destruct rs as [|c l]; [now elim Fr|exists c; now left]). destruct X as (c & X). apply RI in X as (Ic & Ir).
      apply (no_information _ _ _ _ c); try assumption. intros (c' & f & J & N). assert (X : In f kept) by (apply KI; eauto). rewrite K0 in X. destruct X.
    - assert (INF : informative P toks). { destruct kept as [|f l] eqn:E; [now elim KN|]. destruct (proj1 (KI f) ltac:(now left)) as (c & Ic & N). exists c, f. auto. }
      destruct (forallb (fun c => mem c (trows freq)) (tcols toks)) eqn:A.
      + rewrite forallb_forall in A. assert (AR : forall c, In c (tcols toks) -> In c (trows freq)) by (intros c I; apply mem_In; auto).
        assert (SS : forall x, In x (tcols w) <-> In x (trows soc)) by (intros x; rewrite Cw, Rs, RI; split; [auto|tauto]).
        assert (RN : trows toks = [] \/ trows toks <> []) by (destruct (trows toks); [now left|right; discriminate]). destruct RN as [RN|RN].
        { assert (E : compute_token_vectors w soc (u "weightedmean") (u "l1") = Err ValueError) by (apply vectors_none; [exact Gw|exact Gs|discriminate|discriminate|left; now rewrite Rw]).
          rewrite E. split; [|discriminate]. intros e [= <-]. apply no_token; assumption. }
        destruct (weighted_mean_ok w soc (u "l1") Gw Gs SS ltac:(right; now left) ltac:(right; rewrite Rw, Cs; now split)) as (m & E & Gm & Rm & Cm & Vm). cbv zeta in Vm. rewrite E. split; [discriminate|]. intros m' [= <-].
        split; [repeat split; assumption|]. constructor; [exact Gm|now rewrite Rm|intros f; rewrite Cm, Cs; apply KI|exists (some_nz ppmi rs); now rewrite Cm|].
        intros s rest f LP It. set (t := s ++ slash :: rest) in *.
        assert (WS : forall f, In f kept -> weighted_sum w soc t f = tsum s t f).
        { intros f' If. unfold weighted_sum, tok_sum. rewrite Cw. f_equal. apply map_ext_in. intros c Ic. unfold t. rewrite Vw by assumption. f_equal. rewrite Vs; [now rewrite P'|apply RI; auto|exact If]. }
        assert (Z0 : forall f, ~ In f kept -> tsum s t f = 0%R).
        { intros f' N. apply sumr_zero. intros x I. apply in_map_iff in I as (c & <- & Ic). destruct (Req_EM_T (P c f') 0) as [->|Q]; [ring|]. elim N. apply KI. eauto. }
        assert (SUM : sumr (map (tsum s t) kept) = sumr (map (tsum s t) (tcols freq))).
        { apply sumr_part; [apply NoDup_filter, GF|apply GF|intros x I; unfold kept in I; now apply filter_In in I|intros x _ N; auto]. }
        unfold tok_vector. destruct (in_dec eqdec f kept) as [If|Nf].
        * rewrite Vm; [|now rewrite Rw|now rewrite Cs]. rewrite Cs, <- SUM.
          rewrite (map_ext_in _ (fun f => nan_div (tsum s t f) (sumr (map (val w t) (tcols w)))) kept) by (intros f' I; now rewrite WS). rewrite WS by exact If.
          apply (norm_l1_mean (tsum s t)); [| |intros; apply tok_sum_nonneg|exact If].
          -- apply sumr_nonneg. intros x I. apply in_map_iff in I as (c & <- & Ic). rewrite Cw in Ic. unfold t. rewrite Vw by assumption. apply tok_weight_nonneg.
          -- intros W0 y _. unfold tok_sum. apply sumr_zero. intros x I. apply in_map_iff in I as (c & <- & Ic). fold t.
             assert (Q : val w t c = 0%R). { apply (sumr_nonneg_zero (map (val w t) (tcols w))); [|exact W0|apply in_map; now rewrite Cw]. intros z J. apply in_map_iff in J as (d & <- & Jd). rewrite Cw in Jd. unfold t. rewrite Vw by assumption. apply tok_weight_nonneg. }
             unfold t in Q. rewrite Vw in Q by assumption. fold t in Q. rewrite Q. ring.
        * rewrite (Z0 f Nf). assert (Q : val m t f = 0%R) by (refine (val_no_col m t f _); now rewrite Cm, Cs). rewrite Q. destruct (Req_EM_T _ 0); [reflexivity|]. unfold Rdiv. ring.
      + assert (X : exists c, In c (tcols toks) /\ ~ In c (trows freq)).
        { apply not_true_iff_false in A. destruct (existsb (fun c => negb (mem c (trows freq))) (tcols toks)) eqn:B.
          - apply existsb_exists in B as (c & Ic & B). exists c. split; [exact Ic|]. apply negb_true_iff in B. now apply mem_nIn in B.
          - exfalso. apply A, forallb_forall. intros c Ic. destruct (mem c (trows freq)) eqn:Q; [reflexivity|]. exfalso. apply not_true_iff_false in B. apply B, existsb_exists. exists c. now rewrite Q. }
        destruct X as (c & Ic & Nc). assert (E : compute_token_vectors w soc (u "weightedmean") (u "l1") = Err ValueError).
        { apply vectors_mismatch. intros H. apply Nc. apply RI. rewrite <- Rs. apply H. now rewrite Cw. }
        rewrite E. split; [|discriminate]. intros e [= <-]. apply (not_all_rows _ _ _ _ c); assumption.
  Qed.
  End Marginals.

  Lemma tutorial_stage : vectors_stage (tutorial_vectors freq toks queries).
  Proof.
    unfold tutorial_vectors, with_marginals. destruct (tt_sum_ok freq true GF) as (d1 & E1 & _); [pose proof (sb_rows _ SB); cbn iota; lia|].
    destruct (tt_sum_ok freq false GF) as (d2 & E2 & _); [pose proof (sb_cols _ SB); cbn iota; lia|]. rewrite E1, E2. cbn [rmap rbind]. apply vectors_ok; [now rewrite E1|now rewrite E2].
  Qed.

  Lemma shared_counted c : In c (tcols toks) -> counted freq queries c -> query_row freq queries.
  Proof. intros _ C. apply counted_in in C as (_ & q & Iq & _). exists q. now apply qs_In. Qed.
  Lemma fails_has e : fails P freq toks queries e -> ~ has_vectors P freq toks queries.
  Proof.
    intros F ((c1 & c2 & NE & (S1 & S1') & S2) & AC & AR & INF & RN). destruct F.
    - apply H. apply (shared_counted c1); auto.
    - apply (H c1). now split.
    - apply NE. rewrite (H1 c1), (H1 c2); [reflexivity|exact S2|now split].
    - apply (H1 c1); auto.
    - auto.
    - apply (H1 c1); auto.
    - auto.
    - auto.
    - auto.
  Qed.
  Lemma fails_once e e' : fails P freq toks queries e -> fails P freq toks queries e' -> e = e'.
  Proof.
    assert (X : forall c, several freq toks -> shared freq toks c -> ~ (forall c', shared freq toks c' -> c' = c)).
    { intros c (c1 & c2 & NE & A & B) _ H. apply NE. now rewrite (H c1), (H c2). }
    assert (SN : several freq toks -> ~ forall c, ~ shared freq toks c) by (intros (c1 & c2 & _ & A & _) H; exact (H c1 A)).
    assert (CQ : forall c, counted freq queries c -> query_row freq queries) by (intros c C; apply counted_in in C as (_ & q & Iq & _); exists q; now apply qs_In).
    assert (AQ : several freq toks -> all_counted freq toks queries -> query_row freq queries) by (intros (c1 & _ & _ & (A & _) & _) AC; apply (CQ c1); auto).
    assert (AN : several freq toks -> all_counted freq toks queries -> ~ forall c, In c (tcols toks) -> ~ counted freq queries c) by (intros (c1 & _ & _ & (A & _) & _) AC H; apply (H c1); auto).
    assert (IR : informative P toks -> ~ forall c, In c (tcols toks) -> ~ In c (trows freq)) by (intros (c & f & Ic & N) H; apply (H c Ic); now apply (P_in c f)).
    intros F F'. destruct F; destruct F'; try reflexivity; exfalso; unfold all_counted in *; intuition eauto.
  Qed.
  Theorem tutorial_vectors_ok :
    (has_vectors P freq toks queries <-> exists m, tutorial_vectors freq toks queries = Ok m) /\
    (forall m, tutorial_vectors freq toks queries = Ok m -> vectors_are P freq toks queries m) /\
    (forall e, tutorial_vectors freq toks queries = Err e <-> fails P freq toks queries e).
  Proof.
    destruct tutorial_stage as (SE & SO). destruct (tutorial_vectors freq toks queries) as [m|e] eqn:E.
    - destruct (SO m eq_refl) as (H & V). split; [split; [eauto|auto]|]. split; [intros m' [= <-]; exact V|]. intros e. split; [discriminate|]. intros F. elim (fails_has e F H).
    - specialize (SE e eq_refl). split; [split; [intros H; elim (fails_has e SE H)|intros (m & [=])]|]. split; [discriminate|]. intros e'. split; [intros [= <-]; exact SE|]. intros F. f_equal. exact (fails_once _ _ SE F).
  Qed.
End Tut.
