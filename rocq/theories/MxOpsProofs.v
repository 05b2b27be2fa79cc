(** * TypeTokenMatrix operations by item: proofs. *)
From Coq Require Import NArith ZArith Bool Arith Lia Permutation Sorted List.
From Verif Require Import Base BaseLemmas MxModel MxSpec MxProofs MxTtmProofs.
Import ListNotations.

Section Ops.
  Context {V : Type} {NV : Num V}.
  Implicit Types (m a b : ttm V) (s : sp V) (r c : pystr).

  Lemma val_at m i j r c : tgood m -> nth_error (trows m) i = Some r -> nth_error (tcols m) j = Some c -> val m r c = spget (tmx m) i j.
  Proof.
    intros G Er Ec. unfold val. now rewrite (index_of_nth _ _ _ (tg_nr _ G) Er), (index_of_nth _ _ _ (tg_nc _ G) Ec).
  Qed.
  Lemma val_idx m r c : In r (trows m) -> In c (tcols m) -> val m r c = spget (tmx m) (idx (trows m) r) (idx (tcols m) c).
  Proof.
    intros Ir Ic. unfold val, idx. destruct (index_of r (trows m)) eqn:E; [|now apply index_of_None in E].
    destruct (index_of c (tcols m)) eqn:E2; [reflexivity|now apply index_of_None in E2].
  Qed.
  Lemma val_no_row m r c : ~ In r (trows m) -> val m r c = zero.
  Proof. intros N. unfold val. now rewrite (proj2 (index_of_None _ _) N). Qed.
  Lemma val_no_col m r c : ~ In c (tcols m) -> val m r c = zero.
  Proof. intros N. unfold val. rewrite (proj2 (index_of_None _ _) N). now destruct (index_of r (trows m)). Qed.
  Lemma val_get m r c : tgood m -> tt_get m r c = if mem r (trows m) && mem c (tcols m) then Ok (val m r c) else Err KeyError.
  Proof.
    intros G. unfold tt_get, lookup, val. rewrite !dget_item2id by apply G.
    destruct (index_of r (trows m)) as [i|] eqn:E.
    - assert (M : mem r (trows m) = true) by (apply mem_In; destruct (in_dec eqdec r (trows m)); [assumption|]; now rewrite (proj2 (index_of_None _ _)) in E).
      rewrite M. cbn. destruct (index_of c (tcols m)) as [j|] eqn:E2.
      + assert (M2 : mem c (tcols m) = true) by (apply mem_In; destruct (in_dec eqdec c (tcols m)); [assumption|]; now rewrite (proj2 (index_of_None _ _)) in E2).
        now rewrite M2.
      + apply index_of_None, mem_nIn in E2. now rewrite E2.
    - apply index_of_None, mem_nIn in E. now rewrite E.
  Qed.
  Lemma mk_ttm_ok s rows cols : nrows s = length rows -> ncols s = length cols -> mk_ttm s rows cols = Ok (Ttm s rows cols).
  Proof. intros R C. unfold mk_ttm. now rewrite R, C, !Nat.eqb_refl. Qed.

  (** ** Nested dict and back *)
  Lemma roundtrip (d : dict pystr (dict pystr V)) rows cols : NoDup rows -> NoDup cols -> mxwf d rows cols -> (exists r c v, dget2 d r c = Some v) ->
    exists s d', dict_to_sp d rows cols = Ok s /\ mk_ttm s rows cols = Ok (Ttm s rows cols) /\ tgood (Ttm s rows cols)
      /\ (forall r c, val (Ttm s rows cols) r c = oz (dget2 d r c))
      /\ sp_to_dict s rows cols = Ok d' /\ forall r c, dget2 d' r c = dget2 d r c.
  Proof.
    intros NR NC W NE. destruct (dict_to_sp_ok d rows cols NR NC W NE) as (s & E & Ws & F & R & C & EN & G).
    destruct (sp_to_dict_ok s rows cols Ws R C NR NC) as (d' & E' & W' & G'). exists s, d'.
    assert (GD : tgood (Ttm s rows cols)) by (constructor; assumption).
    assert (KEY : forall r c v, dget2 d r c = Some v -> In r rows /\ In c cols).
    { intros r c v D. unfold dget2 in D. destruct (dget d r) as [row|] eqn:D1; [|discriminate].
      destruct (proj2 W r row) as (I1 & _ & I3); [now apply dget_Some_In|]. split; [assumption|]. apply I3. eapply dget_Some_key; eassumption. }
    split; [assumption|]. split; [now apply mk_ttm_ok|]. split; [assumption|]. split; [|split; [assumption|]].
    - intros. destruct (in_dec eqdec r rows) as [Ir|Ir]; [destruct (in_dec eqdec c cols) as [Ic|Ic]|].
      + rewrite val_idx by assumption. now apply G.
      + rewrite val_no_col by assumption. destruct (dget2 d r c) eqn:D; [apply KEY in D; tauto|reflexivity].
      + rewrite val_no_row by assumption. destruct (dget2 d r c) eqn:D; [apply KEY in D; tauto|reflexivity].
    - intros. destruct (dget2 d r c) as [v|] eqn:D.
      + destruct (KEY _ _ _ D) as [Ir Ic]. apply G'. exists (idx rows r), (idx cols c).
        split; [now apply idx_nth|]. split; [now apply idx_nth|]. apply EN. exists r, c. auto using idx_nth.
      + destruct (dget2 d' r c) as [v|] eqn:D'; [|reflexivity]. apply G' in D' as (i & j & Er & Ec & I). apply EN in I as (r' & c' & Er' & Ec' & D2). congruence.
  Qed.
  Lemma to_dict_val m d : tgood m -> sp_to_dict (tmx m) (trows m) (tcols m) = Ok d ->
    mxwf d (trows m) (tcols m) /\ (forall r c, oz (dget2 d r c) = val m r c)
    /\ ((exists r c v, dget2 d r c = Some v) <-> entries (tmx m) <> []).
  Proof.
    intros G E. destruct (sp_to_dict_ok (tmx m) (trows m) (tcols m)) as (d' & E' & W & K); try apply G. assert (d' = d) by congruence. subst d'.
    split; [assumption|]. split.
    - intros. destruct (dget2 d r c) as [v|] eqn:D; cbn [oz].
      + apply K in D as (i & j & Er & Ec & I). rewrite (val_at m i j) by assumption. symmetry. apply entries_value; [apply G|assumption].
      + unfold val. destruct (index_of r (trows m)) as [i|] eqn:Ei; [|reflexivity]. destruct (index_of c (tcols m)) as [j|] eqn:Ej; [|reflexivity].
        symmetry. apply not_stored. intros S. apply in_map_iff in S as ([[x y] v] & Exy & I). cbn in Exy. inversion Exy; subst.
        assert (dget2 d r c = Some v). { apply K. exists i, j. split; [now apply index_of_Some in Ei|]. split; [now apply index_of_Some in Ej|assumption]. }
        congruence.
    - split.
      + intros (r & c & v & D) Z. apply K in D as (i & j & _ & _ & I). rewrite Z in I. contradiction.
      + intros NZ. destruct (entries (tmx m)) as [|[[i j] v] es] eqn:Z; [congruence|].
        assert (I : In (i, j, v) (entries (tmx m))) by (rewrite Z; cbn; auto).
        pose proof (entries_range _ (tg_wf _ G)) as RG. unfold in_range in RG. rewrite Forall_forall in RG. destruct (RG _ I) as [Li Lj]. cbn in Li, Lj.
        rewrite (tg_rows _ G) in Li. rewrite (tg_cols _ G) in Lj.
        exists (nth i (trows m) []), (nth j (tcols m) []), v. apply K. exists i, j. split; [now apply nth_error_nth'|]. split; [now apply nth_error_nth'|cbn; auto].
  Qed.

  (** ** submatrix *)
  Definition requested (items : list pystr) (req : option (list pystr)) : list pystr :=
    match req with None => items | Some l => filter (fun e => mem e items) l end.
  Lemma dmem_item2id items e : NoDup items -> dmem (item2id items) e = mem e items.
  Proof.
    intros ND. unfold dmem. rewrite dget_item2id by assumption. destruct (index_of e items) eqn:E; symmetry.
    - apply mem_In. destruct (in_dec eqdec e items); [assumption|]. now rewrite (proj2 (index_of_None _ _)) in E.
    - now apply mem_nIn, index_of_None.
  Qed.
  Lemma select_spec items req : NoDup items ->
    select items req = match req with
                       | None => Some None
                       | Some l => match requested items req with [] => None | _ => Some (Some (requested items req, map (idx items) (requested items req))) end
                       end.
  Proof.
    intros ND. destruct req as [l|]; [|reflexivity]. unfold select, requested. rewrite (filter_ext _ (fun e => mem e items)) by (intros; now apply dmem_item2id).
    destruct (filter (fun e => mem e items) l) as [|x f]; [reflexivity|]. do 3 f_equal. apply map_ext. intros. now rewrite dget_item2id.
  Qed.
  Definition found (items : list pystr) (req : option (list pystr)) : Prop := match req with None => True | Some _ => requested items req <> [] end.
  Lemma requested_In items req e : In e (requested items req) -> In e items.
  Proof. destruct req; cbn; [|auto]. intros I. apply filter_In in I as [_ I]. now apply mem_In. Qed.

  Lemma submatrix_ok m row col : tgood m -> found (trows m) row -> found (tcols m) col ->
    exists m', tt_submatrix m row col = Ok (Some m')
      /\ trows m' = requested (trows m) row /\ tcols m' = requested (tcols m) col
      /\ spwf (tmx m') /\ nrows (tmx m') = length (trows m') /\ ncols (tmx m') = length (tcols m') /\ sfmt (tmx m') = sfmt (tmx m)
      /\ forall i j r c, nth_error (trows m') i = Some r -> nth_error (tcols m') j = Some c -> spget (tmx m') i j = val m r c.
  Proof.
    intros G Fr Fc. unfold tt_submatrix. rewrite (select_spec (trows m)), (select_spec (tcols m)) by apply G.
    set (ri := map (idx (trows m)) (requested (trows m) row)). set (ci := map (idx (tcols m)) (requested (tcols m) col)).
    set (M1 := match row with Some _ => take_rows (tmx m) ri | None => tmx m end).
    assert (H1 : spwf M1 /\ nrows M1 = length (requested (trows m) row) /\ ncols M1 = ncols (tmx m) /\ sfmt M1 = sfmt (tmx m)
                 /\ forall i j r, nth_error (requested (trows m) row) i = Some r -> spget M1 i j = spget (tmx m) (idx (trows m) r) j).
    { unfold M1. destruct row as [l|].
      - destruct (take_rows_spec (tmx m) ri (tg_wf _ G)) as (A & B & C & D & E). repeat split; auto.
        + rewrite C. unfold ri. apply map_length.
        + intros i j r Er. rewrite E. unfold ri. now rewrite (map_nth_error _ _ _ Er).
      - repeat split; try apply G. intros i j r Er. cbn in Er. now rewrite (idx_of_nth _ _ _ (tg_nr _ G) Er). }
    set (M2 := match col with Some _ => take_cols M1 ci | None => M1 end).
    destruct H1 as (W1 & R1 & C1 & F1 & G1).
    assert (H2 : spwf M2 /\ nrows M2 = nrows M1 /\ ncols M2 = length (requested (tcols m) col) /\ sfmt M2 = sfmt M1
                 /\ forall i j c, nth_error (requested (tcols m) col) j = Some c -> spget M2 i j = spget M1 i (idx (tcols m) c)).
    { unfold M2. destruct col as [l|].
      - destruct (take_cols_spec M1 ci W1) as (A & B & C & D & E). repeat split; auto.
        + rewrite D. unfold ci. apply map_length.
        + intros i j c Ec. rewrite E. unfold ci. now rewrite (map_nth_error _ _ _ Ec).
      - repeat split; auto. + rewrite C1. apply G. + intros i j c Ec. cbn in Ec. now rewrite (idx_of_nth _ _ _ (tg_nc _ G) Ec). }
    destruct H2 as (W2 & R2 & C2 & F2 & G2).
    exists (Ttm M2 (requested (trows m) row) (requested (tcols m) col)).
    assert (MK : mk_ttm M2 (requested (trows m) row) (requested (tcols m) col) = Ok (Ttm M2 (requested (trows m) row) (requested (tcols m) col))).
    { apply mk_ttm_ok; congruence. }
    split.
    - destruct row as [lr|]; destruct col as [lc|]; cbn [found] in Fr, Fc.
      + destruct (requested (trows m) (Some lr)) as [|x xs] eqn:Qr; [congruence|]. destruct (requested (tcols m) (Some lc)) as [|y ys] eqn:Qc; [congruence|].
        cbn [option_map fst snd sm_submatrix]. fold ri. fold ci. change (take_cols (take_rows (tmx m) ri) ci) with M2. now rewrite MK.
      + destruct (requested (trows m) (Some lr)) as [|x xs] eqn:Qr; [congruence|].
        cbn [option_map fst snd sm_submatrix]. fold ri. change (take_rows (tmx m) ri) with M2. cbn [requested] in MK. now rewrite MK.
      + destruct (requested (tcols m) (Some lc)) as [|y ys] eqn:Qc; [congruence|].
        cbn [option_map fst snd sm_submatrix]. fold ci. change (take_cols (tmx m) ci) with M2. cbn [requested] in MK. now rewrite MK.
      + cbn [option_map fst snd sm_submatrix]. change (tmx m) with M2. cbn [requested] in MK. now rewrite MK.
    - cbn [trows tcols tmx]. split; [reflexivity|]. split; [reflexivity|]. split; [assumption|]. split; [congruence|]. split; [congruence|]. split; [congruence|].
      intros i j r c Er Ec. rewrite (G2 _ _ _ Ec), (G1 _ _ _ Er). symmetry. apply val_idx; eapply requested_In, nth_error_In; eassumption.
  Qed.
  Lemma submatrix_none m row col : tgood m -> ~ (found (trows m) row /\ found (tcols m) col) -> tt_submatrix m row col = Ok None.
  Proof.
    intros G N. unfold tt_submatrix. rewrite (select_spec (trows m)), (select_spec (tcols m)) by apply G.
    destruct row as [lr|].
    - destruct (requested (trows m) (Some lr)) as [|x xs] eqn:Qr; [reflexivity|].
      destruct col as [lc|].
      + destruct (requested (tcols m) (Some lc)) as [|y ys] eqn:Qc; [reflexivity|]. exfalso. apply N. split; cbn [found]; rewrite ?Qr, ?Qc; discriminate.
      + exfalso. apply N. split; cbn [found]; [rewrite Qr; discriminate|exact I].
    - destruct col as [lc|].
      + destruct (requested (tcols m) (Some lc)) as [|y ys] eqn:Qc; [reflexivity|]. exfalso. apply N. split; cbn [found]; [exact I|rewrite Qc; discriminate].
      + exfalso. apply N. split; exact I.
  Qed.
  (** For duplicate-free requests the result is a matrix in which every kept pair has its value. *)
  Lemma found_dec items req : {found items req} + {~ found items req}.
  Proof. destruct req as [l|]; cbn; [|left; exact I]. destruct (filter _ l); [right|left]; congruence. Qed.
  Lemma submatrix_val m row col m' : tgood m -> tt_submatrix m row col = Ok (Some m') ->
    (forall l, row = Some l -> NoDup l) -> (forall l, col = Some l -> NoDup l) ->
    tgood m' /\ forall r c, val m' r c = if mem r (trows m') && mem c (tcols m') then val m r c else zero.
  Proof.
    intros G E NR NC. destruct (found_dec (trows m) row) as [Fr|Fr]; [destruct (found_dec (tcols m) col) as [Fc|Fc]|].
    2:{ rewrite submatrix_none in E by tauto. discriminate. }
    2:{ rewrite submatrix_none in E by tauto. discriminate. }
    destruct (submatrix_ok m row col G Fr Fc) as (m2 & E2 & R & C & W & Sr & Sc & _ & P). assert (m2 = m') by congruence. subst m2.
    assert (GD : tgood m').
    { constructor; auto.
      - rewrite R. destruct row as [l|]; [apply NoDup_filter; now apply NR|apply G].
      - rewrite C. destruct col as [l|]; [apply NoDup_filter; now apply NC|apply G]. }
    split; [assumption|]. intros r c. destruct (mem r (trows m')) eqn:Mr; cbn [andb].
    - destruct (mem c (tcols m')) eqn:Mc.
      + apply mem_In in Mr, Mc. rewrite val_idx by assumption. apply P; now apply idx_nth.
      + apply val_no_col. now apply mem_nIn.
    - apply val_no_row. now apply mem_nIn.
  Qed.

  (** ** reorder and transpose *)
  Lemma reorder_ok m items (axis1 : bool) : tgood m -> NoDup items -> incl items (if axis1 then tcols m else trows m) ->
    exists m', tt_reorder m items axis1 = Ok m' /\ tgood m'
      /\ trows m' = (if axis1 then trows m else items) /\ tcols m' = (if axis1 then items else tcols m)
      /\ forall r c, In (if axis1 then c else r) items -> val m' r c = val m r c.
  Proof.
    intros G ND I. unfold tt_reorder.
    assert (ND0 : NoDup (if axis1 then tcols m else trows m)) by (destruct axis1; apply G).
    rewrite (rmapm_map _ (idx (if axis1 then tcols m else trows m))).
    2:{ intros x Ix. apply lookup_ok; auto. }
    cbn [rbind]. destruct axis1.
    - destruct (take_cols_spec (tmx m) (map (idx (tcols m)) items) (tg_wf _ G)) as (A & B & C & D & E). rewrite map_length in D.
      rewrite mk_ttm_ok; [|rewrite C; apply G|assumption]. eexists. split; [reflexivity|].
      assert (GD : tgood (Ttm (take_cols (tmx m) (map (idx (tcols m)) items)) (trows m) items)).
      { constructor; cbn; auto; [rewrite C|]; apply G. }
      split; [assumption|]. split; [reflexivity|]. split; [reflexivity|]. intros r c Ic.
      destruct (in_dec eqdec r (trows m)) as [Ir|Ir]; [|now rewrite !val_no_row].
      rewrite !val_idx; auto. cbn [tmx trows tcols]. rewrite E. now rewrite (map_nth_error _ _ _ (idx_nth _ _ Ic)).
    - destruct (take_rows_spec (tmx m) (map (idx (trows m)) items) (tg_wf _ G)) as (A & B & C & D & E). rewrite map_length in C.
      rewrite mk_ttm_ok; [|assumption|rewrite D; apply G]. eexists. split; [reflexivity|].
      assert (GD : tgood (Ttm (take_rows (tmx m) (map (idx (trows m)) items)) items (tcols m))).
      { constructor; cbn; auto; [rewrite D|]; apply G. }
      split; [assumption|]. split; [reflexivity|]. split; [reflexivity|]. intros r c Ir.
      destruct (in_dec eqdec c (tcols m)) as [Ic|Ic]; [|now rewrite !val_no_col].
      rewrite !val_idx; auto. cbn [tmx trows tcols]. rewrite E. now rewrite (map_nth_error _ _ _ (idx_nth _ _ Ir)).
  Qed.
  Lemma rmapm_err {A B} (f : A -> res B) l e : (exists x, In x l /\ f x = Err e) -> (forall x, In x l -> f x = Err e \/ exists y, f x = Ok y) -> rmapm f l = Err e.
  Proof.
    induction l as [|x l IH]; intros (x0 & I & E) F; [contradiction|]. cbn. destruct (F x) as [E1|[y E1]]; [cbn; auto|rewrite E1; reflexivity|].
    rewrite E1. cbn. destruct I as [->|I]; [congruence|]. rewrite IH; [reflexivity|eauto|]. intros; apply F; cbn; auto.
  Qed.
  Lemma reorder_missing m items (axis1 : bool) : tgood m -> ~ incl items (if axis1 then tcols m else trows m) -> tt_reorder m items axis1 = Err KeyError.
  Proof.
    intros G N. unfold tt_reorder. set (its := if axis1 then tcols m else trows m) in *.
    assert (ND0 : NoDup its) by (unfold its; destruct axis1; apply G).
    rewrite (rmapm_err _ _ KeyError); [reflexivity| |].
    - assert (X : exists x, In x items /\ ~ In x its).
      { clear -N. induction items as [|x l IH]; [exfalso; apply N; intros ? []|]. destruct (in_dec eqdec x its) as [I|I]; [|exists x; cbn; auto].
        destruct IH as (y & Iy & Ny); [intros I2; apply N; intros z [->|Iz]; auto|]. exists y. cbn. auto. }
      destruct X as (x & Ix & Nx). exists x. split; [assumption|]. unfold lookup. rewrite dget_item2id by assumption. now rewrite (proj2 (index_of_None _ _) Nx).
    - intros x _. unfold lookup. destruct (dget (item2id its) x); eauto.
  Qed.
  Lemma transpose_ok m : tgood m -> exists m', tt_transpose m = Ok m' /\ tgood m' /\ trows m' = tcols m /\ tcols m' = trows m
    /\ (forall r c, val m' c r = val m r c) /\ tt_transpose m' = Ok m.
  Proof.
    intros G. destruct (sp_transpose_spec (tmx m) (tg_wf _ G)) as (A & B & C & D & E). unfold tt_transpose. rewrite mk_ttm_ok; [|rewrite B; apply G|rewrite C; apply G].
    eexists. split; [reflexivity|]. split; [constructor; cbn; auto; try apply G; [rewrite B|rewrite C]; apply G|]. split; [reflexivity|]. split; [reflexivity|]. split.
    - intros. unfold val. cbn. destruct (index_of c (tcols m)); destruct (index_of r (trows m)); auto.
    - cbn [tmx trows tcols]. rewrite E, mk_ttm_ok by apply G. now destruct m.
  Qed.
End Ops.
