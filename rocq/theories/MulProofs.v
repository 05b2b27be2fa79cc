(** * Multiplication of matrices of different shapes: proofs. *)
From Coq Require Import NArith ZArith Bool Arith Lia Permutation Sorted List.
From Verif Require Import Base BaseLemmas MxModel MxSpec MxProofs MxTtmProofs MxOpsProofs MxCellProofs MxElemProofs MulSpec.
Import ListNotations.

Lemma bdim_Some a b n : bdim a b = Some n <-> (a = b /\ n = a) \/ (a <> b /\ b = 1 /\ n = a) \/ (a <> b /\ b <> 1 /\ a = 1 /\ n = b).
Proof.
  unfold bdim. destruct (Nat.eqb_spec a b); [|destruct (Nat.eqb_spec b 1); [|destruct (Nat.eqb_spec a 1)]]; split;
    try (intros [= <-]; tauto); try discriminate; intros [[? ->]|[(? & ? & ->)|(? & ? & ? & ->)]]; try congruence; contradiction.
Qed.
Lemma bdim_left a b : bdim a b = Some a <-> b = a \/ b = 1.
Proof. rewrite bdim_Some. destruct (Nat.eq_dec a b), (Nat.eq_dec b 1); lia. Qed.

Section Mul.
  Context {V : Type} {NV : Num V}.
  Implicit Types (m o : ttm V) (s : sp V).

  Lemma cells_get nr nc (f : nat * nat -> V) :
    let x := of_coo nr nc (filter (fun e => negb (isz (snd e))) (map (fun ij => (ij, f ij)) (list_prod (seq 0 nr) (seq 0 nc)))) in
    spwf x /\ nrows x = nr /\ ncols x = nc /\ forall i j, i < nr -> j < nc -> spget x i j = f (i, j).
  Proof.
    set (es := filter _ _). cbn zeta.
    assert (RG : in_range nr nc es).
    { apply Forall_forall. intros e I. apply filter_In in I as [I _]. apply in_map_iff in I as ([a b] & <- & I). apply in_prod_iff in I as [I J].
      apply in_seq in I, J. cbn. lia. }
    assert (ND : NoDup (map fst es)).
    { apply NoDup_map_filter. rewrite map_map. cbn [fst]. rewrite map_id. apply NoDup_list_prod; apply seq_NoDup. }
    destruct (of_coo_shape nr nc es) as [S1 S2]. pose proof (of_coo_wf nr nc es RG) as W. split; [exact W|]. split; [exact S1|]. split; [exact S2|].
    intros i j Hi Hj. destruct (isz (f (i, j))) eqn:Z.
    - pose proof Z as Z'. apply isz_ok in Z. rewrite Z. apply not_stored. rewrite of_coo_stored by exact RG. intros I. apply in_map_iff in I as ([[a b] v] & E & I). cbn in E.
      apply filter_In in I as [I N]. apply in_map_iff in I as ([a' b'] & [= <- <- <-] & _). inversion E; subst. cbn [snd] in N. rewrite Z' in N. discriminate.
    - apply entries_value; [exact W|]. apply of_coo_In; [exact RG|exact ND|]. apply filter_In. cbn [snd]. rewrite Z. split; [|reflexivity].
      apply in_map_iff. exists (i, j). split; [reflexivity|]. apply in_prod_iff. split; apply in_seq; lia.
  Qed.
  Lemma sp_multiply_spec (s o : sp V) : spwf s -> spwf o ->
    match bdim (nrows s) (nrows o), bdim (ncols s) (ncols o) with
    | Some nr, Some nc => exists x, sp_multiply s o = Ok x /\ spwf x /\ nrows x = nr /\ ncols x = nc /\
        forall i j, i < nr -> j < nc -> spget x i j = mul (spget s (bidx (nrows s) i) (bidx (ncols s) j)) (spget o (bidx (nrows o) i) (bidx (ncols o) j))
    | _, _ => sp_multiply s o = Err ValueError
    end.
  Proof.
    intros Ws Wo. unfold sp_multiply. destruct (Nat.eqb_spec (nrows s) (nrows o)) as [R|R], (Nat.eqb_spec (ncols s) (ncols o)) as [C|C]; cbn [andb].
    - rewrite <- R, <- C. unfold bdim. rewrite !Nat.eqb_refl. destruct (sp_binop_spec mul s o Ws Wo (mul_0l zero) R C) as (x & Ex & Wx & _ & Rx & Cx & P & _).
      exists x. repeat (split; [assumption|]). intros i j Hi Hj.
      assert (B : forall n k, k < n -> bidx n k = k) by (intros n k K; unfold bidx; destruct (Nat.eqb_spec n 1); lia).
      rewrite !B by assumption. apply P.
    - destruct (bdim (nrows s) (nrows o)) as [nr|], (bdim (ncols s) (ncols o)) as [nc|]; try reflexivity.
      edestruct (cells_get nr nc) as (A1 & A2 & A3 & A4). eexists. split; [reflexivity|]. split; [exact A1|]. split; [exact A2|]. split; [exact A3|]. exact A4.
    - destruct (bdim (nrows s) (nrows o)) as [nr|], (bdim (ncols s) (ncols o)) as [nc|]; try reflexivity.
      edestruct (cells_get nr nc) as (A1 & A2 & A3 & A4). eexists. split; [reflexivity|]. split; [exact A1|]. split; [exact A2|]. split; [exact A3|]. exact A4.
    - destruct (bdim (nrows s) (nrows o)) as [nr|], (bdim (ncols s) (ncols o)) as [nc|]; try reflexivity.
      edestruct (cells_get nr nc) as (A1 & A2 & A3 & A4). eexists. split; [reflexivity|]. split; [exact A1|]. split; [exact A2|]. split; [exact A3|]. exact A4.
  Qed.
  Lemma val_at m r c i j : tgood m -> nth_error (trows m) i = Some r -> nth_error (tcols m) j = Some c -> val m r c = spget (tmx m) i j.
  Proof.
    intros G Er Ec. rewrite val_idx by (eapply nth_error_In; eassumption). rewrite (idx_of_nth _ _ _ (tg_nr _ G) Er), (idx_of_nth _ _ _ (tg_nc _ G) Ec). reflexivity.
  Qed.
  Lemma partner_at others i p : i < length others \/ length others = 1 -> partner others i p -> nth_error others (bidx (length others) i) = Some p.
  Proof.
    intros _ [->|[N E]]; [reflexivity|]. unfold bidx. destruct (Nat.eqb_spec (length others) 1); [contradiction|exact E].
  Qed.
  Lemma multiply_outcome m o : tgood m -> tgood o -> no_zeros (tmx m) ->
    (covers m o -> exists x, tt_multiply m o = Ok x /\ tgood x /\ trows x = trows m /\ tcols x = tcols m /\
       forall i j r c r' c', nth_error (trows m) i = Some r -> nth_error (tcols m) j = Some c -> partner (trows o) i r' -> partner (tcols o) j c' ->
         val x r c = mul (val m r c) (val o r' c')) /\
    (~ covers m o -> tt_multiply m o = Err ValueError).
  Proof.
    intros Gm Go NZ. pose proof (tg_rows _ Gm) as A1. pose proof (tg_rows _ Go) as A2. pose proof (tg_cols _ Gm) as A3. pose proof (tg_cols _ Go) as A4.
    pose proof (sp_multiply_spec (tmx m) (tmx o) (tg_wf _ Gm) (tg_wf _ Go)) as SP. apply has_zero in NZ.
    assert (EQ : tt_multiply m o = rbind (sp_multiply (tmx m) (tmx o)) (fun r => mk_ttm r (trows m) (tcols m))).
    { unfold tt_multiply, sm_multiply. now rewrite NZ. }
    rewrite EQ. split.
    - intros [CR CC]. assert (BR : bdim (nrows (tmx m)) (nrows (tmx o)) = Some (nrows (tmx m))) by (apply bdim_left; rewrite A1, A2; exact CR).
      assert (BC : bdim (ncols (tmx m)) (ncols (tmx o)) = Some (ncols (tmx m))) by (apply bdim_left; rewrite A3, A4; exact CC).
      rewrite BR, BC in SP. destruct SP as (x & Ex & Wx & Rx & Cx & P). rewrite Ex. cbn [rbind]. rewrite mk_ttm_ok by congruence.
      assert (GX : tgood (Ttm x (trows m) (tcols m))) by (constructor; cbn; auto; try congruence; apply Gm).
      eexists. split; [reflexivity|]. split; [exact GX|]. split; [reflexivity|]. split; [reflexivity|].
      intros i j r c r' c' Er Ec Pr Pc. assert (Li : i < length (trows m)) by (apply nth_error_Some; congruence).
      assert (Lj : j < length (tcols m)) by (apply nth_error_Some; congruence).
      rewrite (val_at _ r c i j GX Er Ec), (val_at _ r c i j Gm Er Ec). cbn [tmx]. rewrite P by lia. f_equal.
      + f_equal; unfold bidx.
        * destruct (Nat.eqb_spec (nrows (tmx m)) 1); [lia|reflexivity].
        * destruct (Nat.eqb_spec (ncols (tmx m)) 1); [lia|reflexivity].
      + rewrite A2, A4. symmetry. apply val_at; [exact Go| |]; apply partner_at; auto; lia.
    - intros NC. destruct (bdim (nrows (tmx m)) (nrows (tmx o))) as [nr|] eqn:BR; [|now rewrite SP].
      destruct (bdim (ncols (tmx m)) (ncols (tmx o))) as [nc|] eqn:BC; [|now rewrite SP].
      destruct SP as (x & Ex & Wx & Rx & Cx & P). rewrite Ex. cbn [rbind]. unfold mk_ttm. rewrite Rx, Cx, <- A1, <- A3.
      destruct (Nat.eqb_spec nr (nrows (tmx m))) as [->|]; cbn [negb]; [|reflexivity].
      destruct (Nat.eqb_spec nc (ncols (tmx m))) as [->|]; cbn [negb]; [|reflexivity].
      exfalso. apply NC. apply bdim_left in BR, BC. split; congruence.
  Qed.
  Lemma multiply_stored_zero m o : tgood m -> tgood o -> ~ no_zeros (tmx m) ->
    exists x, tt_multiply m o = Ok x /\ tgood x /\ trows x = trows m /\ tcols x = tcols m /\
      forall i j r c, nth_error (trows m) i = Some r -> nth_error (tcols m) j = Some c ->
        val x r c = (if stored_dec (tmx o) i j then val m r c else zero) /\ (stored (tmx x) i j <-> stored (tmx m) i j /\ stored (tmx o) i j).
  Proof.
    intros Gm Go NZ. pose proof (tg_wf _ Gm) as Ws. set (s := tmx m) in *. set (p := tmx o).
    set (es := filter (fun e => mem (fst e) (map fst (entries p))) (entries s)).
    assert (EQ : sm_multiply s p = Ok (of_coo (nrows s) (ncols s) es)).
    { unfold sm_multiply. destruct (existsb (fun e => isz (snd e)) (concat (lanes s))) eqn:E; [reflexivity|]. elim NZ. now apply has_zero. }
    assert (RG : in_range (nrows s) (ncols s) es) by (apply filter_range, entries_range, Ws).
    assert (ND : NoDup (map fst es)) by (apply NoDup_map_filter, entries_NoDup, Ws).
    destruct (of_coo_shape (nrows s) (ncols s) es) as [S1 S2]. pose proof (of_coo_wf _ _ _ RG) as Wx.
    unfold tt_multiply. fold s p. rewrite EQ. cbn [rbind]. pose proof (tg_rows _ Gm) as A1. pose proof (tg_cols _ Gm) as A3. fold s in A1, A3.
    rewrite mk_ttm_ok by congruence.
    assert (GX : tgood (Ttm (of_coo (nrows s) (ncols s) es) (trows m) (tcols m))) by (constructor; cbn [tmx trows tcols]; auto; try congruence; apply Gm).
    eexists. split; [reflexivity|]. split; [exact GX|]. split; [reflexivity|]. split; [reflexivity|].
    intros i j r c Er Ec. rewrite (val_at _ r c i j GX Er Ec), (val_at _ r c i j Gm Er Ec). cbn [tmx]. fold s. split.
    2: { rewrite of_coo_stored by exact RG. unfold stored, es. rewrite !in_map_iff. fold p. split.
         - intros (e & Ee & I). apply filter_In in I as [I M]. apply mem_In, in_map_iff in M as (e' & Ee' & I'). split; [exists e|exists e']; split; auto; congruence.
         - intros [(e & Ee & I) (e' & Ee' & I')]. exists e. split; [exact Ee|]. apply filter_In. split; [exact I|]. apply mem_In, in_map_iff. exists e'. split; [congruence|exact I']. }
    destruct (stored_dec p i j) as [So|So].
    - destruct (stored_dec s i j) as [Ss|Ss].
      + apply in_map_iff in Ss as ([[x y] v] & Exy & I). cbn in Exy. inversion Exy; subst. rewrite (entries_value _ _ _ _ Ws I).
        apply entries_value; [exact Wx|]. apply of_coo_In; auto. apply filter_In. split; [assumption|]. apply mem_In. exact So.
      + rewrite (not_stored s i j Ss). apply not_stored. rewrite of_coo_stored by assumption. intros I. apply Ss. apply in_map_iff in I as (e & Ee & I).
        apply filter_In in I as [I _]. apply in_map_iff. eauto.
    - apply not_stored. rewrite of_coo_stored by assumption. intros I. apply So. apply in_map_iff in I as (e & Ee & I). apply filter_In in I as [_ I]. apply mem_In in I. now rewrite Ee in I.
  Qed.
End Mul.
