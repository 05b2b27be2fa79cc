(** * Merging matrices: proofs. *)
From Coq Require Import NArith ZArith Bool Arith Lia Permutation Sorted List.
From Verif Require Import Base BaseLemmas MxModel MxSpec MxProofs MxTtmProofs MxOpsProofs.
Import ListNotations.

Section Merge.
  Context {V : Type} {NV : Num V}.
  Implicit Types (m a b : ttm V) (s : sp V) (r c : pystr).

  Lemma ssort_In l x : In x (isort sleb (dedup l)) <-> In x l.
  Proof. rewrite isort_In. apply dedup_In. Qed.
  Lemma ssort_NoDup (l : list pystr) : NoDup (isort sleb (dedup l)).
  Proof. eapply Permutation_NoDup; [apply isort_perm|apply dedup_NoDup]. Qed.
  Lemma ssort_sorted (l : list pystr) : StronglySorted (fun x y => sleb x y = true) (isort sleb (dedup l)).
  Proof. apply isort_sorted; [apply sleb_total|apply sleb_trans]. Qed.

  (** ** transform_indices on a row-major matrix *)
  Lemma transform_indices_ok m cols : tgood m -> sfmt (tmx m) = Csr -> NoDup cols -> incl (tcols m) cols ->
    exists s, transform_indices m cols = Ok s /\ tgood (Ttm s (trows m) cols) /\ forall r c, val (Ttm s (trows m) cols) r c = val m r c.
  Proof.
    intros G F ND I. unfold transform_indices.
    rewrite (rmapm_map _ (idx cols)) by (intros; apply lookup_ok; auto). cbn [rbind].
    pose proof (tg_wf _ G) as W. unfold spwf in W. rewrite Forall_forall in W.
    assert (NM : nminor (tmx m) = length (tcols m)). { rewrite <- (tg_cols _ G). unfold ncols. now rewrite F. }
    set (g := fun j => idx cols (nth j (tcols m) [])).
    rewrite (rmapm_map _ (map (fun e => (g (fst e), snd e)))).
    2:{ intros ln Il. apply rmapm_map. intros [j v] Ie. cbn [fst snd]. destruct (W _ Il) as [_ R]. rewrite Forall_forall in R. specialize (R _ Ie). cbn in R.
        rewrite NM in R. unfold at_. rewrite (map_nth_error (idx cols) j (tcols m) (nth_error_nth' _ [] R)). reflexivity. }
    cbn [rbind]. assert (E : (nmajor (tmx m) =? nrows (tmx m)) = true) by (apply Nat.eqb_eq; unfold nrows; now rewrite F). rewrite E. clear E.
    set (s := Sp Csr (map (map (fun e => (g (fst e), snd e))) (lanes (tmx m))) (length cols)). exists s. split; [reflexivity|].
    assert (ginj : forall j j', j < length (tcols m) -> j' < length (tcols m) -> g j = g j' -> j = j').
    { intros j j' L L' E. unfold g in E. apply idx_inj in E; try (apply I, nth_In; assumption). eapply (proj1 (NoDup_nth (tcols m) [])); eauto. apply G. }
    assert (Ws : spwf s).
    { unfold spwf, s. cbn [lanes nminor]. apply Forall_forall. intros ln Il. apply in_map_iff in Il as (l0 & <- & Il). destruct (W _ Il) as [N R].
      rewrite Forall_forall in R. rewrite NM in R. split.
      - rewrite map_map. cbn. rewrite <- (map_map fst g). apply nodup_map_inj; [|assumption]. intros x y Ix Iy. apply in_map_iff in Ix as (ex & <- & Ix).
        apply in_map_iff in Iy as (ey & <- & Iy). apply ginj; auto.
      - apply Forall_forall. intros e Ie. apply in_map_iff in Ie as (x & <- & Ie). cbn. apply idx_lt. apply I, nth_In. now apply R. }
    assert (GS : tgood (Ttm s (trows m) cols)).
    { constructor; cbn [tmx trows tcols]; auto; [|apply G]. unfold nrows, s, nmajor. cbn [sfmt lanes]. rewrite map_length, <- (tg_rows _ G). unfold nrows, nmajor. now rewrite F. }
    split; [assumption|].
    assert (LG : forall i k, mget s i k = pick (fun j => g j =? k) (nth i (lanes (tmx m)) [])).
    { intros. unfold mget, s. cbn [lanes]. rewrite (map_nth_oob _ _ _ []) by reflexivity. rewrite lane_get_pick. now rewrite (pick_map g (fun x => x =? k)). }
    assert (RNG : forall i e, In e (nth i (lanes (tmx m)) []) -> fst e < length (tcols m)).
    { intros i e Ie. destruct (nth_lane_wf (tmx m) i (tg_wf _ G)) as [_ R]. rewrite Forall_forall in R. rewrite NM in R. now apply R. }
    intros. destruct (in_dec eqdec r (trows m)) as [Ir|Ir]; [|now rewrite !val_no_row].
    destruct (in_dec eqdec c (tcols m)) as [Ic|Ic].
    - rewrite !val_idx; auto. cbn [tmx trows tcols]. unfold spget. rewrite F. cbn [sfmt s]. rewrite LG. unfold mget. rewrite lane_get_pick. apply pick_ext.
      intros e Ie. apply RNG in Ie. pose proof (idx_lt _ _ Ic). destruct (Nat.eqb_spec (fst e) (idx (tcols m) c)) as [E|N].
      + apply Nat.eqb_eq. rewrite E. unfold g. f_equal. apply nth_error_nth. now apply idx_nth.
      + apply Nat.eqb_neq. intros E. apply N. apply ginj; auto. rewrite E. unfold g. f_equal. symmetry. apply nth_error_nth. now apply idx_nth.
    - rewrite (val_no_col m) by assumption. destruct (in_dec eqdec c cols) as [Ic'|Ic']; [|now rewrite val_no_col].
      rewrite val_idx by assumption. cbn [tmx trows tcols]. unfold spget. cbn [sfmt s]. rewrite LG. apply pick_none. intros e Ie. apply RNG in Ie.
      apply Nat.eqb_neq. intros E. unfold g in E. apply idx_inj in E; auto; [|apply I, nth_In; assumption]. apply Ic. rewrite <- E. now apply nth_In.
  Qed.
  Lemma ttm_add_ok (s1 s2 : sp V) rows cols : tgood (Ttm s1 rows cols) -> tgood (Ttm s2 rows cols) ->
    exists s, sp_add s1 s2 = Ok s /\ sfmt s = sfmt s1 /\ tgood (Ttm s rows cols)
      /\ forall r c, val (Ttm s rows cols) r c = add (val (Ttm s1 rows cols) r c) (val (Ttm s2 rows cols) r c).
  Proof.
    intros G1 G2. pose proof (tg_rows _ G1). pose proof (tg_cols _ G1). pose proof (tg_rows _ G2). pose proof (tg_cols _ G2). cbn [tmx trows tcols] in *.
    destruct (sp_binop_spec add s1 s2) as (s & E & W & F & R & C & P & _); try apply G1; try apply G2; try apply add_0; try congruence.
    exists s. split; [assumption|]. split; [assumption|]. split; [constructor; cbn; auto; try congruence; apply G1|].
    intros. unfold val. cbn. destruct (index_of r rows); [destruct (index_of c cols)|]; auto; symmetry; apply add_0.
  Qed.
  (** ** merge_two_matrices *)
  Lemma merge_two_ok a b : tgood a -> tgood b -> trows a = trows b -> (tcols a = tcols b \/ (sfmt (tmx a) = Csr /\ sfmt (tmx b) = Csr)) ->
    exists m, merge_two a b = Ok m /\ tgood m /\ trows m = trows a
      /\ (forall c, In c (tcols m) <-> In c (tcols a) \/ In c (tcols b))
      /\ (tcols m = tcols a \/ StronglySorted (fun x y => sleb x y = true) (tcols m))
      /\ (sfmt (tmx a) = Csr -> sfmt (tmx m) = Csr)
      /\ forall r c, val m r c = add (val a r c) (val b r c).
  Proof.
    intros Ga Gb ER D. unfold merge_two. rewrite <- ER, eqb_refl. destruct (eqb (tcols a) (tcols b)) eqn:EC.
    - apply eqb_true in EC. destruct a as [sa ra ca]. destruct b as [sb rb cb]. cbn [tmx trows tcols] in *. subst.
      destruct (ttm_add_ok sa sb rb cb Ga Gb) as (s & E & F & G & P). rewrite E. cbn [rbind]. rewrite mk_ttm_ok by apply G.
      eexists. split; [reflexivity|]. split; [assumption|]. split; [reflexivity|]. split; [cbn; tauto|]. split; [left; reflexivity|]. split; [cbn; congruence|exact P].
    - apply eqb_neq in EC. destruct D as [D|[Fa Fb]]; [contradiction|]. set (cols := sunion (tcols a) (tcols b)).
      assert (IN : forall c, In c cols <-> In c (tcols a) \/ In c (tcols b)).
      { intros. unfold cols, sunion. rewrite ssort_In. apply in_app_iff. }
      destruct (transform_indices_ok a cols Ga Fa (ssort_NoDup _)) as (s1 & E1 & G1 & V1); [intros x Ix; apply IN; auto|].
      destruct (transform_indices_ok b cols Gb Fb (ssort_NoDup _)) as (s2 & E2 & G2 & V2); [intros x Ix; apply IN; auto|].
      rewrite E1, E2. cbn [rbind]. rewrite <- ER in *. destruct (ttm_add_ok s1 s2 (trows a) cols G1 G2) as (s & E & F & G & P).
      rewrite E. cbn [rbind]. rewrite mk_ttm_ok by apply G.
      eexists. split; [reflexivity|]. split; [assumption|]. split; [reflexivity|]. split; [exact IN|]. split; [right; apply ssort_sorted|].
      split; [|intros; now rewrite P, V1, V2].
      intros _. cbn [tmx]. rewrite F. unfold transform_indices in E1. destruct (rmapm _ _) as [x|] in E1; [|discriminate]. cbn [rbind] in E1.
      destruct (rmapm _ _) as [y|] in E1; [|discriminate]. cbn [rbind] in E1. destruct (_ =? _) in E1; inversion E1. reflexivity.
  Qed.
  Lemma merge_two_rows a b : trows a <> trows b -> merge_two a b = Err NotImplementedError.
  Proof. intros N. unfold merge_two. now rewrite (proj2 (eqb_neq _ _) N). Qed.

  (** ** merge_matrices *)
  Lemma same_sum (l : list (ttm V)) rows cols s0 : tgood (Ttm s0 rows cols) -> Forall (fun m => tgood m /\ trows m = rows /\ tcols m = cols) l ->
    exists s, rfold (fun s m => sp_add s (tmx m)) l s0 = Ok s /\ tgood (Ttm s rows cols)
      /\ forall r c, val (Ttm s rows cols) r c = add (val (Ttm s0 rows cols) r c) (sumv (map (fun m => val m r c) l)).
  Proof.
    revert s0. induction l as [|m l IH]; intros s0 G F.
    - exists s0. split; [reflexivity|]. split; [assumption|]. intros. cbn. symmetry. apply add_0r.
    - inversion F as [|? ? (Gm & Rm & Cm) F']; subst. destruct m as [sm rm cm]. cbn [tmx trows tcols] in *.
      destruct (ttm_add_ok s0 sm rm cm G Gm) as (s1 & E1 & _ & G1 & P1). destruct (IH s1 G1 F') as (s & E & Gs & P). exists s.
      cbn [rfold rbind tmx]. rewrite E1. cbn [rbind]. split; [assumption|]. split; [assumption|]. intros. rewrite P, P1. cbn [map]. now rewrite <- add_assoc.
  Qed.
  Lemma merge_dicts_get (ds : list (dict pystr (dict pystr V))) rows cols d0 r c : mxwf d0 rows cols -> Forall (fun d => mxwf d rows cols) ds ->
    let d := fold_left (fun d x => fold_left dadd x d) ds d0 in
    mxwf d rows cols /\ oz (dget2 d r c) = add (oz (dget2 d0 r c)) (sumv (map (fun d => oz (dget2 d r c)) ds))
    /\ (dget2 d r c = None <-> dget2 d0 r c = None /\ Forall (fun d => dget2 d r c = None) ds).
  Proof.
    revert d0. induction ds as [|d1 ds IH]; intros d0 W F; cbn [fold_left].
    - split; [assumption|]. split; [cbn; symmetry; apply add_0r|]. split; [auto|tauto].
    - inversion F as [|? ? W1 F']; subst.
      assert (W' : mxwf (fold_left dadd d1 d0) rows cols) by (apply fold_dadd_wf; [assumption|]; intros r' row' I; destruct (proj2 W1 _ _ I); tauto).
      destruct (IH (fold_left dadd d1 d0) W' F') as (A & B & C). split; [assumption|].
      assert (K : dget2 (fold_left dadd d1 d0) r c = match dget2 d1 r c with Some v => Some (add (oz (dget2 d0 r c)) v) | None => dget2 d0 r c end).
      { apply fold_dadd; [apply W1|]. intros r' row' I. now destruct (proj2 W1 _ _ I) as (_ & ? & _). }
      rewrite B, C, K. split.
      + cbn [map]. destruct (dget2 d1 r c) as [v|]; cbn [oz].
        * change (sumv (v :: map (fun d => oz (dget2 d r c)) ds)) with (add v (sumv (map (fun d => oz (dget2 d r c)) ds))). now rewrite add_assoc.
        * change (sumv (zero :: map (fun d => oz (dget2 d r c)) ds)) with (add zero (sumv (map (fun d => oz (dget2 d r c)) ds))). now rewrite add_0.
      + rewrite Forall_cons_iff. destruct (dget2 d1 r c); [|tauto]. split; [intros [? _]; discriminate|intros (_ & ? & _); discriminate].
  Qed.
  Lemma rmapm_Forall2 {A B} (f : A -> res B) (P : A -> B -> Prop) l : (forall x, In x l -> exists y, f x = Ok y /\ P x y) -> exists ys, rmapm f l = Ok ys /\ Forall2 P l ys.
  Proof.
    induction l as [|x l IH]; intros H; [exists []; split; [reflexivity|constructor]|]. destruct (H x) as (y & E & Py); [cbn; auto|].
    destruct IH as (ys & E2 & F); [intros; apply H; cbn; auto|]. exists (y :: ys). cbn. rewrite E. cbn. rewrite E2. auto.
  Qed.
  Lemma mxwf_incl (d : dict pystr (dict pystr V)) rows cols rows' cols' : mxwf d rows cols -> incl rows rows' -> incl cols cols' -> mxwf d rows' cols'.
  Proof. intros [W F] I J. split; [assumption|]. intros r row K. destruct (F _ _ K) as (A & B & C). repeat split; auto. intros x X. auto. Qed.

  (** The dictionary branch for a list of matrices *)
  Lemma dict_merge_ok (l : list (ttm V)) rows cols : Forall tgood l -> NoDup rows -> NoDup cols ->
    (forall m, In m l -> incl (trows m) rows /\ incl (tcols m) cols) ->
    exists ds, rmapm (fun m => sp_to_dict (tmx m) (trows m) (tcols m)) l = Ok ds /\
      (Exists (fun m => entries (tmx m) <> []) l -> exists s, dict_to_sp (merge_matrix_dict ds) rows cols = Ok s /\ tgood (Ttm s rows cols)
         /\ forall r c, val (Ttm s rows cols) r c = sumv (map (fun m => val m r c) l)) /\
      (Forall (fun m => entries (tmx m) = []) l -> dict_to_sp (merge_matrix_dict ds) rows cols = Err ValueError).
  Proof.
    intros G NR NC I. rewrite Forall_forall in G.
    destruct (rmapm_Forall2 (fun m => sp_to_dict (tmx m) (trows m) (tcols m))
      (fun m d => mxwf d rows cols /\ (forall r c, oz (dget2 d r c) = val m r c) /\ ((exists r c v, dget2 d r c = Some v) <-> entries (tmx m) <> [])) l) as (ds & E & F).
    { intros m Im. destruct (I _ Im) as [Ir Ic]. pose proof (G _ Im) as Gm.
      destruct (sp_to_dict_ok (tmx m) (trows m) (tcols m)) as (d & Ed & _); try apply Gm. exists d. split; [assumption|].
      destruct (to_dict_val m d Gm Ed) as (W & Vv & NE). split; [eapply mxwf_incl; eassumption|auto]. }
    exists ds. split; [assumption|].
    assert (FW : Forall (fun d => mxwf d rows cols) ds) by (clear -F; induction F as [|? ? ? ? (? & _)]; constructor; auto).
    assert (W0 : mxwf ([] : dict pystr (dict pystr V)) rows cols) by (split; [apply dwf_nil|contradiction]).
    assert (SUM : forall r c, sumv (map (fun d => oz (dget2 d r c)) ds) = sumv (map (fun m => val m r c) l)).
    { intros. f_equal. clear -F. induction F as [|? ? ? ? (_ & Q & _)]; [reflexivity|]. cbn [map]. f_equal; [apply Q|assumption]. }
    unfold merge_matrix_dict. split.
    - intros EX.
      assert (NE : exists r c v, dget2 (fold_left (fun d x => fold_left dadd x d) ds []) r c = Some v).
      { assert (X : exists d r c v, In d ds /\ dget2 d r c = Some v).
        { clear -F EX. induction F as [|m d l ds (_ & _ & Q) F IH]; inversion EX; subst.
          - destruct (proj2 Q H0) as (r & c & v & D). exists d, r, c, v. cbn; auto.
          - destruct IH as (d' & r & c & v & Id & D); [assumption|]. exists d', r, c, v. cbn; auto. }
        destruct X as (d & r & c & v & Id & D). exists r, c. destruct (merge_dicts_get ds rows cols [] r c W0 FW) as (_ & _ & NN).
        destruct (dget2 (fold_left (fun d x => fold_left dadd x d) ds []) r c) as [w|] eqn:K; [eauto|]. exfalso.
        destruct (proj1 NN eq_refl) as [_ FN]. rewrite Forall_forall in FN. specialize (FN _ Id). congruence. }
      assert (WM : mxwf (fold_left (fun d x => fold_left dadd x d) ds []) rows cols) by (apply (merge_dicts_get ds rows cols [] [] [] W0 FW)).
      destruct (roundtrip _ rows cols NR NC WM NE) as (s & _ & Es & _ & Gs & Vs & _). exists s. split; [assumption|]. split; [assumption|].
      intros. rewrite Vs. destruct (merge_dicts_get ds rows cols [] r c W0 FW) as (_ & Q & _). rewrite Q. cbn [dget2 dget oz]. rewrite add_0. apply SUM.
    - intros FE. apply dict_to_sp_empty; auto; [apply (merge_dicts_get ds rows cols [] [] [] W0 FW)|]. intros.
      destruct (merge_dicts_get ds rows cols [] r c W0 FW) as (_ & _ & NN). apply NN. split; [reflexivity|].
      clear -F FE. induction F as [|m d l ds (_ & _ & Q) F IH]; [constructor|]. inversion FE; subst. constructor; [|auto].
      destruct (dget2 d r c) as [v|] eqn:D; [|reflexivity]. exfalso. apply (proj1 Q); eauto.
  Qed.
  Definition union_items (f : ttm V -> list pystr) (l : list (ttm V)) (items : list pystr) : Prop :=
    NoDup items /\ forall x, In x items <-> exists m, In m l /\ In x (f m).
  Lemma merge_matrices_ok (l : list (ttm V)) : l <> [] -> Forall tgood l ->
    (Exists (fun m => entries (tmx m) <> []) l \/ (forall m m', In m l -> In m' l -> trows m = trows m' /\ tcols m = tcols m')) ->
    exists s rows cols, merge_matrices l = Ok (Some (s, rows, cols)) /\ tgood (Ttm s rows cols)
      /\ union_items trows l rows /\ union_items tcols l cols
      /\ forall r c, val (Ttm s rows cols) r c = sumv (map (fun m => val m r c) l).
  Proof.
    intros NE G D. assert (U1 : forall m, tgood m -> union_items trows [m] (trows m) /\ union_items tcols [m] (tcols m)).
    { intros m Gm. split; (split; [apply Gm|]); (intros; split; [intros; exists m; cbn; auto|intros (? & [->|[]] & ?); assumption]). }
    destruct l as [|m0 [|m1 ms]]; [congruence| |].
    - inversion G; subst. exists (tmx m0), (trows m0), (tcols m0). split; [reflexivity|]. destruct m0 as [s0 r0 c0]. cbn [tmx trows tcols]. split; [assumption|].
      split; [apply (U1 (Ttm s0 r0 c0)); assumption|]. split; [apply (U1 (Ttm s0 r0 c0)); assumption|]. intros. cbn. symmetry. apply add_0r.
    - set (l := m0 :: m1 :: ms) in *. unfold merge_matrices. unfold l at 1.
      destruct (forallb (fun m => eqb (trows m) (trows m0) && eqb (tcols m) (tcols m0)) (m1 :: ms)) eqn:CONS.
      + rewrite forallb_forall in CONS.
        assert (SAME : forall m, In m l -> trows m = trows m0 /\ tcols m = tcols m0).
        { intros m [->|Im]; [auto|]. specialize (CONS _ Im). apply andb_true_iff in CONS as [A B]. apply eqb_true in A, B. auto. }
        rewrite Forall_forall in G. destruct (same_sum (m1 :: ms) (trows m0) (tcols m0) (tmx m0)) as (s & E & Gs & P).
        { pose proof (G m0 (or_introl eq_refl)). now destruct m0. }
        { apply Forall_forall. intros m Im. split; [apply G; cbn; auto|]. apply SAME. cbn; auto. }
        exists s, (trows m0), (tcols m0). rewrite E. split; [reflexivity|]. split; [assumption|]. split; [|split].
        * split; [apply (G m0 (or_introl eq_refl))|]. intros. split; [intros; exists m0; cbn; auto|]. intros (m & Im & Ix). now rewrite <- (proj1 (SAME _ Im)).
        * split; [apply (G m0 (or_introl eq_refl))|]. intros. split; [intros; exists m0; cbn; auto|]. intros (m & Im & Ix). now rewrite <- (proj2 (SAME _ Im)).
        * intros. rewrite P. destruct m0. reflexivity.
      + set (rows := isort sleb (dedup (flat_map trows l))). set (cols := isort sleb (dedup (flat_map tcols l))).
        destruct (dict_merge_ok l rows cols G (ssort_NoDup _) (ssort_NoDup _)) as (ds & E & OK & _).
        { intros m Im. split; intros x Ix; apply ssort_In, in_flat_map; eauto. }
        destruct OK as (s & Es & Gs & P).
        { destruct D as [D|D]; [assumption|]. exfalso. rewrite <- not_true_iff_false in CONS. apply CONS. apply forallb_forall. intros m Im.
          destruct (D m m0) as [A B]; [cbn; auto|cbn; auto|]. now rewrite A, B, !eqb_refl. }
        exists s, rows, cols. rewrite E. cbn [rbind]. fold rows. fold cols. rewrite Es. split; [reflexivity|]. split; [assumption|].
        split; [|split; [|assumption]].
        * split; [apply ssort_NoDup|]. intros. unfold rows. rewrite ssort_In, in_flat_map. reflexivity.
        * split; [apply ssort_NoDup|]. intros. unfold cols. rewrite ssort_In, in_flat_map. reflexivity.
  Qed.
  Lemma merge_matrices_no_entries (m0 m1 : ttm V) ms : Forall tgood (m0 :: m1 :: ms) -> Forall (fun m => entries (tmx m) = []) (m0 :: m1 :: ms) ->
    (exists m, In m (m1 :: ms) /\ (trows m <> trows m0 \/ tcols m <> tcols m0)) -> merge_matrices (m0 :: m1 :: ms) = Err ValueError.
  Proof.
    intros G FE (m & Im & D). set (l := m0 :: m1 :: ms) in *. unfold merge_matrices. unfold l at 1.
    destruct (forallb (fun m => eqb (trows m) (trows m0) && eqb (tcols m) (tcols m0)) (m1 :: ms)) eqn:CONS.
    - exfalso. rewrite forallb_forall in CONS. specialize (CONS _ Im). apply andb_true_iff in CONS as [A B]. apply eqb_true in A, B. tauto.
    - set (rows := isort sleb (dedup (flat_map trows l))). set (cols := isort sleb (dedup (flat_map tcols l))).
      destruct (dict_merge_ok l rows cols G (ssort_NoDup _) (ssort_NoDup _)) as (ds & E & _ & BAD).
      { intros x Ix. split; intros y Iy; apply ssort_In, in_flat_map; eauto. }
      rewrite E. cbn [rbind]. fold rows. fold cols. now rewrite (BAD FE).
  Qed.

  (** ** TypeTokenMatrix.merge *)
  Lemma tt_merge_ok a b : tgood a -> tgood b -> entries (tmx a) <> [] \/ entries (tmx b) <> [] ->
    exists m, tt_merge a b = Ok m /\ tgood m /\ sfmt (tmx m) = Csr /\ trows m = sunion (trows a) (trows b) /\ tcols m = sunion (tcols a) (tcols b)
      /\ forall r c, val m r c = add (val a r c) (val b r c).
  Proof.
    intros Ga Gb NE. unfold tt_merge. set (rows := sunion (trows a) (trows b)). set (cols := sunion (tcols a) (tcols b)).
    assert (IR : forall x, In x rows <-> In x (trows a) \/ In x (trows b)) by (intros; unfold rows, sunion; rewrite ssort_In; apply in_app_iff).
    assert (IC : forall x, In x cols <-> In x (tcols a) \/ In x (tcols b)) by (intros; unfold cols, sunion; rewrite ssort_In; apply in_app_iff).
    destruct (sp_to_dict_ok (tmx a) (trows a) (tcols a)) as (d1 & E1 & _); try apply Ga.
    destruct (sp_to_dict_ok (tmx b) (trows b) (tcols b)) as (d2 & E2 & _); try apply Gb.
    destruct (to_dict_val a d1 Ga E1) as (W1 & V1 & N1). destruct (to_dict_val b d2 Gb E2) as (W2 & V2 & N2).
    rewrite E1, E2. cbn [rbind].
    assert (W1' : mxwf d1 rows cols) by (eapply mxwf_incl; [eassumption| |]; intros x Ix; [apply IR|apply IC]; auto).
    assert (W2' : mxwf d2 rows cols) by (eapply mxwf_incl; [eassumption| |]; intros x Ix; [apply IR|apply IC]; auto).
    assert (EM : merge_dict2 d1 d2 = fold_left dadd d2 d1).
    { unfold merge_dict2. f_equal. change (dupdate [] d1) with (dict_of d1). apply dict_of_nodup. apply W1. }
    rewrite EM.
    assert (GG : forall r c, dget2 (fold_left dadd d2 d1) r c = match dget2 d2 r c with Some v => Some (add (oz (dget2 d1 r c)) v) | None => dget2 d1 r c end).
    { intros. apply fold_dadd; [apply W2|]. intros r' row' I. now destruct (proj2 W2 _ _ I) as (_ & ? & _). }
    assert (WM : mxwf (fold_left dadd d2 d1) rows cols) by (apply fold_dadd_wf; [assumption|]; intros r' row' I; destruct (proj2 W2' _ _ I); tauto).
    destruct (roundtrip (fold_left dadd d2 d1) rows cols (ssort_NoDup _) (ssort_NoDup _) WM) as (s & _ & Es & Mk & Gs & Vs & _).
    { destruct NE as [NE|NE]; [apply N1 in NE as (r & c & v & D)|apply N2 in NE as (r & c & v & D)]; exists r, c; rewrite GG, D; [destruct (dget2 d2 r c)|]; eauto. }
    rewrite Es. cbn [rbind]. rewrite Mk. eexists. split; [reflexivity|]. split; [assumption|]. split.
    - cbn [tmx]. unfold dict_to_sp in Es. destruct (dict_to_coo _ _ _) as [es|]; [|discriminate]. cbn [rbind] in Es. destruct es; [discriminate|].
      unfold checked_of_coo in Es. destruct (forallb _ _) in Es; inversion Es. reflexivity.
    - split; [reflexivity|]. split; [reflexivity|]. intros. rewrite Vs, GG, <- V1, <- V2. destruct (dget2 d2 r c); cbn [oz]; [reflexivity|]. symmetry. apply add_0r.
  Qed.
  (** ** concatenate *)
  Lemma concat_ok a b : tgood a -> tgood b -> tcols a = tcols b -> (forall r, In r (trows a) -> In r (trows b) -> False) ->
    exists m, tt_concat a b = Ok m /\ tgood m /\ trows m = trows a ++ trows b /\ tcols m = tcols a /\ forall r c, val m r c = add (val a r c) (val b r c).
  Proof.
    intros Ga Gb EC DJ. unfold tt_concat, sp_vstack.
    assert (NC : ncols (tmx a) = ncols (tmx b)) by (rewrite (tg_cols _ Ga), (tg_cols _ Gb); congruence). rewrite (proj2 (Nat.eqb_eq _ _) NC). cbn [rbind].
    rewrite EC, eqb_refl. rewrite <- EC.
    destruct (as_format_spec Csr (tmx a) (tg_wf _ Ga)) as (Wa & Fa & Ra & Ca & Pa). destruct (as_format_spec Csr (tmx b) (tg_wf _ Gb)) as (Wb & Fb & Rb & Cb & Pb).
    change (as_format Csr (tmx a)) with (tocsr (tmx a)) in *. change (as_format Csr (tmx b)) with (tocsr (tmx b)) in *.
    assert (LA : length (lanes (tocsr (tmx a))) = length (trows a)). { rewrite <- (tg_rows _ Ga), <- Ra. unfold nrows. now rewrite Fa. }
    assert (LB : length (lanes (tocsr (tmx b))) = length (trows b)). { rewrite <- (tg_rows _ Gb), <- Rb. unfold nrows. now rewrite Fb. }
    assert (MA : nminor (tocsr (tmx a)) = ncols (tmx a)). { rewrite <- Ca. unfold ncols. now rewrite Fa. }
    assert (MB : nminor (tocsr (tmx b)) = ncols (tmx b)). { rewrite <- Cb. unfold ncols. now rewrite Fb. }
    set (s := Sp Csr (lanes (tocsr (tmx a)) ++ lanes (tocsr (tmx b))) (ncols (tmx a))).
    assert (SR : nrows s = length (trows a ++ trows b)). { unfold s, nrows, nmajor. cbn. rewrite !app_length. congruence. }
    rewrite mk_ttm_ok; [|assumption|apply Ga].
    assert (GS : tgood (Ttm s (trows a ++ trows b) (tcols a))).
    { constructor; cbn [tmx trows tcols]; auto.
      - unfold spwf, s. cbn [lanes nminor]. apply Forall_app. split; [rewrite <- MA; exact Wa|rewrite NC, <- MB; exact Wb].
      - apply Ga.
      - apply NoDup_app'; try apply Ga; try apply Gb. exact DJ.
      - apply Ga. }
    eexists. split; [reflexivity|]. split; [assumption|]. split; [reflexivity|]. split; [reflexivity|]. intros.
    destruct (in_dec eqdec c (tcols a)) as [Ic|Ic]; [|rewrite !val_no_col by (rewrite <- ?EC; assumption); symmetry; apply add_0].
    destruct (in_dec eqdec r (trows a)) as [Ir|Ir].
    - rewrite (val_no_row b) by (intros X; eauto). rewrite add_0r.
      assert (E : nth_error (trows a ++ trows b) (idx (trows a) r) = Some r) by (rewrite nth_error_app1; [now apply idx_nth|now apply idx_lt]).
      rewrite (val_at _ (idx (trows a) r) (idx (tcols a) c) r c GS E) by (now apply idx_nth). rewrite val_idx by assumption.
      rewrite <- Pa. unfold spget, mget. rewrite Fa. unfold s. cbn [sfmt lanes tmx]. rewrite app_nth1; [reflexivity|]. rewrite LA. now apply idx_lt.
    - rewrite (val_no_row a) by assumption. rewrite add_0. destruct (in_dec eqdec r (trows b)) as [Ir'|Ir'].
      + assert (E : nth_error (trows a ++ trows b) (length (trows a) + idx (trows b) r) = Some r).
        { rewrite nth_error_app2 by lia. replace (_ - _) with (idx (trows b) r) by lia. now apply idx_nth. }
        rewrite (val_at _ _ (idx (tcols a) c) r c GS E) by (now apply idx_nth). rewrite val_idx by (rewrite <- ?EC; assumption). rewrite <- EC.
        rewrite <- Pb. unfold spget, mget. rewrite Fb. unfold s. cbn [sfmt lanes tmx]. rewrite app_nth2 by lia. rewrite LA. now replace (_ - _) with (idx (trows b) r) by lia.
      + rewrite !val_no_row; auto. cbn. rewrite in_app_iff. tauto.
  Qed.
End Merge.
