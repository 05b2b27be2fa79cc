(** * Token weights and token vectors: proofs. *)
From Coq Require Import String NArith ZArith Bool Arith Reals Lra Lia Psatz Permutation List.
From Verif Require Import Base BaseLemmas Str StrLemmas VocabModel MxModel MxSpec MxProofs MxTtmProofs MxOpsProofs MxElemProofs MxCellProofs CalcModel CalcProofs CalcVecModel CalcVecSpec CalcVecProofs.
Import ListNotations.
Local Open Scope R_scope.


(** ** Dense arrays and sparse matrices *)
Definition nz (e : nat * R) : bool := negb (isz (snd e)).
Lemma isz_R (x : R) : isz x = if Req_EM_T x 0 then true else false.
Proof. destruct (Req_EM_T x 0); [now apply isz_ok|now apply isz_false]. Qed.
Lemma lane_get_cons (s : nat) (x : R) l j : lane_get ((s, x) :: l) j = if (s =? j)%nat then x + lane_get l j else lane_get l j.
Proof. unfold lane_get. cbn [filter fst]. destruct (s =? j)%nat; reflexivity. Qed.
Lemma lane_dense row : forall s j, lane_get (filter nz (combine (seq s (length row)) row)) j = if (s <=? j)%nat then nth (j - s) row 0 else 0.
Proof.
  induction row as [|x row IH]; intros s j; cbn [length seq combine filter].
  - cbn. destruct (s <=? j)%nat; [now destruct (j - s)%nat|reflexivity].
  - assert (E : lane_get (if nz (s, x) then (s, x) :: filter nz (combine (seq (S s) (length row)) row) else filter nz (combine (seq (S s) (length row)) row)) j
      = (if (s =? j)%nat then x else 0) + lane_get (filter nz (combine (seq (S s) (length row)) row)) j).
    { unfold nz at 1. cbn [snd]. rewrite isz_R. destruct (Req_EM_T x 0) as [->|N]; cbn [negb]; [destruct (s =? j)%nat; lra|]. rewrite lane_get_cons. destruct (s =? j)%nat; lra. }
    rewrite E, IH. destruct (Nat.eqb_spec s j) as [->|N].
    + destruct (Nat.leb_spec (S j) j); [lia|]. rewrite Nat.leb_refl, Nat.sub_diag. cbn. lra.
    + destruct (Nat.leb_spec (S s) j); destruct (Nat.leb_spec s j); try lia; [|lra]. replace (j - s)%nat with (S (j - S s)) by lia. cbn [nth]. lra.
Qed.
Lemma of_dense_get nr nc a i j : shape nr nc a -> spget (of_dense nc a) i j = cell a i j.
Proof.
  intros (L & F). unfold spget, of_dense, mget. cbn [sfmt lanes]. unfold cell. destruct (Nat.lt_ge_cases i (length a)) as [Li|Gi].
  - rewrite (nth_map' _ _ _ []) by assumption. rewrite Forall_forall in F. specialize (F _ (nth_In a [] Li)). fold nz. rewrite <- F at 1. rewrite lane_dense. cbn [Nat.leb]. now rewrite Nat.sub_0_r.
  - rewrite (nth_overflow (map _ a)) by now rewrite map_length. rewrite (nth_overflow a) by assumption. cbn. now destruct j.
Qed.
Lemma combine_seq_fst s (row : list R) : map fst (combine (seq s (length row)) row) = seq s (length row).
Proof. revert s. induction row as [|x row IH]; intros s; [reflexivity|]. cbn. now rewrite IH. Qed.
Lemma of_dense_wf nr nc a : shape nr nc a -> spwf (of_dense nc a) /\ nrows (of_dense nc a) = nr /\ ncols (of_dense nc a) = nc /\ sfmt (of_dense nc a) = Csr.
Proof.
  intros (L & F). split; [|split; [unfold nrows, nmajor; cbn; now rewrite map_length|split; reflexivity]].
  unfold spwf. cbn [lanes of_dense nminor]. rewrite Forall_map. eapply Forall_impl; [|exact F]. intros row E. rewrite <- E. clear. cbn beta.
  assert (N : forall s, NoDup (map fst (filter nz (combine (seq s (length row)) row))) /\ Forall (fun e => s <= fst e < s + length row)%nat (filter nz (combine (seq s (length row)) row))).
  { induction row as [|x row IH]; intros s; [split; constructor|]. cbn [length seq combine filter]. destruct (IH (S s)) as (N & R).
    assert (R' : Forall (fun e => s <= fst e < s + S (length row))%nat (filter nz (combine (seq (S s) (length row)) row))) by (eapply Forall_impl; [|exact R]; cbn; intros; lia).
    destruct (nz (s, x)); [|split; assumption]. split.
    - cbn [map fst]. constructor; [|assumption]. intros I. apply in_map_iff in I as (e & <- & I). rewrite Forall_forall in R. specialize (R _ I). lia.
    - constructor; [cbn; lia|assumption]. }
  destruct (N 0%nat) as (A & B). split; [exact A|]. eapply Forall_impl; [|exact B]. cbn. intros; lia.
Qed.
Lemma toarray_row m i : (i < nrows m)%nat -> nth i (toarray m) [] = map (spget m i) (seq 0 (ncols m)).
Proof. intros L. unfold toarray. now rewrite nth_map_seq. Qed.
Lemma toarray_shape m : shape (nrows m) (ncols m) (toarray m).
Proof. unfold shape, toarray. rewrite map_length, seq_length. split; [reflexivity|]. rewrite Forall_map. apply Forall_forall. intros. now rewrite map_length, seq_length. Qed.
Lemma nth_idx items k : In k items -> nth (idx items k) items [] = k.
Proof. intros I. pose proof (idx_nth items k I) as E. now apply nth_error_nth with (d := []) in E. Qed.
(** A matrix made from an array whose cells are given by items *)
Lemma mk_dense_ok (rows cols : list pystr) a (f : pystr -> pystr -> R) :
  NoDup rows -> NoDup cols -> shape (length rows) (length cols) a ->
  (forall r c, In r rows -> In c cols -> cell a (idx rows r) (idx cols c) = f r c) ->
  let m := Ttm (of_dense (length cols) a) rows cols in
  mk_ttm (of_dense (length cols) a) rows cols = Ok m /\ tgood m /\ sfmt (tmx m) = Csr /\ forall r c, In r rows -> In c cols -> val m r c = f r c.
Proof.
  intros N1 N2 S H m. destruct (of_dense_wf _ _ _ S) as (W & R & C & F). split; [now apply mk_ttm_ok|]. split; [now constructor|]. split; [exact F|].
  intros r c Ir Ic. rewrite val_idx by assumption. unfold m. cbn [tmx trows tcols]. rewrite (of_dense_get _ _ _ _ _ S). now apply H.
Qed.
Lemma seq_items {A} (f : nat -> A) (g : pystr -> A) items : (forall i x, nth_error items i = Some x -> f i = g x) -> map f (seq 0 (length items)) = map g items.
Proof.
  intros H. apply (nth_ext _ _ (f 0%nat) (f 0%nat)); [now rewrite !map_length, seq_length|]. rewrite map_length, seq_length. intros i L.
  rewrite nth_map_seq by assumption. destruct (nth_error items i) as [x|] eqn:E; [|apply nth_error_None in E; lia].
  rewrite (nth_map' _ _ _ x) by assumption. rewrite (nth_error_nth _ _ _ E). now apply H.
Qed.
Lemma array_row m r : tgood m -> In r (trows m) -> nth (idx (trows m) r) (toarray (tmx m)) [] = row_vec m r.
Proof.
  intros G I. rewrite toarray_row by (rewrite (tg_rows _ G); now apply idx_lt). unfold row_vec. rewrite (tg_cols _ G). apply seq_items. intros j c E.
  symmetry. apply val_at; [assumption|now apply idx_nth|assumption].
Qed.
Lemma array_col m c : tgood m -> In c (tcols m) -> nth (idx (tcols m) c) (toarray (sp_transpose (tmx m))) [] = col_vec m c.
Proof.
  intros G I. destruct (sp_transpose_spec (tmx m) (tg_wf _ G)) as (_ & R & C & E & _).
  rewrite toarray_row by (rewrite R, (tg_cols _ G); now apply idx_lt). unfold col_vec. rewrite C, (tg_rows _ G). apply seq_items. intros j r Er.
  rewrite E. symmetry. apply val_at; [assumption|assumption|now apply idx_nth].
Qed.

(** ** Token weights *)
Lemma mask_masked b x w : mask_val b x * w = masked b x w.
Proof. unfold mask_val, masked. destruct b; [|reflexivity]. rewrite isz_R. destruct (Req_EM_T x 0); ring. Qed.
Lemma token_weights_ok pos tw b fmt : tgood pos -> tgood tw -> tcols pos = tcols tw ->
  exists m', compute_token_weights pos tw b fmt = Ok m' /\ tgood m' /\ trows m' = trows pos /\ tcols m' = tcols pos /\
  forall t c, In t (trows pos) -> In c (tcols pos) -> val m' t c = masked b (val pos t c) (val tw (type_of fmt t) c).
Proof.
  intros GP GT EC. unfold compute_token_weights. rewrite (proj2 (eqb_eq (tcols pos) (tcols tw)) EC). cbn [negb]. rewrite (tg_cols _ GP).
  set (a := map _ (combine _ _)).
  assert (NW : ncols (tmx tw) = length (tcols pos)) by (rewrite EC; apply GT).
  assert (Sh : shape (length (trows pos)) (length (tcols pos)) a).
  { split; [unfold a; rewrite map_length, combine_length, seq_length; lia|]. unfold a. rewrite Forall_map. apply Forall_forall. intros [i t] I. cbn [fst snd].
    pose proof (in_combine_l _ _ _ _ I) as Li. apply in_seq in Li. destruct (index_of _ _) as [k|] eqn:E; [|apply repeat_length].
    rewrite map_length, combine_length. rewrite (nth_map' _ _ _ []) by (rewrite (proj1 (toarray_shape _)), (tg_rows _ GP); lia). rewrite map_length.
    rewrite !toarray_row; [|rewrite (tg_rows _ GT); now apply index_of_lt in E|rewrite (tg_rows _ GP); lia]. rewrite !map_length, !seq_length, NW, (tg_cols _ GP). lia. }
  destruct (mk_dense_ok (trows pos) (tcols pos) a (fun t c => masked b (val pos t c) (val tw (type_of fmt t) c))) as (A & B & C & D); [apply GP|apply GP|exact Sh| |].
  - intros t c It Ic. unfold cell, a. pose proof (idx_lt _ _ It) as Li. pose proof (idx_lt _ _ Ic) as Lj.
        rewrite (nth_map' _ _ _ (0%nat, [] : pystr)) by (rewrite combine_length, seq_length; lia). rewrite combine_nth by now rewrite seq_length. cbn [fst snd]. rewrite seq_nth by assumption. cbn [plus].
    rewrite nth_idx by assumption. destruct (index_of (type_of fmt t) (trows tw)) as [k|] eqn:E.
    + pose proof (index_of_lt _ _ _ E) as Lk. rewrite (nth_map' _ _ _ (0, 0)).
      2:{ rewrite combine_length. rewrite (nth_map' _ _ _ []) by (rewrite (proj1 (toarray_shape _)), (tg_rows _ GP); lia). rewrite map_length.
          rewrite !toarray_row; [|rewrite (tg_rows _ GT); lia|rewrite (tg_rows _ GP); lia]. rewrite !map_length, !seq_length, NW, (tg_cols _ GP). lia. }
      rewrite (nth_map' _ _ _ []) by (rewrite (proj1 (toarray_shape _)), (tg_rows _ GP); lia). rewrite !toarray_row; [|rewrite (tg_rows _ GT); lia|rewrite (tg_rows _ GP); lia].
      rewrite combine_nth by (rewrite !map_length, !seq_length, NW, (tg_cols _ GP); reflexivity). cbn [fst snd]. rewrite map_map. rewrite !nth_map_seq by (rewrite ?(tg_cols _ GP), ?NW; assumption).
      rewrite mask_masked. f_equal; [symmetry; apply val_idx; assumption|]. unfold val. rewrite E, <- EC. unfold idx. destruct (index_of c (tcols pos)) eqn:Q; [reflexivity|].
      exfalso. now apply index_of_None in Q.
    + assert (Z : nth (idx (tcols pos) c) (repeat 0 (length (tcols pos))) 0 = 0) by (clear; generalize (length (tcols pos)); generalize (idx (tcols pos) c); induction n; intros [|k]; cbn; auto).
      rewrite Z. unfold val at 2. rewrite E. cbn. unfold masked. destruct b; [now destruct (Req_EM_T _ 0)|ring].
  - eexists. split; [exact A|]. split; [exact B|]. split; [reflexivity|]. split; [reflexivity|]. exact D.
Qed.
Lemma type_of_lemma_pos l p rest : ~ In slash l -> ~ In slash p -> type_of (u "lemma/pos") (l ++ slash :: p ++ slash :: rest) = l ++ slash :: p.
Proof. intros A B. unfold type_of. rewrite eqb_refl. rewrite !split_app_noc by assumption. reflexivity. Qed.
Lemma type_of_lemma fmt l rest : fmt <> u "lemma/pos" -> ~ In slash l -> type_of fmt (l ++ slash :: rest) = l.
Proof. intros N A. unfold type_of. rewrite (proj2 (eqb_neq fmt (u "lemma/pos")) N). now rewrite split_app_noc by assumption. Qed.

(** ** Token vectors *)
Lemma same_set_ok a b : same_set a b = true <-> (forall x, In x a <-> In x b).
Proof.
  unfold same_set. rewrite andb_true_iff, !forallb_forall. split.
  - intros (A & B) x. split; intros I; [apply A in I|apply B in I]; now apply mem_In in I.
  - intros H. split; intros x I; apply mem_In; now apply H.
Qed.
Lemma right_ok (w soc : ttm R) : tgood w -> tgood soc -> (forall x, In x (tcols w) <-> In x (trows soc)) ->
  exists right, (if eqb (tcols w) (trows soc) then Ok (tmx soc) else rmap tmx (tt_reorder soc (tcols w) false)) = Ok right /\
    tgood (Ttm right (tcols w) (tcols soc)) /\ sfmt right = sfmt (tmx soc) /\ forall c f, val (Ttm right (tcols w) (tcols soc)) c f = val soc c f.
Proof.
  intros GW GS SS. destruct (eqb (tcols w) (trows soc)) eqn:E.
  - apply eqb_true in E. exists (tmx soc). split; [reflexivity|]. rewrite E. split; [destruct GS; now constructor|]. split; reflexivity.
  - destruct (reorder_ok soc (tcols w) false GS) as (m' & R & G' & ER & ECc & V); [apply GW|intros x I; now apply SS|]. rewrite R. cbn [rmap]. exists (tmx m').
    split; [reflexivity|]. cbn in ER, ECc. assert (EM : Ttm (tmx m') (tcols w) (tcols soc) = m') by (destruct m' as [x y z]; cbn in *; now subst). rewrite EM. split; [assumption|]. split.
    + unfold tt_reorder in R. destruct (rmapm _ _) as [ix|] eqn:Q; [|discriminate]. cbn [rbind] in R. destruct (take_rows_spec (tmx soc) ix (tg_wf _ GS)) as (_ & F & _).
      unfold mk_ttm in R. destruct (negb _); [discriminate|]. destruct (negb _); [discriminate|]. inversion R. cbn. exact F.
    + intros c f. destruct (in_dec eqdec c (tcols w)) as [I|N]; [now apply V|]. rewrite !val_no_row; [reflexivity| |]; [intros I; apply N; now apply SS|rewrite ER; exact N].
Qed.
Lemma row_norm_ok norm row : In norm [u "l1"; u "l2"; u "max"] -> row_norm norm row = Ok (vec_norm norm row).
Proof.
  intros I. unfold row_norm, vec_norm. destruct (eqb norm (u "l1")) eqn:A; [reflexivity|]. destruct (eqb norm (u "l2")) eqn:B; [reflexivity|].
  apply eqb_neq in A, B. destruct I as [<-|[<-|[<-|[]]]]; [contradiction|contradiction|]. now rewrite eqb_refl.
Qed.
Lemma vec_norm_nz norm s row : vec_norm norm (map snd (filter nz (combine (seq s (length row)) row))) = vec_norm norm row.
Proof.
  assert (E : exists k, forall P : list R -> R, P = P -> True) by (exists 0%nat; auto). clear E.
  assert (F : map snd (filter nz (combine (seq s (length row)) row)) = filter (fun x => negb (isz x)) row).
  { revert s. induction row as [|x row IH]; intros s; [reflexivity|]. cbn [length seq combine filter]. unfold nz at 1. cbn [snd]. destruct (negb (isz x)); [cbn [map snd]; now rewrite IH|apply IH]. }
  rewrite F. clear. unfold vec_norm, norm2.
  assert (M : forall l, 0 <= fold_right Rmax 0 (map Rabs l)) by (induction l as [|x l IH]; cbn; [lra|]; eapply Rle_trans; [exact IH|apply Rmax_r]).
  destruct (eqb norm (u "l1")); [|destruct (eqb norm (u "l2")); [f_equal|]]; induction row as [|x row IH]; try reflexivity; cbn [filter map]; rewrite isz_R; destruct (Req_EM_T x 0) as [->|N]; cbn [negb map].
  - rewrite IH, Rabs_R0. unfold sumr. cbn. ring.
  - unfold sumr in *. cbn. now rewrite IH.
  - rewrite IH, dot_cons. ring.
  - now rewrite !dot_cons, IH.
  - rewrite IH, Rabs_R0. cbn. symmetry. apply Rmax_right, M.
  - cbn. now rewrite IH.
Qed.
Lemma lane_map_div n l j : lane_get (map (fun e : nat * R => (fst e, div_by n (snd e))) l) j = div_by n (lane_get l j).
Proof.
  induction l as [|[k x] l IH]; cbn [map fst snd]; [cbn; unfold div_by; destruct (Req_EM_T n 0); unfold Rdiv; ring|].
  rewrite !lane_get_cons, IH. destruct (k =? j)%nat; [|reflexivity]. unfold div_by. destruct (Req_EM_T n 0); unfold Rdiv; ring.
Qed.
Lemma normalize_ok norm rows cols a f : rows <> [] -> cols <> [] -> In norm [u "l1"; u "l2"; u "max"] -> NoDup rows -> NoDup cols -> shape (length rows) (length cols) a ->
  (forall r c, In r rows -> In c cols -> cell a (idx rows r) (idx cols c) = f r c) ->
  exists s, normalize norm (of_dense (length cols) a) = Ok s /\ let m := Ttm s rows cols in
    mk_ttm s rows cols = Ok m /\ tgood m /\ forall r c, In r rows -> In c cols -> val m r c = div_by (vec_norm norm (map (f r) cols)) (f r c).
Proof.
  intros NR NC IN N1 N2 Sh H. assert (HC : has_cells (of_dense (length cols) a) = true).
  { destruct (of_dense_wf _ _ _ Sh) as (_ & R & C & _). unfold has_cells. rewrite R, C. destruct rows; [contradiction|]. destruct cols; [contradiction|reflexivity]. }
  unfold normalize. rewrite (proj2 (mem_In norm _) IN), HC. cbn [andb].
  rewrite (rmapm_map _ (fun ln => map (fun e => (fst e, div_by (vec_norm norm (map snd ln)) (snd e))) ln)) by (intros; now rewrite row_norm_ok).
  cbn [rmap]. eexists. split; [reflexivity|]. cbv zeta. destruct (of_dense_wf _ _ _ Sh) as (W & R & C & _).
  assert (X : nrows (of_dense (length cols) a) = length (lanes (of_dense (length cols) a))) by reflexivity. rewrite R in X.
  set (s := Sp Csr _ _). assert (RS : nrows s = length rows) by (unfold s, nrows, nmajor; cbn [sfmt lanes]; rewrite map_length; now symmetry).
  split; [now apply mk_ttm_ok|]. split.
  - constructor; try assumption. unfold spwf in *. unfold s. cbn [tmx lanes nminor]. rewrite Forall_map. eapply Forall_impl; [|exact W].
    intros ln (A & B). split; [rewrite map_map; cbn [fst]; exact A|]. rewrite Forall_map. cbn [fst]. exact B.
  - intros r c Ir Ic. rewrite val_idx by assumption. cbn [tmx trows tcols]. rewrite <- (H r c Ir Ic). rewrite <- (of_dense_get _ _ _ _ _ Sh). pose proof (idx_lt _ _ Ir) as Li.
    unfold s, spget, mget. cbn [sfmt lanes]. rewrite (nth_map' _ _ _ []) by (rewrite <- X; assumption). rewrite lane_map_div. f_equal.
    unfold of_dense. cbn [lanes sfmt]. destruct Sh as (L & F). rewrite Forall_forall in F.
    assert (Li' : (idx rows r < length a)%nat) by now rewrite L. rewrite (nth_map' _ _ _ []) by assumption. fold nz. specialize (F _ (nth_In a [] Li')).
    rewrite <- F at 1. rewrite vec_norm_nz. f_equal. apply (nth_ext _ _ 0 0); [now rewrite map_length|]. rewrite F. intros j Lj.
    destruct (nth_error cols j) as [c'|] eqn:E; [|apply nth_error_None in E; lia]. rewrite (nth_map' _ _ _ c') by assumption. rewrite (nth_error_nth _ _ _ E).
    rewrite <- (H r c' Ir) by (eapply nth_error_In; eassumption). unfold cell. now rewrite (idx_of_nth _ _ _ N2 E).
Qed.
(** The last steps, for any product array *)
Lemma vectors_finish w soc operation normalization right a f : normalization = u "no" \/ (trows w <> [] /\ tcols soc <> []) -> tgood w -> tgood soc ->
  (forall x, In x (tcols w) <-> In x (trows soc)) -> In normalization [u "no"; u "l1"; u "l2"; u "max"] ->
  (if eqb (tcols w) (trows soc) then Ok (tmx soc) else rmap tmx (tt_reorder soc (tcols w) false)) = Ok right -> ncols right = length (tcols soc) ->
  (if eqb operation (u "addition") then dot_addition (tmx w) right
   else if eqb operation (u "weightedmean") then Ok (weighted_mean (tmx w) right)
   else if eqb operation (u "multiplication") then Ok (dot_multiplication (tmx w) right) else Err ValueError) = Ok a ->
  shape (length (trows w)) (length (tcols soc)) a ->
  (forall t x, In t (trows w) -> In x (tcols soc) -> cell a (idx (trows w) t) (idx (tcols soc) x) = f t x) ->
  exists m', compute_token_vectors w soc operation normalization = Ok m' /\ tgood m' /\ trows m' = trows w /\ tcols m' = tcols soc /\
    forall t x, In t (trows w) -> In x (tcols soc) -> val m' t x = norm_by normalization (map (f t) (tcols soc)) (f t x).
Proof.
  intros NE GW GS SS IN ER NR EA Sh H. unfold compute_token_vectors. rewrite (proj2 (same_set_ok _ _) SS), ER. cbn [rbind]. rewrite EA. cbn [rbind]. rewrite NR.
  unfold norm_by. destruct (eqb normalization (u "no")) eqn:E.
  - cbn [rbind]. destruct (mk_dense_ok (trows w) (tcols soc) a f) as (A & B & C & D); [apply GW|apply GS|exact Sh|exact H|]. rewrite A. eexists. split; [reflexivity|]. auto.
  - apply eqb_neq in E. destruct NE as [NE|[NE1 NE2]]; [contradiction|]. destruct (normalize_ok normalization (trows w) (tcols soc) a f NE1 NE2) as (s & A & B & C & D); [destruct IN as [<-|IN]; [contradiction|exact IN]|apply GW|apply GS|exact Sh|exact H|].
    rewrite A. cbn [rbind]. rewrite B. eexists. split; [reflexivity|]. auto.
Qed.
Lemma grid_shape (f : nat -> nat -> R) nr nc : shape nr nc (map (fun i => map (f i) (seq 0 nc)) (seq 0 nr)).
Proof. split; [now rewrite map_length, seq_length|]. rewrite Forall_map. apply Forall_forall. intros. now rewrite map_length, seq_length. Qed.
Lemma grid_cell (f : nat -> nat -> R) nr nc i j : (i < nr)%nat -> (j < nc)%nat -> cell (map (fun i => map (f i) (seq 0 nc)) (seq 0 nr)) i j = f i j.
Proof. intros A B. unfold cell. now rewrite !nth_map_seq. Qed.
Lemma sp_dot_items w soc right t f : tgood w -> tgood (Ttm right (tcols w) (tcols soc)) -> (forall c f, val (Ttm right (tcols w) (tcols soc)) c f = val soc c f) ->
  In t (trows w) -> In f (tcols soc) -> sp_dot (tmx w) right (idx (trows w) t) (idx (tcols soc) f) = weighted_sum w soc t f.
Proof.
  intros GW GR V It If. unfold sp_dot, weighted_sum. f_equal. rewrite (tg_cols _ GW). apply seq_items. intros j c E.
  f_equal; [symmetry; apply val_at; [assumption|now apply idx_nth|assumption]|]. rewrite <- V. symmetry.
  apply (val_at (Ttm right (tcols w) (tcols soc))); [assumption|exact E|now apply (idx_nth (tcols soc))].
Qed.
Section Vectors.
  Variables (w soc : ttm R) (normalization : pystr).
  Hypothesis GW : tgood w. Hypothesis GS : tgood soc.
  Hypothesis SS : forall x, In x (tcols w) <-> In x (trows soc).
  Hypothesis IN : In normalization [u "no"; u "l1"; u "l2"; u "max"].
  Hypothesis NE : normalization = u "no" \/ (trows w <> [] /\ tcols soc <> []).
  Lemma addition_ok : sfmt (tmx w) = Csr -> sfmt (tmx soc) = Csr ->
    exists m', compute_token_vectors w soc (u "addition") normalization = Ok m' /\ tgood m' /\ trows m' = trows w /\ tcols m' = tcols soc /\
      forall t f, In t (trows w) -> In f (tcols soc) -> val m' t f = norm_by normalization (map (weighted_sum w soc t) (tcols soc)) (weighted_sum w soc t f).
  Proof.
    intros F1 F2. destruct (right_ok w soc GW GS SS) as (right & ER & GR & FR & V). assert (NC : ncols right = length (tcols soc)) by apply (tg_cols _ GR).
    eapply vectors_finish; try eassumption.
    - rewrite eqb_refl. unfold dot_addition. rewrite F1, FR, F2. reflexivity.
    - rewrite (tg_rows _ GW), NC. apply grid_shape.
    - intros t x It Ix. rewrite (tg_rows _ GW), NC. rewrite grid_cell by now apply idx_lt. now apply sp_dot_items.
  Qed.
  Lemma weighted_mean_ok :
    exists m', compute_token_vectors w soc (u "weightedmean") normalization = Ok m' /\ tgood m' /\ trows m' = trows w /\ tcols m' = tcols soc /\
      let mean t f := nan_div (weighted_sum w soc t f) (sumr (map (val w t) (tcols w))) in
      forall t f, In t (trows w) -> In f (tcols soc) -> val m' t f = norm_by normalization (map (mean t) (tcols soc)) (mean t f).
  Proof.
    destruct (right_ok w soc GW GS SS) as (right & ER & GR & FR & V). assert (NC : ncols right = length (tcols soc)) by apply (tg_cols _ GR).
    eapply vectors_finish; try eassumption.
    - reflexivity.
    - unfold weighted_mean. rewrite (tg_rows _ GW), NC. apply grid_shape.
    - intros t x It Ix. unfold weighted_mean. rewrite (tg_rows _ GW), NC. rewrite (grid_cell (fun i k => nan_div (sp_dot (tmx w) right i k) (row_sum (tmx w) i))) by now apply idx_lt.
      rewrite sp_dot_items by assumption. f_equal. rewrite row_sum_cells by apply GW. apply (f_equal sumr). rewrite (tg_cols _ GW). apply seq_items. intros j c E.
      symmetry. apply val_at; [assumption|now apply idx_nth|assumption].
  Qed.
  Lemma mult_fold (l r : sp R) i k js acc :
    fold_left (fun acc j => if isz (spget l i j) || negb (isz (spget r j k)) then acc else acc * (spget l i j * spget r j k)) js acc =
    if existsb (fun j => negb (isz (spget l i j)) && isz (spget r j k)) js then 0 else acc.
  Proof.
    assert (Z : forall js, fold_left (fun acc j => if isz (spget l i j) || negb (isz (spget r j k)) then acc else acc * (spget l i j * spget r j k)) js 0 = 0).
    { clear. induction js as [|j js IH]; [reflexivity|]. cbn [fold_left]. destruct (_ || _); [apply IH|]. now rewrite Rmult_0_l. }
    revert acc. induction js as [|j js IH]; intros acc; [reflexivity|]. cbn [fold_left existsb]. destruct (isz (spget l i j)) eqn:A; cbn [orb negb andb]; [apply IH|].
    destruct (isz (spget r j k)) eqn:B; cbn [orb negb andb]; [|apply IH]. apply isz_ok in B. rewrite B. change zero with 0. rewrite !Rmult_0_r. apply Z.
  Qed.
  (** 0 if some context word with a non-zero weight has a zero feature, 1 otherwise *)
  Definition all_or_nothing (t f : pystr) : R := if existsb (fun c => negb (isz (val w t c)) && isz (val soc c f)) (tcols w) then 0 else 1.
  Lemma multiplication_ok :
    exists m', compute_token_vectors w soc (u "multiplication") normalization = Ok m' /\ tgood m' /\ trows m' = trows w /\ tcols m' = tcols soc /\
      forall t f, In t (trows w) -> In f (tcols soc) -> val m' t f = norm_by normalization (map (all_or_nothing t) (tcols soc)) (all_or_nothing t f).
  Proof.
    destruct (right_ok w soc GW GS SS) as (right & ER & GR & FR & V). assert (NC : ncols right = length (tcols soc)) by apply (tg_cols _ GR).
    eapply vectors_finish; try eassumption.
    - reflexivity.
    - unfold dot_multiplication. rewrite (tg_rows _ GW), NC. apply grid_shape.
    - intros t x It Ix. unfold dot_multiplication. rewrite (tg_rows _ GW), NC. rewrite grid_cell by now apply idx_lt. unfold dot_mult_cell, all_or_nothing. rewrite mult_fold, (tg_cols _ GW).
      assert (E : map (fun j => negb (isz (spget (tmx w) (idx (trows w) t) j)) && isz (spget right j (idx (tcols soc) x))) (seq 0 (length (tcols w)))
        = map (fun c => negb (isz (val w t c)) && isz (val soc c x)) (tcols w)).
      { apply seq_items. intros j c E. f_equal; [do 2 f_equal; symmetry; apply val_at; [assumption|now apply idx_nth|assumption]|]. rewrite <- V. f_equal. symmetry.
        apply (val_at (Ttm right (tcols w) (tcols soc))); [assumption|exact E|now apply (idx_nth (tcols soc))]. }
      assert (X : forall A B (f : A -> bool) (g : B -> bool) l l', map f l = map g l' -> existsb f l = existsb g l').
      { clear. intros A B f g l. induction l as [|x l IH]; intros [|y l'] E; try discriminate; [reflexivity|]. cbn in E |- *. inversion E. f_equal. now apply IH. }
      now rewrite (X _ _ _ _ _ _ E).
  Qed.
End Vectors.
(** normalize refuses a product without rows or columns. *)
Lemma vectors_empty w soc op norm : tgood w -> tgood soc -> norm <> u "no" -> trows w = [] \/ tcols soc = [] ->
  compute_token_vectors w soc op norm = Err ValueError \/
  (op = u "addition" /\ compute_token_vectors w soc op norm = Err AssertionError).
Proof.
  intros GW GS N H. unfold compute_token_vectors. destruct (same_set (tcols w) (trows soc)) eqn:E; [|now left].
  destruct (right_ok w soc GW GS (proj1 (same_set_ok _ _) E)) as (right & ER & GR & FR & V). rewrite ER. cbn [rbind].
  assert (NC : ncols right = length (tcols soc)) by apply (tg_cols _ GR). rewrite (proj2 (eqb_neq norm (u "no")) N).
  assert (Fin : forall a : dense, length a = length (trows w) -> normalize norm (of_dense (ncols right) a) = Err ValueError).
  { intros a La. unfold normalize, has_cells. change (nrows (of_dense (ncols right) a)) with (length (map (fun row => filter (fun e => negb (isz (snd e))) (combine (seq 0 (ncols right)) row)) a)).
    change (ncols (of_dense (ncols right) a)) with (ncols right). rewrite map_length, La, NC. destruct H as [-> | ->]; cbn [length Nat.ltb Nat.leb andb]; rewrite ?andb_false_r; reflexivity. }
  destruct (eqdec op (u "addition")) as [-> | NA]; [|rewrite (proj2 (eqb_neq op (u "addition")) NA)].
  { rewrite eqb_refl. unfold dot_addition. destruct (sfmt (tmx w)); [|right; split; reflexivity]. destruct (sfmt right); [|right; split; reflexivity]. left. cbn [rbind]. rewrite Fin; [reflexivity|]. rewrite map_length, seq_length. apply (tg_rows _ GW). }
  left. destruct (eqb op (u "weightedmean")); [|destruct (eqb op (u "multiplication")); [|reflexivity]]; cbn [rbind]; rewrite Fin; try reflexivity;
    [unfold weighted_mean|unfold dot_multiplication]; rewrite map_length, seq_length; apply (tg_rows _ GW).
Qed.
Lemma vectors_none w soc op norm : tgood w -> tgood soc -> norm <> u "no" -> op <> u "addition" -> trows w = [] \/ tcols soc = [] -> compute_token_vectors w soc op norm = Err ValueError.
Proof. intros GW GS N O H. destruct (vectors_empty w soc op norm GW GS N H) as [E|(A & _)]; [exact E|contradiction]. Qed.
Lemma vectors_inv w soc op norm m : tgood w -> tgood soc -> compute_token_vectors w soc op norm = Ok m -> norm = u "no" \/ (trows w <> [] /\ tcols soc <> []).
Proof.
  intros GW GS E. destruct (eqdec norm (u "no")) as [-> | N]; [now left|]. right.
  split; intros X; (destruct (vectors_empty w soc op norm GW GS N) as [F|(_ & F)]; [auto|congruence|congruence]).
Qed.
Lemma vectors_mismatch (w soc : ttm R) op norm : ~ (forall x, In x (tcols w) <-> In x (trows soc)) -> compute_token_vectors w soc op norm = Err ValueError.
Proof. intros N. unfold compute_token_vectors. destruct (same_set (tcols w) (trows soc)) eqn:E; [|reflexivity]. exfalso. now apply N, same_set_ok. Qed.
Lemma vectors_unknown_op w soc op norm : tgood w -> tgood soc -> ~ In op [u "addition"; u "weightedmean"; u "multiplication"] -> compute_token_vectors w soc op norm = Err ValueError.
Proof.
  intros GW GS N. unfold compute_token_vectors. destruct (same_set (tcols w) (trows soc)) eqn:E; [|reflexivity]. destruct (right_ok w soc GW GS (proj1 (same_set_ok _ _) E)) as (right & ER & _). rewrite ER. cbn [rbind].
  cbn [In] in N. rewrite !(proj2 (eqb_neq op _)) by (intros ->; apply N; auto). reflexivity.
Qed.
Lemma vectors_unknown_norm w soc op norm : tgood w -> tgood soc -> ~ In norm [u "no"; u "l1"; u "l2"; u "max"] ->
  compute_token_vectors w soc op norm = Err ValueError \/ compute_token_vectors w soc op norm = Err AssertionError.
Proof.
  intros GW GS N. unfold compute_token_vectors. destruct (same_set (tcols w) (trows soc)) eqn:E; [|auto]. destruct (right_ok w soc GW GS (proj1 (same_set_ok _ _) E)) as (right & ER & _). rewrite ER. cbn [rbind].
  assert (Q : normalize norm = fun _ => Err ValueError) by (unfold normalize; destruct (mem norm _) eqn:M; [exfalso; apply N; right; now apply mem_In in M|reflexivity]).
  cbn [In] in N. rewrite (proj2 (eqb_neq norm (u "no"))) by (intros ->; apply N; auto). rewrite Q.
  unfold dot_addition. destruct (eqb op (u "addition")); [destruct (sfmt (tmx w)); destruct (sfmt right); auto|]. destruct (eqb op (u "weightedmean")); auto. destruct (eqb op (u "multiplication")); auto.
Qed.
Lemma addition_csc w soc norm : tgood w -> tgood soc -> sfmt (tmx w) = Csc \/ sfmt (tmx soc) = Csc -> (forall x, In x (tcols w) <-> In x (trows soc)) ->
  compute_token_vectors w soc (u "addition") norm = Err AssertionError.
Proof.
  intros GW GS F SS. unfold compute_token_vectors. rewrite (proj2 (same_set_ok _ _) SS). destruct (right_ok w soc GW GS SS) as (right & ER & _ & FR & _). rewrite ER. cbn [rbind]. rewrite eqb_refl.
  unfold dot_addition. rewrite FR. destruct F as [->| ->]; [reflexivity|]. now destruct (sfmt (tmx w)).
Qed.

(** ** argsort exists *)
Definition sort_pos (row : list R) : list nat := isort (fun i j => if Rle_dec (nth i row 0) (nth j row 0) then true else false) (seq 0 (length row)).
Lemma argsort_exists row : argsort row (sort_pos row).
Proof.
  set (leb := fun i j => if Rle_dec (nth i row 0) (nth j row 0) then true else false).
  assert (P : Permutation (sort_pos row) (seq 0 (length row))) by (symmetry; apply isort_perm). split; [exact P|].
  assert (St : Sorted.StronglySorted (fun a b => leb a b = true) (sort_pos row)).
  { apply isort_sorted; unfold leb.
    - intros a b. destruct (Rle_dec (nth a row 0) (nth b row 0)); [now left|right]. destruct (Rle_dec (nth b row 0) (nth a row 0)); [reflexivity|lra].
    - intros a b c. destruct (Rle_dec (nth a row 0) (nth b row 0)); [|discriminate]. destruct (Rle_dec (nth b row 0) (nth c row 0)); [|discriminate]. destruct (Rle_dec (nth a row 0) (nth c row 0)); [reflexivity|lra]. }
  assert (L : length (sort_pos row) = length row) by (rewrite (Permutation_length P); apply seq_length). rewrite <- L. clear L P. revert St. generalize (sort_pos row). clear.
  induction l as [|p l IH]; intros St x y (A & B); [cbn in B; lia|]. apply Sorted.StronglySorted_inv in St as (St & F). cbn in B. destruct y as [|y]; [lia|]. destruct x as [|x]; cbn [nth].
  - rewrite Forall_forall in F. assert (Ly : (y < length l)%nat) by lia. specialize (F (nth y l 0%nat) (nth_In l 0%nat Ly)). unfold leb in F. destruct (Rle_dec _ _); [assumption|discriminate].
  - apply IH; [assumption|lia].
Qed.

(** ** Equality in Cauchy-Schwarz *)
Lemma dot_diff a b p q : length a = length b -> dot (map (fun xy => q * fst xy - p * snd xy) (combine a b)) (map (fun xy => q * fst xy - p * snd xy) (combine a b)) = q * q * dot a a - 2 * (p * q) * dot a b + p * p * dot b b.
Proof.
  revert b. induction a as [|x a IH]; intros [|y b] E; try discriminate; [cbn; ring|]. cbn [combine map fst snd]. rewrite !dot_cons, IH by (cbn in E; lia). ring.
Qed.
Lemma cos_one a b : length a = length b -> norm2 a <> 0 -> norm2 b <> 0 -> (cos_of a b = 1 <-> exists k, 0 < k /\ b = map (fun x => k * x) a).
Proof.
  intros L Na Nb. pose proof (norm2_nonneg a) as Pa. pose proof (norm2_nonneg b) as Pb. split.
  - intros E. unfold cos_of in E. destruct (Req_EM_T (norm2 a) 0); [contradiction|]. destruct (Req_EM_T (norm2 b) 0); [contradiction|].
    assert (D : dot a b = norm2 a * norm2 b). { apply (f_equal (fun x => x * (norm2 a * norm2 b))) in E. rewrite Rmult_1_l in E. rewrite <- E. field. auto. }
    pose proof (dot_diff a b (norm2 a) (norm2 b) L) as Q. rewrite D, <- (norm2_sq a), <- (norm2_sq b) in Q. replace (norm2 b * norm2 b * (norm2 a * norm2 a) - 2 * (norm2 a * norm2 b) * (norm2 a * norm2 b) + norm2 a * norm2 a * (norm2 b * norm2 b)) with 0 in Q by ring.
    apply dot_self_zero in Q. exists (norm2 b / norm2 a). split; [apply Rdiv_lt_0_compat; lra|]. rewrite Forall_map in Q. set (p := norm2 a) in *. set (q := norm2 b) in *. clearbody p q. clear - L Q n.
    revert b L Q. induction a as [|x a IH]; intros [|y b] L Q; try discriminate; [reflexivity|]. cbn [combine] in Q. inversion Q as [|? ? E Q']; subst. cbn [fst snd] in E. cbn [map]. f_equal.
    + apply (Rmult_eq_reg_l p); [|assumption]. replace (p * (q / p * x)) with (q * x) by (field; assumption). lra.
    + apply IH; [cbn in L; lia|assumption].
  - intros (k & K & ->). rewrite cos_sym, cos_scale by assumption. now apply cos_self.
Qed.
Lemma norm2_zero_iff a : norm2 a = 0 <-> Forall (fun x => x = 0) a.
Proof. split; [apply norm2_zero|]. intros F. unfold norm2. rewrite dot_zero_l by assumption. apply sqrt_0. Qed.

(** ** Similarities by items *)
Lemma sim_idx a items x y : In x items -> In y items -> sim_of (a, items) x y = cell a (idx items x) (idx items y).
Proof.
  intros Ix Iy. unfold sim_of, idx. cbn [fst snd]. destruct (index_of x items) eqn:A; [|now apply index_of_None in A]. destruct (index_of y items) eqn:B; [reflexivity|now apply index_of_None in B].
Qed.
Lemma idx_eqb items x y : In x items -> In y items -> (idx items x =? idx items y)%nat = eqb x y.
Proof.
  intros Ix Iy. destruct (eqb x y) eqn:E; [apply eqb_true in E; subst; apply Nat.eqb_refl|]. apply Nat.eqb_neq. intros Q. apply eqb_neq in E. apply E. now apply (idx_inj items).
Qed.
Lemma by_axis_ok m axis : tgood m -> axis = 0%Z \/ axis = 1%Z -> exists a, by_axis m axis = Ok (a, axis_items m axis) /\ length a = length (axis_items m axis) /\
  forall x, In x (axis_items m axis) -> nth (idx (axis_items m axis) x) a [] = axis_vec m axis x.
Proof.
  intros G [->| ->]; unfold by_axis, axis_items, axis_vec; cbn [Z.eqb Pos.eqb]; eexists; (split; [reflexivity|]); split.
  - now rewrite (proj1 (toarray_shape _)), (tg_rows _ G).
  - intros. now apply array_row.
  - destruct (sp_transpose_spec (tmx m) (tg_wf _ G)) as (_ & R & _). now rewrite (proj1 (toarray_shape _)), R, (tg_cols _ G).
  - intros. now apply array_col.
Qed.
Lemma set_diag_shape v a n : shape n n a -> shape n n (set_diag v a).
Proof.
  intros (L & F). split; [now rewrite set_diag_length|]. unfold set_diag. rewrite Forall_map. apply Forall_forall. intros [i row] I. cbn [fst snd]. rewrite map_length, combine_length, seq_length.
  apply in_combine_r in I. rewrite Forall_forall in F. rewrite F by assumption. lia.
Qed.
Lemma cosine_shape a : shape (length a) (length a) (cosine_similarity a).
Proof. split; [apply cosine_length|]. unfold cosine_similarity. rewrite Forall_map. apply Forall_forall. intros. now rewrite !map_length. Qed.
Lemma has_cells_ok m : tgood m -> has_cells (tmx m) = true <-> trows m <> [] /\ tcols m <> [].
Proof.
  intros G. unfold has_cells. rewrite (tg_rows _ G), (tg_cols _ G), andb_true_iff, !Nat.ltb_lt. destruct (trows m); destruct (tcols m); cbn [length]; intuition (congruence || lia).
Qed.
Lemma cosine_inv m axis s : tgood m -> compute_cosine m axis = Ok s -> (axis = 0%Z \/ axis = 1%Z) /\ trows m <> [] /\ tcols m <> [].
Proof.
  intros G E. unfold compute_cosine, by_axis in E. assert (A : axis = 0%Z \/ axis = 1%Z).
  { destruct (Z.eqb_spec axis 0); [now left|]. destruct (Z.eqb_spec axis 1); [now right|discriminate]. }
  split; [exact A|]. apply (has_cells_ok m G). destruct A as [-> | ->]; cbn [Z.eqb Pos.eqb rbind] in E; destruct (has_cells (tmx m)); (reflexivity || discriminate).
Qed.
Lemma cosine_empty m axis : tgood m -> trows m = [] \/ tcols m = [] -> compute_cosine m axis = Err ValueError.
Proof.
  intros G H. destruct (compute_cosine m axis) as [s|e] eqn:E; [destruct (cosine_inv m axis s G E) as (_ & A & B); destruct H; contradiction|].
  unfold compute_cosine, by_axis in E. destruct (axis =? 0)%Z; [|destruct (axis =? 1)%Z]; cbn [rbind] in E; try (destruct (has_cells (tmx m))); congruence.
Qed.
Lemma distance_inv other m axis d : tgood m -> compute_distance other m axis (u "cosine") = Ok d -> (axis = 0%Z \/ axis = 1%Z) /\ trows m <> [] /\ tcols m <> [].
Proof.
  intros G E. unfold compute_distance, by_axis in E. assert (A : axis = 0%Z \/ axis = 1%Z).
  { destruct (Z.eqb_spec axis 0); [now left|]. destruct (Z.eqb_spec axis 1); [now right|discriminate]. }
  split; [exact A|]. apply (has_cells_ok m G). change (mem (u "cosine") metrics) with true in E. destruct A as [-> | ->]; cbn [Z.eqb Pos.eqb rbind] in E; destruct (has_cells (tmx m)); (reflexivity || discriminate).
Qed.
Lemma distance_empty other m axis metric : tgood m -> trows m = [] \/ tcols m = [] -> In metric metrics -> compute_distance other m axis metric = Err ValueError.
Proof.
  intros G H I. assert (F : has_cells (tmx m) = false). { destruct (has_cells (tmx m)) eqn:E; [|reflexivity]. apply (has_cells_ok m G) in E as [A B]. destruct H; contradiction. }
  unfold compute_distance, by_axis. rewrite (proj2 (mem_In _ _) I), F. destruct (axis =? 0)%Z; [reflexivity|]. destruct (axis =? 1)%Z; reflexivity.
Qed.
Lemma compute_cosine_ok m axis : tgood m -> trows m <> [] -> tcols m <> [] -> axis = 0%Z \/ axis = 1%Z -> let items := axis_items m axis in
  exists a, compute_cosine m axis = Ok (a, items) /\ shape (length items) (length items) a /\
    forall x y, In x items -> In y items -> sim_of (a, items) x y = if eqb x y then 1 else cos_of (axis_vec m axis x) (axis_vec m axis y).
Proof.
  intros G NR NC A items. destruct (by_axis_ok m axis G A) as (a & E & L & V). exists (calc_cosine a). unfold compute_cosine. rewrite E. cbn [rbind]. rewrite (proj2 (has_cells_ok m G) (conj NR NC)). split; [reflexivity|]. fold items in L, V. split.
  - unfold calc_cosine. apply set_diag_shape. rewrite <- L. apply cosine_shape.
  - intros x y Ix Iy. rewrite sim_idx by assumption. rewrite calc_cosine_cell by (rewrite L; now apply idx_lt). rewrite idx_eqb, !V by assumption. reflexivity.
Qed.
Lemma compute_distance_ok other m axis : tgood m -> trows m <> [] -> tcols m <> [] -> axis = 0%Z \/ axis = 1%Z -> let items := axis_items m axis in
  exists a d, compute_cosine m axis = Ok (a, items) /\ compute_distance other m axis (u "cosine") = Ok (d, items) /\ shape (length items) (length items) d /\
    forall x y, In x items -> In y items -> sim_of (d, items) x y = 1 - sim_of (a, items) x y.
Proof.
  intros G NR NC A items. destruct (by_axis_ok m axis G A) as (a & E & L & V). exists (calc_cosine a), (calc_cosine_distance a). unfold compute_cosine, compute_distance. rewrite E. cbn [rbind].
  rewrite (proj2 (has_cells_ok m G) (conj NR NC)). split; [reflexivity|].
  split; [reflexivity|]. fold items in L, V. split.
  - unfold calc_cosine_distance. apply set_diag_shape. rewrite <- L. destruct (cosine_shape a) as (X & F). split; [now rewrite map_length|]. rewrite Forall_map. eapply Forall_impl; [|exact F]. intros. now rewrite map_length.
  - intros x y Ix Iy. rewrite !sim_idx by assumption. apply cosine_distance_cell; rewrite L; now apply idx_lt.
Qed.

(** ** Ranks of a whole array *)
Lemma simrank_ok reverse a n ranks : Forall (fun row => length row = n) a -> compute_simrank reverse a n ranks -> length ranks = length a /\
  forall i, (i < length a)%nat -> Permutation (nth i ranks []) (seq 1 n) /\
    forall j k, (j < n)%nat -> (k < n)%nat -> cell a i k < cell a i j ->
      if reverse then (nth k (nth i ranks []) 0 < nth j (nth i ranks []) 0)%nat else (nth j (nth i ranks []) 0 < nth k (nth i ranks []) 0)%nat.
Proof.
  intros F (ps & H & ->). assert (LK : length (simrank_keys reverse a) = length a) by (unfold simrank_keys; destruct reverse; [reflexivity|apply map_length]).
  assert (LP : length ps = length a) by (rewrite <- LK; clear - H; induction H; cbn; congruence). split; [unfold simrank; now rewrite map_length|]. intros i Li.
  assert (AS : argsort (nth i (simrank_keys reverse a) []) (nth i ps [])).
  { assert (G : forall l l', Forall2 argsort l l' -> (i < length l)%nat -> argsort (nth i l []) (nth i l' [])).
    { clear. intros l l' H. revert i. induction H; intros i L; [cbn in L; lia|]. destruct i; [assumption|]. cbn. apply IHForall2. cbn in L. lia. }
    apply G; [assumption|lia]. }
  assert (LN : length (nth i (simrank_keys reverse a) []) = n).
  { rewrite Forall_forall in F. unfold simrank_keys. destruct reverse; [now apply F, nth_In|]. rewrite (nth_map' _ _ _ []) by assumption. rewrite map_length. now apply F, nth_In. }
  unfold simrank. rewrite (nth_map' _ _ _ []) by lia. rewrite <- LN. split; [apply rank_row_perm, AS|]. intros j k Lj Lk Lt.
  assert (KE : forall j, (j < n)%nat -> nth j (nth i (simrank_keys reverse a) []) 0 = if reverse then cell a i j else - cell a i j).
  { intros x Lx. unfold simrank_keys, cell. destruct reverse; [reflexivity|]. rewrite (nth_map' _ _ _ []) by assumption. rewrite (nth_map' _ _ _ 0); [reflexivity|]. rewrite Forall_forall in F. rewrite F by now apply nth_In. assumption. }
  rewrite LN in Lj, Lk. pose proof (KE j Lj) as Kj. pose proof (KE k Lk) as Kk. destruct reverse; apply rank_row_order; try assumption; try lia; rewrite Kj, Kk; lra.
Qed.
Lemma simrank_exists reverse a n : exists ranks, compute_simrank reverse a n ranks.
Proof.
  exists (simrank (map sort_pos (simrank_keys reverse a)) n), (map sort_pos (simrank_keys reverse a)). split; [|reflexivity]. induction (simrank_keys reverse a); constructor; [apply argsort_exists|assumption].
Qed.

(** ** Norms of the token vectors *)
Lemma sumr_abs_div (l : list R) n : n <> 0 -> 0 <= n -> sumr (map (fun x => Rabs (x / n)) l) = sumr (map Rabs l) / n.
Proof.
  intros N P. induction l as [|x l IH]; [cbn; field; assumption|]. unfold sumr in *. cbn [map fold_right]. rewrite IH. unfold Rdiv at 1. rewrite Rabs_mult, (Rabs_inv n), (Rabs_right n) by lra. field. assumption.
Qed.
Lemma weighted_bounds {A} (l : list A) (wt v : A -> R) lo hi : (forall x, In x l -> 0 <= wt x) -> (forall x, In x l -> wt x <> 0 -> lo <= v x <= hi) ->
  lo * sumr (map wt l) <= sumr (map (fun x => wt x * v x) l) <= hi * sumr (map wt l).
Proof.
  induction l as [|x l IH]; intros P B; [cbn; lra|]. destruct IH as (I1 & I2); [intros; apply P; now right|intros y Iy; apply B; now right|].
  unfold sumr in *. cbn [map fold_right]. assert (Q : lo * wt x <= wt x * v x <= hi * wt x); [|lra]. pose proof (P x (or_introl eq_refl)). destruct (Req_EM_T (wt x) 0) as [E|N]; [rewrite E; lra|].
  specialize (B x (or_introl eq_refl) N). split; nra.
Qed.
