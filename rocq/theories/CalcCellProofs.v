(** * compute_association and compute_ppmi: which value lands in which cell. *)
From Coq Require Import String NArith ZArith Bool Arith Reals Lra Lia Psatz Permutation List.
From Verif Require Import Base BaseLemmas VocabModel MxModel MxSpec MxProofs MxTtmProofs MxOpsProofs MxCellProofs MxElemProofs CalcModel CalcSpec CalcProofs CalcProofs2.
Import ListNotations.

Lemma lookup_freq v k : fst (v_lookup v k) = match freq_of v k with Some f => Ok f | None => Err KeyError end.
Proof. unfold v_lookup, freq_of. destruct (dget (fd v) k); [reflexivity|]. now destruct (isdef v). Qed.
Lemma marginals_ok v items (F : pystr -> Z) : (forall k, In k items -> freq_of v k = Some (F k)) -> marginals v items = Ok (map F items).
Proof. intros H. apply rmapm_map. intros k I. now rewrite lookup_freq, H. Qed.
Lemma marginals_missing v items k : In k items -> freq_of v k = None -> marginals v items = Err KeyError.
Proof.
  intros I N. apply rmapm_err; [exists k; now rewrite lookup_freq, N|]. intros x _. rewrite lookup_freq. destruct (freq_of v x); eauto.
Qed.

(** A function on stored entries that keeps the position. *)
Section Cellwise.
  Context {V W : Type} {NV : Num V} {NW : Num W}.
  Variable g : nat * nat * V -> res (nat * nat * W).
  Hypothesis keep : forall e e', g e = Ok e' -> fst e' = fst e.

  Lemma rmapm_keep l l' : rmapm g l = Ok l' -> map fst l' = map fst l /\ forall e', In e' l' -> exists e, In e l /\ g e = Ok e'.
  Proof.
    revert l'. induction l as [|e l IH]; cbn; intros l' E; [inversion E; subst; split; [reflexivity|easy]|].
    destruct (g e) as [e1|] eqn:G; [|discriminate]. cbn in E. destruct (rmapm g l) as [l1|]; [|discriminate]. cbn in E. inversion E; subst.
    destruct (IH _ eq_refl) as (A & B). split; [cbn; now rewrite A, (keep _ _ G)|].
    intros e' [<-|I]; [exists e; auto|]. destruct (B _ I) as (x & Ix & Gx). exists x. auto.
  Qed.
  Lemma cellwise_ok (m : ttm V) es : tgood m -> rmapm g (entries (tmx m)) = Ok es ->
    let s := of_coo (nrows (tmx m)) (ncols (tmx m)) es in
    exists m', mk_ttm s (trows m) (tcols m) = Ok m' /\ tgood m' /\ trows m' = trows m /\ tcols m' = tcols m /\
      (forall r c, tstored m' r c <-> tstored m r c) /\
      (forall r c, ~ tstored m r c -> val m' r c = zero) /\
      forall r c, tstored m r c -> g (idx (trows m) r, idx (tcols m) c, val m r c) = Ok (idx (trows m) r, idx (tcols m) c, val m' r c).
  Proof.
    intros G E s. destruct (rmapm_keep _ _ E) as (K & B). destruct (of_coo_shape (nrows (tmx m)) (ncols (tmx m)) es) as (S1 & S2). fold s in S1, S2.
    assert (RG : in_range (nrows (tmx m)) (ncols (tmx m)) es).
    { pose proof (entries_range _ (tg_wf _ G)) as R. unfold in_range in *. rewrite Forall_forall in *. intros e' I.
      assert (J : In (fst e') (map fst (entries (tmx m)))) by (rewrite <- K; now apply in_map). apply in_map_iff in J as (e & Ee & Ie). rewrite <- Ee. now apply R. }
    exists (Ttm s (trows m) (tcols m)). split; [apply mk_ttm_ok; [rewrite S1; apply G|rewrite S2; apply G]|].
    assert (G' : tgood (Ttm s (trows m) (tcols m))).
    { split; cbn [tmx trows tcols]; [now apply of_coo_wf|rewrite S1; apply G|rewrite S2; apply G|apply G|apply G]. }
    assert (ST : forall r c, tstored (Ttm s (trows m) (tcols m)) r c <-> tstored m r c).
    { intros r c. unfold tstored. cbn [tmx trows tcols]. unfold s. rewrite of_coo_stored by assumption. unfold stored. now rewrite K. }
    split; [assumption|]. split; [reflexivity|]. split; [reflexivity|]. split; [assumption|]. split.
    - intros r c NS. rewrite <- ST in NS. destruct (in_dec eqdec r (trows m)) as [Ir|]; [|now apply val_no_row].
      destruct (in_dec eqdec c (tcols m)) as [Ic|]; [|now apply val_no_col]. rewrite val_idx by assumption. apply not_stored.
      intros S. apply NS. now repeat split.
    - intros r c S. destruct S as (Ir & Ic & S). unfold stored in S. rewrite <- K in S. apply in_map_iff in S as ([ij w] & Ee & I). cbn in Ee. subst ij.
      destruct (B _ I) as ([ij v] & Ie & Ge). pose proof (keep _ _ Ge) as Ke. cbn in Ke. subst ij.
      rewrite !val_idx by assumption. cbn [tmx trows tcols]. rewrite (entries_value _ _ _ v (tg_wf _ G) Ie).
      assert (VW : spget s (idx (trows m) r) (idx (tcols m) c) = w).
      { apply entries_value; [apply G'|]. unfold s. apply of_coo_In; [assumption| |assumption]. rewrite K. apply entries_NoDup, G. }
      rewrite VW. exact Ge.
  Qed.
  Lemma cellwise_runs (m : ttm V) (h : pystr -> pystr -> W) : tgood m ->
    (forall r c, tstored m r c -> g (idx (trows m) r, idx (tcols m) c, val m r c) = Ok (idx (trows m) r, idx (tcols m) c, h r c)) ->
    exists es, rmapm g (entries (tmx m)) = Ok es.
  Proof.
    intros G H. assert (A : forall e, In e (entries (tmx m)) -> exists y, g e = Ok y).
    { intros [[i j] v] I. pose proof (entries_range _ (tg_wf _ G)) as R. unfold in_range in R. rewrite Forall_forall in R. destruct (R _ I) as [Li Lj]. cbn in Li, Lj.
      rewrite (tg_rows _ G) in Li. rewrite (tg_cols _ G) in Lj.
      destruct (nth_error (trows m) i) as [r|] eqn:Er; [|now apply nth_error_None in Er; lia].
      destruct (nth_error (tcols m) j) as [c|] eqn:Ec; [|now apply nth_error_None in Ec; lia].
      pose proof (idx_of_nth _ _ _ (tg_nr _ G) Er) as Xi. pose proof (idx_of_nth _ _ _ (tg_nc _ G) Ec) as Xj.
      assert (Ir : In r (trows m)) by (eapply nth_error_In; eassumption). assert (Ic : In c (tcols m)) by (eapply nth_error_In; eassumption).
      assert (S : tstored m r c). { split; [assumption|]. split; [assumption|]. rewrite Xi, Xj. apply in_map_iff. now exists (i, j, v). }
      pose proof (H _ _ S) as E. rewrite val_idx in E by assumption. rewrite Xi, Xj in E. rewrite (entries_value _ _ _ v (tg_wf _ G) I) in E. eauto. }
    clear -A. induction (entries (tmx m)) as [|e l IH]; [cbn; eauto|]. cbn. destruct (A e) as (y & ->); [now left|]. cbn.
    destruct IH as (es & ->); [intros; apply A; now right|]. cbn. eauto.
  Qed.
  Lemma cellwise_fails (m : ttm V) e r c : tgood m -> tstored m r c -> g (idx (trows m) r, idx (tcols m) c, val m r c) = Err e ->
    exists e', rmapm g (entries (tmx m)) = Err e'.
  Proof.
    intros G S E. destruct (rmapm g (entries (tmx m))) as [es|e'] eqn:R; [|eauto]. exfalso.
    destruct (cellwise_ok m es G R) as (m' & _ & _ & _ & _ & _ & _ & H). specialize (H _ _ S). congruence.
  Qed.
End Cellwise.

Lemma at_idx {B} (F : pystr -> B) items k : In k items -> at_ (map F items) (idx items k) = Ok (F k).
Proof. intros I. unfold at_. rewrite nth_error_map, idx_nth by assumption. reflexivity. Qed.

Section Assoc.
  Variables (m : ttm Z) (nf cf : vocab) (F C : pystr -> Z).
  Hypothesis GM : tgood m.
  Hypothesis HF : forall r, In r (trows m) -> freq_of nf r = Some (F r).
  Hypothesis HC : forall c, In c (tcols m) -> freq_of cf c = Some (C c).

  Lemma calc_cell_keep f rs cs N e e' : calc_cell f rs cs N e = Ok e' -> fst e' = fst e.
  Proof.
    unfold calc_cell. destruct (at_ rs _); [|discriminate]. destruct (at_ cs _); [|discriminate]. cbn.
    destruct (f _ _ _ _); [|discriminate]. cbn. now intros [= <-].
  Qed.
  Lemma calc_cell_at f N r c x : In r (trows m) -> In c (tcols m) ->
    calc_cell f (map F (trows m)) (map C (tcols m)) N (idx (trows m) r, idx (tcols m) c, x) =
    rmap (fun y => (idx (trows m) r, idx (tcols m) c, y)) (of_table f x (F r) (C c) N).
  Proof.
    intros Ir Ic. unfold calc_cell. cbn [fst snd]. rewrite !at_idx by assumption. cbn [rbind]. unfold of_table.
    replace (N - (F r - x) - (C c - x) - x)%Z with (N - F r - C c + x)%Z by ring. reflexivity.
  Qed.
  Definition total_of (N : option Z) : Z :=
    match N with Some n => if (n =? 0)%Z then Z.max (v_sum nf) (v_sum cf) else n | None => Z.max (v_sum nf) (v_sum cf) end.

  Lemma association_ok N meas f (score : pystr -> pystr -> R) : dget func_dict meas = Some f ->
    (forall r c, tstored m r c -> of_table f (val m r c) (F r) (C c) (total_of N) = Ok (score r c)) ->
    exists m', compute_association m nf cf N meas = Ok m' /\ tgood m' /\ trows m' = trows m /\ tcols m' = tcols m /\
      (forall r c, tstored m' r c <-> tstored m r c) /\
      (forall r c, tstored m r c -> val m' r c = score r c) /\ (forall r c, ~ tstored m r c -> val m' r c = 0%R).
  Proof.
    intros EF ES. unfold compute_association. fold (total_of N). rewrite (marginals_ok _ _ F HF), (marginals_ok _ _ C HC). cbn [rbind].
    unfold calc_association. rewrite EF. set (g := calc_cell f (map F (trows m)) (map C (tcols m)) (total_of N)).
    assert (RUN : forall r c, tstored m r c -> g (idx (trows m) r, idx (tcols m) c, val m r c) = Ok (idx (trows m) r, idx (tcols m) c, score r c)).
    { intros r c S. unfold g. rewrite calc_cell_at by apply S. rewrite ES by assumption. reflexivity. }
    destruct (cellwise_runs g m score GM RUN) as (es & E). rewrite E. cbn [rmap rbind].
    destruct (cellwise_ok g (calc_cell_keep f _ _ _) m es GM E) as (m' & E' & G' & R' & C' & S' & Z' & V').
    exists m'. split; [exact E'|]. split; [assumption|]. split; [assumption|]. split; [assumption|]. split; [assumption|]. split; [|exact Z'].
    intros r c S. specialize (V' _ _ S). rewrite RUN in V' by assumption. now inversion V'.
  Qed.
  Lemma association_fails N meas f r c e : dget func_dict meas = Some f -> tstored m r c ->
    of_table f (val m r c) (F r) (C c) (total_of N) = Err e -> exists e', compute_association m nf cf N meas = Err e'.
  Proof.
    intros EF S E. unfold compute_association. fold (total_of N). rewrite (marginals_ok _ _ F HF), (marginals_ok _ _ C HC). cbn [rbind].
    unfold calc_association. rewrite EF. set (g := calc_cell f (map F (trows m)) (map C (tcols m)) (total_of N)).
    destruct (cellwise_fails g (calc_cell_keep f _ _ _) m e r c GM S) as (e' & E').
    { unfold g. rewrite calc_cell_at by apply S. now rewrite E. }
    exists e'. now rewrite E'.
  Qed.
  Lemma association_inv N meas f m' : dget func_dict meas = Some f -> compute_association m nf cf N meas = Ok m' ->
    tgood m' /\ trows m' = trows m /\ tcols m' = tcols m /\ (forall r c, tstored m' r c <-> tstored m r c) /\
    (forall r c, ~ tstored m r c -> val m' r c = 0%R) /\
    forall r c, tstored m r c -> of_table f (val m r c) (F r) (C c) (total_of N) = Ok (val m' r c).
  Proof.
    intros EF. unfold compute_association. fold (total_of N). rewrite (marginals_ok _ _ F HF), (marginals_ok _ _ C HC). cbn [rbind].
    unfold calc_association. rewrite EF. set (g := calc_cell f (map F (trows m)) (map C (tcols m)) (total_of N)).
    destruct (rmapm g (entries (tmx m))) as [es|] eqn:E; [|discriminate]. cbn [rmap rbind].
    destruct (cellwise_ok g (calc_cell_keep f _ _ _) m es GM E) as (m1 & E' & G' & R' & C' & S' & Z' & V'). rewrite E'. intros [= <-].
    repeat (split; [assumption|]). intros r c S. specialize (V' _ _ S). unfold g in V'. rewrite calc_cell_at in V' by apply S.
    destruct (of_table f _ _ _ _); [|discriminate]. cbn in V'. now inversion V'.
  Qed.
End Assoc.
Lemma association_unknown m nf cf N meas : dget func_dict meas = None ->
  (forall r, In r (trows m) -> freq_of nf r <> None) -> (forall c, In c (tcols m) -> freq_of cf c <> None) ->
  compute_association m nf cf N meas = Err NotImplementedError.
Proof.
  intros E HF HC. unfold compute_association.
  rewrite (marginals_ok nf _ (fun r => match freq_of nf r with Some x => x | None => 0%Z end)) by (intros k I; specialize (HF k I); now destruct (freq_of nf k)).
  rewrite (marginals_ok cf _ (fun r => match freq_of cf r with Some x => x | None => 0%Z end)) by (intros k I; specialize (HC k I); now destruct (freq_of cf k)).
  cbn [rbind]. unfold calc_association. now rewrite E.
Qed.
Lemma marginals_dec v items : (exists k, In k items /\ freq_of v k = None) \/ (forall k, In k items -> freq_of v k <> None).
Proof.
  induction items as [|x l [(k & I & N)|H]]; [right; easy|left; exists k; cbn; auto|].
  destruct (freq_of v x) eqn:E; [right|left; exists x; cbn; auto]. intros k [<-|I]; [congruence|auto].
Qed.
Lemma association_missing m nf cf N meas : (exists r, In r (trows m) /\ freq_of nf r = None) \/ (exists c, In c (tcols m) /\ freq_of cf c = None) ->
  compute_association m nf cf N meas = Err KeyError.
Proof.
  intros H. unfold compute_association. destruct (marginals_dec nf (trows m)) as [(k & I & E)|A].
  - now rewrite (marginals_missing _ _ _ I E).
  - rewrite (marginals_ok nf _ (fun r => match freq_of nf r with Some x => x | None => 0%Z end)) by (intros k I; specialize (A k I); now destruct (freq_of nf k)).
    destruct H as [(r & I & E)|(c & I & E)]; [exfalso; now apply (A r)|]. cbn [rbind]. now rewrite (marginals_missing _ _ _ I E).
Qed.
(** The order in which the vocabularies list their items is irrelevant. *)
Lemma association_order m nf nf' cf cf' N meas : dwf (fd nf) -> dwf (fd cf) ->
  Permutation (fd nf) (fd nf') -> Permutation (fd cf) (fd cf') -> isdef nf = isdef nf' -> isdef cf = isdef cf' ->
  compute_association m nf cf N meas = compute_association m nf' cf' N meas.
Proof.
  intros W1 W2 P1 P2 D1 D2. unfold compute_association.
  assert (S1 : v_sum nf = v_sum nf') by (unfold v_sum; apply sumZ_perm, Permutation_map, P1).
  assert (S2 : v_sum cf = v_sum cf') by (unfold v_sum; apply sumZ_perm, Permutation_map, P2).
  assert (M : forall v v' l, dwf (fd v) -> Permutation (fd v) (fd v') -> isdef v = isdef v' -> marginals v l = marginals v' l).
  { intros v v' l W P D. unfold marginals. induction l as [|k l IH]; [reflexivity|]. cbn. rewrite IH, !lookup_freq. unfold freq_of.
    now rewrite (dget_perm _ _ W P k), D. }
  now rewrite S1, S2, (M nf nf'), (M cf cf').
Qed.

(** ** Marginals of a reference matrix *)
Lemma sumv_Z (l : list Z) : sumv l = sumZ l.
Proof. induction l as [|x l IH]; [reflexivity|]. change (sumv (x :: l)) with (x + sumv l)%Z. rewrite IH. reflexivity. Qed.
Lemma sumZ_member (l : list Z) x : (forall y, In y l -> 0 <= y)%Z -> In x l -> (x <= sumZ l)%Z.
Proof.
  induction l as [|a l IH]; [easy|]. intros P. cbn [sumZ]. assert (0 <= sumZ l)%Z.
  { clear -P. induction l as [|b l IH]; cbn [sumZ]; [lia|]. assert (0 <= b)%Z by (apply P; cbn; auto). assert (0 <= sumZ l)%Z; [|lia].
    apply IH. intros y [->|I]; apply P; cbn; auto. }
  intros [->|I]; [lia|]. assert (0 <= a)%Z by (apply P; cbn; auto). assert (x <= sumZ l)%Z; [|lia]. apply IH; [intros; apply P; cbn; auto|assumption].
Qed.
Lemma sumZ_map_sub {A} (f g : A -> Z) l : sumZ (map (fun x => f x - g x)%Z l) = (sumZ (map f l) - sumZ (map g l))%Z.
Proof. induction l as [|a l IH]; cbn [map sumZ]; [reflexivity|]. rewrite IH. ring. Qed.
Lemma reference_bounds (ref : ttm Z) r c : tgood ref -> (forall r c, 0 <= val ref r c)%Z -> In r (trows ref) -> In c (tcols ref) ->
  (val ref r c <= row_total ref r)%Z /\ (val ref r c <= col_total ref c)%Z /\ (row_total ref r + col_total ref c - val ref r c <= tt_total ref)%Z.
Proof.
  intros G P Ir Ic. assert (A : forall r' , (val ref r' c <= row_total ref r')%Z).
  { intros r'. unfold row_total. rewrite sumv_Z. apply sumZ_member; [intros y I; apply in_map_iff in I as (? & <- & _); apply P|]. apply in_map_iff. eauto. }
  split; [apply A|]. split.
  - unfold col_total. rewrite sumv_Z. apply sumZ_member; [intros y I; apply in_map_iff in I as (? & <- & _); apply P|]. apply in_map_iff. exists r. auto.
  - rewrite (proj1 (tt_total_ok ref G)). rewrite sumv_Z.
    assert (B : (row_total ref r - val ref r c <= sumZ (map (fun r' => row_total ref r' - val ref r' c)%Z (trows ref)))%Z).
    { apply sumZ_member; [intros y I; apply in_map_iff in I as (r' & <- & _); specialize (A r'); lia|]. apply in_map_iff. exists r. auto. }
    rewrite sumZ_map_sub in B. unfold col_total. rewrite sumv_Z. lia.
Qed.
Lemma dict_sum (d : dict pystr Z) : dwf d -> forall (F : pystr -> Z), (forall k, In k (dkeys d) -> dget d k = Some (F k)) -> sumZ (dvals d) = sumZ (map F (dkeys d)).
Proof.
  intros W F H. f_equal. unfold dvals, dkeys. rewrite map_map. apply map_ext_in. intros [k x] I. cbn.
  assert (E : dget d k = Some x) by now apply dget_In. rewrite H in E; [now inversion E|]. apply in_map_iff. now exists (k, x).
Qed.
Lemma mem_true {A} `{EqDec A} (x : A) l : In x l -> mem x l = true.
Proof. apply mem_In. Qed.
Lemma tt_sum_dwf (ref : ttm Z) ax d : tgood ref -> tt_sum ref ax = Ok d -> dkeys d = (if ax then trows ref else tcols ref) /\ dwf d /\
  forall k, dget d k = if mem k (if ax then trows ref else tcols ref) then Some (if ax then row_total ref k else col_total ref k) else None.
Proof.
  intros G E. destruct (Nat.eq_dec (length (if ax then trows ref else tcols ref)) 1) as [L|L]; [rewrite tt_sum_single in E by assumption; discriminate|].
  destruct (tt_sum_ok ref ax G L) as (d' & E' & K & Q). rewrite E in E'. inversion E'; subst d'. split; [assumption|]. split; [|assumption].
  unfold dwf. rewrite K. destruct ax; apply G.
Qed.
Lemma reference_total (ref : ttm Z) d1 d2 : tgood ref -> tt_sum ref true = Ok d1 -> tt_sum ref false = Ok d2 ->
  v_sum (vocab_init false d1) = tt_total ref /\ v_sum (vocab_init false d2) = tt_total ref.
Proof.
  intros G E1 E2. destruct (tt_sum_dwf _ _ _ G E1) as (K1 & W1 & Q1). destruct (tt_sum_dwf _ _ _ G E2) as (K2 & W2 & Q2). destruct (tt_total_ok ref G) as (T1 & T2).
  split; unfold v_sum; cbn [fd vocab_init].
  - rewrite T1. etransitivity; [|symmetry; apply sumv_Z]. rewrite (dict_sum d1 W1 (row_total ref)); [now rewrite K1|]. intros k I. rewrite Q1, mem_true; [reflexivity|]. now rewrite K1 in I.
  - rewrite T2. etransitivity; [|symmetry; apply sumv_Z]. rewrite (dict_sum d2 W2 (col_total ref)); [now rewrite K2|]. intros k I. rewrite Q2, mem_true; [reflexivity|]. now rewrite K2 in I.
Qed.
Lemma reference_tables (ref m : ttm Z) d1 d2 meas f m' : tgood ref -> tgood m -> (forall r c, 0 <= val ref r c)%Z ->
  incl (trows m) (trows ref) -> incl (tcols m) (tcols ref) -> (forall r c, In r (trows m) -> In c (tcols m) -> val m r c = val ref r c) ->
  tt_sum ref true = Ok d1 -> tt_sum ref false = Ok d2 -> dget func_dict meas = Some f ->
  compute_association m (vocab_init false d1) (vocab_init false d2) None meas = Ok m' ->
  forall r c, tstored m r c -> exists o11 o21 o12 o22 : Z,
    (0 <= o11 /\ 0 <= o21 /\ 0 <= o12 /\ 0 <= o22)%Z /\ o11 = val ref r c /\
    (o11 + o12 = row_total ref r /\ o11 + o21 = col_total ref c /\ o11 + o21 + o12 + o22 = tt_total ref)%Z /\
    f (IZR o11) (IZR o21) (IZR o12) (IZR o22) = Ok (val m' r c).
Proof.
  intros GR GM P IR IC EV E1 E2 EF EM r c S. destruct (tt_sum_dwf _ _ _ GR E1) as (K1 & W1 & Q1). destruct (tt_sum_dwf _ _ _ GR E2) as (K2 & W2 & Q2).
  destruct (reference_total _ _ _ GR E1 E2) as (T1 & T2). destruct S as (Ir & Ic & S).
  destruct (association_inv m (vocab_init false d1) (vocab_init false d2) (row_total ref) (col_total ref) GM) with (N := @None Z) (meas := meas) (f := f) (m' := m') as (_ & _ & _ & _ & _ & V); try assumption.
  - intros k I. unfold freq_of. cbn [fd isdef vocab_init]. rewrite Q1, mem_true by auto. reflexivity.
  - intros k I. unfold freq_of. cbn [fd isdef vocab_init]. rewrite Q2, mem_true by auto. reflexivity.
  - unfold total_of in V. rewrite T1, T2, Z.max_id in V. specialize (V r c (conj Ir (conj Ic S))). unfold of_table in V.
    destruct (reference_bounds ref r c GR P (IR _ Ir) (IC _ Ic)) as (B1 & B2 & B3). rewrite EV in V by assumption. specialize (P r c).
    exists (val ref r c), (col_total ref c - val ref r c)%Z, (row_total ref r - val ref r c)%Z, (tt_total ref - row_total ref r - col_total ref c + val ref r c)%Z.
    split; [lia|]. split; [reflexivity|]. split; [lia|]. exact V.
Qed.

(** ** compute_ppmi *)
Local Open Scope R_scope.
Lemma flog_guard x : 0 <= x -> flog (if Req_EM_T x 0 then 1 else x) = Ok (if Req_EM_T x 0 then 0 else ln x).
Proof. intros H. destruct (Req_EM_T x 0); [rewrite flog_ok by lra; now rewrite ln_1|apply flog_ok; lra]. Qed.
Section Ppmi.
  Variables (m : ttm Z) (nf : vocab) (cfreq : option vocab) (F C : pystr -> Z).
  Hypothesis GM : tgood m.
  Hypothesis HF : forall r, In r (trows m) -> freq_of nf r = Some (F r).
  Hypothesis HC : match cfreq with
                  | Some cf => forall c, In c (tcols m) -> freq_of cf c = Some (C c)
                  | None => length (tcols m) <> 1%nat /\ forall c, C c = col_total m c
                  end.
  Let tot := v_sum nf.
  Definition pmi_value (positive : bool) (c r cc n : Z) : R :=
    if (0 <? c * n)%Z && (0 <? r * cc)%Z then let p := ideal_pmi (IZR c) (IZR r) (IZR cc) (IZR n) in if positive then Rmax 0 p else p else 0.
  Lemma ppmi_cell_keep p rs cs N e e' : ppmi_cell p rs cs N e = Ok e' -> fst e' = fst e.
  Proof.
    unfold ppmi_cell. destruct (at_ rs _); [|discriminate]. destruct (cs _); [|discriminate]. cbn [rbind].
    destruct (flog _); [|discriminate]. cbn. now intros [= <-].
  Qed.
  Lemma compute_ppmi_ok positive : (forall r c, tstored m r c -> 0 <= val m r c * tot)%Z ->
    exists m', compute_ppmi m (Some nf) cfreq positive = Ok m' /\ tgood m' /\ trows m' = trows m /\ tcols m' = tcols m /\
      (forall r c, tstored m' r c <-> tstored m r c) /\ (forall r c, ~ tstored m r c -> val m' r c = 0) /\
      forall r c, tstored m r c -> val m' r c = pmi_value positive (val m r c) (F r) (C c) tot.
  Proof.
    intros P. unfold compute_ppmi. rewrite (marginals_ok _ _ F HF). cbn [rbind]. fold tot.
    set (CS := match cfreq with None => _ | Some cf => _ end).
    assert (ECS : exists cs, CS = Ok cs /\ forall c, In c (tcols m) -> cs (idx (tcols m) c) = Ok (C c)).
    { unfold CS. destruct cfreq as [cf|].
      - rewrite (marginals_ok _ _ C HC). eexists. split; [reflexivity|]. intros c I. now apply at_idx.
      - destruct HC as (N1 & EC). eexists. split; [reflexivity|]. intros c I. rewrite (tg_cols _ GM), (proj2 (Nat.eqb_neq _ _) N1).
        rewrite <- (tg_cols _ GM). rewrite col_sum_items by assumption. rewrite EC. now apply (at_idx (col_total m)). }
    destruct ECS as (cs & -> & ECS). cbn [rbind]. set (g := ppmi_cell positive (map F (trows m)) cs tot).
    assert (RUN : forall r c, tstored m r c -> g (idx (trows m) r, idx (tcols m) c, val m r c) =
      Ok (idx (trows m) r, idx (tcols m) c, pmi_value positive (val m r c) (F r) (C c) tot)).
    { intros r c S. unfold g, ppmi_cell. cbn [fst snd]. destruct S as (Ir & Ic & S0). rewrite at_idx, ECS by assumption. cbn [rbind].
      pose proof (P r c (conj Ir (conj Ic S0))) as P0. unfold pmi_value. set (x := val m r c) in *.
      destruct (Z.ltb_spec 0 (F r * C c)) as [L|L].
      - apply IZR_lt in L. rewrite andb_true_r. rewrite <- mult_IZR. destruct (Z.ltb_spec 0 (x * tot)) as [L'|L'].
        + apply IZR_lt in L'. assert (Q : 0 < IZR (x * tot) / IZR (F r * C c)) by now apply div_pos. rewrite flog_guard by lra.
          destruct (Req_EM_T (IZR (x * tot) / IZR (F r * C c)) 0); [lra|]. cbn [rmap]. unfold ideal_pmi. rewrite <- !mult_IZR. do 2 f_equal.
          destruct positive; [|reflexivity]. set (l := ln _). destruct (Rlt_dec l 0); [rewrite Rmax_left by lra|rewrite Rmax_right by lra]; reflexivity.
        + assert (Z0 : (x * tot = 0)%Z) by lia. rewrite Z0. replace (0 / IZR (F r * C c)) with 0 by (field; lra). rewrite flog_guard by lra.
          destruct (Req_EM_T 0 0); [|lra]. cbn [rmap]. do 2 f_equal. destruct positive; [|reflexivity]. destruct (Rlt_dec 0 0); reflexivity.
      - rewrite andb_false_r. rewrite flog_guard by lra. destruct (Req_EM_T 0 0); [|lra]. cbn [rmap]. do 2 f_equal. destruct positive; [|reflexivity]. destruct (Rlt_dec 0 0); reflexivity. }
    destruct (cellwise_runs g m (fun r c => pmi_value positive (val m r c) (F r) (C c) tot) GM RUN) as (es & E). rewrite E. cbn [rbind].
    destruct (cellwise_ok g (ppmi_cell_keep positive _ _ _) m es GM E) as (m' & E' & G' & R' & C' & S' & Z' & V').
    exists m'. split; [exact E'|]. split; [assumption|]. split; [assumption|]. split; [assumption|]. split; [assumption|]. split; [exact Z'|].
    intros r c S. specialize (V' _ _ S). rewrite RUN in V' by assumption. now inversion V'.
  Qed.
End Ppmi.
Lemma pmi_value_nonneg c r cc n : 0 <= pmi_value true c r cc n.
Proof. unfold pmi_value. destruct (_ && _)%bool; [apply Rmax_l|lra]. Qed.
Lemma pmi_value_pos c r cc n : (0 <= r)%Z -> (0 <= cc)%Z -> (0 < pmi_value true c r cc n <-> (r * cc < c * n)%Z /\ (0 < r)%Z /\ (0 < cc)%Z).
Proof.
  intros Hr Hc. unfold pmi_value. destruct (Z.ltb_spec 0 (c * n)) as [L|L]; cbn [andb].
  - destruct (Z.ltb_spec 0 (r * cc)) as [K|K].
    + unfold ideal_pmi. rewrite <- !mult_IZR. pose proof (IZR_lt _ _ L). pose proof (IZR_lt _ _ K). split.
      * intros Q. assert (0 < ln (IZR (c * n) / IZR (r * cc))) as Q1 by (unfold Rmax in Q; destruct (Rle_dec 0 _) in Q; lra).
        split; [|nia]. destruct (Z.lt_ge_cases (r * cc) (c * n)) as [|W]; [assumption|]. apply IZR_le in W.
        pose proof (ln_nonpos (IZR (c * n) / IZR (r * cc))) as NP. assert (IZR (c * n) / IZR (r * cc) <= 1) by now apply div_le_1.
        assert (0 < IZR (c * n) / IZR (r * cc)) by now apply div_pos. lra.
      * intros (W & _ & _). apply IZR_lt in W. rewrite Rmax_right; [apply ln_pos|apply Rlt_le, ln_pos];
        apply (Rmult_lt_reg_r (IZR (r * cc))); try assumption; unfold Rdiv; rewrite Rmult_assoc, Rinv_l, Rmult_1_r by lra; lra.
    + split; [lra|]. intros (_ & A & B). nia.
  - split; [lra|]. intros (A & B & D). nia.
Qed.
Lemma pmi_value_ideal c r cc n : (0 < n)%Z -> (0 <= c <= r)%Z -> (c <= cc)%Z -> pmi_value true c r cc n = ideal_ppmi (IZR c) (IZR r) (IZR cc) (IZR n).
Proof.
  intros Hn Hr Hc. unfold pmi_value, ideal_ppmi. destruct (Rlt_dec 0 (IZR c)) as [P|P].
  - apply lt_IZR in P. assert (A : (0 < c * n)%Z) by nia. assert (B : (0 < r * cc)%Z) by nia. apply Z.ltb_lt in A, B. now rewrite A, B.
  - assert (~ (0 < c)%Z) by (intros K; apply P; now apply IZR_lt). assert (A : (c * n <= 0)%Z) by nia. apply Z.ltb_ge in A. now rewrite A.
Qed.

(** ** The measures by name *)
Lemma textbook_scores : forall meas g, In (meas, g) textbook -> exists f, dget func_dict meas = Some f /\
  forall o11 o21 o12 o22, 0 < o11 -> 0 < o21 -> 0 < o12 -> 0 < o22 ->
  let N := o11 + o21 + o12 + o22 in
  o11 * N <> (o11 + o12) * (o11 + o21) -> (o11 + o12) * (o11 + o21) <> N ->
  f o11 o21 o12 o22 = Ok (g o11 o21 o12 o22).
Proof.
  assert (PMI : forall o11 o21 o12 o22, 0 < o11 -> 0 < o21 -> 0 < o12 -> 0 < o22 -> let N := o11 + o21 + o12 + o22 in
    o11 * N <> (o11 + o12) * (o11 + o21) -> (o11 + o12) * (o11 + o21) <> N ->
    calc_pmi o11 o21 o12 o22 = Ok (ideal_pmi o11 (o11 + o12) (o11 + o21) N)).
  { intros o11 o21 o12 o22 A B C D N H1 H2. assert (PN : 0 < N) by (unfold N; lra). assert (PE : 0 < (o11 + o12) * (o11 + o21)) by (apply Rmult_lt_0_compat; lra).
    assert (PD : 0 < (o11 + o12) * (o11 + o21) / N) by now apply Rdiv_lt_0_compat.
    rewrite calc_pmi_eq; [|lra|fold N; lra|lra]. fold N. rewrite (adjust_id ((o11 + o12) * (o11 + o21) / N)).
    - rewrite adjust_id; [unfold ideal_pmi; do 2 f_equal; field; lra| |].
      + apply Rgt_not_eq, Rdiv_lt_0_compat; lra.
      + intros E. apply H1. apply (f_equal (fun x => x * ((o11 + o12) * (o11 + o21)))) in E. replace (o11 / ((o11 + o12) * (o11 + o21) / N) * ((o11 + o12) * (o11 + o21))) with (o11 * N) in E by (field; lra). lra.
    - lra.
    - intros E. apply H2. apply (f_equal (fun x => x * N)) in E. replace ((o11 + o12) * (o11 + o21) / N * N) with ((o11 + o12) * (o11 + o21)) in E by (field; lra). lra. }
  assert (LIK : forall o11 o21 o12 o22, 0 < o11 -> 0 < o21 -> 0 < o12 -> 0 < o22 -> calc_lik o11 o21 o12 o22 = Ok (G2 o11 o21 o12 o22)).
  { intros o11 o21 o12 o22 A B C D. destruct (lik_close o11 o21 o12 o22) as (x & E & _ & Q); try lra. rewrite E, Q by assumption. reflexivity. }
  intros meas g I. unfold textbook in I. cbn [In] in I. decompose [or] I; clear I; try contradiction;
    match goal with H : (_, _) = (_, _) |- _ => inversion H; subst meas g; clear H end; (eexists; split; [reflexivity|]); intros o11 o21 o12 o22 A B C D N H1 H2.
  - now apply PMI.
  - rewrite ppmi_of_pmi, PMI by assumption. reflexivity.
  - now apply LIK.
  - now apply LIK.
  - unfold calc_chisq. assert (0 < (o11 + o21) * (o11 + o12) * (o21 + o22) * (o12 + o22)) by (repeat apply Rmult_lt_0_compat; lra).
    rewrite fdiv_ok by lra. f_equal. cbv zeta. unfold expected. field. repeat split; lra.
  - unfold calc_zscore. rewrite fdiv_ok by lra. cbn [rbind]. assert (PD : 0 < (o11 + o21) * (o11 + o12) / (o11 + o21 + o12 + o22)) by (apply Rdiv_lt_0_compat; [apply Rmult_lt_0_compat; lra|lra]).
    rewrite fsqrt_ok by lra. cbn [rbind]. rewrite fdiv_ok by (apply Rgt_not_eq, sqrt_lt_R0; assumption). cbv zeta. unfold expected. now rewrite (Rmult_comm (o11 + o12)).
  - unfold calc_dice. now rewrite fdiv_ok by lra.
  - unfold calc_deltap. rewrite fdiv_ok by lra. cbn [rbind]. now rewrite fdiv_ok by lra.
  - unfold calc_deltap_coll. rewrite fdiv_ok by lra. cbn [rbind]. now rewrite fdiv_ok by lra.
  - unfold calc_log_ratio. destruct (Req_EM_T o21 0); [lra|]. rewrite fdiv_ok by lra. cbn [rbind]. rewrite fdiv_ok by lra. cbn [rbind].
    assert (P1 : 0 < o11 / (o11 + o12)) by (apply Rdiv_lt_0_compat; lra). assert (P2 : 0 < o21 / (o21 + o22)) by (apply Rdiv_lt_0_compat; lra). rewrite fdiv_ok by lra. cbn [rbind].
    assert (P3 : 0 < o11 / (o11 + o12) / (o21 / (o21 + o22))) by (apply Rdiv_lt_0_compat; lra). rewrite adjust_id; [now apply flog_ok|lra|].
    intros E. apply H1. apply (f_equal (fun x => x * (o21 * (o11 + o12)))) in E. replace (o11 / (o11 + o12) / (o21 / (o21 + o22)) * (o21 * (o11 + o12))) with (o11 * (o21 + o22)) in E by (field; lra). unfold N. lra.
Qed.
