(** * Proofs about token matrices. *)
From Coq Require Import String NArith ZArith Bool Arith Lia Permutation List.
From Verif Require Import Base BaseLemmas Str StrLemmas VocabModel TermsModel CorpusModel CorpusSpec MxModel MxSpec MxTtmProofs MxOpsProofs
  TokMxModel TokMxSpec DepMatchProofs TermsProofs.
Import ListNotations.
Local Open Scope nat_scope.

(** ** Lists *)
Lemma filter_filter_neq {A} `{EqDec A} (x : A) (f : A -> bool) l : filter (fun y => negb (eqb x y)) (filter f l) = filter f (filter (fun y => negb (eqb x y)) l).
Proof. induction l as [|y l IH]; [reflexivity|]. cbn [filter]. destruct (f y) eqn:F, (negb (eqb x y)) eqn:G; cbn [filter]; rewrite ?F, ?G, ?IH; reflexivity. Qed.
Lemma dedup_snoc {A} `{EqDec A} (x : A) l : dedup (l ++ [x]) = if mem x l then dedup l else dedup l ++ [x].
Proof.
  induction l as [|y l IH]; [reflexivity|]. cbn [app dedup]. rewrite IH. cbn [mem existsb]. fold (mem x l).
  destruct (mem x l) eqn:M; [now rewrite orb_true_r|]. rewrite orb_false_r. rewrite filter_app. cbn [filter].
  destruct (eqdec x y) as [->|N].
  - rewrite !eqb_refl. cbn [negb]. now rewrite app_nil_r.
  - replace (eqb y x) with false by (symmetry; apply eqb_neq; congruence).
    replace (eqb x y) with false by (symmetry; apply eqb_neq; congruence). reflexivity.
Qed.
Lemma dkeys_dict_of {K X} `{EqDec K} (l : list (K * X)) : dkeys (dict_of l) = dedup (map fst l).
Proof.
  unfold dict_of. induction l as [|[k v] l IH] using rev_ind; [reflexivity|]. rewrite fold_left_app, map_app. cbn [fold_left map fst].
  rewrite dkeys_dset, dedup_snoc. destruct (dmem _ k) eqn:D.
  - apply dmem_In in D. rewrite IH in *. apply (proj1 (dedup_In _ _)) in D. now rewrite (proj2 (mem_In _ _) D).
  - apply dmem_nIn in D. rewrite IH in *. destruct (mem k (map fst l)) eqn:M; [|reflexivity]. apply mem_In in M. exfalso. apply D. now apply dedup_In.
Qed.
Lemma dget_app {K X} `{EqDec K} (a b : dict K X) k : dget (a ++ b) k = match dget a k with Some v => Some v | None => dget b k end.
Proof. induction a as [|[k' v] a IH]; cbn; [reflexivity|]. destruct (eqdec k k'); auto. Qed.
Lemma dget_dict_of {K X} `{EqDec K} (l : list (K * X)) k : dget (dict_of l) k = dget (rev l) k.
Proof. change (dict_of l) with (dupdate [] l). rewrite dget_dupdate. now destruct (dget (rev l) k). Qed.
Lemma dget_dict_of_last {K X} `{EqDec K} (a b : list (K * X)) k v : ~ In k (map fst b) -> dget (dict_of (a ++ (k, v) :: b)) k = Some v.
Proof.
  intros N. rewrite dget_dict_of, rev_app_distr. cbn [rev]. rewrite <- app_assoc, dget_app.
  replace (dget (rev b) k) with (@None X).
  - cbn. now destruct (eqdec k k).
  - symmetry. apply dget_None. unfold dkeys. rewrite map_rev. now rewrite <- in_rev.
Qed.

(** ** Positions *)
Fixpoint last_index {A} `{EqDec A} (c : A) (l : list A) : option nat :=
  match l with
  | [] => None
  | y :: l' => match last_index c l' with Some i => Some (S i) | None => if eqdec c y then Some 0 else None end
  end.
Lemma last_index_Some {A} `{EqDec A} (c : A) l i : last_index c l = Some i -> nth_error l i = Some c /\ forall j, nth_error l j = Some c -> j <= i.
Proof.
  revert i. induction l as [|y l IH]; cbn; intros i E; [discriminate|]. destruct (last_index c l) as [k|] eqn:L.
  - injection E as <-. destruct (IH k eq_refl) as [N B]. split; [exact N|]. intros [|j] Nj; [lia|]. cbn in Nj. specialize (B _ Nj). lia.
  - destruct (eqdec c y) as [->|]; [|discriminate]. injection E as <-. split; [reflexivity|]. intros [|j] Nj; [lia|]. cbn in Nj. exfalso.
    clear -L Nj. revert j Nj. induction l as [|z l IH]; intros j Nj; [destruct j; discriminate|]. cbn in L.
    destruct (last_index y l) eqn:E; [discriminate|]. destruct j; cbn in Nj; [injection Nj as ->; now destruct (eqdec y y)|]. eapply IH; eauto.
Qed.
Lemma last_index_None {A} `{EqDec A} (c : A) l : last_index c l = None <-> ~ In c l.
Proof.
  induction l as [|y l IH]; cbn; [tauto|]. destruct (last_index c l) as [k|] eqn:L.
  - split; [discriminate|]. intros N. exfalso. apply N. right. apply last_index_Some in L as [L _]. eapply nth_error_In; eauto.
  - destruct (eqdec c y); split; intros Q; try discriminate; try tauto; [subst; exfalso; apply Q; auto|]. intros [<-|I]; [congruence|]. now apply IH.
Qed.

Lemma fmt_join_written a f s : f <> [] -> (fmt_join a f = Ok s <-> written a f s).
Proof.
  intros Nf. split.
  - unfold fmt_join. intros E. destruct (rmapm _ (split slash f)) as [vs|] eqn:R; cbn [rbind] in E; [|discriminate].
    apply DepMatchProofs.rmapm_ok in R. apply DepMatchProofs.rmap_ok in E as (ws & W & ->). apply DepMatchProofs.rmapm_ok in W. split; [exact Nf|]. exists ws. split; [|reflexivity].
    revert ws W. induction R as [|c v cs vs E R IH]; intros ws W; inversion W; subst; constructor; auto.
    destruct (dget a c) as [o|]; [|discriminate]. injection E as ->. destruct v; [congruence|discriminate].
  - intros (_ & vs & F & ->). now apply TermsProofs.fmt_join_ok.
Qed.
Lemma to_colloc_string fmt n s : to_colloc n fmt = Ok s <-> colloc_string fmt n s.
Proof.
  unfold to_colloc, to_fmt, colloc_string. destruct fmt as [[|x f]|]; cbn [truthy].
  2: { split.
    - intros E. left. exists (x :: f). split; [reflexivity|]. now apply fmt_join_written.
    - intros [(f' & E & W)|([E|E] & _)]; [|discriminate|discriminate]. injection E as <-. now apply fmt_join_written. }
  all: split; [destruct (in_cfmt n) as [[|y g]|] eqn:C; try discriminate; intros E; right; split; [auto|]; exists (y :: g); split; [reflexivity|]; now apply fmt_join_written|].
  all: intros [(f' & E & (W & _))|(_ & f' & -> & W)]; [congruence|]; destruct f' as [|y g]; [now destruct W|]; now apply fmt_join_written.
Qed.
Lemma colloc_strings fmt l ls : Forall2 (colloc_string fmt) l ls <-> Forall2 (fun n s => to_colloc n fmt = Ok s) l ls.
Proof. split; intros F; induction F; constructor; auto; now apply to_colloc_string. Qed.
Lemma collocs_code fmt t ls rs : collocs_are fmt t ls rs <->
  Forall2 (fun n s => to_colloc n fmt = Ok s) (ct_l t) ls /\ Forall2 (fun n s => to_colloc n fmt = Ok s) (ct_r t) rs.
Proof. unfold collocs_are. now rewrite !colloc_strings. Qed.
Lemma posdict_aux fmt (pos : nat -> Z) l ls : Forall2 (fun n s => to_colloc n fmt = Ok s) l ls -> forall k d,
  exists d', rfold (fun d ic => rbind (to_colloc (snd ic) fmt) (fun s => Ok (dset d s (pos (fst ic))))) (combine (seq k (length l)) l) d = Ok d' /\
    (dwf d -> dwf d') /\
    forall c, dget d' c = match last_index c ls with Some i => Some (pos (k + i)) | None => dget d c end.
Proof.
  induction 1 as [|n s l ls E F IH]; intros k d; cbn [length seq combine rfold last_index].
  - exists d. auto.
  - cbn [snd fst]. rewrite E. cbn [rbind]. destruct (IH (S k) (dset d s (pos k))) as (d' & R & W & G). exists d'. split; [exact R|]. split.
    + intros Wd. apply W. now apply dwf_dset.
    + intros c. rewrite G. destruct (last_index c ls) as [i|]; [f_equal; f_equal; lia|]. rewrite dget_dset.
      destruct (eqdec c s); [|reflexivity]. f_equal. f_equal. lia.
Qed.
Lemma posdict_ok fmt pos l ls : Forall2 (fun n s => to_colloc n fmt = Ok s) l ls ->
  exists d, posdict fmt pos l = Ok d /\ dwf d /\ forall c, dget d c = option_map pos (last_index c ls).
Proof.
  intros F. destruct (posdict_aux fmt pos l ls F 0 []) as (d & R & W & G). exists d. split; [exact R|]. split; [apply W, dwf_nil|].
  intros c. rewrite G. cbn. now destruct (last_index c ls).
Qed.
Lemma posdict_inv fmt pos l d : posdict fmt pos l = Ok d -> exists ls, Forall2 (fun n s => to_colloc n fmt = Ok s) l ls.
Proof.
  unfold posdict, enum. generalize 0 at 1. generalize (@nil (pystr * Z)). revert d. induction l as [|n l IH]; intros d d0 k; cbn [length seq combine rfold].
  - intros _. exists []. constructor.
  - cbn [snd fst]. destruct (to_colloc n fmt) as [s|] eqn:E; cbn [rbind]; [|discriminate]. intros R. apply IH in R as (ls & F). exists (s :: ls). now constructor.
Qed.

(** The value that the code stores for a collocate *)
Definition code_pos (ls rs : list pystr) (c : pystr) : option Z :=
  match last_index c rs with
  | Some i => Some (Z.of_nat i + 1)%Z
  | None => option_map (fun i => (Z.of_nat i - Z.of_nat (length ls))%Z) (last_index c ls)
  end.
Lemma code_pos_rightmost ls rs c z : code_pos ls rs c = Some z -> rightmost ls rs c z.
Proof.
  unfold code_pos. destruct (last_index c rs) as [i|] eqn:R.
  - intros E. injection E as <-. apply last_index_Some in R as [N B]. split; [right; eauto|].
    intros z [(j & Nj & ->)|(j & Nj & ->)]; [|specialize (B _ Nj); lia].
    assert (j < length ls) by (apply nth_error_Some; congruence). lia.
  - destruct (last_index c ls) as [i|] eqn:L; cbn; [|discriminate]. intros E. injection E as <-.
    apply last_index_Some in L as [N B]. split; [left; eauto|]. intros z [(j & Nj & ->)|(j & Nj & ->)]; [specialize (B _ Nj); lia|].
    apply last_index_None in R. exfalso. apply R. eapply nth_error_In; eauto.
Qed.
Lemma code_pos_None ls rs c : code_pos ls rs c = None <-> ~ In c (ls ++ rs).
Proof.
  unfold code_pos. rewrite in_app_iff. destruct (last_index c rs) as [i|] eqn:R.
  - split; [discriminate|]. apply last_index_Some in R as [N _]. intros Q. exfalso. apply Q. right. eapply nth_error_In; eauto.
  - apply last_index_None in R. destruct (last_index c ls) as [i|] eqn:L; cbn.
    + split; [discriminate|]. apply last_index_Some in L as [N _]. intros Q. exfalso. apply Q. left. eapply nth_error_In; eauto.
    + apply last_index_None in L. tauto.
Qed.
Lemma code_pos_nonzero ls rs c : code_pos ls rs c <> Some 0%Z.
Proof.
  unfold code_pos. destruct (last_index c rs) as [i|]; [intros E; injection E as E; lia|]. destruct (last_index c ls) as [i|] eqn:L; cbn; [|discriminate].
  apply last_index_Some in L as [N _]. assert (i < length ls) by (apply nth_error_Some; congruence). intros E. injection E as E. lia.
Qed.

Lemma tok_row_ok fmt t ls rs : collocs_are fmt t ls rs -> exists row, tok_row fmt t = Ok row /\ dwf row /\ forall c, dget row c = code_pos ls rs c.
Proof.
  rewrite collocs_code. intros [Fl Fr]. unfold tok_row.
  destruct (posdict_ok fmt (fun i => (Z.of_nat i - Z.of_nat (length (ct_l t)))%Z) _ _ Fl) as (dl & -> & Wl & Gl).
  destruct (posdict_ok fmt (fun i => (Z.of_nat i + 1)%Z) _ _ Fr) as (dr & -> & Wr & Gr). cbn [rbind]. eexists. split; [reflexivity|].
  split; [now apply dwf_dupdate|]. intros c. rewrite dget_dupdate.
  assert (X : dget (rev dr) c = dget dr c).
  { symmetry. apply dget_perm; [assumption|]. apply Permutation_rev. }
  rewrite X, Gr, Gl. unfold code_pos. assert (L : length (ct_l t) = length ls) by (clear -Fl; induction Fl; cbn; congruence). rewrite L.
  destruct (last_index c rs); reflexivity.
Qed.
Lemma tok_row_inv fmt t row : tok_row fmt t = Ok row -> exists ls rs, collocs_are fmt t ls rs.
Proof.
  unfold tok_row. destruct (posdict fmt _ (ct_l t)) as [dl|] eqn:L; cbn [rbind]; [|discriminate].
  destruct (posdict fmt _ (ct_r t)) as [dr|] eqn:R; cbn [rbind]; [|discriminate]. intros _.
  apply posdict_inv in L as (ls & Fl). apply posdict_inv in R as (rs & Fr). exists ls, rs. apply collocs_code. split; assumption.
Qed.

(** ** tok2collocs *)
Definition t2c_step fmt (st : dict pystr (dict pystr Z) * list pystr) (t : ctok) :=
  rbind (tok_row fmt t) (fun row => rbind (ct_str t) (fun s => Ok (dset (fst st) s row, dedup (snd st ++ dkeys row)))).
Lemma t2c_inv fmt toks : forall st st', rfold (t2c_step fmt) toks st = Ok st' ->
  exists ss rows, Forall2 (fun t s => ct_str t = Ok s) toks ss /\ Forall2 (fun t row => tok_row fmt t = Ok row) toks rows /\
    fst st' = dupdate (fst st) (combine ss rows) /\ (NoDup (snd st) -> NoDup (snd st')) /\
    forall c, In c (snd st') <-> In c (snd st) \/ exists row, In row rows /\ In c (dkeys row).
Proof.
  induction toks as [|t toks IH]; intros st st' E; cbn [rfold] in E.
  - injection E as <-. exists [], []. repeat split; try constructor; auto; [intros [?|(r & [] & _)]; auto].
  - unfold t2c_step at 1 in E. destruct (tok_row fmt t) as [row|] eqn:R; cbn [rbind] in E; [|discriminate].
    destruct (ct_str t) as [s|] eqn:S; cbn [rbind] in E; [|discriminate]. apply IH in E as (ss & rows & F1 & F2 & D & N & C).
    exists (s :: ss), (row :: rows). cbn [fst snd] in *. repeat split; try (constructor; assumption).
    + rewrite D. reflexivity.
    + intros _. apply N. apply dedup_NoDup.
    + intros I. apply C in I as [I|(r & I & K)]; [|right; exists r; cbn; auto]. apply (proj1 (dedup_In _ _)) in I. apply in_app_iff in I as [I|I]; [auto|].
      right. exists row. cbn. auto.
    + intros [I|(r & [<-|I] & K)]; apply C; [left|left|right; eauto]; apply dedup_In, in_app_iff; auto.
Qed.
Lemma t2c_ok fmt toks : (forall t, In t toks -> printable fmt t) -> forall st, exists st', rfold (t2c_step fmt) toks st = Ok st'.
Proof.
  induction toks as [|t toks IH]; intros P st; cbn [rfold]; [eauto|]. destruct (P t (or_introl eq_refl)) as [(s & S) (ls & rs & C)].
  destruct (tok_row_ok _ _ _ _ C) as (row & R & _). unfold t2c_step at 1. rewrite R, S. cbn [rbind]. apply IH. intros; apply P; cbn; auto.
Qed.

Section Matrix.
  Context (order : list pystr -> list pystr).
  Hypothesis order_perm : forall l, Permutation l (order l).

  Lemma Forall2_In_l {A B} (R : A -> B -> Prop) l l' x : Forall2 R l l' -> In x l -> exists y, In y l' /\ R x y.
  Proof. induction 1; intros []; [subst; cbn; eauto|]. destruct IHForall2 as (z & I & Q); auto. exists z. cbn; auto. Qed.
  Lemma Forall2_In_r {A B} (R : A -> B -> Prop) l l' y : Forall2 R l l' -> In y l' -> exists x, In x l /\ R x y.
  Proof. induction 1; intros []; [subst; cbn; eauto|]. destruct IHForall2 as (z & I & Q); auto. exists z. cbn; auto. Qed.

  Lemma map_fst_combine {A B} (l : list A) (l' : list B) : length l = length l' -> map fst (combine l l') = l.
  Proof. revert l'. induction l as [|x l IH]; intros [|y l'] E; cbn in *; try lia; [reflexivity|]. f_equal. apply IH. lia. Qed.
  Lemma Forall2_length' {A B} (R : A -> B -> Prop) l l' : Forall2 R l l' -> length l = length l'.
  Proof. induction 1; cbn; congruence. Qed.

  Lemma t2c_facts fmt d D C : tok2collocs fmt (dvals d) = Ok (D, C) ->
    exists ss rows, Forall2 (fun t s => ct_str t = Ok s) (toks_of d) ss /\ Forall2 (fun t row => tok_row fmt t = Ok row) (toks_of d) rows /\
      D = dict_of (combine ss rows) /\ dkeys D = dedup ss /\ NoDup (dkeys D) /\ NoDup (order C) /\ mxwf D (dkeys D) (order C) /\
      (forall c, In c C <-> exists row, In row rows /\ In c (dkeys row)) /\
      (forall a t b s, toks_of d = a ++ t :: b -> ct_str t = Ok s -> (forall t', In t' b -> ct_str t' <> Ok s) ->
         exists ls rs, collocs_are fmt t ls rs /\ forall c, dget2 D s c = code_pos ls rs c) /\
      (forall r, In r (dkeys D) -> exists a t b, toks_of d = a ++ t :: b /\ ct_str t = Ok r /\ (forall t', In t' b -> ct_str t' <> Ok r)).
  Proof.
    intros E. destruct (t2c_inv fmt _ _ _ E) as (ss & rows & F1 & F2 & ED & N & HC). cbn [fst snd] in *. fold (toks_of d) in F1, F2. exists ss, rows.
    change (dupdate [] (combine ss rows)) with (dict_of (combine ss rows)) in ED.
    assert (Ls : length ss = length rows) by (rewrite <- (Forall2_length' _ _ _ F1), <- (Forall2_length' _ _ _ F2); reflexivity).
    assert (K : dkeys D = dedup ss) by (rewrite ED, dkeys_dict_of, map_fst_combine; auto).
    assert (W : dwf D) by (rewrite ED; apply dwf_dict_of).
    assert (HC' : forall c, In c C <-> exists row, In row rows /\ In c (dkeys row)).
    { intros c. rewrite HC. split; [intros [[]|Q]; exact Q|auto]. }
    assert (Q1 : forall r row, In (r, row) D -> exists t, In t (toks_of d) /\ tok_row fmt t = Ok row /\ In row rows).
    { intros r row I. apply dget_In in I; [|exact W]. rewrite ED, dget_dict_of in I. apply dget_Some_In in I. apply in_rev in I.
      apply in_combine_r in I. destruct (Forall2_In_r _ _ _ _ F2 I) as (t & It & Rt). eauto. }
    split; [exact F1|]. split; [exact F2|]. split; [exact ED|]. split; [exact K|]. split; [exact W|].
    split; [apply (Permutation_NoDup (order_perm C)); apply N; constructor|]. split; [|split; [exact HC'|split]].
    - split; [exact W|]. intros r row I. split; [apply in_map_iff; now exists (r, row)|]. destruct (Q1 _ _ I) as (t & It & Rt & Ir).
      destruct (tok_row_inv _ _ _ Rt) as (ls & rs & Cl). destruct (tok_row_ok _ _ _ _ Cl) as (row' & R' & W' & _).
      assert (row' = row) by congruence. subst row'. split; [exact W'|]. intros c Ic. apply (Permutation_in _ (order_perm C)). apply HC'. eauto.
    - intros a t b s Et Es Nb. rewrite Et in F1, F2. apply Forall2_app_inv_l in F1 as (sa & sb & Fa & Fb & ->).
      apply Forall2_app_inv_l in F2 as (ra & rb & Ga & Gb & ->). inversion Fb as [|? s' ? sb' Es' Fb']; subst. inversion Gb as [|? row ? rb' Er Gb']; subst.
      assert (s' = s) by congruence. subst s'. destruct (tok_row_inv _ _ _ Er) as (ls & rs & Cl). exists ls, rs. split; [exact Cl|].
      destruct (tok_row_ok _ _ _ _ Cl) as (row' & R' & _ & G). assert (row' = row) by congruence. subst row'. intros c.
      unfold dget2.
      assert (Lc : forall (x : list pystr) (y : list (dict pystr Z)) p q, length x = length y -> combine (x ++ p) (y ++ q) = combine x y ++ combine p q).
      { clear. induction x as [|x0 x IH]; intros [|y0 y] p q L; cbn in *; try lia; [reflexivity|]. f_equal. apply IH. lia. }
      rewrite Lc by (rewrite <- (Forall2_length' _ _ _ Fa), <- (Forall2_length' _ _ _ Ga); reflexivity). cbn [combine].
      rewrite dget_dict_of_last; [apply G|]. rewrite map_fst_combine by (rewrite <- (Forall2_length' _ _ _ Fb'), <- (Forall2_length' _ _ _ Gb'); reflexivity).
      intros I. destruct (Forall2_In_r _ _ _ _ Fb' I) as (t' & It & Q). now apply (Nb t').
    - intros r Ir. rewrite K in Ir. apply (proj1 (dedup_In _ _)) in Ir. clear -F1 Ir. revert ss F1 Ir. generalize (toks_of d). intros l. induction l as [|t l IH]; intros ss F I.
      + inversion F; subst. destruct I.
      + inversion F as [|? s ? ss' E F']; subst. destruct (in_dec (list_eq_dec N.eq_dec) r ss') as [J|J].
        * destruct (IH _ F' J) as (a & t' & b & -> & Et & Nb). exists (t :: a), t', b. auto.
        * destruct I as [<-|I]; [|tauto]. exists [], t, l. split; [reflexivity|]. split; [exact E|]. intros t' It Q.
          destruct (Forall2_In_l _ _ _ _ F' It) as (s' & Is & Es). apply J. rewrite Q in Es. injection Es as ->. exact Is.
  Qed.

  Lemma n2m_ok fmt d m : nodes_to_matrix order fmt d = Ok m ->
    exists D C, tok2collocs fmt (dvals d) = Ok (D, C) /\ trows m = dkeys D /\ tcols m = order C /\ tgood m /\ forall r c, val m r c = oz (dget2 D r c).
  Proof.
    unfold nodes_to_matrix. destruct (tok2collocs fmt (dvals d)) as [[D C]|] eqn:E; cbn [rbind fst snd]; [|discriminate]. intros Q.
    destruct (t2c_facts _ _ _ _ E) as (ss & rows & _ & _ & _ & _ & ND & NO & W & _).
    exists D, C. split; [reflexivity|].
    destruct (existsb (fun r : pystr * dict pystr Z => negb (length (snd r) =? 0)) D) eqn:X.
    - apply existsb_exists in X as ([r row] & Ir & L). destruct row as [|[c v] row]; [discriminate|].
      destruct (roundtrip D (dkeys D) (order C) ND NO W) as (s & d' & Es & Em & Gm & Vm & _).
      { exists r, c, v. unfold dget2. rewrite (proj1 (dget_In _ _ _ ND) Ir). cbn. now destruct (eqdec c c). }
      rewrite Es in Q. cbn [rbind] in Q. rewrite Em in Q. injection Q as <-. auto.
    - exfalso. rewrite dict_to_sp_empty in Q; [discriminate|assumption|assumption|assumption|]. intros r c. unfold dget2.
      destruct (dget D r) as [row|] eqn:G; [|reflexivity]. apply dget_Some_In in G. destruct row as [|e row]; [reflexivity|]. exfalso.
      assert (T : existsb (fun r : pystr * dict pystr Z => negb (length (snd r) =? 0)) D = true); [|congruence].
      apply existsb_exists. eexists. split; [exact G|]. reflexivity.
  Qed.
  Lemma n2m_empty fmt d D C : tok2collocs fmt (dvals d) = Ok (D, C) -> (forall r c, dget2 D r c = None) -> nodes_to_matrix order fmt d = Err ValueError.
  Proof.
    intros E Z0. unfold nodes_to_matrix. rewrite E. cbn [rbind fst snd].
    destruct (t2c_facts _ _ _ _ E) as (ss & rows & _ & _ & _ & _ & ND & NO & W & _). now rewrite dict_to_sp_empty.
  Qed.
  Lemma n2m_full fmt d D C r c v : tok2collocs fmt (dvals d) = Ok (D, C) -> dget2 D r c = Some v -> exists m, nodes_to_matrix order fmt d = Ok m.
  Proof.
    intros E G. unfold nodes_to_matrix. rewrite E. cbn [rbind fst snd].
    destruct (t2c_facts _ _ _ _ E) as (ss & rows & _ & _ & _ & _ & ND & NO & W & _).
    destruct (roundtrip D (dkeys D) (order C) ND NO W) as (s & d' & Es & Em & _); [eauto|]. rewrite Es. cbn [rbind]. rewrite Em. eauto.
  Qed.

  (** ** The claims *)
  Lemma token_matrix fmt d m : nodes_to_matrix order fmt d = Ok m ->
    tgood m /\
    (forall s, In s (trows m) <-> exists t, In t (toks_of d) /\ ct_str t = Ok s) /\
    (forall c, In c (tcols m) <-> exists t ls rs, In t (toks_of d) /\ collocs_are fmt t ls rs /\ In c (ls ++ rs)) /\
    forall t s, last_with d t s ->
      exists ls rs, collocs_are fmt t ls rs /\
        forall c, (In c (ls ++ rs) -> rightmost ls rs c (val m s c)) /\ (~ In c (ls ++ rs) -> val m s c = 0%Z).
  Proof.
    intros E. destruct (n2m_ok _ _ _ E) as (D & C & E' & Hr & Hc & G & V).
    destruct (t2c_facts _ _ _ _ E') as (ss & rows & F1 & F2 & ED & K & _ & _ & _ & HC & L & _). split; [exact G|]. split; [|split].
    - intros s. rewrite Hr, K, dedup_In. split.
      + intros I. destruct (Forall2_In_r _ _ _ _ F1 I) as (t & It & Q). eauto.
      + intros (t & It & Q). destruct (Forall2_In_l _ _ _ _ F1 It) as (s' & Is & Q'). cbn in Q'. rewrite Q in Q'. injection Q' as ->. exact Is.
    - intros c. rewrite Hc. assert (X : In c (order C) <-> In c C).
      { split; apply Permutation_in; [apply Permutation_sym|]; apply order_perm. }
      rewrite X, HC. split.
      + intros (row & Ir & Ic). destruct (Forall2_In_r _ _ _ _ F2 Ir) as (t & It & Q). cbn in Q. destruct (tok_row_inv _ _ _ Q) as (ls & rs & Cl).
        exists t, ls, rs. split; [exact It|]. split; [exact Cl|]. destruct (tok_row_ok _ _ _ _ Cl) as (row' & R' & _ & Gd).
        assert (row' = row) by congruence. subst row'. destruct (in_dec (list_eq_dec N.eq_dec) c (ls ++ rs)) as [J|J]; [exact J|].
        exfalso. apply code_pos_None in J. rewrite <- Gd in J. apply dget_None in J. now apply J.
      + intros (t & ls & rs & It & Cl & Ic). destruct (tok_row_ok _ _ _ _ Cl) as (row & R & _ & Gd).
        destruct (Forall2_In_l _ _ _ _ F2 It) as (row' & Ir & R'). cbn in R'. assert (row' = row) by congruence. subst row'. exists row. split; [exact Ir|].
        destruct (dget row c) as [v|] eqn:Q; [eapply dget_Some_key; exact Q|]. rewrite Gd in Q. apply code_pos_None in Q. contradiction.
    - intros t s (Es & a & b & Et & Nb). destruct (L a t b s Et Es Nb) as (ls & rs & Cl & Gd). exists ls, rs. split; [exact Cl|]. intros c. rewrite V, Gd. split.
      + intros I. destruct (code_pos ls rs c) as [z|] eqn:Q; [exact (code_pos_rightmost _ _ _ _ Q)|]. apply code_pos_None in Q. contradiction.
      + intros I. apply code_pos_None in I. now rewrite I.
  Qed.
  Lemma rightmost_nearest ls rs c z : rightmost ls rs c z -> (forall z1 z2, occurs ls rs c z1 -> occurs ls rs c z2 -> (z1 < z2)%Z -> (z2 < 0)%Z) -> nearest ls rs c z.
  Proof.
    intros [O B] U. split; [exact O|]. intros z' O'. specialize (B _ O'). destruct (Z.eq_dec z' z) as [->|N]; [lia|].
    assert ((z < 0)%Z) by (eapply U; eauto; lia). lia.
  Qed.
  Lemma tokens_outcome fmt d : (forall t, In t (toks_of d) -> printable fmt t) ->
    ((exists t s, last_with d t s /\ (ct_l t <> [] \/ ct_r t <> [])) -> exists m, nodes_to_matrix order fmt d = Ok m) /\
    ((forall t s, last_with d t s -> ct_l t = [] /\ ct_r t = []) -> nodes_to_matrix order fmt d = Err ValueError).
  Proof.
    intros P. destruct (t2c_ok fmt (toks_of d) P ([], [])) as ([D C] & E). change (tok2collocs fmt (dvals d) = Ok (D, C)) in E.
    destruct (t2c_facts _ _ _ _ E) as (ss & rows & F1 & F2 & ED & K & _ & _ & _ & HC & L & LR). split.
    - intros (t & s & (Es & a & b & Et & Nb) & Ne). destruct (L a t b s Et Es Nb) as (ls & rs & [Cl Cr] & Gd).
      assert (N : exists c, In c (ls ++ rs)).
      { destruct ls as [|c ls]; [|exists c; cbn; auto]. destruct rs as [|c rs]; [|exists c; cbn; auto].
        exfalso. inversion Cl as [Q1|]; inversion Cr as [Q2|]; subst. destruct Ne; congruence. }
      destruct N as (c & Ic). destruct (code_pos ls rs c) as [z|] eqn:Q; [|apply code_pos_None in Q; contradiction].
      apply (n2m_full fmt d D C s c z E). now rewrite Gd.
    - intros X. apply (n2m_empty fmt d D C E). intros r c. destruct (dget2 D r c) as [v|] eqn:Q; [|reflexivity]. exfalso.
      assert (Ir : In r (dkeys D)). { unfold dget2 in Q. destruct (dget D r) as [row|] eqn:Qr; [|discriminate]. eapply dget_Some_key; exact Qr. }
      destruct (LR r Ir) as (a & t & b & Et & Es & Nb). destruct (L a t b r Et Es Nb) as (ls & rs & [Cl Cr] & Gd). rewrite Gd in Q.
      destruct (X t r) as [Q1 Q2]; [split; eauto|]. rewrite Q1 in Cl. rewrite Q2 in Cr. inversion Cl; inversion Cr; subst. discriminate.
  Qed.
  Lemma row_last d fmt m s : nodes_to_matrix order fmt d = Ok m -> In s (trows m) -> exists t, last_with d t s.
  Proof.
    intros E I. destruct (n2m_ok _ _ _ E) as (D & C & E' & Hr & _). destruct (t2c_facts _ _ _ _ E') as (ss & rows & _ & _ & _ & _ & _ & _ & _ & _ & _ & LR).
    rewrite Hr in I. destruct (LR s I) as (a & t & b & Et & Es & Nb). exists t. split; eauto.
  Qed.
  Lemma rows_count d fmt m ss : nodes_to_matrix order fmt d = Ok m -> Forall2 (fun t s => ct_str t = Ok s) (toks_of d) ss -> trows m = dedup ss.
  Proof.
    intros E F. destruct (n2m_ok _ _ _ E) as (D & C & E' & Hr & _). destruct (t2c_facts _ _ _ _ E') as (ss' & rows & F1 & _ & _ & K & _).
    rewrite Hr, K. f_equal. clear -F F1. revert ss' F1. induction F as [|t s l ss Q F IH]; intros ss' F1; inversion F1; subst; [reflexivity|]. f_equal; [congruence|auto].
  Qed.
End Matrix.
