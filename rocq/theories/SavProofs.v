(** * Saved objects: attributes after saving, and the round trip. *)
From Coq Require Import String NArith ZArith Bool Arith Lia List.
From Verif Require Import Base BaseLemmas Str StrLemmas SavModel SavSpec.
Import ListNotations.
Local Open Scope string_scope.
Local Open Scope nat_scope.
Local Open Scope list_scope.

Section Gen.
  Context {A K Oth : Type}.
  Notation obj := (obj A K Oth).
  Notation heap := (heap A K Oth).
  Notation val := (val A K Oth).
  Notation restores := (restores A K Oth).

  Lemma upd_length (h : heap) a o : length (upd h a o) = length h.
  Proof. revert a. induction h as [|x h IH]; intros [|a]; cbn; auto. Qed.
  Lemma attrs_upd (h : heap) a o b : a < length h -> attrs (upd h a o) b = if b =? a then o else attrs h b.
  Proof.
    unfold attrs. revert a b. induction h as [|x h IH]; intros [|a] [|b] L; cbn in *; try lia; try reflexivity. apply IH. lia.
  Qed.
  Lemma attrs_upd_out (h : heap) a o : length h <= a -> upd h a o = h.
  Proof. revert a. induction h as [|x h IH]; intros [|a] L; cbn in *; try reflexivity; try lia. f_equal. apply IH. lia. Qed.
  Lemma attrs_out (h : heap) a : length h <= a -> attrs h a = [].
  Proof. intros L. unfold attrs. apply nth_overflow, L. Qed.
  Lemma attrs_upd_other (h : heap) a o b : b <> a -> attrs (upd h a o) b = attrs h b.
  Proof.
    intros N. destruct (Nat.lt_ge_cases a (length h)) as [L|L]; [|rewrite attrs_upd_out by exact L; reflexivity].
    rewrite attrs_upd by exact L. destruct (Nat.eqb_spec b a); [contradiction|reflexivity].
  Qed.

  Lemma dget_ddel (o : obj) x y : dget (ddel o x) y = if eqdec y x then None else dget o y.
  Proof.
    induction o as [|[k v] o IH]; [cbn; destruct (eqdec y x); reflexivity|]. unfold ddel in *. cbn [filter fst].
    destruct (eqb k x) eqn:E; cbn [negb].
    - apply (proj1 (eqb_eq _ _)) in E. subst k. rewrite IH. cbn [dget]. destruct (eqdec y x); reflexivity.
    - apply (proj1 (eqb_neq _ _)) in E. cbn [dget]. rewrite IH. destruct (eqdec y k) as [-> |]; [|reflexivity]. destruct (eqdec k x); [contradiction|reflexivity].
  Qed.
  Lemma dwf_ddel (o : obj) x : dwf o -> dwf (ddel o x).
  Proof. apply dwf_filter. Qed.
  Lemma ddel_incl (o : obj) x e : In e (ddel o x) -> In e o.
  Proof. intros I. apply filter_In in I. apply I. Qed.

  Lemma mem_same (y : pystr) l : mem y (y :: l) = true.
  Proof. apply mem_In. left. reflexivity. Qed.
  Lemma mem_other (x y : pystr) l : x <> y -> mem x (y :: l) = mem x l.
  Proof. intros N. destruct (mem x l) eqn:M; [apply mem_In; right; apply mem_In, M|]. apply mem_nIn. apply mem_nIn in M. intros [-> |X]; contradiction. Qed.

  (** set_aside *)
  Lemma set_aside_gen l : forall (as0 o : obj), dwf as0 ->
    let r := fold_left (fun ao x => match dget (snd ao) x with Some v => (dset (fst ao) x v, ddel (snd ao) x) | None => ao end) l (as0, o) in
    dwf (fst r) /\ (dwf o -> dwf (snd r)) /\ (forall e, In e (snd r) -> In e o) /\
    (forall x, dget (snd r) x = if mem x l then None else dget o x) /\
    (forall x, dget (fst r) x = if mem x l then match dget o x with Some v => Some v | None => dget as0 x end else dget as0 x).
  Proof.
    induction l as [|y l IH]; intros as0 o W; cbn [fold_left]; cbv zeta.
    - cbn [fst snd]. repeat split; auto.
    - cbn [fst snd]. destruct (dget o y) as [v|] eqn:E; cbn [fst snd].
      + destruct (IH (dset as0 y v) (ddel o y) (dwf_dset _ _ _ W)) as (I1 & I2 & I3 & I4 & I5). split; [exact I1|]. split; [intros Wo; apply I2, dwf_ddel, Wo|].
        split; [intros e I; apply I3 in I; apply ddel_incl in I; exact I|]. split; intros x.
        * rewrite I4, dget_ddel. destruct (eqdec x y) as [-> |N].
          -- rewrite mem_same. destruct (mem y l); reflexivity.
          -- rewrite (mem_other x y) by exact N. reflexivity.
        * rewrite I5, dget_ddel, dget_dset. destruct (eqdec x y) as [-> |N].
          -- rewrite mem_same, E. destruct (mem y l); reflexivity.
          -- rewrite (mem_other x y) by exact N. reflexivity.
      + destruct (IH as0 o W) as (I1 & I2 & I3 & I4 & I5). split; [exact I1|]. split; [exact I2|]. split; [exact I3|]. split; intros x.
        * rewrite I4. destruct (eqdec x y) as [-> |N].
          -- rewrite mem_same, E. destruct (mem y l); reflexivity.
          -- rewrite (mem_other x y) by exact N. reflexivity.
        * rewrite I5. destruct (eqdec x y) as [-> |N].
          -- rewrite mem_same, E. destruct (mem y l); reflexivity.
          -- rewrite (mem_other x y) by exact N. reflexivity.
  Qed.
  Lemma set_aside_ok (o : obj) l asides o1 : set_aside o l = (asides, o1) ->
    dwf asides /\ (dwf o -> dwf o1) /\ (forall e, In e o1 -> In e o) /\
    (forall x, dget o1 x = if mem x l then None else dget o x) /\
    (forall x, dget asides x = if mem x l then dget o x else None).
  Proof.
    intros E. pose proof (set_aside_gen l [] o dwf_nil) as G. cbv zeta in G. change (fold_left _ l ([], o)) with (set_aside o l) in G. rewrite E in G. cbn [fst snd] in G. destruct G as (I1 & I2 & I3 & I4 & I5).
    repeat split; auto. intros x. rewrite I5. cbn. destruct (mem x l), (dget o x); reflexivity.
  Qed.
  Lemma dget_set_all (o asides : obj) x : dwf asides -> dget (set_all o asides) x = match dget asides x with Some v => Some v | None => dget o x end.
  Proof.
    intros W. change (set_all o asides) with (dupdate o asides). rewrite dget_dupdate.
    assert (E : dget (rev asides) x = dget asides x). { symmetry. apply dget_perm; [exact W|]. apply Permutation.Permutation_rev. }
    rewrite E. reflexivity.
  Qed.

  (** ** Attributes after saving *)
  Definition has (R : restores) (b : nat) (x : pystr) (v : val) : Prop := exists asides, In (b, asides) R /\ dget asides x = Some v.
  Definition same_but (h0 h : heap) (R : restores) : Prop :=
    length h = length h0 /\ Forall (fun r => dwf (snd r)) R /\
    forall b x, ~ In x added ->
      (dget (attrs h b) x = dget (attrs h0 b) x \/ (dget (attrs h b) x = None /\ exists v, has R b x v)) /\
      (forall v, has R b x v -> dget (attrs h0 b) x = Some v).
  Lemma same_but_iff h0 h R R' : (forall r, In r R <-> In r R') -> same_but h0 h R -> same_but h0 h R'.
  Proof.
    intros E (L & W & S). split; [exact L|]. split; [rewrite Forall_forall in *; intros r I; apply W, E, I|].
    assert (HH : forall b x v, has R b x v <-> has R' b x v) by (intros b x v; split; intros (a & I & D); exists a; split; auto; apply E, I).
    intros b x N. destruct (S b x N) as [[S1|[S1 (v & S2)]] S3]; (split; [|intros w Hw; apply S3, HH, Hw]).
    - left. exact S1.
    - right. split; [exact S1|]. exists v. apply HH, S2.
  Qed.
  Lemma restore_length (h : heap) R : length (restore h R) = length h.
  Proof. unfold restore. revert h. induction R as [|r R IH]; intros h; cbn; [reflexivity|]. rewrite IH. apply upd_length. Qed.
  Lemma restore_get (R : restores) b x t : forall h : heap, Forall (fun r => dwf (snd r)) R -> b < length h ->
    (forall v, has R b x v -> t = Some v) -> (dget (attrs h b) x = t \/ exists v, has R b x v) -> dget (attrs (restore h R) b) x = t.
  Proof.
    induction R as [|[c o] R IH]; intros h W L H D; cbn [restore fold_left].
    - destruct D as [D|(v & a & [] & _)]. exact D.
    - change (dget (attrs (restore (upd h c (set_all (attrs h c) o)) R) b) x = t).
      inversion W as [|? ? W1 W2]; subst. cbn [snd] in W1. apply IH; [exact W2|rewrite upd_length; exact L| |].
      + intros v (a & I & E). apply H. exists a. split; [right; exact I|exact E].
      + destruct (Nat.eq_dec b c) as [-> |N].
        * rewrite attrs_upd, Nat.eqb_refl, dget_set_all by assumption. destruct (dget o x) as [v|] eqn:E.
          -- left. symmetry. apply H. exists o. split; [left; reflexivity|exact E].
          -- destruct D as [D|(v & a & [I|I] & E')]; [left; exact D| |right; exists v, a; auto]. injection I as <-. congruence.
        * rewrite attrs_upd_other by exact N. destruct D as [D|(v & a & [I|I] & E')]; [left; exact D| |right; exists v, a; auto]. injection I as <- _. contradiction.
  Qed.
  Lemma restore_same h0 h R : same_but h0 h R -> same_attrs h0 (restore h R).
  Proof.
    intros (L & W & S) b x N. change (dget (attrs (restore h R) b) x = dget (attrs h0 b) x).
    destruct (Nat.lt_ge_cases b (length h)) as [Hb|Hb].
    - destruct (S b x N) as [S1 S2]. apply restore_get; auto. destruct S1 as [S1|[_ S1]]; auto.
    - rewrite !attrs_out; [reflexivity|lia|rewrite restore_length; lia].
  Qed.

  Variable size : A -> nat.
  Variable nnz : K -> A -> A -> A -> nat.
  Variable contig : A -> A.
  Variable writable : pystr -> bool.
  Variable picklable : heap -> nat -> bool.
  Notation write := (write writable).
  Notation writes := (writes writable).
  Notation store := (store contig writable).
  Notation save_specials := (save_specials size nnz contig writable).
  Notation smart_save := (smart_save size nnz contig writable picklable).
  Notation st := (st A K Oth).

  Lemma write_hp (s : st) p x : hp (fst (write s p x)) = hp s.
  Proof. unfold SavModel.write. destruct (writable p); reflexivity. Qed.
  Lemma writes_hp l : forall s : st, hp (fst (writes s l)) = hp s.
  Proof.
    induction l as [|[p x] l IH]; intros s; cbn; [reflexivity|]. pose proof (write_hp s p x) as E. destruct (write s p x) as [s1 [r|e]]; cbn [fst] in *; [rewrite IH|]; exact E.
  Qed.
  Lemma store_hp compress fname ign asides : forall s : st, hp (fst (store compress fname ign s asides)) = hp s.
  Proof.
    induction asides as [|[x v] r IH]; intros s; cbn [SavModel.store]; [reflexivity|].
    destruct (if mem x ign then None else files_of contig compress fname x v) as [l|].
    - pose proof (writes_hp l s) as E. destruct (writes s l) as [s1 [t|e]]; cbn [fst] in *; [|exact E].
      specialize (IH s1). destruct (store compress fname ign s1 r) as [s2 [[[np sc] ig]|e]]; cbn [fst] in *; congruence.
    - specialize (IH s). destruct (store compress fname ign s r) as [s2 [[[np sc] ig]|e]]; cbn [fst] in *; congruence.
  Qed.
  Lemma same_but_dset h0 h R a k v : In k added -> same_but h0 h R -> same_but h0 (upd h a (dset (attrs h a) k v)) R.
  Proof.
    intros I (L & W & S). split; [rewrite upd_length; exact L|]. split; [exact W|]. intros b x N.
    assert (E : dget (attrs (upd h a (dset (attrs h a) k v)) b) x = dget (attrs h b) x).
    { destruct (Nat.lt_ge_cases a (length h)) as [Ha|Ha]; [|rewrite attrs_upd_out by exact Ha; reflexivity].
      rewrite attrs_upd by exact Ha. destruct (Nat.eqb_spec b a) as [-> |]; [|reflexivity]. apply dget_dset_other. intros ->. contradiction. }
    rewrite E. apply S, N.
  Qed.
  Lemma upd_upd (h : heap) a o o' : upd (upd h a o) a o' = upd h a o'.
  Proof. revert a. induction h as [|x h IH]; intros [|a]; cbn; try reflexivity. f_equal. apply IH. Qed.
  Lemma upd_self (h : heap) a : upd h a (attrs h a) = h.
  Proof. unfold attrs. revert a. induction h as [|x h IH]; intros [|a]; cbn; try reflexivity. f_equal. apply IH. Qed.
  Lemma same_but_marks h0 h R a np sc ig rc : same_but h0 h R ->
    same_but h0 (upd h a (dset (dset (dset (dset (attrs h a) k_numpys (VNames np)) k_scipys (VNames sc)) k_ignoreds (VNames ig)) k_rec (VNames rc))) R.
  Proof.
    intros S. destruct (Nat.lt_ge_cases a (length h)) as [Ha|Ha]; [|rewrite attrs_upd_out by exact Ha; exact S].
    assert (X : forall o k v, In k added -> same_but h0 (upd h a o) R -> same_but h0 (upd h a (dset o k v)) R).
    { intros o k v I S1. apply (same_but_dset _ _ _ a k v I) in S1. rewrite upd_upd in S1. rewrite attrs_upd, Nat.eqb_refl in S1 by exact Ha. exact S1. }
    apply X; [cbn; auto|]. apply X; [cbn; auto|]. apply X; [cbn; auto|]. apply X; [cbn; auto|]. rewrite upd_self. exact S.
  Qed.
  Lemma same_but_aside h0 h R a l asides o1 : set_aside (attrs h a) l = (asides, o1) -> same_but h0 h R ->
    same_but h0 (upd h a o1) ((a, asides) :: R).
  Proof.
    intros E (L & W & S). destruct (set_aside_ok _ _ _ _ E) as (W1 & _ & _ & G1 & G2). split; [rewrite upd_length; exact L|]. split; [constructor; assumption|].
    intros b x N. destruct (S b x N) as [S1 S2]. split.
    - destruct (Nat.eq_dec b a) as [-> |Nb].
      + destruct (Nat.lt_ge_cases a (length h)) as [Ha|Ha].
        * rewrite attrs_upd, Nat.eqb_refl, G1 by exact Ha. destruct (mem x l) eqn:M.
          -- destruct (dget (attrs h a) x) as [v|] eqn:D.
             ++ right. split; [reflexivity|]. exists v, asides. split; [left; reflexivity|]. rewrite G2, M. exact D.
             ++ destruct S1 as [S1|[_ (v & c & I & C)]]; [left; exact S1|right; split; [reflexivity|]; exists v, c; split; [right; exact I|exact C]].
          -- destruct S1 as [S1|[S1 (v & c & I & C)]]; [left; exact S1|right; split; [exact S1|]; exists v, c; split; [right; exact I|exact C]].
        * rewrite attrs_upd_out by exact Ha. destruct S1 as [S1|[S1 (v & c & I & C)]]; [left; exact S1|right; split; [exact S1|]; exists v, c; split; [right; exact I|exact C]].
      + rewrite attrs_upd_other by exact Nb. destruct S1 as [S1|[S1 (v & c & I & C)]]; [left; exact S1|right; split; [exact S1|]; exists v, c; split; [right; exact I|exact C]].
    - intros v (c & [I|I] & C); [|apply S2; exists c; auto]. injection I as <- <-. rewrite G2 in C. destruct (mem x l); [|discriminate].
      destruct S1 as [S1|[S1 _]]; congruence.
  Qed.
  Definition keeps (save : st -> nat -> pystr -> option (st * res restores)) : Prop :=
    forall h0 R s a fname s' rs, save s a fname = Some (s', Ok rs) -> same_but h0 (hp s) R -> same_but h0 (hp s') (R ++ rs).
  Lemma visit_keeps save fname : keeps save -> forall o h0 R s s' rc rs, visit save fname s o = Some (s', Ok (rc, rs)) ->
    same_but h0 (hp s) R -> same_but h0 (hp s') (R ++ rs).
  Proof.
    intros KS. induction o as [|[x v] o IH]; intros h0 R s s' rc rs E S; cbn [visit] in E.
    - injection E as <- <- <-. rewrite app_nil_r. exact S.
    - destruct v; try (eapply IH; eassumption).
      destruct (save s a (names fname [x])) as [[s1 [rs1|e]]|] eqn:E1; try discriminate.
      destruct (visit save fname s1 o) as [[s2 [[l rs2]|e]]|] eqn:E2; try discriminate. injection E as <- <- <-.
      rewrite app_assoc. eapply IH; [exact E2|]. eapply KS; eassumption.
  Qed.
  Lemma save_specials_keeps n lim ign compress : forall sep, keeps (save_specials n lim ign compress sep).
  Proof.
    induction n as [|n IH]; intros sep h0 R s a fname s' rs E S; [discriminate|]. cbn [SavModel.save_specials] in E.
    destruct (set_aside _ _) as [asides o1] eqn:EA.
    destruct (visit _ fname _ o1) as [[s2 [[rc rs2]|e]]|] eqn:EV; try discriminate.
    pose proof (store_hp compress fname ign asides s2) as SH. destruct (store compress fname ign s2 asides) as [s3 [[[np sc] ig]|e]] eqn:ES; [|discriminate].
    injection E as <- <-. cbn [hp fst] in *. rewrite SH. apply same_but_marks.
    apply (visit_keeps _ _ (IH None) _ h0 ((a, asides) :: R)) in EV; [|cbn [hp]; eapply same_but_aside; [exact EA|exact S]].
    eapply same_but_iff; [|exact EV]. intros r. cbn [app In]. rewrite !in_app_iff. cbn [In]. tauto.
  Qed.
  Lemma same_but_refl h : same_but h h [].
  Proof. split; [reflexivity|]. split; [constructor|]. intros b x N. split; [left; reflexivity|]. intros v (a & [] & _). Qed.
  (** Saving gives back all attributes, whether or not the object could be pickled, unless a write of an array failed *)
  Theorem smart_save_same : forall n lim ign sep (s : st) a fname s' r, smart_save n lim ign sep s a fname = Some (s', r) ->
    r = Ok tt \/ (exists s1 rs, save_specials n lim ign (compressed fname) sep s a fname = Some (s1, Ok rs)) -> same_attrs (hp s) (hp s').
  Proof.
    intros n lim ign sep s a fname s' r E H. unfold SavModel.smart_save in E.
    destruct (save_specials n lim ign (compressed fname) sep s a fname) as [[s1 [rs|e]]|] eqn:E1; [|exfalso|discriminate].
    - pose proof (save_specials_keeps _ _ _ _ _ _ _ _ _ _ _ _ E1 (same_but_refl (hp s))) as S. cbn [app] in S.
      destruct (pickle writable picklable s1 a fname) as [s2 r2] eqn:EP. injection E as <- <-. cbn [hp].
      assert (EH : hp s2 = hp s1) by (unfold pickle, SavModel.write in EP; destruct (picklable (hp s1) a), (writable fname); injection EP as <- _; reflexivity).
      rewrite EH. apply restore_same, S.
    - injection E as <- <-. destruct H as [H|(s2 & rs & H)]; discriminate.
  Qed.
  (** An object without objects in its attributes gets them back whatever happens *)
  Lemma visit_flat save fname s (o : obj) : (forall x b, ~ In (x, VRef b) o) -> visit save fname s o = Some (s, Ok ([], [])).
  Proof.
    induction o as [|[x v] o IH]; intros N; [reflexivity|]. cbn [visit]. destruct v; try (apply IH; intros y b I; apply (N y b); right; exact I).
    exfalso. apply (N x a). left. reflexivity.
  Qed.
  Theorem smart_save_flat : forall n lim ign sep (s : st) a fname s' r, smart_save n lim ign sep s a fname = Some (s', r) ->
    (forall x b, ~ In (x, VRef b) (attrs (hp s) a)) -> same_attrs (hp s) (hp s').
  Proof.
    intros n lim ign sep s a fname s' r E F.
    destruct (save_specials n lim ign (compressed fname) sep s a fname) as [[s1 [rs|e]]|] eqn:E1.
    - apply (smart_save_same _ _ _ _ _ _ _ _ _ E). right. eauto.
    - unfold SavModel.smart_save in E. rewrite E1 in E. injection E as <- <-. destruct n as [|n]; [discriminate|]. cbn [SavModel.save_specials] in E1.
      destruct (set_aside _ _) as [asides o1] eqn:EA. destruct (set_aside_ok _ _ _ _ EA) as (W1 & _ & I1 & G1 & G2).
      rewrite visit_flat in E1 by (intros x b I; apply (F x b), I1, I).
      pose proof (store_hp (compressed fname) fname ign asides {| hp := upd (hp s) a o1; fs := fs s |}) as SH.
      destruct (store _ _ _ _ asides) as [s3 [[[np sc] ig]|e']] eqn:ES; [discriminate|]. injection E1 as <- <-. cbn [hp fst] in *. rewrite SH.
      intros b x N. change (dget (attrs (upd (upd (hp s) a o1) a (set_all (attrs (upd (hp s) a o1) a) asides)) b) x = dget (attrs (hp s) b) x).
      rewrite upd_upd. destruct (Nat.lt_ge_cases a (length (hp s))) as [Ha|Ha]; [|rewrite attrs_upd_out by exact Ha; reflexivity].
      rewrite (attrs_upd (hp s) a o1 a Ha), Nat.eqb_refl. rewrite attrs_upd by exact Ha. destruct (Nat.eqb_spec b a) as [-> |]; [|reflexivity].
      rewrite dget_set_all by exact W1. rewrite G1, G2. destruct (mem x _); [|reflexivity]. destruct (dget (attrs (hp s) a) x); reflexivity.
    - unfold SavModel.smart_save in E. rewrite E1 in E. discriminate.
  Qed.
End Gen.
