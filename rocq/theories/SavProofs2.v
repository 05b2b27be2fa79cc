(** * Saved objects: the round trip on trees of objects. *)
From Coq Require Import String NArith ZArith Bool Arith Lia List.
From Verif Require Import Base BaseLemmas Str StrLemmas SavModel SavSpec SavProofs.
Import ListNotations.
Local Open Scope string_scope.
Local Open Scope nat_scope.
Local Open Scope list_scope.

(** ** File names *)
Lemma names_cons f x l : names f (x :: l) = f ++ dot :: names x l.
Proof. reflexivity. Qed.
Lemma names_flat l : forall f, names f l = f ++ flat_map (fun c => dot :: c) l.
Proof. induction l as [|x l IH]; intros f; [cbn; rewrite app_nil_r; reflexivity|]. rewrite names_cons, IH. reflexivity. Qed.
Lemma names_app f l l' : names f (l ++ l') = names (names f l) l'.
Proof. rewrite !names_flat, flat_map_app, app_assoc. reflexivity. Qed.
Definition under (fname x p : pystr) : Prop := exists l, p = names fname (x :: l).
Lemma head_inj (x x' r r' : list N) : ~ In dot x -> ~ In dot x' -> (r = [] \/ exists t, r = dot :: t) -> (r' = [] \/ exists t, r' = dot :: t) ->
  x ++ r = x' ++ r' -> x = x' /\ r = r'.
Proof.
  revert x'. induction x as [|c x IH]; intros [|c' x'] Nx Nx' Hr Hr' E; cbn [app] in E.
  - split; [reflexivity|exact E].
  - subst r. destruct Hr as [Hr|[t Hr]]; [discriminate|]. injection Hr as -> _. exfalso. apply Nx'. left. reflexivity.
  - subst r'. destruct Hr' as [Hr'|[t Hr']]; [discriminate|]. injection Hr' as -> _. exfalso. apply Nx. left. reflexivity.
  - injection E as -> E. destruct (IH x') as [-> ->]; auto; intros I; [apply Nx|apply Nx']; right; exact I.
Qed.
Lemma flat_dot l : flat_map (fun c : pystr => dot :: c) l = [] \/ exists t, flat_map (fun c : pystr => dot :: c) l = dot :: t.
Proof. destruct l as [|c l]; [left; reflexivity|right; eexists; reflexivity]. Qed.
Lemma names_inj_head f x l x' l' : ~ In dot x -> ~ In dot x' -> names f (x :: l) = names f (x' :: l') ->
  x = x' /\ flat_map (fun c => dot :: c) l = flat_map (fun c => dot :: c) l'.
Proof.
  intros N N' E. rewrite !names_flat in E. apply app_inv_head in E. cbn [flat_map app] in E. injection E as E. apply head_inj in E; auto using flat_dot.
Qed.
Lemma flat_inj : forall l l' : list pystr, Forall (fun x => ~ In dot x) l -> Forall (fun x => ~ In dot x) l' ->
  flat_map (fun c => dot :: c) l = flat_map (fun c => dot :: c) l' -> l = l'.
Proof.
  induction l as [|x l IH]; intros [|x' l'] F F' E; cbn [flat_map app] in E; try discriminate; [reflexivity|].
  injection E as E. inversion F; subst. inversion F'; subst. apply head_inj in E; auto using flat_dot. destruct E as [-> E]. f_equal. apply IH; assumption.
Qed.
Lemma under_inj f x x' p : ~ In dot x -> ~ In dot x' -> under f x p -> under f x' p -> x = x'.
Proof. intros N N' (l & ->) (l' & E). apply names_inj_head in E; auto. apply E. Qed.
Lemma under_under f x y p : under (names f [x]) y p -> under f x p.
Proof. intros (l & ->). exists (y :: l). rewrite <- names_app. reflexivity. Qed.
Lemma under_self f x : ~ under f x f.
Proof. intros (l & E). rewrite names_cons in E. apply (f_equal (@length N)) in E. rewrite app_length in E. cbn [length] in E. unfold pystr in *. lia. Qed.
Lemma subname_under c f x l : under f x (subname c f (x :: l)).
Proof. exists (l ++ [suffix c]). reflexivity. Qed.

Lemma filter_keys {K V} `{EqDec K} (f : K * V -> bool) (d : dict K V) : NoDup (dkeys d) -> NoDup (map fst (filter f d)).
Proof. intros N. change (dwf (filter f d)). apply dwf_filter. exact N. Qed.

Section Gen2.
  Context {A K Oth : Type}.
  Notation obj := (obj A K Oth).
  Notation heap := (heap A K Oth).
  Notation val := (val A K Oth).
  Notation restores := (restores A K Oth).
  Notation st := (st A K Oth).
  Notation file := (file A K Oth).
  Notation fsys := (pystr -> option file).
  Variable size : A -> nat.
  Variable nnz : K -> A -> A -> A -> nat.
  Variable contig : A -> A.
  Variable writable : pystr -> bool.
  Variable picklable : heap -> nat -> bool.
  Variable lim : nat.
  Variable ignore : list pystr.
  Variable compress mmap : bool.
  Notation write := (write writable).
  Notation writes := (writes writable).
  Notation store := (store contig writable compress).
  Notation save_specials n := (save_specials size nnz contig writable n lim ignore compress).
  Notation load_specials n := (load_specials n mmap compress).
  Notation smart_save := (smart_save size nnz contig writable picklable).
  Notation apart := (apart size nnz).
  Notation comes_back := (comes_back size nnz contig ignore).
  Hypothesis W : forall p, writable p = true.
  Hypothesis MC : mmap && compress = false.
  Hypothesis IG : forall x, In x ignore -> ~ In x added.

  Definition gone (sep : option (list pystr)) (x : pystr) (v : val) : bool := mem x ignore || apart sep lim x v.
  Definition stored (f : fsys) (fname x : pystr) (v : val) : Prop := forall l, files_of contig compress fname x v = Some l -> forall p c, In (p, c) l -> f p = Some c.
  Definition is_arr (v : val) : bool := match v with VArr _ => true | _ => false end.

  Fixpoint saved (n : nat) (h0 : heap) (a : nat) (fname : pystr) (sep : option (list pystr)) (h : heap) (f : fsys) : Prop :=
    match n with
    | O => False
    | S n =>
      (forall x, ~ In x added -> dget (attrs h a) x = match dget (attrs h0 a) x with Some v => if gone sep x v then None else Some v | None => None end) /\
      exists np sc ig rc, dget (attrs h a) k_numpys = Some (VNames np) /\ dget (attrs h a) k_scipys = Some (VNames sc) /\
        dget (attrs h a) k_ignoreds = Some (VNames ig) /\ dget (attrs h a) k_rec = Some (VNames rc) /\ NoDup rc /\
        (forall x, In x np \/ In x sc \/ In x ig \/ In x rc -> ~ In x added) /\
        (forall x, In x np -> exists v, dget (attrs h0 a) x = Some v /\ gone sep x v = true /\ mem x ignore = false /\ is_arr v = true /\ stored f fname x v) /\
        (forall x, In x sc -> exists v, dget (attrs h0 a) x = Some v /\ gone sep x v = true /\ mem x ignore = false /\ is_sp v = true /\ stored f fname x v) /\
        (forall x, In x ig -> exists v, dget (attrs h0 a) x = Some v /\ gone sep x v = true /\ comes_back sep lim x v = VNone) /\
        (forall x v, dget (attrs h0 a) x = Some v -> gone sep x v = true -> In x np \/ In x sc \/ In x ig) /\
        (forall x, In x rc <-> exists b, dget (attrs h0 a) x = Some (VRef b) /\ gone sep x (VRef b) = false) /\
        (forall x b, dget (attrs h0 a) x = Some (VRef b) -> gone sep x (VRef b) = false -> saved n h0 b (names fname [x]) None h f)
    end.

  Lemma tree_frame n : forall (h h' : heap) a l, (forall b, In b l -> attrs h' b = attrs h b) -> length h' = length h -> tree n h a l -> tree n h' a l.
  Proof.
    induction n as [|n IH]; intros h h' a l E L T; [exact T|]. cbn [tree] in *. destruct T as (T1 & T2 & sub & T3 & T4).
    change (nth a h []) with (attrs h a) in *. change (nth a h' []) with (attrs h' a) in *. rewrite (E a T2).
    split; [lia|]. split; [exact T2|]. exists sub. split; [|exact T4].
    intros x b D. destruct (T3 x b D) as (X1 & X2 & X3). split; [|auto]. eapply IH; [|exact L|exact X1]. intros c I. apply E, X2, I.
  Qed.
  Lemma saved_frame n : forall h0 h0' h h' (f f' : fsys) a l fname sep,
    tree n h0 a l -> (forall b, In b l -> attrs h0' b = attrs h0 b) -> (forall b, In b l -> attrs h' b = attrs h b) ->
    (forall x p, under fname x p -> f' p = f p) -> saved n h0 a fname sep h f -> saved n h0' a fname sep h' f'.
  Proof.
    induction n as [|n IH]; intros h0 h0' h h' f f' a l fname sep T E0 E F S; [exact S|]. cbn [tree saved] in *. destruct T as (T1 & T2 & sub & T3 & T4).
    change (nth a h0 []) with (attrs h0 a) in *. rewrite (E0 a T2), (E a T2). destruct S as (S1 & np & sc & ig & rc & S2 & S3 & S4 & S5 & S6 & S7 & S8 & S9 & S10 & S11 & S12 & S13).
    assert (ST : forall x v, stored f fname x v -> stored f' fname x v).
    { intros x v ST l0 H p c I. rewrite (F x p); [apply (ST l0 H p c I)|]. unfold files_of in H. destruct v; try discriminate; injection H as <-.
      - destruct I as [I|[]]. injection I as <- _. apply subname_under.
      - apply in_app_iff in I as [I|[I|[]]]; [|injection I as <- _; apply subname_under].
        destruct compress; cbn [In] in I; repeat (destruct I as [I|I]; [injection I as <- _; apply subname_under|]); contradiction. }
    split; [exact S1|]. exists np, sc, ig, rc. repeat (split; [assumption|]).
    split; [intros x I; destruct (S8 x I) as (v & V1 & V2 & V3 & V4 & V5); exists v; repeat (split; [assumption|]); apply ST, V5|].
    split; [intros x I; destruct (S9 x I) as (v & V1 & V2 & V3 & V4 & V5); exists v; repeat (split; [assumption|]); apply ST, V5|].
    repeat (split; [assumption|]).
    intros x b D G. destruct (T3 x b D) as (X1 & X2 & X3). eapply IH; [exact X1| | | |exact (S13 x b D G)].
    - intros c I. apply E0, X2, I.
    - intros c I. apply E, X2, I.
    - intros y p U. apply (F x). eapply under_under, U.
  Qed.

  (** ** Storing *)
  Lemma writes_ok l : forall s : st, NoDup (map fst l) -> exists s', writes s l = (s', Ok tt) /\ hp s' = hp s /\
    (forall p c, In (p, c) l -> fs s' p = Some c) /\ (forall p, ~ In p (map fst l) -> fs s' p = fs s p).
  Proof.
    induction l as [|[p x] l IH]; intros s N; cbn [SavModel.writes]; [exists s; repeat split; intros; contradiction|].
    unfold SavModel.write. rewrite W. cbn [map fst] in N. inversion N as [|? ? N1 N2]; subst.
    destruct (IH {| hp := hp s; fs := put (fs s) p x |} N2) as (s' & E & H & I1 & I2). cbn [hp fs] in *. exists s'. split; [exact E|]. split; [exact H|]. split.
    - intros q c [I|I]; [|apply I1, I]. injection I as <- <-. rewrite I2 by exact N1. unfold put. rewrite eqb_refl. reflexivity.
    - intros q Q. cbn [map fst In] in Q. rewrite I2 by tauto. unfold put. rewrite (proj2 (eqb_neq q p)); [reflexivity|]. intros ->. tauto.
  Qed.
  Lemma files_of_nodup fname x (v : val) l : ~ In dot x -> files_of contig compress fname x v = Some l -> NoDup (map fst l) /\ forall p, In p (map fst l) -> under fname x p.
  Proof.
    intros Nx E. unfold files_of in E.
    assert (X : forall l1 l2 : list pystr, Forall (fun x => ~ In dot x) l1 -> Forall (fun x => ~ In dot x) l2 -> l1 <> l2 -> subname compress fname (x :: l1) <> subname compress fname (x :: l2)).
    { intros l1 l2 F1 F2 N12 Q. unfold subname in Q. cbn [app] in Q. apply names_inj_head in Q as [_ Q]; auto. apply flat_inj in Q.
      - apply app_inj_tail in Q as [Q _]. contradiction.
      - apply Forall_app. split; [exact F1|]. constructor; [|constructor]. destruct compress; cbn; unfold dot; intuition discriminate.
      - apply Forall_app. split; [exact F2|]. constructor; [|constructor]. destruct compress; cbn; unfold dot; intuition discriminate. }
    assert (D : forall y, In y [u "data"; u "indptr"; u "indices"; u "sparse"] -> Forall (fun x => ~ In dot x) [y]).
    { intros y I. constructor; [|constructor]. cbn [In] in I. destruct I as [<- |[<- |[<- |[<- |[]]]]]; cbn; unfold dot; intuition discriminate. }
    destruct v; try discriminate; injection E as <-.
    - cbn [map fst]. split; [constructor; [intros []|constructor]|]. intros p [<- |[]]. apply subname_under.
    - destruct compress eqn:C; cbn [app map fst]; rewrite <- C in *.
      + split; [|intros p [<- |[<- |[]]]; apply subname_under].
        constructor; [|constructor; [intros []|constructor]]. intros [Q|[]]. symmetry in Q. revert Q. apply X; [apply D; cbn; auto|constructor|discriminate].
      + split; [|intros p [<- |[<- |[<- |[<- |[]]]]]; apply subname_under].
        repeat (constructor; [cbn [In]|]); [| | |intros []|constructor].
        * intros [Q|[Q|[Q|[]]]]; symmetry in Q; revert Q; apply X; try (apply D; cbn; auto; fail); try constructor; discriminate.
        * intros [Q|[Q|[]]]; symmetry in Q; revert Q; apply X; try (apply D; cbn; auto; fail); try constructor; discriminate.
        * intros [Q|[]]; symmetry in Q; revert Q; apply X; try (apply D; cbn; auto; fail); try constructor; discriminate.
  Qed.
  Lemma store_ok fname (asides : obj) : forall s : st, dwf asides -> (forall (x : pystr) v, In (x, v) asides -> ~ In dot x) ->
    exists s' np sc ig, store fname ignore s asides = (s', Ok (np, sc, ig)) /\ hp s' = hp s /\
      (forall p, (forall x v, In (x, v) asides -> ~ under fname x p) -> fs s' p = fs s p) /\
      (forall x, In x np -> exists v, In (x, v) asides /\ mem x ignore = false /\ is_arr v = true /\ stored (fs s') fname x v) /\
      (forall x, In x sc -> exists v, In (x, v) asides /\ mem x ignore = false /\ is_sp v = true /\ stored (fs s') fname x v) /\
      (forall x, In x ig -> exists v, In (x, v) asides /\ (mem x ignore = true \/ is_arr v = false /\ is_sp v = false)) /\
      (forall x v, In (x, v) asides -> In x np \/ In x sc \/ In x ig).
  Proof.
    induction asides as [|[x v] r IH]; intros s Wf ND; cbn [SavModel.store].
    - exists s, [], [], []. repeat split; try reflexivity; intros; contradiction.
    - unfold dwf, dkeys in Wf. cbn [map fst] in Wf. inversion Wf as [|? ? N1 N2]; subst.
      match goal with |- context [match ?t with Some _ => _ | None => _ end] => destruct t as [l|] eqn:EL end.
      + revert EL. destruct (mem x ignore) eqn:EI; [discriminate|]. intros EL. destruct (files_of_nodup fname x v l (ND x v (or_introl eq_refl)) EL) as [L1 L2].
        destruct (writes_ok l s L1) as (s1 & E1 & H1 & I1 & I2). rewrite E1.
        destruct (IH s1 N2) as (s' & np & sc & ig & E & H & F & P1 & P2 & P3 & P4); [intros y w I; apply (ND y w); right; exact I|]. rewrite E.
        assert (SX : stored (fs s') fname x v).
        { intros l0 E0 p c I. rewrite EL in E0. injection E0 as <-. rewrite F; [apply I1, I|]. intros y w Iy U.
          assert (x = y). { apply (under_inj fname x y p); auto; [apply (ND x v); left; reflexivity|apply (ND y w); right; exact Iy|]. apply L2. apply in_map_iff. exists (p, c). auto. }
          subst y. apply N1. apply in_map_iff. exists (x, w). auto. }
        assert (Arr : is_sp v = false -> is_arr v = true) by (destruct v; try discriminate; reflexivity).
        destruct (is_sp v) eqn:SP.
        * exists s', np, (x :: sc), ig. split; [reflexivity|]. split; [congruence|]. split; [|split; [|split; [|split]]].
          -- intros p Q. rewrite F; [apply I2|].
             ++ intros I. apply (Q x v); [left; reflexivity|apply L2, I].
             ++ intros y w I. apply (Q y w). right. exact I.
          -- intros y I. destruct (P1 y I) as (w & V). exists w. intuition (right; assumption).
          -- intros y [<- |I]; [exists v; repeat split; auto; left; reflexivity|]. destruct (P2 y I) as (w & V). exists w. intuition (right; assumption).
          -- intros y I. destruct (P3 y I) as (w & V1 & V2). exists w. split; [right; exact V1|exact V2].
          -- intros y w [I|I]; [injection I as <- <-; right; left; left; reflexivity|]. destruct (P4 y w I) as [Q|[Q|Q]]; auto. right. left. right. exact Q.
        * exists s', (x :: np), sc, ig. split; [reflexivity|]. split; [congruence|]. split; [|split; [|split; [|split]]].
          -- intros p Q. rewrite F; [apply I2|].
             ++ intros I. apply (Q x v); [left; reflexivity|apply L2, I].
             ++ intros y w I. apply (Q y w). right. exact I.
          -- intros y [<- |I]; [exists v; repeat split; auto; left; reflexivity|]. destruct (P1 y I) as (w & V). exists w. intuition (right; assumption).
          -- intros y I. destruct (P2 y I) as (w & V). exists w. intuition (right; assumption).
          -- intros y I. destruct (P3 y I) as (w & V1 & V2). exists w. split; [right; exact V1|exact V2].
          -- intros y w [I|I]; [injection I as <- <-; left; left; reflexivity|]. destruct (P4 y w I) as [Q|[Q|Q]]; auto. left. right. exact Q.
      + destruct (IH s N2) as (s' & np & sc & ig & E & H & F & P1 & P2 & P3 & P4); [intros y w I; apply (ND y w); right; exact I|]. rewrite E.
        exists s', np, sc, (x :: ig). split; [reflexivity|]. split; [congruence|]. split; [|split; [|split; [|split]]].
        * intros p Q. apply F. intros y w I. apply (Q y w). right. exact I.
        * intros y I. destruct (P1 y I) as (w & V). exists w. intuition (right; assumption).
        * intros y I. destruct (P2 y I) as (w & V). exists w. intuition (right; assumption).
        * intros y [<- |I].
          -- exists v. split; [left; reflexivity|]. revert EL. destruct (mem x ignore); [left; reflexivity|right]. destruct v; try discriminate; split; reflexivity.
          -- destruct (P3 y I) as (w & V1 & V2). exists w. split; [right; exact V1|exact V2].
        * intros y w [I|I]; [injection I as <- <-; right; right; left; reflexivity|]. destruct (P4 y w I) as [Q|[Q|Q]]; auto. right. right. right. exact Q.
  Qed.

  (** ** Saving *)
  Definition dotless (o : obj) : Prop := forall x v, In (x, v) o -> ~ In dot x.
  Definition saves_at (n : nat) : Prop := forall sep (s : st) a fname l, tree n (hp s) a l -> (forall b, In b l -> good_obj (attrs (hp s) b)) ->
    (forall ls x, sep = Some ls -> In x ls -> ~ In x added) ->
    exists s' rs, save_specials n sep s a fname = Some (s', Ok rs) /\ length (hp s') = length (hp s) /\
      (forall b, ~ In b l -> attrs (hp s') b = attrs (hp s) b) /\
      (forall p, (forall x v, dget (attrs (hp s) a) x = Some v -> ~ under fname x p) -> fs s' p = fs s p) /\
      saved n (hp s) a fname sep (hp s') (fs s').
  Definition is_ref (v : val) : bool := match v with VRef _ => true | _ => false end.
  Lemma visit_ok n fname h0 (sub : pystr -> list nat) : saves_at n -> forall (o : obj) (s : st), dwf o -> dotless o ->
    length (hp s) = length h0 ->
    (forall x b, In (x, VRef b) o -> tree n h0 b (sub x) /\ (forall c, In c (sub x) -> good_obj (attrs h0 c)) /\ (forall c, In c (sub x) -> attrs (hp s) c = attrs h0 c)) ->
    (forall x b y c, In (x, VRef b) o -> In (y, VRef c) o -> x <> y -> forall z, In z (sub x) -> ~ In z (sub y)) ->
    exists s' rs, visit (save_specials n None) fname s o = Some (s', Ok (map fst (filter (fun kv => is_ref (snd kv)) o), rs)) /\
      length (hp s') = length (hp s) /\
      (forall c, (forall x b, In (x, VRef b) o -> ~ In c (sub x)) -> attrs (hp s') c = attrs (hp s) c) /\
      (forall p, (forall x b, In (x, VRef b) o -> ~ under fname x p) -> fs s' p = fs s p) /\
      (forall x b, In (x, VRef b) o -> saved n h0 b (names fname [x]) None (hp s') (fs s')).
  Proof.
    intros SA. induction o as [|[x v] o IH]; intros s Wf ND L T DJ; cbn [visit].
    - exists s, []. repeat split; try reflexivity; intros; contradiction.
    - unfold dwf, dkeys in Wf. cbn [map fst] in Wf. inversion Wf as [|? ? N1 N2]; subst.
      assert (ND' : dotless o) by (intros y w I; apply (ND y w); right; exact I).
      destruct v as [b| | | | |];
      try (destruct (IH s N2 ND' L) as (s' & rs & E & L' & H & F & S);
        [intros y c I; apply (T y c); right; exact I|intros y c z d I1 I2; apply (DJ y c z d); right; assumption|];
        exists s', rs; cbn [filter is_ref snd]; split; [exact E|]; split; [exact L'|];
        split; [intros c Q; apply H; intros y d I; apply (Q y d); right; exact I|];
        split; [intros p Q; apply F; intros y d I; apply (Q y d); right; exact I|];
        intros y c [I|I]; [discriminate|apply S, I]).
      destruct (T x b (or_introl eq_refl)) as (T1 & T2 & T3).
      assert (TS : tree n (hp s) b (sub x)) by (eapply tree_frame; [exact T3|exact L|exact T1]).
      destruct (SA None s b (names fname [x]) (sub x) TS) as (s1 & rs1 & E1 & L1 & H1 & F1 & S1); [intros c I; rewrite T3 by exact I; apply T2, I|discriminate|]. rewrite E1.
      assert (NE : forall y c, In (y, VRef c) o -> y <> x) by (intros y c I ->; apply N1; apply in_map_iff; exists (x, VRef c); auto).
      destruct (IH s1 N2 ND') as (s' & rs & E & L' & H & F & S); [congruence| | |].
      { intros y c I. destruct (T y c (or_intror I)) as (Y1 & Y2 & Y3). split; [exact Y1|]. split; [exact Y2|]. intros d Id. rewrite H1; [apply Y3, Id|].
        apply (DJ y c x b); auto; [right; exact I|left; reflexivity|apply (NE y c I)]. }
      { intros y c z d I1 I2; apply (DJ y c z d); right; assumption. }
      rewrite E. exists s', (rs1 ++ rs). cbn [filter is_ref snd map fst]. split; [reflexivity|]. split; [congruence|]. split; [|split].
      + intros c Q. rewrite H; [apply H1; apply (Q x b); left; reflexivity|]. intros y d I. apply (Q y d). right. exact I.
      + intros p Q. rewrite F; [apply F1|].
        * intros y w D U. apply (Q x b); [left; reflexivity|]. eapply under_under, U.
        * intros y d I. apply (Q y d). right. exact I.
      + intros y c [I|I]; [|apply S, I]. injection I as <- <-. eapply saved_frame; [exact TS| | | |exact S1].
        * intros d Id. symmetry. apply T3, Id.
        * intros d Id. apply H. intros y c I. apply (DJ x b y c); auto; [left; reflexivity|right; exact I|intros Q; symmetry in Q; revert Q; apply (NE y c I)].
        * intros y p U. apply F. intros z c I U'. apply (NE z c I). apply (under_inj fname z x p); auto; [apply (ND z (VRef c)); right; exact I|apply (ND x (VRef b)); left; reflexivity|].
          eapply under_under, U.
  Qed.

  Lemma mem_separate sep (o : obj) x v : dwf o -> dget o x = Some v -> mem x (separate size nnz sep lim o ++ ignore) = gone sep x v.
  Proof.
    intros Wf D. unfold gone. assert (E : mem x (separate size nnz sep lim o) = apart sep lim x v).
    { unfold separate, SavSpec.apart. destruct sep as [l|]; [reflexivity|]. change (match v with VArr y => lim <=? size y | VSp k d p i => lim <=? nnz k d p i | _ => false end) with (large size nnz lim v).
      destruct (large size nnz lim v) eqn:LV.
      - apply mem_In, in_map_iff. exists (x, v). split; [reflexivity|]. apply filter_In. split; [apply dget_Some_In, D|exact LV].
      - apply mem_nIn. intros I. apply in_map_iff in I as ([y w] & Q & I). cbn [fst] in Q. subst y. apply filter_In in I as [I1 I2]. cbn [snd] in I2.
        apply (dget_In _ _ _ Wf) in I1. congruence. }
    rewrite <- E. destruct (mem x (separate size nnz sep lim o ++ ignore)) eqn:M.
    - apply mem_In, in_app_iff in M as [M|M]; apply mem_In in M; rewrite M; [symmetry; apply orb_true_r|reflexivity].
    - symmetry. apply orb_false_iff. apply mem_nIn in M. rewrite in_app_iff in M. split; apply mem_nIn; tauto.
  Qed.
  Lemma gone_added sep x v : (forall ls y, sep = Some ls -> In y ls -> ~ In y added) -> (In x added -> exists l, v = VNames l) -> gone sep x v = true -> ~ In x added.
  Proof.
    intros HS HV G I. unfold gone in G. apply orb_true_iff in G as [G|G]; [apply mem_In in G; apply (IG x G I)|].
    unfold SavSpec.apart in G. destruct sep as [ls|]; [apply mem_In in G; apply (HS ls x eq_refl G I)|]. destruct (HV I) as (l & ->). discriminate.
  Qed.
  Lemma dget4 (o : obj) np sc ig rc x : let o2 := dset (dset (dset (dset o k_numpys (VNames np)) k_scipys (VNames sc)) k_ignoreds (VNames ig)) k_rec (VNames rc) in
    dget o2 k_numpys = Some (VNames np) /\ dget o2 k_scipys = Some (VNames sc) /\ dget o2 k_ignoreds = Some (VNames ig) /\ dget o2 k_rec = Some (VNames rc) /\
    (~ In x added -> dget o2 x = dget o x).
  Proof.
    cbv zeta. split; [rewrite !dget_dset; reflexivity|]. split; [rewrite !dget_dset; reflexivity|]. split; [rewrite !dget_dset; reflexivity|]. split; [rewrite !dget_dset; reflexivity|].
    intros N. rewrite !dget_dset_other; [reflexivity| | | |]; intros ->; apply N; cbn; auto.
  Qed.
  Lemma saves_all n : saves_at n.
  Proof.
    induction n as [|n IH]; intros sep s a fname l T G HS; [destruct T|]. cbn [tree] in T. destruct T as (T1 & T2 & sub & T3 & T4). cbn [SavModel.save_specials].
    change (nth a (hp s) []) with (attrs (hp s) a) in *.
    destruct (G a T2) as (Wo & Do & Ao). set (o := attrs (hp s) a) in *.
    destruct (set_aside o (separate size nnz sep lim o ++ ignore)) as [asides o1] eqn:EA.
    destruct (set_aside_ok _ _ _ _ EA) as (Wa & W1 & In1 & G1 & G2). specialize (W1 Wo).
    assert (A1 : forall x, dget o1 x = match dget o x with Some v => if gone sep x v then None else Some v | None => None end).
    { intros x. rewrite G1. destruct (dget o x) as [v|] eqn:D; [rewrite (mem_separate sep o x v Wo D); reflexivity|destruct (mem x _); reflexivity]. }
    assert (A2 : forall x, dget asides x = match dget o x with Some v => if gone sep x v then Some v else None | None => None end).
    { intros x. rewrite G2. destruct (dget o x) as [v|] eqn:D; [rewrite (mem_separate sep o x v Wo D); reflexivity|destruct (mem x _); reflexivity]. }
    assert (GA : forall x v, dget o x = Some v -> gone sep x v = true -> ~ In x added) by (intros x v D; apply gone_added; [exact HS|intros I; apply (Ao x v I D)]).
    assert (R1 : forall x b, In (x, VRef b) o1 <-> dget o x = Some (VRef b) /\ gone sep x (VRef b) = false).
    { intros x b. rewrite (dget_In _ _ _ W1), A1. destruct (dget o x) as [v|]; [|split; [discriminate|intros [Q _]; discriminate]].
      destruct (gone sep x v) eqn:Gx; split; try discriminate.
      - intros [Q1 Q2]. injection Q1 as ->. congruence.
      - intros Q. injection Q as ->. auto.
      - intros [Q _]. exact Q. }
    assert (As : forall x v, In (x, v) asides <-> dget o x = Some v /\ gone sep x v = true).
    { intros x v. rewrite (dget_In _ _ _ Wa), A2. destruct (dget o x) as [w|]; [|split; [discriminate|intros [Q _]; discriminate]].
      destruct (gone sep x w) eqn:Gx; split; try discriminate.
      - intros Q. injection Q as ->. auto.
      - intros [Q _]. exact Q.
      - intros [Q1 Q2]. injection Q1 as ->. congruence. }
    assert (UP : forall b, b <> a -> attrs (upd (hp s) a o1) b = attrs (hp s) b) by (intros b N; apply attrs_upd_other, N).
    destruct (visit_ok n fname (hp s) sub IH o1 {| hp := upd (hp s) a o1; fs := fs s |}) as (s2 & rs & EV & L2 & H2 & F2 & S2); cbn [hp fs] in *.
    { exact W1. } { intros x v I. apply (Do x v). apply dget_In; [exact Wo|]. apply In1, I. } { apply upd_length. }
    { intros x b I. apply R1 in I as [I _]. destruct (T3 x b I) as (X1 & X2 & X3). split; [exact X1|]. split; [intros c Ic; apply G, X2, Ic|]. intros c Ic. apply UP. intros ->. contradiction. }
    { intros x b y c I1 I2. apply R1 in I1 as [I1 _]. apply R1 in I2 as [I2 _]. apply (T4 x y b c I1 I2). }
    rewrite EV. destruct (store_ok fname asides s2 Wa) as (s3 & np & sc & ig & ES & H3 & F3 & P1 & P2 & P3 & P4); [intros x v I; apply As in I as [I _]; apply (Do x v I)|].
    rewrite ES. eexists. eexists. split; [reflexivity|]. cbn [hp fs].
    rewrite upd_length in L2. assert (La : a < length (hp s2)) by lia.
    assert (Ha : attrs (hp s2) a = o1).
    { rewrite H2; [rewrite attrs_upd, Nat.eqb_refl by exact T1; reflexivity|]. intros x b I. apply R1 in I as [I _]. destruct (T3 x b I) as (_ & _ & X3). exact X3. }
    rewrite H3. rewrite Ha. split; [rewrite upd_length; exact L2|]. split; [|split].
    - intros b Nb. assert (b <> a) by (intros ->; contradiction). rewrite attrs_upd_other by assumption. rewrite H2; [apply UP; assumption|].
      intros x c I. apply R1 in I as [I _]. destruct (T3 x c I) as (_ & X2 & _). intros Q. apply Nb, X2, Q.
    - intros p Q. rewrite F3; [apply F2|].
      + intros x b I. apply R1 in I as [I _]. apply (Q x _ I).
      + intros x v I. apply As in I as [I _]. apply (Q x _ I).
    - cbn [saved]. rewrite attrs_upd, Nat.eqb_refl by exact La. fold o. set (rc := map fst _).
      assert (RC : forall x, In x rc <-> exists b, dget o x = Some (VRef b) /\ gone sep x (VRef b) = false).
      { intros x. unfold rc. rewrite in_map_iff. split.
        - intros ([y w] & Q & I). cbn [fst] in Q. subst y. apply filter_In in I as [I1 I2]. cbn [snd] in I2. destruct w as [b| | | | |]; try discriminate. exists b. apply R1, I1.
        - intros (b & Q). apply R1 in Q. exists (x, VRef b). split; [reflexivity|]. apply filter_In. auto. }
      split; [intros x N; destruct (dget4 o1 np sc ig rc x) as (_ & _ & _ & _ & D); rewrite (D N); apply A1|].
      exists np, sc, ig, rc. destruct (dget4 o1 np sc ig rc []) as (D1 & D2 & D3 & D4 & _). split; [exact D1|]. split; [exact D2|]. split; [exact D3|]. split; [exact D4|].
      split; [apply filter_keys; exact W1|].
      split. { intros x [I|[I|[I|I]]].
        - destruct (P1 x I) as (v & V & _). apply As in V as [V1 V2]. apply (GA x v V1 V2).
        - destruct (P2 x I) as (v & V & _). apply As in V as [V1 V2]. apply (GA x v V1 V2).
        - destruct (P3 x I) as (v & V & _). apply As in V as [V1 V2]. apply (GA x v V1 V2).
        - apply RC in I as (b & I & _). intros Ix. destruct (Ao x _ Ix I) as (ll & Q). discriminate. }
      split. { intros x I. destruct (P1 x I) as (v & V1 & V2 & V3 & V4). apply As in V1 as [V1 V1']. exists v. auto. }
      split. { intros x I. destruct (P2 x I) as (v & V1 & V2 & V3 & V4). apply As in V1 as [V1 V1']. exists v. auto. }
      split. { intros x I. destruct (P3 x I) as (v & V1 & V2). apply As in V1 as [V1 V1']. exists v. split; [exact V1|]. split; [exact V1'|].
        unfold SavSpec.comes_back. unfold gone in V1'. destruct (mem x ignore); [reflexivity|]. cbn [orb] in V1'. rewrite V1'. destruct V2 as [V2|[V2 V3]]; [discriminate|]. destruct v; try reflexivity; discriminate. }
      split. { intros x v D Gx. apply (P4 x v). apply As. auto. }
      split; [exact RC|].
      intros x b D Gx. assert (I : In (x, VRef b) o1) by (apply R1; auto). destruct (T3 x b D) as (X1 & X2 & X3).
      eapply saved_frame; [exact X1|reflexivity| | |exact (S2 x b I)].
      + intros c Ic. apply attrs_upd_other. intros ->. contradiction.
      + intros y p U. apply F3. intros z w Iz U'. apply under_under in U. apply As in Iz as [Iz Gz].
        assert (z = x) by (apply (under_inj fname z x p); auto; [apply (Do z w Iz)|apply (Do x _ D)]). subst z. rewrite D in Iz. injection Iz as <-. congruence.
  Qed.

  (** ** Loading *)
  Definition T (h0 : heap) (a : nat) (sep : option (list pystr)) (x : pystr) : option val := option_map (comes_back sep lim x) (dget (attrs h0 a) x).
  Lemma load_all_ok (g : pystr -> res val) (t : pystr -> option val) a l : forall h : heap, a < length h -> (forall x, In x l -> exists v, t x = Some v /\ g x = Ok v) ->
    exists h', load_all g l h a = Ok h' /\ length h' = length h /\ (forall b, b <> a -> attrs h' b = attrs h b) /\
      forall x, dget (attrs h' a) x = if mem x l then t x else dget (attrs h a) x.
  Proof.
    unfold load_all. induction l as [|y l IH]; intros h La H; cbn [rfold].
    - exists h. repeat split; reflexivity.
    - destruct (H y (or_introl eq_refl)) as (v & Ht & Hg). rewrite Hg. cbn [rbind].
      destruct (IH (upd h a (dset (attrs h a) y v))) as (h' & E & L & O & D); [rewrite upd_length; exact La|intros x I; apply H; right; exact I|].
      exists h'. split; [exact E|]. split; [rewrite L; apply upd_length|]. split; [intros b N; rewrite O, attrs_upd_other by exact N; reflexivity|].
      intros x. rewrite D, attrs_upd, Nat.eqb_refl by exact La. rewrite dget_dset. destruct (eqdec x y) as [-> |N].
      + rewrite mem_same. rewrite Ht. destruct (mem y l); reflexivity.
      + rewrite (mem_other x y) by exact N. reflexivity.
  Qed.
  Lemma back_frame n : forall (h0 h h' : heap) a l sep, tree n h0 a l -> (forall b, In b l -> attrs h' b = attrs h b) ->
    back size nnz contig n lim ignore sep h0 a h -> back size nnz contig n lim ignore sep h0 a h'.
  Proof.
    induction n as [|n IH]; intros h0 h h' a l sep Tr E B; [exact B|]. cbn [tree back] in *. destruct Tr as (T1 & T2 & sub & T3 & T4).
    intros x N. destruct (B x N) as [B1 B2]. change (nth a h' []) with (attrs h' a). rewrite (E a T2). split; [exact B1|].
    intros b D. assert (D0 : dget (nth a h0 []) x = Some (VRef b)).
    { destruct (dget (nth a h0 []) x) as [v|]; [|discriminate]. cbn [option_map] in D. injection D as D. unfold SavSpec.comes_back in D. f_equal.
      destruct (mem x ignore); [discriminate|]. destruct (apart sep lim x v); [destruct v; discriminate|exact D]. }
    destruct (T3 x b D0) as (X1 & X2 & X3). eapply IH; [exact X1| |exact (B2 b D)]. intros c I. apply E, X2, I.
  Qed.
  Definition loads_at (n : nat) : Prop := forall (f : fsys) sep (h0 h : heap) a fname l, tree n h0 a l -> saved n h0 a fname sep h f -> length h = length h0 ->
    exists h', load_specials n f h a fname = Some (Ok h') /\ length h' = length h /\ (forall b, ~ In b l -> attrs h' b = attrs h b) /\
      back size nnz contig n lim ignore sep h0 a h'.
  Lemma load_kids_ok n (f : fsys) sep h0 fname a (sub : pystr -> list nat) : loads_at n ->
    (forall x b, dget (attrs h0 a) x = Some (VRef b) -> tree n h0 b (sub x) /\ ~ In a (sub x)) ->
    (forall x y b c, dget (attrs h0 a) x = Some (VRef b) -> dget (attrs h0 a) y = Some (VRef c) -> x <> y -> forall z, In z (sub x) -> ~ In z (sub y)) ->
    forall rc h, length h = length h0 -> NoDup rc ->
    (forall x, In x rc -> exists b, dget (attrs h0 a) x = Some (VRef b) /\ gone sep x (VRef b) = false /\ dget (attrs h a) x = Some (VRef b) /\ saved n h0 b (names fname [x]) None h f) ->
    exists h', load_kids (load_specials n f) fname rc h a = Some (Ok h') /\ length h' = length h /\
      (forall c, (forall x, In x rc -> ~ In c (sub x)) -> attrs h' c = attrs h c) /\
      (forall x b, In x rc -> dget (attrs h0 a) x = Some (VRef b) -> back size nnz contig n lim ignore None h0 b h').
  Proof.
    intros LA HT DJ. induction rc as [|x rc IH]; intros h L ND H; cbn [load_kids].
    - exists h. repeat split; try reflexivity; intros; contradiction.
    - inversion ND as [|? ? N1 N2]; subst. destruct (H x (or_introl eq_refl)) as (b & D0 & Gx & D & S). rewrite D. destruct (HT x b D0) as (Tx & Ax).
      destruct (LA f None h0 h b (names fname [x]) (sub x) Tx S L) as (h1 & E1 & L1 & O1 & B1). rewrite E1.
      destruct (IH h1) as (h' & E & L' & O' & B'); [congruence|exact N2| |].
      { intros y I. destruct (H y (or_intror I)) as (c & Dy & Gy & Dy' & Sy). exists c. split; [exact Dy|]. split; [exact Gy|]. split; [rewrite O1 by exact Ax; exact Dy'|].
        destruct (HT y c Dy) as (Ty & _). eapply saved_frame; [exact Ty|reflexivity| |reflexivity|exact Sy].
        intros z Iz. apply O1. intros Q. revert Q. apply (DJ y x c b Dy D0); [intros ->; contradiction|exact Iz]. }
      exists h'. split; [exact E|]. split; [congruence|]. split.
      + intros c Q. rewrite O' by (intros y I; apply Q; right; exact I). apply O1, Q. left. reflexivity.
      + intros y c [<- |I] Dy; [|apply (B' y c I Dy)]. rewrite D0 in Dy. injection Dy as <-. eapply back_frame; [exact Tx| |exact B1].
        intros z Iz. apply O'. intros y I. destruct (H y (or_intror I)) as (c & Dy & _). apply (DJ x y b c D0 Dy); [intros ->; contradiction|exact Iz].
  Qed.
  Lemma load_numpy_ok (f : fsys) sep fname x v : gone sep x v = true -> mem x ignore = false -> is_arr v = true -> stored f fname x v ->
    load_numpy mmap compress f fname x = Ok (comes_back sep lim x v).
  Proof.
    intros Gx I Ar S. unfold gone in Gx. rewrite I in Gx. cbn [orb] in Gx. unfold SavSpec.comes_back. rewrite I, Gx. destruct v as [|y| | | |]; try discriminate.
    specialize (S _ eq_refl). unfold load_numpy. destruct compress.
    - rewrite andb_true_r in MC. rewrite MC. unfold read_npz. rewrite (S _ _ (or_introl eq_refl)). reflexivity.
    - unfold read_arr. rewrite (S _ _ (or_introl eq_refl)). reflexivity.
  Qed.
  Lemma load_scipy_ok (f : fsys) sep fname x v : gone sep x v = true -> mem x ignore = false -> is_sp v = true -> stored f fname x v ->
    load_scipy mmap compress f fname x = Ok (comes_back sep lim x v).
  Proof.
    intros Gx I Ar S. unfold gone in Gx. rewrite I in Gx. cbn [orb] in Gx. unfold SavSpec.comes_back. rewrite I, Gx. destruct v as [| |k d p i| | |]; try discriminate.
    specialize (S _ eq_refl). unfold load_scipy. destruct compress.
    - cbn [app] in S. rewrite (S _ _ (or_intror (or_introl eq_refl))). rewrite andb_true_r in MC. rewrite MC. unfold read_npz. rewrite (S _ _ (or_introl eq_refl)). reflexivity.
    - cbn [app] in S. rewrite (S _ _ (or_intror (or_intror (or_intror (or_introl eq_refl))))). unfold read_arr.
      rewrite (S _ _ (or_introl eq_refl)), (S _ _ (or_intror (or_introl eq_refl))), (S _ _ (or_intror (or_intror (or_introl eq_refl)))). reflexivity.
  Qed.
  Lemma loads_all n : loads_at n.
  Proof.
    induction n as [|n IH]; intros f sep h0 h a fname l Tr S L; [destruct Tr|]. cbn [tree saved SavModel.load_specials] in *. destruct Tr as (T1 & T2 & sub & T3 & T4).
    change (nth a h0 []) with (attrs h0 a) in *.
    destruct S as (S1 & np & sc & ig & rc & S2 & S3 & S4 & S5 & S6 & S7 & S8 & S9 & S10 & S11 & S12 & S13).
    assert (NI : forall (o : obj) k ls, dget o k = Some (VNames ls) -> names_in o k = ls) by (intros o k ls Q; unfold names_in; rewrite Q; reflexivity).
    rewrite (NI _ _ _ S5).
    destruct (load_kids_ok n f sep h0 fname a sub IH) with (rc := rc) (h := h) as (h1 & E1 & L1 & O1 & B1); auto.
    { intros x b D. destruct (T3 x b D) as (X1 & _ & X3). auto. }
    { intros x I. pose proof (S7 x (or_intror (or_intror (or_intror I)))) as Nx. apply S12 in I as (b & D & Gx). exists b. split; [exact D|]. split; [exact Gx|].
      split; [rewrite (S1 x Nx), D, Gx; reflexivity|apply (S13 x b D Gx)]. }
    rewrite E1. assert (A1 : attrs h1 a = attrs h a). { apply O1. intros x I. apply S12 in I as (b & D & Gx). destruct (T3 x b D) as (_ & _ & X3). exact X3. }
    rewrite A1, (NI _ _ _ S2).
    assert (NA : forall k, In k added -> mem k np = false /\ mem k sc = false /\ mem k ig = false).
    { intros k I. repeat split; apply mem_nIn; intros Q; apply (S7 k); auto. }
    destruct (load_all_ok (load_numpy mmap compress f fname) (T h0 a sep) a np h1) as (h2 & E2 & L2 & O2 & D2); [lia| |].
    { intros x I. destruct (S8 x I) as (v & V1 & V2 & V3 & V4 & V5). exists (comes_back sep lim x v). split; [unfold T; rewrite V1; reflexivity|]. apply (load_numpy_ok f sep fname x v V2 V3 V4 V5). }
    rewrite E2. cbn [rbind].
    assert (K2 : names_in (attrs h2 a) k_scipys = sc). { apply NI. rewrite D2, A1. destruct (NA k_scipys) as (Q & _); [cbn; auto|]. rewrite Q. exact S3. }
    rewrite K2.
    destruct (load_all_ok (load_scipy mmap compress f fname) (T h0 a sep) a sc h2) as (h3 & E3 & L3 & O3 & D3); [lia| |].
    { intros x I. destruct (S9 x I) as (v & V1 & V2 & V3 & V4 & V5). exists (comes_back sep lim x v). split; [unfold T; rewrite V1; reflexivity|]. apply (load_scipy_ok f sep fname x v V2 V3 V4 V5). }
    rewrite E3. cbn [rbind].
    assert (K3 : names_in (attrs h3 a) k_ignoreds = ig). { apply NI. rewrite D3, D2, A1. destruct (NA k_ignoreds) as (Q & Q' & _); [cbn; auto|]. rewrite Q, Q'. exact S4. }
    rewrite K3.
    destruct (load_all_ok (fun _ => Ok VNone) (T h0 a sep) a ig h3) as (h4 & E4 & L4 & O4 & D4); [lia| |].
    { intros x I. destruct (S10 x I) as (v & V1 & V2 & V3). exists VNone. split; [unfold T; rewrite V1; cbn [option_map]; rewrite V3; reflexivity|reflexivity]. }
    rewrite E4. exists h4. split; [reflexivity|]. split; [lia|].
    assert (OA : forall b, b <> a -> attrs h4 b = attrs h1 b) by (intros b N; rewrite O4, O3, O2 by exact N; reflexivity).
    split.
    - intros b Nb. rewrite OA by (intros ->; contradiction). apply O1. intros x I. apply S12 in I as (c & D & Gx). destruct (T3 x c D) as (_ & X2 & _). intros Q. apply Nb, X2, Q.
    - cbn [back]. intros x Nx. change (nth a h4 []) with (attrs h4 a). change (nth a h0 []) with (attrs h0 a). change (option_map (comes_back sep lim x) (dget (attrs h0 a) x)) with (T h0 a sep x). split.
      + rewrite D4, D3, D2, A1. destruct (mem x ig) eqn:M1; [reflexivity|]. destruct (mem x sc) eqn:M2; [reflexivity|]. destruct (mem x np) eqn:M3; [reflexivity|].
        rewrite (S1 x Nx). unfold T. destruct (dget (attrs h0 a) x) as [v|] eqn:D; [|reflexivity]. destruct (gone sep x v) eqn:Gx.
        * exfalso. apply mem_nIn in M1, M2, M3. destruct (S11 x v D Gx) as [Q|[Q|Q]]; contradiction.
        * cbn [option_map]. unfold SavSpec.comes_back. unfold gone in Gx. apply orb_false_iff in Gx as [G1 G2]. rewrite G1, G2. reflexivity.
      + intros b D. assert (D0 : dget (attrs h0 a) x = Some (VRef b) /\ gone sep x (VRef b) = false).
        { unfold T in D. destruct (dget (attrs h0 a) x) as [v|]; [|discriminate]. cbn [option_map] in D. injection D as D. unfold SavSpec.comes_back in D. unfold gone.
          destruct (mem x ignore); [discriminate|]. destruct (apart sep lim x v) eqn:AP; [destruct v; discriminate|]. subst v. auto. }
        destruct D0 as [D0 Gx]. destruct (T3 x b D0) as (X1 & X2 & X3). eapply back_frame; [exact X1| |apply (B1 x b); [apply S12; eauto|exact D0]].
        intros c I. apply OA. intros ->. contradiction.
  Qed.
End Gen2.

Section Round.
  Context {A K Oth : Type}.
  Variable size : A -> nat.
  Variable nnz : K -> A -> A -> A -> nat.
  Variable contig : A -> A.
  Variable writable : pystr -> bool.
  Variable picklable : heap A K Oth -> nat -> bool.
  Theorem round_trip : forall n lim ignore separately mmap (s : st A K Oth) a fname l,
    (forall p, writable p = true) -> (forall h, picklable h a = true) ->
    tree n (hp s) a l -> (forall b, In b l -> good_obj (attrs (hp s) b)) ->
    (forall x, In x ignore \/ (exists ls, separately = Some ls /\ In x ls) -> ~ In x added) ->
    mmap && compressed fname = false ->
    exists s', save size nnz contig writable picklable n lim ignore separately s a (ToName fname) = Some (s', Ok tt) /\
    exists h', load n mmap (fs s') fname = Some (Ok (h', a)) /\ length h' = length (hp s) /\ (forall b, ~ In b l -> attrs h' b = attrs (hp s) b) /\
      back size nnz contig n lim ignore separately (hp s) a h'.
  Proof.
    intros n lim ignore sep mmap s a fname l W P Tr G IGN MC. cbn [save]. unfold smart_save.
    destruct (saves_all size nnz contig writable lim ignore (compressed fname) mmap W MC (fun x I => IGN x (or_introl I)) n sep s a fname l Tr G) as (s1 & rs & E1 & L1 & O1 & F1 & S1);
      [intros ls x -> I; apply IGN; right; eauto|].
    rewrite E1. unfold pickle. rewrite P. unfold write. rewrite W. eexists. split; [reflexivity|]. cbn [fs]. unfold load.
    set (f := put (fs s1) fname (FObj (hp s1) a)). assert (E : f fname = Some (FObj (hp s1) a)) by (unfold f, put; rewrite eqb_refl; reflexivity). rewrite E.
    destruct (loads_all size nnz contig lim ignore (compressed fname) mmap MC n f sep (hp s) (hp s1) a fname l Tr) as (h' & E2 & L2 & O2 & B2); [|exact L1|].
    - eapply saved_frame; [exact MC|exact Tr|reflexivity|reflexivity| |exact S1]. intros x p U. unfold f, put. rewrite (proj2 (eqb_neq p fname)); [reflexivity|]. intros ->. apply (under_self _ _ U).
    - rewrite E2. exists h'. split; [reflexivity|]. split; [congruence|]. split; [|exact B2]. intros b N. rewrite O2, O1 by exact N. reflexivity.
  Qed.

  (** To an open file *)
  Theorem handle_round_trip : forall n lim ignore separately mmap (s : st A K Oth) a fname, n <> 0 -> writable fname = true -> picklable (hp s) a = true ->
    (forall x, In x added -> dget (attrs (hp s) a) x = None) ->
    exists s', save size nnz contig writable picklable n lim ignore separately s a (ToHandle fname) = Some (s', Ok tt) /\ hp s' = hp s /\
      load n mmap (fs s') fname = Some (Ok (hp s, a)).
  Proof.
    intros n lim ignore sep mmap s a fname Nn W P H. cbn [save]. unfold pickle. rewrite P. unfold write. rewrite W. eexists. split; [reflexivity|]. split; [reflexivity|].
    cbn [fs]. unfold load, put. rewrite eqb_refl. destruct n as [|n]; [contradiction|]. cbn [load_specials]. unfold names_in.
    rewrite (H k_rec) by (cbn; auto). cbn [load_kids]. rewrite !(H k_numpys) by (cbn; auto). unfold load_all. cbn [rfold rbind].
    rewrite !(H k_scipys) by (cbn; auto). cbn [rfold rbind]. rewrite !(H k_ignoreds) by (cbn; auto). reflexivity.
  Qed.

  (** ** Which files are written, and failures *)
  Notation write := (write writable).
  Notation writes := (writes writable).
  Notation store := (store contig writable).
  Notation save_specials := (save_specials size nnz contig writable).
  Notation st := (st A K Oth).
  Definition elsewhere (fname p : pystr) : Prop := forall l, l <> [] -> p <> names fname l.
  Definition unwritable (fname : pystr) : Prop := exists l, l <> [] /\ writable (names fname l) = false.
  Definition outcome {X} (fname : pystr) (s s' : st) (r : res X) : Prop :=
    (forall p, elsewhere fname p -> fs s' p = fs s p) /\ (forall e, r = Err e -> e = IOError /\ unwritable fname).
  Lemma writes_outcome fname l : (forall p c, In (p, c) l -> exists k, k <> [] /\ p = names fname k) -> forall (s s' : st) r, writes s l = (s', r) -> outcome fname s s' r.
  Proof.
    induction l as [|[p x] l IH]; intros H s s' r E; cbn [SavModel.writes] in E.
    - injection E as <- <-. split; [reflexivity|discriminate].
    - destruct (H p x (or_introl eq_refl)) as (k & K1 & ->). unfold SavModel.write in E. destruct (writable (names fname k)) eqn:Wk.
      + apply IH in E; [|intros q c I; apply (H q c); right; exact I]. destruct E as [E1 E2]. split; [|exact E2]. intros q Q. rewrite (E1 q Q). cbn [fs]. unfold put.
        rewrite (proj2 (eqb_neq q _)); [reflexivity|apply Q, K1].
      + injection E as <- <-. split; [reflexivity|]. intros e Q. injection Q as <-. split; [reflexivity|]. exists k. auto.
  Qed.
  Lemma outcome_trans {X Y} fname (s s1 s2 : st) (r1 : res X) (r2 : res Y) : outcome fname s s1 r1 -> outcome fname s1 s2 r2 -> outcome fname s s2 r2.
  Proof. intros [F1 _] [F2 E2]. split; [|exact E2]. intros p Q. rewrite F2, F1 by exact Q. reflexivity. Qed.
  Lemma files_of_names compress fname x (v : val A K Oth) l : files_of contig compress fname x v = Some l -> forall p c, In (p, c) l -> exists k, k <> [] /\ p = names fname k.
  Proof.
    intros E p c I. assert (U : under fname x p).
    { unfold files_of in E. destruct v; try discriminate; injection E as <-.
      - destruct I as [I|[]]. injection I as <- _. apply subname_under.
      - apply in_app_iff in I as [I|[I|[]]]; [|injection I as <- _; apply subname_under].
        destruct compress; cbn [In] in I; repeat (destruct I as [I|I]; [injection I as <- _; apply subname_under|]); contradiction. }
    destruct U as (k & ->). exists (x :: k). split; [discriminate|reflexivity].
  Qed.
  Lemma store_outcome compress fname ign (asides : obj A K Oth) : forall (s s' : st) r, store compress fname ign s asides = (s', r) -> outcome fname s s' r.
  Proof.
    induction asides as [|[x v] rest IH]; intros s s' r E; cbn [SavModel.store] in E; [injection E as <- <-; split; [reflexivity|discriminate]|].
    match type of E with context [match ?t with Some _ => _ | None => _ end] => destruct t as [l|] eqn:EL end.
    - assert (EF : files_of contig compress fname x v = Some l). { revert EL. match goal with |- (if ?b then _ else _) = _ -> _ => destruct b end; [discriminate|auto]. }
      destruct (writes s l) as [s1 [t|e]] eqn:EW; pose proof (writes_outcome fname l (files_of_names _ _ _ _ _ EF) _ _ _ EW) as O1.
      + destruct (store compress fname ign s1 rest) as [s2 [[[np sc] ig]|e]] eqn:ES; injection E as <- <-; pose proof (outcome_trans _ _ _ _ _ _ O1 (IH _ _ _ ES)) as O2.
        * split; [apply O2|intros e Q; destruct (is_sp v); discriminate].
        * exact O2.
      + injection E as <- <-. split; [apply O1|]. intros e' Q. injection Q as <-. apply O1. reflexivity.
    - destruct (store compress fname ign s rest) as [s2 [[[np sc] ig]|e]] eqn:ES; injection E as <- <-; pose proof (IH _ _ _ ES) as O2.
      + split; [apply O2|discriminate].
      + exact O2.
  Qed.
  Lemma outcome_up {X} fname x (s s' : st) (r : res X) : outcome (names fname [x]) s s' r -> outcome fname s s' r.
  Proof.
    intros [F E]. split.
    - intros p Q. apply F. intros l Nl ->. apply (Q (x :: l)); [discriminate|]. change (x :: l) with ([x] ++ l). rewrite names_app. reflexivity.
    - intros e R. destruct (E e R) as [-> (l & Nl & Wl)]. split; [reflexivity|]. exists (x :: l). split; [discriminate|]. change (x :: l) with ([x] ++ l). rewrite names_app. exact Wl.
  Qed.
  Lemma visit_outcome (sv : st -> nat -> pystr -> option (st * res (restores A K Oth))) fname :
    (forall s a f s' r, sv s a f = Some (s', r) -> outcome f s s' r) ->
    forall (o : obj A K Oth) s s' r, visit sv fname s o = Some (s', r) -> outcome fname s s' r.
  Proof.
    intros H. induction o as [|[x v] o IH]; intros s s' r E; cbn [visit] in E; [injection E as <- <-; split; [reflexivity|discriminate]|].
    destruct v; try (apply IH, E).
    destruct (sv s a (names fname [x])) as [[s1 [rs|e]]|] eqn:E1; [| |discriminate]; pose proof (outcome_up _ _ _ _ _ (H _ _ _ _ _ E1)) as O1.
    - destruct (visit sv fname s1 o) as [[s2 [[l rs2]|e]]|] eqn:E2; try discriminate; injection E as <- <-; pose proof (outcome_trans _ _ _ _ _ _ O1 (IH _ _ _ E2)) as O2.
      + split; [apply O2|discriminate].
      + exact O2.
    - injection E as <- <-. split; [apply O1|]. intros e' Q. injection Q as <-. apply O1. reflexivity.
  Qed.
  Lemma save_specials_outcome n lim ign compress : forall sep s a fname s' r, save_specials n lim ign compress sep s a fname = Some (s', r) -> outcome fname s s' r.
  Proof.
    induction n as [|n IH]; intros sep s a fname s' r E; [discriminate|]. cbn [SavModel.save_specials] in E.
    destruct (set_aside _ _) as [asides o1]. destruct (visit _ fname _ o1) as [[s2 r2]|] eqn:EV; [|discriminate].
    apply visit_outcome in EV; [|intros; eapply IH; eassumption].
    assert (O1 : outcome fname s s2 r2) by (destruct EV as [F Q]; split; [exact F|exact Q]). clear EV. destruct r2 as [[rc rs]|e].
    - destruct (store compress fname ign s2 asides) as [s3 [[[np sc] ig]|e]] eqn:ES; injection E as <- <-; pose proof (outcome_trans _ _ _ _ _ _ O1 (store_outcome _ _ _ _ _ _ _ ES)) as [F Q]; cbn [fs].
      + split; [exact F|discriminate].
      + split; [exact F|]. intros e' R. injection R as <-. apply Q. reflexivity.
    - injection E as <- <-. split; [apply O1|]. intros e' R. injection R as <-. apply O1. reflexivity.
  Qed.

  Theorem save_files : forall n lim ign sep (s : st) a t s' r, save size nnz contig writable picklable n lim ign sep s a t = Some (s', r) ->
    forall p, match t with ToName fname => forall l, p <> names fname l | ToHandle fname => p <> fname end -> fs s' p = fs s p.
  Proof.
    assert (PK : forall (s : st) a f s' r p, pickle writable picklable s a f = (s', r) -> p <> f -> fs s' p = fs s p).
    { intros s a f s' r p E N. unfold pickle, SavModel.write in E. destruct (picklable (hp s) a), (writable f); injection E as <- _; try reflexivity;
        cbn [fs]; unfold put; rewrite (proj2 (eqb_neq p f) N); reflexivity. }
    intros n lim ign sep s a t s' r E p N. destruct t as [f|f]; cbn [save] in E.
    - assert (EL : elsewhere f p) by (intros l _; apply N).
      assert (NF : p <> f) by (apply (N [])).
      unfold smart_save in E. destruct (save_specials n lim ign (compressed f) sep s a f) as [[s1 [rs|e]]|] eqn:E1; [| |discriminate]; apply save_specials_outcome in E1 as [F _].
      + destruct (pickle writable picklable s1 a f) as [s2 r2] eqn:EP. injection E as <- _. cbn [fs]. rewrite (PK _ _ _ _ _ _ EP NF). apply F, EL.
      + injection E as <- _. apply F, EL.
    - injection E as E. apply (PK _ _ _ _ _ _ E), N.
  Qed.
  Theorem save_keeps : forall n lim ign sep (s : st) a t s' r, save size nnz contig writable picklable n lim ign sep s a t = Some (s', r) ->
    r = Ok tt \/ r = Err AttributeError \/ (forall fname l, t = ToName fname -> l <> [] -> writable (names fname l) = true) \/ (forall x b, ~ In (x, VRef b) (attrs (hp s) a)) ->
    same_attrs (hp s) (hp s').
  Proof.
    intros n lim ign sep s a t s' r E H. destruct t as [f|f]; cbn [save] in E.
    - destruct H as [H|[H|[H|H]]]; [| | |eapply smart_save_flat; eassumption].
      + eapply smart_save_same; [exact E|]. left. exact H.
      + eapply smart_save_same; [exact E|]. right. unfold smart_save in E. destruct (save_specials n lim ign (compressed f) sep s a f) as [[s1 [rs|e]]|] eqn:E1; [eauto| |discriminate].
        injection E as _ <-. subst. apply save_specials_outcome in E1 as [_ Q]. injection H as ->. destruct (Q _ eq_refl) as [X _]. discriminate.
      + eapply smart_save_same; [exact E|]. right. unfold smart_save in E. destruct (save_specials n lim ign (compressed f) sep s a f) as [[s1 [rs|e]]|] eqn:E1; [eauto| |discriminate].
        exfalso. apply save_specials_outcome in E1 as [_ Q]. destruct (Q _ eq_refl) as [_ (l & Nl & Wl)]. rewrite (H f l eq_refl Nl) in Wl. discriminate.
    - injection E as E. unfold pickle, SavModel.write in E. intros b x _. destruct (picklable (hp s) a), (writable f); injection E as <- _; reflexivity.
  Qed.

  (** ** Names of the files *)
  Lemma ends_with_iff (z t : pystr) : ends_with z t = true <-> exists q, t = q ++ z.
  Proof.
    unfold ends_with. rewrite andb_true_iff, Nat.leb_le. split.
    - intros [E L]. apply (proj1 (eqb_eq _ _)) in E. exists (firstn (length t - length z) t). rewrite <- E at 2. symmetry. apply firstn_skipn.
    - intros (q & ->). rewrite app_length. split; [|unfold pystr in *; lia]. replace (length q + length z - length z) with (length q) by lia.
      apply eqb_eq. rewrite skipn_app, skipn_all, Nat.sub_diag. reflexivity.
  Qed.
  Lemma compressed_iff fname : compressed fname = true <-> exists q, fname = q ++ u ".gz" \/ fname = q ++ u ".bz2".
  Proof.
    unfold compressed. rewrite orb_true_iff, !ends_with_iff. split.
    - intros [(q & E)|(q & E)]; exists q; auto.
    - intros (q & [E|E]); [left|right]; exists q; exact E.
  Qed.
  Theorem array_files : forall n lim ignore separately (s s' : st) a fname l x v,
    (forall p, writable p = true) -> (forall h, picklable h a = true) ->
    tree n (hp s) a l -> (forall b, In b l -> good_obj (attrs (hp s) b)) ->
    (forall x, In x ignore \/ (exists ls, separately = Some ls /\ In x ls) -> ~ In x added) ->
    save size nnz contig writable picklable n lim ignore separately s a (ToName fname) = Some (s', Ok tt) ->
    dget (attrs (hp s) a) x = Some v -> ~ In x ignore -> apart size nnz separately lim x v = true ->
    let packed := exists q, fname = q ++ u ".gz" \/ fname = q ++ u ".bz2" in
    let at_ t := fs s' (fname ++ u "." ++ x ++ t) in
    match v with
    | VArr y => (~ packed -> at_ (u ".npy") = Some (FArr (contig y))) /\ (packed -> at_ (u ".npz") = Some (FNpz [(u "val", contig y)]))
    | VSp k d p i =>
        (~ packed -> at_ (u ".data.npy") = Some (FArr d) /\ at_ (u ".indptr.npy") = Some (FArr p) /\ at_ (u ".indices.npy") = Some (FArr i) /\ at_ (u ".npy") = Some (FHollow k)) /\
        (packed -> at_ (u ".sparse.npz") = Some (FNpz [(u "data", d); (u "indptr", p); (u "indices", i)]) /\ at_ (u ".npz") = Some (FHollow k))
    | _ => True
    end.
  Proof.
    intros n lim ignore sep s s' a fname l x v W P Tr G IGN E D NI AP packed at_.
    assert (MC : false && compressed fname = false) by reflexivity.
    destruct (saves_all size nnz contig writable lim ignore (compressed fname) false W MC (fun x I => IGN x (or_introl I)) n sep s a fname l Tr G) as (s1 & rs & E1 & L1 & O1 & F1 & S1);
      [intros ls y -> I; apply IGN; right; eauto|].
    cbn [save] in E. unfold smart_save in E. rewrite E1 in E. unfold pickle in E. rewrite P in E. unfold SavModel.write in E. rewrite W in E. injection E as <-. cbn [fs] in at_.
    destruct n as [|n]; [destruct Tr|]. cbn [saved] in S1. destruct S1 as (_ & np & sc & ig & rc & _ & _ & _ & _ & _ & _ & S8 & S9 & S10 & S11 & _).
    assert (MI : mem x ignore = false) by (apply mem_nIn; exact NI).
    assert (GX : gone size nnz lim ignore sep x v = true) by (unfold gone; rewrite MI; exact AP).
    assert (ST : is_arr v = true \/ is_sp v = true -> stored contig (compressed fname) (put (fs s1) fname (FObj (hp s1) a)) fname x v).
    { intros AS. assert (ST : stored contig (compressed fname) (fs s1) fname x v).
      { destruct (S11 x v D GX) as [I|[I|I]].
        - destruct (S8 x I) as (w & D' & _ & _ & _ & Q). rewrite D in D'. injection D' as <-. exact Q.
        - destruct (S9 x I) as (w & D' & _ & _ & _ & Q). rewrite D in D'. injection D' as <-. exact Q.
        - exfalso. destruct (S10 x I) as (w & D' & _ & Q). rewrite D in D'. injection D' as <-. unfold comes_back in Q. rewrite MI, AP in Q. destruct v, AS; discriminate. }
      intros fl Ef p c I. unfold put. rewrite (proj2 (eqb_neq p fname)); [apply (ST fl Ef p c I)|]. intros ->.
      destruct (files_of_names _ _ _ _ _ Ef _ _ I) as (k & K1 & K2). destruct k as [|y k]; [contradiction|]. apply (under_self fname y). exists k. exact K2. }
    assert (NP : ~ packed -> compressed fname = false) by (intros Np; destruct (compressed fname) eqn:C; [exfalso; apply Np, compressed_iff, C|reflexivity]).
    assert (PK : packed -> compressed fname = true) by (intros Np; apply compressed_iff, Np).
    destruct v as [|y|k d p i| | |]; try exact Logic.I.
    - specialize (ST (or_introl eq_refl) _ eq_refl). split; intros C; [apply NP in C|apply PK in C]; rewrite C in ST; exact (ST _ _ (or_introl eq_refl)).
    - specialize (ST (or_intror eq_refl) _ eq_refl). split; intros C; [apply NP in C|apply PK in C]; rewrite C in ST; cbn [app] in ST.
      + split; [exact (ST _ _ (or_introl eq_refl))|]. split; [exact (ST _ _ (or_intror (or_introl eq_refl)))|]. split; [exact (ST _ _ (or_intror (or_intror (or_introl eq_refl))))|].
        exact (ST _ _ (or_intror (or_intror (or_intror (or_introl eq_refl))))).
      + split; [exact (ST _ _ (or_introl eq_refl))|]. exact (ST _ _ (or_intror (or_introl eq_refl))).
  Qed.

  (** ** Failures when loading *)
  Lemma load_all_fails (g : pystr -> res (val A K Oth)) a l : forall h, (exists x e, In x l /\ g x = Err e) -> exists e, load_all g l h a = Err e.
  Proof.
    unfold load_all. induction l as [|y l IH]; intros h (x & e & I & E); [destruct I|]. cbn [rfold]. destruct (g y) as [v|e'] eqn:Ey; cbn [rbind]; [|exists e'; reflexivity].
    destruct I as [-> |I]; [congruence|]. apply IH. exists x, e. auto.
  Qed.
  Theorem load_failures : forall n mmap (f : pystr -> option (file A K Oth)) fname, 
    (f fname = None -> load n mmap f fname = Some (Err IOError)) /\
    forall h a, n <> 0 -> f fname = Some (FObj h a) ->
      (forall x r, dget (attrs h a) (u "__recursive_saveloads") = Some (VNames (x :: r)) -> (forall b, dget (attrs h a) x <> Some (VRef b)) -> load n mmap f fname = Some (Err AttributeError)) /\
      (forall x l, dget (attrs h a) (u "__recursive_saveloads") = None -> dget (attrs h a) (u "__numpys") = Some (VNames l) -> In x l ->
         f (fname ++ u "." ++ x ++ u ".npy") = None -> f (fname ++ u "." ++ x ++ u ".npz") = None -> exists e, load n mmap f fname = Some (Err e)) /\
      (forall x l, dget (attrs h a) (u "__recursive_saveloads") = None -> dget (attrs h a) (u "__numpys") = Some (VNames (x :: l)) -> mmap = true ->
         (exists q, fname = q ++ u ".gz" \/ fname = q ++ u ".bz2") -> load n mmap f fname = Some (Err IOError)).
  Proof.
    intros n mmap f fname. split; [intros E; unfold load; rewrite E; reflexivity|]. intros h a Nn E. destruct n as [|n]; [contradiction|]. split; [|split].
    - intros x r D N. unfold load. rewrite E. cbn [load_specials]. assert (R : names_in (attrs h a) k_rec = x :: r) by (unfold names_in, k_rec; rewrite D; reflexivity). rewrite R. cbn [load_kids].
      destruct (dget (attrs h a) x) as [[b| | | | |]|] eqn:Dx; try reflexivity. exfalso. apply (N b). reflexivity.
    - intros x l D0 D I F1 F2. unfold load. rewrite E. cbn [load_specials]. assert (R : names_in (attrs h a) k_rec = []) by (unfold names_in, k_rec; rewrite D0; reflexivity). rewrite R. cbn [load_kids].
      assert (R1 : names_in (attrs h a) k_numpys = l) by (unfold names_in, k_numpys; rewrite D; reflexivity). rewrite R1.
      destruct (load_all_fails (load_numpy mmap (compressed fname) f fname) a l h) as (e & Q); [|rewrite Q; exists e; reflexivity].
      exists x, IOError. split; [exact I|]. unfold load_numpy. destruct (compressed fname); [destruct mmap; [reflexivity|]; unfold read_npz|unfold read_arr].
      + change (f (subname true fname [x])) with (f (fname ++ u "." ++ x ++ u ".npz")). rewrite F2. reflexivity.
      + change (f (subname false fname [x])) with (f (fname ++ u "." ++ x ++ u ".npy")). rewrite F1. reflexivity.
    - intros x l D0 D -> C. apply compressed_iff in C. unfold load. rewrite E. cbn [load_specials]. assert (R : names_in (attrs h a) k_rec = []) by (unfold names_in, k_rec; rewrite D0; reflexivity). rewrite R. cbn [load_kids].
      assert (R1 : names_in (attrs h a) k_numpys = x :: l) by (unfold names_in, k_numpys; rewrite D; reflexivity). rewrite R1, C. reflexivity.
  Qed.
End Round.
