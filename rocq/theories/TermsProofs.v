(** * Proofs about TypeNode and TokenNode. *)
From Coq Require Import String NArith ZArith Bool Arith Lia List.
From Verif Require Import Base BaseLemmas Str StrLemmas VocabModel TermsModel.
Import ListNotations.

Definition type_fields := [f_word; f_lemma; f_pos].
Definition token_fields := [f_word; f_lemma; f_pos; f_fid; f_lid].

Lemma fields_ok known : forall eles fmts a, length eles = length fmts -> (forall f, In f fmts -> In f known) ->
  exists a', fields known eles fmts a = Ok a' /\
    (forall c, ~ In c fmts -> dget a' c = dget a c) /\
    (forall c, In c fmts -> exists e, In e eles /\ dget a' c = Some (Some e)) /\
    (NoDup fmts -> forall i e f, nth_error eles i = Some e -> nth_error fmts i = Some f -> dget a' f = Some (Some e)).
Proof.
  induction eles as [|e eles IH]; intros [|f fmts] a L K; cbn in L; try lia.
  - exists a. cbn. repeat split; auto; [intros c []|]. intros _ [|i]; discriminate.
  - cbn [fields]. assert (Hk : mem f known = true) by (apply mem_In, K; cbn; auto). rewrite Hk.
    destruct (IH fmts (dset a f (Some e))) as (a' & E & H1 & H2 & H3); [lia|intros; apply K; cbn; auto|].
    exists a'. split; auto. split; [|split].
    + intros c N. cbn in N. rewrite H1 by tauto. rewrite dget_dset. destruct (eqdec c f); [subst; tauto|auto].
    + intros c I. destruct (in_dec eqdec c fmts) as [I'|I'].
      * destruct (H2 c I') as (e' & A & B). exists e'. cbn; auto.
      * destruct I as [<-|I]; [|tauto]. exists e. split; [cbn; auto|]. rewrite H1 by auto. apply dget_dset_same.
    + intros ND. inversion ND; subst. intros [|i] e' f' N1 N2; cbn in N1, N2.
      * injection N1 as <-. injection N2 as <-. rewrite H1 by auto. apply dget_dset_same.
      * eapply H3; eauto.
Qed.
Lemma fields_bad known : forall eles fmts a, length eles = length fmts -> (exists f, In f fmts /\ ~ In f known) ->
  fields known eles fmts a = Err ValueError.
Proof.
  induction eles as [|e eles IH]; intros [|f fmts] a L (g & I & N); cbn in L; try lia; [destruct I|].
  cbn [fields]. destruct (mem f known) eqn:M; auto. apply IH; [lia|]. exists g. split; auto.
  destruct I as [->|I]; auto. apply mem_In in M. tauto.
Qed.

Lemma rmapm_ok {A B} (f : A -> res B) l ys : Forall2 (fun x y => f x = Ok y) l ys -> rmapm f l = Ok ys.
Proof. induction 1; cbn; auto. rewrite H. cbn. rewrite IHForall2. auto. Qed.

Lemma fmt_join_ok a fmt vals : Forall2 (fun c v => dget a c = Some (Some v)) (split slash fmt) vals ->
  fmt_join a fmt = Ok (join slash vals).
Proof.
  intros F. unfold fmt_join. rewrite (rmapm_ok _ _ (map Some vals)).
  - cbn. rewrite (rmapm_ok _ _ vals); auto. clear. induction vals; cbn; constructor; auto.
  - induction F; cbn; constructor; auto. rewrite H. auto.
Qed.

Lemma Forall2_nth {A B} (R : A -> B -> Prop) l l' : length l = length l' ->
  (forall i x y, nth_error l i = Some x -> nth_error l' i = Some y -> R x y) -> Forall2 R l l'.
Proof.
  revert l'. induction l as [|x l IH]; intros [|y l'] L H; cbn in L; try lia; constructor.
  - apply (H 0); auto.
  - apply IH; [lia|]. intros i a b. apply (H (S i)).
Qed.

Lemma Forall2_len {A B} (R : A -> B -> Prop) l l' : Forall2 R l l' -> length l = length l'.
Proof. induction 1; cbn; auto. Qed.

(** Formatting what was parsed gives back the string, when field names are distinct. *)
Lemma parse_format_gen known s fmt a0 a : NoDup (split slash fmt) -> length (split slash s) = length (split slash fmt) ->
  (forall f, In f (split slash fmt) -> In f known) ->
  fields known (split slash s) (split slash fmt) a0 = Ok a -> fmt_join a fmt = Ok s.
Proof.
  intros ND L K E. destruct (fields_ok known (split slash s) (split slash fmt) a0 L K) as (a' & E' & _ & _ & H).
  assert (a' = a) by congruence. subst a'. rewrite (fmt_join_ok a fmt (split slash s)).
  - rewrite join_split. auto.
  - apply Forall2_nth; auto. intros i x y N1 N2. eapply H; eauto.
Qed.

Lemma type_roundtrip {T} (s fmt : pystr) (toks : list T) : s <> [] -> fmt <> [] ->
  NoDup (split slash fmt) -> (forall f, In f (split slash fmt) -> In f type_fields) ->
  length (split slash s) = length (split slash fmt) ->
  exists n, tn_of_str s fmt toks = Ok n /\ tn_type n = Ok s /\ tn_tokens n = toks.
Proof.
  intros Hs Hf ND K L. unfold tn_of_str. destruct fmt as [|c fmt]; [congruence|]. destruct s as [|d s]; [congruence|].
  rewrite L, Nat.eqb_refl. cbn [negb]. destruct (fields_ok type_fields _ _ (item_attrs None None None) L K) as (a & E & _).
  fold type_fields. rewrite E. cbn [rbind]. eexists. split; [reflexivity|]. split; auto.
  unfold tn_type; cbn [tn_attrs tn_format]. eapply parse_format_gen; eauto.
Qed.
Lemma type_bad_count {T} (s fmt : pystr) (toks : list T) : s <> [] -> fmt <> [] ->
  length (split slash s) <> length (split slash fmt) -> tn_of_str s fmt toks = Err ValueError.
Proof.
  intros Hs Hf L. unfold tn_of_str. destruct fmt as [|c fmt]; [congruence|]. destruct s as [|d s]; [congruence|].
  destruct (Nat.eqb_spec (length (split slash (d :: s))) (length (split slash (c :: fmt)))); [congruence|]. auto.
Qed.
Lemma token_roundtrip (s fmt fid lid : pystr) : s <> [] -> fmt <> [] ->
  NoDup (split slash fmt) -> (forall f, In f (split slash fmt) -> In f token_fields) ->
  length (split slash s) = length (split slash fmt) ->
  exists n, kn_of_str s fmt fid lid = Ok n /\ kn_token n = Ok s.
Proof.
  intros Hs Hf ND K L. unfold kn_of_str. destruct fmt as [|c fmt]; [congruence|]. destruct s as [|d s]; [congruence|].
  rewrite L, Nat.eqb_refl. cbn [negb]. destruct (fields_ok token_fields _ _ (item_attrs None None None ++ [(f_fid, Some fid); (f_lid, Some lid)]) L K) as (a & E & _).
  fold token_fields. rewrite E. cbn [rbind]. eexists. split; [reflexivity|].
  unfold kn_token; cbn [kn_attrs kn_format]. eapply parse_format_gen; eauto.
Qed.

(** Parsing what was formatted restores the attributes named by the format. *)
Lemma format_parse_gen known (a a0 : attrs) fmt vals : NoDup (split slash fmt) ->
  (forall f, In f (split slash fmt) -> In f known) ->
  Forall2 (fun c v => dget a c = Some (Some v) /\ ~ In slash v) (split slash fmt) vals ->
  exists s a', fmt_join a fmt = Ok s /\ split slash s = vals /\ fields known (split slash s) (split slash fmt) a0 = Ok a' /\
    forall c, In c (split slash fmt) -> dget a' c = dget a c.
Proof.
  intros ND K F. exists (join slash vals).
  assert (S1 : split slash (join slash vals) = vals).
  { apply split_join.
    - destruct (split slash fmt) eqn:E; [elim (split_nonempty _ _ E)|]. inversion F; congruence.
    - clear - F. induction F; constructor; tauto. }
  assert (L : length vals = length (split slash fmt)) by (symmetry; eapply Forall2_len; eauto).
  destruct (fields_ok known vals (split slash fmt) a0 L K) as (a' & E & _ & _ & H). exists a'.
  split; [apply fmt_join_ok; clear - F; induction F; constructor; tauto|]. rewrite S1. split; auto. split; auto.
  intros c I. apply In_nth_error in I. destruct I as [i I].
  destruct (nth_error vals i) as [v|] eqn:V.
  - rewrite (H ND i v c V I). symmetry. clear - F I V. revert i I V.
    induction F; intros [|i] I V; cbn in *; try discriminate; [injection I as <-; injection V as <-; tauto|eauto].
  - exfalso. apply nth_error_None in V. assert (nth_error (split slash fmt) i <> None) by congruence.
    apply nth_error_Some in H0. lia.
Qed.

Lemma type_of_attrs {T} (w l p : option pystr) fmt (toks : list T) x vs : fmt <> [] -> x <> [] -> w = Some x \/ l = Some x \/ p = Some x ->
  Forall2 (fun f v => f = f_word /\ w = Some v \/ f = f_lemma /\ l = Some v \/ f = f_pos /\ p = Some v) (split slash fmt) vs ->
  exists n, tn_of_attrs w l p fmt toks = Ok n /\ tn_type n = Ok (join slash vs) /\ tn_tokens n = toks.
Proof.
  intros Hf Hx Hw F. exists (TNode (item_attrs w l p) fmt toks). split; [|split; [|reflexivity]].
  - unfold tn_of_attrs. destruct fmt as [|c fmt]; [congruence|]. destruct x as [|c' x]; [congruence|].
    replace (truthy w || truthy l || truthy p) with true; [reflexivity|]. destruct Hw as [->|[->| ->]]; cbn [truthy]; now rewrite ?orb_true_r.
  - unfold tn_type, fmt_join. cbn [tn_attrs tn_format].
    replace (rmapm _ (split slash fmt)) with (Ok (A := list (option pystr)) (map Some vs)).
    + cbn [rbind]. replace (rmapm _ (map Some vs)) with (Ok (A := list pystr) vs); [reflexivity|]. clear F.
      induction vs as [|v vs IH]; [reflexivity|]. cbn [map rmapm rbind]. rewrite <- IH. reflexivity.
    + induction F as [|f v fs vs' H F IH]; [reflexivity|]. cbn [rmapm map]. rewrite <- IH.
      assert (E : dget (item_attrs w l p) f = Some (Some v)) by (destruct H as [(-> & ->)|[(-> & ->)|(-> & ->)]]; reflexivity).
      rewrite E. reflexivity.
Qed.
Lemma type_none {T} (w l p : option pystr) fmt (toks : list T) x : fmt <> [] -> x <> [] -> w = Some x \/ l = Some x \/ p = Some x ->
  (forall f, In f (split slash fmt) -> In f [f_word; f_lemma; f_pos]) ->
  (exists f, In f (split slash fmt) /\ (f = f_word /\ w = None \/ f = f_lemma /\ l = None \/ f = f_pos /\ p = None)) ->
  exists n, tn_of_attrs w l p fmt toks = Ok n /\ tn_type n = Err TypeError.
Proof.
  intros Hf Hx Hw Hk (f0 & I0 & H0). exists (TNode (item_attrs w l p) fmt toks). split.
  - unfold tn_of_attrs. destruct fmt as [|c fmt]; [congruence|]. destruct x as [|c' x]; [congruence|].
    replace (truthy w || truthy l || truthy p) with true; [reflexivity|]. destruct Hw as [->|[->| ->]]; cbn [truthy]; now rewrite ?orb_true_r.
  - unfold tn_type, fmt_join. cbn [tn_attrs tn_format].
    assert (E0 : dget (item_attrs w l p) f0 = Some None) by (destruct H0 as [(-> & ->)|[(-> & ->)|(-> & ->)]]; reflexivity).
    assert (Ek : forall f, In f (split slash fmt) -> exists v, dget (item_attrs w l p) f = Some v)
      by (intros f I; destruct (Hk f I) as [<-|[<-|[<-|[]]]]; eexists; reflexivity).
    clear - I0 E0 Ek. set (g := fun f => match dget (item_attrs w l p) f with Some v => Ok v | None => _ end).
    assert (X : exists vs, rmapm g (split slash fmt) = Ok vs /\ In None vs).
    { induction (split slash fmt) as [|f fs IH]; [destruct I0|]. cbn [rmapm]. destruct (Ek f (or_introl eq_refl)) as (v & Ev).
      assert (Eg : g f = Ok v) by (unfold g; now rewrite Ev). rewrite Eg. cbn [rbind].
      assert (Y : exists vs, rmapm g fs = Ok vs).
      { clear - Ek. assert (Ek' : forall f, In f fs -> exists v, dget (item_attrs w l p) f = Some v) by (intros f' I; apply Ek; now right). clear Ek.
        induction fs as [|f' fs IH]; [eexists; reflexivity|]. cbn [rmapm]. destruct (Ek' f' (or_introl eq_refl)) as (v & Ev).
        unfold g at 1. rewrite Ev. cbn [rbind]. destruct IH as (vs & ->); [intros f2 I2; apply Ek'; now right|]. eexists. reflexivity. }
      destruct I0 as [->|I0].
      - destruct Y as (vs & ->). eexists. split; [reflexivity|]. left. congruence.
      - destruct (IH I0) as (vs & -> & In'); [intros f' I; apply Ek; now right|]. eexists. split; [reflexivity|]. now right. }
    destruct X as (vs & E & I). fold g. rewrite E. cbn [rbind]. clear E.
    assert (Z0 : rmapm (fun v : option pystr => match v with Some s => Ok s | None => Err TypeError end) vs = Err TypeError).
    { induction vs as [|[v|] vs IH]; [destruct I| |reflexivity]. destruct I as [I|I]; [discriminate|]. cbn [rmapm rbind]. rewrite (IH I). reflexivity. }
    rewrite Z0. reflexivity.
Qed.
Lemma token_of_attrs (w l p : option pystr) (fid lid : pystr) fmt x vs : fmt <> [] -> x <> [] -> w = Some x \/ l = Some x \/ p = Some x ->
  Forall2 (fun f v => f = f_word /\ w = Some v \/ f = f_lemma /\ l = Some v \/ f = f_pos /\ p = Some v \/ f = f_fid /\ fid = v \/ f = f_lid /\ lid = v)
    (split slash fmt) vs ->
  exists n, kn_of_attrs w l p fid lid fmt = Ok n /\ kn_token n = Ok (join slash vs).
Proof.
  intros Hf Hx Hw F. exists (KNode (item_attrs w l p ++ [(f_fid, Some fid); (f_lid, Some lid)]) fmt). split.
  - unfold kn_of_attrs. destruct fmt as [|c fmt]; [congruence|]. destruct x as [|c' x]; [congruence|].
    replace (truthy w || truthy l || truthy p) with true; [reflexivity|]. destruct Hw as [->|[->| ->]]; cbn [truthy]; now rewrite ?orb_true_r.
  - unfold kn_token, fmt_join. cbn [kn_attrs kn_format].
    replace (rmapm _ (split slash fmt)) with (Ok (A := list (option pystr)) (map Some vs)).
    + cbn [rbind]. replace (rmapm _ (map Some vs)) with (Ok (A := list pystr) vs); [reflexivity|]. clear F.
      induction vs as [|v vs IH]; [reflexivity|]. cbn [map rmapm rbind]. rewrite <- IH. reflexivity.
    + induction F as [|f v fs vs' H F IH]; [reflexivity|]. cbn [rmapm map]. rewrite <- IH.
      assert (E : dget (item_attrs w l p ++ [(f_fid, Some fid); (f_lid, Some lid)]) f = Some (Some v))
        by (destruct H as [(-> & ->)|[(-> & ->)|[(-> & ->)|[(-> & ->)|(-> & ->)]]]]; reflexivity).
      rewrite E. reflexivity.
Qed.

Lemma type_parse_format {T} (w l p : option pystr) fmt (toks : list T) n :
  tn_of_attrs w l p fmt toks = Ok n -> NoDup (split slash fmt) ->
  (forall f, In f (split slash fmt) -> In f type_fields /\ exists v, dget (tn_attrs n) f = Some (Some v) /\ ~ In slash v) ->
  forall s, tn_type n = Ok s -> s <> [] ->
  exists n', tn_of_str s fmt toks = Ok n' /\ (forall f, In f (split slash fmt) -> dget (tn_attrs n') f = dget (tn_attrs n) f).
Proof.
  intros E ND H s Es Hs. assert (Hf : tn_format n = fmt /\ fmt <> []).
  { unfold tn_of_attrs in E. destruct fmt; [discriminate|]. inversion E; subst; cbn. split; auto; discriminate. }
  destruct Hf as [Hf Hf']. assert (V : exists vals, Forall2 (fun c v => dget (tn_attrs n) c = Some (Some v) /\ ~ In slash v) (split slash fmt) vals).
  { clear - H. induction (split slash fmt) as [|f fs IH]; [exists []; constructor|].
    destruct IH as [vals F]; [intros; apply H; cbn; auto|]. destruct (H f) as (_ & v & A); [cbn; auto|].
    exists (v :: vals). constructor; auto. }
  destruct V as [vals F].
  destruct (format_parse_gen type_fields (tn_attrs n) (item_attrs None None None) fmt vals ND) as (s' & a' & E1 & E2 & E3 & E4); auto.
  { intros; apply H; auto. }
  unfold tn_type in Es. rewrite Hf in Es. assert (s' = s) by congruence. subst s'.
  exists (TNode a' fmt toks). split; auto. unfold tn_of_str. destruct fmt; [congruence|]. destruct s as [|x s]; [congruence|].
  rewrite E2, <- (Forall2_len _ _ _ F), Nat.eqb_refl. cbn [negb]. rewrite <- E2. fold type_fields. rewrite E3. auto.
Qed.
Lemma token_parse_format (w l p : option pystr) (fid lid : pystr) fmt n :
  kn_of_attrs w l p fid lid fmt = Ok n -> NoDup (split slash fmt) ->
  (forall f, In f (split slash fmt) -> In f token_fields /\ exists v, dget (kn_attrs n) f = Some (Some v) /\ ~ In slash v) ->
  forall s, kn_token n = Ok s -> s <> [] -> forall fid' lid',
  exists n', kn_of_str s fmt fid' lid' = Ok n' /\ (forall f, In f (split slash fmt) -> dget (kn_attrs n') f = dget (kn_attrs n) f).
Proof.
  intros E ND H s Es Hs fid' lid'. assert (Hf : kn_format n = fmt /\ fmt <> []).
  { unfold kn_of_attrs in E. destruct fmt; [discriminate|]. inversion E; subst; cbn. split; auto; discriminate. }
  destruct Hf as [Hf Hf']. assert (V : exists vals, Forall2 (fun c v => dget (kn_attrs n) c = Some (Some v) /\ ~ In slash v) (split slash fmt) vals).
  { clear - H. induction (split slash fmt) as [|f fs IH]; [exists []; constructor|].
    destruct IH as [vals F]; [intros; apply H; cbn; auto|]. destruct (H f) as (_ & v & A); [cbn; auto|].
    exists (v :: vals). constructor; auto. }
  destruct V as [vals F].
  destruct (format_parse_gen token_fields (kn_attrs n) (item_attrs None None None ++ [(f_fid, Some fid'); (f_lid, Some lid')]) fmt vals ND) as (s' & a' & E1 & E2 & E3 & E4); auto.
  { intros; apply H; auto. }
  unfold kn_token in Es. rewrite Hf in Es. assert (s' = s) by congruence. subst s'.
  exists (KNode a' fmt). split; auto. unfold kn_of_str. destruct fmt; [congruence|]. destruct s as [|x s]; [congruence|].
  rewrite E2, <- (Forall2_len _ _ _ F), Nat.eqb_refl. cbn [negb]. rewrite <- E2. fold token_fields. rewrite E3. auto.
Qed.

(** ** merge *)
Section Merge.
  Context {T : Type}.
  Notation tnode := (tnode T).
  (** A node built by the constructor from a non-empty type string. *)
  Definition from_str (n : tnode) : Prop := exists s, s <> [] /\ tn_of_str s (tn_format n) (tn_tokens n) = Ok n.

  Lemma from_str_type n : from_str n -> exists t, tn_type n = Ok t /\ t <> [] /\
    forall toks : list T, exists n' : tnode, tn_of_str t (tn_format n) toks = Ok n' /\ tn_type n' = Ok t /\ tn_tokens n' = toks /\ tn_format n' = tn_format n.
  Proof.
    intros (s & Hs & E). remember (tn_format n) as fmt eqn:Ef. unfold tn_of_str in E.
    destruct fmt as [|c fmt]; [discriminate|]. destruct s as [|d s]; [congruence|].
    destruct (Nat.eqb_spec (length (split slash (d :: s))) (length (split slash (c :: fmt)))) as [L|L]; [|discriminate].
    cbn [negb] in E. fold type_fields in E. remember (c :: fmt) as f. remember (d :: s) as s0.
    destruct (list_eq_dec eqdec (filter (fun x => negb (mem x type_fields)) (split slash f)) []) as [K|K].
    2:{ exfalso. rewrite (fields_bad type_fields) in E; auto; [discriminate|].
        destruct (filter _ _) as [|g gs] eqn:G; [congruence|]. exists g.
        assert (In g (g :: gs)) by (cbn; auto). rewrite <- G in H. apply filter_In in H. destruct H as [A B]. split; auto.
        intros I. apply mem_In in I. rewrite I in B. discriminate. }
    assert (K' : forall x, In x (split slash f) -> In x type_fields).
    { intros x I. apply mem_In. destruct (mem x type_fields) eqn:M; auto. exfalso.
      assert (In x (filter (fun x => negb (mem x type_fields)) (split slash f))) by (apply filter_In; rewrite M; auto).
      rewrite K in H. destruct H. }
    destruct (fields_ok type_fields _ _ (item_attrs None None None) L K') as (a & Ea & _ & H2 & _).
    rewrite Ea in E. cbn [rbind] in E. assert (En : n = TNode a f (tn_tokens n)) by (inversion E; congruence). clear E.
    set (val := fun c => match dget a c with Some (Some v) => v | _ => [] end).
    assert (Hv : forall c, In c (split slash f) -> dget a c = Some (Some (val c)) /\ ~ In slash (val c)).
    { intros x I. destruct (H2 x I) as (e & I' & Ee). unfold val. rewrite Ee. split; auto.
      pose proof (split_noc slash s0). rewrite Forall_forall in H. apply H. auto. }
    assert (F : Forall2 (fun c v => dget a c = Some (Some v) /\ ~ In slash v) (split slash f) (map val (split slash f))).
    { clear - Hv. induction (split slash f); cbn; constructor; [apply Hv; cbn; auto|]. apply IHl. intros; apply Hv; cbn; auto. }
    assert (F' : Forall2 (fun c v => dget a c = Some (Some v)) (split slash f) (map val (split slash f))).
    { clear - F. induction F; constructor; tauto. }
    exists (join slash (map val (split slash f))).
    assert (Et : tn_type n = Ok (join slash (map val (split slash f)))).
    { rewrite En. unfold tn_type; cbn. apply fmt_join_ok. auto. }
    split; auto.
    assert (Sp : split slash (join slash (map val (split slash f))) = map val (split slash f)).
    { apply split_join; [destruct (split slash f) eqn:E; [elim (split_nonempty _ _ E)|discriminate]|].
      clear - F. induction F; constructor; tauto. }
    assert (NE : join slash (map val (split slash f)) <> []).
    { intros Z. rewrite Z in Sp. cbn in Sp. (* one field, empty value *)
      destruct (split slash f) as [|g [|h r]] eqn:Efs; cbn in Sp; try discriminate.
      destruct (H2 g) as (e & Ie & Ee); [cbn; auto|]. assert (length (split slash s0) = 1) by (rewrite L; auto).
      destruct (split slash s0) as [|e0 [|? ?]] eqn:Es0; cbn in H; try lia. destruct Ie as [<-|[]].
      assert (e0 = s0). { rewrite <- (join_split slash s0), Es0. auto. }
      injection Sp as Sp. unfold val in Sp. rewrite Ee in Sp. subst. discriminate. }
    split; auto. intros toks.
    destruct (fields_ok type_fields (map val (split slash f)) (split slash f) (item_attrs None None None)) as (a' & E' & _ & H2' & _); auto.
    { rewrite map_length. auto. }
    assert (Hv' : forall c, In c (split slash f) -> dget a' c = Some (Some (val c))).
    { intros x I. 
      (* every occurrence of x carries val x *)
      assert (G : forall fs b b', fields type_fields (map val fs) fs b = Ok b' -> In x fs -> dget b' x = Some (Some (val x))).
      { clear. induction fs as [|g fs IH]; intros b b' E I; [destruct I|]. cbn [map fields] in E.
        destruct (mem g type_fields) eqn:M; [|discriminate]. destruct (in_dec eqdec x fs) as [I'|I']; [eapply IH; eauto|].
        destruct I as [->|I]; [|tauto].
        assert (Q : forall gs c c', fields type_fields (map val gs) gs c = Ok c' -> ~ In x gs -> dget c' x = dget c x).
        { clear. induction gs as [|g gs IH]; intros c c' E N; cbn [map fields] in E; [congruence|].
          destruct (mem g type_fields) eqn:M; [|discriminate]. cbn in N. rewrite (IH _ _ E) by tauto.
          rewrite dget_dset. destruct (eqdec x g); [subst; tauto|auto]. }
        rewrite (Q _ _ _ E I'). apply dget_dset_same. }
      eapply G; eauto. }
    exists (TNode a' f toks). split; [|split; [|split; auto]].
    - unfold tn_of_str. destruct f as [|c0 f0]; [discriminate|]. destruct (join slash _) as [|x0 t0] eqn:J; [congruence|].
      rewrite Sp, map_length, Nat.eqb_refl. cbn [negb]. fold type_fields. rewrite E'. auto.
    - unfold tn_type; cbn. apply fmt_join_ok. clear - Hv'. induction (split slash f); cbn; constructor; [apply Hv'; cbn; auto|].
      apply IHl. intros; apply Hv'; cbn; auto.
  Qed.

  Lemma merge_fold (t f : pystr) : forall (l : list tnode) acc,
    (forall n, In n l -> tn_type n = Ok t /\ tn_format n = f) ->
    rfold (fun tokens tn => rbind (tn_type tn) (fun s => if negb (eqb s t) || negb (eqb f (tn_format tn)) then Err ValueError
                                                         else Ok (tokens ++ tn_tokens tn))) l acc = Ok (acc ++ concat (map tn_tokens l)).
  Proof.
    induction l as [|n l IH]; intros acc H; cbn [rfold map concat]; [rewrite app_nil_r; auto|].
    destruct (H n) as [A B]; [cbn; auto|]. rewrite A. cbn [rbind]. rewrite B, !eqb_refl. cbn [negb orb rbind].
    rewrite IH, app_assoc by (intros; apply H; cbn; auto). auto.
  Qed.
  Lemma merge_fold_bad (t f : pystr) : forall (l : list tnode) acc,
    (forall n, In n l -> exists s, tn_type n = Ok s) -> (exists n, In n l /\ (tn_type n <> Ok t \/ tn_format n <> f)) ->
    rfold (fun tokens tn => rbind (tn_type tn) (fun s => if negb (eqb s t) || negb (eqb f (tn_format tn)) then Err ValueError
                                                         else Ok (tokens ++ tn_tokens tn))) l acc = Err ValueError.
  Proof.
    induction l as [|n l IH]; intros acc H (m & I & D); [destruct I|]. cbn [rfold].
    destruct (H n) as [s Es]; [cbn; auto|]. rewrite Es. cbn [rbind].
    destruct (eqb s t) eqn:E1; cbn [negb orb rbind]; auto. destruct (eqb f (tn_format n)) eqn:E2; cbn [negb orb rbind]; auto.
    apply IH; [intros; apply H; cbn; auto|]. exists m. split; auto. destruct I as [<-|I]; auto. exfalso.
    apply eqb_true in E1. apply eqb_true in E2. subst. destruct D as [D|D]; auto.
  Qed.

  Lemma merge_ok (l : list tnode) t f : l <> [] -> (forall n, In n l -> from_str n /\ tn_type n = Ok t /\ tn_format n = f) ->
    exists m, tn_merge l = Ok (Some m) /\ tn_type m = Ok t /\ tn_format m = f /\ tn_tokens m = concat (map tn_tokens l) /\
      tn_freq m = sumn (map tn_freq l).
  Proof.
    intros N H. destruct l as [|n l]; [congruence|]. destruct (H n) as (A & B & C); [cbn; auto|].
    destruct (from_str_type n A) as (t' & Et & _ & Hn). assert (t' = t) by congruence. subst t'.
    destruct (Hn (concat (map tn_tokens (n :: l)))) as (m & E1 & E2 & E3 & E4).
    exists m. unfold tn_merge. rewrite B. cbn [rbind]. rewrite C.
    rewrite (merge_fold t f) by (intros x I; apply (H x I)). cbn [rbind app]. rewrite <- C, E1. cbn [rmap].
    repeat split; auto. unfold tn_freq. rewrite E3. clear. induction (n :: l); cbn; auto. rewrite app_length, IHl0. auto.
  Qed.
  Lemma merge_err (l : list tnode) : (forall n, In n l -> exists s, tn_type n = Ok s) ->
    (exists a b, In a l /\ In b l /\ (tn_type a <> tn_type b \/ tn_format a <> tn_format b)) -> tn_merge l = Err ValueError.
  Proof.
    intros H (a & b & Ia & Ib & D). destruct l as [|n l]; [destruct Ia|]. destruct (H n) as [t Et]; [cbn; auto|].
    unfold tn_merge. rewrite Et. cbn [rbind]. rewrite (merge_fold_bad t (tn_format n)); auto.
    assert (dt : forall x y : res pystr, {x = y} + {x <> y}) by (repeat decide equality).
    destruct (dt (tn_type a) (Ok t)) as [A|A]; [|exists a; auto].
    destruct (eqdec (tn_format a) (tn_format n)) as [A'|A']; [|exists a; auto].
    exists b. split; auto. destruct D; [left|right]; congruence.
  Qed.
End Merge.
