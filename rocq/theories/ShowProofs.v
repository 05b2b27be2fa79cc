(** * Lemmas about printing and CSV files. *)
From Coq Require Import String NArith ZArith Bool Arith Permutation Sorted Lia List.
From Verif Require Import Base BaseLemmas Str StrLemmas VocabModel VocabProofs MxModel MxSpec MxProofs ShowModel ShowSpec.
Import ListNotations.
Local Open Scope string_scope.
Local Open Scope nat_scope.
Local Open Scope list_scope.

Lemma set_at_length {A} (l : list A) i x : length (set_at l i x) = length l.
Proof. revert i. induction l as [|y l IH]; intros [|i]; cbn; auto. Qed.
Lemma set_at_nth {A} (l : list A) i x j d : i < length l -> nth j (set_at l i x) d = if j =? i then x else nth j l d.
Proof.
  revert i j. induction l as [|y l IH]; intros [|i] [|j] L; cbn in *; try lia; try reflexivity. apply IH. lia.
Qed.

Lemma nth_ms {A} (f : nat -> A) n i d : i < n -> nth i (map f (seq 0 n)) d = f i.
Proof. intros L. rewrite (nth_indep _ d (f 0)) by (rewrite map_length, seq_length; exact L). rewrite map_nth, seq_nth by exact L. reflexivity. Qed.

Lemma nth_rep {A} (x : A) n i d : i < n -> nth i (repeat x n) d = x.
Proof. intros L. rewrite (nth_indep _ d x) by (rewrite repeat_length; exact L). apply nth_repeat. Qed.

Lemma limit_shown n len : not_negative n -> limit n len = Z.of_nat (shown n len).
Proof. destruct n as [z|]; [|reflexivity]. cbn. intros P. destruct (z =? 0)%Z; [reflexivity|]. lia. Qed.
Lemma shown_le n len : shown n len <= len.
Proof. destruct n as [z|]; cbn; [|lia]. destruct (z =? 0)%Z; lia. Qed.
Lemma slice_first {A} (l : list A) k : k <= length l -> py_slice l None (Some (Z.of_nat k)) = firstn k l.
Proof.
  intros L. unfold py_slice, slice_bound. assert (E : (Z.of_nat k <? 0)%Z = false) by lia. rewrite E, Nat2Z.id. cbn [skipn]. f_equal. lia.
Qed.
Lemma bound_nat r k : k <= r -> slice_bound r (Z.of_nat k) = k.
Proof. intros L. unfold slice_bound. assert (E : (Z.of_nat k <? 0)%Z = false) by lia. rewrite E, Nat2Z.id. lia. Qed.

Lemma ellipses_table r c sr sc (rows cols : list pystr) (text : nat -> nat -> pystr) : sr <= r -> sc <= c -> length cols = c ->
  ellipses r c (Z.of_nat sr) (Z.of_nat sc) ((shape_str r c :: firstn sc cols) :: map (fun i => nth i rows [] :: map (text i) (seq 0 sc)) (seq 0 sr))
  = a_table r c sr sc rows cols text.
Proof.
  intros Lr Lc Hc. unfold ellipses, a_table.
  assert (E1 : (Z.of_nat sc <? Z.of_nat c)%Z = (sc <? c)) by (destruct (Nat.ltb_spec sc c); lia).
  assert (E2 : (Z.of_nat sr <? Z.of_nat r)%Z = (sr <? r)) by (destruct (Nat.ltb_spec sr r); lia).
  rewrite E1, E2. unfold shape_str, dots. destruct (sc <? c) eqn:C; cbn [map hd length app].
  - rewrite map_map. rewrite app_length, firstn_length. cbn [length]. replace (S (Nat.min sc (length cols) + 1)) with (S sc + 1) by lia.
    destruct (sr <? r); rewrite ?app_nil_r; reflexivity.
  - rewrite app_nil_r, firstn_length. replace (Nat.min sc (length cols)) with sc by lia. rewrite Nat.add_0_r.
    assert (X : map (fun i => nth i rows [] :: map (text i) (seq 0 sc) ++ []) (seq 0 sr) = map (fun i => nth i rows [] :: map (text i) (seq 0 sc)) (seq 0 sr))
      by (apply map_ext; intros; rewrite app_nil_r; reflexivity).
    rewrite X. destruct (sr <? r); rewrite ?app_nil_r; reflexivity.
Qed.

Section Tables.
  Context {V : Type} `{Num V}.
  Variable show : V -> pystr.
  Notation at2 t i j := (nth j (nth i t []) []).
  Definition put (content : list (list pystr)) (e : nat * nat * V) := set_cell content (fst (fst e)) (S (snd (fst e))) (show (snd e)).

  Lemma put_all es : forall (content : list (list pystr)) R C, length content = R -> Forall (fun row => length row = S C) content ->
    Forall (fun e => fst (fst e) < R /\ snd (fst e) < C) es -> NoDup (map fst es) ->
    exists content', rfold put es content = Ok content' /\ length content' = R /\ Forall (fun row => length row = S C) content' /\
      (forall i j v, In (i, j, v) es -> at2 content' i (S j) = show v) /\
      (forall i j, ~ In (i, j) (map fst es) -> at2 content' i (S j) = at2 content i (S j)) /\
      (forall i, at2 content' i 0 = at2 content i 0).
  Proof.
    induction es as [|[[i0 j0] v0] es IH]; intros content R C HR HC HB ND; cbn [rfold].
    - exists content. split; [reflexivity|]. split; [exact HR|]. split; [exact HC|]. split; [intros ? ? ? []|]. split; reflexivity.
    - inversion HB as [|? ? [B1 B2] HB']; subst. cbn [fst snd] in *. inversion ND as [|? ? N1 N2]; subst. cbn [fst] in N1.
      unfold put at 1. cbn [fst snd]. unfold set_cell.
      rewrite (nth_error_nth' content [] B1). rewrite Forall_forall in HC.
      assert (RL : length (nth i0 content []) = S C) by (apply HC, nth_In, B1). rewrite RL.
      destruct (Nat.ltb_spec (S j0) (S C)) as [_|]; [|lia]. cbn [rbind].
      set (content1 := set_at content i0 (set_at (nth i0 content []) (S j0) (show v0))).
      destruct (IH content1 (length content) C) as (content' & E & L' & F' & P1 & P2 & P3).
      + unfold content1. apply set_at_length.
      + apply Forall_forall. intros row I. apply (In_nth _ _ []) in I. destruct I as (k & Hk & <-). unfold content1 in *. rewrite set_at_length in Hk.
        rewrite set_at_nth by exact B1. destruct (k =? i0); [rewrite set_at_length; exact RL|apply HC, nth_In, Hk].
      + exact HB'.
      + exact N2.
      + exists content'. split; [exact E|]. split; [exact L'|]. split; [exact F'|].
        assert (G : forall i j, at2 content1 i j = if (i =? i0) && (j =? S j0) then show v0 else at2 content i j).
        { intros i j. unfold content1. rewrite set_at_nth by exact B1. destruct (Nat.eqb_spec i i0) as [-> |]; cbn [andb]; [|reflexivity].
          rewrite set_at_nth by lia. reflexivity. }
        split; [|split].
        * intros i j v [I|I]; [|apply P1, I]. injection I as <- <- <-. rewrite P2 by exact N1. rewrite G, !Nat.eqb_refl. reflexivity.
        * intros i j N. rewrite P2 by (intros X; apply N; right; exact X). rewrite G. destruct (Nat.eqb_spec i i0) as [-> |], (Nat.eqb_spec (S j) (S j0)) as [E'|]; cbn [andb]; try reflexivity.
          injection E' as ->. exfalso. apply N. left. reflexivity.
        * intros i. rewrite P3, G. rewrite andb_false_r. reflexivity.
  Qed.

  (** The text of a cell of a sparse matrix *)
  Definition sparse_text (m : ttm V) (i j : nat) : pystr :=
    if mem (i, j) (map fst (entries (tmx m))) then show (spget (tmx m) i j) else nan_str.

  Theorem print_sparse_ok : forall m n_rows n_cols, tgood m -> not_negative n_rows -> not_negative n_cols ->
    let r := length (trows m) in let c := length (tcols m) in
    print_sparse show m n_rows n_cols = Ok (a_table r c (shown n_rows r) (shown n_cols c) (trows m) (tcols m) (sparse_text m)).
  Proof.
    intros m n_rows n_cols G Pr Pc r c. unfold print_sparse. cbv zeta. rewrite (tg_rows _ G), (tg_cols _ G). fold r c.
    rewrite !limit_shown by assumption. set (sr := shown n_rows r). set (sc := shown n_cols c). rewrite !Nat2Z.id.
    assert (Lr : sr <= r) by apply shown_le. assert (Lc : sc <= c) by apply shown_le. rewrite !bound_nat by assumption.
    set (es := filter _ (entries (tmx m))). set (content := map _ (seq 0 sr)).
    destruct (put_all es content sr sc) as (content' & E & L' & F' & P1 & P2 & P3).
    - unfold content. rewrite map_length, seq_length. reflexivity.
    - unfold content. apply Forall_forall. intros row I. apply in_map_iff in I. destruct I as (i & <- & _). cbn [length]. rewrite repeat_length. reflexivity.
    - apply Forall_forall. intros e I. unfold es in I. apply filter_In in I. destruct I as [_ B]. apply andb_true_iff in B. destruct B as [B1 B2].
      apply Nat.ltb_lt in B1, B2. auto.
    - unfold es. apply NoDup_map_filter. apply entries_NoDup, G.
    - change (rfold _ es content) with (rfold put es content). rewrite E. cbn [rmap]. f_equal.
      rewrite slice_first by exact Lc.
      assert (EC : content' = map (fun i => nth i (trows m) [] :: map (sparse_text m i) (seq 0 sc)) (seq 0 sr)).
      { apply nth_ext with (d := []) (d' := []); [rewrite map_length, seq_length; exact L'|]. intros i Hi. rewrite L' in Hi.
        rewrite nth_ms by exact Hi.
        assert (RL : length (nth i content' []) = S sc) by (rewrite Forall_forall in F'; apply F', nth_In; lia).
        assert (CT : nth i content [] = nth i (trows m) [] :: repeat nan_str sc).
        { unfold content. rewrite nth_ms by exact Hi. reflexivity. }
        apply nth_ext with (d := []) (d' := []); [cbn [length]; rewrite map_length, seq_length; exact RL|]. intros j Hj. rewrite RL in Hj.
        destruct j as [|j].
        - rewrite P3, CT. reflexivity.
        - cbn [nth]. rewrite nth_ms by lia. unfold sparse_text.
          destruct (mem (i, j) (map fst (entries (tmx m)))) eqn:M.
          + apply mem_In in M. apply in_map_iff in M. destruct M as ([[i' j'] v] & M1 & M2). cbn in M1. injection M1 as -> ->.
            rewrite (entries_value _ _ _ _ (tg_wf _ G) M2). apply P1. unfold es. apply filter_In. split; [exact M2|]. cbn [fst snd].
            apply andb_true_iff. split; apply Nat.ltb_lt; lia.
          + rewrite P2.
            * rewrite CT. cbn [nth]. apply nth_rep. lia.
            * intros I. assert (In (i, j) (map fst (entries (tmx m)))); [|apply mem_nIn in M; contradiction].
              apply in_map_iff in I. destruct I as (e & I1 & I2). apply in_map_iff. exists e. split; [exact I1|]. unfold es in I2. apply filter_In in I2. apply I2. }
      rewrite EC. apply ellipses_table; auto.
  Qed.

  Theorem print_dense_ok : forall rows cols a n_rows n_cols, length a = length rows -> Forall (fun row => length row = length cols) a ->
    not_negative n_rows -> not_negative n_cols ->
    let r := length rows in let c := length cols in
    print_dense show rows cols a n_rows n_cols = a_table r c (shown n_rows r) (shown n_cols c) rows cols (fun i j => show (nth j (nth i a []) zero)).
  Proof.
    intros rows cols a n_rows n_cols La Fa Pr Pc r c. unfold print_dense. cbv zeta. fold r c.
    rewrite !limit_shown by assumption. set (sr := shown n_rows r). set (sc := shown n_cols c).
    assert (Lr : sr <= r) by apply shown_le. assert (Lc : sc <= c) by apply shown_le.
    rewrite (slice_first cols sc) by exact Lc. rewrite (slice_first a sr) by (rewrite La; exact Lr).
    rewrite <- ellipses_table by auto. f_equal. f_equal.
    assert (X : forall (l : list (list V)) s n, Forall (fun row => length row = c) l -> n <= length l ->
      map (fun ir : nat * list V => nth (fst ir) rows [] :: map show (py_slice (snd ir) None (Some (Z.of_nat sc)))) (combine (seq s (length l)) (firstn n l))
      = map (fun i => nth i rows [] :: map (fun j => show (nth j (nth (i - s) l []) zero)) (seq 0 sc)) (seq s n)).
    { induction l as [|row l IH]; intros s n Fl Hn; [cbn in Hn; assert (n = 0) as -> by lia; reflexivity|]. destruct n as [|n]; [reflexivity|].
      inversion Fl as [|? ? R1 Fl']; subst. cbn [length seq firstn combine map fst snd]. f_equal.
      - f_equal. rewrite Nat.sub_diag. cbn [nth]. rewrite slice_first by lia.
        rewrite <- (map_map (fun j => nth j row zero) show). f_equal. clear - R1 Lc.
        assert (Y : forall (l : list V) k, k <= length l -> firstn k l = map (fun j => nth j l zero) (seq 0 k)).
        { induction l as [|x l IHl]; intros [|k] Hk; cbn in *; try reflexivity; try lia. f_equal. rewrite <- seq_shift, map_map. apply IHl. lia. }
        apply Y. lia.
      - rewrite IH; [|assumption|cbn in Hn; lia]. apply map_ext_in. intros i I. apply in_seq in I. f_equal. apply map_ext. intros j.
        replace (i - s) with (S (i - S s)) by lia. reflexivity. }
    rewrite X; [|exact Fa|lia]. apply map_ext. intros i. rewrite Nat.sub_0_r. reflexivity.
  Qed.
End Tables.

(** ** Vocab.__repr__ *)
Lemma insert_filter_other (p : pystr * Z -> bool) leb x l : p x = false -> filter p (insert leb x l) = filter p l.
Proof. intros P. induction l as [|y l IH]; cbn; [rewrite P; reflexivity|]. destruct (leb x y); cbn; [rewrite P; reflexivity|]. rewrite IH. reflexivity. Qed.
Lemma freq_filter l f : filter (fun a : pystr * Z => (snd a =? f)%Z) (isort (fun a b => (snd b <=? snd a)%Z) l) = filter (fun a => (snd a =? f)%Z) l.
Proof.
  change (fun a b : pystr * Z => (snd b <=? snd a)%Z) with freq_ge.
  induction l as [|x l IH]; [reflexivity|]. change (isort freq_ge (x :: l)) with (insert freq_ge x (isort freq_ge l)). cbn [filter].
  destruct (snd x =? f)%Z eqn:E.
  - rewrite <- IH. clear IH. pose proof (isort_sorted freq_ge freq_ge_total freq_ge_trans l) as SS. revert SS. generalize (isort freq_ge l). clear l.
    intros l SS. induction l as [|y l IH]; cbn [insert filter]; [rewrite E; reflexivity|].
    inversion SS as [|? ? S1 S2]; subst. unfold freq_ge at 1. destruct (snd y <=? snd x)%Z eqn:C; cbn [filter]; [rewrite E; reflexivity|].
    assert (D : (snd y =? f)%Z = false) by lia. rewrite D. apply IH, S1.
  - rewrite insert_filter_other by exact E. exact IH.
Qed.
Lemma freq_sorted l : StronglySorted (fun a b : pystr * Z => (snd b <= snd a)%Z) (isort (fun a b => (snd b <=? snd a)%Z) l).
Proof.
  pose proof (isort_sorted freq_ge freq_ge_total freq_ge_trans l) as SS. change freq_ge with (fun a b : pystr * Z => (snd b <=? snd a)%Z) in SS.
  revert SS. generalize (isort (fun a b : pystr * Z => (snd b <=? snd a)%Z) l). intros s SS.
  induction SS as [|x r S1 IH F]; constructor; [exact IH|]. eapply Forall_impl; [|exact F]. cbn. intros; lia.
Qed.
Theorem repr_ok : forall show v,
  (length (fd v) <= 7 -> v_repr show v = u "[" ++ join 44%N (map show (fd v)) ++ u "]") /\
  (7 < length (fd v) -> exists s, by_freq (fd v) s /\
     v_repr show v = u "[" ++ join 44%N (map show (firstn 3 s)) ++ u " ... " ++ join 44%N (map show (skipn (length s - 3) s)) ++ u "]").
Proof.
  intros show v. unfold v_repr. split; intros L.
  - apply Nat.leb_le in L. rewrite L. reflexivity.
  - apply Nat.leb_gt in L. rewrite L. apply Nat.leb_gt in L. exists (isort (fun a b => (snd b <=? snd a)%Z) (fd v)).
    assert (P : Permutation (fd v) (isort (fun a b => (snd b <=? snd a)%Z) (fd v))) by apply isort_perm.
    split; [split; [exact P|split]|].
    + apply (freq_sorted (fd v)).
    + intros f. apply freq_filter.
    + set (s := isort _ _) in *. apply Permutation_length in P. change (Some 3%Z) with (Some (Z.of_nat 3)). rewrite (slice_first s 3) by lia.
      unfold py_slice, slice_bound. cbn [Z.ltb Z.compare].
      replace (Z.to_nat (Z.max 0 (-3 + Z.of_nat (length s)))) with (length s - 3) by lia.
      rewrite (firstn_all2 (skipn _ s)) by (rewrite skipn_length; lia). reflexivity.
Qed.

(** ** item2rowid *)
Theorem item_ids_ok : forall items,
  (forall e, dget (item_ids items) e = None <-> ~ In e items) /\
  (forall e i, dget (item_ids items) e = Some i -> nth_error items i = Some e /\ forall k, nth_error items k = Some e -> k <= i) /\
  (NoDup items -> forall e i, dget (item_ids items) e = Some i <-> nth_error items i = Some e).
Proof.
  intros items.
  assert (G : forall (l : list pystr) s d, let r := fold_left (fun d kv => dset d (fst kv) (snd kv)) (combine l (seq s (length l))) d in
    forall e, (~ In e l -> dget r e = dget d e) /\
              (In e l -> exists k, nth_error l k = Some e /\ dget r e = Some (s + k) /\ forall k', nth_error l k' = Some e -> k' <= k)).
  { induction l as [|x l IH]; intros s d r e; [split; [reflexivity|contradiction]|]. cbn [length seq combine fold_left fst snd] in r.
    destruct (IH (S s) (dset d x s) e) as [A B]. fold r in A, B. split.
    - intros N. rewrite A by (intros I; apply N; right; exact I). rewrite dget_dset. destruct (eqdec e x); [subst; exfalso; apply N; left; reflexivity|reflexivity].
    - intros I. destruct (in_dec eqdec e l) as [J|J].
      + destruct (B J) as (k & K1 & K2 & K3). exists (S k). split; [exact K1|]. split; [rewrite K2; f_equal; lia|]. intros [|k'] Hk'; [lia|]. cbn in Hk'. apply K3 in Hk'. lia.
      + destruct I as [-> |I]; [|contradiction]. exists 0. split; [reflexivity|]. split.
        * rewrite A by exact J. rewrite dget_dset. destruct (eqdec e e); [f_equal; lia|contradiction].
        * intros [|k'] Hk'; [lia|]. cbn in Hk'. apply nth_error_In in Hk'. contradiction. }
  assert (E : item_ids items = fold_left (fun d kv => dset d (fst kv) (snd kv)) (combine items (seq 0 (length items))) []) by reflexivity.
  specialize (G items 0 []). cbv zeta in G. rewrite <- E in G.
  assert (P2 : forall e i, dget (item_ids items) e = Some i -> nth_error items i = Some e /\ forall k, nth_error items k = Some e -> k <= i).
  { intros e i D. destruct (G e) as [A B]. destruct (in_dec eqdec e items) as [I|I].
    - destruct (B I) as (k & K1 & K2 & K3). rewrite K2 in D. injection D as <-. auto.
    - rewrite (A I) in D. discriminate. }
  split; [|split; [exact P2|]].
  - intros e. destruct (G e) as [A B]. split.
    + intros D I. destruct (B I) as (k & _ & K & _). congruence.
    + intros N. rewrite (A N). reflexivity.
  - intros ND e i. split; [intros D; apply P2, D|]. intros X. destruct (G e) as [_ B]. destruct (B (nth_error_In _ _ X)) as (k & K1 & K2 & _).
    rewrite K2. cbn. f_equal. assert (Li : i < length items) by (apply nth_error_Some; congruence).
    apply (proj1 (NoDup_nth_error items) ND); [|congruence]. apply nth_error_Some. congruence.
Qed.

Theorem reorder_verbose_fails : forall rows cols item_list idx_list axis, exists e, reorder_verbose rows cols item_list idx_list axis = Err e.
Proof.
  intros. unfold reorder_verbose. destruct (if (axis =? 0)%Z then _ else _) as [items|e]; cbn [rbind]; [|eauto].
  destruct (match item_list with Some _ => _ | None => _ end) as [x|e]; cbn [rbind]; eauto.
Qed.

(** ** drop_zero_rows and drop_zero_cols *)
Lemma uniq_sorted_ok l : Sorted lt (uniq_sorted l) /\ forall x, In x (uniq_sorted l) <-> In x l.
Proof.
  unfold uniq_sorted. assert (T : forall a b, (a <=? b) = true \/ (b <=? a) = true) by (intros; rewrite !Nat.leb_le; lia).
  assert (R : forall a b c, (a <=? b) = true -> (b <=? c) = true -> (a <=? c) = true) by (intros a b c; rewrite !Nat.leb_le; lia).
  split.
  - pose proof (isort_sorted Nat.leb T R (dedup l)) as SS.
    assert (ND : NoDup (isort Nat.leb (dedup l))) by (eapply Permutation_NoDup; [apply isort_perm|apply dedup_NoDup]).
    revert SS ND. generalize (isort Nat.leb (dedup l)). intros s SS ND. apply StronglySorted_Sorted.
    induction SS as [|x r S1 IH F]; constructor; [apply IH; inversion ND; assumption|]. rewrite Forall_forall in *. intros y I.
    pose proof (F y I) as Ly. apply Nat.leb_le in Ly. inversion ND as [|? ? N1 _]; subst. assert (x <> y) by (intros ->; contradiction). lia.
  - intros x. rewrite isort_In. apply dedup_In.
Qed.
Lemma place_ok l x : In x l -> nth_error l (place l x) = Some x.
Proof.
  intros I. unfold place. destruct (index_of x l) as [i|] eqn:E.
  - apply index_of_Some in E. apply E.
  - apply index_of_None in E. contradiction.
Qed.
Theorem drop_zero_ok : forall (V : Type) (by_rows : bool) r c (es : list (nat * nat * V)),
  drop_zero by_rows KOther r c es = Err AttributeError /\
  exists kept es', Sorted lt kept /\ (forall k, In k kept <-> exists e, In e es /\ k = if by_rows then fst (fst e) else snd (fst e)) /\
    drop_zero by_rows KCoo r c es = Ok (if by_rows then length kept else r, if by_rows then c else length kept, es') /\
    Forall2 (fun e e' => snd e' = snd e /\
      if by_rows then nth_error kept (fst (fst e')) = Some (fst (fst e)) /\ snd (fst e') = snd (fst e)
      else fst (fst e') = fst (fst e) /\ nth_error kept (snd (fst e')) = Some (snd (fst e))) es es'.
Proof.
  intros V by_rows r c es. split; [reflexivity|].
  set (key := fun e : nat * nat * V => if by_rows then fst (fst e) else snd (fst e)).
  exists (uniq_sorted (map key es)). destruct (uniq_sorted_ok (map key es)) as [S1 S2].
  exists (if by_rows then map (fun e => (place (uniq_sorted (map key es)) (fst (fst e)), snd (fst e), snd e)) es
       else map (fun e => (fst (fst e), place (uniq_sorted (map key es)) (snd (fst e)), snd e)) es).
  split; [exact S1|]. split; [|split].
  - intros k. rewrite S2, in_map_iff. split; intros (e & A & B); exists e; split; auto.
  - unfold drop_zero. fold key. destruct by_rows; reflexivity.
  - assert (X : forall l, incl l es -> Forall2 (fun e e' => snd e' = snd e /\
      if by_rows then nth_error (uniq_sorted (map key es)) (fst (fst e')) = Some (fst (fst e)) /\ snd (fst e') = snd (fst e)
      else fst (fst e') = fst (fst e) /\ nth_error (uniq_sorted (map key es)) (snd (fst e')) = Some (snd (fst e))) l
      (if by_rows then map (fun e => (place (uniq_sorted (map key es)) (fst (fst e)), snd (fst e), snd e)) l
       else map (fun e => (fst (fst e), place (uniq_sorted (map key es)) (snd (fst e)), snd e)) l)).
    { induction l as [|e l IH]; intros I; [destruct by_rows; constructor|].
      assert (P : In (key e) (uniq_sorted (map key es))) by (apply S2, in_map, I; left; reflexivity). apply place_ok in P.
      specialize (IH (fun x Hx => I x (or_intror Hx))). destruct by_rows; constructor; auto. }
    specialize (X es (fun x Hx => Hx)). destruct by_rows; exact X.
Qed.

(** ** CSV files *)
Section Csv.
  Context {V : Type} `{Num V}.
  Variable show : V -> pystr.
  Variable parse : pystr -> fld V.
  Variable dedup_names : list pystr -> list pystr.
  Hypothesis parse_show : forall v, parse (show v) = FNum v.
  Hypothesis parse_empty : parse [] = FNaN.
  Hypothesis dedup_id : forall l, NoDup l -> dedup_names l = l.

  Definition to_fld (c : option V) : fld V := match c with Some v => FNum v | None => FNaN end.
  Lemma parse_field c : parse (field show c) = to_fld c.
  Proof. destruct c; cbn; auto. Qed.
  Lemma infer_fields col : infer parse (map (field show) col) = map to_fld col.
  Proof.
    unfold infer. rewrite map_map. rewrite (map_ext _ to_fld) by apply parse_field.
    assert (E : existsb (fun f => match f with FStr _ => true | _ => false end) (map to_fld col) = false).
    { induction col as [|c col IH]; [reflexivity|]. cbn. rewrite IH. destruct c; reflexivity. }
    rewrite E. reflexivity.
  Qed.
  Lemma infer_length col : length (infer parse col) = length col.
  Proof. unfold infer. destruct (existsb _ _); rewrite map_length; reflexivity. Qed.
  Lemma unnamed_id cols s : Forall (fun c => c <> []) cols -> map unnamed (combine (seq s (length cols)) cols) = cols.
  Proof.
    intros F. revert s. induction F as [|c cols N F IH]; intros s; [reflexivity|]. cbn [length seq combine map]. rewrite IH. f_equal.
    unfold unnamed. cbn [snd]. destruct c; [contradiction|reflexivity].
  Qed.

  Section One.
    Variable rows cols : list pystr.
    Variable cells : list (list (option V)).
    Hypothesis Lrows : length cells = length rows.
    Hypothesis Lcells : Forall (fun row => length row = length cols) cells.
    Hypothesis Ncols : Forall (fun c => c <> []) cols.

    Let g := to_csv show true rows cols cells.
    Lemma data_col0 : map (fun row => nth 0 row []) (tl g) = rows.
    Proof.
      unfold g, to_csv. cbn [tl]. rewrite map_map. cbn [app nth]. revert Lrows. clear. revert cells.
      induction rows as [|r l IH]; intros [|x cl] L; cbn in L; try discriminate; [reflexivity|]. cbn. f_equal. apply IH. lia.
    Qed.
    Lemma data_colS k : k < length cols -> map (fun row => nth (S k) row []) (tl g) = map (field show) (map (fun row => nth k row None) cells).
    Proof.
      intros Hk. unfold g, to_csv. cbn [tl]. rewrite !map_map. cbn [app nth]. revert Lrows Lcells. clear - Hk. revert cells.
      induction rows as [|r l IH]; intros [|x cl] L F; cbn in L; try discriminate; [reflexivity|]. inversion F as [|? ? F1 F2]; subst. cbn. f_equal; [|apply IH; auto].
      rewrite (nth_indep _ [] (field show None)) by (rewrite map_length; lia). apply map_nth.
    Qed.
    Lemma data_length : length (tl g) = length rows.
    Proof. unfold g, to_csv. cbn [tl]. rewrite map_length, combine_length. lia. Qed.
    Lemma cells_back : map (fun i => map (fun col => nth i col FNaN) (map (fun k => infer parse (map (fun row => nth k row []) (tl g))) (seq 1 (length cols)))) (seq 0 (length rows))
      = map (map to_fld) cells.
    Proof.
      rewrite <- seq_shift, map_map.
      rewrite (map_ext_in (fun k => infer parse (map (fun row => nth (S k) row []) (tl g))) (fun k => map to_fld (map (fun row => nth k row None) cells))).
      2:{ intros k I. apply in_seq in I. rewrite data_colS by lia. apply infer_fields. }
      apply nth_ext with (d := []) (d' := []); [rewrite !map_length, seq_length; lia|]. intros i Hi. rewrite map_length, seq_length in Hi.
      rewrite nth_ms by exact Hi. rewrite (nth_indep (map (map to_fld) cells) [] (map to_fld [])) by (rewrite map_length; lia). rewrite (map_nth (map to_fld)).
      assert (Lc : length (nth i cells []) = length cols) by (rewrite Forall_forall in Lcells; apply Lcells, nth_In; lia).
      apply nth_ext with (d := FNaN) (d' := FNaN); [rewrite !map_length, seq_length; lia|]. intros k Hk. rewrite !map_length, seq_length in Hk.
      rewrite map_map. rewrite nth_ms by exact Hk. change (@FNaN V) with (to_fld None). rewrite !map_nth. f_equal.
      rewrite (nth_indep (map (fun row : list (option V) => nth k row None) cells) None ((fun row : list (option V) => nth k row None) [])) by (rewrite map_length; lia).
      rewrite (map_nth (fun row : list (option V) => nth k row None)). reflexivity.
    Qed.
    Theorem read_default : NoDup (u "Unnamed: 0" :: cols) ->
      read_frame parse dedup_names None g =
        Ok (Frame None (u "Unnamed: 0" :: cols) (map (fun lr => fst lr :: map to_fld (snd lr)) (combine (infer parse rows) cells))).
    Proof.
      intros ND. unfold read_frame. change g with (hd [] g :: tl g) at 1. cbv zeta.
      assert (HD : hd [] g = [] :: cols) by reflexivity. rewrite HD. cbn [length seq combine map option_map]. rewrite unnamed_id by exact Ncols.
      change (unnamed (0, [])) with (u "Unnamed: 0"). rewrite dedup_id by exact ND. f_equal. f_equal.
      - cbn [nth]. f_equal. rewrite <- seq_shift, map_map. cbn [nth]. apply nth_ext with (d := []) (d' := []); [rewrite map_length, seq_length; reflexivity|].
        intros i Hi. rewrite map_length, seq_length in Hi. rewrite nth_ms by exact Hi. reflexivity.
      - rewrite data_length, data_col0. pose proof cells_back as CB.
        apply nth_ext with (d := []) (d' := []); [rewrite !map_length, seq_length, combine_length, infer_length; lia|]. intros i Hi. rewrite map_length, seq_length in Hi.
        rewrite nth_ms by exact Hi.
        rewrite (nth_indep (map _ (combine _ _)) [] ((fun lr : fld V * list (option V) => fst lr :: map to_fld (snd lr)) (FNaN, []))) by (rewrite map_length, combine_length, infer_length; lia).
        rewrite (map_nth (fun lr : fld V * list (option V) => fst lr :: map to_fld (snd lr))). rewrite combine_nth by (rewrite infer_length; lia). cbn [fst snd]. f_equal.
        apply (f_equal (fun t => nth i t [])) in CB. rewrite nth_ms in CB by exact Hi. rewrite CB.
        rewrite (nth_indep (map (map to_fld) cells) [] (map to_fld [])) by (rewrite map_length; lia). rewrite (map_nth (map to_fld)). reflexivity.
    Qed.
    Theorem read_index : NoDup (u "Unnamed: 0" :: cols) ->
      read_frame parse dedup_names (Some 0) g = Ok (Frame (Some (infer parse rows)) cols (map (map to_fld) cells)).
    Proof.
      intros ND. unfold read_frame. change g with (hd [] g :: tl g) at 1. cbv zeta.
      assert (HD : hd [] g = [] :: cols) by reflexivity. rewrite HD. cbn [length seq combine map option_map filter Nat.eqb negb]. rewrite unnamed_id by exact Ncols.
      change (unnamed (0, [])) with (u "Unnamed: 0"). rewrite dedup_id by exact ND.
      assert (FS : filter (fun k => negb (k =? 0)) (seq 1 (length cols)) = seq 1 (length cols)).
      { rewrite <- (filter_ext_in (fun _ => true)); [induction (seq 1 (length cols)); cbn; congruence|]. intros k I. apply in_seq in I. destruct k; [lia|reflexivity]. }
      rewrite FS, data_length, data_col0, cells_back. f_equal. f_equal.
      rewrite <- seq_shift, map_map. cbn [nth]. apply nth_ext with (d := []) (d' := []); [rewrite map_length, seq_length; reflexivity|].
      intros i Hi. rewrite map_length, seq_length in Hi. rewrite nth_ms by exact Hi. reflexivity.
    Qed.
  End One.

  (** The row items come back when none is a word for a missing value and not all are numbers *)
  Theorem labels_back : forall rows, (forall r, In r rows -> parse r <> FNaN) -> (exists r s, In r rows /\ parse r = FStr s) ->
    infer parse rows = map FStr rows.
  Proof.
    intros rows N (r & s & I & P). unfold infer.
    assert (E : existsb (fun f => match f with FStr _ => true | _ => false end) (map parse rows) = true).
    { apply existsb_exists. exists (parse r). split; [apply in_map, I|]. rewrite P. reflexivity. }
    rewrite E. apply map_ext_in. intros x Ix. specialize (N x Ix). destruct (parse x); [reflexivity|contradiction|reflexivity].
  Qed.
  (** What row items come back as in general *)
  Theorem labels_general : forall rows i r, nth_error rows i = Some r ->
    nth_error (infer parse rows) i = Some
      match parse r with
      | FNaN => FNaN
      | f => if existsb (fun s => match parse s with FStr _ => true | _ => false end) rows then FStr r else f
      end.
  Proof.
    intros rows i r E. unfold infer.
    assert (X : existsb (fun f => match f with FStr _ => true | _ => false end) (map parse rows) = existsb (fun s => match parse s with FStr _ => true | _ => false end) rows).
    { clear. induction rows as [|x l IH]; [reflexivity|]. cbn. rewrite IH. reflexivity. }
    rewrite X. destruct (existsb _ rows) eqn:F; rewrite nth_error_map, E; cbn [option_map]; [destruct (parse r); reflexivity|].
    destruct (parse r); reflexivity.
  Qed.
  (** A sparse matrix read with issparse=True and index_col=None: an error when some row item is not a number *)
  Lemma from_sparse_default rows cells : length cells = length rows -> (exists r s, In r rows /\ parse r = FStr s) -> (forall r, In r rows -> parse r <> FNaN) ->
    existsb (existsb is_strf) (map (fun lr : fld V * list (option V) => fst lr :: map to_fld (snd lr)) (combine (infer parse rows) cells)) = true.
  Proof.
    intros L EX N. rewrite (labels_back rows N EX). destruct EX as (r & s & I & P). apply existsb_exists.
    destruct (In_nth _ _ [] I) as (i & Hi & Ei).
    exists (FStr r :: map to_fld (nth i cells [])). split; [|reflexivity]. apply in_map_iff. exists (FStr r, nth i cells []). split; [reflexivity|].
    rewrite <- Ei. assert (X : (FStr (nth i rows []), nth i cells []) = nth i (combine (map FStr rows) cells) (@FStr V [], [])).
    { rewrite combine_nth by (rewrite map_length; lia). f_equal. rewrite map_nth. reflexivity. }
    match goal with |- In ?p ?l => assert (Y : In (nth i (combine (map FStr rows) cells) (@FStr V [], [])) l) by (apply nth_In; rewrite combine_length, map_length; unfold pystr in *; lia) end.
    rewrite <- X in Y. exact Y.
  Qed.
  Lemma in_combine_seq {A} (l : list A) (x : nat * A) s : In x (combine (seq s (length l)) l) <-> exists k, nth_error l k = Some (snd x) /\ fst x = s + k.
  Proof.
    revert s. induction l as [|y l IH]; intros s; cbn [length seq combine]; [split; [contradiction|intros (k & K & _); destruct k; discriminate]|].
    cbn [In]. rewrite IH. split.
    - intros [<- |(k & K & E)]; [exists 0; cbn; split; [reflexivity|lia]|exists (S k); split; [exact K|lia]].
    - intros ([|k] & K & E); cbn in K; [left; destruct x; cbn in *; injection K as ->; f_equal; lia|right; exists k; split; [exact K|lia]].
  Qed.
  (** ... and with index_col=0: every cell that was not stored is NaN and stored *)
  Theorem from_sparse_index : forall (m : sp V) labels cols es,
    from_frame_sparse (Frame labels cols (map (map to_fld) (sparse_frame m))) = Ok es ->
    forall i j x, In (i, j, x) es <-> i < nrows m /\ j < ncols m /\
      ((~ stored m i j /\ x = None) \/ (stored m i j /\ x = Some (spget m i j) /\ isz (spget m i j) = false)).
  Proof.
    intros m labels cols es E i j x. unfold from_frame_sparse in E. cbn [f_cells] in E. destruct (existsb _ _); [discriminate|]. injection E as <-.
    assert (C : forall k l, nth_error (map (map to_fld) (sparse_frame m)) k = Some l <->
      k < nrows m /\ l = map (fun j => to_fld (if mem (k, j) (map fst (entries m)) then Some (spget m k j) else None)) (seq 0 (ncols m))).
    { intros k l. unfold sparse_frame. rewrite map_map. destruct (Nat.lt_ge_cases k (nrows m)) as [Hk|Hk].
      - rewrite nth_error_map, (nth_error_nth' _ 0) by (rewrite seq_length; exact Hk). rewrite seq_nth by exact Hk. cbn [option_map Nat.add]. rewrite map_map.
        split; [intros E; injection E as <-; auto|intros [_ ->]; reflexivity].
      - rewrite nth_error_map. assert (X : nth_error (seq 0 (nrows m)) k = None) by (apply nth_error_None; rewrite seq_length; exact Hk). rewrite X. cbn.
        split; [discriminate|lia]. }
    rewrite in_flat_map. split.
    - intros ([i' row] & I1 & I2). apply in_combine_seq in I1. cbn [fst snd] in *. destruct I1 as (k & K & ->). cbn [Nat.add] in *. apply C in K. destruct K as [K ->].
      apply in_flat_map in I2. destruct I2 as ([j' f] & J1 & J2). apply in_combine_seq in J1. cbn [fst snd] in *. destruct J1 as (q & Q & ->). cbn [Nat.add] in *.
      assert (Lq : q < ncols m). { assert (Q' : nth_error (map (fun j0 => to_fld (if mem (k, j0) (map fst (entries m)) then Some (spget m k j0) else None)) (seq 0 (ncols m))) q <> None) by congruence. apply nth_error_Some in Q'. rewrite map_length, seq_length in Q'. exact Q'. }
      rewrite nth_error_map, (nth_error_nth' _ 0) in Q by (rewrite seq_length; exact Lq). rewrite seq_nth in Q by exact Lq. cbn [option_map Nat.add] in Q. injection Q as <-.
      destruct (mem (k, q) (map fst (entries m))) eqn:M; cbn [to_fld] in J2.
      + apply mem_In in M. destruct (isz (spget m k q)) eqn:Z; [contradiction|]. destruct J2 as [J2|[]]. injection J2 as <- <- <-. split; [exact K|]. split; [exact Lq|]. right. auto.
      + destruct J2 as [J2|[]]. injection J2 as <- <- <-. split; [exact K|]. split; [exact Lq|]. left. split; [|reflexivity]. intros S. apply mem_In in S. congruence.
    - intros (Hi & Hj & D). exists (i, map (fun j => to_fld (if mem (i, j) (map fst (entries m)) then Some (spget m i j) else None)) (seq 0 (ncols m))). split.
      + apply in_combine_seq. exists i. cbn [fst snd]. split; [|reflexivity]. apply C. auto.
      + apply in_flat_map. cbn [fst snd]. exists (j, to_fld (if mem (i, j) (map fst (entries m)) then Some (spget m i j) else None)). split.
        * apply in_combine_seq. exists j. cbn [fst snd]. split; [|reflexivity]. rewrite nth_error_map, (nth_error_nth' _ 0) by (rewrite seq_length; exact Hj). rewrite seq_nth by exact Hj. reflexivity.
        * cbn [fst snd]. destruct D as [[NS ->]|(S & -> & Z)].
          -- assert (M : mem (i, j) (map fst (entries m)) = false) by (apply mem_nIn; exact NS). rewrite M. left. reflexivity.
          -- assert (M : mem (i, j) (map fst (entries m)) = true) by (apply mem_In; exact S). rewrite M. cbn [to_fld]. rewrite Z. left. reflexivity.
  Qed.
  Lemma from_sparse_ok : forall (m : sp V) labels cols, exists es, from_frame_sparse (Frame labels cols (map (map to_fld) (sparse_frame m))) = Ok es.
  Proof.
    intros. unfold from_frame_sparse. cbn [f_cells].
    assert (E : existsb (existsb is_strf) (map (map to_fld) (sparse_frame m)) = false).
    { induction (sparse_frame m) as [|row l IH]; [reflexivity|]. cbn [map existsb]. rewrite IH, orb_false_r. clear. induction row as [|c row IH]; [reflexivity|]. cbn. rewrite IH. destruct c; reflexivity. }
    rewrite E. eauto.
  Qed.
End Csv.

(** ** The claims in their final form *)
Theorem print_sparse_text : forall (V : Type) (NV : Num V) (show : V -> pystr) m n_rows n_cols, tgood m -> not_negative n_rows -> not_negative n_cols ->
  exists text, (forall i j, stored (tmx m) i j -> text i j = show (spget (tmx m) i j)) /\
    (forall i j, ~ stored (tmx m) i j -> text i j = u "NaN") /\
    let r := length (trows m) in let c := length (tcols m) in
    print_sparse show m n_rows n_cols = Ok (a_table r c (shown n_rows r) (shown n_cols c) (trows m) (tcols m) text).
Proof.
  intros V NV show m nr nc G Pr Pc. exists (sparse_text show m). split; [|split].
  - intros i j S. apply mem_In in S. unfold sparse_text. rewrite S. reflexivity.
  - intros i j S. apply mem_nIn in S. unfold sparse_text. rewrite S. reflexivity.
  - apply print_sparse_ok; assumption.
Qed.
Theorem none_witness : exists m : ttm Z, tgood m /\ print_sparse str_of_Z m None None <> print_sparse str_of_Z m (Some 7%Z) (Some 7%Z) /\
  print_sparse str_of_Z m None None = print_sparse str_of_Z m (Some 0%Z) (Some 8%Z).
Proof.
  exists (Ttm (Sp Csr [[(7, 1%Z)]] 8) [u "a"] [u "1"; u "2"; u "3"; u "4"; u "5"; u "6"; u "7"; u "8"]). split; [|split].
  - constructor; cbn; try reflexivity.
    + apply Forall_cons; [|apply Forall_nil]. split; [repeat constructor; cbn; intuition discriminate|]. apply Forall_cons; [cbn; lia|apply Forall_nil].
    + repeat constructor; cbn; intuition discriminate.
    + repeat constructor; cbn; intuition discriminate.
  - vm_compute. discriminate.
  - vm_compute. reflexivity.
Qed.
Lemma describe_ok : forall r c size, (describe r c size = Err ZeroDivisionError <-> r = 0 \/ c = 0) /\
  (0 < r -> 0 < c -> describe r c size = Ok (r, c, size, (Z.of_nat (size * 100), Z.of_nat (r * c)))).
Proof.
  intros r c size. unfold describe. destruct (Nat.eqb_spec (r * c) 0) as [E|E].
  - apply Nat.eq_mul_0 in E. split; [tauto|lia].
  - split; [split; [discriminate|intros [-> | ->]; lia]|reflexivity].
Qed.
(** A list sorted by frequency with the order of equals kept is determined *)
Lemma by_freq_unique : forall l s s', by_freq l s -> by_freq l s' -> s = s'.
Proof.
  intros l s s' (P & S1 & F) (P' & S2 & F').
  assert (FF : forall f, filter (fun a : pystr * Z => (snd a =? f)%Z) s = filter (fun a => (snd a =? f)%Z) s') by (intros; rewrite F, F'; reflexivity).
  clear l P P' F F'. revert s' S2 FF. induction s as [|x s IH]; intros [|y s'] S2 FF; [reflexivity| | |].
  - specialize (FF (snd y)). cbn in FF. rewrite Z.eqb_refl in FF. discriminate.
  - specialize (FF (snd x)). cbn in FF. rewrite Z.eqb_refl in FF. discriminate.
  - assert (E : snd x = snd y).
    { inversion S1 as [|? ? _ A1]; subst. inversion S2 as [|? ? _ A2]; subst. rewrite Forall_forall in A1, A2.
      assert (I1 : In x (y :: s')). { specialize (FF (snd x)). assert (I : In x (filter (fun a => (snd a =? snd x)%Z) (x :: s))) by (cbn; rewrite Z.eqb_refl; left; reflexivity). rewrite FF in I. apply filter_In in I. apply I. }
      assert (I2 : In y (x :: s)). { specialize (FF (snd y)). assert (I : In y (filter (fun a => (snd a =? snd y)%Z) (y :: s'))) by (cbn; rewrite Z.eqb_refl; left; reflexivity). rewrite <- FF in I. apply filter_In in I. apply I. }
      destruct I1 as [-> |I1]; [reflexivity|]. destruct I2 as [-> |I2]; [reflexivity|]. specialize (A1 _ I2). specialize (A2 _ I1). cbn in A1, A2. lia. }
    assert (x = y). { specialize (FF (snd x)). cbn in FF. rewrite E, !Z.eqb_refl in FF. congruence. }
    subst y. f_equal. apply IH; [inversion S1; assumption|inversion S2; assumption|]. intros f. specialize (FF f). cbn in FF. destruct (snd x =? f)%Z; congruence.
Qed.

Section CsvClaims.
  Context (V : Type) (NV : Num V) (show : V -> pystr) (parse : pystr -> fld V) (dedup_names : list pystr -> list pystr).
  Hypothesis parse_show : forall v, parse (show v) = FNum v.
  Hypothesis parse_empty : parse [] = FNaN.
  Hypothesis dedup_id : forall l, NoDup l -> dedup_names l = l.
  Section M.
    Variable m : ttm V.
    Hypothesis G : tgood m.
    Hypothesis Nc : Forall (fun c => c <> []) (tcols m).
    Hypothesis Nu : ~ In (u "Unnamed: 0") (tcols m).
    Lemma sf_rows : length (sparse_frame (tmx m)) = length (trows m).
    Proof. unfold sparse_frame. rewrite map_length, seq_length. apply G. Qed.
    Lemma sf_cols : Forall (fun row => length row = length (tcols m)) (sparse_frame (tmx m)).
    Proof. apply Forall_forall. intros row I. unfold sparse_frame in I. apply in_map_iff in I. destruct I as (i & <- & _). rewrite map_length, seq_length. apply G. Qed.
    Lemma nd_cols : NoDup (u "Unnamed: 0" :: tcols m).
    Proof. constructor; [exact Nu|apply G]. Qed.
    Lemma csv_sparse : exists f es, read_frame parse dedup_names (Some 0) (to_csv show true (trows m) (tcols m) (sparse_frame (tmx m))) = Ok f /\
      from_frame_sparse f = Ok es /\
      forall i j x, In (i, j, x) es <-> i < nrows (tmx m) /\ j < ncols (tmx m) /\
        ((~ stored (tmx m) i j /\ x = None) \/ (stored (tmx m) i j /\ x = Some (spget (tmx m) i j) /\ isz (spget (tmx m) i j) = false)).
    Proof.
      rewrite (read_index show parse dedup_names parse_show parse_empty dedup_id _ _ _ sf_rows sf_cols Nc nd_cols).
      destruct (from_sparse_ok (tmx m) (Some (infer parse (trows m))) (tcols m)) as (es & E). eexists _, es. split; [reflexivity|]. split; [exact E|].
      apply (from_sparse_index (tmx m) _ _ _ E).
    Qed.
    Lemma csv_sparse_default : (exists r s, In r (trows m) /\ parse r = FStr s) -> (forall r, In r (trows m) -> parse r <> FNaN) ->
      rbind (read_frame parse dedup_names None (to_csv show true (trows m) (tcols m) (sparse_frame (tmx m)))) from_frame_sparse = Err TypeError.
    Proof.
      intros EX N. rewrite (read_default show parse dedup_names parse_show parse_empty dedup_id _ _ _ sf_rows sf_cols Nc nd_cols). cbn [rbind].
      unfold from_frame_sparse. cbn [f_cells]. rewrite (from_sparse_default parse _ _ sf_rows EX N). reflexivity.
    Qed.
  End M.
End CsvClaims.
