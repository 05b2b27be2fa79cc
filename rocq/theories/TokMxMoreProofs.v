(** * Sampling, saving and loading type nodes, TokenVectorizer, read_token_colloc, TypeVectorizer.fit. *)
From Coq Require Import String NArith ZArith Bool Arith Lia Permutation Sorted List.
From Verif Require Import Base BaseLemmas Str StrLemmas VocabModel TermsModel TermsProofs CorpusModel CorpusSpec CorpusColProofs CorpusMoreProofs
  MxModel MxSpec MxTtmProofs MxOpsProofs ParModel ParProofs ParUseProofs ParColModel ParColSpec ParColProofs TokMxModel TokMxSpec TokMxProofs TokMxPipeProofs.
Import ListNotations.
Local Open Scope nat_scope.

(** ** Sampling *)
Section Sample.
  Context {T : Type} (pick : nat -> nat -> list nat).
  Lemma sample_never (node : tnode T) tf n m : (forall f, tf <> TfIs f) -> exists e, tn_sample pick node tf n m = Err e.
  Proof.
    intros N. unfold tn_sample. destruct (sample_tokens pick (tn_tokens node) n m) as [ts|e]; cbn [rbind]; [|eauto].
    destruct (tn_type node) as [s|e]; cbn [rbind]; [|eauto]. destruct tf; eauto. elim (N f eq_refl).
  Qed.
  Lemma enum_filter_seq (P : nat -> bool) (l : list T) k :
    map fst (filter (fun it => P (fst it)) (combine (seq k (length l)) l)) = filter P (seq k (length l)).
  Proof.
    revert k. induction l as [|x l IH]; intros k; [reflexivity|]. cbn [length seq combine filter fst]. destruct (P k); cbn [map fst]; now rewrite IH.
  Qed.
  Lemma filter_mem_count (p : list nat) n : NoDup p -> (forall i, In i p -> i < n) -> length (filter (fun i => mem i p) (seq 0 n)) = length p.
  Proof.
    intros N B. apply Permutation_length, NoDup_Permutation; [apply NoDup_filter, seq_NoDup|exact N|]. intros i. rewrite filter_In, in_seq, mem_In.
    split; [tauto|]. intros I. specialize (B i I). split; [lia|exact I].
  Qed.
  (** random.sample returns n different numbers below freq *)
  Definition samples : Prop := forall freq n, n <= freq -> NoDup (pick freq n) /\ length (pick freq n) = n /\ forall i, In i (pick freq n) -> i < freq.
  Lemma nth_enum (l : list T) i x : In (i, x) (enum l) <-> nth_error l i = Some x.
  Proof.
    unfold enum. assert (G : forall k, In (k + i, x) (combine (seq k (length l)) l) <-> nth_error l i = Some x).
    { revert i. induction l as [|y l IH]; intros i k; cbn [length seq combine]; [split; [intros []|destruct i; discriminate]|]. cbn [In]. destruct i as [|i]; cbn [nth_error].
      - rewrite Nat.add_0_r. split; [intros [E|I]; [congruence|]|intros E; left; congruence].
        exfalso. apply in_combine_l, in_seq in I. lia.
      - rewrite <- (IH i (S k)). replace (S k + i) with (k + S i) by lia. split; [intros [E|I]; [|exact I]|auto]. exfalso. injection E as E _. lia. }
    apply (G 0).
  Qed.
  Lemma sample_ok word lemma pos tfmt (tokens : list T) n m s : samples ->
    tfmt <> [] -> NoDup (split slash tfmt) -> (forall f, In f (split slash tfmt) -> In f type_fields) ->
    tn_type (tn_of_match word lemma pos tfmt tokens) = Ok s -> s <> [] -> length (split slash s) = length (split slash tfmt) ->
    n <= length tokens ->
    exists node, tn_sample pick (tn_of_match word lemma pos tfmt tokens) (TfIs tfmt) n m = Ok node /\ tn_type node = Ok s /\ length (tn_tokens node) = n /\
      exists idx, NoDup idx /\ length idx = n /\ (forall i x, In (i, x) (filter (fun it => mem (fst it) idx) (enum tokens)) <-> In i idx /\ nth_error tokens i = Some x) /\
        tn_tokens node = map snd (filter (fun it => mem (fst it) idx) (enum tokens)).
  Proof.
    intros Sp Hf ND K Et Hs L Ln. unfold tn_sample. cbn [tn_tokens tn_of_match].
    assert (G : exists ts idx, sample_tokens pick tokens n m = Ok ts /\ NoDup idx /\ length idx = n /\ length ts = n /\
      ts = map snd (filter (fun it => mem (fst it) idx) (enum tokens))).
    { destruct m; cbn [sample_tokens].
      - destruct (Nat.ltb_spec (length tokens) n); [lia|]. destruct (Sp (length tokens) n Ln) as (N1 & N2 & N3). eexists. exists (pick (length tokens) n).
        split; [reflexivity|]. split; [exact N1|]. split; [exact N2|]. split; [|reflexivity].
        rewrite map_length, <- (map_length fst). unfold enum. rewrite (enum_filter_seq (fun i => mem i (pick (length tokens) n))), filter_mem_count; auto.
      - exists (firstn n tokens), (seq 0 n). split; [reflexivity|]. split; [apply seq_NoDup|]. split; [apply seq_length|].
        split; [rewrite firstn_length; lia|]. unfold enum.
        assert (F : forall (l : list T) k n', n' <= length l ->
          firstn n' l = map snd (filter (fun it => mem (fst it) (seq 0 (k + n'))) (filter (fun it => k <=? fst it) (combine (seq k (length l)) l)))).
        { clear. induction l as [|x l IH]; intros k n' Ln; [now destruct n'|]. cbn [length seq combine filter fst]. rewrite Nat.leb_refl.
          assert (Hk : filter (fun it : nat * T => k <=? fst it) (combine (seq (S k) (length l)) l) = filter (fun it => S k <=? fst it) (combine (seq (S k) (length l)) l)).
          { apply filter_ext_in. intros [i y] I. apply in_combine_l, in_seq in I. cbn [fst]. destruct (Nat.leb_spec k i), (Nat.leb_spec (S k) i); lia || reflexivity. }
          rewrite Hk. cbn [filter fst]. destruct n' as [|n'].
          - replace (mem k (seq 0 (k + 0))) with false by (symmetry; apply mem_nIn; rewrite in_seq; lia). cbn [firstn].
            specialize (IH (S k) 0 (Nat.le_0_l _)). cbn [firstn] in IH. rewrite IH. f_equal. apply filter_ext_in. intros [i y] I. apply filter_In in I as [I _].
            apply in_combine_l, in_seq in I. cbn [fst]. transitivity false; [apply mem_nIn|symmetry; apply mem_nIn]; rewrite in_seq; lia.
          - replace (mem k (seq 0 (k + S n'))) with true by (symmetry; apply mem_In; rewrite in_seq; lia). cbn [firstn map snd]. f_equal.
            cbn in Ln. rewrite (IH (S k) n') by lia. now replace (S k + n') with (k + S n') by lia. }
        rewrite (F tokens 0 n Ln). cbn [plus]. f_equal. f_equal.
        assert (X : forall l : list (nat * T), filter (fun it => 0 <=? fst it) l = l) by (clear; induction l as [|y l IH]; [reflexivity|]; cbn [filter]; now rewrite IH).
        apply X. }
    destruct G as (ts & idx & -> & N1 & N2 & N3 & E). cbn [rbind]. rewrite Et. cbn [rbind].
    destruct (type_roundtrip s tfmt ts Hs Hf ND K L) as (node & E1 & E2 & E3). exists node. split; [exact E1|]. split; [exact E2|]. split; [now rewrite E3|].
    exists idx. split; [exact N1|]. split; [exact N2|]. split; [|now rewrite E3].
    intros i x. rewrite filter_In, nth_enum. cbn [fst]. rewrite mem_In. tauto.
  Qed.
  Lemma sample_too_many (node : tnode T) tf n : length (tn_tokens node) < n -> tn_sample pick node tf n SRandom = Err ValueError.
  Proof. intros H. unfold tn_sample, sample_tokens. destruct (Nat.ltb_spec (length (tn_tokens node)) n); [reflexivity|lia]. Qed.
End Sample.

(** ** Loading *)
Lemma load_never j : exists e, tn_load j = Err e.
Proof. unfold tn_load. destruct (rmapm _ _) as [x|e]; cbn [rbind]; [|eauto]. destruct (_ && _); eauto. Qed.

(** ** TokenVectorizer.retrieve_tokens *)
Lemma map_seq_nth {A B} (f : nat -> B) (g : A -> B) (l : list A) : (forall j c, nth_error l j = Some c -> f j = g c) -> map f (seq 0 (length l)) = map g l.
Proof.
  revert f. induction l as [|x l IH]; intros f H; [reflexivity|]. cbn [length seq map]. f_equal; [now apply (H 0)|].
  rewrite <- seq_shift, map_map. apply IH. intros j c E. apply (H (S j)). exact E.
Qed.
Lemma row_of_spec (m : ttm Z) v : tgood m -> row_of m v = if mem v (trows m) then Ok (map (val m v) (tcols m)) else Err KeyError.
Proof.
  intros G. unfold row_of, lookup. rewrite dget_item2id by apply G. destruct (index_of v (trows m)) as [i|] eqn:E.
  - rewrite (proj2 (mem_In v (trows m))) by (eapply nth_error_In; exact (proj1 (index_of_Some _ _ _ E))). cbn [rmap rbind]. f_equal. apply map_seq_nth. intros j c Ej.
    unfold val. rewrite E, (index_of_nth _ _ _ (tg_nc _ G) Ej). reflexivity.
  - apply index_of_None in E. now rewrite (proj2 (mem_nIn _ _) E).
Qed.
Lemma rmapm_row (m : ttm Z) vs : tgood m -> rmapm (row_of m) vs = if forallb (fun v => mem v (trows m)) vs then Ok (map (fun v => map (val m v) (tcols m)) vs) else Err KeyError.
Proof.
  intros G. induction vs as [|v vs IH]; [reflexivity|]. cbn [rmapm forallb map]. rewrite row_of_spec by assumption. destruct (mem v (trows m)); [|reflexivity]. cbn [rbind andb].
  rewrite IH. now destruct (forallb _ vs).
Qed.
Lemma vectorizer_key retrieve concepts m v k vs : retrieve (queries_of concepts) = Ok m -> tgood m -> In (k, vs) concepts -> In v vs -> ~ In v (trows m) ->
  vectorizer_tokens retrieve concepts = Err KeyError.
Proof.
  intros E G Ic Iv N. unfold vectorizer_tokens. rewrite E. cbn [rbind].
  assert (X : forall cs d, In (k, vs) cs -> rfold (fun d cv => rbind (rmapm (row_of m) (snd cv)) (fun l => Ok (dset d (fst cv) l))) cs d = Err KeyError).
  { induction cs as [|c cs IH]; intros d I; [destruct I|]. cbn [rfold]. rewrite rmapm_row by assumption. destruct I as [->|I].
    - cbn [snd]. replace (forallb _ vs) with false; [reflexivity|]. symmetry. apply not_true_is_false. intros F. rewrite forallb_forall in F.
      apply N, mem_In. now apply F.
    - destruct (forallb _ (snd c)); cbn [rbind]; [now apply IH|reflexivity]. }
  now apply X.
Qed.
Lemma dget_zeros (vs : list pystr) v : dget (rev (dict_of (map (fun x => (x, 0%Z)) vs))) v = if mem v vs then Some 0%Z else None.
Proof.
  assert (A : forall x z, In (x, z) (rev (dict_of (map (fun x => (x, 0%Z)) vs))) -> z = 0%Z /\ In x vs).
  { intros x z I. apply in_rev, dget_In in I; [|apply dwf_dict_of]. rewrite dget_dict_of in I. apply dget_Some_In, in_rev in I.
    apply in_map_iff in I as (y & E & I). injection E as <- <-. auto. }
  destruct (dget (rev _) v) as [z|] eqn:E.
  - apply dget_Some_In, A in E as (-> & I). apply mem_In in I. now rewrite I.
  - destruct (mem v vs) eqn:M; [|reflexivity]. exfalso. apply mem_In in M. apply dget_None in E. apply E.
    unfold dkeys. rewrite map_rev. apply -> in_rev. change (In v (dkeys (dict_of (map (fun x => (x, 0%Z)) vs)))). rewrite dkeys_dict_of. apply dedup_In. rewrite map_map. cbn [fst]. now rewrite map_id.
Qed.
Lemma queries_inv : forall (cs : dict pystr (list pystr)) (d : dict pystr Z), dwf d -> (forall v z, dget d v = Some z -> z = 0%Z) ->
  let d' := fold_left (fun d cv => dupdate d (dict_of (map (fun v => (v, 0%Z)) (snd cv)))) cs d in
  dwf d' /\ forall v z, dget d' v = Some z <-> z = 0%Z /\ (dget d v = Some 0%Z \/ exists k vs, In (k, vs) cs /\ In v vs).
Proof.
  induction cs as [|[k vs] cs IH]; intros d W Z0; cbn [fold_left snd].
  - split; [exact W|]. intros v z. split.
    + intros E. pose proof (Z0 _ _ E). subst z. auto.
    + intros (-> & [E|(k & vs & [] & _)]). exact E.
  - edestruct (IH (dupdate d (dict_of (map (fun v => (v, 0%Z)) vs)))) as (W' & H'); [now apply dwf_dupdate| |split; [exact W'|]].
    + intros v z. rewrite dget_dupdate, dget_zeros. destruct (mem v vs); [congruence|apply Z0].
    + intros v z. rewrite H', dget_dupdate, dget_zeros. destruct (mem v vs) eqn:M.
      * apply mem_In in M. split; intros (-> & _); (split; [reflexivity|]); [right; exists k, vs; split; [now left|exact M]|now left].
      * apply mem_nIn in M. split; intros (-> & [E|(k' & vs' & I & J)]); (split; [reflexivity|]); [now left|right; exists k', vs'; split; [now right|exact J]|now left|].
        right. destruct I as [I|I]; [injection I as <- <-; contradiction|]. eauto.
Qed.
Lemma vectorizer_queries retrieve (concepts : dict pystr (list pystr)) e :
  (forall d, NoDup (dkeys d) -> (forall v z, dget d v = Some z <-> z = 0%Z /\ exists k vs, In (k, vs) concepts /\ In v vs) -> retrieve d = Err e) ->
  vectorizer_tokens retrieve concepts = Err e.
Proof.
  intros H. unfold vectorizer_tokens. destruct (queries_inv concepts []) as (W & Q); [apply dwf_nil|discriminate|].
  unfold queries_of. rewrite H; [reflexivity|exact W|]. intros v z. rewrite Q. cbn [dget]. split; intros (-> & X); (split; [reflexivity|]); [destruct X as [X|X]; [discriminate|exact X]|now right].
Qed.
(** ** read_token_colloc *)
Lemma dget_rev_enum (p : nat -> Z) (l : list pystr) c : dget (rev (map (fun ix => (snd ix, p (fst ix))) (enum l))) c = option_map p (last_index c l).
Proof.
  unfold enum. assert (G : forall k, dget (rev (map (fun ix : nat * pystr => (snd ix, p (fst ix))) (combine (seq k (length l)) l))) c = option_map (fun i => p (k + i)) (last_index c l)).
  { induction l as [|x l IH]; intros k; [reflexivity|]. cbn [length seq combine map rev last_index]. rewrite dget_app, IH. destruct (last_index c l) as [i|]; cbn [option_map].
    - f_equal. f_equal. lia.
    - cbn [dget fst snd]. destruct (eqdec c x); [|reflexivity]. cbn [option_map]. f_equal. f_equal. lia. }
  exact (G 0).
Qed.
Definition visited_strs (lspan rspan : nat) (ls rs : list pystr) : list (pystr * Z) :=
  map (fun ix => (snd ix, (- (Z.of_nat (fst ix) + 1))%Z)) (enum (firstn (Nat.min lspan (length ls)) (rev ls))) ++
  map (fun ix => (snd ix, (Z.of_nat (fst ix) + 1)%Z)) (enum (firstn (Nat.min rspan (length rs)) rs)).
Lemma Forall2_firstn {A B} (R : A -> B -> Prop) n l l' : Forall2 R l l' -> Forall2 R (firstn n l) (firstn n l').
Proof. intros F. revert n. induction F; intros [|n]; cbn [firstn]; constructor; auto. Qed.
Lemma Forall2_rev' {A B} (R : A -> B -> Prop) l l' : Forall2 R l l' -> Forall2 R (rev l) (rev l').
Proof. induction 1; cbn [rev]; [constructor|]. apply Forall2_app; auto. Qed.
Lemma visited_ok fmt lspan rspan t ls rs : collocs_are fmt t ls rs ->
  Forall2 (fun xz cz => to_colloc (fst xz) fmt = Ok (fst cz) /\ snd xz = snd cz) (visited lspan rspan t) (visited_strs lspan rspan ls rs).
Proof.
  rewrite collocs_code. intros [Fl Fr]. unfold visited, visited_strs. rewrite (Forall2_length' _ _ _ Fl), (Forall2_length' _ _ _ Fr).
  assert (E : forall (p : nat -> Z) l l', Forall2 (fun n s => to_colloc n fmt = Ok s) l l' ->
    Forall2 (fun xz cz => to_colloc (fst xz) fmt = Ok (fst cz) /\ snd xz = snd cz) (map (fun ix => (snd ix, p (fst ix))) (enum l)) (map (fun ix => (snd ix, p (fst ix))) (enum l'))).
  { intros p l l' F. unfold enum. generalize 0. induction F; intros k; cbn [length seq combine map]; constructor; auto. }
  apply Forall2_app; [apply (E (fun i => (- (Z.of_nat i + 1))%Z))|apply (E (fun i => (Z.of_nat i + 1)%Z))]; apply Forall2_firstn; auto using Forall2_rev'.
Qed.
Lemma read_fold fmt v s l l' : Forall2 (fun xz cz => to_colloc (fst xz) fmt = Ok (fst cz) /\ snd xz = snd cz) l l' -> forall d,
  exists d', rfold (fun d xz => rbind (to_colloc (fst xz) fmt) (fun c => Ok (if vocab_ok v c then ncset d s c (snd xz) else d))) l d = Ok d' /\
    (forall s', s' <> s -> dget d' s' = dget d s') /\
    forall c, dget2 d' s c = if vocab_ok v c then match dget (rev l') c with Some z => Some z | None => dget2 d s c end else dget2 d s c.
Proof.
  induction 1 as [|[n z] [c0 z0] l l' [E Ez] F IH]; intros d; cbn [rfold].
  - exists d. split; [reflexivity|]. split; [auto|]. intros c. cbn. now destruct (vocab_ok v c).
  - cbn [fst snd] in *. subst z0. rewrite E. cbn [rbind]. destruct (IH (if vocab_ok v c0 then ncset d s c0 z else d)) as (d' & R & O & G). exists d'. split; [exact R|]. split.
    + intros s' N. rewrite O by assumption. destruct (vocab_ok v c0); [|reflexivity]. unfold ncset. now rewrite dget_dset_other.
    + intros c. rewrite G. cbn [rev]. rewrite dget_app. destruct (vocab_ok v c) eqn:Vc.
      * destruct (dget (rev l') c); [reflexivity|]. cbn [dget]. destruct (eqdec c c0) as [->|Nc].
        -- rewrite Vc. unfold dget2, ncset. rewrite dget_dset_same. now rewrite dget_dset_same.
        -- destruct (vocab_ok v c0); [|reflexivity]. unfold dget2, ncset. rewrite dget_dset_same, dget_dset_other by assumption. now destruct (dget d s).
      * destruct (vocab_ok v c0) eqn:V0; [|reflexivity]. assert (Nc : c <> c0) by congruence. unfold dget2, ncset. rewrite dget_dset_same, dget_dset_other by assumption.
        now destruct (dget d s).
Qed.
Lemma nth_error_rev {A} (l : list A) i x : nth_error (rev l) i = Some x <-> i < length l /\ nth_error l (length l - S i) = Some x.
Proof.
  assert (Q : i < length l -> nth_error (rev l) i = nth_error l (length l - S i)).
  { intros H. rewrite (nth_error_nth' (rev l) x) by now rewrite rev_length. rewrite (nth_error_nth' l x) by lia. f_equal. now apply rev_nth. }
  split.
  - intros E. assert (H : i < length (rev l)) by (apply nth_error_Some; congruence). rewrite rev_length in H. split; [exact H|]. now rewrite <- Q.
  - intros [H E]. now rewrite Q.
Qed.
Lemma visited_last ls rs lspan rspan c : match dget (rev (visited_strs lspan rspan ls rs)) c with
  | Some z => farthest_right_else_left ls rs lspan rspan c z
  | None => forall z, occurs ls rs c z -> ~ within lspan rspan z
  end.
Proof.
  unfold visited_strs. rewrite rev_app_distr, dget_app, (dget_rev_enum (fun i => (Z.of_nat i + 1)%Z)), (dget_rev_enum (fun i => (- (Z.of_nat i + 1))%Z)).
  set (R := last_index c (firstn (Nat.min rspan (length rs)) rs)). set (L := last_index c (firstn (Nat.min lspan (length ls)) (rev ls))).
  assert (HR : forall j, nth_error rs j = Some c -> j < rspan -> exists i, R = Some i /\ j <= i).
  { intros j Nj Hj. assert (Q : nth_error (firstn (Nat.min rspan (length rs)) rs) j = Some c).
    { rewrite nth_firstn. assert (j < length rs) by (apply nth_error_Some; congruence). destruct (Nat.ltb_spec j (Nat.min rspan (length rs))); [exact Nj|lia]. }
    destruct R as [i|] eqn:ER; [apply last_index_Some in ER as [_ B]; eauto|]. apply last_index_None in ER. elim ER. eapply nth_error_In; exact Q. }
  assert (HL : forall j, nth_error ls j = Some c -> length ls - j <= lspan -> exists i, L = Some i /\ length ls - S j <= i).
  { intros j Nj Hj. assert (Lj : j < length ls) by (apply nth_error_Some; congruence).
    assert (Q : nth_error (firstn (Nat.min lspan (length ls)) (rev ls)) (length ls - S j) = Some c).
    { rewrite nth_firstn. destruct (Nat.ltb_spec (length ls - S j) (Nat.min lspan (length ls))); [|lia]. apply nth_error_rev. split; [lia|].
      now replace (length ls - S (length ls - S j)) with j by lia. }
    destruct L as [i|] eqn:EL; [apply last_index_Some in EL as [_ B]; eauto|]. apply last_index_None in EL. elim EL. eapply nth_error_In; exact Q. }
  assert (HR0 : forall i, R = Some i -> nth_error rs i = Some c /\ i < rspan).
  { intros i E. apply last_index_Some in E as [E _]. rewrite nth_firstn in E. destruct (Nat.ltb_spec i (Nat.min rspan (length rs))); [|discriminate]. split; [exact E|lia]. }
  assert (HL0 : forall i, L = Some i -> i < length ls /\ nth_error ls (length ls - S i) = Some c /\ i < lspan).
  { intros i E. apply last_index_Some in E as [E _]. rewrite nth_firstn in E. destruct (Nat.ltb_spec i (Nat.min lspan (length ls))); [|discriminate].
    apply nth_error_rev in E as [E1 E2]. split; [exact E1|]. split; [exact E2|lia]. }
  clearbody R L. unfold within. destruct R as [i|]; cbn [option_map].
  - destruct (HR0 i eq_refl) as [N B]. split; [right; eauto|]. split; [unfold within; lia|]. intros z' [(j & Nj & ->)|(j & Nj & ->)] W; unfold within in W; left; split; try lia.
    + assert (j < length ls) by (apply nth_error_Some; congruence). lia.
    + destruct (HR j Nj) as (i' & E & Li); [lia|]. injection E as <-. lia.
  - destruct L as [i|]; cbn [option_map].
    + destruct (HL0 i eq_refl) as (Li & N & B). split; [left; exists (length ls - S i); split; [exact N|lia]|]. split; [unfold within; lia|].
      intros z' [(j & Nj & ->)|(j & Nj & ->)] W; unfold within in W; right; split; try lia.
      * assert (j < length ls) by (apply nth_error_Some; congruence). destruct (HL j Nj) as (i' & E & Lj); [lia|]. injection E as <-. lia.
      * destruct (HR j Nj) as (i' & E & _); [lia|discriminate].
    + intros z [(j & Nj & ->)|(j & Nj & ->)] W.
      * assert (j < length ls) by (apply nth_error_Some; congruence). destruct (HL j Nj) as (i' & E & _); [lia|discriminate].
      * destruct (HR j Nj) as (i' & E & _); [lia|discriminate].
Qed.
Lemma read_token_ok v lspan rspan fmt d t s ls rs : ct_str t = Ok s -> collocs_are fmt t ls rs ->
  exists d', read_token v lspan rspan fmt d t = Ok d' /\ (forall s', s' <> s -> dget d' s' = dget d s') /\
    forall c, (vocab_ok v c = true -> (exists z, occurs ls rs c z /\ within lspan rspan z) ->
                 exists z, dget2 d' s c = Some z /\ farthest_right_else_left ls rs lspan rspan c z) /\
              (vocab_ok v c = false \/ (forall z, occurs ls rs c z -> ~ within lspan rspan z) -> dget2 d' s c = dget2 d s c).
Proof.
  intros Es Cl. unfold read_token. rewrite Es. cbn [rbind]. destruct (read_fold fmt v s _ _ (visited_ok fmt lspan rspan t ls rs Cl) d) as (d' & R & O & G).
  exists d'. split; [exact R|]. split; [exact O|]. intros c. rewrite G. assert (V := visited_last ls rs lspan rspan c). split.
  - intros -> (z & Oz & Wz). destruct (dget _ c) as [z'|]; [eauto|]. elim (V z Oz Wz).
  - intros [->|N]; [reflexivity|]. destruct (vocab_ok v c); [|reflexivity]. destruct (dget _ c) as [z'|]; [|reflexivity]. destruct V as (Oz & Wz & _). elim (N z' Oz Wz).
Qed.
Lemma read_all v lspan rspan fmt toks ss : Forall2 (fun t s => ct_str t = Ok s) toks ss -> NoDup ss -> (forall t, In t toks -> printable fmt t) -> forall d,
  (forall s, In s ss -> dget d s = None) ->
  exists d', rfold (read_token v lspan rspan fmt) toks d = Ok d' /\ (forall s, ~ In s ss -> dget d' s = dget d s) /\
    forall t s ls rs, In t toks -> ct_str t = Ok s -> collocs_are fmt t ls rs -> forall c,
      (vocab_ok v c = true -> (exists z, occurs ls rs c z /\ within lspan rspan z) -> exists z, dget2 d' s c = Some z /\ farthest_right_else_left ls rs lspan rspan c z) /\
      (vocab_ok v c = false \/ (forall z, occurs ls rs c z -> ~ within lspan rspan z) -> dget2 d' s c = None).
Proof.
  induction 1 as [|t s toks ss Es F IH]; intros N P d D; cbn [rfold].
  - exists d. split; [reflexivity|]. split; [auto|]. intros t s ls rs [].
  - inversion N as [|? ? NI N']; subst. destruct (P t (or_introl eq_refl)) as [_ (ls & rs & Cl)].
    destruct (read_token_ok v lspan rspan fmt d t s ls rs Es Cl) as (d1 & R1 & O1 & G1). rewrite R1.
    destruct (IH N') with (d := d1) as (d' & R & O & G).
    { intros; apply P; cbn; auto. }
    { intros s' I. rewrite O1; [apply D; cbn; auto|]. intros ->. contradiction. }
    exists d'. split; [exact R|]. split; [intros s' I; rewrite O; [apply O1; intros ->; apply I; cbn; auto|intros J; apply I; cbn; auto]|].
    intros t' s' ls' rs' [<-|I] Es' Cl' c; [|eapply G; eauto]. assert (s' = s) by congruence. subst s'.
    destruct (collocs_fun _ _ _ _ _ _ Cl Cl') as [<- <-]. assert (E2 : dget2 d' s c = dget2 d1 s c) by (unfold dget2; now rewrite O). rewrite E2.
    destruct (G1 c) as [A B]. split; [exact A|]. intros H. rewrite (B H). unfold dget2. rewrite D; [reflexivity|cbn; auto].
Qed.
Lemma vocab_kept v c : vocab_ok v c = true <-> kept v c.
Proof.
  unfold kept, vocab_ok. destruct v as [v|]; [|now split]. unfold v_len, v_contains. split.
  - intros H w [= <-] Nw. apply orb_true_iff in H as [H|H].
    + apply Nat.eqb_eq in H. destruct Nw. unfold dkeys. now destruct (fd v).
    + now apply dmem_In.
  - intros H. apply orb_true_iff. destruct (fd v) as [|kv d] eqn:E; [now left|]. right. apply dmem_In. rewrite <- E. apply (H v); [reflexivity|]. rewrite E. discriminate.
Qed.
Lemma read_all_kept v lspan rspan fmt toks ss : Forall2 (fun t s => ct_str t = Ok s) toks ss -> NoDup ss -> (forall t, In t toks -> printable fmt t) -> forall d,
  (forall s, In s ss -> dget d s = None) ->
  exists d', rfold (read_token v lspan rspan fmt) toks d = Ok d' /\ (forall s, ~ In s ss -> dget d' s = dget d s) /\
    forall t s ls rs, In t toks -> ct_str t = Ok s -> collocs_are fmt t ls rs -> forall c,
      (kept v c -> (exists z, occurs ls rs c z /\ within lspan rspan z) -> exists z, dget2 d' s c = Some z /\ farthest_right_else_left ls rs lspan rspan c z) /\
      (~ kept v c \/ (forall z, occurs ls rs c z -> ~ within lspan rspan z) -> dget2 d' s c = None).
Proof.
  intros F N P d D. destruct (read_all v lspan rspan fmt toks ss F N P d D) as (d' & R & O & G). exists d'. split; [exact R|]. split; [exact O|].
  intros t s ls rs I Es Cl c. destruct (G t s ls rs I Es Cl c) as [A B]. split; [intros K; apply A; now apply vocab_kept|].
  intros [K|K]; apply B; [left|now right]. rewrite <- vocab_kept in K. now apply not_true_is_false.
Qed.
(** The matrix made of it *)
Definition rows_ok (v : option vocab) (d : dict pystr (dict pystr Z)) : Prop :=
  dwf d /\ forall s row, In (s, row) d -> dwf row /\ row <> [] /\ forall c, In c (dkeys row) -> kept v c.
Lemma ncset_ok v d s c z : rows_ok v d -> kept v c -> rows_ok v (ncset d s c z).
Proof.
  intros [W H] K. unfold ncset. split; [now apply dwf_dset|]. intros s' row I. assert (W' := dwf_dset d s (dset (match dget d s with Some row => row | None => [] end) c z) W).
  apply (proj1 (dget_In _ _ _ W')) in I. destruct (eqdec s' s) as [->|Ns].
  - rewrite dget_dset_same in I. injection I as <-.
    assert (B : dwf (match dget d s with Some row => row | None => [] end) /\ forall c, In c (dkeys (match dget d s with Some row => row | None => [] end)) -> kept v c).
    { destruct (dget d s) as [row|] eqn:G; [apply dget_Some_In in G; now destruct (H _ _ G) as (? & _ & ?)|]. split; [constructor|]. intros c' []. }
    destruct B as [B1 B2]. split; [now apply dwf_dset|]. split.
    + intros E. assert (X := dget_dset_same (match dget d s with Some row => row | None => [] end) c z). rewrite E in X. discriminate.
    + intros c' I. apply dkeys_dset_In in I as [->|I]; auto.
  - rewrite dget_dset_other in I by assumption. apply dget_Some_In in I. now apply H in I.
Qed.
Lemma read_rows_ok v lspan rspan fmt toks : forall d d', rfold (read_token v lspan rspan fmt) toks d = Ok d' -> rows_ok v d -> rows_ok v d'.
Proof.
  induction toks as [|t toks IH]; intros d d' E R; cbn [rfold] in E; [injection E as <-; exact R|].
  destruct (read_token v lspan rspan fmt d t) as [d1|] eqn:E1; cbn [rbind] in E; [|discriminate]. apply IH in E; [exact E|]. clear IH E d'.
  unfold read_token in E1. destruct (ct_str t) as [s|]; cbn [rbind] in E1; [|discriminate]. revert d R E1. induction (visited lspan rspan t) as [|[n z] l IH]; intros d R E1; cbn [rfold fst snd] in E1.
  - injection E1 as <-. exact R.
  - destruct (to_colloc n fmt) as [c|]; cbn [rbind] in E1; [|discriminate]. apply IH in E1; [exact E1|]. destruct (vocab_ok v c) eqn:K; [|exact R]. apply ncset_ok; [exact R|now apply vocab_kept].
Qed.
Lemma colloc_matrix v lspan rspan fmt n ss : Forall2 (fun t s => ct_str t = Ok s) (tn_tokens n) ss -> NoDup ss -> (forall t, In t (tn_tokens n) -> printable fmt t) ->
  (forall w, v = Some w -> dwf (fd w)) ->
  let reads t c z := exists ls rs, collocs_are fmt t ls rs /\ kept v c /\ occurs ls rs c z /\ within lspan rspan z in
  (forall t c z, In t (tn_tokens n) -> ~ reads t c z) /\ token_colloc_matrix v lspan rspan fmt n = Err ValueError \/
  exists m, token_colloc_matrix v lspan rspan fmt n = Ok m /\ tgood m /\
    sorted_set (trows m) (fun s => exists t c z, In t (tn_tokens n) /\ ct_str t = Ok s /\ reads t c z) /\
    sorted_set (tcols m) (fun c => (exists t z, In t (tn_tokens n) /\ reads t c z) \/ exists w, v = Some w /\ In c (dkeys (fd w))) /\
    forall t s ls rs, In t (tn_tokens n) -> ct_str t = Ok s -> collocs_are fmt t ls rs -> forall c,
      ((exists z, reads t c z) -> farthest_right_else_left ls rs lspan rspan c (val m s c)) /\ ((forall z, ~ reads t c z) -> val m s c = 0%Z).
Proof.
  intros F N P Wv reads. destruct (read_all_kept v lspan rspan fmt _ ss F N P []) as (d & R & O & G); [reflexivity|].
  assert (RO : rows_ok v d) by (eapply read_rows_ok; [exact R|]; split; [constructor|intros ? ? []]).
  unfold token_colloc_matrix. unfold read_token_colloc. rewrite R. cbn [rbind]. set (rows := isort sleb (dkeys d)).
  match goal with |- context [dict_to_sp d rows ?x] => set (cols := x) end.
  assert (Cin : forall c, In c cols <-> (exists r, In r d /\ In c (dkeys (snd r))) \/ exists w, v = Some w /\ In c (dkeys (fd w))).
  { intros c. assert (X : In c (isort sleb (dedup (flat_map (fun r => dkeys (snd r)) d))) <-> exists r, In r d /\ In c (dkeys (snd r))).
    { rewrite isort_In, dedup_In, in_flat_map. reflexivity. }
    unfold cols. destruct v as [w|]; cbv iota; [|rewrite X; split; [auto|intros [H|(w & E & _)]; [exact H|discriminate]]].
    unfold v_len. destruct (Nat.eqb_spec (length (dkeys (fd w))) 0) as [E0|E0]; cbv iota.
    - rewrite X. split; [auto|]. intros [H|(w' & [= <-] & I)]; [exact H|]. destruct (fd w); [destruct I|discriminate].
    - rewrite isort_In. split; [right; eauto|]. intros [((s & row) & Ir & Ic)|(w' & [= <-] & I)]; [|exact I]. destruct RO as [_ RO]. destruct (RO _ _ Ir) as (_ & _ & K).
      apply (K c Ic w); [reflexivity|]. destruct (fd w); [now elim E0|discriminate]. }
  assert (Ncols : NoDup cols).
  { unfold cols. destruct v as [w|]; [destruct (v_len w =? 0)|]; (eapply Permutation_NoDup; [apply isort_perm|]); try apply dedup_NoDup. now apply Wv. }
  assert (Scols : StronglySorted (fun x y => sleb x y = true) cols).
  { unfold cols. destruct v as [w|]; [destruct (v_len w =? 0)|]; apply isort_sorted; eauto using sleb_total, sleb_trans. }
  assert (Nrows : NoDup rows) by (eapply Permutation_NoDup; [apply isort_perm|apply RO]).
  assert (W : mxwf d rows cols).
  { split; [apply RO|]. intros r row I. split; [|split; [now apply RO in I|]].
    - apply isort_In. apply in_map_iff. now exists (r, row).
    - intros c Ic. apply Cin. left. now exists (r, row). }
  assert (K : forall t s, In t (tn_tokens n) -> ct_str t = Ok s -> forall c, (exists z, reads t c z) <-> dget2 d s c <> None).
  { intros t s It Es c. destruct (P t It) as [_ (ls & rs & Cl)]. destruct (G t s ls rs It Es Cl c) as [G1 G2]. split.
    - intros (z & ls' & rs' & Cl' & Kc & Oz & Wz). destruct (collocs_fun _ _ _ _ _ _ Cl Cl') as [<- <-]. destruct G1 as (z' & -> & _); eauto. discriminate.
    - intros D. destruct (dget2 d s c) as [z|] eqn:E; [|congruence]. assert (Kd : kept v c).
      { unfold dget2 in E. destruct (dget d s) as [row|] eqn:Er; [|discriminate]. apply dget_Some_In in Er. apply RO in Er as (_ & _ & Kr). apply Kr. eapply dget_Some_key; exact E. }
      assert (Ex : ~ forall z, occurs ls rs c z -> ~ within lspan rspan z) by (intros H; discriminate (G2 (or_intror H))).
      destruct (dget (rev (visited_strs lspan rspan ls rs)) c) as [z0|] eqn:Ev; assert (V := visited_last ls rs lspan rspan c); rewrite Ev in V.
      + destruct V as (Oz & Wz & _). exists z0, ls, rs. auto.
      + exfalso. apply Ex. intros z0 Oz Wz. exact (V z0 Oz Wz). }
  assert (Rin : forall s c, dget2 d s c <> None -> exists t, In t (tn_tokens n) /\ ct_str t = Ok s).
  { intros s c D. destruct (in_dec (list_eq_dec N.eq_dec) s ss) as [I|I]; [destruct (Forall2_In_r _ _ _ _ F I) as (t & It & Es); eauto|].
    exfalso. apply D. unfold dget2. rewrite O by assumption. reflexivity. }
  assert (Dk : forall s, In s (dkeys d) <-> exists c, dget2 d s c <> None).
  { intros s. split.
    - intros I. apply in_map_iff in I as ([s' row] & <- & I). destruct RO as [W0 RO]. destruct (RO _ _ I) as (Wr & Nr & _). destruct row as [|[c z] row]; [congruence|]. exists c.
      unfold dget2. cbn [fst]. rewrite (proj1 (dget_In _ _ _ W0) I). cbn. destruct (eqdec c c); [discriminate|congruence].
    - intros (c & D). unfold dget2 in D. destruct (dget d s) eqn:E; [|congruence]. eapply dget_Some_key; exact E. }
  assert (Cd : dkeys d = [] \/ exists s0, In s0 (dkeys d)) by (destruct (dkeys d) as [|s0 ks]; [now left|right; exists s0; now left]).
  destruct Cd as [Ek|(s0 & I0)].
  - left. split.
    + intros t c z It Rd. destruct (P t It) as [(s & Es) _]. assert (D : dget2 d s c <> None) by (apply (proj1 (K t s It Es c)); eauto).
      assert (I : In s (dkeys d)) by (apply Dk; eauto). rewrite Ek in I. destruct I.
    + rewrite dict_to_sp_empty; auto. intros s c. destruct d; [reflexivity|discriminate].
  - right. destruct (proj1 (Dk s0) I0) as (c0 & D0).
    destruct (roundtrip d rows cols Nrows Ncols W) as (sp & d' & Es & Em & Gm & Vm & _).
    { destruct (dget2 d s0 c0) as [z|] eqn:E; [eauto|congruence]. }
    rewrite Es. cbn [rbind]. rewrite Em. eexists. split; [reflexivity|]. split; [exact Gm|]. cbn [trows tcols]. split; [|split].
    + split; [exact Nrows|]. split; [apply isort_sorted; eauto using sleb_total, sleb_trans|]. intros s. unfold rows. rewrite isort_In, Dk. split.
      * intros (c & D). destruct (Rin s c D) as (t & It & Et). destruct (proj2 (K t s It Et c) D) as (z & Rz). exists t, c, z. auto.
      * intros (t & c & z & It & Et & Rz). exists c. apply (K t s It Et). eauto.
    + split; [exact Ncols|]. split; [exact Scols|]. intros c. rewrite Cin. split; (intros [H|H]; [left|right; exact H]).
      * destruct H as ((s & row) & Ir & Ic). assert (D : dget2 d s c <> None).
        { unfold dget2. destruct RO as [W0 RO]. rewrite (proj1 (dget_In _ _ _ W0) Ir). intros D. apply dget_None in D. contradiction. }
        destruct (Rin s c D) as (t & It & Et). destruct (proj2 (K t s It Et c) D) as (z & Rz). eauto.
      * destruct H as (t & z & It & Rz). destruct (P t It) as [(s & Et) _]. assert (D : dget2 d s c <> None) by (apply (K t s It Et); eauto).
        unfold dget2 in D. destruct (dget d s) as [row|] eqn:E; [|congruence]. exists (s, row). split; [now apply dget_Some_In|]. cbn [snd].
        destruct (dget row c) eqn:E'; [|congruence]. eapply dget_Some_key; exact E'.
    + intros t s ls rs It Et Cl c. rewrite Vm. destruct (G t s ls rs It Et Cl c) as [G1 G2]. split.
      * intros (z & ls' & rs' & Cl' & Kc & Oz & Wz). destruct (collocs_fun _ _ _ _ _ _ Cl Cl') as [<- <-]. destruct G1 as (z' & -> & Fz); eauto.
      * intros H. assert (D : dget2 d s c = None); [|now rewrite D]. destruct (dget2 d s c) eqn:E; [|reflexivity]. exfalso.
        destruct (proj2 (K t s It Et c)) as (z' & Rz); [congruence|]. exact (H z' Rz).
Qed.
Lemma farthest_rightmost ls rs lspan rspan c z z' : farthest_right_else_left ls rs lspan rspan c z -> rightmost ls rs c z' ->
  (forall a b, occurs ls rs c a -> occurs ls rs c b -> a = b) -> z = z'.
Proof. intros [O _] [O' _] U. now apply U. Qed.

(** Both readings agree when no collocate is repeated and the spans cover the contexts. *)
Lemma readings_agree order fmt n d' m : (forall x, Permutation x (order x)) -> forall lspan rspan ss,
  Forall2 (fun t s => ct_str t = Ok s) (tn_tokens n) ss -> NoDup ss ->
  (forall t, In t (tn_tokens n) -> length (ct_l t) <= lspan /\ length (ct_r t) <= rspan) ->
  (forall t ls rs, In t (tn_tokens n) -> collocs_are fmt t ls rs -> NoDup (ls ++ rs)) ->
  forall k, nodes_to_matrix order fmt [(k, n)] = Ok m -> read_token_colloc None lspan rspan fmt n = Ok d' ->
  forall s c, val m s c = oz (dget2 d' s c).
Proof.
  intros OP lspan rspan ss F N SP ND k Em Er s c.
  assert (Tk : toks_of [(k, n)] = tn_tokens n) by (unfold toks_of; cbn [dvals map snd flat_map]; apply app_nil_r).
  assert (P : forall t, In t (tn_tokens n) -> printable fmt t).
  { destruct (n2m_ok order OP _ _ _ Em) as (D & C & E' & _). destruct (t2c_facts order OP _ _ _ _ E') as (ss' & rows & F1 & F2 & _). rewrite Tk in F1, F2.
    intros t It. destruct (Forall2_In_l _ _ _ _ F1 It) as (s' & _ & Es). destruct (Forall2_In_l _ _ _ _ F2 It) as (row & _ & Rt). split; [eauto|]. eapply tok_row_inv; exact Rt. }
  destruct (read_all None lspan rspan fmt _ ss F N P []) as (d1 & R1 & O1 & G1); [reflexivity|].
  assert (d1 = d') by (unfold read_token_colloc in Er; congruence). subst d1.
  destruct (token_matrix order OP _ _ _ Em) as (Gm & HR & _ & HV). destruct (in_dec (list_eq_dec N.eq_dec) s ss) as [I|I].
  - destruct (Forall2_In_r _ _ _ _ F I) as (t & It & Es). destruct (P t It) as [_ (ls & rs & Cl)].
    assert (Lw : last_with [(k, n)] t s).
    { split; [exact Es|]. destruct (in_split _ _ It) as (a & b & Et). exists a, b. rewrite Tk. split; [exact Et|]. intros t' It' Es'. rewrite Et in F.
      apply Forall2_app_inv_l in F as (sa & sb & Fa & Fb & ->). inversion Fb as [|? s0 ? sb' E0 Fb']; subst. assert (s0 = s) by congruence. subst s0.
      destruct (Forall2_In_l _ _ _ _ Fb' It') as (s1 & Is1 & E1). assert (s1 = s) by congruence. subst s1.
      apply NoDup_remove_2 in N. apply N. apply in_or_app. auto. }
    destruct (HV t s Lw) as (ls' & rs' & Cl' & V). destruct (collocs_fun _ _ _ _ _ _ Cl Cl') as [<- <-]. destruct (V c) as [V1 V2]. destruct (G1 t s ls rs It Es Cl c) as [W1 W2].
    assert (NN := ND t ls rs It Cl). destruct (SP t It) as [SL SR]. destruct Cl as [C1 C2]. apply Forall2_length' in C1, C2.
    assert (U : forall a b, occurs ls rs c a -> occurs ls rs c b -> a = b).
    { assert (X : forall z, occurs ls rs c z -> exists p, nth_error (ls ++ rs) p = Some c /\ p < length (ls ++ rs) /\ z = (if Nat.ltb p (length ls) then Z.of_nat p - Z.of_nat (length ls) else Z.of_nat p - Z.of_nat (length ls) + 1)%Z).
      { intros z [(p & Np & ->)|(p & Np & ->)].
        - assert (p < length ls) by (apply nth_error_Some; congruence). exists p. rewrite nth_error_app1, app_length by assumption. split; [exact Np|]. split; [lia|].
          destruct (Nat.ltb_spec p (length ls)); lia.
        - assert (p < length rs) by (apply nth_error_Some; congruence). exists (length ls + p). rewrite nth_error_app2 by lia. replace (length ls + p - length ls) with p by lia.
          rewrite app_length. split; [exact Np|]. split; [lia|]. destruct (Nat.ltb_spec (length ls + p) (length ls)); lia. }
      intros a b Oa Ob. apply X in Oa as (p & Np & Lp & ->). apply X in Ob as (q & Nq & Lq & ->). assert (p = q); [|now subst].
      apply (proj1 (NoDup_nth_error _) NN p q Lp). congruence. }
    destruct (in_dec (list_eq_dec N.eq_dec) c (ls ++ rs)) as [J|J].
    + destruct (V1 J) as [O B]. assert (Wz : exists z, occurs ls rs c z /\ within lspan rspan z).
      { exists (val m s c). split; [exact O|]. unfold within. destruct O as [(p & Np & ->)|(p & Np & ->)].
        - assert (p < length ls) by (apply nth_error_Some; congruence). lia.
        - assert (p < length rs) by (apply nth_error_Some; congruence). lia. }
      destruct (W1 eq_refl Wz) as (z & -> & (Oz & _)). cbn [oz]. now apply U.
    + rewrite (V2 J), W2; [reflexivity|]. right. intros z Oz _. apply J. apply in_or_app. destruct Oz as [(p & Np & _)|(p & Np & _)]; apply nth_error_In in Np; auto.
  - unfold dget2. rewrite O1 by assumption. cbn [dget oz]. apply val_no_row. intros Ir. apply HR in Ir as (t & It & Es). rewrite Tk in It.
    destruct (Forall2_In_l _ _ _ _ F It) as (s' & Is & Es'). assert (s' = s) by congruence. subst s'. contradiction.
Qed.

(** ** TypeVectorizer.fit *)
Lemma if_add_wf v res : dwf v -> dwf (if_add v res).
Proof.
  unfold if_add. revert v. induction res as [|[k n] res IH]; intros v W; cbn [fold_left fst snd]; [exact W|]. apply IH.
  assert (W' : dwf (if dmem v k then v else dset v k 0%Z)) by (destruct (dmem v k); [exact W|now apply dwf_dset]).
  destruct (dget _ k); [now apply dwf_dset|exact W'].
Qed.
Lemma if_process_wf results : dwf (if_process_results results).
Proof.
  unfold if_process_results. assert (G : forall v, dwf v -> dwf (fold_left if_add results v)); [|apply G, dwf_nil].
  induction results as [|r rs IH]; intros v W; cbn [fold_left]; [exact W|]. apply IH. now apply if_add_wf.
Qed.
Lemma cooc_absent {A} k (ty co : A -> pystr) l r xs t c : (forall x, In x xs -> ty x <> t) \/ (forall x, In x xs -> co x <> c) -> cooc_upto k ty co l r xs t c = 0.
Proof.
  intros H. unfold cooc_upto, npairs. rewrite (proj2 (length_zero_iff_nil _)); [reflexivity|].
  destruct (filter _ _) as [|[i j] q] eqn:E; [reflexivity|]. exfalso.
  assert (I : In (i, j) ((i, j) :: q)) by (cbn; auto). rewrite <- E in I. apply filter_In in I as [_ I]. cbn [fst snd] in I.
  rewrite !andb_true_iff in I. destruct I as [[[_ I1] I2] _]. unfold has in I1, I2.
  destruct (nth_error xs i) as [x|] eqn:X; [|discriminate]. destruct (nth_error xs j) as [y|] eqn:Y; [|discriminate].
  apply (proj1 (eqb_eq _ _)) in I1, I2. apply nth_error_In in X, Y. destruct H as [H|H]; [now apply (H x)|now apply (H y)].
Qed.
Section Fit.
  Context {L M : Type} (match_line : L -> option M) (separator : L -> bool) (g : M -> pystr) (l r : nat).
  Lemma holds_ext' rv cv o f f' : (forall t c, f t c = f' t c) -> holds_counts rv cv o f -> holds_counts rv cv o f'.
  Proof.
    intros E. destruct o as [m|]; cbn [holds_counts]; [|intros H t c; now rewrite <- E]. intros (G & R & (C1 & C2 & C3) & V & (t & c & N)).
    split; [exact G|]. split; [exact R|]. split; [split; [exact C1|split; [exact C2|]]|split].
    - intros x. rewrite C3. destruct (any_column cv); [|tauto]. split; intros (t' & H); exists t'; [rewrite <- E|rewrite E]; exact H.
    - intros t' c'. rewrite V. apply E.
    - exists t, c. now rewrite <- E.
  Qed.
  Lemma match_of_seg lines xs x : In xs (segments match_line separator lines) -> In x xs -> In (fst x) (matches_of match_line lines).
  Proof. intros I J. rewrite <- (segments_concat match_line separator 0 lines). apply in_map. apply in_concat. exists xs. auto. Qed.
  Lemma fit_counts nw contents sched st b nw' sched' st' : 1 <= nw -> 1 <= nw' ->
    run (if_job match_line g) if_finish (start tt nw (map Ok contents)) sched = Some st -> joined st = true ->
    matches_of match_line (concat contents) <> [] ->
    exists v, if_result (length contents) st = Some v /\
      let rv := fit_rows b v in let cv := fit_cols rv in
      (run (cf_job match_line separator g g rv l r) (cf_finish rv cv) (cf_start cv nw' (map Ok contents)) sched' = Some st' -> joined st' = true ->
       exists o, cf_result st' = Ok o /\ holds_counts rv cv o (all_pairs match_line separator g g l r contents)).
  Proof.
    intros N N' E J NE. destruct (if_returns match_line g nw contents sched st N E J) as [v Rv]. exists v. split; [exact Rv|]. cbv zeta. intros E' J'.
    assert (H : forall k, dget v k = let n := count k (map g (matches_of match_line (concat contents))) in if n =? 0 then None else Some (Z.of_nat n)).
    { destruct (if_correct match_line g nw (map Ok contents) sched st v E J) as (cs & Ec & H); [rewrite map_length; exact Rv|]. apply map_Ok_inj in Ec. subst cs. exact H. }
    assert (W : dwf v).
    { unfold if_result in Rv. destruct (read_n (length contents) st) as [rs|]; [|discriminate]. injection Rv as <-. apply if_process_wf. }
    assert (VK : forall m, In m (matches_of match_line (concat contents)) -> dmem v (g m) = true).
    { intros m I. unfold dmem. rewrite H. cbv zeta. destruct (Nat.eqb_spec (count (g m) (map g (matches_of match_line (concat contents)))) 0) as [Z0|]; [|reflexivity].
      exfalso. apply (proj2 (count_nIn _ _)) in Z0. apply Z0. now apply in_map. }
    assert (NV : v <> []).
    { intros ->. destruct (matches_of match_line (concat contents)) as [|m ms] eqn:Q; [congruence|]. specialize (VK m). cbn in VK. assert (false = true) by auto. discriminate. }
    assert (F : filt (fit_rows b v) = true) by (destruct v; [congruence|reflexivity]).
    assert (F' : filt (fit_cols (fit_rows b v)) = true) by (destruct v; [congruence|reflexivity]).
    destruct (col_pool match_line separator g g (fit_rows b v) (fit_cols (fit_rows b v)) l r F W (or_intror (conj F' W)) nw' contents sched' st' N' E' J') as (o & Eo & Ho).
    exists o. split; [exact Eo|]. eapply holds_ext'; [|exact Ho]. intros t c. unfold corpus_pairs, all_pairs. f_equal. apply map_ext_in. intros lines Il.
    unfold file_pairs. destruct (wanted (fit_rows b v) (fit_cols (fit_rows b v)) t c) eqn:Wt; [reflexivity|]. symmetry. change 0%Z with (Z.of_nat 0). f_equal.
    assert (A : forall k, dmem v k = false -> forall xs, In xs (segments match_line separator lines) -> forall x, In x xs -> g (fst x) <> k).
    { intros k Dk xs Ixs x Ix <-. rewrite VK in Dk; [discriminate|]. unfold matches_of. apply in_flat_map.
      assert (I := match_of_seg lines xs x Ixs Ix). unfold matches_of in I. apply in_flat_map in I as (y & Iy & Iy'). exists y. split; [|exact Iy'].
      apply in_concat. eauto. }
    assert (S0 : forall (f : list (M * nat) -> nat) ss, (forall xs, In xs ss -> f xs = 0) -> sumn (map f ss) = 0).
    { clear. intros f ss. induction ss as [|x ss IH]; intros H; [reflexivity|]. cbn [map sumn]. rewrite (H x), IH; cbn; auto. intros; apply H; cbn; auto. }
    apply S0. intros xs Ixs. apply cooc_absent. unfold wanted in Wt. apply andb_false_iff in Wt as [Wt|Wt]; [left; now apply (A t)|].
    apply orb_false_iff in Wt as [_ Wt]. right. now apply (A c).
  Qed.
End Fit.
