(** * Lemmas about queries, frequency list files, concordances and the vocabulary's other methods. *)
From Coq Require Import String NArith ZArith QArith Bool Arith Lia Permutation Sorted List.
From Verif Require Import Base BaseLemmas Str StrLemmas VocabModel VocabSpec VocabProofs VocabFileModel VocabFileProofs JsonModel JsonProofs
  TermsModel TermsProofs TokMxModel TokMxSpec TokMxProofs QryModel QrySpec.
Import ListNotations.
Local Open Scope nat_scope.
Local Open Scope list_scope.

(** ** Queries *)
Lemma gives_split f n w : gives f n w <-> exists a b, split colon f = [a; b] /\ n = strip a /\ w = strip b.
Proof.
  split.
  - intros (a & b & -> & Na & Nb & -> & ->). exists a, b. rewrite split_app_noc, split_noc_id by assumption. auto.
  - intros (a & b & E & -> & ->). assert (J := join_split colon f). assert (N := split_noc colon f). rewrite E in J, N. cbn [join] in J.
    inversion N as [|? ? Na N']; subst. inversion N' as [|? ? Nb _]; subst. exists a, b. auto.
Qed.
Lemma gives_fun f n w n' w' : gives f n w -> gives f n' w' -> n = n' /\ w = w'.
Proof. rewrite !gives_split. intros (a & b & E & -> & ->) (a' & b' & E' & -> & ->). rewrite E in E'. injection E' as <- <-. auto. Qed.
Lemma gives_dec f : (exists n w, gives f n w) \/ forall n w, ~ gives f n w.
Proof.
  destruct (split colon f) as [|a [|b [|c r]]] eqn:E.
  1, 2, 4: right; intros n w; rewrite gives_split, E; intros (a' & b' & X & _); discriminate.
  left. exists (strip a), (strip b). apply gives_split. eauto.
Qed.
Lemma query_field_gives def d f n w : gives f n w ->
  query_field def d f = (let d := dset d n (Some w) in match dget d def with Some None => dset d def (Some w) | _ => d end).
Proof. rewrite gives_split. intros (a & b & E & -> & ->). unfold query_field. now rewrite E. Qed.
Lemma query_field_none def d f : (forall n w, ~ gives f n w) -> query_field def d f = d.
Proof.
  intros H. unfold query_field. destruct (split colon f) as [|a [|b [|c r]]] eqn:E; try reflexivity. elim (H (strip a) (strip b)). apply gives_split. eauto.
Qed.
Lemma last_given_snoc fs f n w : last_given (fs ++ [f]) n w <-> gives f n w \/ (last_given fs n w /\ forall w', ~ gives f n w').
Proof.
  split.
  - intros (p & f0 & s & E & G & L). destruct s as [|x s] using rev_ind.
    + apply app_inj_tail in E as [<- <-]. now left.
    + clear IHs. assert (E' : fs ++ [f] = (p ++ f0 :: s) ++ [x]) by (rewrite E, <- app_assoc; reflexivity). apply app_inj_tail in E' as [-> <-]. right. split.
      * exists p, f0, s. split; [reflexivity|]. split; [exact G|]. intros f' I. apply L. apply in_or_app. now left.
      * apply L. apply in_or_app. right. now left.
  - intros [G|[(p & f0 & s & -> & G & L) H]].
    + exists fs, f, []. split; [reflexivity|]. split; [exact G|]. intros f' [].
    + exists p, f0, (s ++ [f]). split; [now rewrite <- app_assoc|]. split; [exact G|]. intros f' I. apply in_app_or in I as [I|[<-|[]]]; auto.
Qed.
Lemma first_given_snoc fs f w : first_given (fs ++ [f]) w <-> first_given fs w \/ ((forall f', In f' fs -> forall n w', ~ gives f' n w') /\ exists n, gives f n w).
Proof.
  split.
  - intros (p & f0 & s & n & E & G & L). destruct s as [|x s] using rev_ind.
    + apply app_inj_tail in E as [<- <-]. right. eauto.
    + clear IHs. assert (E' : fs ++ [f] = (p ++ f0 :: s) ++ [x]) by (rewrite E, <- app_assoc; reflexivity). apply app_inj_tail in E' as [-> <-]. left. exists p, f0, s, n. auto.
  - intros [(p & f0 & s & n & -> & G & L)|[L (n & G)]].
    + exists p, f0, (s ++ [f]), n. split; [now rewrite <- app_assoc|]. auto.
    + exists fs, f, [], n. auto.
Qed.
Lemma names_snoc fs f n : names (fs ++ [f]) n <-> names fs n \/ exists w, gives f n w.
Proof.
  unfold names. split.
  - intros (f' & w & I & G). apply in_app_or in I as [I|[<-|[]]]; eauto.
  - intros [(f' & w & I & G)|(w & G)]; [exists f', w|exists f, w]; split; auto; apply in_or_app; [now left|right; now left].
Qed.
(** What the dict of a line holds *)
Lemma query_dict def fs : let d := fold_left (query_field def) fs [(def, None)] in
  (forall n w, n <> def -> (dget d n = Some (Some w) <-> last_given fs n w)) /\
  (forall n, n <> def -> dget d n <> Some None) /\
  (forall w, last_given fs def w -> dget d def = Some (Some w)) /\
  (~ names fs def -> forall w, dget d def = Some (Some w) <-> first_given fs w) /\
  ((forall n, ~ names fs n) -> dget d def = Some None) /\
  ((exists n, names fs n) -> exists w, dget d def = Some (Some w)).
Proof.
  induction fs as [|f fs IH] using rev_ind; cbv zeta in *.
  - cbn [fold_left]. repeat split.
    + cbn [dget]. destruct (eqdec n def); [contradiction|]. discriminate.
    + intros (p & f & s & E & _). now destruct p.
    + intros n Nn. cbn [dget]. destruct (eqdec n def); [contradiction|]. discriminate.
    + intros w (p & f & s & E & _). now destruct p.
    + cbn [dget]. destruct (eqdec def def); [discriminate|congruence].
    + intros (p & f & s & n & E & _). now destruct p.
    + intros _. cbn [dget]. destruct (eqdec def def); [reflexivity|congruence].
    + intros (n & f & w & [] & _).
  - rewrite fold_left_app. cbn [fold_left]. set (d := fold_left (query_field def) fs [(def, None)]) in *. destruct IH as (I1 & I2 & I3 & I4 & I5 & I6).
    destruct (gives_dec f) as [(n0 & w0 & G)|G].
    2: { rewrite (query_field_none _ _ _ G). repeat split.
      - intros H0. apply last_given_snoc. right. split; [now apply I1|]. intros w'. apply G.
      - intros [H0|[H0 _]]%last_given_snoc; [now apply G in H0|now apply I1].
      - exact I2.
      - intros w [H0|[H0 _]]%last_given_snoc; [now apply G in H0|auto].
      - intros H0. apply first_given_snoc. left. apply I4; [|exact H0]. intros X. apply H. apply names_snoc. now left.
      - intros [H0|[_ (n & H0)]]%first_given_snoc; [|now apply G in H0]. apply I4; [|exact H0]. intros X. apply H. apply names_snoc. now left.
      - intros H. apply I5. intros n X. apply (H n). apply names_snoc. now left.
      - intros (n & [H|(w & H)]%names_snoc); [eauto|now apply G in H]. }
    rewrite (query_field_gives _ _ _ _ _ G). cbv zeta.
    assert (U : forall n w, gives f n w -> n = n0 /\ w = w0) by (intros n w H; exact (gives_fun _ _ _ _ _ H G)).
    assert (Other : forall n, n <> def -> dget (match dget (dset d n0 (Some w0)) def with Some None => dset (dset d n0 (Some w0)) def (Some w0) | _ => dset d n0 (Some w0) end) n
                      = dget (dset d n0 (Some w0)) n).
    { intros n Nn. destruct (dget (dset d n0 (Some w0)) def) as [[x|]|]; try reflexivity. now rewrite dget_dset_other. }
    assert (Def : dget (match dget (dset d n0 (Some w0)) def with Some None => dset (dset d n0 (Some w0)) def (Some w0) | _ => dset d n0 (Some w0) end) def
                    = match dget (dset d n0 (Some w0)) def with Some None => Some (Some w0) | x => x end).
    { destruct (dget (dset d n0 (Some w0)) def) as [[x|]|] eqn:E; auto. now rewrite dget_dset_same. }
    assert (Dn : (exists n, names fs n) \/ forall f', In f' fs -> forall n w', ~ gives f' n w').
    { clear. induction fs as [|f fs IH]; [right; intros f []|]. destruct (gives_dec f) as [(n & w & G)|G]; [left; exists n, f, w; split; [now left|exact G]|].
      destruct IH as [(n & f' & w & I & G')|H]; [left; exists n, f', w; split; [now right|exact G']|]. right. intros f' [<-|I]; auto. }
    assert (Dd : dget d def <> None).
    { destruct Dn as [H|H]; [destruct (I6 H) as (w & ->); discriminate|]. rewrite I5; [discriminate|]. intros n (f' & w & I & G'). exact (H f' I n w G'). }
    repeat split.
    + rewrite Other by assumption. intros H0. apply last_given_snoc. destruct (eqdec n n0) as [-> |Nn].
      * rewrite dget_dset_same in H0. injection H0 as <-. now left.
      * rewrite dget_dset_other in H0 by assumption. right. split; [now apply I1|]. intros w' X. apply U in X as [X _]. contradiction.
    + rewrite Other by assumption. intros [H0|[H0 X]]%last_given_snoc.
      * apply U in H0 as [-> ->]. apply dget_dset_same.
      * rewrite dget_dset_other; [now apply I1|]. intros ->. now apply (X w0).
    + intros n Nn. rewrite Other by assumption. destruct (eqdec n n0) as [-> |N']; [rewrite dget_dset_same; discriminate|]. rewrite dget_dset_other by assumption. now apply I2.
    + intros w H. rewrite Def. apply last_given_snoc in H as [H|[H X]].
      * apply U in H as [-> ->]. now rewrite dget_dset_same.
      * rewrite dget_dset_other; [now rewrite (I3 w H)|]. intros <-. now apply (X w0).
    + intros H0. rewrite Def in H0. assert (Nd : n0 <> def) by (intros ->; apply H; apply names_snoc; eauto). rewrite dget_dset_other in H0 by congruence.
      assert (Hn : ~ names fs def) by (intros X; apply H; apply names_snoc; now left). apply first_given_snoc.
      destruct (dget d def) as [[x|]|] eqn:E; [|injection H0 as <-|discriminate].
      * left. injection H0 as ->. now apply (I4 Hn).
      * right. destruct Dn as [X|X]; [destruct (I6 X) as (x & X'); congruence|]. eauto.
    + intros [H0|[H0 (n & G')]]%first_given_snoc; rewrite Def; assert (Nd : n0 <> def) by (intros ->; apply H; apply names_snoc; eauto);
        rewrite dget_dset_other by congruence; assert (Hn : ~ names fs def) by (intros X; apply H; apply names_snoc; now left).
      * apply (I4 Hn) in H0. now rewrite H0.
      * rewrite I5; [now apply U in G' as [_ ->]|]. intros n' (f' & w' & I & X). exact (H0 f' I n' w' X).
    + intros H. exfalso. apply (H n0). apply names_snoc. eauto.
    + intros _. rewrite Def. destruct (eqdec def n0) as [-> |Nd]; [rewrite dget_dset_same; eauto|]. rewrite dget_dset_other by assumption.
      destruct (dget d def) as [[x|]|]; eauto. congruence.
Qed.
Lemma query_line_spec def line :
  (strip line = [] \/ (exists s, strip line = hash :: s) -> query_line def line = []) /\
  (forall c s, strip line = c :: s -> c <> hash -> ~ In tab (strip line) -> query_line def line = [QStr (strip line)]) /\
  (forall c s, strip line = c :: s -> c <> hash -> In tab (strip line) ->
     exists d, query_line def line = [QDict d] /\ d = fold_left (query_field def) (split tab (strip line)) [(def, None)]).
Proof.
  unfold query_line. split; [|split].
  - intros [-> |(s & ->)]; reflexivity.
  - intros c s E Nc Nt. rewrite E in *. destruct (N.eqb_spec c hash); [contradiction|]. apply mem_nIn in Nt. now rewrite Nt.
  - intros c s E Nc It. rewrite E in *. destruct (N.eqb_spec c hash); [contradiction|]. apply mem_In in It. rewrite It. eauto.
Qed.
Lemma get_word_spec def fs n : let q := QDict (fold_left (query_field def) fs [(def, None)]) in
  (forall w, n <> def -> last_given fs n w -> get_word_str q true n (Some def) = Ok (Some w)) /\
  (forall b, b = false \/ ~ names fs n -> ~ names fs def -> forall w, first_given fs w -> get_word_str q b n (Some def) = Ok (Some w)) /\
  (forall b w, b = false \/ ~ names fs n \/ n = def -> last_given fs def w -> get_word_str q b n (Some def) = Ok (Some w)) /\
  (forall b, (forall n, ~ names fs n) -> get_word_str q b n (Some def) = Ok None).
Proof.
  intros q. destruct (query_dict def fs) as (I1 & I2 & I3 & I4 & I5 & I6). unfold q. set (d := fold_left (query_field def) fs [(def, None)]) in *.
  assert (Nn : ~ names fs n -> n <> def -> dget d n = None).
  { intros H Hd. destruct (dget d n) as [[w|]|] eqn:E; [|now elim (I2 n Hd)|reflexivity]. apply (I1 n w Hd) in E as (p & f & s & -> & G & _).
    elim H. exists f, w. split; [|exact G]. apply in_or_app. right. now left. }
  assert (Default : forall b x, b = false \/ ~ names fs n \/ n = def -> dget d def = Some x -> get_word_str (QDict d) b n (Some def) = Ok x).
  { intros b x H E. unfold get_word_str, dmem. destruct (eqdec n def) as [-> |Hd]; [rewrite E; destruct b; reflexivity|].
    destruct H as [-> |[H| ->]]; [now rewrite E| |congruence]. rewrite (Nn H Hd), andb_false_r. now rewrite E. }
  split; [|split; [|split]].
  - intros w Hd H. apply (I1 n w Hd) in H. unfold get_word_str, dmem. rewrite H. reflexivity.
  - intros b H Hd w F. apply Default; [destruct H; auto|]. now apply (I4 Hd).
  - intros b w H L. apply Default; auto.
  - intros b H. apply Default; [auto|]. now apply I5.
Qed.
Lemma get_word_nokey d b n : b = false \/ dmem d n = false -> get_word_str (QDict d) b n None = Err KeyError.
Proof. unfold get_word_str. intros [-> | ->]; [reflexivity|]. now rewrite andb_false_r. Qed.

(** ** Vocab.match *)
Lemma SS_filter {A} (R : A -> A -> Prop) f l : StronglySorted R l -> StronglySorted R (filter f l).
Proof.
  induction 1 as [|x l S IH F]; cbn [filter]; [constructor|]. destruct (f x); [|exact IH]. constructor; [exact IH|]. rewrite Forall_forall in *.
  intros y I. apply filter_In in I as [I _]. auto.
Qed.
Lemma match_spec re v pattern : dwf (fd v) ->
  exists es, v_match re v MItem pattern = Ok (map fst es) /\ StronglySorted before es /\
    forall k f, In (k, f) es <-> vget v k = Some f /\ re pattern k = true.
Proof.
  intros W. eexists. split; [reflexivity|]. split; [apply SS_filter; now apply df_sorted|]. intros k f. rewrite filter_In. cbn [fst].
  rewrite <- (vget_df v k W). rewrite (dget_In (v_dataframe v) k f (dwf_df v W)). reflexivity.
Qed.

(** ** Saving and loading *)
Lemma json_save_load float_ok v old : dwf (fd v) -> exists file, v_save v (u "json") old = (Some file, Ok tt) /\ v_load float_ok (u "json") (Some file) = Ok (as_int (fd v)).
Proof. intros W. eexists. split; [reflexivity|].
  change (rmap as_int (load_json (save_json (fd v))) = Ok (as_int (fd v))). now rewrite json_roundtrip. Qed.
Lemma other_format float_ok v fmt old : fmt <> u "json" -> fmt <> u "plain" -> fmt <> u "txt" ->
  v_save v fmt old = (old, Err KeyError) /\ v_load float_ok fmt old = Err KeyError.
Proof. intros A B C. unfold v_save, v_load. apply eqb_neq in A, B, C. now rewrite A, B, C. Qed.
Lemma type_file float_ok v types : dwf (fd (v_subvocab v types)) -> v_load float_ok (u "json") (Some (make_type_file v types)) = Ok (as_int (fd (v_subvocab v types))).
Proof. intros W. unfold make_type_file. rewrite type_dict_subvocab.
  change (rmap as_int (load_json (save_json (fd (v_subvocab v types)))) = Ok (as_int (fd (v_subvocab v types)))). now rewrite json_roundtrip. Qed.
Lemma subvocab_wf v types : dwf (fd (v_subvocab v types)).
Proof.
  unfold v_subvocab. cbn [fd vocab_init]. assert (W : dwf (@nil (pystr * Z))) by constructor. revert W. generalize (@nil (pystr * Z)).
  induction types as [|t l IH]; intros d W; cbn [fold_left]; [exact W|]. apply IH. now apply dwf_dset.
Qed.

(** ** A plain file cut off *)
Lemma app_cut {A} (p q a b : list A) : p ++ q = a ++ b -> (exists p', p = a ++ p' /\ p' ++ q = b) \/ exists q', a = p ++ q' /\ q' <> [] /\ q = q' ++ b.
Proof.
  revert p. induction a as [|x a IH]; intros p E.
  - left. exists p. auto.
  - destruct p as [|y p].
    + right. exists (x :: a). split; [reflexivity|]. split; [discriminate|]. exact E.
    + cbn [app] in E. injection E as -> E. destruct (IH p E) as [(p' & -> & E')|(q' & -> & N & E')]; [left; exists p'; auto|right; exists q'; auto].
Qed.
Lemma digits_int t : t <> [] -> (forall c, In c t -> is_digit c = true) -> exists z, int_of_str t = Ok z.
Proof.
  intros Nt H. unfold int_of_str. rewrite strip_nows by (intros c I; apply digit_ws; auto). destruct t as [|c t]; [congruence|].
  assert (D : forall s, (forall c, In c s -> is_digit c = true) -> exists d, digits s = Some d).
  { clear. induction s as [|c s IH]; intros H; [eexists; reflexivity|]. destruct IH as (d & E); [intros; apply H; now right|]. cbn [digits]. rewrite E.
    specialize (H c (or_introl eq_refl)). unfold is_digit in H. apply andb_true_iff in H as [A B]. apply N.leb_le in A, B.
    repeat match goal with |- context [(c =? ?k)%N] => destruct (N.eqb_spec c k); [eauto|] end. lia. }
  destruct (D _ H) as (d & E). assert (Hc := H c (or_introl eq_refl)). unfold is_digit in Hc. apply andb_true_iff in Hc as [A B]. apply N.leb_le in A, B.
  destruct (N.eqb_spec c minus) as [-> |_]; [unfold minus in *; lia|]. destruct (N.eqb_spec c plus) as [-> |_]; [unfold plus in *; lia|]. rewrite E. eauto.
Qed.
Lemma str_digits z c : (0 <= z)%Z -> In c (str_of_Z z) -> is_digit c = true.
Proof. intros P. unfold str_of_Z. destruct z as [|p|p]; cbn [Z.to_int]; [| |lia]; apply uint_str_digits. Qed.
Lemma splitlines_one s : (forall c, In c s -> is_break c = false) -> s <> [] -> splitlines_aux [] s = [s].
Proof.
  intros H N. enough (G : forall cur, (cur <> [] \/ s <> []) -> splitlines_aux cur s = [rev cur ++ s]) by (apply (G []); auto).
  clear N. induction s as [|c s IH]; intros cur Nc.
  - cbn. destruct cur; [now destruct Nc|]. now rewrite app_nil_r.
  - cbn -[N.eqb]. rewrite (H c (or_introl eq_refl)). rewrite IH; [|intros; apply H; now right|left; discriminate]. cbn [rev]. now rewrite <- app_assoc.
Qed.
Lemma strip_notab s : (forall c, In c s -> c <> tab) -> forall x, (x = [] \/ x = [tab]) -> ~ In tab (strip (s ++ x)).
Proof.
  intros H x [-> | ->] I; [rewrite app_nil_r in I; apply strip_incl in I; now apply (H tab)|].
  assert (R : rstrip (s ++ [tab]) = rstrip s).
  { unfold rstrip. rewrite rev_app_distr. reflexivity. }
  unfold strip in I. destruct (list_eq_dec N.eq_dec (lstrip s) []) as [E|E].
  - assert (L : lstrip (s ++ [tab]) = []).
    { clear -E. induction s as [|c s IH]; [reflexivity|]. cbn [app lstrip] in *. destruct (is_ws c); [auto|discriminate]. }
    rewrite L in I. exact I.
  - assert (L : lstrip (s ++ [tab]) = lstrip s ++ [tab]).
    { clear -E. induction s as [|c s IH]; [now elim E|]. cbn [app lstrip] in *. destruct (is_ws c); auto. }
    rewrite L in I. unfold rstrip in I. rewrite rev_app_distr in I. cbn [rev app lstrip] in I. change (is_ws tab) with true in I. cbv iota in I.
    fold (rstrip (lstrip s)) in I. apply rstrip_incl, lstrip_incl in I. now apply (H tab).
Qed.
Section Cut.
  Variable float_ok : pystr -> bool.
  (** A cut line: nothing read, or the item with the digits that are left *)
  Lemma cut_line d k z p q : safe_item k -> (0 <= z)%Z -> k ++ tab :: str_of_Z z ++ [newline] = p ++ q -> q <> [] ->
    exists d', rfold (load_line float_ok) (splitlines_aux [] p) d = Ok d' /\
      (d' = d \/ exists t r z', str_of_Z z = t ++ r /\ t <> [] /\ int_of_str t = Ok z' /\ d' = dset d k (FInt z')).
  Proof.
    intros Sk Pz E Nq. destruct Sk as ((c & k' & Ek & Wc) & NT & NB).
    assert (E2 : p ++ q = (k ++ [tab]) ++ str_of_Z z ++ [newline]) by (rewrite <- app_assoc; symmetry; exact E).
    destruct (app_cut _ _ _ _ E2) as [(t & -> & E3)|(q' & Ep & Nq' & ->)].
    - destruct (exists_last Nq) as (q0 & x & ->). rewrite app_assoc in E3. apply app_inj_tail in E3 as [E3 ->]. destruct t as [|c0 t].
      + exists d. split; [|now left]. rewrite app_nil_r. rewrite splitlines_one.
        * cbn [rfold]. unfold load_line. rewrite split_noc_id; [reflexivity|]. apply strip_notab; [|now right]. intros c1 I ->. contradiction.
        * intros c1 I. apply in_app_or in I as [I|[<-|[]]]; [auto|reflexivity].
        * subst k. discriminate.
      + assert (Dt : forall x, In x (c0 :: t) -> is_digit x = true).
        { intros x I. apply (str_digits z); [exact Pz|]. rewrite <- E3. apply in_or_app. now left. }
        destruct (digits_int (c0 :: t)) as (z' & Ez); [discriminate|exact Dt|]. exists (dset d k (FInt z')). split; [|right; exists (c0 :: t), q0, z'; repeat split; auto; discriminate].
        rewrite splitlines_one.
        * cbn [rfold]. unfold load_line.
          assert (St : strip ((k ++ [tab]) ++ c0 :: t) = k ++ tab :: c0 :: t).
          { rewrite <- app_assoc. cbn [app]. subst k. unfold strip. cbn [app]. rewrite lstrip_id by auto.
            destruct (@exists_last _ (c0 :: t) ltac:(discriminate)) as (s & x & Es). rewrite Es in *.
            change (c :: k' ++ tab :: s ++ [x]) with ((c :: k') ++ (tab :: s) ++ [x]). rewrite app_assoc, rstrip_last; auto.
            apply digit_ws. apply Dt. apply in_or_app. right. now left. }
          rewrite St, split_app_noc by assumption. rewrite split_noc_id.
          2: { intros I. apply Dt in I. discriminate. }
          unfold read_val. assert (Nd : mem dot (c0 :: t) = false) by (apply mem_nIn; intros I; apply Dt in I; discriminate). rewrite Nd, Ez. reflexivity.
        * intros x I. apply in_app_or in I as [I|I]; [apply in_app_or in I as [I|[<-|[]]]; [auto|reflexivity]|]. apply Dt, digit_ws in I.
          destruct (is_break x) eqn:B; [|reflexivity]. apply break_ws in B. congruence.
        * destruct k; discriminate.
    - exists d. split; [|now left]. destruct p as [|p0 p]; [reflexivity|].
      assert (Ip : forall x, In x (p0 :: p) -> In x k).
      { destruct (exists_last Nq') as (q0 & y & ->). rewrite app_assoc in Ep. apply app_inj_tail in Ep as [-> _]. intros x I. apply in_or_app. now left. }
      rewrite splitlines_one; [|intros x I; auto|discriminate]. cbn [rfold]. unfold load_line. rewrite split_noc_id; [reflexivity|].
      intros I. apply strip_incl, Ip in I. contradiction.
  Qed.
  Lemma cut_lines l : forall d p q, NoDup (map fst l) -> (forall k, In k (dkeys d) -> ~ In k (map fst l)) -> Forall (fun kv => safe_item (fst kv) /\ (0 <= snd kv)%Z) l ->
    concat (map (fun kv => fst kv ++ tab :: str_of_Z (snd kv) ++ [newline]) l) = p ++ q ->
    exists d', rfold (load_line float_ok) (splitlines_aux [] p) d = Ok d' /\ exists e, d' = d ++ e /\ cut_reading l e.
  Proof.
    induction l as [|[k z] l IH]; intros d p q N D F E.
    - cbn in E. symmetry in E. apply app_eq_nil in E as [-> ->]. exists d. split; [reflexivity|]. exists []. split; [now rewrite app_nil_r|]. exists 0. now left.
    - inversion F as [|? ? [Sk Pz] F']; subst. cbn [fst snd] in Sk, Pz. cbn [map fst] in N. inversion N as [|? ? Nk N']; subst. cbn [map concat fst snd] in E.
      symmetry in E. assert (Dk : ~ In k (dkeys d)) by (intros I; apply (D k I); now left).
      destruct (app_cut _ _ _ _ E) as [(p' & -> & E')|(q' & Ep & Nq' & ->)].
      + assert (Es : splitlines_aux [] ((k ++ tab :: str_of_Z z ++ [newline]) ++ p') = (k ++ tab :: str_of_Z z) :: splitlines_aux [] p').
        { replace ((k ++ tab :: str_of_Z z ++ [newline]) ++ p') with ((k ++ tab :: str_of_Z z) ++ 10%N :: p').
          2: { rewrite <- !app_assoc. cbn [app]. rewrite <- !app_assoc. reflexivity. }
          rewrite splitlines_aux_line; [reflexivity|]. intros c Hc. apply in_app_or in Hc as [Hc|[<-|Hc]]; [now apply Sk|reflexivity|eapply str_nobreak; eauto]. }
        rewrite Es. cbn [rfold]. rewrite (load_line_saved float_ok d k z Sk : load_line float_ok d (k ++ tab :: str_of_Z z) = _). cbn [rbind].
        destruct (IH (dset d k (FInt z)) p' q) as (d' & R & e & -> & n & H); auto.
        { intros x I. apply dkeys_dset_In in I as [-> |I]; [exact Nk|]. intros J. apply (D x I). now right. }
        exists (dset d k (FInt z) ++ e). split; [exact R|]. exists ((k, FInt z) :: e). rewrite dset_new by assumption. split; [now rewrite <- app_assoc|].
        exists (S n). cbn [firstn map nth_error fst snd]. destruct H as [-> |(k1 & z1 & t & r & z' & H1 & H2 & H3 & H4 & ->)]; [now left|]. right. exists k1, z1, t, r, z'. auto.
      + destruct (cut_line d k z p q' Sk Pz Ep Nq') as (d' & R & [-> |(t & r & z' & H1 & H2 & H3 & ->)]).
        * exists d. split; [exact R|]. exists []. split; [now rewrite app_nil_r|]. exists 0. now left.
        * eexists. split; [exact R|]. exists [(k, FInt z')]. split; [now rewrite dset_new|]. exists 0. right. exists k, z, t, r, z'. auto.
  Qed.
  Lemma plain_cut v p q : dwf (fd v) -> (forall k, In k (v_keys v) -> safe_item k) -> (forall k f, vget v k = Some f -> (0 <= f)%Z) ->
    save_plain (fd v) = p ++ q -> exists d, load_plain float_ok p = Ok d /\ cut_reading (v_dataframe v) d.
  Proof.
    intros W Sv Pv E.
    assert (E' : concat (map (fun kv => fst kv ++ tab :: str_of_Z (snd kv) ++ [newline]) (v_dataframe v)) = p ++ q).
    { rewrite <- E. unfold save_plain, v_dataframe. destruct (fd v); reflexivity. }
    destruct (cut_lines (v_dataframe v) [] p q) as (d & R & e & -> & C); auto.
    - exact (dwf_df v W).
    - apply Forall_forall. intros [k z] I. assert (I' : In (k, z) (fd v)) by (eapply Permutation_in; [apply Permutation_sym, df_perm|exact I]). cbn [fst snd]. split.
      + apply Sv. unfold v_keys, dkeys. apply in_map_iff. now exists (k, z).
      + apply (Pv k). unfold vget. now apply dget_In.
    - exists e. auto.
  Qed.
End Cut.

(** ** Concordances *)
Lemma conc_line_spec fmt own t line : conc_line fmt own t = Ok line <-> exists s ls w rs, row_is fmt own t (s, ls, w, rs) /\
  line = s ++ tab :: join space ls ++ tab :: w ++ tab :: join space rs ++ [newline].
Proof.
  unfold conc_line, row_is. split.
  - destruct (rmapm _ (ct_l t)) as [ls|] eqn:L; cbn [rbind]; [|discriminate]. destruct (rmapm _ (ct_r t)) as [rs|] eqn:R; cbn [rbind]; [|discriminate].
    destruct (ct_str t) as [s|]; cbn [rbind]; [|discriminate]. destruct (to_colloc _ fmt) as [w|] eqn:Wd; cbn [rbind]; [|discriminate]. intros E. injection E as <-.
    exists s, ls, w, rs. split; [|reflexivity]. split; [reflexivity|]. split; [|now apply to_colloc_string]. apply collocs_code. split; now apply DepMatchProofs.rmapm_ok.
  - intros (s & ls & w & rs & (Es & Cl & Wd) & ->). apply collocs_code in Cl as [Fl Fr]. apply DepMatchProofs.rmapm_forall2 in Fl, Fr. apply to_colloc_string in Wd. now rewrite Fl, Fr, Es, Wd.
Qed.
Definition line_of (r : crow) : pystr := match r with (s, ls, w, rs) => s ++ tab :: join space ls ++ tab :: w ++ tab :: join space rs end.
Lemma conc_spec fmt own d text : concordance fmt own d = Ok text <-> exists rows, Forall2 (row_is fmt own) (toks_of d) rows /\
  text = concat (map (fun r => line_of r ++ [newline]) rows).
Proof.
  assert (Et : flat_map tn_tokens (dvals d) = toks_of d) by (unfold dvals, toks_of; induction d as [|[? ?] ? IH]; cbn [map flat_map snd]; now rewrite ?IH).
  unfold concordance. rewrite Et. generalize (toks_of d). intros ts. split.
  - intros E. apply DepMatchProofs.rmap_ok in E as (ls & E & ->). apply DepMatchProofs.rmapm_ok in E. induction E as [|t line ts ls H E IH]; [exists []; split; [constructor|reflexivity]|].
    destruct IH as (rows & F & Eq). apply conc_line_spec in H as (s & l & w & r & H & ->). exists ((s, l, w, r) :: rows). split; [now constructor|]. cbn [map concat]. rewrite <- Eq. f_equal.
    unfold line_of. repeat (rewrite <- app_assoc; cbn [app]). reflexivity.
  - intros (rows & F & ->). assert (E : rmapm (conc_line fmt own) ts = Ok (map (fun r => line_of r ++ [newline]) rows)); [|now rewrite E].
    apply DepMatchProofs.rmapm_forall2. induction F as [|t r ts rows H F IH]; cbn [map]; constructor; auto. apply conc_line_spec. destruct r as [[[s l] w] r]. exists s, l, w, r. split; [exact H|].
    unfold line_of. repeat (rewrite <- app_assoc; cbn [app]). reflexivity.
Qed.
Lemma join_In c l x : In x (join c l) -> x = c \/ exists s, In s l /\ In x s.
Proof.
  induction l as [|s l IH]; [intros []|]. destruct l as [|s' l]; [cbn [join]; intros I; right; exists s; split; [now left|exact I]|].
  change (join c (s :: s' :: l)) with (s ++ c :: join c (s' :: l)). intros I. apply in_app_or in I as [I|[<-|I]]; [right; exists s; split; [now left|exact I]|now left|].
  destruct (IH I) as [-> |(t & It & Ix)]; [now left|]. right. exists t. split; [now right|exact Ix].
Qed.
Lemma solid_no s c : solid s -> is_ws c = true -> ~ In c s.
Proof. intros [_ H] W I. apply H in I. congruence. Qed.
Lemma words_join l : Forall solid l -> words (join space l) = l.
Proof.
  intros F. unfold words. destruct l as [|s l]; [reflexivity|]. destruct (join space (s :: l)) as [|c j] eqn:E.
  - exfalso. inversion F as [|? ? [Ns _] _]; subst. destruct s; [congruence|]. destruct l; discriminate.
  - rewrite <- E. apply split_join; [discriminate|]. eapply Forall_impl; [|exact F]. intros a Sa. now apply solid_no.
Qed.
Lemma read_line r : solid_row r -> read_row (line_of r) = Some r.
Proof.
  destruct r as [[[s ls] w] rs]. intros (Ss & Sl & Sw & Sr). unfold read_row, line_of.
  assert (J : forall l, Forall solid l -> ~ In tab (join space l)).
  { intros l F I. apply join_In in I as [I|(x & Ix & I)]; [discriminate|]. rewrite Forall_forall in F. now apply (solid_no x tab (F x Ix)) in I. }
  rewrite !split_app_noc; auto using (solid_no s tab Ss), (solid_no w tab Sw); try (apply solid_no; auto; reflexivity).
  rewrite split_noc_id by auto. now rewrite !words_join.
Qed.
Lemma conc_read fmt own d text rows : concordance fmt own d = Ok text -> Forall2 (row_is fmt own) (toks_of d) rows -> Forall solid_row rows ->
  map read_row (splitlines text) = map Some rows.
Proof.
  intros E F0 Sl. apply conc_spec in E as (rows' & F & ->). assert (rows' = rows).
  { clear -F F0. revert rows F0. induction F as [|t r ts rows' H F IH]; intros rows F0; inversion F0 as [|? r0 ? rows0 H0 F1]; subst; [reflexivity|]. f_equal; [|auto].
    destruct r as [[[s l] w] r], r0 as [[[s0 l0] w0] r0]. destruct H as (H1 & H2 & H3), H0 as (G1 & G2 & G3). apply collocs_code in H2 as [A B], G2 as [A' B'].
    apply DepMatchProofs.rmapm_forall2 in A, B, A', B'. apply to_colloc_string in H3, G3. congruence. }
  subst rows'. clear F F0. unfold splitlines. induction Sl as [|r rows Sr Sl IH]; [reflexivity|]. cbn [map concat]. rewrite <- app_assoc. cbn [app].
  change newline with 10%N. rewrite splitlines_aux_line.
  - cbn [map rev app]. rewrite read_line by assumption. f_equal. exact IH.
  - intros c I. destruct r as [[[s ls] w] rs]. destruct Sr as (Ss & Sls & Sw & Srs). unfold line_of in I.
    assert (B : forall x, solid x -> In c x -> is_break c = false).
    { intros x [_ H] Ix. apply H in Ix. destruct (is_break c) eqn:B; [|reflexivity]. apply break_ws in B. congruence. }
    assert (J : forall l, Forall solid l -> In c (join space l) -> is_break c = false).
    { intros l Fl Ij. apply join_In in Ij as [-> |(x & Ix & Ic)]; [reflexivity|]. rewrite Forall_forall in Fl. eauto. }
    repeat (apply in_app_or in I as [I|[<-|I]]; [eauto|reflexivity|]). eauto.
Qed.

(** ** Put together *)
Lemma queries_one def line : (forall c, In c line -> is_break c = false) -> read_queries def (Some line) = query_line def line.
Proof.
  intros H. unfold read_queries, splitlines. destruct line as [|c l]; [reflexivity|]. rewrite splitlines_one by (auto; discriminate). cbn [flat_map]. now rewrite app_nil_r.
Qed.
Lemma splitlines_lines texts : Forall (fun l => forall c, In c l -> is_break c = false) texts -> splitlines (concat (map (fun s => s ++ [newline]) texts)) = texts.
Proof.
  unfold splitlines. induction 1 as [|l ls H F IH]; [reflexivity|]. cbn [map concat]. rewrite <- app_assoc. cbn [app].
  change newline with 10%N. rewrite splitlines_aux_line by assumption. cbn [rev app]. f_equal. exact IH.
Qed.
Lemma read_queries_spec def :
  (forall texts, Forall (fun l => forall c, In c l -> is_break c = false) texts ->
     read_queries def (Some (concat (map (fun s => s ++ [newline]) texts))) = flat_map (fun l => read_queries def (Some l)) texts) /\
  (forall line, strip line = [] \/ (exists s, strip line = hash :: s) -> (forall c, In c line -> is_break c = false) -> read_queries def (Some line) = []) /\
  (forall line c s, strip line = c :: s -> c <> hash -> ~ In tab (strip line) -> (forall c, In c line -> is_break c = false) ->
     read_queries def (Some line) = [QStr (strip line)]) /\
  (forall line c s, strip line = c :: s -> c <> hash -> In tab (strip line) -> (forall c, In c line -> is_break c = false) ->
     let fs := split tab (strip line) in
     exists d, read_queries def (Some line) = [QDict d] /\
       (forall n w, n <> def -> (dget d n = Some (Some w) <-> last_given fs n w)) /\
       (forall n, n <> def -> dget d n <> Some None) /\
       (forall w, last_given fs def w -> dget d def = Some (Some w)) /\
       (~ names fs def -> forall w, dget d def = Some (Some w) <-> first_given fs w) /\
       ((forall n, ~ names fs n) -> dget d def = Some None)) /\
  read_queries def None = [].
Proof.
  split; [|split; [|split; [|split]]].
  - intros texts F. unfold read_queries at 1. rewrite splitlines_lines by assumption. induction F as [|l ls H F IH]; [reflexivity|]. cbn [flat_map]. rewrite IH. f_equal. symmetry. now apply queries_one.
  - intros line H B. rewrite queries_one by assumption. now apply query_line_spec.
  - intros line c s E Nc Nt B. rewrite queries_one by assumption. destruct (query_line_spec def line) as (_ & Q & _). eapply Q; eauto.
  - intros line c s E Nc Nt B fs. rewrite queries_one by assumption. destruct (query_line_spec def line) as (_ & _ & Q). destruct (Q c s E Nc Nt) as (d & R & ->).
    eexists. split; [exact R|]. destruct (query_dict def fs) as (I1 & I2 & I3 & I4 & I5 & I6). auto.
  - reflexivity.
Qed.
Lemma get_word_read def line n d : read_queries def (Some line) = [QDict d] -> (forall c, In c line -> is_break c = false) ->
  let fs := split tab (strip line) in
  (forall w, n <> def -> last_given fs n w -> get_word_str (QDict d) true n (Some def) = Ok (Some w)) /\
  (forall b, b = false \/ ~ names fs n -> ~ names fs def -> forall w, first_given fs w -> get_word_str (QDict d) b n (Some def) = Ok (Some w)) /\
  (forall b w, b = false \/ ~ names fs n \/ n = def -> last_given fs def w -> get_word_str (QDict d) b n (Some def) = Ok (Some w)) /\
  (forall b, (forall n, ~ names fs n) -> get_word_str (QDict d) b n (Some def) = Ok None).
Proof.
  intros E B fs. rewrite queries_one in E by assumption. assert (d = fold_left (query_field def) fs [(def, None)]) as ->; [|apply get_word_spec].
  unfold query_line in E. unfold fs. destruct (strip line) as [|c s]; [discriminate|]. destruct (c =? hash)%N; [discriminate|]. destruct (mem tab (c :: s)); [|discriminate]. now injection E.
Qed.
Lemma match_freq re v pattern : fd v <> [] -> v_match re v MFreq pattern = Err TypeError.
Proof. intros N. cbn [v_match]. destruct (v_dataframe v) eqn:E; [|reflexivity]. elim N. assert (P := df_perm v). rewrite E in P. apply Permutation_nil. (exact P || exact (Permutation_sym P)). Qed.
Lemma type_file_spec float_ok v types : exists d, v_load float_ok (u "json") (Some (make_type_file v types)) = Ok (as_int d) /\ dwf d /\
  (forall t, In t (dkeys d) <-> In t types) /\ (forall t, In t types -> dget d t = Some (match vget v t with Some f => f | None => 0%Z end)).
Proof.
  exists (fd (v_subvocab v types)). split; [apply type_file; apply subvocab_wf|]. split; [apply subvocab_wf|]. 
  assert (G : forall l d t, dget (fold_left (fun d t => dset d t (match dget (fd v) t with Some f => f | None => 0%Z end)) l d) t =
    if mem t l then Some (match dget (fd v) t with Some f => f | None => 0%Z end) else dget d t).
  { induction l as [|x l IH]; intros d t; [reflexivity|]. cbn [fold_left]. rewrite IH. cbn [mem existsb]. destruct (mem t l) eqn:M.
    - unfold mem in M. now rewrite M, orb_true_r.
    - unfold mem in M. rewrite M, orb_false_r. rewrite dget_dset. unfold eqb. destruct (eqdec t x) as [Ex|Nx]; [subst x|]; try (destruct (eqdec t t); congruence || reflexivity); reflexivity. }
  assert (G' : forall t, dget (fd (v_subvocab v types)) t = if mem t types then Some (match vget v t with Some f => f | None => 0%Z end) else None).
  { intros t. exact (G types [] t). }
  split.
  - intros t. split.
    + intros I. apply mem_In. apply dget_key_Some in I as (z & E). rewrite G' in E. now destruct (mem t types).
    + intros M. apply mem_In in M. eapply dget_Some_key. rewrite G', M. reflexivity.
  - intros t I. rewrite G'. apply mem_In in I. now rewrite I.
Qed.
Lemma json_cut_load float_ok v p q : dwf (fd v) -> fst (v_save v (u "json") None) = Some (p ++ q) -> q <> [] -> v_load float_ok (u "json") (Some p) = Err ValueError.
Proof.
  intros W E N. assert (E' : save_json (fd v) = p ++ q) by (injection E; auto). change (rmap as_int (load_json p) = Err ValueError).
  now rewrite (json_cut _ _ _ W E' N).
Qed.
Lemma plain_cut_load float_ok v p q : dwf (fd v) -> (forall k, In k (v_keys v) -> safe_item k) -> (forall k f, vget v k = Some f -> (0 <= f)%Z) ->
  fst (v_save v (u "plain") None) = Some (p ++ q) -> exists d, v_load float_ok (u "plain") (Some p) = Ok d /\ cut_reading (v_dataframe v) d.
Proof. intros W Sv Pv E. assert (E' : save_plain (fd v) = p ++ q) by (injection E; auto). exact (plain_cut float_ok v p q W Sv Pv E'). Qed.
Lemma concordance_spec fmt own d :
  (forall text, concordance fmt own d = Ok text <-> exists rows, Forall2 (row_is fmt own) (toks_of d) rows /\
     text = concat (map (fun s => s ++ [newline]) (map (fun r : crow => match r with (s, ls, w, rs) => s ++ tab :: join space ls ++ tab :: w ++ tab :: join space rs end) rows))) /\
  (forall text rows, concordance fmt own d = Ok text -> Forall2 (row_is fmt own) (toks_of d) rows -> Forall solid_row rows ->
     map read_row (splitlines text) = map Some rows).
Proof.
  split; [|apply conc_read]. intros text. rewrite conc_spec. split; intros (rows & F & ->); exists rows; (split; [exact F|]); rewrite map_map; reflexivity.
Qed.
Lemma missing_attr name : name <> u "freq" -> v_getattr name = GNone /\ v_call_missing name = Err TypeError.
Proof. intros N. unfold v_call_missing, v_getattr. apply eqb_neq in N. now rewrite N. Qed.

(** ** Subsets *)
Lemma subsets_error pick defined : defined (u "WordDict") = false ->
  forall v words n random, words <> [] -> select_subsets pick defined v words n random = Err NameError.
Proof. intros D v [|w ws] n random N; [congruence|]. unfold select_subsets. cbn [rfold]. unfold call_name. now rewrite D. Qed.
Lemma rfold_dset {V} (g : pystr -> res V) (G : pystr -> V) l : (forall w, In w l -> g w = Ok (G w)) -> forall d,
  exists d', rfold (fun d sw => rmap (dset d sw) (g sw)) l d = Ok d' /\ forall w, dget d' w = if mem w l then Some (G w) else dget d w.
Proof.
  induction l as [|x l IH]; intros H d; [exists d; auto|]. cbn [rfold]. rewrite (H x) by now left. cbn [rmap rbind].
  destruct (IH (fun w I => H w (or_intror I)) (dset d x (G x))) as (d' & E & D). exists d'. split; [exact E|]. intros w. rewrite D. cbn [mem existsb].
  destruct (mem w l) eqn:M; unfold mem in M; rewrite M; [now rewrite orb_true_r|]. rewrite orb_false_r, dget_dset. unfold eqb. destruct (eqdec w x) as [Ex|]; [now subst|reflexivity].
Qed.
Lemma subsets_negative pick defined v words n w f : defined (u "WordDict") = true -> (n < 0)%Z -> In w words -> vget v w = Some f -> f <> 0%Z ->
  select_subsets pick defined v words n true = Err ValueError.
Proof.
  intros D N I E F. unfold select_subsets.
  destruct (rfold_dset (fun _ => rmap (fun _ => WordSel [] 0 0) (call_name defined (u "WordDict"))) (fun _ => WordSel [] 0 0) words) with (d := @nil (pystr * wordsel)) as (d & Ed & _).
  { intros x _. unfold call_name. now rewrite D. }
  assert (X : forall (l : list pystr) (d0 : dict pystr wordsel), rfold (fun d sw => rmap (fun _ => dset d sw (WordSel [] 0 0)) (call_name defined (u "WordDict"))) l d0 =
                           rfold (fun d sw => rmap (dset d sw) (rmap (fun _ => WordSel [] 0 0) (call_name defined (u "WordDict")))) l d0).
  { unfold call_name. rewrite D. induction l as [|x l IH]; intros d0; [reflexivity|]. cbn [rfold rmap rbind]. apply IH. }
  rewrite X, Ed. cbn [rbind]. clear X Ed.
  revert d. induction words as [|x ws IH]; intros d; [destruct I|]. cbn [rfold]. destruct I as [->|I].
  - unfold select_one. unfold vget in E. rewrite E. replace (f =? 0)%Z with false by (symmetry; now apply Z.eqb_neq).
    replace (Z.min n f <? 0)%Z with true by (symmetry; apply Z.ltb_lt; lia). reflexivity.
  - unfold select_one at 1. destruct (_ =? 0)%Z; cbn [rmap rbind]; [now apply IH|].
    match goal with |- context [(Z.min n ?y <? 0)%Z] => replace (Z.min n y <? 0)%Z with true by (symmetry; apply Z.ltb_lt; lia) end. reflexivity.
Qed.
Lemma subsets_spec pick defined : (forall f k, k <= f -> sample_of f k (pick f k)) -> defined (u "WordDict") = true ->
  forall v words n random, (0 <= n)%Z -> (forall w f, vget v w = Some f -> (0 <= f)%Z) ->
  exists d, select_subsets pick defined v words n random = Ok d /\ (forall w, In w (dkeys d) <-> In w words) /\
    forall w, In w words -> exists s, dget d w = Some s /\ ws_found s = 0 /\
      let f := match vget v w with Some f => f | None => 0%Z end in
      ws_n s = Z.min n f /\ NoDup (ws_sel s) /\ Z.of_nat (length (ws_sel s)) = Z.min n f /\
      (forall i, In i (ws_sel s) -> 1 <= i /\ (Z.of_nat i <= f)%Z) /\
      (random = false -> forall i, In i (ws_sel s) <-> 1 <= i /\ (Z.of_nat i <= Z.min n f)%Z).
Proof.
  intros P D v words n random Pn Pv.
  assert (One : forall w, exists s, select_one pick v n random w = Ok s /\ ws_found s = 0 /\
      let f := match vget v w with Some f => f | None => 0%Z end in
      ws_n s = Z.min n f /\ NoDup (ws_sel s) /\ Z.of_nat (length (ws_sel s)) = Z.min n f /\
      (forall i, In i (ws_sel s) -> 1 <= i /\ (Z.of_nat i <= f)%Z) /\
      (random = false -> forall i, In i (ws_sel s) <-> 1 <= i /\ (Z.of_nat i <= Z.min n f)%Z)).
  { intros w. unfold select_one. fold (vget v w). set (f := match vget v w with Some f => f | None => 0%Z end).
    assert (Pf : (0 <= f)%Z) by (unfold f; destruct (vget v w) eqn:E; [eapply Pv; eauto|lia]). cbv zeta.
    destruct (Z.eqb_spec f 0) as [E|E].
    - eexists. split; [reflexivity|]. split; [reflexivity|]. cbn [ws_sel ws_n length]. repeat split; try (now constructor); try lia; try contradiction.
    - destruct random.
      + destruct (Z.ltb_spec (Z.min n f) 0) as [L|L]; [lia|]. destruct (P (Z.to_nat f) (Z.to_nat (Z.min n f)) ltac:(lia)) as (Nd & Le & Lt).
        eexists. split; [reflexivity|]. split; [reflexivity|]. cbn [ws_sel ws_n]. split; [reflexivity|]. split; [apply FinFun.Injective_map_NoDup; [intros a b X; congruence|exact Nd]|].
        split; [rewrite map_length, Le; lia|]. split; [|discriminate]. intros i I. apply in_map_iff in I as (j & <- & I). apply Lt in I. lia.
      + eexists. split; [reflexivity|]. split; [reflexivity|]. cbn [ws_sel ws_n]. rewrite seq_shift, seq_length. split; [reflexivity|]. split; [apply seq_NoDup|]. split; [lia|].
        split; [intros i I; apply in_seq in I; lia|]. intros _ i. rewrite in_seq. lia. }
  pose (G := fun w => match select_one pick v n random w with Ok s => s | Err _ => WordSel [] 0 0 end).
  assert (HG : forall w, select_one pick v n random w = Ok (G w)) by (intros w; unfold G; destruct (One w) as (s & -> & _); reflexivity).
  unfold select_subsets.
  destruct (rfold_dset (fun sw => rmap (fun _ => WordSel [] 0 0) (call_name defined (u "WordDict"))) (fun _ => WordSel [] 0 0) words) with (d := @nil (pystr * wordsel)) as (d0 & E0 & D0).
  { intros w _. unfold call_name. now rewrite D. }
  assert (E0' : rfold (fun d sw => rmap (fun _ => dset d sw (WordSel [] 0 0)) (call_name defined (u "WordDict"))) words [] = Ok d0).
  { rewrite <- E0. clear -D. generalize (@nil (pystr * wordsel)). unfold call_name. rewrite D. cbn [rmap rbind]. induction words as [|x l IH]; intros d; [reflexivity|]. cbn [rfold rmap rbind]. apply IH. }
  rewrite E0'. cbn [rbind]. destruct (rfold_dset (select_one pick v n random) G words (fun w _ => HG w) d0) as (d & E1 & D1). exists d. split; [exact E1|].
  assert (Dd : forall w, dget d w = if mem w words then Some (G w) else None).
  { intros w. rewrite D1, D0. now destruct (mem w words). }
  split.
  - intros w. split.
    + intros I. apply mem_In. apply dget_key_Some in I as (z & E). rewrite Dd in E. now destruct (mem w words).
    + intros M. apply mem_In in M. eapply dget_Some_key. rewrite Dd, M. reflexivity.
  - intros w I. apply mem_In in I. exists (G w). rewrite Dd, I. split; [reflexivity|]. destruct (One w) as (s & E & H). rewrite HG in E. injection E as ->. exact H.
Qed.
