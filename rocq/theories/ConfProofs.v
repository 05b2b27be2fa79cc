(** * Proofs about configuration loading and the formatter. *)
From Coq Require Import String NArith ZArith Bool Arith Permutation Lia List.
From Verif Require Import Base BaseLemmas Str StrLemmas VocabModel ConfModel ConfSpec DepMatchProofs.
Import ListNotations.
Local Open Scope string_scope.
Local Open Scope nat_scope.
Local Open Scope list_scope.

(** ** Configuration *)
Lemma dkeys_dupdate_In {K V} `{EqDec K} (d d2 : dict K V) k : In k (dkeys (dupdate d d2)) <-> In k (dkeys d) \/ In k (dkeys d2).
Proof.
  revert d. induction d2 as [|[k0 v0] d2 IH]; intros d; [cbn; tauto|].
  change (dupdate d ((k0, v0) :: d2)) with (dupdate (dset d k0 v0) d2). rewrite IH, dkeys_dset_In.
  change (dkeys ((k0, v0) :: d2)) with (k0 :: dkeys d2). cbn [In]. intuition.
Qed.

Section Config.
  Variable interp : ini -> pystr -> pystr -> res pystr.
  Variable files : pystr -> option (res ini).

  Lemma options_offers c s k : In k (options c (snd s)) <-> offers c s k.
  Proof. unfold options, offers. apply dkeys_dupdate_In. Qed.
  Lemma raw_written c s k t : raw c (snd s) k = Some t <-> written c s k t.
  Proof.
    unfold raw, written. destruct (dget (snd s) k) eqn:E.
    - apply dget_Some_key in E. split; [intros [= ->]; auto|]. intros [X|[X _]]; [congruence|tauto].
    - apply dget_None in E. split; [auto|]. intros [X|[_ X]]; [|auto]. congruence.
  Qed.

  Lemma load_option_ok c s sett o sett' : load_option interp c (fst s) (snd s) sett o = Ok sett' ->
    exists v, sect_value interp c s o v /\ sett' = dset sett o v \/ sect_value interp c s o v /\ exists w, sett' = dset (dset sett o w) o v.
  Proof.
    unfold load_option. intros E. apply rbind_ok in E as (s1 & E1 & E). unfold read_params, cfg_get in E1.
    destruct (raw c (snd s) o) as [t|] eqn:R; [|discriminate]. apply raw_written in R.
    destruct (interp c (fst s) t) as [x|e] eqn:I.
    - injection E1 as <-. destruct (eqdec (fst s) (u "Span")) as [Sp|Sp].
      + apply rmap_ok in E as (y & E & ->). rewrite dget_dset_same in E. cbn [to_int] in E. apply rmap_ok in E as (n & E & ->).
        exists (VInt n). right. split; [econstructor 2; eauto|eauto].
      + injection E as <-. exists (VStr x). left. split; [econstructor 1; eauto|auto].
    - assert (e = ValueError /\ s1 = dset sett o VNone) as [-> ->] by (destruct e; try discriminate; injection E1 as <-; auto).
      destruct (eqdec (fst s) (u "Span")) as [Sp|Sp].
      + apply rmap_ok in E as (y & E & ->). rewrite dget_dset_same in E. discriminate.
      + injection E as <-. exists VNone. left. split; [econstructor 3; eauto|auto].
  Qed.

  Lemma load_option_get c s sett o sett' : load_option interp c (fst s) (snd s) sett o = Ok sett' ->
    exists v, sect_value interp c s o v /\ forall k, dget sett' k = if eqdec k o then Some v else dget sett k.
  Proof.
    intros E. apply load_option_ok in E as (v & [[V ->]|[V (w & ->)]]); exists v; split; auto; intros k; rewrite ?dget_dset; destruct (eqdec k o); auto.
  Qed.

  Lemma sect_value_fun c s k v v' : sect_value interp c s k v -> sect_value interp c s k v' -> v = v'.
  Proof.
    intros A B.
    assert (W : forall t t', written c s k t -> written c s k t' -> t = t') by (intros t t' X Y; apply raw_written in X; apply raw_written in Y; congruence).
    destruct A as [t x W1 I1|t x n W1 I1 ? N1|t W1 I1]; destruct B as [t' x' W2 I2|t' x' n' W2 I2 ? N2|t' W2 I2];
      rewrite (W _ _ W1 W2) in *; congruence.
  Qed.

  Lemma load_options_get c s ol : forall sett sett', rfold (load_option interp c (fst s) (snd s)) ol sett = Ok sett' ->
    forall k, (In k ol -> exists v, sect_value interp c s k v /\ dget sett' k = Some v) /\ (~ In k ol -> dget sett' k = dget sett k).
  Proof.
    induction ol as [|o ol IH]; cbn [rfold]; intros sett sett' E k.
    - injection E as <-. split; [intros []|auto].
    - apply rbind_ok in E as (s1 & E1 & E). apply load_option_get in E1 as (v & V & G). destruct (IH _ _ E k) as [A B]. split.
      + intros Hk. destruct (in_dec eqdec k ol) as [i|n]; [auto|]. rewrite (B n), G. destruct (eqdec k o) as [->|n']; [eauto|].
        destruct Hk as [->|]; tauto.
      + intros n. rewrite B by (intros i; apply n; right; auto). rewrite G. destruct (eqdec k o) as [->|]; [exfalso; apply n; left; auto|auto].
  Qed.

  Lemma load_sections_get c sects : forall sett sett', rfold (load_section interp c) sects sett = Ok sett' ->
    forall k,
      (forall pre s post, sects = pre ++ s :: post -> offers c s k -> (forall s', In s' post -> ~ offers c s' k) ->
         exists v, sect_value interp c s k v /\ dget sett' k = Some v) /\
      ((forall s, In s sects -> ~ offers c s k) -> dget sett' k = dget sett k).
  Proof.
    induction sects as [|s0 sects IH]; cbn [rfold]; intros sett sett' E k.
    - injection E as <-. split; [intros [|] ? ? X; discriminate|auto].
    - apply rbind_ok in E as (s1 & E1 & E). unfold load_section in E1. destruct (load_options_get _ _ _ _ _ E1 k) as [A1 B1].
      destruct (IH _ _ E k) as [A B]. rewrite options_offers in A1, B1. split.
      + intros pre s post X O N. destruct pre as [|p pre]; cbn in X; injection X as -> ->.
        * rewrite B by auto. auto.
        * eapply A; eauto.
      + intros N. rewrite B by (intros s i; apply N; right; auto). apply B1. apply N. left; auto.
  Qed.

  (** Success when every offered option has a value. *)
  Lemma load_option_succeeds c s sett o : (exists v, sect_value interp c s o v) -> exists sett', load_option interp c (fst s) (snd s) sett o = Ok sett'.
  Proof.
    intros (v & V). unfold load_option, read_params, cfg_get. destruct V as [t x W I N|t x n W I E Hn|t W I N]; apply raw_written in W; rewrite W, I; cbn [rbind].
    - destruct (eqdec (fst s) (u "Span")); [contradiction|eauto].
    - destruct (eqdec (fst s) (u "Span")); [|contradiction]. rewrite dget_dset_same. cbn [to_int]. rewrite Hn. cbn. eauto.
    - destruct (eqdec (fst s) (u "Span")); [contradiction|eauto].
  Qed.
  Lemma rfold_succeeds {A B} (f : B -> A -> res B) l : (forall s x, In x l -> exists s', f s x = Ok s') -> forall s, exists s', rfold f l s = Ok s'.
  Proof.
    induction l as [|x l IH]; intros Hf s; cbn [rfold]; [eauto|]. destruct (Hf s x (or_introl eq_refl)) as (s1 & ->). cbn [rbind].
    apply IH. intros s2 y Hy. apply Hf. right; auto.
  Qed.
  Lemma load_config_succeeds fname c : files fname = Some (Ok c) ->
    (forall s k, In s (i_sects c) -> offers c s k -> exists v, sect_value interp c s k v) ->
    exists sett, load_config interp files fname = Ok sett.
  Proof.
    intros F V. unfold load_config. rewrite F. apply rfold_succeeds. intros sett s Hs. unfold load_section. apply rfold_succeeds.
    intros s1 o Ho. apply options_offers in Ho. apply load_option_succeeds. eauto.
  Qed.

  (** ** Heap of dicts *)
  Lemma deref_alloc_old h s i : i < length h -> deref (fst (alloc h s)) i = deref h i.
  Proof. intros. unfold deref, alloc. cbn [fst]. apply app_nth1. auto. Qed.
  Lemma deref_alloc_new h s : deref (fst (alloc h s)) (snd (alloc h s)) = s.
  Proof. unfold deref, alloc. cbn [fst snd]. rewrite app_nth2 by lia. rewrite Nat.sub_diag. reflexivity. Qed.
  Lemma length_assign h r k v : length (assign h r k v) = length h.
  Proof.
    unfold assign. rewrite app_length, firstn_length. pose proof (skipn_length r h) as L. destruct (skipn r h); cbn [length] in *; lia.
  Qed.
  Lemma deref_assign h r k v i : r < length h -> deref (assign h r k v) i = if eqdec i r then dset (deref h i) k v else deref h i.
  Proof.
    intros Hr. unfold deref, assign. replace (nth i h []) with (nth i (firstn r h ++ skipn r h) []) by (rewrite firstn_skipn; auto).
    pose proof (skipn_length r h) as L. assert (Lf : length (firstn r h) = r) by (rewrite firstn_length; lia).
    destruct (skipn r h) as [|s t]; cbn [length] in L; [lia|].
    destruct (eqdec i r) as [->|n].
    - rewrite !app_nth2 by lia. rewrite Lf, Nat.sub_diag. reflexivity.
    - destruct (lt_dec i r); [rewrite !app_nth1 by lia; auto|]. rewrite !app_nth2 by lia. rewrite Lf.
      destruct (i - r) as [|m] eqn:X; [lia|]. reflexivity.
  Qed.
  Lemma assigns_spec l : forall h r, r < length h ->
    (forall i, i <> r -> deref (fold_left (fun h kv => assign h r (fst kv) (snd kv)) l h) i = deref h i) /\
    deref (fold_left (fun h kv => assign h r (fst kv) (snd kv)) l h) r = dupdate (deref h r) l /\
    length (fold_left (fun h kv => assign h r (fst kv) (snd kv)) l h) = length h.
  Proof.
    induction l as [|[k v] l IH]; intros h r Hr; cbn [fold_left fst snd]; [auto|].
    destruct (IH (assign h r k v) r) as (A & B & C); [rewrite length_assign; auto|]. split; [|split].
    - intros i n. rewrite A, deref_assign by auto. destruct (eqdec i r); [contradiction|auto].
    - rewrite B, deref_assign by auto. destruct (eqdec r r); [reflexivity|contradiction].
    - rewrite C, length_assign. auto.
  Qed.

  Lemma update_config_spec h self fname sett : load_config interp files fname = Ok sett -> self < length h ->
    exists h' r, update_config interp files h self fname = (h', Ok r) /\ length h <= r /\ r < length h' /\
      deref h' r = dupdate (deref h self) sett /\ forall i, i < length h -> deref h' i = deref h i.
  Proof.
    intros E Hs. unfold update_config. rewrite E. unfold loader_settings, alloc. cbn zeta. cbn [fst snd].
    set (h1 := h ++ [sett]). set (h2 := h1 ++ [deref h1 self]). set (h3 := h2 ++ [deref h2 (length h1)]).
    assert (L1 : length h1 = length h + 1) by (unfold h1; rewrite app_length; auto).
    assert (L2 : length h2 = length h + 2) by (unfold h2; rewrite app_length; cbn; lia).
    assert (L3 : length h3 = length h + 3) by (unfold h3; rewrite app_length; cbn; lia).
    assert (D1 : forall i, i < length h -> deref h1 i = deref h i) by (intros i ?; unfold deref, h1; rewrite app_nth1 by lia; auto).
    assert (D2 : forall i, i < length h1 -> deref h2 i = deref h1 i) by (intros i ?; unfold deref at 1, h2; rewrite app_nth1 by lia; auto).
    assert (D3 : forall i, i < length h2 -> deref h3 i = deref h2 i) by (intros i ?; unfold deref at 1, h3; rewrite app_nth1 by lia; auto).
    assert (N1 : deref h1 (length h) = sett) by (unfold deref, h1; rewrite app_nth2, Nat.sub_diag by lia; auto).
    assert (N2 : deref h2 (length h1) = deref h1 self) by (unfold deref at 1, h2; rewrite app_nth2, Nat.sub_diag by lia; auto).
    assert (N3 : deref h3 (length h2) = deref h2 (length h1)) by (unfold deref at 1, h3; rewrite app_nth2, Nat.sub_diag by lia; auto).
    assert (X : deref h3 (length h) = sett) by (rewrite D3, D2 by lia; auto). rewrite X.
    destruct (assigns_spec sett h3 (length h2)) as (A & B & C); [lia|].
    eexists _, (length h2). split; [reflexivity|]. split; [lia|]. split; [lia|]. split.
    - rewrite B, N3, N2, D1 by lia. reflexivity.
    - intros i Hi. rewrite A by lia. rewrite D3, D2, D1 by lia. reflexivity.
  Qed.

  Lemma load_dwf fname sett : load_config interp files fname = Ok sett -> dwf sett.
  Proof.
    unfold load_config. destruct (files fname) as [[c|]|]; [|discriminate|intros [= <-]; apply dwf_nil].
    assert (O : forall c s ol st st', dwf st -> rfold (load_option interp c (fst s) (snd s)) ol st = Ok st' -> dwf st').
    { intros c0 s ol. induction ol as [|o ol IH]; cbn [rfold]; intros st st' W E; [injection E as <-; auto|].
      apply rbind_ok in E as (s1 & E1 & E). eapply IH; [|exact E]. apply load_option_ok in E1 as (v & [[_ ->]|[_ (w & ->)]]); repeat apply dwf_dset; auto. }
    intros E. assert (G : forall l st st', dwf st -> rfold (load_section interp c) l st = Ok st' -> dwf st').
    { induction l as [|s l IH]; cbn [rfold]; intros st st' W E'; [injection E' as <-; auto|].
      apply rbind_ok in E' as (s1 & E1 & E'). eapply IH; [|exact E']. eapply O; eauto. }
    eapply G; [apply dwf_nil|exact E].
  Qed.
  Lemma dget_dupdate_wf {K V} `{EqDec K} (d d2 : dict K V) k : dwf d2 -> dget (dupdate d d2) k = match dget d2 k with Some v => Some v | None => dget d k end.
  Proof. intros W. rewrite dget_dupdate. rewrite <- (dget_perm d2 (rev d2) W (Permutation_rev d2) k). reflexivity. Qed.

  Lemma override h self fname c h' r : files fname = Some (Ok c) -> self < length h ->
    update_config interp files h self fname = (h', Ok r) ->
    (forall k pre s post, i_sects c = pre ++ s :: post -> offers c s k -> (forall s', In s' post -> ~ offers c s' k) ->
       exists v, sect_value interp c s k v /\ dget (deref h' r) k = Some v) /\
    (forall k, (forall s, In s (i_sects c) -> ~ offers c s k) -> dget (deref h' r) k = dget (deref h self) k) /\
    (length h <= r /\ r < length h' /\ forall i, i < length h -> deref h' i = deref h i).
  Proof.
    intros F Hs U. destruct (load_config interp files fname) as [sett|e] eqn:E; [|unfold update_config in U; rewrite E in U; discriminate].
    destruct (update_config_spec h self fname sett E Hs) as (h1 & r1 & U1 & L1 & L2 & D & O). rewrite U1 in U. injection U as <- <-.
    pose proof (load_dwf _ _ E) as W. unfold load_config in E. rewrite F in E. split; [|split; [|auto]].
    - intros k pre s post X Of N. destruct (load_sections_get _ _ _ _ E k) as [A _]. destruct (A pre s post X Of N) as (v & V & G).
      exists v. split; auto. rewrite D, dget_dupdate_wf, G by auto. reflexivity.
    - intros k N. destruct (load_sections_get _ _ _ _ E k) as [_ B]. rewrite D, dget_dupdate_wf, (B N) by auto. reflexivity.
  Qed.

  Lemma update_succeeds h self fname c : files fname = Some (Ok c) -> self < length h ->
    (forall s k, In s (i_sects c) -> offers c s k -> exists v, sect_value interp c s k v) ->
    exists h' r, update_config interp files h self fname = (h', Ok r).
  Proof.
    intros F Hs V. destruct (load_config_succeeds fname c F V) as (sett & E). destruct (update_config_spec h self fname sett E Hs) as (h' & r & U & _). eauto.
  Qed.

  (** Conversely an option without a value makes the call fail, leaving all dicts alone. *)
  Lemma update_fails h self fname c s k : files fname = Some (Ok c) -> In s (i_sects c) -> offers c s k ->
    (forall v, ~ sect_value interp c s k v) -> exists e, update_config interp files h self fname = (h, Err e).
  Proof.
    intros F Hs O N. unfold update_config. destruct (load_config interp files fname) as [sett|e] eqn:E; [|eauto]. exfalso.
    unfold load_config in E. rewrite F in E. revert E. generalize (@nil (pystr * value)) as st. revert Hs. generalize (i_sects c) as l.
    induction l as [|s0 l IH]; intros Hs st E; [destruct Hs|]. cbn [rfold] in E. apply rbind_ok in E as (s1 & E1 & E).
    destruct Hs as [->|Hs]; [|eapply IH; eauto]. unfold load_section in E1. destruct (load_options_get _ _ _ _ _ E1 k) as [A _].
    apply options_offers in O. destruct (A O) as (v & V & _). eapply N; eauto.
  Qed.

  Lemma missing_file h self fname : files fname = None -> self < length h ->
    exists h' r, update_config interp files h self fname = (h', Ok r) /\ deref h' r = deref h self.
  Proof.
    intros F Hs. destruct (update_config_spec h self fname []) as (h' & r & U & _ & _ & D & _); auto.
    - unfold load_config. rewrite F. reflexivity.
    - exists h', r. split; auto.
  Qed.
End Config.

(** ** Formatter *)
Section Formatter.
  Context {RX L M : Type}.
  Variable compile : pystr -> res RX.
  Variable rx_match : RX -> L -> option M.
  Variable group : M -> nat -> res (option pystr).
  Implicit Types (s : settings) (f : fmt (RX := RX)).

  (** Everything a successful construction tells. *)
  Lemma fmt_init_ok s f s' : fmt_init compile s = (Ok f, s') ->
    exists cols ty tk co,
      init_lines compile s = Ok (f_line f, f_tline f, f_cline f, f_kline f) /\
      init_bounds compile s = Ok (f_single f, f_left f, f_right f) /\
      init_columns s = Ok cols /\ f_cols f = col2id cols /\
      dget s (u "type") = Some (VStr ty) /\ col_ids (col2id cols) (split slash ty) = Ok (f_type f) /\
      dget s (u "token") = Some (VStr tk) /\ col_ids (col2id cols) (drop_last2 (split slash tk)) = Ok (f_token f) /\
      s' = (if dmem s (u "colloc") then s else dset s (u "colloc") (VStr ty)) /\
      dget s' (u "colloc") = Some (VStr co) /\ col_ids (col2id cols) (split slash co) = Ok (f_colloc f).
  Proof.
    unfold fmt_init. intros E.
    destruct (init_lines compile s) as [[[[l1 l2] l3] l4]|] eqn:El; [|discriminate]. cbn [rbind] in E.
    destruct (init_bounds compile s) as [[[b1 b2] b3]|] eqn:Eb; [|discriminate]. cbn [rbind] in E.
    destruct (init_columns s) as [cols|] eqn:Ec; [|discriminate]. cbn [rbind] in E. cbn zeta in E.
    unfold sget at 1 in E. destruct (dget s (u "type")) as [[ty|z|]|] eqn:Et; cbn [rbind vsplit] in E; try discriminate.
    destruct (col_ids (col2id cols) (split slash ty)) as [tyi|] eqn:Eti; cbn [rbind] in E; [|discriminate].
    unfold sget at 1 in E. destruct (dget s (u "token")) as [[tk|z|]|] eqn:Ek; cbn [rbind vsplit] in E; try discriminate.
    destruct (col_ids (col2id cols) (drop_last2 (split slash tk))) as [tki|] eqn:Eki; cbn [rbind] in E; [|discriminate].
    injection E as E Es. subst s'. unfold sget in E.
    destruct (dget (if dmem s (u "colloc") then s else dset s (u "colloc") (VStr ty)) (u "colloc")) as [[co|z|]|] eqn:Eo; cbn [rbind vsplit] in E; try discriminate.
    apply rmap_ok in E as (coi & Ei & ->). cbn. exists cols, ty, tk, co. repeat split; auto.
  Qed.

  (** *** Columns *)
  Lemma columns_init s cols : columns_of s cols -> init_columns s = Ok cols.
  Proof.
    intros (N & F & H). unfold init_columns, get_opt. destruct H as [->|[[->| ->] ->]]; cbn [vsplit]; now rewrite split_join.
  Qed.
  Lemma col2id_from cols : forall n i (d : dict pystr nat),
    forall k, dget (fold_left (fun d kv => dset d (fst kv) (snd kv)) (combine cols (seq n (length cols))) d) k = Some i ->
    (exists j, nth_error cols j = Some k /\ i = n + j) \/ (~ In k cols /\ dget d k = Some i).
  Proof.
    induction cols as [|c cols IH]; cbn [length seq combine fold_left fst snd]; intros n i d k E; [auto|].
    destruct (IH _ _ _ _ E) as [(j & Ej & ->)|[N G]].
    - left. exists (S j). cbn. split; [auto|lia].
    - rewrite dget_dset in G. destruct (eqdec k c) as [->|ne].
      + injection G as <-. left. exists 0. cbn. split; auto.
      + right. split; auto. intros [->|]; auto.
  Qed.
  Lemma col2id_Some cols k i : dget (col2id cols) k = Some i -> exists j, i = S j /\ nth_error cols j = Some k.
  Proof.
    intros E. unfold col2id, dict_of in E. apply col2id_from in E as [(j & Ej & ->)|[_ E]]; [eauto|discriminate].
  Qed.
  Lemma col2id_None cols k : dget (col2id cols) k = None <-> ~ In k cols.
  Proof.
    rewrite dget_None. unfold col2id, dict_of. change (fold_left _ ?l []) with (@dupdate pystr nat _ [] l). rewrite dkeys_dupdate_In.
    assert (X : dkeys (combine cols (seq 1 (length cols))) = cols).
    { unfold dkeys. generalize 1. induction cols; intros n; cbn; auto. now rewrite IHcols. }
    rewrite X. cbn. tauto.
  Qed.

  Lemma col_ids_fields cols fields m names ids : length fields = length cols -> has_fields group m fields ->
    col_ids (col2id cols) names = Ok ids ->
    exists vs, Forall2 (field_of cols fields) names vs /\ rmapm (group m) ids = Ok (map Some vs).
  Proof.
    intros Len Hf E. apply rmapm_ok in E. induction E as [|n i names ids E F IH]; [exists []; split; [constructor|reflexivity]|].
    destruct IH as (vs & F2 & R). destruct (dget (col2id cols) n) as [i'|] eqn:G; [|discriminate]. injection E as ->.
    apply col2id_Some in G as (j & -> & Ej). destruct (nth_error fields j) as [v|] eqn:Ev.
    - exists (v :: vs). split; [constructor; auto; exists j; auto|]. cbn [rmapm map]. rewrite (Hf _ _ Ev), R. reflexivity.
    - exfalso. apply nth_error_None in Ev. assert (nth_error cols j <> None) as X by congruence. apply nth_error_Some in X. lia.
  Qed.
  Lemma join_groups_some vs : join_groups (map Some vs) = Ok (join slash vs).
  Proof.
    unfold join_groups. assert (X : rmapm (fun o : option pystr => match o with Some x => Ok x | None => Err TypeError end) (map Some vs) = Ok vs).
    { induction vs as [|v vs IH]; cbn [map rmapm]; auto. rewrite IH. reflexivity. }
    rewrite X. reflexivity.
  Qed.

  Lemma drop_last2_app {A} (l : list A) a b : drop_last2 (l ++ [a; b]) = l.
  Proof. unfold drop_last2. rewrite app_length. cbn [length]. replace (length l + 2 - 2) with (length l) by lia. rewrite firstn_app, firstn_all, Nat.sub_diag. apply app_nil_r. Qed.
  Section Built.
    Variables (s : settings) (f : fmt (RX := RX)) (s' : settings) (cols fields : list pystr) (m : M).
    Hypothesis Init : fmt_init compile s = (Ok f, s').
    Hypothesis Cols0 : columns_of s cols.
    Let Cols : init_columns s = Ok cols := columns_init s cols Cols0.
    Hypothesis Len : length fields = length cols.
    Hypothesis Has : has_fields group m fields.

    Lemma type_fields ty : dget s (u "type") = Some (VStr ty) ->
      exists vs, Forall2 (field_of cols fields) (split slash ty) vs /\ get_type group f m = Ok (join slash vs).
    Proof.
      intros T. destruct (fmt_init_ok _ _ _ Init) as (cols' & ty' & tk & co & _ & _ & C & _ & T' & I & _). rewrite Cols in C. injection C as <-.
      rewrite T in T'. injection T' as <-. destruct (col_ids_fields cols fields m _ _ Len Has I) as (vs & F & R). exists vs. split; auto.
      unfold get_type. rewrite R. cbn [rbind]. apply join_groups_some.
    Qed.
    Lemma colloc_fields co : dget s (u "colloc") = Some (VStr co) \/ (dget s (u "colloc") = None /\ dget s (u "type") = Some (VStr co)) ->
      exists vs, Forall2 (field_of cols fields) (split slash co) vs /\ get_colloc group f m = Ok (join slash vs).
    Proof.
      intros T. destruct (fmt_init_ok _ _ _ Init) as (cols' & ty' & tk & co' & _ & _ & C & _ & T' & _ & _ & _ & -> & O & I). rewrite Cols in C. injection C as <-.
      assert (co' = co) as ->.
      { unfold dmem in O. destruct T as [T|[T1 T2]]; [rewrite T in O; congruence|]. rewrite T1 in O. rewrite dget_dset_same in O. congruence. }
      destruct (col_ids_fields cols fields m _ _ Len Has I) as (vs & F & R). exists vs. split; auto.
      unfold get_colloc. rewrite R. cbn [rbind]. apply join_groups_some.
    Qed.
    Lemma token_fields tk fid lid names a b : dget s (u "token") = Some (VStr tk) -> split slash tk = names ++ [a; b] ->
      exists vs, Forall2 (field_of cols fields) names vs /\ get_token group f m (Some fid) (Some lid) = Ok (join slash (vs ++ [fid; lid])).
    Proof.
      intros T Es. destruct (fmt_init_ok _ _ _ Init) as (cols' & ty' & tk' & co & _ & _ & C & _ & _ & _ & T' & I & _). rewrite Cols in C. injection C as <-.
      rewrite T in T'. injection T' as <-. rewrite Es, drop_last2_app in I. destruct (col_ids_fields cols fields m _ _ Len Has I) as (vs & F & R). exists vs. split; auto.
      unfold get_token. rewrite R. cbn [rbind]. rewrite <- (join_groups_some (vs ++ [fid; lid])), map_app. reflexivity.
    Qed.
    Lemma column_field c fid lid : In c cols -> ~ In c [u "type"; u "colloc"; u "token"] ->
      exists v, field_of cols fields c v /\ fmt_get group f m c fid lid = Ok (Some v).
    Proof.
      intros Hc N. destruct (fmt_init_ok _ _ _ Init) as (cols' & ty' & tk' & co & _ & _ & C & E & _). rewrite Cols in C. injection C as <-.
      unfold fmt_get. destruct (eqdec c (u "type")) as [->|]; [exfalso; apply N; cbn; auto|]. destruct (eqdec c (u "colloc")) as [->|]; [exfalso; apply N; cbn; auto|].
      destruct (eqdec c (u "token")) as [->|]; [exfalso; apply N; cbn; auto|]. rewrite E. destruct (dget (col2id cols) c) as [i|] eqn:G; [|apply col2id_None in G; contradiction].
      apply col2id_Some in G as (j & -> & Ej). destruct (nth_error fields j) as [v|] eqn:Ev.
      - exists v. split; [exists j; auto|apply Has; auto].
      - exfalso. apply nth_error_None in Ev. assert (nth_error cols j <> None) as X by congruence. apply nth_error_Some in X. lia.
    Qed.
    Lemma unknown_column c fid lid : ~ In c cols -> ~ In c [u "type"; u "colloc"; u "token"] -> fmt_get group f m c fid lid = group m 0.
    Proof.
      intros Hc N. destruct (fmt_init_ok _ _ _ Init) as (cols' & ty' & tk' & co & _ & _ & C & E & _). rewrite Cols in C. injection C as <-.
      unfold fmt_get. destruct (eqdec c (u "type")) as [->|]; [exfalso; apply N; cbn; auto|]. destruct (eqdec c (u "colloc")) as [->|]; [exfalso; apply N; cbn; auto|].
      destruct (eqdec c (u "token")) as [->|]; [exfalso; apply N; cbn; auto|]. rewrite E. rewrite (proj2 (col2id_None cols c) Hc). reflexivity.
    Qed.
  End Built.

  (** A format naming an unknown column is refused. *)
  Lemma formats_known s f s' cols : fmt_init compile s = (Ok f, s') -> columns_of s cols ->
    (forall ty, dget s (u "type") = Some (VStr ty) -> incl (split slash ty) cols) /\
    (forall co, dget s (u "colloc") = Some (VStr co) -> incl (split slash co) cols) /\
    (forall tk names a b, dget s (u "token") = Some (VStr tk) -> split slash tk = names ++ [a; b] -> incl names cols).
  Proof.
    intros I C. apply columns_init in C. destruct (fmt_init_ok _ _ _ I) as (cols' & ty' & tk' & co & _ & _ & C' & _ & T & IT & K & IK & -> & O & IO). rewrite C in C'. injection C' as <-.
    assert (X : forall names ids, col_ids (col2id cols) names = Ok ids -> incl names cols).
    { intros names ids E n Hn. apply rmapm_ok in E. induction E as [|x y l l' E F IH]; [destruct Hn|]. destruct Hn as [->|Hn]; [|auto].
      destruct (in_dec eqdec n cols) as [|n']; auto. apply col2id_None in n'. rewrite n' in E. discriminate. }
    split; [|split].
    - intros ty Et. assert (ty = ty') as -> by congruence. eapply X; eauto.
    - intros c Ec. unfold dmem in O. rewrite Ec in O. rewrite Ec in O. injection O as <-. eapply X; eauto.
    - intros tk names a b Et Es. assert (tk = tk') as -> by congruence. rewrite Es, drop_last2_app in IK. eapply X; eauto.
  Qed.

  Lemma col_ids_unknown cols names : ~ incl names cols -> col_ids (col2id cols) names = Err KeyError.
  Proof.
    induction names as [|n names IH]; intros H; [elim H; intros x []|]. unfold col_ids. cbn [rmapm]. destruct (dget (col2id cols) n) as [i|] eqn:E; [|reflexivity].
    cbn [rbind]. unfold col_ids in IH. rewrite IH; [reflexivity|]. intros J. apply H. intros x [<-|Hx]; [|now apply J].
    destruct (in_dec eqdec n cols) as [|N]; [assumption|]. apply col2id_None in N. congruence.
  Qed.
  Lemma type_unknown s f s' cols ty : fmt_init compile s = (Ok f, s') -> columns_of s cols -> ~ incl (split slash ty) cols ->
    fmt_init compile (dset s (u "type") (VStr ty)) = (Err KeyError, dset s (u "type") (VStr ty)).
  Proof.
    intros I C N. apply columns_init in C. destruct (fmt_init_ok _ _ _ I) as (cols' & ty' & tk' & co & Ls & Bs & C' & _).
    assert (G : forall k, k <> u "type" -> dget (dset s (u "type") (VStr ty)) k = dget s k) by (intros k K; now apply dget_dset_other).
    assert (HM : forall k, k <> u "type" -> dmem (dset s (u "type") (VStr ty)) k = dmem s k) by (intros k K; unfold dmem; now rewrite G).
    assert (HK : forall k, k <> u "type" -> compile_key compile (dset s (u "type") (VStr ty)) k = compile_key compile s k) by (intros k Hk; unfold compile_key, sget; now rewrite G).
    assert (EL : init_lines compile (dset s (u "type") (VStr ty)) = init_lines compile s) by (unfold init_lines; now rewrite !HM, !HK by discriminate).
    assert (EB : init_bounds compile (dset s (u "type") (VStr ty)) = init_bounds compile s) by (unfold init_bounds, sget at 1 2; now rewrite !HM, !HK, !G by discriminate).
    assert (EC : init_columns (dset s (u "type") (VStr ty)) = init_columns s) by (unfold init_columns, get_opt; now rewrite !G by discriminate).
    unfold fmt_init. rewrite EL, EB, EC, Ls, Bs, C. cbn [rbind]. unfold sget at 1. rewrite dget_dset_same. cbn [rbind vsplit].
    rewrite col_ids_unknown by exact N. reflexivity.
  Qed.

  (** *** Separators *)
  Lemma single_both s f s' : fmt_init compile s = (Ok f, s') -> dget s (u "boundary-detection-mechanism") = Some (VStr (u "single")) ->
    exists x y r, dget s (u "single-boundary-machine") = Some x /\ dget s (u "separator-line-machine") = Some (VStr y) /\ compile y = Ok r /\
      forall line, separator_line_machine rx_match f line = Ok (rx_match r line).
  Proof.
    intros I B. destruct (fmt_init_ok _ _ _ I) as (cols & ty & tk & co & _ & Bo & _). unfold init_bounds, sget at 1 in Bo. rewrite B in Bo. cbn [rbind] in Bo.
    destruct (eqdec (u "single") (u "single")) as [_|n]; [|contradiction]. unfold dmem in Bo.
    destruct (dget s (u "single-boundary-machine")) as [x|] eqn:Ex.
    - apply rmap_ok in Bo as (r & C & E). injection E as E1 _ _. unfold compile_key, sget in C. destruct (dget s (u "separator-line-machine")) as [[y| |]|]; try discriminate.
      cbn [rbind vcompile] in C. exists x, y, r. repeat split; auto. intros line. unfold separator_line_machine, rx_attr. rewrite E1. reflexivity.
    - destruct (dget s (u "separator-line-machine")); [|discriminate]. unfold compile_key, sget in Bo. rewrite Ex in Bo. discriminate.
  Qed.
  Lemma single_missing s : dget s (u "boundary-detection-mechanism") = Some (VStr (u "single")) ->
    (exists l, init_lines compile s = Ok l) ->
    dget s (u "single-boundary-machine") = None \/ dget s (u "separator-line-machine") = None ->
    fmt_init compile s = (Err KeyError, s).
  Proof.
    intros B (ls & Hl) N. unfold fmt_init. rewrite Hl. cbn [rbind]. unfold init_bounds, sget at 1. rewrite B. cbn [rbind].
    destruct (eqdec (u "single") (u "single")) as [_|n]; [|contradiction]. unfold dmem, compile_key, sget.
    destruct (dget s (u "single-boundary-machine")) as [x|] eqn:Ex; destruct (dget s (u "separator-line-machine")) as [y|] eqn:Ey; try reflexivity.
    destruct N; discriminate.
  Qed.

  (** *** Lines of a file *)
  Lemma single_lines s f s' lines : fmt_init compile s = (Ok f, s') -> dget s (u "boundary-detection-mechanism") = Some (VStr (u "single")) ->
    In (u "line-machine") (dkeys s) ->
    exists rl rs, f_line f = Some rl /\ f_single f = Some rs /\
      file_events rx_match f lines = Ok (map (fun l => match rx_match rl l with Some m => EMatch m | None => if rx_match rs l then ESep else ESkip end) lines).
  Proof.
    intros I B H. destruct (fmt_init_ok _ _ _ I) as (cols & ty & tk & co & Li & Bo & _). unfold init_lines in Li. rewrite (proj2 (dmem_In _ _) H) in Li.
    apply rmap_ok in Li as (rl & _ & E). injection E as E1 _ _ _.
    destruct (single_both s f s' I B) as (x & y & rs & _ & _ & _ & Sep). exists rl.
    assert (exists rs, f_single f = Some rs) as (rs' & E2).
    { unfold init_bounds, sget at 1 in Bo. rewrite B in Bo. cbn [rbind] in Bo. destruct (eqdec (u "single") (u "single")) as [_|n]; [|contradiction].
      destruct (dmem s (u "single-boundary-machine")); [apply rmap_ok in Bo as (r & _ & E); injection E as -> _ _; eauto|].
      destruct (dmem s (u "separator-line-machine")); [apply rmap_ok in Bo as (r & _ & E); injection E as -> _ _; eauto|discriminate]. }
    exists rs'. split; [auto|]. split; [auto|]. unfold file_events. induction lines as [|l lines IH]; cbn [rmapm map]; auto.
    unfold line_event at 1, match_line, separator_line_machine, rx_attr. rewrite E1, E2. cbn [rbind]. destruct (rx_match rl l) as [m|]; cbn [rbind rmap].
    - unfold file_events in IH. rewrite IH. reflexivity.
    - rewrite IH. destruct (rx_match rs' l); reflexivity.
  Qed.

  Lemma left_right_lines s f s' lines : fmt_init compile s = (Ok f, s') -> dget s (u "boundary-detection-mechanism") = Some (VStr (u "left-right")) ->
    In (u "line-machine") (dkeys s) ->
    exists rl, f_line f = Some rl /\
      ((exists l, In l lines /\ rx_match rl l = None) -> file_events rx_match f lines = Err AttributeError).
  Proof.
    intros I B H. destruct (fmt_init_ok _ _ _ I) as (cols & ty & tk & co & Li & Bo & _). unfold init_lines in Li. rewrite (proj2 (dmem_In _ _) H) in Li.
    apply rmap_ok in Li as (rl & _ & E). injection E as E1 _ _ _. exists rl. split; auto.
    assert (E2 : f_single f = None).
    { unfold init_bounds, sget at 1 in Bo. rewrite B in Bo. cbn [rbind] in Bo. destruct (eqdec (u "left-right") (u "single")) as [n|_]; [discriminate n|].
      destruct (eqdec (u "left-right") (u "left-right")) as [_|n]; [|contradiction]. destruct (negb _); [discriminate|]. destruct (negb _); [discriminate|].
      apply rbind_ok in Bo as (l & _ & Bo). apply rmap_ok in Bo as (r & _ & E). injection E as -> _ _. auto. }
    unfold file_events. induction lines as [|l lines IH]; intros (l0 & Hl & N); [destruct Hl|]. cbn [rmapm].
    unfold line_event at 1, match_line, separator_line_machine, rx_attr. rewrite E1, E2. cbn [rbind]. destruct (rx_match rl l) as [m|] eqn:Em; cbn [rbind rmap]; auto.
    destruct Hl as [->|Hl]; [congruence|]. rewrite IH by eauto. reflexivity.
  Qed.

  Lemma other_machine_lines s f s' lines : fmt_init compile s = (Ok f, s') -> ~ In (u "line-machine") (dkeys s) -> lines <> [] ->
    file_events rx_match f lines = Err AttributeError.
  Proof.
    intros I H Ne. destruct (fmt_init_ok _ _ _ I) as (cols & ty & tk & co & Li & _). unfold init_lines in Li. rewrite (proj2 (dmem_nIn _ _) H) in Li.
    assert (E : f_line f = None).
    { repeat match type of Li with (if ?b then _ else _) = _ => destruct b end; try discriminate; apply rmap_ok in Li as (r & _ & E); injection E as -> _ _ _; auto. }
    destruct lines as [|l lines]; [contradiction|]. unfold file_events. cbn [rmapm]. unfold line_event at 1, match_line, rx_attr. rewrite E. reflexivity.
  Qed.
  Lemma form_lines s f s' line x : fmt_init compile s = (Ok f, s') -> In (u "line-machine") (dkeys s) -> In x [u "type"; u "colloc"; u "token"] ->
    match_line rx_match f line (Some x) = Err AttributeError.
  Proof.
    intros I H Hx. destruct (fmt_init_ok _ _ _ I) as (cols & ty & tk & co & Li & _). unfold init_lines in Li. rewrite (proj2 (dmem_In _ _) H) in Li.
    apply rmap_ok in Li as (rl & _ & E). injection E as _ E2 E3 E4. unfold rx_attr, match_line.
    destruct Hx as [<-|[<-|[<-|[]]]]; cbn; rewrite ?E2, ?E3, ?E4; reflexivity.
  Qed.

  (** *** The settings dict *)
  Lemma settings_kept s : forall k, k <> u "colloc" -> dget (snd (fmt_init compile s)) k = dget s k.
  Proof.
    intros k N. unfold fmt_init. match goal with |- context [match ?r with Ok _ => _ | Err _ => _ end] => destruct r as [[[[[[ls bs] ids] ty] tyi] tki]|e] end; cbn [snd]; auto.
    destruct (dmem s (u "colloc")); auto. apply dget_dset_other. auto.
  Qed.
  Lemma settings_kept_colloc s : In (u "colloc") (dkeys s) -> snd (fmt_init compile s) = s.
  Proof.
    intros I. unfold fmt_init. match goal with |- context [match ?r with Ok _ => _ | Err _ => _ end] => destruct r as [[[[[[ls bs] ids] ty] tyi] tki]|e] end; cbn [snd]; auto.
    rewrite (proj2 (dmem_In _ _) I). reflexivity.
  Qed.
  Lemma settings_changed s f s' : fmt_init compile s = (Ok f, s') -> ~ In (u "colloc") (dkeys s) ->
    exists ty, dget s (u "type") = Some (VStr ty) /\ dget s' (u "colloc") = Some (VStr ty) /\ dget s (u "colloc") = None.
  Proof.
    intros I N. destruct (fmt_init_ok _ _ _ I) as (cols & ty & tk & co & _ & _ & _ & _ & T & _ & _ & _ & -> & _). exists ty.
    rewrite (proj2 (dmem_nIn _ _) N), dget_dset_same. repeat split; auto. apply dget_None. auto.
  Qed.
End Formatter.
