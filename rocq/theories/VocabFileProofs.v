(** * Round trip of the plain text format. *)
From Coq Require Import String NArith ZArith Bool Arith Lia List Permutation.
From Verif Require Import Base BaseLemmas Str StrLemmas VocabModel VocabSpec VocabProofs VocabFileModel.
Import ListNotations.

Lemma tab_not_minus : tab <> minus. Proof. discriminate. Qed.

Section P.
  Variable float_ok : pystr -> bool.

  Lemma str_notab z : ~ In tab (str_of_Z z).
  Proof. intros H. apply str_of_Z_nows in H. discriminate. Qed.
  Lemma str_nodot z : mem dot (str_of_Z z) = false.
  Proof.
    apply mem_nIn. intros H. apply str_of_Z_chars in H as [H|H]; discriminate.
  Qed.
  Lemma str_nobreak z c : In c (str_of_Z z) -> is_break c = false.
  Proof.
    intros H. apply str_of_Z_nows in H. destruct (is_break c) eqn:B; auto. apply break_ws in B. congruence.
  Qed.

  Lemma load_line_saved d k z : safe_item k ->
    load_line float_ok d (k ++ tab :: str_of_Z z) = Ok (dset d k (FInt z)).
  Proof.
    intros ((c & k' & -> & W) & NT & NB). unfold load_line.
    assert (S : strip ((c :: k') ++ tab :: str_of_Z z) = (c :: k') ++ tab :: str_of_Z z).
    { unfold strip. cbn [app]. rewrite lstrip_id by auto.
      destruct (str_of_Z_last z) as (s & x & E & D). rewrite E.
      change (c :: k' ++ tab :: s ++ [x]) with ((c :: k') ++ (tab :: s) ++ [x]).
      rewrite app_assoc. rewrite rstrip_last; auto. apply digit_ws; auto. }
    rewrite S. rewrite split_app_noc by auto.
    rewrite split_noc_id by apply str_notab. unfold read_val.
    rewrite str_nodot, int_str. auto.
  Qed.

  Lemma load_lines_saved l : forall d, Forall (fun kv => safe_item (fst kv)) l ->
    rfold (load_line float_ok) (splitlines_aux [] (concat (map (fun kv => fst kv ++ tab :: str_of_Z (snd kv) ++ [newline]) l))) d
    = Ok (fold_left (fun d kv => dset d (fst kv) (FInt (snd kv))) l d).
  Proof.
    induction l as [|[k z] l IH]; intros d F; auto. inversion F; subst. cbn [map concat fst snd].
    replace ((k ++ tab :: str_of_Z z ++ [newline]) ++ concat (map (fun kv => fst kv ++ tab :: str_of_Z (snd kv) ++ [newline]) l))
      with ((k ++ tab :: str_of_Z z) ++ 10%N :: concat (map (fun kv => fst kv ++ tab :: str_of_Z (snd kv) ++ [newline]) l)).
    2:{ rewrite <- !app_assoc. cbn. rewrite <- !app_assoc. auto. }
    rewrite splitlines_aux_line.
    - cbn [rev app]. cbn [rfold]. cbn in H1. rewrite load_line_saved by auto. cbn [rbind]. rewrite IH by auto. auto.
    - intros c Hc. apply in_app_or in Hc as [Hc|[<-|Hc]]; auto.
      + apply H1; auto.
      + eapply str_nobreak; eauto.
  Qed.

  Definition lift_ints (d : dict pystr Z) : dict pystr fval := map (fun kv => (fst kv, FInt (snd kv))) d.
  Lemma lift_keys d : dkeys (lift_ints d) = dkeys d.
  Proof. unfold dkeys, lift_ints. rewrite map_map. auto. Qed.

  Lemma fold_lift l : forall d, dwf (d ++ l) ->
    fold_left (fun d kv => dset d (fst kv) (FInt (snd kv))) l (lift_ints d) = lift_ints (d ++ l).
  Proof.
    induction l as [|[k z] l IH]; cbn; intros d W; [rewrite app_nil_r; auto|].
    assert (E : dset (lift_ints d) k (FInt z) = lift_ints (d ++ [(k, z)])).
    { assert (~ In k (dkeys d)).
      { unfold dwf, dkeys in *. rewrite map_app in W. cbn in W. apply NoDup_remove_2 in W.
        intros Hk. apply W. apply in_or_app; auto. }
      clear W IH. induction d as [|[k' f'] d IH]; cbn in *; auto.
      destruct (eqdec k k'); [exfalso; subst; tauto|]. f_equal. apply IH. tauto. }
    rewrite E, IH; rewrite <- app_assoc; auto.
  Qed.

  Lemma load_save_safe v : dwf (fd v) -> (forall k, In k (v_keys v) -> safe_item k) ->
    load_plain float_ok (save_plain (fd v)) = Ok (lift_ints (v_dataframe v)).
  Proof.
    intros W S. unfold load_plain, save_plain.
    destruct (fd v) as [|kv0 d0] eqn:E.
    - unfold v_dataframe. rewrite E. auto.
    - rewrite <- E. fold (v_dataframe v). unfold splitlines. rewrite load_lines_saved.
      + f_equal. apply (fold_lift (v_dataframe v) []). apply dwf_df. rewrite E; auto.
      + rewrite Forall_forall. intros kv Hkv. apply S. unfold v_keys, dkeys.
        apply in_map. eapply Permutation_in; [apply Permutation_sym, df_perm|auto].
  Qed.

  (** Every key ever loaded is safe. *)
  Lemma load_line_keys d line d' : (forall c, In c line -> is_break c = false) ->
    load_line float_ok d line = Ok d' -> (forall k, In k (dkeys d) -> safe_item k) -> forall k, In k (dkeys d') -> safe_item k.
  Proof.
    intros NB. unfold load_line.
    pose proof (split_noc tab (strip line)) as NT. pose proof (join_split tab (strip line)) as J.
    destruct (split tab (strip line)) as [|p0 [|p1 ps]] eqn:SP; try (intros E; injection E as <-; auto; fail).
    destruct (read_val float_ok p1); cbn; [|congruence]. intros E; injection E as <-. intros S k Hk.
    apply dkeys_dset_In in Hk as [->|Hk]; auto.
    inversion NT; subst.
    change (join tab (p0 :: p1 :: ps)) with (p0 ++ tab :: join tab (p1 :: ps)) in J.
    repeat split; auto.
    - pose proof (strip_hd line) as H. rewrite <- J in H. destruct p0 as [|c p0]; cbn in H; [discriminate|]. eauto.
    - intros c Hc. apply NB. apply strip_incl. rewrite <- J. apply in_or_app; auto.
  Qed.
  Lemma load_lines_keys lines : forall d d', Forall (fun l => forall c, In c l -> is_break c = false) lines ->
    rfold (load_line float_ok) lines d = Ok d' -> (forall k, In k (dkeys d) -> safe_item k) -> forall k, In k (dkeys d') -> safe_item k.
  Proof.
    induction lines as [|l lines IH]; cbn; intros d d' F E S.
    - injection E as <-; auto.
    - inversion F; subst. destruct (load_line float_ok d l) as [d1|] eqn:E1; cbn in E; [|congruence].
      eapply IH; eauto. eapply load_line_keys; eauto.
  Qed.
  Lemma load_keys_safe text d : load_plain float_ok text = Ok d -> forall k, In k (dkeys d) -> safe_item k.
  Proof. intros E. eapply (load_lines_keys (splitlines text) []); [apply splitlines_nobreak|exact E|intros ? []]. Qed.

  Lemma dget_lift d k : dget (lift_ints d) k = option_map FInt (dget d k).
  Proof. induction d as [|[k' f] d IH]; cbn; auto. destruct (eqdec k k'); auto. Qed.

  Lemma save_load_iff v : dwf (fd v) ->
    (exists d, load_plain float_ok (save_plain (fd v)) = Ok d /\ forall k, dget d k = option_map FInt (vget v k))
    <-> (forall k, v_contains v k = true -> safe_item k).
  Proof.
    intros W. split.
    - intros (d & E & G) k Hk. apply dmem_In in Hk. apply dget_key_Some in Hk as [f Hf].
      eapply load_keys_safe; eauto. specialize (G k). unfold vget in G. rewrite Hf in G. cbn in G.
      eapply dget_Some_key; eauto.
    - intros S. exists (lift_ints (v_dataframe v)). split.
      + apply load_save_safe; auto. intros k Hk. apply S. apply dmem_In; auto.
      + intros k. rewrite dget_lift, vget_df; auto.
  Qed.
End P.

Definition ex_dict : dict pystr Z := [(u "boy/N", 2%Z); (u "give/V", 3%Z); (u "a/b/N", 2%Z); (u "at/P", 0%Z)].
Lemma ex_dict_wf : dwf ex_dict.
Proof. unfold dwf, ex_dict; cbn. repeat constructor; cbn; intuition discriminate. Qed.
Lemma ex_dict_safe k : v_contains (vocab_init false ex_dict) k = true -> safe_item k.
Proof.
  intros H. apply dmem_In in H. cbn in H.
  repeat (destruct H as [<-|H]; [unfold safe_item; split; [cbn; eauto|]; split;
    [cbn; intuition discriminate|cbn -[is_break]; intros c Hc; repeat (destruct Hc as [<-|Hc]; [reflexivity|]); destruct Hc]|]).
  destruct H.
Qed.
(** An item with a tab in it (e.g. a type extracted from a column containing a tab). *)
Lemma plain_roundtrip_refuted :
  exists v, dwf (fd v) /\ forall float_ok,
    ~ exists d, load_plain float_ok (save_plain (fd v)) = Ok d /\ forall k, dget d k = option_map FInt (vget v k).
Proof.
  exists (vocab_init false [([97; 9; 98]%N, 5%Z)]).
  assert (W : dwf (fd (vocab_init false [([97; 9; 98]%N, 5%Z)]))).
  { cbn. unfold dwf; cbn. repeat constructor. auto. }
  split; auto. intros fo H. pose proof (proj1 (save_load_iff fo _ W) H [97; 9; 98]%N eq_refl) as (_ & NT & _).
  apply NT. cbn. auto.
Qed.
