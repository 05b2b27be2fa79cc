(** * Proofs about the older line reader, sentences and found paths. *)
From Coq Require Import String NArith ZArith Bool Arith Lia List.
From Verif Require Import Base BaseLemmas Str StrLemmas VocabModel ConfModel DepMatchProofs MxTtmProofs GetModel GetSpec.
Import ListNotations.
Local Open Scope nat_scope.
Local Open Scope list_scope.

Section Getter.
  Context {RX M : Type}.
  Variable compile : pystr -> res RX.
  Variable rx_match : RX -> pystr -> option M.
  Variable group : M -> Z -> res (option pystr).
  Notation init := (getter_init (M:=M) compile).

  Lemma ints_of ids : rmapm int_of_str (map str_of_Z ids) = Ok ids.
  Proof. induction ids as [|i ids IH]; [reflexivity|]. cbn [map rmapm]. rewrite int_str. cbn [rbind]. now rewrite IH. Qed.
  Lemma listed_func s k ids : listed s k ids -> rbind (sget s k) get_func = Ok ids.
  Proof.
    intros [N E]. unfold sget. rewrite E. cbn [rbind]. unfold get_func, vsplit, comma. cbn [rbind]. rewrite split_join.
    - apply ints_of.
    - destruct ids; [congruence|discriminate].
    - apply Forall_forall. intros p Ip Ic. apply in_map_iff in Ip as (z & <- & _). apply str_of_Z_chars in Ic as [Ic|Ic]; discriminate.
  Qed.
  Lemma bind_ok {A B} (x : res A) (f : A -> res B) b : rbind x f = Ok b -> exists a, x = Ok a /\ f a = Ok b.
  Proof. destruct x; cbn; [eauto|discriminate]. Qed.
  Lemma getter_fields s g : init s = Ok g ->
    dget s (u "form") = Some (VStr (g_form g)) /\ g_match g = None /\
    compile_key compile s (u "token-line-machine") = Ok (g_tokenline g) /\ compile_key compile s (u "word-line-machine") = Ok (g_wordline g) /\
    compile_key compile s (u "separator-line-machine") = Ok (g_sep g) /\ compile_key compile s (u "left-boundary-machine") = Ok (g_left g) /\
    compile_key compile s (u "right-boundary-machine") = Ok (g_right g) /\ compile_key compile s (u "single-boundary-machine") = Ok (g_single g) /\
    rbind (sget s (u "get-word")) get_func = Ok (g_word g) /\ rbind (sget s (u "get-pos")) get_func = Ok (g_pos g) /\
    rbind (sget s (u "get-lemma")) get_func = Ok (g_lemma g) /\ rbind (sget s (u "get-colloc")) get_func = Ok (g_colloc g) /\
    rbind (sget s (u "get-" ++ g_form g)) get_func = Ok (g_node g).
  Proof.
    unfold getter_init. intros E.
    repeat match type of E with rbind _ _ = Ok _ => apply bind_ok in E; destruct E as (? & ? & E) end.
    injection E as <-. cbn [g_form g_match g_tokenline g_wordline g_sep g_left g_right g_single g_word g_pos g_lemma g_colloc g_node].
    match goal with H : match ?x with _ => _ end = Ok ?f |- _ => destruct x as [f0| |]; try discriminate H; injection H as -> end.
    split; [|auto 20]. match goal with H : sget s (u "form") = _ |- _ => unfold sget in H; destruct (dget s (u "form")); [now injection H as ->|discriminate H] end.
  Qed.
  Lemma func_accepted s k ids : rbind (sget s k) get_func = Ok ids -> accepted integers s k.
  Proof.
    unfold sget. destruct (dget s k) as [v|] eqn:E; [|discriminate]. cbn [rbind]. unfold get_func, vsplit. destruct v; [|discriminate|discriminate].
    cbn [rbind]. intros H. eexists. exists ids. split; [exact E|]. exact H.
  Qed.
  Lemma accepted_func s k : accepted integers s k -> exists ids, rbind (sget s k) get_func = Ok ids.
  Proof.
    intros (v & ids & E & H). exists ids. unfold sget. rewrite E. cbn [rbind]. destruct v; [|discriminate|discriminate]. exact H.
  Qed.
  Lemma key_accepted s k x : compile_key compile s k = Ok x -> accepted (machine compile) s k.
  Proof.
    unfold compile_key, sget. destruct (dget s k) as [v|] eqn:E; [|discriminate]. cbn [rbind]. intros H. exists v, x. split; [exact E|]. exact H.
  Qed.
  Lemma accepted_key s k : accepted (machine compile) s k -> exists x, compile_key compile s k = Ok x.
  Proof. intros (v & x & E & H). exists x. unfold compile_key, sget. rewrite E. cbn [rbind]. exact H. Qed.

  Lemma getter_iff s : (exists g, init s = Ok g) <->
    exists form, dget s (u "form") = Some (VStr form) /\ Forall (accepted (machine compile) s) machine_keys /\ Forall (accepted integers s) (getter_keys form).
  Proof.
    split.
    - intros (g & E). apply getter_fields in E as (Ef & _ & H). exists (g_form g). split; [exact Ef|].
      decompose [and] H. unfold machine_keys, getter_keys. cbn [map app].
      split; repeat apply Forall_cons; try apply Forall_nil; try (eapply key_accepted; eassumption); eapply func_accepted; eassumption.
    - intros (form & Ef & Hm & Hg). unfold machine_keys, getter_keys in *. cbn [map app] in *.
      repeat match goal with H : Forall _ (_ :: _) |- _ => inversion H; clear H; subst end.
      repeat match goal with H : accepted (machine _) _ _ |- _ => apply accepted_key in H; destruct H as (? & H) end.
      repeat match goal with H : accepted integers _ _ |- _ => apply accepted_func in H; destruct H as (? & H) end.
      unfold getter_init. replace (sget s (u "form")) with (@Ok value (VStr form)) by (unfold sget; now rewrite Ef). cbn [rbind].
      repeat match goal with H : ?x = Ok _ |- context [rbind ?x] => rewrite H; cbn [rbind] end.
      match goal with H : rbind (sget s (_ :: ?r)) get_func = Ok ?z |- _ => change (rbind (sget s (u "get-" ++ form)) get_func = Ok z) in H; rewrite H end.
      cbn [rbind]. eexists. reflexivity.
  Qed.
  Lemma getter_numbers s g : init s = Ok g -> forall ids,
    (listed s (u "get-word") ids -> g_word g = ids) /\ (listed s (u "get-pos") ids -> g_pos g = ids) /\
    (listed s (u "get-lemma") ids -> g_lemma g = ids) /\ (listed s (u "get-colloc") ids -> g_colloc g = ids) /\
    (listed s (u "get-" ++ g_form g) ids -> g_node g = ids).
  Proof.
    intros E ids. apply getter_fields in E. decompose [and] E.
    repeat split; intros Hl; apply listed_func in Hl; congruence.
  Qed.
  Lemma join_groups_some ps : join_groups (map Some ps) = Ok (join slash ps).
  Proof.
    unfold join_groups. replace (rmapm _ (map Some ps)) with (@Ok (list pystr) ps); [reflexivity|].
    induction ps as [|p ps IH]; [reflexivity|]. cbn [map rmapm rbind]. now rewrite <- IH.
  Qed.
  Lemma groups_map m ids ps : groups_are group m ids ps -> rmapm (group m) ids = Ok (map Some ps).
  Proof. induction 1 as [|i p ids ps H _ IH]; [reflexivity|]. cbn [rmapm map]. rewrite H. cbn [rbind]. now rewrite IH. Qed.
  Lemma form_groups m ids ps : groups_are group m ids ps -> form_getter group ids m = Ok (join slash ps).
  Proof. intros H. unfold form_getter. rewrite (groups_map _ _ _ H). cbn [rbind]. apply join_groups_some. Qed.
  (** A group that took no part in the match. *)
  Lemma form_none m ids : (forall i, In i ids -> exists o, group m i = Ok o) -> (exists i, In i ids /\ group m i = Ok None) ->
    form_getter group ids m = Err TypeError.
  Proof.
    intros A (i & Ii & Ei). unfold form_getter. assert (E : exists os, rmapm (group m) ids = Ok os /\ In None os).
    { revert Ii. induction ids as [|j ids IH]; [intros []|]. destruct (A j) as (o & Eo); [now left|]. intros Ii. cbn [rmapm]. rewrite Eo. cbn [rbind].
      assert (R : exists os, rmapm (group m) ids = Ok os).
      { clear - A. induction ids as [|k ids IH]; [now exists []|]. destruct (A k) as (o & Eo); [now right; left|]. cbn [rmapm]. rewrite Eo. cbn [rbind].
        destruct IH as (os & ->); [intros x Ix; apply A; destruct Ix; [now left|now right; right]|]. now exists (o :: os). }
      destruct R as (os & R). rewrite R. exists (o :: os). split; [reflexivity|]. destruct Ii as [->|Ii].
      - left. congruence.
      - right. destruct IH as (os' & E' & N'); [intros; apply A; now right|exact Ii|]. congruence. }
    destruct E as (os & -> & N). cbn [rbind]. unfold join_groups. replace (rmapm _ os) with (@Err (list pystr) TypeError); [reflexivity|].
    clear - N. induction os as [|o os IH]; [destruct N|]. cbn [rmapm]. destruct o as [p|]; [|reflexivity]. cbn [rbind].
    destruct N as [N|N]; [discriminate|]. now rewrite <- (IH N).
  Qed.
  Lemma item_type (g : getter) m lp pp : groups_are group m (g_lemma g) lp -> groups_are group m (g_pos g) pp ->
    g_get_item group (RX:=RX) g m (u "type") = Ok (join slash lp ++ slash :: join slash pp).
  Proof. intros Hl Hp. unfold g_get_item. cbn [eqdec]. unfold g_get_type. now rewrite (form_groups _ _ _ Hl), (form_groups _ _ _ Hp). Qed.
  Lemma item_word (g : getter) m ps : groups_are group m (g_word g) ps -> g_get_item group (RX:=RX) g m (u "word") = Ok (join slash ps).
  Proof. intros H. exact (form_groups _ _ _ H). Qed.
  Lemma item_lemma (g : getter) m ps : groups_are group m (g_lemma g) ps -> g_get_item group (RX:=RX) g m (u "lemma") = Ok (join slash ps).
  Proof. intros H. exact (form_groups _ _ _ H). Qed.
  Lemma item_other (g : getter) m form : ~ In form (map u ["type"; "word"; "lemma"]%string) -> g_get_item group (RX:=RX) g m form = Err ValueError.
  Proof.
    intros H. unfold g_get_item. destruct (eqdec form _) as [->|]; [contradiction H; now left|].
    destruct (eqdec form _) as [->|]; [contradiction H; right; now left|]. destruct (eqdec form _) as [->|]; [contradiction H; right; right; now left|]. reflexivity.
  Qed.
  Lemma token_word (g : getter) m wp pp fid lid : groups_are group m (g_word g) wp -> groups_are group m (g_pos g) pp ->
    g_get_token group (RX:=RX) g m fid lid = Ok (join slash wp ++ slash :: join slash pp ++ slash :: fid ++ slash :: lid).
  Proof. intros Hw Hp. unfold g_get_token. now rewrite (form_groups _ _ _ Hw), (form_groups _ _ _ Hp). Qed.
  (** The properties follow init_machine. *)
  Lemma prop_line (g : getter) line m ps : rx_match (g_wordline g) line = Some m ->
    (groups_are group m (g_word g) ps -> p_word group (init_machine rx_match g line) = Ok (join slash ps)) /\
    (groups_are group m (g_pos g) ps -> p_pos group (init_machine rx_match g line) = Ok (join slash ps)) /\
    (groups_are group m (g_lemma g) ps -> p_lemma group (init_machine rx_match g line) = Ok (join slash ps)).
  Proof.
    intros E. unfold p_word, p_pos, p_lemma, of_match, init_machine. cbn [g_match g_word g_pos g_lemma]. rewrite E. repeat split; apply form_groups.
  Qed.
  Lemma prop_none (g : getter) line : rx_match (g_wordline g) line = None -> g_word g <> [] -> p_word group (init_machine rx_match g line) = Err AttributeError.
  Proof. intros E N. unfold p_word, of_match, init_machine. cbn [g_match g_word]. rewrite E. destruct (g_word g); congruence. Qed.
End Getter.

(** ** Sentences *)
Lemma parse_fold ls acc : fold_left (fun acc line => if is_tag line then acc else acc ++ [line]) ls acc = acc ++ filter (fun x => negb (is_tag x)) ls.
Proof.
  revert acc. induction ls as [|x ls IH]; intros acc; cbn [fold_left filter]; [now rewrite app_nil_r|].
  destruct (is_tag x); cbn [negb]; rewrite IH; [reflexivity|]. now rewrite <- app_assoc.
Qed.
Lemma tag_iff x : is_tag x = true <-> exists s, x = 60%N :: s.
Proof. destruct x as [|c x]; cbn; [split; [discriminate|intros (? & [=])]|]. rewrite N.eqb_eq. split; [intros ->; eauto|intros (? & [=]); auto]. Qed.
Lemma sent_lines lines : lines <> [] -> Forall (fun x => ~ In 10%N x) lines ->
  get_content (sent_init (join 10 lines)) = filter (fun x => negb (is_tag x)) lines.
Proof. intros N F. unfold get_content, sent_init, sent_parse. cbn [s_content s_text]. rewrite split_join by auto. apply parse_fold. Qed.
Lemma sent_again (s : sentence) t : get_content (sent_parse s (Some t)) = get_content s ++ get_content (sent_init t).
Proof. unfold get_content, sent_init, sent_parse. cbn [s_content s_text]. now rewrite !parse_fold. Qed.

(** ** Paths *)
Lemma add_paths_list {T} (p : fpath T) ms st : add_paths st p ms (p_matches p) = st (p_matches p) ++ ms.
Proof.
  revert st. induction ms as [|m ms IH]; intros st; [now rewrite app_nil_r|]. change (add_paths st p (m :: ms)) with (add_paths (add_path st p m) p ms).
  rewrite IH. unfold add_path. rewrite Nat.eqb_refl. now rewrite <- app_assoc.
Qed.
Lemma add_paths_other {T} (p : fpath T) ms st j : j <> p_matches p -> add_paths st p ms j = st j.
Proof.
  intros N. revert st. induction ms as [|m ms IH]; intros st; [reflexivity|]. change (add_paths st p (m :: ms)) with (add_paths (add_path st p m) p ms).
  rewrite IH. unfold add_path. apply Nat.eqb_neq in N. now rewrite N.
Qed.
Lemma path_starts {T} st fresh (t : T) o : let '(st', p) := path_init st fresh t o in
  st' (p_matches p) = (match o with Some i => st i | None => [] end) /\ p_template p = t /\ forall j, j <> fresh -> st' j = st j.
Proof.
  unfold path_init. destruct o as [i|]; [destruct (st i) eqn:E|]; cbn [p_matches p_template]; rewrite ?Nat.eqb_refl; repeat split; auto;
    intros j N; apply Nat.eqb_neq in N; now rewrite N.
Qed.
Lemma path_owner {T} st fresh (t : T) i ms : i <> fresh -> let '(st', p) := path_init st fresh t (Some i) in
  add_paths st' p ms i = match st i with [] => [] | _ => st i ++ ms end.
Proof.
  intros N. unfold path_init. destruct (st i) eqn:E; cbn [fst snd].
  - rewrite add_paths_other by exact N. apply Nat.eqb_neq in N. now rewrite N.
  - rewrite (add_paths_list {| p_template := t; p_matches := i |}). cbn [p_matches]. now rewrite E.
Qed.
