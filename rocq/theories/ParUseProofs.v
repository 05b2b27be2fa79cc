(** * The pool running item counting and token retrieval. *)
From Coq Require Import String NArith ZArith Bool Arith Lia Permutation List.
From Verif Require Import Base BaseLemmas VocabModel VocabProofs CorpusModel CorpusSpec CorpusTokProofs CorpusMoreProofs ParModel ParProofs.
Import ListNotations.

Section Complete.
  Context {J S R : Type} (s0 : S) (job : S -> J -> res (S * option R)) (finish : S -> res (option R)).
  Lemma complete n files sched st : 1 <= n -> run job finish (start s0 n files) sched = Some st -> joined st = true ->
    (forall s j e, In j files -> job s j <> Err e) -> (forall s e, finish s <> Err e) ->
    exists ps, Forall2 (fun h p => exists s o f, wexec job s0 h = Ok (s, o) /\ finish s = Ok f /\ p = o ++ olist f)
                 (shares s0 job finish n files sched) ps /\
      Permutation (concat (shares s0 job finish n files sched)) files /\ Permutation (results st) (concat ps).
  Proof.
    intros N E Jn H1 H2. pose proof (no_death s0 job finish n files sched st E H1 H2) as ND.
    pose proof (run_workers job finish _ _ _ E) as LW. cbn [start workers] in LW. rewrite repeat_length in LW.
    destruct (finished s0 job finish n files sched st E Jn) as (ps & F & L & P1 & P2).
    { destruct (workers st) as [|w ws] eqn:W; [cbn in LW; lia|]. exists w. split; [cbn; auto|apply ND; cbn; auto]. }
    exists ps. repeat split; auto. unfold joined in Jn. destruct (todo st); [|discriminate].
    assert (LS : length (shares s0 job finish n files sched) = length ps).
    { unfold shares. rewrite map_length, seq_length. auto. }
    clear P1 P2 LW. revert F ND Jn LS. generalize (shares s0 job finish n files sched) as hs. generalize (workers st) as ws. clear.
    intros ws hs. revert ws ps. induction hs as [|h hs IH]; intros ws [|p ps] F ND G LS; cbn in LS; try lia; [constructor|].
    cbn [combine] in F. inversion F as [|w ? ws' ? O F']; subst. cbn [fst snd] in O. cbn in G. apply andb_true_iff in G.
    destruct G as [G1 G2]. assert (A : alive_ok w = true) by (apply ND; cbn; auto).
    constructor; [|eapply IH; eauto; [intros; apply ND; cbn; auto]]. inversion O; subst; try discriminate. eauto 6.
  Qed.
End Complete.

(** ** Item counting *)
Section ItemPool.
  Context {L M : Type} (match_line : L -> option M) (get_type : M -> pystr).
  Notation job := (if_job match_line get_type).
  Notation tally := (if_do_process_job match_line get_type).

  Lemma if_wexec : forall (h : list (res (list L))) s o, wexec job tt h = Ok (s, o) ->
    exists cs, h = map Ok cs /\ o = map tally cs.
  Proof.
    induction h as [|f h IH]; intros s o E; cbn in E; [injection E as <- <-; exists []; auto|].
    destruct f as [c|e]; cbn in E; [|discriminate]. destruct (wexec job tt h) as [[s' o']|] eqn:E'; cbn in E; [|discriminate].
    injection E as <- <-. destruct (IH _ _ eq_refl) as (cs & -> & ->). exists (c :: cs). auto.
  Qed.
  Lemma tally_wf cs : Forall dwf (map tally cs).
  Proof.
    rewrite Forall_forall. intros d I. apply in_map_iff in I. destruct I as (f & <- & _). unfold if_do_process_job.
    apply if_file_wf. constructor.
  Qed.
  Lemma results_perm rs rs' : Forall dwf rs -> Permutation rs rs' -> forall k,
    dget (if_process_results rs) k = dget (if_process_results rs') k.
  Proof.
    intros W P k. unfold if_process_results. rewrite !if_results; auto; [|eapply Permutation_Forall; eauto].
    set (F := fun r : dict pystr Z => _).
    assert (PF : Permutation (flat_map F rs) (flat_map F rs')) by (apply Permutation_flat_map; auto).
    assert (SZ : sumZ (flat_map F rs) = sumZ (flat_map F rs')).
    { clear - PF. induction PF; cbn; lia. }
    destruct (flat_map F rs) eqn:E1, (flat_map F rs') eqn:E2; auto.
    - apply Permutation_nil in PF. discriminate.
    - symmetry in PF. apply Permutation_nil in PF. discriminate.
    - rewrite SZ. auto.
  Qed.

  Definition expected (contents : list (list L)) (k : pystr) : option Z :=
    let n := count k (map get_type (matches_of match_line (concat contents))) in
    if n =? 0 then None else Some (Z.of_nat n).

  Lemma map_Ok_inj (a b : list (list L)) : map (@Ok _) a = map (@Ok _) b -> a = b.
  Proof. revert b. induction a; intros [|y b] E; cbn in E; try discriminate; auto. injection E as <- E. f_equal; auto. Qed.

  (** In every reachable state each result is the tally of one of the readable files taken. *)
  Lemma if_reach n files sched st : run job if_finish (start tt n files) sched = Some st ->
    exists cs rest, Permutation (map Ok cs ++ rest) files /\
      length (results st) <= length cs /\
      (joined st = true -> Permutation (results st) (map tally cs)).
  Proof.
    intros E. destruct (reach tt job if_finish n files _ _ E) as (hp & js & k & HS & F & Q & P1 & P2 & N & B).
    assert (G : exists cs rest, Permutation (map Ok cs ++ rest) (concat (map fst hp)) /\ length (concat (map snd hp)) <= length cs /\
                 (forallb gone (workers st) = true -> Permutation (concat (map snd hp)) (map tally cs))).
    { clear - F. induction F as [|w [h p] ws hp O F IH]; [exists [], []; cbn; auto|].
      destruct IH as (cs & rest & A & B & C). cbn [fst snd] in O. cbn [map concat fst snd forallb].
      assert (X : exists c1 r1, h = map Ok c1 ++ r1 /\ length p <= length c1 /\ (gone w = true -> p = map tally c1)).
      { inversion O; subst.
        - destruct (if_wexec _ _ _ H) as (c1 & -> & E). exists c1, []. rewrite app_nil_r. split; auto. split; [|discriminate].
          rewrite <- (map_length tally), <- E, app_length. lia.
        - destruct (if_wexec _ _ _ H) as (c1 & -> & E). exists c1, []. rewrite app_nil_r. split; auto. split; [|discriminate].
          injection H0 as <-. cbn in H1. rewrite app_nil_r in H1. rewrite <- (map_length tally), <- E, H1, app_length. lia.
        - destruct (if_wexec _ _ _ H) as (c1 & -> & E). exists c1, []. rewrite app_nil_r. injection H0 as <-. cbn.
          rewrite app_nil_r. split; auto. split; auto. rewrite E, map_length. auto.
        - destruct (if_wexec _ _ _ H) as (c1 & -> & E). exists c1, [j]. split; auto. split; auto. rewrite E, map_length. auto.
        - discriminate. }
      destruct X as (c1 & r1 & -> & X1 & X2). exists (c1 ++ cs), (r1 ++ rest). split; [|split].
      - rewrite map_app, <- !app_assoc. apply Permutation_app_head. rewrite app_assoc, (Permutation_app_comm (map Ok cs)).
        rewrite <- app_assoc. apply Permutation_app_head. auto.
      - rewrite !app_length. lia.
      - intros GG. apply andb_true_iff in GG. destruct GG as [G1 G2]. rewrite map_app, X2 by auto.
        apply Permutation_app_head; auto. }
    destruct G as (cs & rest & G1 & G2 & G3). exists cs, (rest ++ js). split; [|split].
    - rewrite app_assoc. rewrite G1. auto.
    - rewrite (Permutation_length P2). auto.
    - intros Jn. unfold joined in Jn. destruct (todo st); [|discriminate]. rewrite P2. auto.
  Qed.

  (** A run that returns at all returns the counts of all files; in particular no file failed. *)
  Lemma if_correct n files sched st v : run job if_finish (start tt n files) sched = Some st -> joined st = true ->
    if_result (length files) st = Some v ->
    exists contents, files = map Ok contents /\ forall k, dget v k = expected contents k.
  Proof.
    intros E Jn Rv. destruct (if_reach n files sched st E) as (cs & rest & P & LE & H). specialize (H Jn).
    unfold if_result, read_n in Rv. destruct (Nat.leb_spec (length files) (length (results st))) as [LL|]; [|discriminate].
    assert (LF : length files = length cs + length rest) by (rewrite <- (Permutation_length P), app_length, map_length; auto).
    destruct rest; [|cbn in LF; lia]. rewrite app_nil_r in P.
    assert (X : exists contents, files = map Ok contents /\ Permutation cs contents).
    { symmetry in P. apply Permutation_map_inv in P. destruct P as (cs' & EF & PC). exists cs'. split; auto. }
    destruct X as (contents & -> & PC). exists contents. split; auto. intros k. cbn in Rv. injection Rv as <-.
    rewrite map_length, firstn_all2 by (rewrite (Permutation_length H), map_length, (Permutation_length PC); auto).
    rewrite (results_perm (results st) (map tally contents)).
    - apply (item_freq match_line get_type).
    - eapply Permutation_Forall; [symmetry; exact H|apply tally_wf].
    - rewrite H. apply Permutation_map. auto.
  Qed.
  (** With at least one worker and readable files, a finished pool never leaves the reader blocked. *)
  Lemma if_returns n contents sched st : 1 <= n -> run job if_finish (start tt n (map Ok contents)) sched = Some st ->
    joined st = true -> exists v, if_result (length contents) st = Some v.
  Proof.
    intros N E Jn. destruct (complete tt job if_finish n (map Ok contents) sched st N E Jn) as (ps & F & P1 & P2).
    - intros s j e I. apply in_map_iff in I. destruct I as (c & <- & _). cbn. discriminate.
    - discriminate.
    - unfold if_result, read_n. assert (LP : length contents <= length (results st)).
      { rewrite (Permutation_length P2). rewrite <- (map_length (@Ok _) contents), <- (Permutation_length P1). clear - F.
        induction F; cbn; auto. rewrite !app_length. destruct H as (s & o & f & A & B & ->).
        destruct (if_wexec _ _ _ A) as (cs & -> & ->). rewrite app_length, !map_length. lia. }
      apply Nat.leb_le in LP. rewrite LP. cbn. eauto.
  Qed.
  Lemma if_blocks n files sched st : run job if_finish (start tt n files) sched = Some st -> joined st = true ->
    (exists e, In (Err e) files) -> if_result (length files) st = None.
  Proof.
    intros E Jn (e & I). destruct (if_result (length files) st) as [v|] eqn:Rv; auto. exfalso.
    destruct (if_correct n files sched st v E Jn Rv) as (cs & -> & _). apply in_map_iff in I. destruct I as (c & ? & _). discriminate.
  Qed.
End ItemPool.

(** ** Token retrieval *)
Section TokPool.
  Context {L M : Type} (match_line : L -> option M) (separator : L -> bool) (get_type get_colloc : M -> pystr)
    (cv : vocab) (l r : nat).
  Notation job := (tk_job match_line separator get_type get_colloc cv l r).
  Notation ftoks t := (fun f : list L => flat_map (seg_tokens get_type (tok_keep get_colloc cv) l r t) (segments match_line separator f)).

  Lemma tk_wexec (R : 0 < r) : forall cs first (d : @tokdict M), exists d',
    wexec job (first, d) (map Ok cs) = Ok ((match cs with [] => first | _ => false end, d'),
                                          repeat None (if first then length cs - 1 else length cs)) /\
    dkeys d' = dkeys d /\
    forall t, dget d' t = option_map (fun old => old ++ flat_map (ftoks t) cs) (dget d t).
  Proof.
    induction cs as [|c cs IH]; intros first d.
    - exists d. cbn. destruct first; cbn; repeat split; auto; intros t; destruct (dget d t); cbn; rewrite ?app_nil_r; auto.
    - cbn [map wexec]. unfold tk_job at 1. cbn [rbind snd fst].
      destruct (tok_file match_line separator get_type get_colloc cv l r c d) as (d1 & E1 & K1 & G1); [lia|].
      rewrite E1. cbn [rmap rbind snd fst]. destruct (IH false d1) as (d' & E2 & K2 & G2). exists d'. split; [|split].
      + etransitivity; [apply f_equal; exact E2|]. cbn [rmap fst snd]. do 2 f_equal.
        * destruct cs; auto.
        * destruct first; cbn; rewrite ?Nat.sub_0_r; auto.
      + congruence.
      + intros t. rewrite G2, G1. destruct (dget d t); cbn; rewrite <- ?app_assoc; auto.
  Qed.

  Definition or_nil {A} (o : option (list A)) : list A := match o with Some x => x | None => [] end.
  Lemma tk_merge_get (d : @tokdict M) : dwf d -> forall acc t, dget (tk_merge acc (Some d)) t =
    match dget d t with Some ts => Some (or_nil (dget acc t) ++ ts) | None => dget acc t end.
  Proof.
    unfold tk_merge, dwf, dkeys. induction d as [|[k v] d IH]; intros W acc t; cbn [fold_left]; [reflexivity|].
    cbn in W. inversion W as [|? ? NI W']; subst. rewrite IH by auto. cbn [fst snd dget].
    rewrite dget_dset. destruct (eqdec t k) as [->|N]; auto.
    destruct (dget d k) eqn:E; [|auto]. exfalso. apply NI. apply dget_Some_In in E. apply in_map_iff. exists (k, l0). auto.
  Qed.
  (** Merging all items: per key the concatenation, in queue order, of what each dict holds. *)
  Lemma tk_merge_all : forall (items : list (option (@tokdict M))) acc, (forall d, In (Some d) items -> dwf d) -> forall t,
    dget (fold_left tk_merge items acc) t =
    match flat_map (fun x : option (@tokdict M) => match x with Some d => olist (dget d t) | None => [] end) items with
    | [] => dget acc t
    | tss => Some (or_nil (dget acc t) ++ concat tss)
    end.
  Proof.
    induction items as [|x items IH]; intros acc W t; cbn [fold_left flat_map]; [reflexivity|].
    rewrite IH by (intros; apply W; cbn; auto). destruct x as [d|]; [|reflexivity].
    rewrite tk_merge_get by (apply W; cbn; auto). destruct (dget d t) as [ts|]; cbn [olist app]; [|reflexivity].
    destruct (flat_map _ items); cbn [or_nil concat]; rewrite ?app_nil_r, ?app_assoc; auto.
  Qed.

  Lemma concat_perm {A} (a b : list (list A)) : Permutation a b -> Permutation (concat a) (concat b).
  Proof.
    induction 1; cbn; auto.
    - apply Permutation_app_head. auto.
    - rewrite !app_assoc. apply Permutation_app_tail. apply Permutation_app_comm.
    - etransitivity; eauto.
  Qed.

  (** Workers that took no file. *)
  Definition idle {A} (hs : list (list A)) : nat := length (filter (fun h => match h with [] => true | _ => false end) hs).

  Lemma Forall_concat_Ok (hs : list (list (res (list L)))) cs : Permutation (concat hs) (map Ok cs) ->
    exists css, hs = map (map Ok) css.
  Proof.
    intros P. assert (H : forall x, In x (concat hs) -> exists c, x = Ok c).
    { intros x I. eapply Permutation_in in I; eauto. apply in_map_iff in I. destruct I as (c & <- & _). eauto. }
    clear P. induction hs as [|h hs IH]; [exists []; auto|]. destruct IH as [css ->]; [intros; apply H; cbn; apply in_or_app; auto|].
    assert (X : exists c, h = map Ok c).
    { cbn in H. assert (H' : forall x, In x h -> exists c, x = Ok c) by (intros; apply H; apply in_or_app; auto). clear H.
      induction h as [|x h IH]; [exists []; auto|]. destruct IH as [c ->]; [intros; apply H'; cbn; auto|].
      destruct (H' x) as [c0 ->]; [cbn; auto|]. exists (c0 :: c). auto. }
    destruct X as [c ->]. exists (c :: css). auto.
  Qed.

  Lemma tk_pool (R : 0 < r) (d0 : @tokdict M) n contents sched st : dwf d0 -> 1 <= n ->
    run job tk_finish (tk_start d0 n (map Ok contents)) sched = Some st -> joined st = true ->
    let hs := shares (true, d0) job tk_finish n (map Ok contents) sched in
    exists css (ds : list (@tokdict M)), hs = map (map Ok) css /\ length css = n /\ Permutation (concat css) contents /\
      Forall2 (fun cs d => dwf d /\ forall t, dget d t = option_map (fun old => old ++ flat_map (ftoks t) cs) (dget d0 t)) css ds /\
      Permutation (results st) (concat (map (fun x => repeat (@None (@tokdict M)) (length (fst x) - 1) ++ [Some (snd x)]) (combine css ds))).
  Proof.
    intros W N E Jn hs. unfold tk_start in E.
    destruct (complete (true, d0) job tk_finish n (map Ok contents) sched st N E Jn) as (ps & F & P1 & P2).
    - intros [b d] j e I. apply in_map_iff in I. destruct I as (c & <- & _). unfold tk_job. cbn [rbind snd].
      destruct (tok_file match_line separator get_type get_colloc cv l r c d) as (d1 & E1 & _); [lia|]. rewrite E1. discriminate.
    - discriminate.
    - fold hs in F, P1. destruct (Forall_concat_Ok hs contents P1) as [css Ehs]. 
      assert (Ln : length css = n).
      { rewrite <- (map_length (map (@Ok _)) css), <- Ehs. unfold hs, shares. rewrite map_length, seq_length. auto. }
      rewrite Ehs in *. clear Ehs.
      assert (PC : Permutation (concat css) contents).
      { rewrite <- concat_map in P1. symmetry in P1. apply Permutation_map_inv in P1. destruct P1 as (c' & E1 & PC).
        apply map_Ok_inj in E1. subst. auto. }
      assert (X : exists ds, Forall2 (fun cs d => dwf d /\ forall t, dget d t = option_map (fun old => old ++ flat_map (ftoks t) cs) (dget d0 t)) css ds /\
        ps = map (fun x => repeat (@None (@tokdict M)) (length (fst x) - 1) ++ [Some (snd x)]) (combine css ds)).
      { clear - F R W. revert ps F. induction css as [|cs css IH]; intros ps F; cbn [map] in F; inversion F as [|? p ? ps' H F']; subst.
        - exists []. split; [constructor|auto].
        - destruct (IH _ F') as (ds & A & ->). destruct H as (s & o & f & E1 & E2 & ->).
          destruct (tk_wexec R cs true d0) as (d & E3 & K & G). rewrite E3 in E1. injection E1 as <- <-.
          cbn [tk_finish snd] in E2. injection E2 as <-. exists (d :: ds). split; [|auto].
          constructor; auto. split; auto. unfold dwf. rewrite K. auto. }
      destruct X as (ds & X1 & ->). exists css, ds. repeat split; auto.
  Qed.
  Lemma items_length (css : list (list (list L))) (ds : list (@tokdict M)) : length ds = length css ->
    length (concat (map (fun x => repeat (@None (@tokdict M)) (length (fst x) - 1) ++ [Some (snd x)]) (combine css ds))) =
    length (concat css) + idle css.
  Proof.
    revert ds. induction css as [|cs css IH]; intros [|d ds] E; cbn in E; try lia; [reflexivity|].
    cbn [combine map concat fst snd]. rewrite !app_length, repeat_length, IH by lia. unfold idle. cbn [filter length].
    destruct cs; cbn; lia.
  Qed.
  Lemma idle_map css : idle (map (map (@Ok (list L))) css) = idle css.
  Proof. unfold idle. induction css as [|[|c cs] css IH]; cbn; auto. Qed.

  (** Number of items in the result queue of a finished run. *)
  Lemma tk_items (R : 0 < r) (d0 : @tokdict M) n contents sched st : dwf d0 -> 1 <= n ->
    run job tk_finish (tk_start d0 n (map Ok contents)) sched = Some st -> joined st = true ->
    length (results st) = length contents + idle (shares (true, d0) job tk_finish n (map Ok contents) sched).
  Proof.
    intros W N E Jn. destruct (tk_pool R d0 n contents sched st W N E Jn) as (css & ds & Eh & Ln & PC & F & P).
    rewrite Eh, idle_map, (Permutation_length P), items_length, (Permutation_length PC); auto. symmetry. eapply Forall2_len; eauto.
  Qed.
  (** If every worker got a file, everything is returned: the tokens of all files, and once per worker whatever the
      handler held before. *)
  Lemma tk_all (R : 0 < r) (d0 : @tokdict M) n contents sched st : dwf d0 -> 1 <= n ->
    run job tk_finish (tk_start d0 n (map Ok contents)) sched = Some st -> joined st = true ->
    idle (shares (true, d0) job tk_finish n (map Ok contents) sched) = 0 ->
    exists d, tk_result (length contents) st = Some d /\
      forall t, match dget d0 t with
                | Some old => exists toks, dget d t = Some toks /\ Permutation toks (concat (repeat old n) ++ flat_map (ftoks t) contents)
                | None => dget d t = None
                end.
  Proof.
    intros W N E Jn Z. pose proof (tk_items R d0 n contents sched st W N E Jn) as LR.
    rewrite Z, Nat.add_0_r in LR. unfold tk_result, read_n. rewrite LR, Nat.leb_refl. cbn [option_map].
    rewrite <- LR, firstn_all. eexists. split; [reflexivity|]. intros t.
    destruct (tk_pool R d0 n contents sched st W N E Jn) as (css & ds & Eh & Ln & PC & F & P).
    set (pick := fun x : option (@tokdict M) => match x with Some d => olist (dget d t) | None => [] end).
    assert (WI : forall d, In (Some d) (results st) -> dwf d).
    { intros d I. eapply Permutation_in in I; [|exact P]. apply in_concat in I. destruct I as (x & I1 & I2).
      apply in_map_iff in I1. destruct I1 as ([cs d'] & <- & I1). cbn [fst snd] in I2. apply in_app_or in I2. destruct I2 as [I2|[I2|[]]].
      - apply repeat_spec in I2. discriminate.
      - injection I2 as ->. clear - F I1. revert I1. induction F; cbn; intros I; [destruct I|]. destruct I as [I|I]; [|auto].
        inversion I; subst. tauto. }
    rewrite tk_merge_all by auto. cbn [dget]. fold pick.
    assert (PP : Permutation (flat_map pick (results st)) (flat_map (fun cs => olist (option_map (fun old => old ++ flat_map (ftoks t) cs) (dget d0 t))) css)).
    { rewrite (Permutation_flat_map pick P). clear - F. induction F as [|cs d css ds [_ H] F IH]; [auto|].
      cbn [combine map concat fst snd flat_map]. rewrite flat_map_app, flat_map_app. rewrite IH.
      assert (Z : flat_map pick (repeat (@None (@tokdict M)) (length cs - 1)) = []) by (induction (length cs - 1); cbn; auto). rewrite Z.
      cbn [app flat_map pick]. rewrite H, app_nil_r. auto. }
    destruct (dget d0 t) as [old|] eqn:Ed; cbn [option_map olist] in PP.
    - destruct (flat_map pick (results st)) as [|ts tss] eqn:Ep.
      + exfalso. destruct css as [|cs css]; [cbn in Ln; lia|]. cbn in PP. apply Permutation_nil in PP. discriminate.
      + exists (concat (ts :: tss)). split; [reflexivity|]. rewrite (concat_perm _ _ PP).
        rewrite <- (Permutation_flat_map (ftoks t) PC), <- Ln. clear. induction css as [|cs css IH]; [auto|].
        cbn [flat_map concat length repeat app]. rewrite IH. rewrite flat_map_app, <- !app_assoc. apply Permutation_app_head.
        rewrite !app_assoc. apply Permutation_app_tail. apply Permutation_app_comm.
    - assert (Z0 : flat_map pick (results st) = []).
      { assert (Z1 : flat_map (fun _ : list (list L) => @nil (list (@token M))) css = []) by (clear; induction css; auto).
        rewrite Z1 in PP. apply Permutation_nil. symmetry. auto. }
      rewrite Z0. auto.
  Qed.
End TokPool.
