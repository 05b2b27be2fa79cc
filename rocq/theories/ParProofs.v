(** * Proofs about the process pool: safety invariant, termination and progress for every schedule. *)
From Coq Require Import String NArith ZArith Bool Arith Lia Permutation List.
From Verif Require Import Base BaseLemmas VocabModel CorpusModel ParModel.
Import ListNotations.

Lemma Forall2_len {A B} (R : A -> B -> Prop) l l' : Forall2 R l l' -> length l = length l'.
Proof. induction 1; cbn; auto. Qed.

Lemma setnth_split {A} : forall (l : list A) i x, nth_error l i = Some x ->
  exists l1 l2, l = l1 ++ x :: l2 /\ length l1 = i /\ forall y, setnth l i y = l1 ++ y :: l2.
Proof.
  induction l as [|a l IH]; intros [|i] x E; cbn in E; try discriminate.
  - injection E as <-. exists [], l. auto.
  - destruct (IH i x E) as (l1 & l2 & -> & L & H). exists (a :: l1), l2. cbn. rewrite L. repeat split; auto.
    intros y. rewrite H. auto.
Qed.

Lemma setnth_app {A} (a b : list A) x y : setnth (a ++ x :: b) (length a) y = a ++ y :: b.
Proof. induction a; cbn; congruence. Qed.
Lemma nth_app_mid {A} (a b : list A) x d : nth (length a) (a ++ x :: b) d = x.
Proof. induction a; cbn; auto. Qed.

Section Pool.
  Context {J S R : Type} (s0 : S) (job : S -> J -> res (S * option R)) (finish : S -> res (option R)).
  Notation wstate := (wstate S R). Notation pstate := (pstate J S R).

  (** What a worker does with a given list of jobs: final state and everything it puts. *)
  Fixpoint wexec (s : S) (js : list J) : res (S * list R) :=
    match js with
    | [] => Ok (s, [])
    | j :: js' => rbind (job s j) (fun so => rmap (fun x => (fst x, olist (snd so) ++ snd x)) (wexec (fst so) js'))
    end.
  Lemma wexec_snoc : forall js s s1 o1 j s2 o2, wexec s js = Ok (s1, o1) -> job s1 j = Ok (s2, o2) ->
    wexec s (js ++ [j]) = Ok (s2, o1 ++ olist o2).
  Proof.
    induction js as [|j0 js IH]; intros s s1 o1 j s2 o2 E1 E2; cbn in *.
    - injection E1 as <- <-. rewrite E2. cbn. rewrite app_nil_r. auto.
    - destruct (job s j0) as [[s' o']|]; cbn in *; [|discriminate].
      destruct (wexec s' js) as [[s'' o'']|] eqn:E; cbn in *; [|discriminate]. injection E1 as <- <-.
      rewrite (IH s' s'' o'' j s2 o2 E E2). cbn. rewrite app_assoc. auto.
  Qed.

  (** Worker state after taking the jobs [h] and putting the items [p]. *)
  Inductive wok : wstate -> list J -> list R -> Prop :=
  | ok_loop s out h o p : wexec s0 h = Ok (s, o) -> o = p ++ olist out -> wok (WLoop s out) h p
  | ok_end s f out h o p : wexec s0 h = Ok (s, o) -> finish s = Ok f -> o ++ olist f = p ++ olist out -> wok (WEnd out) h p
  | ok_exit s f h o p : wexec s0 h = Ok (s, o) -> finish s = Ok f -> o ++ olist f = p -> wok WExit h p
  | ok_dead_job s h j e p : wexec s0 h = Ok (s, p) -> job s j = Err e -> wok WDead (h ++ [j]) p
  | ok_dead_fin s h e p : wexec s0 h = Ok (s, p) -> finish s = Err e -> wok WDead h p.

  Definition looping (w : wstate) : bool := match w with WLoop _ _ => true | _ => false end.
  Definition nloop (ws : list wstate) : nat := length (filter looping ws).
  (** A worker that has not taken a None job. *)
  Definition before_end (w : wstate) : Prop := match w with WEnd _ | WExit => False | _ => True end.

  (** [hs]: the jobs that each worker has taken so far. *)
  Definition inv (files : list J) (hs : list (list J)) (st : pstate) : Prop :=
    exists (hp : list (list J * list R)) (js : list J) (k : nat),
      map fst hp = hs /\
      Forall2 (fun w x => wok w (fst x) (snd x)) (workers st) hp /\
      jobs st ++ todo st = map Some js ++ repeat None k /\
      Permutation (concat (map fst hp) ++ js) files /\
      Permutation (results st) (concat (map snd hp)) /\
      nloop (workers st) <= k /\
      (js = [] \/ Forall before_end (workers st)).

  Lemma inv_start n files : inv files (repeat [] n) (start s0 n files).
  Proof.
    exists (repeat ([], []) n), files, n. cbn [start workers jobs todo results]. repeat split.
    - induction n; cbn; congruence.
    - induction n; cbn; constructor; auto. cbn. eapply ok_loop; [reflexivity|reflexivity].
    - assert (E : concat (map fst (repeat (@nil J, @nil R) n)) = []) by (induction n; cbn; auto). rewrite E. auto.
    - assert (E : concat (map snd (repeat (@nil J, @nil R) n)) = []) by (induction n; cbn; auto). rewrite E. auto.
    - unfold nloop. induction n; cbn; lia.
    - right. induction n; cbn; constructor; cbn; auto.
  Qed.

  Lemma head_queue (x : option J) q t js k : (x :: q) ++ t = map Some js ++ repeat None k ->
    match x with
    | Some j => exists js', js = j :: js' /\ q ++ t = map Some js' ++ repeat None k
    | None => js = [] /\ exists k', k = Datatypes.S k' /\ q ++ t = repeat None k'
    end.
  Proof.
    intros E. destruct js as [|j0 js]; cbn in E.
    - destruct k as [|k]; cbn in E; [discriminate|]. injection E as -> E. eauto.
    - injection E as -> E. eauto.
  Qed.

  Lemma perm_mid {A} (a b c : list A) x d : Permutation (a ++ b ++ [x] ++ c ++ d) (a ++ b ++ c ++ x :: d).
  Proof.
    apply Permutation_app_head. apply Permutation_app_head. cbn.
    apply Permutation_cons_app. auto.
  Qed.

  Lemma nloop_app a b : nloop (a ++ b) = nloop a + nloop b.
  Proof. unfold nloop. rewrite filter_app, app_length. auto. Qed.
  Lemma nloop_cons w b : nloop (w :: b) = (if looping w then 1 else 0) + nloop b.
  Proof. unfold nloop. cbn. destruct (looping w); auto. Qed.

  Ltac fa2 := apply Forall2_app; [assumption|constructor; [cbn [fst snd]|assumption]].

  (** The job, if any, that an actor takes, and the bookkeeping of who took what. *)
  Definition took (st : pstate) (a : actor) : option (nat * J) :=
    match a with
    | Producer => None
    | Worker i => match nth_error (workers st) i, jobs st with
                  | Some (WLoop _ None), Some j :: _ => Some (i, j)
                  | _, _ => None
                  end
    end.
  Definition note (hs : list (list J)) (x : option (nat * J)) : list (list J) :=
    match x with Some (i, j) => setnth hs i (nth i hs [] ++ [j]) | None => hs end.

  Lemma inv_step files hs st a st' : inv files hs st -> pstep job finish st a = Some st' -> inv files (note hs (took st a)) st'.
  Proof.
    intros (hp & js & k & HS & F & Q & P1 & P2 & N & B) E. destruct a as [|i]; cbn in E.
    - destruct (todo st) as [|x t] eqn:T; [discriminate|]. injection E as <-.
      exists hp, js, k. cbn [workers jobs todo results]. repeat split; auto. rewrite <- app_assoc. cbn. auto.
    - destruct (nth_error (workers st) i) as [w|] eqn:Ew; [|discriminate].
      destruct (setnth_split _ _ _ Ew) as (w1 & w2 & EW & Li & SW). unfold took. rewrite Ew. rewrite EW in *. clear EW Ew.
      apply Forall2_app_inv_l in F. destruct F as (h1 & h2' & F1 & F2 & ->).
      inversion F2 as [|? [h p] ? h2 OK F2' ]; subst. cbn [fst snd] in OK. clear F2.
      assert (Lh : length (map fst h1) = length w1) by (rewrite map_length; symmetry; eapply Forall2_len; eauto).
      assert (NH : forall j, note (map fst (h1 ++ (h, p) :: h2)) (Some (length w1, j)) = map fst (h1 ++ (h ++ [j], p) :: h2)).
      { intros j. rewrite !map_app. cbn [map fst]. unfold note. rewrite <- Lh, nth_app_mid, setnth_app. auto. }
      rewrite map_app, concat_app in P1, P2. cbn [map concat fst snd] in P1, P2.
      rewrite nloop_app, nloop_cons in N.
      destruct (wstep job finish w (jobs st) (results st)) as [[[w' q'] rs']|] eqn:Es; [|discriminate].
      injection E as <-. rewrite SW.
      assert (Bput : forall w', (before_end w -> before_end w') -> js = [] \/ Forall before_end (w1 ++ w' :: w2)).
      { intros w'' H. destruct B as [B|B]; auto. right. apply Forall_app in B. destruct B as [B1 B2]. inversion B2; subst.
        apply Forall_app. split; auto. }
      unfold wstep in Es. destruct w as [s [r|]|[r|]| |]; try discriminate.
      + (* put in the loop *)
        injection Es as <- <- <-. inversion OK; subst.
        exists (h1 ++ (h, p ++ [r]) :: h2), js, k. cbn [workers jobs todo results].
        rewrite ?map_app, ?concat_app, nloop_app, nloop_cons. cbn [note]. cbn [map concat fst snd looping]. repeat split; auto.
        * fa2. eapply ok_loop; [eassumption|]. rewrite app_nil_r. auto.
        * rewrite <- app_assoc in *. cbn [app]. 
          transitivity (concat (map snd h1) ++ p ++ concat (map snd h2) ++ [r]); [|symmetry].
          -- rewrite !app_assoc. rewrite app_assoc in P2. apply Permutation_app_tail. auto.
          -- apply Permutation_app_head. apply Permutation_app_head. apply Permutation_cons_append.
      + (* get *)
        destruct (jobs st) as [|[j|] q] eqn:Eq; [discriminate| |].
        * apply head_queue in Q. destruct Q as (js' & -> & Q). inversion OK; subst.
          destruct (job s j) as [[s' out]|e] eqn:Ej; injection Es as <- <- <-.
          -- exists (h1 ++ (h ++ [j], p) :: h2), js', k. cbn [workers jobs todo results]. rewrite NH.
             rewrite ?map_app, ?concat_app, nloop_app, nloop_cons. cbn [note]. cbn [map concat fst snd looping]. repeat split; auto.
             ++ fa2. eapply ok_loop; [eapply wexec_snoc; eauto|]. cbn. rewrite app_nil_r. auto.
             ++ rewrite <- !app_assoc in *. rewrite perm_mid. auto.
             ++ destruct (Bput (WLoop s' out)); auto. discriminate.
          -- exists (h1 ++ (h ++ [j], p) :: h2), js', k. cbn [workers jobs todo results]. rewrite NH.
             rewrite ?map_app, ?concat_app, nloop_app, nloop_cons. cbn [note]. cbn [map concat fst snd looping]. repeat split; auto.
             ++ fa2. eapply ok_dead_job; eauto. match goal with H : wexec s0 h = Ok _ |- _ => cbn [olist] in H; rewrite app_nil_r in H; eauto end.
             ++ rewrite <- !app_assoc in *. rewrite perm_mid. auto.
             ++ cbn in N. lia.
             ++ destruct (Bput WDead); auto. discriminate.
        * apply head_queue in Q. destruct Q as (-> & k' & -> & Q). inversion OK; subst. cbn [looping] in N.
          destruct (finish s) as [out|e] eqn:Ej; injection Es as <- <- <-.
          -- exists (h1 ++ (h, p) :: h2), [], k'. cbn [workers jobs todo results].
             rewrite ?map_app, ?concat_app, nloop_app, nloop_cons. cbn [note]. cbn [map concat fst snd looping]. repeat split; auto; [|lia].
             fa2. eapply ok_end; eauto. cbn. rewrite app_nil_r. auto.
          -- exists (h1 ++ (h, p) :: h2), [], k'. cbn [workers jobs todo results].
             rewrite ?map_app, ?concat_app, nloop_app, nloop_cons. cbn [note]. cbn [map concat fst snd looping]. repeat split; auto; [|lia].
             fa2. eapply ok_dead_fin; eauto. match goal with H : wexec s0 h = Ok _ |- _ => cbn [olist] in H; rewrite app_nil_r in H; eauto end.
      + (* last put *)
        injection Es as <- <- <-. inversion OK; subst.
        exists (h1 ++ (h, p ++ [r]) :: h2), js, k. cbn [workers jobs todo results].
        rewrite ?map_app, ?concat_app, nloop_app, nloop_cons. cbn [note]. cbn [map concat fst snd looping]. repeat split; auto.
        * fa2. eapply ok_end; eauto. cbn [olist]. rewrite app_nil_r. auto.
        * rewrite <- app_assoc in *. cbn [app]. 
          transitivity (concat (map snd h1) ++ p ++ concat (map snd h2) ++ [r]); [|symmetry].
          -- rewrite !app_assoc. rewrite app_assoc in P2. apply Permutation_app_tail. auto.
          -- apply Permutation_app_head. apply Permutation_app_head. apply Permutation_cons_append.
      + (* exit *)
        injection Es as <- <- <-. inversion OK; subst.
        exists (h1 ++ (h, p) :: h2), js, k. cbn [workers jobs todo results].
        rewrite ?map_app, ?concat_app, nloop_app, nloop_cons. cbn [note]. cbn [map concat fst snd looping]. repeat split; auto.
        fa2. eapply ok_exit; eauto. match goal with H : _ ++ olist _ = _ |- _ => rewrite H end. cbn. rewrite app_nil_r. auto.
  Qed.

  (** Who takes what in an execution. *)
  Fixpoint take_log (st : pstate) (sched : list actor) : list (nat * J) :=
    match sched with
    | [] => []
    | a :: sched' => olist (took st a) ++ match pstep job finish st a with Some st' => take_log st' sched' | None => [] end
    end.
  Definition notes (hs : list (list J)) (log : list (nat * J)) : list (list J) := fold_left (fun hs x => note hs (Some x)) log hs.
  Lemma inv_run files : forall sched hs st st', inv files hs st -> run job finish st sched = Some st' ->
    inv files (notes hs (take_log st sched)) st'.
  Proof.
    induction sched as [|a sched IH]; intros hs st st' I E; cbn in E; [cbn; congruence|]. cbn [take_log].
    destruct (pstep job finish st a) as [st1|] eqn:E1; [|discriminate].
    pose proof (IH _ st1 st' (inv_step files hs st a st1 I E1) E) as H. destruct (took st a); exact H.
  Qed.

  (** ** Termination: every step lowers a measure, so executions are bounded. *)
  Definition wmu (w : wstate) : nat :=
    match w with WLoop _ out => 2 + length (olist out) | WEnd out => 1 + length (olist out) | _ => 0 end.
  Definition mu (st : pstate) : nat := 4 * length (todo st) + 3 * length (jobs st) + sumn (map wmu (workers st)).
  Lemma sumn_app a b : sumn (a ++ b) = sumn a + sumn b.
  Proof. induction a; cbn; auto. rewrite IHa. lia. Qed.
  Lemma mu_step st a st' : pstep job finish st a = Some st' -> mu st' < mu st.
  Proof.
    destruct a as [|i]; cbn; intros E.
    - destruct (todo st) as [|x t] eqn:T; [discriminate|]. injection E as <-. unfold mu. cbn [todo jobs workers].
      rewrite app_length. cbn. lia.
    - destruct (nth_error (workers st) i) as [w|] eqn:Ew; [|discriminate].
      destruct (setnth_split _ _ _ Ew) as (w1 & w2 & EW & _ & SW).
      destruct (wstep job finish w (jobs st) (results st)) as [[[w' q'] rs']|] eqn:Es; [|discriminate].
      injection E as <-. unfold mu. cbn [todo jobs workers]. rewrite SW, EW, !map_app, !sumn_app. cbn [map sumn].
      assert (3 * length q' + wmu w' < 3 * length (jobs st) + wmu w); [|lia]. clear - Es.
      unfold wstep in Es. destruct w as [s [r|]|[r|]| |]; try discriminate; try (injection Es as <- <- <-; cbn; lia).
      destruct (jobs st) as [|[j|] q]; [discriminate| |].
      + destruct (job s j) as [[s' [o|]]|]; injection Es as <- <- <-; cbn; lia.
      + destruct (finish s) as [[o|]|]; injection Es as <- <- <-; cbn; lia.
  Qed.
  Lemma run_bound : forall sched st st', run job finish st sched = Some st' -> length sched + mu st' <= mu st.
  Proof.
    induction sched as [|a sched IH]; intros st st' E; cbn in E; [injection E as ->; cbn; lia|].
    destruct (pstep job finish st a) as [st1|] eqn:E1; [|discriminate]. apply IH in E. apply mu_step in E1. cbn [length]. lia.
  Qed.
  Lemma mu_start n files : mu (start (R:=R) s0 n files) = 4 * length files + 6 * n.
  Proof.
    unfold mu, start. cbn [todo jobs workers]. rewrite app_length, map_length, repeat_length.
    assert (E : sumn (map wmu (repeat (WLoop s0 None) n)) = 2 * n) by (induction n; cbn in *; lia). rewrite E. cbn. lia.
  Qed.

  (** ** Progress: until all workers are gone and all jobs put, some process can move. *)
  Lemma progress files hs st : inv files hs st -> joined st = false -> exists a st', pstep job finish st a = Some st'.
  Proof.
    intros (hp & js & k & HS & F & Q & P1 & P2 & N & B) NJ. unfold joined in NJ.
    destruct (todo st) as [|x t] eqn:T; [|exists Producer; cbn; rewrite T; eauto].
    assert (exists w, In w (workers st) /\ gone w = false) as (w & Iw & G).
    { clear - NJ. induction (workers st) as [|w ws IH]; cbn in NJ; [discriminate|]. destruct (gone w) eqn:G; cbn in NJ.
      - destruct IH as (w' & A & C); auto. exists w'. cbn; auto.
      - exists w. cbn; auto. }
    assert (K : looping w = true -> 1 <= k).
    { intros L. eapply Nat.le_trans; [|apply N]. unfold nloop. assert (I : In w (filter looping (workers st))) by (apply filter_In; auto).
      destruct (filter looping (workers st)); [destruct I|cbn; lia]. }
    apply In_nth_error in Iw. destruct Iw as [i Iw]. exists (Worker i). cbn. rewrite Iw.
    rewrite app_nil_r in Q. unfold wstep. destruct w as [s [r|]|[r|]| |]; try discriminate G; eauto.
    rewrite Q. assert (1 <= k) by (apply K; auto). destruct js as [|j js]; cbn.
    - destruct k; [lia|]. cbn. destruct (finish s); eauto.
    - destruct (job s j) as [[? ?]|]; eauto.
  Qed.

  (** The jobs that worker [i] takes in an execution. *)
  Definition taken (log : list (nat * J)) (i : nat) : list J := map snd (filter (fun x => fst x =? i) log).
  Lemma notes_taken n : forall log hs, length hs = n -> Forall (fun x => fst x < n) log ->
    notes hs log = map (fun i => nth i hs [] ++ taken log i) (seq 0 n).
  Proof.
    induction log as [|[i j] log IH]; intros hs L F; cbn [notes fold_left].
    - unfold taken. cbn. subst n. clear F. assert (G : forall pre, map (fun i => nth i (pre ++ hs) [] ++ []) (seq (length pre) (length hs)) = hs).
      { induction hs as [|h hs IH]; intros pre; cbn [length seq map]; auto. rewrite nth_app_mid, app_nil_r. f_equal.
        specialize (IH (pre ++ [h])). rewrite app_length, Nat.add_1_r, <- app_assoc in IH. exact IH. }
      symmetry. apply (G []).
    - inversion F as [|? ? F1 F2]; subst. cbn [fst] in F1. fold (notes (note hs (Some (i, j))) log).
      assert (L' : forall (l : list (list J)) i x, length (setnth l i x) = length l)
        by (clear; induction l; intros [|i] x; cbn; auto).
      rewrite IH; auto; [|cbn [note]; auto]. apply map_ext_in. intros i' I. cbn [note].
      assert (G : forall (l : list (list J)) i x i', i < length l -> nth i' (setnth l i x) [] = if i =? i' then x else nth i' l []).
      { clear. induction l as [|a l IH]; intros [|i] x [|i'] H; cbn in *; try lia; auto. apply IH. lia. }
      rewrite G by auto. unfold taken. cbn [filter fst]. destruct (Nat.eqb_spec i i') as [->|N]; auto.
      cbn [map snd]. rewrite <- app_assoc. auto.
  Qed.
  Lemma took_lt st a i j : took st a = Some (i, j) -> i < length (workers st).
  Proof.
    destruct a as [|i']; cbn; [discriminate|]. destruct (nth_error (workers st) i') as [[s [?|]|?| |]|] eqn:E; try discriminate.
    destruct (jobs st) as [|[?|] ?]; try discriminate. intros H. injection H as <- _. apply nth_error_Some. congruence.
  Qed.
  Lemma step_workers st a st1 : pstep job finish st a = Some st1 -> length (workers st1) = length (workers st).
  Proof.
    intros E1. destruct a as [|i]; cbn in E1.
    - destruct (todo st); inversion E1; auto.
    - destruct (nth_error (workers st) i) as [w|] eqn:Ew; [|discriminate].
      destruct (setnth_split _ _ _ Ew) as (w1 & w2 & EW & _ & SW).
      destruct (wstep job finish w (jobs st) (results st)) as [[[? ?] ?]|]; inversion E1; subst; cbn [workers].
      rewrite SW, EW, !app_length. auto.
  Qed.
  Lemma log_lt : forall sched st, Forall (fun x => fst x < length (workers st)) (take_log st sched).
  Proof.
    induction sched as [|a sched IH]; intros st; cbn [take_log]; [constructor|]. apply Forall_app. split.
    - destruct (took st a) as [[i j]|] eqn:T; cbn; constructor; auto. apply took_lt in T. auto.
    - destruct (pstep job finish st a) as [st1|] eqn:E; [|constructor]. rewrite <- (step_workers _ _ _ E). auto.
  Qed.
  (** The files each worker took, in an execution from the start. *)
  Definition shares (n : nat) (files : list J) (sched : list actor) : list (list J) :=
    map (taken (take_log (start s0 n files) sched)) (seq 0 n).
  Lemma reach n files sched st : run job finish (start s0 n files) sched = Some st -> inv files (shares n files sched) st.
  Proof.
    intros E. pose proof (inv_run files _ _ _ _ (inv_start n files) E) as I.
    pose proof (log_lt sched (start s0 n files)) as F. cbn [start workers] in F. rewrite repeat_length in F.
    rewrite (notes_taken n) in I; [|apply repeat_length|auto].
    assert (X : map (fun i => nth i (repeat [] n) [] ++ taken (take_log (start s0 n files) sched) i) (seq 0 n) = shares n files sched).
    { apply map_ext. intros i. replace (nth i (repeat (@nil J) n) []) with (@nil J); auto.
      clear. revert i. induction n; intros [|i]; cbn; auto. }
    rewrite X in I. exact I.
  Qed.

  (** ** What a finished pool has done. *)
  Lemma finished n files sched st : run job finish (start s0 n files) sched = Some st -> joined st = true ->
    (exists w, In w (workers st) /\ alive_ok w = true) ->
    exists ps, Forall2 (fun w x => wok w (fst x) (snd x)) (workers st) (combine (shares n files sched) ps) /\
      length ps = n /\ Permutation (concat (shares n files sched)) files /\ Permutation (results st) (concat ps).
  Proof.
    intros E Jn (w & Iw & A). destruct (reach n files _ _ E) as (hp & js & k & HS & F & Q & P1 & P2 & N & B).
    exists (map snd hp). rewrite <- HS at 1.
    assert (C : combine (map fst hp) (map snd hp) = hp) by (clear; induction hp as [|[? ?] ? IH]; cbn; congruence).
    assert (L : length hp = n).
    { rewrite <- (map_length fst), HS. unfold shares. rewrite map_length, seq_length. auto. }
    rewrite C, map_length, <- HS. repeat split; auto.
    destruct B as [->|B]; [rewrite app_nil_r in P1; auto|]. exfalso.
    rewrite Forall_forall in B. specialize (B w Iw). unfold joined in Jn. destruct (todo st); [|discriminate].
    rewrite forallb_forall in Jn. specialize (Jn w Iw). destruct w; cbn in *; auto; discriminate.
  Qed.
  Lemma run_workers : forall sched st st', run job finish st sched = Some st' -> length (workers st') = length (workers st).
  Proof.
    induction sched as [|a sched IH]; intros st st' E; cbn in E; [congruence|].
    destruct (pstep job finish st a) as [st1|] eqn:E1; [|discriminate]. rewrite (IH _ _ E). eapply step_workers; eauto.
  Qed.
  (** No worker dies when no job and no final step can raise. *)
  Lemma no_death n files sched st : run job finish (start s0 n files) sched = Some st ->
    (forall s j e, In j files -> job s j <> Err e) -> (forall s e, finish s <> Err e) ->
    forall w, In w (workers st) -> alive_ok w = true.
  Proof.
    intros E H1 H2 w Iw. destruct (reach n files _ _ E) as (hp & js & k & HS & F & Q & P1 & P2 & N & B).
    assert (D : exists x, In x hp /\ wok w (fst x) (snd x)).
    { clear - F Iw. induction F; [destruct Iw|]. destruct Iw as [<-|I]; [exists y; cbn; auto|].
      destruct (IHF I) as (x' & ? & ?). exists x'. cbn; auto. }
    destruct D as ([h p] & Ih & O). cbn [fst snd] in O. inversion O; subst; auto.
    - exfalso. eapply H1; eauto. eapply Permutation_in; [exact P1|]. apply in_or_app. left.
      apply in_concat. exists (h0 ++ [j]). split; [|apply in_or_app; cbn; auto]. apply in_map_iff. eexists. split; [|exact Ih]. auto.
    - exfalso. eapply H2; eauto.
  Qed.
End Pool.
