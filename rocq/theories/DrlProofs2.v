(** * Proofs about the DepRelManager: templates, results of subprocesses, threads. *)
From Coq Require Import String NArith ZArith Bool Arith Lia List.
From Verif Require Import Base BaseLemmas Str StrLemmas VocabModel DrlModel DrlSpec DrlProofs.
Import ListNotations.

(** ** Templates *)
Lemma alt_nonempty l ns es : alternates l ns es -> l <> [].
Proof. destruct 1; discriminate. Qed.
Lemma alt_evens l ns es : alternates l ns es -> evens l = ns.
Proof. induction 1 as [n|n e l ns es A IH]; cbn [evens]; auto. now rewrite IH. Qed.
Lemma alt_evens_tl l ns es : alternates l ns es -> evens (tl l) = es.
Proof.
  induction 1 as [n|n e l ns es A IH]; cbn [tl evens]; auto. f_equal. destruct A; cbn [tl] in IH; auto.
Qed.
Lemma alt_odds l ns es : alternates l ns es -> odds l = es.
Proof.
  unfold odds. intros A. induction A as [n|n e l ns es A IH]; auto.
  assert (Hl : l <> []) by now apply alt_nonempty in A. destruct l as [|x l]; [congruence|].
  change (removelast (n :: e :: x :: l)) with (n :: e :: removelast (x :: l)). cbn [tl evens]. f_equal.
  rewrite <- IH. destruct (removelast (x :: l)); auto.
Qed.
Lemma evens_snoc l ns es e : alternates l ns es -> evens (l ++ [e]) = ns.
Proof. induction 1 as [n|n e' l ns es A IH]; cbn [app evens]; auto. now rewrite IH. Qed.
Lemma odds_snoc l ns es e : alternates l ns es -> odds (l ++ [e]) = es.
Proof. intros A. unfold odds. rewrite removelast_last. now apply alt_evens_tl with (ns := ns). Qed.
Lemma pairs_alt l ns es : alternates l ns es -> exists n ns', ns = n :: ns' /\ exists r, pt_pairs es ns' = Ok r /\ l = n :: r.
Proof.
  induction 1 as [n|n e l ns es A (n' & ns' & En & r & Er & El)].
  - exists n, []. split; auto. now exists [].
  - subst. exists n, (n' :: ns'). split; auto. exists (e :: n' :: r). cbn [pt_pairs]. rewrite Er. auto.
Qed.
Theorem template_line line parts ns es : strip line = join 58%N parts -> Forall (fun c => ~ In 58%N c) parts -> alternates parts ns es ->
  template_of line = PT ns es /\ pt_str (template_of line) = Ok (strip line).
Proof.
  intros E F A. assert (X : template_of line = PT ns es).
  { unfold template_of. rewrite E, split_join by (auto; now apply alt_nonempty in A). now rewrite (alt_evens _ _ _ A), (alt_odds _ _ _ A). }
  split; auto. rewrite X. destruct (pairs_alt _ _ _ A) as (n & ns' & -> & r & Er & El). unfold pt_str. cbn [pt_nodes pt_edges].
  rewrite Er. cbn [rmap]. now rewrite E, El.
Qed.
Theorem template_dangling line parts e ns es : strip line = join 58%N (parts ++ [e]) -> Forall (fun c => ~ In 58%N c) (parts ++ [e]) -> alternates parts ns es ->
  template_of line = PT ns es /\ pt_str (template_of line) = Ok (join 58%N parts).
Proof.
  intros E F A. assert (X : template_of line = PT ns es).
  { unfold template_of. rewrite E, split_join; auto; [|now destruct parts]. now rewrite (evens_snoc _ _ _ _ A), (odds_snoc _ _ _ _ A). }
  split; auto. rewrite X. destruct (pairs_alt _ _ _ A) as (n & ns' & -> & r & Er & El). unfold pt_str. cbn [pt_nodes pt_edges].
  rewrite Er. cbn [rmap]. now rewrite El.
Qed.

(** ** Jobs *)
Section Jobs.
  Context {MN ME : Type}.
  Notation feat := (feature MN ME).
  Lemma over_files_none fnames (fs : list feat) : over_files fnames fs = (fs, repeat NameError (length fnames)).
  Proof. induction fnames as [|f fnames IH]; auto. cbn [over_files update_dep_rel length repeat]. now rewrite IH. Qed.

  Lemma super_iff (f : pystr * res (list feat)) : inside (u "super") (fst f) = true <-> of_super f.
  Proof. apply inside_iff. Qed.
  Lemma read_subs_holds dir kept subs : @holds MN ME dir kept subs -> read_subs dir = (kept, subs, Ok tt).
  Proof.
    induction 1 as [|[f c] dir kept subs Hs Hh IH|f feats dir kept subs Hs Hh IH]; auto; cbn [read_subs].
    - apply super_iff in Hs. cbn [fst] in Hs. now rewrite Hs, IH.
    - destruct (inside (u "super") f) eqn:E; [destruct Hs; now apply super_iff|]. now rewrite IH.
  Qed.
  Lemma read_subs_bad a kept subs f e b : @holds MN ME a kept subs -> ~ @of_super MN ME (f, Err e) ->
    read_subs (a ++ (f, Err e) :: b) = (kept ++ (f, Err e) :: b, subs, Err e).
  Proof.
    intros Hh Hf. induction Hh as [|[g c] dir kept subs Hs Hh IH|g feats dir kept subs Hs Hh IH]; cbn [app read_subs].
    - destruct (inside (u "super") f) eqn:E; auto. destruct Hf. now apply super_iff.
    - apply super_iff in Hs. cbn [fst] in Hs. now rewrite Hs, IH.
    - destruct (inside (u "super") g) eqn:E; [destruct Hs; now apply super_iff|]. now rewrite IH.
  Qed.
  Definition ext (o f : feat) : feat := (fst o ++ fst f, snd o ++ snd f).
  Lemma extend_at_spec own : forall i f, match nth_error own i with
    | Some o => exists own', extend_at own i f = Ok own' /\ length own' = length own /\ nth_error own' i = Some (ext o f) /\ (forall j, j <> i -> nth_error own' j = nth_error own j)
    | None => extend_at own i f = Err IndexError end.
  Proof.
    induction own as [|o own IH]; intros [|i] f; cbn [nth_error extend_at]; auto.
    - exists (ext o f :: own). repeat split; auto. intros [|j] Hj; cbn; congruence.
    - specialize (IH i f). destruct (nth_error own i) as [o'|].
      + destruct IH as (own' & E & El & En & Ho). rewrite E. exists (o :: own'). cbn. repeat split; auto.
        intros [|j] Hj; cbn; auto.
      + now rewrite IH.
  Qed.
  Lemma extend_from_spec (feats : list feat) : forall i (own : list feat), i + length feats <= length own ->
    exists own', extend_from i feats own = (own', Ok tt) /\ length own' = length own /\
      forall j o, nth_error own j = Some o -> nth_error own' j = Some (match (if j <? i then None else nth_error feats (j - i)) with Some f => ext o f | None => o end).
  Proof.
    induction feats as [|f feats IH]; intros i own Hl; cbn [extend_from].
    - exists own. repeat split; auto. intros j o Hj. destruct (j <? i); auto. now destruct (j - i).
    - cbn [length] in Hl. pose proof (extend_at_spec own i f) as X. destruct (nth_error own i) as [o|] eqn:Eo.
      2: { apply nth_error_None in Eo. lia. }
      destruct X as (own1 & E1 & L1 & N1 & O1). rewrite E1.
      destruct (IH (S i) own1) as (own' & E & El & Hn); [lia|]. exists own'. split; [exact E|]. split; [lia|].
      intros j oj Hj. destruct (Nat.eq_dec j i) as [->|Nj].
      + rewrite (Hn i _ N1). rewrite Nat.ltb_irrefl, Nat.sub_diag. cbn [nth_error].
        destruct (Nat.ltb_spec i (S i)); [|lia]. congruence.
      + rewrite <- (O1 j Nj) in Hj. rewrite (Hn j _ Hj). destruct (Nat.ltb_spec j (S i)), (Nat.ltb_spec j i); auto; try lia.
        replace (j - i) with (S (j - S i)) by lia. reflexivity.
  Qed.
  Lemma extend_all_spec (subs : list (list feat)) : forall own : list feat, Forall (fun s => length s <= length own) subs ->
    exists own', extend_all subs own = (own', Ok tt) /\ gathered own subs own'.
  Proof.
    induction subs as [|s subs IH]; intros own F; cbn [extend_all].
    - exists own. split; auto. split; auto. intros i [a b] Hi. cbn. now rewrite !app_nil_r.
    - inversion F as [|? ? Hs F']; subst. destruct (extend_from_spec s 0 own Hs) as (own1 & E1 & L1 & N1). rewrite E1.
      destruct (IH own1) as (own' & E & El & Hg); [now rewrite L1|]. exists own'. split; [exact E|]. split; [congruence|].
      intros i f Hi. specialize (N1 i f Hi). cbn [Nat.ltb Nat.leb] in N1. rewrite Nat.sub_0_r in N1. change (i <? 0) with false in N1. cbn iota in N1.
      rewrite (Hg _ _ N1). unfold found_nodes, found_edges. cbn [flat_map]. unfold feature in *. destruct (nth_error s i) as [g|]; auto.
      unfold ext. cbn [fst snd]. rewrite <- !app_assoc. reflexivity.
  Qed.
  Theorem merge_all dir kept subs (own : list feat) : holds dir kept subs -> Forall (fun s => length s <= length own) subs ->
    exists own', merge_results dir own = (kept, own', Ok tt) /\ gathered own subs own'.
  Proof.
    intros Hh F. unfold merge_results. rewrite (read_subs_holds _ _ _ Hh). destruct (extend_all_spec subs own F) as (own' & E & G).
    exists own'. now rewrite E.
  Qed.
  Theorem merge_unreadable a kept subs f e b (own : list feat) : holds a kept subs -> ~ @of_super MN ME (f, Err e) ->
    merge_results (a ++ (f, Err e) :: b) own = (kept ++ (f, Err e) :: b, own, Err e).
  Proof. intros Hh Hf. unfold merge_results. now rewrite (read_subs_bad a kept subs f e b Hh Hf). Qed.
  Lemma extend_from_long (feats : list feat) : forall i (own : list feat), length own < i + length feats -> i <= length own -> exists own', extend_from i feats own = (own', Err IndexError).
  Proof.
    induction feats as [|f feats IH]; intros i own Hl Hi; cbn [length] in Hl; [lia|]. cbn [extend_from].
    pose proof (extend_at_spec own i f) as X. destruct (nth_error own i) as [o|] eqn:Eo.
    - destruct X as (own1 & E1 & L1 & _). rewrite E1. assert (i < length own) by (apply nth_error_Some; congruence).
      apply IH; lia.
    - rewrite X. eauto.
  Qed.
  Theorem merge_more dir kept subs (own : list feat) : holds dir kept subs -> Exists (fun s => length own < length s) subs ->
    exists own', merge_results dir own = (kept, own', Err IndexError).
  Proof.
    intros Hh Ex. unfold merge_results. rewrite (read_subs_holds _ _ _ Hh). clear Hh dir.
    assert (G : exists own', extend_all subs own = (own', Err IndexError)); [|destruct G as (own' & E); exists own'; now rewrite E].
    revert own Ex. induction subs as [|s subs IH]; intros own Ex; [inversion Ex|]. cbn [extend_all].
    destruct (le_lt_dec (length s) (length own)) as [Hs|Hs].
    - destruct (extend_from_spec s 0 own Hs) as (own1 & E1 & L1 & _). rewrite E1. apply IH. rewrite L1. inversion Ex; subst; auto. lia.
    - destruct (extend_from_long s 0 own Hs) as (own' & E); [lia|]. rewrite E. eauto.
  Qed.
  (** Every subprocess that ran hands back the features of the main process unchanged. *)
  Theorem merge_callers dir kept subs (own : list feat) : holds dir kept subs ->
    Forall (fun s => exists fnames log, update_dep_rel_caller fnames true (Ok own) = Ok (Some s, log)) subs ->
    exists own', merge_results dir own = (kept, own', Ok tt) /\ length own' = length own /\
      forall i f, nth_error own i = Some f -> nth_error own' i =
        Some (concat (repeat (fst f) (S (length subs))), concat (repeat (snd f) (S (length subs)))).
  Proof.
    intros Hh F. assert (Es : Forall (fun s => s = own) subs).
    { eapply Forall_impl; [|exact F]. intros s (fnames & log & E). unfold update_dep_rel_caller in E. rewrite over_files_none in E. congruence. }
    destruct (merge_all dir kept subs own Hh) as (own' & E & El & Hg).
    { eapply Forall_impl; [|exact Es]. intros s ->. lia. }
    exists own'. split; auto. split; auto. intros i f Hi. rewrite (Hg i f Hi). cbn [repeat concat]. f_equal. f_equal; f_equal.
    - unfold found_nodes. clear -Es Hi. induction Es as [|s subs -> Es IH]; auto. cbn [flat_map length repeat concat]. unfold feature in *. now rewrite Hi, IH.
    - unfold found_edges. clear -Es Hi. induction Es as [|s subs -> Es IH]; auto. cbn [flat_map length repeat concat]. unfold feature in *. now rewrite Hi, IH.
  Qed.
End Jobs.

(** ** Threads *)
Definition files_of (l : list (option pystr)) : list pystr := flat_map (fun x => match x with Some f => [f] | None => [] end) l.
Definition nones_of (l : list (option pystr)) : nat := length l - length (files_of l).
Lemma files_of_app a b : files_of (a ++ b) = files_of a ++ files_of b.
Proof. unfold files_of. apply flat_map_app. Qed.
Lemma files_of_map l : files_of (map Some l) = l.
Proof. induction l; cbn; auto. now f_equal. Qed.
Lemma files_of_repeat n : files_of (repeat None n) = [].
Proof. induction n; auto. Qed.
Lemma files_le l : length (files_of l) <= length l.
Proof. induction l as [|[x|] l IH]; cbn; auto; fold (files_of l); lia. Qed.

Definition tinv (w : nat) (fnames : list pystr) (m : Z) (st : tstate) (steps : nat) : Prop :=
  exists taken, map Some fnames ++ repeat None w = taken ++ t_queue st ++ t_todo st /\
    length taken + t_idle st = w /\ t_dead st = files_of taken /\ t_left st = nones_of taken /\
    steps = 2 * length taken + length (t_queue st) /\ (0 < m -> Z.of_nat (length (t_queue st)) <= m)%Z.
Lemma tinv_step w fnames m st k t st' : tinv w fnames m st k -> thread_step m st t = Some st' -> tinv w fnames m st' (S k).
Proof.
  intros (tk & Ea & Ei & Ed & El & Ek & Hm) E. destruct st as [todo q idle dead lft]. cbn [t_todo t_queue t_idle t_dead t_left] in *.
  destruct t; cbn [thread_step t_todo t_queue t_idle t_dead t_left] in E.
  - destruct todo as [|x todo]; [discriminate|]. destruct ((0 <? m)%Z && (m <=? Z.of_nat (length q)))%Z eqn:Eb; [discriminate|]. injection E as <-.
    exists tk. cbn [t_todo t_queue t_idle t_dead t_left]. rewrite Ea, <- !app_assoc. rewrite app_length. cbn [app length]. repeat split; auto; [lia|].
    intros Hp. apply andb_false_iff in Eb. rewrite Z.ltb_ge, Z.leb_gt in Eb. lia.
  - destruct idle as [|i]; [discriminate|]. destruct q as [|[f|] q]; [discriminate| |]; cbn [do_process_job] in E; injection E as <-.
    + exists (tk ++ [Some f]). cbn [t_todo t_queue t_idle t_dead t_left]. unfold nones_of in *. rewrite files_of_app, !app_length. cbn [files_of flat_map length app].
      pose proof (files_le tk). cbn [length] in *. rewrite <- app_assoc. cbn [app] in *. subst lft. repeat split; auto; try lia; congruence.
    + exists (tk ++ [None]). cbn [t_todo t_queue t_idle t_dead t_left]. unfold nones_of in *. rewrite files_of_app, !app_length. cbn [files_of flat_map length app].
      pose proof (files_le tk). cbn [length] in *. rewrite <- app_assoc, !app_nil_r. cbn [app] in *. subst lft. repeat split; auto; try lia; congruence.
Qed.
Lemma tinv_run w fnames m sched : forall st k st', tinv w fnames m st k -> thread_run m st sched = Some st' -> tinv w fnames m st' (length sched + k).
Proof.
  induction sched as [|t sched IH]; intros st k st' I E; cbn [thread_run] in E; [injection E as <-; exact I|].
  destruct (thread_step m st t) as [st1|] eqn:E1; [|discriminate]. cbn [length]. rewrite plus_Sn_m, plus_n_Sm. eapply IH; eauto. eapply tinv_step; eauto.
Qed.
Lemma tinv_start w fnames m : tinv w fnames m (process_start w fnames) 0.
Proof. exists []. repeat split; auto. cbn. lia. Qed.

Lemma firstn_split {A} (a b l : list A) : l = a ++ b -> a = firstn (length a) l /\ b = skipn (length a) l.
Proof. intros ->. rewrite firstn_app, firstn_all, Nat.sub_diag, app_nil_r, skipn_app, skipn_all, Nat.sub_diag. auto. Qed.
Lemma files_firstn w fnames k : files_of (firstn k (map Some fnames ++ repeat None w)) = firstn k fnames.
Proof.
  rewrite firstn_app, files_of_app, firstn_map, files_of_map.
  assert (X : files_of (firstn (k - length (map Some fnames)) (repeat None w)) = []).
  { generalize (k - length (map Some fnames)). clear. intros n. revert w. induction n as [|n IH]; intros [|w]; auto. cbn. apply IH. }
  now rewrite X, app_nil_r.
Qed.
(** Every execution is short; at any time, the files taken are the first ones, each ended a worker, and no more than
    there are workers. *)
Theorem threads_run w fnames m sched st : thread_run m (process_start w fnames) sched = Some st ->
  length sched <= length fnames + 2 * w /\ t_dead st = firstn (length (t_dead st)) fnames /\ length (t_dead st) <= w /\ t_idle st + length (t_dead st) + t_left st = w.
Proof.
  intros E. destruct (tinv_run w fnames m sched _ 0 st (tinv_start w fnames m) E) as (tk & Ea & Ei & Ed & El & Ek & Hm).
  pose proof (f_equal (@length _) Ea) as La. rewrite !app_length, map_length, repeat_length in La. pose proof (files_le tk) as Lf.
  destruct (firstn_split _ _ _ Ea) as (Et & _). split; [lia|]. split.
  - rewrite Ed. rewrite Et, files_firstn. rewrite firstn_length. destruct (le_lt_dec (length tk) (length fnames)) as [H|H].
    + now rewrite Nat.min_l.
    + rewrite Nat.min_r by lia. rewrite firstn_all. apply firstn_all2. lia.
  - unfold nones_of in El. rewrite Ed. split; lia.
Qed.
(** When nothing moves any more, no worker is left, and the producer has ended only if its files fit into the queue. *)
Theorem threads_rest w fnames m sched st : thread_run m (process_start w fnames) sched = Some st -> at_rest m st ->
  t_idle st = 0 /\ t_dead st = firstn w fnames /\ t_left st = w - length fnames /\
  t_queue st ++ t_todo st = skipn w (map Some fnames ++ repeat None w) /\
  (t_todo st = [] <-> (m <= 0)%Z \/ (Z.of_nat (length fnames) <= m)%Z).
Proof.
  intros E R. destruct (tinv_run w fnames m sched _ 0 st (tinv_start w fnames m) E) as (tk & Ea & Ei & Ed & El & Ek & Hm). clear E Ek.
  pose proof (f_equal (@length _) Ea) as La. rewrite !app_length, map_length, repeat_length in La.
  pose proof (R TProducer) as Rp. pose proof (R TWorker) as Rw. clear R. destruct st as [todo q idle dead lft]. cbn [t_todo t_queue t_idle t_dead t_left thread_step] in *.
  assert (I0 : idle = 0).
  { destruct idle as [|i]; auto. exfalso. destruct q as [|[f|] q]; try discriminate. cbn [length] in *.
    destruct todo as [|x todo]; [cbn in La; lia|]. destruct ((0 <? m)%Z && (m <=? Z.of_nat 0))%Z eqn:Eb; [|discriminate].
    apply andb_true_iff in Eb. rewrite Z.ltb_lt, Z.leb_le in Eb. lia. }
  subst idle. rewrite Nat.add_0_r in Ei. destruct (firstn_split _ _ _ Ea) as (Et & Eq). rewrite Ei in Et, Eq.
  split; auto. assert (Edd : dead = firstn w fnames) by (rewrite Ed, Et; apply files_firstn). split; auto. split.
  { rewrite El. unfold nones_of. rewrite <- Ed, Edd, firstn_length. lia. }
  split; auto. destruct todo as [|x todo].
  - split; auto. intros _. cbn [length] in La. destruct (Z_le_gt_dec m 0); auto. right. specialize (Hm ltac:(lia)). lia.
  - split; [discriminate|]. intros X. destruct ((0 <? m)%Z && (m <=? Z.of_nat (length q)))%Z eqn:Eb; [|discriminate].
    apply andb_true_iff in Eb. rewrite Z.ltb_lt, Z.leb_le in Eb. cbn [length] in La. lia.
Qed.
