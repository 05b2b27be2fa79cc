(** * Proofs about simultaneous processes. *)
From Coq Require Import String NArith ZArith Bool Arith Lia List.
From Verif Require Import Base BaseLemmas Str ConfModel ConfFilesProofs TokMxPipeProofs TmpModel TmpSpec.
Import ListNotations.

Lemma exists_there fs p : exists_dir fs p = true <-> there fs p.
Proof.
  unfold there. destruct p as [|x p]; cbn [exists_dir]; [split; auto|]. split; [intros H; right; now apply mem_In|intros [H|H]; [discriminate|now apply mem_In]].
Qed.
Lemma there_mono fs fs' p : incl fs fs' -> there fs p -> there fs' p.
Proof. intros I [H|H]; [now left|right; auto]. Qed.
Lemma not_there fs p : exists_dir fs p = false -> p <> [] /\ ~ In p fs.
Proof.
  intros H. split; [intros ->; discriminate|]. intros I. assert (exists_dir fs p = true) by (apply exists_there; now right). congruence.
Qed.
Lemma removelast_length {A} (p : list A) : p <> [] -> length (removelast p) = pred (length p).
Proof.
  intros N. pose proof (app_removelast_last) as L. destruct p as [|x p]; [contradiction|]. rewrite (L _ (x :: p) x N) at 2. rewrite app_length. cbn. lia.
Qed.
Lemma removelast_above p : above (removelast p) p.
Proof. destruct p as [|x p]; [exists []; reflexivity|]. exists [last (x :: p) x]. apply app_removelast_last. discriminate. Qed.
Lemma above_trans a b c : above a b -> above b c -> above a c.
Proof. intros (p & ->) (q & ->). exists (p ++ q). apply app_assoc_reverse. Qed.

(** The directories still to be made: each one the parent of the next one, the last one [d] *)
Fixpoint linked (d : path) (todo : list path) : Prop :=
  match todo with
  | [] => False
  | p :: t => p <> [] /\ match t with [] => p = d | q :: _ => p = removelast q /\ linked d t end
  end.
Lemma linked_above d t : linked d t -> forall p, In p t -> above p d.
Proof.
  induction t as [|p t IH]; intros L q I; [destruct I|]. cbn [linked] in L. destruct L as [N L]. destruct t as [|q' t].
  - subst. destruct I as [<- | []]. exists []. now rewrite app_nil_r.
  - destruct L as [-> L]. destruct I as [<- |I]; [|now apply IH]. eapply above_trans; [apply removelast_above|]. apply IH; cbn; auto.
Qed.
Lemma linked_short d t : forall p q, linked d (p :: q :: t) -> length p < length d.
Proof.
  induction t as [|r t IH]; intros p q L.
  - cbn [linked] in L. destruct L as (N & -> & M & ->). rewrite removelast_length by auto. destruct d; [contradiction|cbn; lia].
  - cbn [linked] in L. destruct L as (N & -> & L). assert (length q < length d) by (apply (IH q r); exact L).
    destruct L as (M & _). rewrite removelast_length by auto. lia.
Qed.

Definition good (fs : list path) (d : path) (s : mstate) : Prop :=
  match s with
  | Test d' => d' = d
  | Up todo => linked d todo
  | Down todo => linked d todo /\ there fs (removelast (hd [] todo))
  | Done => there fs d
  | Raised e => e = IOError /\ there fs d
  end.
Definition size (s : mstate) : nat :=
  match s with
  | Test d => 2 * length d + 3
  | Up todo => 2 * length (hd [] todo) + length todo + 1
  | Down todo => length todo
  | _ => 0
  end.
Definition at_work (s : mstate) : Prop := match s with Up _ | Down _ => True | _ => False end.

Lemma good_mono fs fs' d s : incl fs fs' -> good fs d s -> good fs' d s.
Proof. intros I. destruct s; cbn [good]; try tauto; try (intros [? ?]; split); eauto using there_mono. Qed.

Lemma step_good fs d s fs' s' : good fs d s -> mk_step fs s = Some (fs', s') ->
  good fs' d s' /\ size s' < size s /\ (fs' = fs \/ exists p, above p d /\ fs' = p :: fs) /\
  ((at_work s -> ~ In d fs) -> (at_work s' -> ~ In d fs') /\ forall e, s' <> Raised e).
Proof.
  intros G E. destruct s as [d'|todo|todo| |e]; cbn [mk_step] in E; try discriminate.
  - cbn [good] in G. subst d'. injection E as <- <-. destruct (exists_dir fs d) eqn:X.
    + repeat split; cbn; try lia; try discriminate; auto. now apply exists_there.
    + apply not_there in X as [N X]. repeat split; cbn; auto; try lia; try discriminate.
  - destruct todo as [|p todo]; [discriminate|]. injection E as <- <-. destruct (exists_dir fs (removelast p)) eqn:X.
    + split; [split; [exact G|now apply exists_there]|]. split; [cbn [size hd length]; lia|]. split; [auto|]. intros W. split; [intros _; apply W; exact I|discriminate].
    + apply not_there in X as [N X]. split; [|split; [|split; [auto|intros W; split; [intros _; apply W; exact I|discriminate]]]].
      * cbn [good]. cbn [good] in G. change (removelast p <> [] /\ removelast p = removelast p /\ linked d (p :: todo)). auto.
      * cbn [size hd length]. assert (p <> []) by (intros ->; apply N; reflexivity). assert (L := removelast_length p H).
        destruct p as [|x p]; [contradiction|]. cbn [length] in *. lia.
  - destruct todo as [|p todo]; [discriminate|]. destruct G as [G T]. cbn [hd] in T. destruct (exists_dir fs p) eqn:X.
    + injection E as <- <-. destruct todo as [|q todo].
      * cbn [linked] in G. destruct G as [N ->]. assert (Q : there fs d) by now apply exists_there.
        split; [split; auto|]. split; [cbn; lia|]. split; [auto|]. intros W. exfalso. apply W; [exact I|]. destruct Q; [contradiction|auto].
      * assert (G' := G). destruct G as (N & E & G). split; [split; [exact G|cbn [hd]; rewrite <- E; now apply exists_there]|]. split; [cbn; lia|].
        split; [auto|]. intros W. split; [intros _; apply W; exact I|discriminate].
    + assert (Y : exists_dir fs (removelast p) = true) by now apply exists_there. rewrite Y in E. injection E as <- <-. apply not_there in X as [N X].
      assert (A : above p d) by (apply (linked_above d (p :: todo)); cbn [In]; auto).
      destruct todo as [|q todo].
      * cbn [linked] in G. destruct G as [_ ->]. split; [right; left; reflexivity|]. split; [cbn; lia|]. split; [eauto|]. intros _. split; [intros []|discriminate].
      * assert (Sh := linked_short _ _ _ _ G). destruct G as (_ & E & G). split; [split; [exact G|cbn [hd]; rewrite <- E; right; left; reflexivity]|].
        split; [cbn; lia|]. split; [eauto|]. intros W. split; [|discriminate]. intros _ [-> |Hin]; [lia|]. apply (W I Hin).
Qed.
Lemma good_step fs d s : good fs d s -> mk_step fs s = None -> s = Done \/ exists e, s = Raised e.
Proof.
  intros G E. destruct s as [d'|todo|todo| |e]; eauto; cbn [mk_step] in E; try discriminate.
  - destruct todo; [destruct G|discriminate].
  - destruct todo as [|p t]; [destruct G as [[] _]|]. destruct (exists_dir fs p); [discriminate|]. destruct (exists_dir fs (removelast p)); discriminate.
Qed.

Lemma set_nth_same {A} (l : list A) i x y : nth_error l i = Some y -> nth_error (set_nth l i x) i = Some x.
Proof. revert i. induction l as [|z l IH]; intros [|i] H; cbn in *; try discriminate; auto. Qed.
Lemma set_nth_other {A} (l : list A) i j x : i <> j -> nth_error (set_nth l i x) j = nth_error l j.
Proof. revert i j. induction l as [|z l IH]; intros [|i] [|j] H; cbn; auto; try congruence. Qed.
Lemma set_nth_length {A} (l : list A) i x : length (set_nth l i x) = length l.
Proof. revert i. induction l as [|z l IH]; intros [|i]; cbn; auto. Qed.
Lemma set_nth_sum (l : list mstate) i x y : nth_error l i = Some y -> size x < size y -> list_sum (map size (set_nth l i x)) < list_sum (map size l).
Proof.
  revert i. induction l as [|z l IH]; intros [|i] H L; cbn [nth_error] in H; try discriminate; cbn [set_nth map list_sum fold_right].
  - injection H as ->. unfold list_sum. lia.
  - specialize (IH _ H L). unfold list_sum in IH. lia.
Qed.

Record inv (fs0 : list path) (ds : list path) (n : nat) (w : mworld) : Prop := {
  v_len : length (mw_calls w) = length ds;
  v_incl : incl fs0 (mw_fs w);
  v_new : forall p, In p (mw_fs w) -> In p fs0 \/ exists d, In d ds /\ above p d;
  v_good : forall i d s, nth_error ds i = Some d -> nth_error (mw_calls w) i = Some s -> good (mw_fs w) d s;
  v_size : n + list_sum (map size (mw_calls w)) <= list_sum (map (fun d => 2 * length d + 3) ds);
  v_apart : apart ds -> forall i d s, nth_error ds i = Some d -> nth_error (mw_calls w) i = Some s -> (at_work s -> ~ In d (mw_fs w)) /\ forall e, s <> Raised e }.

Lemma inv_run fs0 ds n w : mw_run n (calls fs0 ds) w -> inv fs0 ds n w.
Proof.
  remember (calls fs0 ds) as w0 eqn:E0. induction 1 as [w|n w w' w'' R IH St]; subst.
  - constructor; cbn [calls mw_fs mw_calls].
    + apply map_length.
    + apply incl_refl.
    + auto.
    + intros i d s Hd Hs. rewrite nth_error_map, Hd in Hs. cbn in Hs. injection Hs as <-. reflexivity.
    + rewrite map_map. cbn. lia.
    + intros _ i d s Hd Hs. rewrite nth_error_map, Hd in Hs. cbn in Hs. injection Hs as <-. split; [intros []|discriminate].
  - specialize (IH eq_refl). destruct IH as [VL VI VN VG VS VA]. destruct St as [fs cs i s fs' s' Hs Hm]. cbn [mw_fs mw_calls] in *.
    assert (exists d, nth_error ds i = Some d) as [d Hd].
    { destruct (nth_error ds i) eqn:E; [eauto|]. apply nth_error_None in E. assert (i < length cs) by (apply nth_error_Some; congruence). lia. }
    destruct (step_good _ _ _ _ _ (VG _ _ _ Hd Hs) Hm) as (G' & Sz & F & A).
    assert (I' : incl fs fs') by (destruct F as [-> |(p & _ & ->)]; [apply incl_refl|intros x Hx; now right]).
    constructor; cbn [mw_fs mw_calls].
    + rewrite set_nth_length. auto.
    + eapply incl_tran; eauto.
    + intros p Hp. destruct F as [-> |(q & Hq & ->)]; [auto|]. destruct Hp as [<- |Hp]; [|auto]. right. exists d. split; [eapply nth_error_In; eauto|auto].
    + intros j d' t Hj Ht. destruct (Nat.eq_dec i j) as [<- |Nij].
      * rewrite (set_nth_same _ _ _ _ Hs) in Ht. injection Ht as <-. rewrite Hd in Hj. injection Hj as <-. auto.
      * rewrite set_nth_other in Ht by auto. eapply good_mono; eauto.
    + pose proof (set_nth_sum _ _ _ _ Hs Sz). lia.
    + intros Ap j d' t Hj Ht. destruct (Nat.eq_dec i j) as [<- |Nij].
      * rewrite (set_nth_same _ _ _ _ Hs) in Ht. injection Ht as <-. rewrite Hd in Hj. injection Hj as <-. apply A. apply (VA Ap _ _ _ Hd Hs).
      * rewrite set_nth_other in Ht by auto. destruct (VA Ap _ _ _ Hj Ht) as [W NR]. split; [|auto]. intros At Hin.
        destruct F as [-> |(q & Hq & ->)]; [now apply W|]. destruct Hin as [-> |Hin]; [|now apply W]. eapply (Ap j i); eauto.
Qed.

Lemma mwr_front n w w' w'' : mw_step w w' -> mw_run n w' w'' -> mw_run (S n) w w''.
Proof. intros St R. revert St. induction R; intros St; [eapply mwr_step; [apply mwr_refl|auto]|eapply mwr_step; eauto]. Qed.
Lemma make_dirs_any fs ds n fs' cs : mw_run n (calls fs ds) (MW fs' cs) ->
  (forall p, In p fs -> In p fs') /\ (forall p, In p fs' -> In p fs \/ exists d, In d ds /\ above p d) /\
  length cs = length ds /\
  (forall i d, nth_error ds i = Some d -> nth_error cs i = Some Done \/ (exists e, nth_error cs i = Some (Raised e)) -> there fs' d) /\
  (forall i e, nth_error cs i = Some (Raised e) -> e = IOError).
Proof.
  intros R. apply inv_run in R as [VL VI VN VG VS VA]. cbn [mw_fs mw_calls] in *. split; [exact VI|]. split; [exact VN|]. split; [exact VL|]. split.
  - intros i d Hd [H|(e & H)]; specialize (VG _ _ _ Hd H); cbn [good] in VG; tauto.
  - intros i e H. assert (exists d, nth_error ds i = Some d) as [d Hd].
    { destruct (nth_error ds i) eqn:E; [eauto|]. apply nth_error_None in E. assert (i < length cs) by (apply nth_error_Some; congruence). lia. }
    specialize (VG _ _ _ Hd H). cbn [good] in VG. tauto.
Qed.
Lemma make_dirs_end fs ds n w : mw_run n (calls fs ds) w ->
  n <= list_sum (map (fun d => 2 * length d + 3) ds) /\
  ((forall w', ~ mw_step w w') <-> forall s, In s (mw_calls w) -> s = Done \/ exists e, s = Raised e).
Proof.
  intros R. apply inv_run in R as [VL VI VN VG VS VA]. split; [lia|]. destruct w as [fs' cs]. cbn [mw_fs mw_calls] in *. split.
  - intros H s Hs. apply In_nth_error in Hs as [i Hi]. assert (exists d, nth_error ds i = Some d) as [d Hd].
    { destruct (nth_error ds i) eqn:E; [eauto|]. apply nth_error_None in E. assert (i < length cs) by (apply nth_error_Some; congruence). lia. }
    apply (good_step fs' d); [eapply VG; eauto|]. destruct (mk_step fs' s) as [[fs'' s']|] eqn:E; [|reflexivity]. exfalso. eapply H. econstructor; eauto.
  - intros H w' St. inversion St as [? ? i s ? s' Hs Hm]; subst. apply nth_error_In in Hs. destruct (H _ Hs) as [-> |(e & ->)]; discriminate.
Qed.
Lemma make_dirs_apart fs ds n fs' cs : apart ds -> mw_run n (calls fs ds) (MW fs' cs) -> forall e, ~ In (Raised e) cs.
Proof.
  intros Ap R e I. apply inv_run in R as [VL VI VN VG VS VA]. cbn [mw_fs mw_calls] in *. apply In_nth_error in I as [i Hi].
  assert (exists d, nth_error ds i = Some d) as [d Hd].
  { destruct (nth_error ds i) eqn:E; [eauto|]. apply nth_error_None in E. assert (i < length cs) by (apply nth_error_Some; congruence). lia. }
  destruct (VA Ap _ _ _ Hd Hi) as [_ H]. now apply (H e).
Qed.
(** The workers of a run, each with its own process number *)
Lemma workers_apart base pids : NoDup pids -> apart (map (fun w => base ++ [str_of_Z (Z.of_nat w)]) pids).
Proof.
  intros ND i j d d' Hi Hj N (q & E). rewrite nth_error_map in Hi, Hj. destruct (nth_error pids i) as [a|] eqn:Ea; [|discriminate].
  destruct (nth_error pids j) as [b|] eqn:Eb; [|discriminate]. cbn in Hi, Hj. injection Hi as <-. injection Hj as <-.
  rewrite <- app_assoc in E. apply app_inv_head in E. cbn in E. injection E as E _. apply str_of_nat_inj in E. subst b. apply N.
  assert (L : i < length pids) by (apply nth_error_Some; congruence). apply (proj1 (NoDup_nth_error pids) ND); auto. congruence.
Qed.

(** ** Runs at the same time *)
Section Runs.
  Context {D : Type} (tmp : path) (base : nat -> path).
  Notation t_step := (t_step (D:=D) tmp base).
  Notation t_run := (t_run (D:=D) tmp base).
  Lemma wfile_inj v w : wfile base v = wfile base w -> v = w.
  Proof. unfold wfile, wdir. intros E. apply app_inj_tail in E as [E _]. apply app_inj_tail in E as [_ E]. now apply str_of_nat_inj. Qed.
  Lemma wdir_inj v w : wdir base v = wdir base w -> v = w.
  Proof. intros E. apply wfile_inj. unfold wfile. now rewrite E. Qed.
  Lemma t_run_app fs a b : t_run fs (a ++ b) = t_run (t_run fs a) b.
  Proof. apply fold_left_app. Qed.
  Lemma dget_filter {V} (f : path * V -> bool) (g : path -> bool) : (forall kv, f kv = g (fst kv)) -> forall d k,
    dget (filter f d) k = if g k then dget d k else None.
  Proof.
    intros H d k. induction d as [|[a v] d IH]; [destruct (g k); reflexivity|]. cbn [filter]. rewrite (H (a, v)). cbn [fst]. destruct (g a) eqn:Ga; cbn [dget].
    - destruct (eqdec k a) as [-> |n]; [now rewrite Ga|auto].
    - destruct (eqdec k a) as [-> |n]; [rewrite Ga in *; auto|auto].
  Qed.
  (** The directory and the file of a worker through the steps of the others *)
  Lemma others_dir w mid : (forall e, In e mid -> not_of w e) -> forall fs, In (wdir base w) (t_dirs (t_run fs mid)) <->
    In (wdir base w) (t_dirs fs) /\ (~ In Init mid \/ under tmp (wdir base w) = false) \/ (In Init mid /\ wdir base w = tmp).
  Proof.
    induction mid as [|e mid IH]; intros F fs; [cbn; tauto|].
    assert (F' : forall e, In e mid -> not_of w e) by (intros; apply F; now right). specialize (IH F'). specialize (F e (or_introl eq_refl)).
    change (t_run fs (e :: mid)) with (t_run (fst (t_step fs e)) mid). rewrite IH. clear IH F'.
    assert (U : wdir base w = tmp -> under tmp (wdir base w) = false).
    { intros ->. destruct (under tmp tmp) eqn:Ed; [|reflexivity]. apply under_iff in Ed as (q & Nq & Ed). exfalso. apply Nq.
      rewrite <- (app_nil_r tmp) in Ed at 1. now apply app_inv_head in Ed. }
    destruct e as [|v|v x|v]; cbn [t_step fst t_dirs].
    - cbn [In]. unfold clean_dir. rewrite filter_In, negb_true_iff. destruct (in_dec (fun a b : list pystr => eqdec a b) (wdir base w) (t_dirs fs)); destruct (under tmp (wdir base w)) eqn:Ed; intuition congruence.
    - cbn [not_of] in F. cbn [In]. assert (wdir base v <> wdir base w) by (intros E; apply F; now apply wdir_inj). intuition congruence.
    - cbn [In]. destruct (mem (wdir base v) (t_dirs fs)); cbn [fst t_dirs]; intuition congruence.
    - cbn [In]. intuition congruence.
  Qed.
  Lemma others_file w mid : (forall e, In e mid -> not_of w e) -> forall fs, dget (t_files (t_run fs mid)) (wfile base w) =
    if existsb (fun e => match e with Init => true | _ => false end) mid && under tmp (wfile base w) then None else dget (t_files fs) (wfile base w).
  Proof.
    induction mid as [|e mid IH]; intros F fs; [reflexivity|].
    assert (F' : forall e, In e mid -> not_of w e) by (intros; apply F; now right). specialize (IH F'). specialize (F e (or_introl eq_refl)).
    change (t_run fs (e :: mid)) with (t_run (fst (t_step fs e)) mid). rewrite IH. clear IH F'. cbn [existsb].
    destruct e as [|v|v x|v]; cbn [t_step fst t_files orb]; try reflexivity.
    - rewrite (dget_filter _ (fun k => negb (under tmp k))) by reflexivity. destruct (existsb _ mid), (under tmp (wfile base w)); reflexivity.
    - cbn [not_of] in F. destruct (mem (wdir base v) (t_dirs fs)); cbn [fst t_files]; [|reflexivity]. rewrite dget_dset_other; [reflexivity|]. intros E. apply F. symmetry. now apply wfile_inj.
  Qed.
  Lemma has_init (l : list (event D)) : existsb (fun e => match e with Init => true | _ => false end) l = true <-> In Init l.
  Proof. rewrite existsb_exists. split; [intros (e & I & E); destruct e; try discriminate; auto|intros I; exists Init; auto]. Qed.
  Lemma under_file w : under tmp (wdir base w) = true -> under tmp (wfile base w) = true.
  Proof. intros H. apply under_iff in H as (q & N & E). apply under_iff. unfold wfile. rewrite E. exists (q ++ [u "sub.0"%string]). split; [destruct q; discriminate|apply app_assoc_reverse]. Qed.

  Lemma after_load fs pre mid1 mid2 w x : (forall e, In e (mid1 ++ mid2) -> not_of w e) -> wdir base w <> tmp ->
    dget (t_files (t_run fs (pre ++ Mk w :: mid1 ++ Save w x :: mid2))) (wfile base w) =
    if existsb (fun e => match e with Init => true | _ => false end) mid2 && under tmp (wfile base w) then None
    else if existsb (fun e => match e with Init => true | _ => false end) mid1 && under tmp (wdir base w) then None else Some x.
  Proof.
    intros F Nt. rewrite t_run_app. generalize (t_run fs pre). clear fs pre. intros fs.
    change (Mk w :: mid1 ++ Save w x :: mid2) with ([Mk w] ++ mid1 ++ Save w x :: mid2). rewrite t_run_app. rewrite t_run_app.
    change (Save w x :: mid2) with ([Save w x] ++ mid2). rewrite t_run_app.
    rewrite others_file by (intros e He; apply F; apply in_or_app; now right).
    destruct (existsb _ mid2 && under tmp (wfile base w)); [reflexivity|].
    assert (F1 : forall e, In e mid1 -> not_of w e) by (intros e He; apply F; apply in_or_app; now left).
    assert (Fd := others_dir w mid1 F1 (t_run fs [Mk w])). assert (Ff := others_file w mid1 F1 (t_run fs [Mk w])).
    remember (t_run (t_run fs [Mk w]) mid1) as fs1 eqn:E1. clear E1. cbn [t_run fold_left t_step fst t_dirs In] in Fd.
    cbn [t_run TmpModel.t_run fold_left t_step TmpModel.t_step fst].
    destruct (existsb _ mid1 && under tmp (wdir base w)) eqn:Ei.
    - apply andb_true_iff in Ei as [Ei Eu]. apply has_init in Ei.
      destruct (mem (wdir base w) (t_dirs fs1)) eqn:M.
      + apply mem_In in M. apply Fd in M. intuition congruence.
      + cbn [fst]. rewrite Ff. assert (X := proj2 (has_init mid1) Ei). rewrite X. rewrite under_file by auto. reflexivity.
    - assert (M : mem (wdir base w) (t_dirs fs1) = true).
      { apply mem_In. apply Fd. left. split; [now left|]. apply andb_false_iff in Ei as [Ei|Ei]; [|auto]. left. intros I. apply has_init in I. congruence. }
      rewrite M. cbn [fst t_files]. apply dget_dset_same.
  Qed.
  Lemma load_inside fs pre mid1 mid2 w x : above tmp (base w) -> (forall e, In e (mid1 ++ mid2) -> not_of w e) ->
    (In Init (mid1 ++ mid2) -> snd (t_step (t_run fs (pre ++ Mk w :: mid1 ++ Save w x :: mid2)) (Load w)) = Err IOError) /\
    (~ In Init (mid1 ++ mid2) -> snd (t_step (t_run fs (pre ++ Mk w :: mid1 ++ Save w x :: mid2)) (Load w)) = Ok (Some x)).
  Proof.
    intros (q & Eb) F. assert (Nt : wdir base w <> tmp).
    { unfold wdir. rewrite Eb, <- app_assoc. intros E. rewrite <- (app_nil_r tmp) in E at 2. apply app_inv_head in E. destruct q; discriminate. }
    assert (Ud : under tmp (wdir base w) = true).
    { apply under_iff. unfold wdir. rewrite Eb, <- app_assoc. eexists. split; [|reflexivity]. destruct q; discriminate. }
    cbn [t_step TmpModel.t_step snd]. rewrite after_load by auto. rewrite (under_file _ Ud), Ud, !andb_true_r. split; intros H.
    - apply in_app_or in H as [H|H]; apply has_init in H; rewrite H; [|reflexivity]. destruct (existsb _ mid2); reflexivity.
    - assert (H2 : existsb (fun e : event D => match e with Init => true | _ => false end) mid2 = false) by (destruct (existsb _ mid2) eqn:E; [|reflexivity]; apply has_init in E; exfalso; apply H; apply in_or_app; auto).
      assert (H1 : existsb (fun e : event D => match e with Init => true | _ => false end) mid1 = false) by (destruct (existsb _ mid1) eqn:E; [|reflexivity]; apply has_init in E; exfalso; apply H; apply in_or_app; auto).
      now rewrite H1, H2.
  Qed.
  Lemma load_outside fs pre mid1 mid2 w x : ~ above tmp (wdir base w) -> (forall e, In e (mid1 ++ mid2) -> not_of w e) ->
    snd (t_step (t_run fs (pre ++ Mk w :: mid1 ++ Save w x :: mid2)) (Load w)) = Ok (Some x).
  Proof.
    intros A F. assert (Nt : wdir base w <> tmp) by (intros E; apply A; exists []; now rewrite app_nil_r).
    assert (Ud : under tmp (wdir base w) = false) by (destruct (under tmp (wdir base w)) eqn:E; [|reflexivity]; apply under_iff in E as (q & _ & E); exfalso; apply A; now exists q).
    assert (Uf : under tmp (wfile base w) = false).
    { destruct (under tmp (wfile base w)) eqn:E; [|reflexivity]. apply under_iff in E as (q & N & E). exfalso. apply A.
      destruct (exists_last N) as (q' & z & ->). unfold wfile in E. rewrite app_assoc in E. apply app_inj_tail in E as [E _]. now exists q'. }
    cbn [t_step TmpModel.t_step snd]. rewrite after_load by auto. now rewrite Ud, Uf, !andb_false_r.
  Qed.
End Runs.
