(** * The walking matcher records exactly the walks. *)
From Coq Require Import String NArith ZArith Bool Arith Permutation Lia List.
From Verif Require Import Base BaseLemmas Str VocabModel CorpusModel ParModel MxModel DepModel DepSpec GrfModel GrfSpec.
Import ListNotations.
Local Open Scope string_scope.
Local Open Scope nat_scope.
Local Open Scope list_scope.

Lemma wfor_ok {A} (f : A -> wout) (g : A -> list smatch) l :
  (forall x, In x l -> f x = (g x, Ok tt)) -> wfor f l = (flat_map g l, Ok tt).
Proof.
  induction l as [|x l IH]; intros H; [reflexivity|]. cbn [wfor flat_map].
  rewrite (H x (or_introl eq_refl)), IH; [reflexivity|]. intros y Hy. apply H. right. exact Hy.
Qed.

Lemma has_label_nlabel g v x : has_label g v x -> nlabel g v = Ok (AStr x).
Proof. intros (a & H & H'). unfold nlabel, look. rewrite H. cbn [rbind]. rewrite H'. reflexivity. Qed.
Lemma has_rel_erel g a b x : has_rel g (a, b) x -> erel g a b = Ok (AStr x).
Proof. intros (y & H & H'). unfold erel, look. rewrite H. cbn [rbind]. rewrite H'. reflexivity. Qed.
Lemma has_label_fun g v x y : has_label g v x -> has_label g v y -> x = y.
Proof. intros H H'. apply has_label_nlabel in H, H'. rewrite H in H'. congruence. Qed.
Lemma has_rel_fun g e x y : has_rel g e x -> has_rel g e y -> x = y.
Proof. destruct e as [a b]. intros H H'. apply has_rel_erel in H, H'. rewrite H in H'. congruence. Qed.
Lemma has_rel_edge g a b x : has_rel g (a, b) x -> edge g a b.
Proof. intros (y & H & _). exact (dget_Some_key _ _ _ H). Qed.
Lemma has_label_node g v x : has_label g v x -> In v (nodes g).
Proof. intros (y & H & _). exact (dget_Some_key _ _ _ H). Qed.

Lemma In_preds g v a : In a (preds g v) <-> edge g a v.
Proof.
  unfold preds, edge. rewrite in_map_iff. split.
  - intros ([x y] & E & Hin). apply filter_In in Hin. destruct Hin as [Hin E']. apply (proj1 (eqb_eq _ _)) in E'. cbn in *. subst. exact Hin.
  - intros H. exists (a, v). split; [reflexivity|]. apply filter_In. split; [exact H|]. cbn [snd]. apply eqb_refl.
Qed.
Lemma In_succs g v a : In a (succs g v) <-> edge g v a.
Proof.
  unfold succs, edge. rewrite in_map_iff. split.
  - intros ([x y] & E & Hin). apply filter_In in Hin. destruct Hin as [Hin E']. apply (proj1 (eqb_eq _ _)) in E'. cbn in *. subst. exact Hin.
  - intros H. exists (v, a). split; [reflexivity|]. apply filter_In. split; [exact H|]. cbn [fst]. apply eqb_refl.
Qed.
Lemma NoDup_preds g v : gwf g -> NoDup (preds g v).
Proof.
  intros (_ & D & _). unfold preds. unfold dwf in D. revert D. generalize (dkeys (gedges g)) as l.
  induction l as [|[a b] l IH]; intros D; [constructor|]. inversion D; subst. cbn [filter snd].
  destruct (eqb b v) eqn:E; [|exact (IH H2)]. cbn [map fst]. constructor; [|exact (IH H2)].
  intros Hin. apply in_map_iff in Hin. destruct Hin as ([x y] & Ex & Hin). apply filter_In in Hin. destruct Hin as [Hin E'].
  apply (proj1 (eqb_eq _ _)) in E, E'. cbn in *. subst. exact (H1 Hin).
Qed.
Lemma NoDup_succs g v : gwf g -> NoDup (succs g v).
Proof.
  intros (_ & D & _). unfold succs. unfold dwf in D. revert D. generalize (dkeys (gedges g)) as l.
  induction l as [|[a b] l IH]; intros D; [constructor|]. inversion D; subst. cbn [filter fst].
  destruct (eqb a v) eqn:E; [|exact (IH H2)]. cbn [map snd]. constructor; [|exact (IH H2)].
  intros Hin. apply in_map_iff in Hin. destruct Hin as ([x y] & Ex & Hin). apply filter_In in Hin. destruct Hin as [Hin E'].
  apply (proj1 (eqb_eq _ _)) in E, E'. cbn in *. subst. exact (H1 Hin).
Qed.

Section Walks.
  Context {M : Type} (re_match : pystr -> pystr -> option M).
  Variables s p : graph.
  Hypothesis Ws : gwf s.
  Hypothesis Wp : gwf p.
  Hypothesis Ls : labelled s.
  Hypothesis Lp : labelled p.

  Notation hop := ((Z * Z) * (aval * (Z * Z)))%type.
  Definition ok_fit (es ep : Z * Z) (vs vt : Z) : list aval :=
    match fits re_match s p es ep vs vt with Ok (Some r) => [r] | _ => [] end.
  Lemma fits_spec a b c d vs vt : edge s a b -> edge p c d -> In vs (nodes s) -> In vt (nodes p) ->
    exists ls lp r rp, has_label s vs ls /\ has_label p vt lp /\ has_rel s (a, b) r /\ has_rel p (c, d) rp /\
      fits re_match s p (a, b) (c, d) vs vt = Ok (match re_match rp r with
                                                  | None => None
                                                  | Some _ => match re_match lp ls with None => None | Some _ => Some (AStr r) end
                                                  end).
  Proof.
    intros E E' N N'. destruct Ls as [Ls1 Ls2], Lp as [Lp1 Lp2].
    destruct (Ls1 _ N) as [ls H1], (Lp1 _ N') as [lp H2], (Ls2 _ _ E) as [r H3], (Lp2 _ _ E') as [rp H4].
    exists ls, lp, r, rp. repeat (split; [assumption|]). unfold fits. cbn [fst snd].
    rewrite (has_rel_erel _ _ _ _ H3), (has_label_nlabel _ _ _ H1), (has_rel_erel _ _ _ _ H4), (has_label_nlabel _ _ _ H2).
    cbn [rbind py_match]. destruct (re_match rp r); [|reflexivity]. cbn [rmap]. destruct (re_match lp ls); reflexivity.
  Qed.

  (** The pairs that can follow [cur] *)
  Definition ups (prev cur : Z * Z) : list hop :=
    flat_map (fun t => if (t =? snd prev)%Z then [] else
      flat_map (fun v => if (v =? fst prev)%Z then [] else
        map (fun r => ((v, t), (r, (t, snd cur)))) (ok_fit (v, fst cur) (t, snd cur) v t)) (preds s (fst cur))) (preds p (snd cur)).
  Definition downs (prev cur : Z * Z) : list hop :=
    flat_map (fun t => if (t =? snd prev)%Z then [] else
      flat_map (fun v => if (v =? fst prev)%Z then [] else
        map (fun r => ((v, t), (r, (snd cur, t)))) (ok_fit (fst cur, v) (snd cur, t) v t)) (succs s (fst cur))) (succs p (snd cur)).
  Fixpoint wk (k : nat) (prev cur : Z * Z) : list (list hop) :=
    match k with
    | O => [[]]
    | S k' => flat_map (fun h => map (cons h) (wk k' cur (fst h))) (ups prev cur ++ downs prev cur)
    end.

  Lemma ok_fit_In a b c d vs vt x : edge s a b -> edge p c d -> In vs (nodes s) -> In vt (nodes p) ->
    (In x (ok_fit (a, b) (c, d) vs vt) <->
     exists ls lp r rp, has_label s vs ls /\ has_label p vt lp /\ re_match lp ls <> None /\ re_match rp r <> None /\
                        has_rel s (a, b) r /\ has_rel p (c, d) rp /\ x = AStr r).
  Proof.
    intros E E' N N'. destruct (fits_spec _ _ _ _ _ _ E E' N N') as (ls & lp & r & rp & H1 & H2 & H3 & H4 & F).
    unfold ok_fit. rewrite F. clear F. split.
    - destruct (re_match rp r) eqn:R; [|intros []]. destruct (re_match lp ls) eqn:R'; [|intros []].
      intros [<- |[]]. exists ls, lp, r, rp. rewrite R, R'. repeat (split; [assumption || discriminate|]). reflexivity.
    - intros (ls' & lp' & r' & rp' & G1 & G2 & Q & Q' & G3 & G4 & ->).
      rewrite (has_label_fun _ _ _ _ G1 H1), (has_label_fun _ _ _ _ G2 H2) in Q. rewrite (has_rel_fun _ _ _ _ G3 H3), (has_rel_fun _ _ _ _ G4 H4) in Q'.
      rewrite (has_rel_fun _ _ _ _ G3 H3). destruct (re_match rp r); [|congruence]. destruct (re_match lp ls); [|congruence]. left. reflexivity.
  Qed.
  Lemma ups_In prev cur nxt e : In (nxt, e) (ups prev cur) <->
    fst nxt <> fst prev /\ snd nxt <> snd prev /\
    exists ls lp r rp, has_label s (fst nxt) ls /\ has_label p (snd nxt) lp /\ re_match lp ls <> None /\ re_match rp r <> None /\
      has_rel s (fst nxt, fst cur) r /\ has_rel p (snd nxt, snd cur) rp /\ e = (AStr r, (snd nxt, snd cur)).
  Proof.
    unfold ups. rewrite in_flat_map. split.
    - intros (t & Ht & H). destruct (t =? snd prev)%Z eqn:E; [destruct H|]. apply Z.eqb_neq in E.
      apply in_flat_map in H. destruct H as (v & Hv & H). destruct (v =? fst prev)%Z eqn:E'; [destruct H|]. apply Z.eqb_neq in E'.
      apply in_map_iff in H. destruct H as (r & Hr & H). injection Hr as <- <-. cbn [fst snd].
      apply In_preds in Ht, Hv. destruct Ws as (_ & _ & Ws'), Wp as (_ & _ & Wp').
      apply ok_fit_In in H; try assumption; try apply (Ws' _ _ Hv); try apply (Wp' _ _ Ht).
      split; [exact E'|]. split; [exact E|]. destruct H as (ls & lp & r' & rp & H1 & H2 & H3 & H4 & H5 & H6 & ->).
      exists ls, lp, r', rp. repeat (split; [assumption|]). reflexivity.
    - destruct nxt as [v t]. cbn [fst snd]. intros (E' & E & ls & lp & r & rp & H1 & H2 & H3 & H4 & H5 & H6 & ->).
      exists t. split; [apply In_preds; exact (has_rel_edge _ _ _ _ H6)|]. rewrite (proj2 (Z.eqb_neq _ _) E).
      apply in_flat_map. exists v. split; [apply In_preds; exact (has_rel_edge _ _ _ _ H5)|]. rewrite (proj2 (Z.eqb_neq _ _) E').
      apply in_map_iff. exists (AStr r). split; [reflexivity|].
      apply ok_fit_In; [exact (has_rel_edge _ _ _ _ H5)|exact (has_rel_edge _ _ _ _ H6)|exact (has_label_node _ _ _ H1)|exact (has_label_node _ _ _ H2)|].
      exists ls, lp, r, rp. repeat (split; [assumption|]). reflexivity.
  Qed.
  Lemma downs_In prev cur nxt e : In (nxt, e) (downs prev cur) <->
    fst nxt <> fst prev /\ snd nxt <> snd prev /\
    exists ls lp r rp, has_label s (fst nxt) ls /\ has_label p (snd nxt) lp /\ re_match lp ls <> None /\ re_match rp r <> None /\
      has_rel s (fst cur, fst nxt) r /\ has_rel p (snd cur, snd nxt) rp /\ e = (AStr r, (snd cur, snd nxt)).
  Proof.
    unfold downs. rewrite in_flat_map. split.
    - intros (t & Ht & H). destruct (t =? snd prev)%Z eqn:E; [destruct H|]. apply Z.eqb_neq in E.
      apply in_flat_map in H. destruct H as (v & Hv & H). destruct (v =? fst prev)%Z eqn:E'; [destruct H|]. apply Z.eqb_neq in E'.
      apply in_map_iff in H. destruct H as (r & Hr & H). injection Hr as <- <-. cbn [fst snd].
      apply In_succs in Ht, Hv. destruct Ws as (_ & _ & Ws'), Wp as (_ & _ & Wp').
      apply ok_fit_In in H; try assumption; try apply (Ws' _ _ Hv); try apply (Wp' _ _ Ht).
      split; [exact E'|]. split; [exact E|]. destruct H as (ls & lp & r' & rp & H1 & H2 & H3 & H4 & H5 & H6 & ->).
      exists ls, lp, r', rp. repeat (split; [assumption|]). reflexivity.
    - destruct nxt as [v t]. cbn [fst snd]. intros (E' & E & ls & lp & r & rp & H1 & H2 & H3 & H4 & H5 & H6 & ->).
      exists t. split; [apply In_succs; exact (has_rel_edge _ _ _ _ H6)|]. rewrite (proj2 (Z.eqb_neq _ _) E).
      apply in_flat_map. exists v. split; [apply In_succs; exact (has_rel_edge _ _ _ _ H5)|]. rewrite (proj2 (Z.eqb_neq _ _) E').
      apply in_map_iff. exists (AStr r). split; [reflexivity|].
      apply ok_fit_In; [exact (has_rel_edge _ _ _ _ H5)|exact (has_rel_edge _ _ _ _ H6)|exact (has_label_node _ _ _ H1)|exact (has_label_node _ _ _ H2)|].
      exists ls, lp, r, rp. repeat (split; [assumption|]). reflexivity.
  Qed.

  Lemma wk_spec k : forall prev cur w, In w (wk k prev cur) <-> length w = k /\ walk re_match s p prev cur w.
  Proof.
    induction k as [|k IH]; intros prev cur w; cbn [wk].
    - split.
      + intros [<- |[]]. split; [reflexivity|constructor].
      + intros [H _]. destruct w; [left; reflexivity|discriminate].
    - rewrite in_flat_map. split.
      + intros ([nxt e] & Hh & H). apply in_map_iff in H. destruct H as (w' & <- & H). apply IH in H. destruct H as [<- H]. cbn [fst] in H.
        split; [reflexivity|]. apply in_app_iff in Hh. rewrite ups_In, downs_In in Hh.
        destruct Hh as [(E & E' & ls & lp & r & rp & H1 & H2 & H3 & H4 & H5)|(E & E' & ls & lp & r & rp & H1 & H2 & H3 & H4 & H5)];
          (constructor; [|exact E|exact E'|exact H]); exists ls, lp, r, rp; tauto.
      + intros [L W]. inversion W; subst; [discriminate|]. injection L as L. exists (nxt, e). split.
        * apply in_app_iff. rewrite ups_In, downs_In. destruct H as (ls & lp & r & rp & H3 & H4 & H5 & H6 & [H7|H7]); [left|right];
            (split; [assumption|]; split; [assumption|]); exists ls, lp, r, rp; tauto.
        * apply in_map_iff. exists w0. split; [reflexivity|]. apply IH. split; assumption.
  Qed.

  Lemma NoDup_fm {A B} (f : A -> list B) l : NoDup l -> (forall x, In x l -> NoDup (f x)) ->
    (forall x y b, In x l -> In y l -> In b (f x) -> In b (f y) -> x = y) -> NoDup (flat_map f l).
  Proof.
    induction l as [|x l IH]; intros D F I; [constructor|]. inversion D; subst. cbn [flat_map]. apply NoDup_app'.
    - apply F. left. reflexivity.
    - apply IH; [assumption| |]; intros; [apply F; right; assumption|]. eapply I; eauto; right; assumption.
    - intros b Hb Hb'. apply in_flat_map in Hb'. destruct Hb' as (y & Hy & Hb').
      assert (x = y) by (eapply I; eauto; [left; reflexivity|right; assumption]). subst. contradiction.
  Qed.
  Lemma ok_fit_NoDup a b c d : NoDup (ok_fit a b c d).
  Proof. unfold ok_fit. destruct (fits _ _ _ _ _ _ _) as [[x|]|]; repeat constructor. intros []. Qed.
  Lemma cand_NoDup (fs fp : list Z) (prev : Z * Z) (g : Z -> Z -> list aval) (e : Z -> Z * Z) : NoDup fs -> NoDup fp ->
    (forall v t, NoDup (g v t)) ->
    NoDup (flat_map (fun t => if (t =? snd prev)%Z then [] else
      flat_map (fun v => if (v =? fst prev)%Z then [] else map (fun r => ((v, t), (r, e t))) (g v t)) fs) fp).
  Proof.
    intros D D' G. apply NoDup_fm; [exact D'| |].
    - intros t _. destruct (t =? snd prev)%Z; [constructor|]. apply NoDup_fm; [exact D| |].
      + intros v _. destruct (v =? fst prev)%Z; [constructor|]. apply FinFun.Injective_map_NoDup; [|apply G].
        intros x y E. congruence.
      + intros v v' b _ _ H H'. destruct (v =? fst prev)%Z; [destruct H|]. destruct (v' =? fst prev)%Z; [destruct H'|].
        apply in_map_iff in H, H'. destruct H as (x & <- & _), H' as (y & E & _). congruence.
    - intros t t' b _ _ H H'. destruct (t =? snd prev)%Z; [destruct H|]. destruct (t' =? snd prev)%Z; [destruct H'|].
      apply in_flat_map in H, H'. destruct H as (v & _ & H), H' as (v' & _ & H').
      destruct (v =? fst prev)%Z; [destruct H|]. destruct (v' =? fst prev)%Z; [destruct H'|].
      apply in_map_iff in H, H'. destruct H as (x & <- & _), H' as (y & E & _). congruence.
  Qed.
  (** A step upwards and a step downwards are different unless the pattern has a loop. *)
  Hypothesis noloop : forall a, ~ edge p a a.
  Lemma wk_NoDup k : forall prev cur, NoDup (wk k prev cur).
  Proof.
    induction k as [|k IH]; intros prev cur; cbn [wk]; [repeat constructor; intros []|]. apply NoDup_fm.
    - apply NoDup_app'.
      + apply (cand_NoDup _ _ prev (fun v t => ok_fit (v, fst cur) (t, snd cur) v t) (fun t => (t, snd cur)));
          [apply NoDup_preds, Ws|apply NoDup_preds, Wp|intros; apply ok_fit_NoDup].
      + apply (cand_NoDup _ _ prev (fun v t => ok_fit (fst cur, v) (snd cur, t) v t) (fun t => (snd cur, t)));
          [apply NoDup_succs, Ws|apply NoDup_succs, Wp|intros; apply ok_fit_NoDup].
      + intros [nxt e] H H'. apply ups_In in H. apply downs_In in H'.
        destruct H as (_ & _ & ls & lp & r & rp & _ & _ & _ & _ & _ & H6 & ->), H' as (_ & _ & ls' & lp' & r' & rp' & _ & _ & _ & _ & _ & H6' & E).
        injection E as _ E _. apply has_rel_edge in H6. rewrite E in H6. exact (noloop _ H6).
    - intros h _. apply FinFun.Injective_map_NoDup; [|apply IH]. intros x y E. congruence.
    - intros x y b _ _ H H'. apply in_map_iff in H, H'. destruct H as (w & <- & _), H' as (w' & E & _). congruence.
  Qed.

  Lemma rmapm_lab (l : list (Z * Z)) : (forall x, In x l -> In (fst x) (nodes s)) ->
    rmapm (fun st => rmap (pair (snd st)) (nlabel s (fst st))) l = Ok (map (fun st => (snd st, label_of s (fst st))) l).
  Proof.
    induction l as [|x l IH]; intros H; [reflexivity|]. cbn [rmapm map].
    destruct Ls as [L1 _]. destruct (L1 _ (H x (or_introl eq_refl))) as [y Hy]. unfold label_of. rewrite (has_label_nlabel _ _ _ Hy). cbn [rmap rbind].
    rewrite IH; [reflexivity|]. intros z Hz. apply H. right. exact Hz.
  Qed.
  Definition rec_of (vn : list (Z * Z)) (ve : list (aval * (Z * Z))) : smatch :=
    (dict_of (map (fun st => (snd st, label_of s (fst st))) vn), dict_of (map (fun e => (snd e, fst e)) ve)).

  Lemma map_flat_map {A B C} (f : B -> C) (g : A -> list B) l : map f (flat_map g l) = flat_map (fun x => map f (g x)) l.
  Proof. induction l as [|x l IH]; [reflexivity|]. cbn [flat_map]. rewrite map_app, IH. reflexivity. Qed.
  Lemma flat_map_map {A B C} (f : A -> B) (g : B -> list C) l : flat_map g (map f l) = flat_map (fun x => g (f x)) l.
  Proof. induction l as [|x l IH]; [reflexivity|]. cbn [map flat_map]. rewrite IH. reflexivity. Qed.
  Lemma flat_map_fm {A B C} (f : A -> list B) (g : B -> list C) l : flat_map g (flat_map f l) = flat_map (fun x => flat_map g (f x)) l.
  Proof. induction l as [|x l IH]; [reflexivity|]. cbn [flat_map]. rewrite flat_map_app, IH. reflexivity. Qed.
  Lemma flat_map_if {A B} (c : bool) (l : list A) (g : A -> list B) : flat_map g (if c then [] else l) = if c then [] else flat_map g l.
  Proof. destruct c; reflexivity. Qed.

  Lemma msub_walks k : forall k' cur rest ve, k <= k' -> length (cur :: rest) + k = length (nodes p) ->
    (forall x, In x (cur :: rest) -> In (fst x) (nodes s) /\ In (snd x) (nodes p)) ->
    msub re_match k' s p (cur :: rest) ve =
    (map (fun w => rec_of (rev (cur :: rest) ++ map fst w) (rev ve ++ map snd w))
         (wk k (match rest with q :: _ => q | [] => (-1, -1)%Z end) cur), Ok tt).
  Proof.
    induction k as [|k IH]; intros k' cur rest ve Hk Hl Hn.
    - assert (length (cur :: rest) =? length (nodes p) = true) by (apply Nat.eqb_eq; lia).
      assert (R : record s (rev (cur :: rest)) (rev ve) = ([rec_of (rev (cur :: rest)) (rev ve)], Ok tt)).
      { unfold record. rewrite rmapm_lab; [reflexivity|]. intros x Hx. apply Hn. apply in_rev. exact Hx. }
      cbn [wk map]. rewrite !app_nil_r. destruct k'; cbn [msub]; rewrite H; exact R.
    - destruct k' as [|k']; [lia|]. destruct cur as [cs ct]. cbn [msub].
      replace (length ((cs, ct) :: rest) =? length (nodes p)) with false by (symmetry; apply Nat.eqb_neq; lia).
      set (prev := match rest with q :: _ => q | [] => (-1, -1)%Z end).
      destruct prev as [ps pt] eqn:Ep.
      destruct (Hn _ (or_introl eq_refl)) as [Ncs Nct]. cbn [fst snd] in Ncs, Nct.
      unfold gpreds, gsuccs. rewrite (proj2 (mem_In ct (nodes p)) Nct), (proj2 (mem_In cs (nodes s)) Ncs). cbn [wget].
      assert (Hrec : forall v t x, In v (nodes s) -> In t (nodes p) ->
        msub re_match k' s p ((v, t) :: (cs, ct) :: rest) (x :: ve) =
        (map (fun w => rec_of (rev ((cs, ct) :: rest) ++ map fst w) (rev ve ++ map snd w)) (map (cons ((v, t), x)) (wk k (cs, ct) (v, t))), Ok tt)).
      { intros v t x Nv Nt. rewrite IH; [|lia|cbn in *; lia|].
        - f_equal. rewrite map_map. apply map_ext. intros w. cbn [map fst snd rev]. rewrite <- !app_assoc. reflexivity.
        - intros y [<- |Hy]; [split; assumption|apply Hn; exact Hy]. }
      set (R := fun w => rec_of (rev ((cs, ct) :: rest) ++ map fst w) (rev ve ++ map snd w)) in *.
      destruct Ws as (_ & _ & Ws'), Wp as (_ & _ & Wp').
      assert (Fit : forall a b c d v t (g : aval -> wout) (h : aval -> hop),
        edge s a b -> edge p c d -> In v (nodes s) -> In t (nodes p) ->
        (forall x, g x = (map R (map (cons (h x)) (wk k (cs, ct) (fst (h x)))), Ok tt)) ->
        wget (fits re_match s p (a, b) (c, d) v t) (fun m => match m with None => wdone | Some x => g x end) =
        (flat_map (fun h => map R (map (cons h) (wk k (cs, ct) (fst h)))) (map h (ok_fit (a, b) (c, d) v t)), Ok tt)).
      { intros a b c d v t g h E E' Nv Nt Hg. unfold ok_fit.
        destruct (fits_spec _ _ _ _ _ _ E E' Nv Nt) as (ls & lp & r & rp & _ & _ & _ & _ & F). rewrite F. cbn [wget].
        destruct (re_match rp r); [|reflexivity]. destruct (re_match lp ls); [|reflexivity]. cbn [map flat_map]. rewrite app_nil_r. apply Hg. }
      rewrite (wfor_ok _ (fun t => flat_map (fun h => map R (map (cons h) (wk k (cs, ct) (fst h))))
        (if (t =? pt)%Z then [] else flat_map (fun v => if (v =? ps)%Z then [] else
          map (fun r => ((v, t), (r, (t, ct)))) (ok_fit (v, cs) (t, ct) v t)) (preds s cs))) (preds p ct)).
      2:{ intros t Ht. rewrite flat_map_if. destruct (t =? pt)%Z; [reflexivity|]. rewrite flat_map_fm. apply wfor_ok.
          intros v Hv. rewrite flat_map_if. destruct (v =? ps)%Z; [reflexivity|]. apply In_preds in Ht, Hv.
          apply (Fit v cs t ct v t (fun x => msub re_match k' s p ((v, t) :: (cs, ct) :: rest) ((x, (t, ct)) :: ve)) (fun r => ((v, t), (r, (t, ct))))); try assumption; try apply (Ws' _ _ Hv); try apply (Wp' _ _ Ht).
          intros x. cbn [fst]. apply Hrec; [apply (Ws' _ _ Hv)|apply (Wp' _ _ Ht)]. }
      rewrite (wfor_ok _ (fun t => flat_map (fun h => map R (map (cons h) (wk k (cs, ct) (fst h))))
        (if (t =? pt)%Z then [] else flat_map (fun v => if (v =? ps)%Z then [] else
          map (fun r => ((v, t), (r, (ct, t)))) (ok_fit (cs, v) (ct, t) v t)) (succs s cs))) (succs p ct)).
      2:{ intros t Ht. rewrite flat_map_if. destruct (t =? pt)%Z; [reflexivity|]. rewrite flat_map_fm. apply wfor_ok.
          intros v Hv. rewrite flat_map_if. destruct (v =? ps)%Z; [reflexivity|]. apply In_succs in Ht, Hv.
          apply (Fit cs v ct t v t (fun x => msub re_match k' s p ((v, t) :: (cs, ct) :: rest) ((x, (ct, t)) :: ve)) (fun r => ((v, t), (r, (ct, t))))); try assumption; try apply (Ws' _ _ Hv); try apply (Wp' _ _ Ht).
          intros x. cbn [fst]. apply Hrec; [apply (Ws' _ _ Hv)|apply (Wp' _ _ Ht)]. }
      unfold wthen. cbn [fst snd wk]. f_equal. rewrite map_flat_map, flat_map_app. unfold ups, downs. cbn [fst snd].
      rewrite !flat_map_fm. reflexivity.
  Qed.

  (** Every walk with one pair for every pattern node is recorded, once. *)
  Lemma walks_exact v t : In v (nodes s) -> In t (nodes p) ->
    exists ws, match_sub_template re_match s p v t = (map (walk_record s (v, t)) ws, Ok tt) /\ NoDup ws /\
               forall w, In w ws <-> S (length w) = length (nodes p) /\ walk re_match s p (-1, -1)%Z (v, t) w.
  Proof.
    intros Hv Ht. assert (0 < length (nodes p)) by (destruct (nodes p); [destruct Ht|cbn; lia]).
    exists (wk (length (nodes p) - 1) (-1, -1)%Z (v, t)). split; [|split].
    - unfold match_sub_template. rewrite (msub_walks (length (nodes p) - 1)); [|lia|cbn; lia|].
      + f_equal. apply map_ext. intros w. unfold rec_of, walk_record. cbn [rev app]. rewrite !map_map. reflexivity.
      + intros x [<- |[]]. split; assumption.
    - apply wk_NoDup.
    - intros w. rewrite wk_spec. split; intros [H1 H2]; (split; [lia|exact H2]).
  Qed.
End Walks.
