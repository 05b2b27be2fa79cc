(** * The walking matcher on trees: occurrences of chains. *)
From Coq Require Import String NArith ZArith Bool Arith Permutation Lia List.
From Verif Require Import Base BaseLemmas Str VocabModel CorpusModel ParModel MxModel DepModel DepSpec DepMatchProofs GrfModel GrfSpec GrfProofs GrfProofs2.
Import ListNotations.
Local Open Scope string_scope.
Local Open Scope nat_scope.
Local Open Scope list_scope.

Notation hop := ((Z * Z) * (aval * (Z * Z)))%type.

Section Chains.
  Context {M : Type} (re_match : pystr -> pystr -> option M).
  Variables (s p : graph) (rs rp : Z).
  Hypothesis Ws : gwf s.
  Hypothesis Wp : gwf p.
  Hypothesis Ts : rooted s rs.
  Hypothesis Tp : rooted p rp.
  Hypothesis Ls : labelled s.
  Hypothesis Lp : labelled p.
  Hypothesis Ms : ~ In (-1)%Z (nodes s).
  Hypothesis Mp : ~ In (-1)%Z (nodes p).

  Notation wlk := (walk re_match s p).
  Definition svs (w : list hop) : list Z := map (fun h => fst (fst h)) w.
  Definition pvs (w : list hop) : list Z := map (fun h => snd (fst h)) w.

  Lemma walk_inv prev cur nxt e w : wlk prev cur ((nxt, e) :: w) ->
    step re_match s p cur nxt e /\ fst nxt <> fst prev /\ snd nxt <> snd prev /\ wlk cur nxt w.
  Proof. intros H. inversion H; subst. repeat split; assumption. Qed.
  Lemma walk_s w : forall prev cur, wlk prev cur w -> tw s (fst prev) (fst cur) (svs w).
  Proof.
    induction w as [|[nxt e] w IH]; intros prev cur H; [constructor|]. destruct (walk_inv _ _ _ _ _ H) as (St & N1 & N2 & W).
    cbn [svs map fst]. constructor; [|exact N1|exact (IH _ _ W)].
    destruct St as (ls & lp & r & rq & _ & _ & _ & _ & [(R & _)|(R & _)]); [right|left]; exact (has_rel_edge _ _ _ _ R).
  Qed.
  Lemma walk_p w : forall prev cur, wlk prev cur w -> tw p (snd prev) (snd cur) (pvs w).
  Proof.
    induction w as [|[nxt e] w IH]; intros prev cur H; [constructor|]. destruct (walk_inv _ _ _ _ _ H) as (St & N1 & N2 & W).
    cbn [pvs map fst]. constructor; [|exact N2|exact (IH _ _ W)].
    destruct St as (ls & lp & r & rq & _ & _ & _ & _ & [(_ & R & _)|(_ & R & _)]); [right|left]; exact (has_rel_edge _ _ _ _ R).
  Qed.

  (** A full walk makes the pattern a chain. *)
  Lemma full_perm v t w : In t (nodes p) -> S (length w) = length (nodes p) -> wlk (-1, -1)%Z (v, t) w ->
    Permutation (t :: pvs w) (nodes p).
  Proof.
    intros Ht L H. pose proof (walk_p _ _ _ H) as Hp. cbn [fst snd] in Hp.
    apply NoDup_Permutation_bis.
    - exact (tw_NoDup _ _ Wp Tp _ _ _ Ht Hp).
    - unfold pvs. cbn [length]. rewrite map_length. lia.
    - intros x [<- |Hx]; [exact Ht|]. exact (tw_nodes _ Wp _ _ _ _ Hp Hx).
  Qed.
  Lemma full_adj v t w : In t (nodes p) -> S (length w) = length (nodes p) -> wlk (-1, -1)%Z (v, t) w ->
    forall a b, (edge p a b \/ edge p b a) <-> (consecutive (t :: pvs w) a b \/ consecutive (t :: pvs w) b a).
  Proof.
    intros Ht L H a b. pose proof (full_perm _ _ _ Ht L H) as P. pose proof (walk_p _ _ _ H) as Hp. cbn [fst snd] in Hp.
    assert (forall x, In x (nodes p) -> In x (t :: pvs w)) by (intros x; apply Permutation_in, Permutation_sym, P). split.
    - intros [E|E].
      + apply (tw_consecutive _ _ Wp Tp _ _ _ _ _ Ht Hp); [apply H0, (edge_l _ Wp _ _ E)|apply H0, (edge_r _ Wp _ _ E)|exact E].
      + apply or_comm. apply (tw_consecutive _ _ Wp Tp _ _ _ _ _ Ht Hp); [apply H0, (edge_l _ Wp _ _ E)|apply H0, (edge_r _ Wp _ _ E)|exact E].
    - intros [C|C]; [|apply or_comm]; exact (tw_adj _ _ _ _ _ _ Hp C).
  Qed.
  Lemma full_chain v t w : In t (nodes p) -> S (length w) = length (nodes p) -> wlk (-1, -1)%Z (v, t) w -> chain_from p t.
  Proof. intros Ht L H. exists (pvs w). split; [exact (full_perm _ _ _ Ht L H)|exact (full_adj _ _ _ Ht L H)]. Qed.

  (** ** From walks to occurrences *)
  Definition fmap_of (start : Z * Z) (w : list hop) (x : Z) : Z :=
    match dget (map (fun st => (snd st, fst st)) (start :: map fst w)) x with Some y => y | None => (-1)%Z end.
  Lemma fmap_In start w a b : NoDup (snd start :: pvs w) -> In (a, b) (start :: map fst w) -> fmap_of start w b = a.
  Proof.
    intros D H. unfold fmap_of. replace (dget _ b) with (Some a); [reflexivity|]. symmetry. apply dget_In.
    - unfold dwf, dkeys. rewrite map_map. cbn [fst map]. rewrite map_map. exact D.
    - apply in_map_iff. exists (a, b). split; [reflexivity|exact H].
  Qed.
  Lemma pvs_In start w b : In b (snd start :: pvs w) -> exists a, In (a, b) (start :: map fst w).
  Proof.
    intros [<- |H]; [exists (fst start); left; destruct start; reflexivity|]. apply in_map_iff in H. destruct H as ([[a b'] e] & <- & H).
    exists a. right. apply in_map_iff. exists ((a, b'), e). split; [reflexivity|exact H].
  Qed.
  (** Neighbours on the walk's pattern side come from a step. *)
  Lemma consec_step w : forall prev cur a b, wlk prev cur w -> consecutive (snd cur :: pvs w) a b ->
    exists x y e, In (x, a) (cur :: map fst w) /\ In ((y, b), e) w /\ step re_match s p (x, a) (y, b) e.
  Proof.
    induction w as [|[nxt e] w IH]; intros prev cur a b H (l1 & l2 & E).
    - destruct l1 as [|? [|? ?]]; discriminate.
    - destruct (walk_inv _ _ _ _ _ H) as (St & N1 & N2 & W). cbn [pvs map fst] in E. destruct l1 as [|z l1].
      + injection E as <- <- _. exists (fst cur), (fst nxt), e. destruct cur, nxt. cbn [fst snd] in *. split; [left; reflexivity|]. split; [left; reflexivity|exact St].
      + injection E as <- E. destruct (IH _ _ a b W) as (x & y & e' & H1 & H2 & H3); [exists l1, l2; exact E|].
        exists x, y, e'. split; [right; exact H1|]. split; [right; exact H2|exact H3].
  Qed.
  Lemma hop_step w : forall prev cur h, wlk prev cur w -> In h w -> exists a, In a (cur :: map fst w) /\ step re_match s p a (fst h) (snd h).
  Proof.
    induction w as [|[nxt e] w IH]; intros prev cur h H Hh; [destruct Hh|]. destruct (walk_inv _ _ _ _ _ H) as (St & N1 & N2 & W).
    destruct Hh as [<- |Hh]; [exists cur; split; [left; reflexivity|exact St]|].
    destruct (IH _ _ _ W Hh) as (a & Ha & S'). exists a. split; [right; exact Ha|exact S'].
  Qed.

  Section Full.
    Variables (v t : Z) (w : list hop).
    Hypothesis Hv : In v (nodes s).
    Hypothesis Ht : In t (nodes p).
    Hypothesis Lw : S (length w) = length (nodes p).
    Hypothesis Hw : wlk (-1, -1)%Z (v, t) w.
    Notation f := (fmap_of (v, t) w).
    Let Dp : NoDup (t :: pvs w).
    Proof. exact (tw_NoDup _ _ Wp Tp _ _ _ Ht (walk_p _ _ _ Hw)). Qed.
    Let Ds : NoDup (v :: svs w).
    Proof. exact (tw_NoDup _ _ Ws Ts _ _ _ Hv (walk_s _ _ _ Hw)). Qed.

    Lemma f_pair a b : In (a, b) ((v, t) :: map fst w) -> f b = a.
    Proof. apply fmap_In. exact Dp. Qed.
    Lemma node_pair b : In b (nodes p) -> In (f b, b) ((v, t) :: map fst w).
    Proof.
      intros Hb. destruct (pvs_In (v, t) w b) as [a Ha].
      - cbn [snd]. apply (Permutation_in _ (Permutation_sym (full_perm _ _ _ Ht Lw Hw))), Hb.
      - rewrite (f_pair _ _ Ha). exact Ha.
    Qed.
    Lemma pair_node a b : In (a, b) ((v, t) :: map fst w) -> In a (nodes s) /\ In b (nodes p).
    Proof.
      intros [E|H]; [injection E as <- <-; split; assumption|]. apply in_map_iff in H. destruct H as ([[a' b'] e] & E & H). cbn [fst] in E. injection E as -> ->.
      destruct (hop_step _ _ _ _ Hw H) as (c & _ & (ls & lp & r & rq & H1 & H2 & _)). cbn [fst snd] in *.
      split; [exact (has_label_node _ _ _ H1)|exact (has_label_node _ _ _ H2)].
    Qed.
    Lemma f_inj a b : In a (nodes p) -> In b (nodes p) -> f a = f b -> a = b.
    Proof.
      intros Ha Hb E. apply node_pair in Ha, Hb. rewrite E in Ha. revert Ha Hb. generalize (f b) as x. intros x Ha Hb.
      assert (G : forall l : list (Z * Z), NoDup (map fst l) -> In (x, a) l -> In (x, b) l -> a = b).
      { clear. induction l as [|[y z] l IH]; intros D Ha Hb; [destruct Ha|]. inversion D; subst. destruct Ha as [Ha|Ha], Hb as [Hb|Hb].
        - congruence.
        - exfalso. apply H1. injection Ha as -> ->. apply in_map_iff. exists (x, b). split; [reflexivity|exact Hb].
        - exfalso. apply H1. injection Hb as -> ->. apply in_map_iff. exists (x, a). split; [reflexivity|exact Ha].
        - exact (IH H2 Ha Hb). }
      apply (G ((v, t) :: map fst w)); [|exact Ha|exact Hb]. cbn [map fst]. rewrite map_map. exact Ds.
    Qed.
    (** A step between two pairs of the walk, seen from an edge of the pattern *)
    Lemma edge_step a b : edge p a b -> exists rq r, has_rel p (a, b) rq /\ has_rel s (f a, f b) r /\ re_match rq r <> None /\
      exists y, In (y, (AStr r, (a, b))) w.
    Proof.
      intros E. assert (C : consecutive (t :: pvs w) a b \/ consecutive (t :: pvs w) b a)
        by (apply (proj1 (full_adj _ _ _ Ht Lw Hw a b)); left; exact E).
      destruct C as [C|C]; destruct (consec_step _ _ _ _ _ Hw C) as (x & y & e & H1 & H2 & (ls & lp & r & rq & _ & _ & _ & Q & [(R1 & R2 & ->)|(R1 & R2 & ->)])); cbn [fst snd] in *.
      - exfalso. exact (no_2 _ _ Wp Tp _ _ E (has_rel_edge _ _ _ _ R2)).
      - exists rq, r. rewrite (f_pair _ _ H1), (f_pair y b) by (right; apply in_map_iff; eexists; split; [|exact H2]; reflexivity).
        repeat (split; [assumption|]). eexists. exact H2.
      - exists rq, r. rewrite (f_pair _ _ H1), (f_pair y a) by (right; apply in_map_iff; eexists; split; [|exact H2]; reflexivity).
        repeat (split; [assumption|]). eexists. exact H2.
      - exfalso. exact (no_2 _ _ Wp Tp _ _ E (has_rel_edge _ _ _ _ R2)).
    Qed.
    Lemma full_occ : occurrence re_match s p v t f.
    Proof.
      split; [apply f_pair; left; reflexivity|]. split; [|split].
      - intros b Hb Nb. pose proof (node_pair _ Hb) as [E|H]; [congruence|]. apply in_map_iff in H. destruct H as ([[a' b'] e] & E & H). cbn [fst] in E. injection E as -> ->.
        destruct (hop_step _ _ _ _ Hw H) as (c & _ & (ls & lp & r & rq & H1 & H2 & Q & _)). cbn [fst snd] in *. exists lp, ls. repeat (split; [assumption|]). exact Q.
      - intros a b E. destruct (edge_step _ _ E) as (rq & r & H1 & H2 & H3 & _). exists rq, r. repeat (split; [assumption|]). exact H3.
      - exact f_inj.
    Qed.
    (** Every hop goes along an edge of the pattern, with the relation between the images. *)
    Lemma hop_edge y r a b : In (y, (r, (a, b))) w -> edge p a b /\ exists x, r = AStr x /\ has_rel s (f a, f b) x.
    Proof.
      intros H. destruct (hop_step _ _ _ _ Hw H) as ([c d] & Hc & (ls & lp & x & rq & _ & _ & _ & _ & Q)). cbn [fst snd] in Q.
      assert (Hy : f (snd y) = fst y) by (apply f_pair; right; apply in_map_iff; eexists; split; [|exact H]; destruct y; reflexivity).
      apply f_pair in Hc. destruct Q as [(R1 & R2 & E)|(R1 & R2 & E)]; injection E as -> -> ->; rewrite Hc, Hy; (split; [exact (has_rel_edge _ _ _ _ R2)|]); exists x; split; auto.
    Qed.
    Lemma hop_edges_NoDup : NoDup (map (fun x => snd (snd x)) w).
    Proof.
      cut (forall w' prev cur, NoDup (snd cur :: pvs w') -> wlk prev cur w' ->
           NoDup (map (fun x => snd (snd x)) w') /\ forall a b, In (a, b) (map (fun x => snd (snd x)) w') -> In a (snd cur :: pvs w') /\ In b (snd cur :: pvs w') /\ (In a (pvs w') \/ In b (pvs w'))).
      { intros G. exact (proj1 (G w (-1, -1)%Z (v, t) Dp Hw)). }
      clear. intros w'. induction w' as [|[nxt e] w' IH]; intros prev cur D H; [split; [constructor|intros a b []]|].
      destruct (walk_inv _ _ _ _ _ H) as (St & N1 & N2 & W). cbn [pvs map fst] in D. inversion D; subst.
      destruct (IH _ _ H3 W) as [G1 G2]. cbn [map snd fst pvs].
      destruct St as (ls & lp & r & rq & _ & _ & _ & _ & Q).
      assert (E : snd e = (snd nxt, snd cur) \/ snd e = (snd cur, snd nxt)) by (destruct Q as [(_ & _ & ->)|(_ & _ & ->)]; auto).
      split.
      - constructor; [|exact G1]. intros Hin.
        destruct E as [E|E]; rewrite E in Hin; destruct (G2 _ _ Hin) as (A & B & _); apply H2; assumption.
      - intros a b [E'|Hin].
        + rewrite E' in E. destruct E as [E|E]; injection E as -> ->; cbn; tauto.
        + destruct (G2 _ _ Hin) as (A & B & C). fold (pvs w'). cbn in *. tauto.
    Qed.
    Lemma full_record : occ_record s p f (walk_record s (v, t) w).
    Proof.
      assert (K1 : dwf (map (fun st : Z * Z => (snd st, label_of s (fst st))) ((v, t) :: map fst w))).
      { unfold dwf, dkeys. rewrite map_map. cbn [fst map snd]. rewrite map_map. exact Dp. }
      assert (K2 : dwf (map (fun x : hop => (snd (snd x), fst (snd x))) w)).
      { unfold dwf, dkeys. rewrite map_map. cbn [fst]. exact hop_edges_NoDup. }
      assert (DO : forall (K V : Type) (EK : EqDec K) (l : dict K V), dwf l -> dwf (dict_of l) /\ forall k x, dget (dict_of l) k = Some x <-> In (k, x) l).
      { clear. intros K V EK l Wl. rewrite (dict_of_id l Wl). split; [exact Wl|]. intros k x. symmetry. apply dget_In. exact Wl. }
      destruct (DO _ _ _ _ K1) as [A1 A2], (DO _ _ _ _ K2) as [B1 B2]. split; [exact A1|]. split; [exact B1|]. split.
      - intros b x. cbn [walk_record fst]. rewrite A2. split.
        + intros H. apply in_map_iff in H. destruct H as ([a b'] & E & H). cbn [fst snd] in E. injection E as -> <-.
          destruct (pair_node _ _ H) as [Na Nb]. split; [exact Nb|]. destruct Ls as [L1 _]. destruct (L1 _ Na) as [y Hy]. exists y.
          unfold label_of. rewrite (has_label_nlabel _ _ _ Hy), (f_pair _ _ H). auto.
        + intros (Hb & y & -> & Hy). apply in_map_iff. exists (f b, b). split; [|exact (node_pair _ Hb)].
          cbn [fst snd]. unfold label_of. rewrite (has_label_nlabel _ _ _ Hy). reflexivity.
      - intros a b x. cbn [walk_record snd]. rewrite B2. split.
        + intros H. apply in_map_iff in H. destruct H as ([y [r [c d]]] & E & H). cbn [fst snd] in E. injection E as -> -> ->.
          exact (hop_edge _ _ _ _ H).
        + intros (E & y & -> & Hy). destruct (edge_step _ _ E) as (rq & r & _ & R & _ & (z & Hz)).
          rewrite (has_rel_fun _ _ _ _ Hy R). apply in_map_iff. exists (z, (AStr r, (a, b))). split; [reflexivity|exact Hz].
    Qed.
  End Full.

  (** ** From occurrences to walks *)
  Lemma NoDup_nodes_p : NoDup (nodes p). Proof. apply Wp. Qed.
  Lemma occ_walk v t f l0 : occurrence re_match s p v t f -> Permutation (t :: l0) (nodes p) ->
    (forall a b, consecutive (t :: l0) a b -> edge p a b \/ edge p b a) ->
    exists w, wlk (-1, -1)%Z (v, t) w /\ pvs w = l0 /\ forall x, In x w -> fst (fst x) = f (snd (fst x)).
  Proof.
    intros (F1 & F2 & F3 & F4) P C.
    assert (D : NoDup (t :: l0)) by (apply (Permutation_NoDup (Permutation_sym P)), NoDup_nodes_p).
    assert (In_p : forall x, In x (t :: l0) -> In x (nodes p)) by (intros x; apply Permutation_in, P).
    assert (G : forall l pre cur ps pt, t :: l0 = pre ++ cur :: l -> ~ In pt l -> (forall x, In x l -> f x <> ps) ->
      exists w, wlk (ps, pt) (f cur, cur) w /\ pvs w = l /\ forall x, In x w -> fst (fst x) = f (snd (fst x))).
    { induction l as [|n l IH]; intros pre cur ps pt E N1 N2.
      - exists []. split; [constructor|]. split; [reflexivity|]. intros x [].
      - assert (Dl : NoDup (cur :: n :: l)) by (rewrite E in D; clear - D; induction pre as [|y pre IHp]; [exact D|inversion D; subst; exact (IHp H2)]).
        assert (Il : forall x, In x (cur :: n :: l) -> In x (nodes p)).
        { intros x Hx. apply In_p. rewrite E. apply in_app_iff. right. exact Hx. }
        inversion Dl; subst.
        destruct (IH (pre ++ [cur]) n (f cur) cur) as (w & W1 & W2 & W3).
        + rewrite <- app_assoc. exact E.
        + intros Hin. apply H1. right. exact Hin.
        + intros x Hx Ex. apply H1. right. replace cur with x; [exact Hx|]. apply F4; [apply Il; right; right; exact Hx|apply Il; left; reflexivity|exact Ex].
        + assert (Nt : n <> t).
          { intros ->. destruct pre as [|y pre]; injection E as E1 E2; [apply H1; left; congruence|].
            apply (proj1 (NoDup_cons_iff _ _)) in D. apply (proj1 D). rewrite E2. apply in_app_iff. right. right. left. reflexivity. }
          destruct (F2 n) as (lp & ls & Q1 & Q2 & Q3); [apply Il; right; left; reflexivity|exact Nt|].
          destruct (C cur n) as [Ed|Ed]; [exists pre, l; exact E| |]; destruct (F3 _ _ Ed) as (rq & r & R1 & R2 & R3).
          * exists (((f n, n), (AStr r, (cur, n))) :: w). split; [|split].
            -- constructor; cbn [fst snd]; [|apply N2; left; reflexivity|intros <-; apply N1; left; reflexivity|exact W1].
               exists ls, lp, r, rq. repeat (split; [assumption|]). right. repeat split; assumption.
            -- cbn [pvs map fst snd]. f_equal. exact W2.
            -- intros x [<- |Hx]; [reflexivity|apply W3; exact Hx].
          * exists (((f n, n), (AStr r, (n, cur))) :: w). split; [|split].
            -- constructor; cbn [fst snd]; [|apply N2; left; reflexivity|intros <-; apply N1; left; reflexivity|exact W1].
               exists ls, lp, r, rq. repeat (split; [assumption|]). left. repeat split; assumption.
            -- cbn [pvs map fst snd]. f_equal. exact W2.
            -- intros x [<- |Hx]; [reflexivity|apply W3; exact Hx]. }
    destruct (G l0 [] t (-1)%Z (-1)%Z) as (w & W1 & W2 & W3).
    - reflexivity.
    - intros Hin. apply Mp, In_p. right. exact Hin.
    - intros x Hx Ex. destruct (F2 x) as (lp & ls & _ & Q & _); [apply In_p; right; exact Hx|intros ->; inversion D; contradiction|].
      rewrite Ex in Q. exact (Ms (has_label_node _ _ _ Q)).
    - rewrite F1 in W1. exists w. repeat (split; [assumption|]). exact W3.
  Qed.

  (** ** A chain has one walk through its nodes. *)
  Lemma tw_unique l0 t : NoDup (t :: l0) -> (forall a b, edge p a b \/ edge p b a -> consecutive (t :: l0) a b \/ consecutive (t :: l0) b a) ->
    forall l prev, tw p prev t l -> length l = length l0 -> l = l0.
  Proof.
    intros D C. assert (G : forall suf pre prev cur l, t :: l0 = pre ++ prev :: cur :: suf -> tw p prev cur l -> length l = length suf -> l = suf).
    { induction suf as [|m suf IH]; intros pre prev cur l E H L; (destruct l as [|n l]; try discriminate); [reflexivity|].
      destruct (tw_inv _ _ _ _ _ H) as (A & N & H').
      assert (n = m).
      { destruct (C _ _ A) as [Q|Q].
        - apply (consec_next (t :: l0) (pre ++ [prev]) suf cur m n D); [rewrite E, <- app_assoc; reflexivity|exact Q].
        - exfalso. apply N. exact (consec_prev _ _ _ _ _ _ D E Q). }
      subst m. f_equal. apply (IH (pre ++ [prev]) cur n); [rewrite E, <- app_assoc; reflexivity|exact H'|]. cbn in L. lia. }
    intros l prev H L. destruct l as [|n l], l0 as [|m l0]; try discriminate; [reflexivity|].
    destruct (tw_inv _ _ _ _ _ H) as (A & N & H').
    assert (n = m).
    { destruct (C _ _ A) as [Q|Q]; [|exfalso; exact (consec_first _ _ _ D Q)].
      apply (consec_next (t :: m :: l0) [] l0 t m n D eq_refl Q). }
    subst m. f_equal. apply (G l0 [] t n); [reflexivity|exact H'|]. cbn in L. lia.
  Qed.
  Lemma walk_ext w : forall w' prev cur, wlk prev cur w -> wlk prev cur w' -> pvs w = pvs w' -> svs w = svs w' -> w = w'.
  Proof.
    induction w as [|[[a b] e] w IH]; intros w' prev cur H H' E E'; (destruct w' as [|[[a' b'] e'] w']; try discriminate); [reflexivity|].
    cbn [pvs svs map fst snd] in E, E'. injection E as -> E. injection E' as -> E'.
    destruct (walk_inv _ _ _ _ _ H) as (S1 & _ & _ & W1), (walk_inv _ _ _ _ _ H') as (S2 & _ & _ & W2).
    f_equal; [|exact (IH _ _ _ W1 W2 E E')]. f_equal.
    destruct S1 as (ls & lp & r & rq & _ & _ & _ & _ & S1), S2 as (ls' & lp' & r' & rq' & _ & _ & _ & _ & S2). cbn [fst snd] in *.
    destruct S1 as [(R1 & R2 & ->)|(R1 & R2 & ->)], S2 as [(R3 & R4 & ->)|(R3 & R4 & ->)];
      try (exfalso; apply has_rel_edge in R2, R4; exact (no_2 _ _ Wp Tp _ _ R2 R4));
      rewrite (has_rel_fun _ _ _ _ R1 R3); reflexivity.
  Qed.
  Lemma full_unique v t w w' : In v (nodes s) -> In t (nodes p) -> S (length w) = length (nodes p) -> S (length w') = length (nodes p) ->
    wlk (-1, -1)%Z (v, t) w -> wlk (-1, -1)%Z (v, t) w' -> same_on p (fmap_of (v, t) w) (fmap_of (v, t) w') -> w = w'.
  Proof.
    intros Hv Ht L L' H H' Sm.
    assert (Ep : pvs w' = pvs w).
    { apply (tw_unique (pvs w) t) with (prev := (-1)%Z).
      - exact (tw_NoDup _ _ Wp Tp _ _ _ Ht (walk_p _ _ _ H)).
      - intros a b. apply (proj1 (full_adj _ _ _ Ht L H a b)).
      - exact (walk_p _ _ _ H').
      - unfold pvs. rewrite !map_length. lia. }
    assert (Sv : forall w0, S (length w0) = length (nodes p) -> wlk (-1, -1)%Z (v, t) w0 -> svs w0 = map (fmap_of (v, t) w0) (pvs w0)).
    { intros w0 L0 H0. unfold svs, pvs. rewrite map_map. apply map_ext_in. intros [[a b] e] Hh. cbn [fst snd]. symmetry.
      apply (f_pair v t w0 Ht H0). right. apply in_map_iff. exists ((a, b), e). split; [reflexivity|exact Hh]. }
    apply (walk_ext _ _ _ _ H H' (eq_sym Ep)). rewrite (Sv _ L H), (Sv _ L' H'), Ep. apply map_ext_in. intros x Hx. apply Sm.
    apply (Permutation_in _ (full_perm _ _ _ Ht L H)). right. exact Hx.
  Qed.

  (** ** The result *)
  Lemma chains_exact v t : In v (nodes s) -> In t (nodes p) -> chain_from p t ->
    exists fs ms, match_sub_template re_match s p v t = (ms, Ok tt) /\
      Forall2 (fun f m => occurrence re_match s p v t f /\ occ_record s p f m) fs ms /\
      (forall f, occurrence re_match s p v t f -> exists f', In f' fs /\ same_on p f f') /\
      ForallOrdPairs (fun f f' => ~ same_on p f f') fs.
  Proof.
    intros Hv Ht (l0 & P & C).
    destruct (walks_exact re_match s p Ws Wp Ls Lp (no_loop _ _ Wp Tp) v t Hv Ht) as (ws & R & D & I).
    exists (map (fmap_of (v, t)) ws), (map (walk_record s (v, t)) ws). split; [exact R|]. split; [|split].
    - clear R D. assert (A : forall w, In w ws -> S (length w) = length (nodes p) /\ wlk (-1, -1)%Z (v, t) w) by (intros w; apply (proj1 (I w))).
      clear I. induction ws as [|w ws IH]; [constructor|]. cbn [map]. destruct (A w (or_introl eq_refl)) as [A1 A2]. constructor.
      + split; [apply full_occ; assumption|apply full_record; assumption].
      + apply IH. intros w' Hw'. apply A. right. exact Hw'.
    - intros f F. destruct (occ_walk _ _ _ _ F P) as (w & W1 & W2 & W3).
      + intros a b Q. apply (proj2 (C a b)). left. exact Q.
      + assert (L : S (length w) = length (nodes p)).
        { rewrite <- (Permutation_length P), <- W2. unfold pvs. cbn [length]. rewrite map_length. reflexivity. }
        exists (fmap_of (v, t) w). split; [apply in_map, I; split; assumption|].
        intros x Hx. pose proof (node_pair v t w Ht L W1 x Hx) as [E|Hin].
        * injection E as E1 E2. subst x. rewrite <- E1. exact (proj1 F).
        * apply in_map_iff in Hin. destruct Hin as ([[a b] e] & E & Hin). cbn [fst] in E. injection E as E1 E2.
          pose proof (W3 _ Hin) as Q. cbn [fst snd] in Q. congruence.
    - clear R. assert (A : forall w, In w ws -> S (length w) = length (nodes p) /\ wlk (-1, -1)%Z (v, t) w) by (intros w; apply (proj1 (I w))).
      clear I. induction ws as [|w ws IH]; [constructor|]. inversion D; subst. cbn [map]. constructor.
      + apply Forall_forall. intros f Hf Sm. apply in_map_iff in Hf. destruct Hf as (w' & <- & Hw').
        destruct (A w (or_introl eq_refl)) as [A1 A2], (A w' (or_intror Hw')) as [A3 A4].
        apply H1. rewrite (full_unique v t w w' Hv Ht A1 A3 A2 A4 Sm). exact Hw'.
      + apply IH; [exact H2|]. intros w' Hw'. apply A. right. exact Hw'.
  Qed.
  Lemma only_chains v t : In v (nodes s) -> In t (nodes p) -> ~ chain_from p t -> match_sub_template re_match s p v t = ([], Ok tt).
  Proof.
    intros Hv Ht N. destruct (walks_exact re_match s p Ws Wp Ls Lp (no_loop _ _ Wp Tp) v t Hv Ht) as (ws & R & D & I).
    destruct ws as [|w ws]; [exact R|]. exfalso. apply N. destruct (proj1 (I w) (or_introl eq_refl)) as [L H]. exact (full_chain _ _ _ Ht L H).
  Qed.
End Chains.
