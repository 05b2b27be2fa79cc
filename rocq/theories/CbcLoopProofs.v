(** * Step 3, the major steps, the loop and the multi-core first step. *)
From Coq Require Import String NArith ZArith QArith Bool Arith Permutation Sorted Lia List.
From Verif Require Import Base BaseLemmas Str DepMatchProofs CbcModel CbcSpec CbcMergeProofs CbcCleanProofs CbcStepProofs.
Import ListNotations.
Local Open Scope nat_scope.

(** ** Subsequences *)
Lemma subseq_refl {A} (l : list A) : subseq l l.
Proof. induction l; constructor; auto. Qed.
Lemma subseq_nil {A} (l : list A) : subseq [] l.
Proof. induction l; constructor; auto. Qed.
Lemma subseq_In {A} (a b : list A) x : subseq a b -> In x a -> In x b.
Proof. induction 1; cbn; intuition. Qed.
Lemma subseq_length {A} (a b : list A) : subseq a b -> length a <= length b.
Proof. induction 1; cbn; lia. Qed.
Lemma subseq_eq {A} (a b : list A) : subseq a b -> length a = length b -> a = b.
Proof. induction 1 as [|x l l' S IH|x l l' S IH]; cbn; intros E; auto; [f_equal; auto|]. pose proof (subseq_length _ _ S). lia. Qed.
Lemma subseq_trans {A} (a b c : list A) : subseq a b -> subseq b c -> subseq a c.
Proof.
  intros H H'. revert a H. induction H' as [|x l l' S IH|x l l' S IH]; intros a H; auto.
  - inversion H; subst; constructor; auto.
  - constructor; auto.
Qed.
Lemma subseq_NoDup {A} (a b : list A) : subseq a b -> NoDup b -> NoDup a.
Proof. induction 1; intros N; auto; inversion N; subst; auto. constructor; auto. intros C. eapply subseq_In in C; eauto. Qed.
Lemma subseq_filter {A} (p : A -> bool) l : subseq (filter p l) l.
Proof. induction l as [|x l IH]; cbn [filter]; [constructor|]. destruct (p x); constructor; auto. Qed.
Lemma subseq_firstn {A} n (l : list A) : subseq (firstn n l) l.
Proof. revert l. induction n as [|n IH]; intros [|x l]; cbn [firstn]; try constructor; auto. apply subseq_nil. Qed.

(** ** Step 3 *)
Section Step3.
  Variable esim : list pystr -> pystr -> list pystr -> Q.
  Variable rows : list pystr.
  Local Notation sims x commx := (map (esim rows x) commx).
  Local Notation low theta row := (forallb (fun s => qlt s theta) row).
  Lemma low_exists theta row : existsb (fun s => Qle_bool theta s) row = negb (low theta row).
  Proof. induction row as [|s row IH]; auto. cbn [existsb forallb]. rewrite IH. unfold qlt. destruct (Qle_bool theta s); reflexivity. Qed.
  Lemma s3_fold elements commx theta l : forall R comms r, rfold (s3_step esim rows elements commx theta) l (R, comms) = Ok r ->
    exists es, Forall2 (fun ir e => nth_error elements (fst ir) = Some e) l es /\
      fst r = R ++ map snd (filter (fun xe => low theta (sims (fst xe) commx)) (combine (map snd l) es)) /\
      length (snd r) = length comms /\
      forall j c', nth_error (snd r) j = Some c' -> exists c, nth_error comms j = Some c /\
        forall e, In e c' <-> In e c \/ exists x, In (x, e) (combine (map snd l) es) /\ low theta (sims x commx) = false /\ argmax (sims x commx) = j.
  Proof.
    induction l as [|[i x] l IH]; intros R comms r E; cbn [rfold] in E.
    - injection E as <-. exists []. split; [constructor|]. cbn. split; [now rewrite app_nil_r|]. split; auto. intros j c' Ec. exists c'. split; auto. intros e. split; auto. intros [|(? & [] & _)]; auto.
    - apply rbind_ok in E as ([R1 c1] & E1 & E). unfold s3_step in E1. cbn [fst snd] in E1. destruct (nth_error elements i) as [e|] eqn:Ee; [|discriminate]. rewrite low_exists in E1.
      destruct (low theta (sims x commx)) eqn:Lo; cbn [negb] in E1; injection E1 as <- <-; destruct (IH _ _ _ E) as (es & F & HR & HL & HC); exists (e :: es); (split; [constructor; auto|]); cbn [map snd fst combine filter]; rewrite Lo; cbn [map].
      + split; [rewrite HR, <- app_assoc; reflexivity|]. split; auto. intros j c' Ec. destruct (HC j c' Ec) as (c & Ec0 & H). exists c. split; auto. intros e'. rewrite H. split; intros [I|(y & I & A & B)]; auto.
        * right. exists y. cbn; auto.
        * destruct I as [[= <- <-]|I]; [congruence|]. right. eauto.
      + split; auto. split; [rewrite HL; unfold assign; now rewrite map_length, enum_length|]. intros j c' Ec. destruct (HC j c' Ec) as (c & Ec0 & H). rewrite assign_nth in Ec0. destruct (nth_error comms j) as [c0|] eqn:E0; [|discriminate].
        exists c0. split; auto. cbn [option_map] in Ec0. injection Ec0 as <-. intros e'. rewrite H. split.
        * intros [I|(y & I & A & B)]; [|right; exists y; cbn; auto]. destruct ((j =? argmax (sims x commx)) && negb (mem e c0)) eqn:T; auto. apply in_app_iff in I as [I|[<-|[]]]; auto. apply andb_true_iff in T as [T _]. apply Nat.eqb_eq in T. right. exists x. cbn; auto.
        * intros [I|(y & [[= <- <-]|I] & A & B)].
          -- left. destruct (_ && _); auto. apply in_app_iff; auto.
          -- left. rewrite B, Nat.eqb_refl. destruct (mem e c0) eqn:M; cbn [andb negb]; [now apply mem_In|]. apply in_app_iff. cbn; auto.
          -- right. eauto.
  Qed.
  Lemma enum_combine {A B} (l : list A) (els : list B) es : Forall2 (fun (ir : nat * A) e => nth_error els (fst ir) = Some e) (enumerate l) es -> combine (map snd (enumerate l)) es = combine l els /\ length l <= length els.
  Proof.
    rewrite enum_snd. unfold enumerate. assert (H : forall (l : list A) a es, Forall2 (fun (ir : nat * A) e => nth_error els (fst ir) = Some e) (combine (seq a (length l)) l) es -> combine l es = combine l (skipn a els) /\ (l <> [] -> a + length l <= length els)).
    { clear. induction l as [|x l IH]; intros a es F; [split; [reflexivity|congruence]|]. cbn [length seq combine] in F. inversion F as [|? e ? es' E F']; subst. cbn [fst] in E. destruct (IH _ _ F') as [H1 H2].
      assert (La : a < length els) by (apply nth_error_Some; congruence). cbn [combine]. split.
      - assert (Sk : skipn a els = e :: skipn (S a) els). { clear - E. revert els E. induction a as [|a IH]; intros [|y els] E; try discriminate; cbn in *; [now injection E as ->|auto]. }
        rewrite Sk. cbn [combine]. now rewrite H1.
      - intros _. cbn [length]. destruct l; [cbn; lia|]. specialize (H2 ltac:(discriminate)). cbn in *. lia. }
    intros F. destruct (H l 0 es F) as [H1 H2]. split; auto. destruct l; [cbn; lia|]. apply H2. discriminate.
  Qed.
  (** Residues and assigned elements *)
  Theorem step3_spec elements comms commx theta R comms' : cbc_step3 esim rows elements comms commx theta = Ok (R, comms') ->
    R = map snd (filter (fun xe => low theta (sims (fst xe) commx)) (combine rows elements)) /\ length comms' = length comms /\ length rows <= length elements /\
    forall j c', nth_error comms' j = Some c' -> exists c, nth_error comms j = Some c /\
      forall e, In e c' <-> In e c \/ exists x, In (x, e) (combine rows elements) /\ low theta (sims x commx) = false /\ argmax (sims x commx) = j.
  Proof.
    unfold cbc_step3. destruct commx as [|c0 cx] eqn:Ec; [discriminate|]. rewrite <- Ec. clear Ec. intros E. destruct (s3_fold elements commx theta (enumerate rows) [] comms _ E) as (es & F & HR & HL & HC). cbn [fst snd app] in *.
    destruct (enum_combine _ _ _ F) as [Eq Le]. rewrite Eq in *. auto.
  Qed.
  Lemma combine_same {A} (l : list A) : combine l l = map (fun x => (x, x)) l.
  Proof. induction l; cbn; congruence. Qed.
  Lemma step3_own elements comms commx theta R comms' : rows = elements -> cbc_step3 esim rows elements comms commx theta = Ok (R, comms') ->
    R = filter (fun e => low theta (sims e commx)) elements /\ length comms' = length comms /\
    forall j c', nth_error comms' j = Some c' -> exists c, nth_error comms j = Some c /\
      forall e, In e c' <-> In e c \/ (In e elements /\ low theta (sims e commx) = false /\ argmax (sims e commx) = j).
  Proof.
    intros Er E. destruct (step3_spec _ _ _ _ _ _ E) as (HR & HL & _ & HC). assert (Cm : combine rows elements = map (fun x => (x, x)) elements) by (rewrite Er; apply combine_same). rewrite Cm in *. split; [|split; auto].
    - rewrite HR. clear. induction elements as [|e l IH]; auto. cbn [map filter fst]. destruct (low theta (sims e commx)); cbn [map snd]; congruence.
    - intros j c' Ec. destruct (HC j c' Ec) as (c & E0 & H). exists c. split; auto. intros e. rewrite H. split.
      + intros [|(x & I & A & B)]; auto. right. apply in_map_iff in I as (y & [= -> ->] & I). auto.
      + intros [|(I & A & B)]; auto. right. exists e. split; auto. apply in_map_iff. eauto.
  Qed.
  Lemma step3_total elements comms commx theta : commx <> [] -> length rows <= length elements -> exists r, cbc_step3 esim rows elements comms commx theta = Ok r.
  Proof.
    intros N Le. unfold cbc_step3. destruct commx as [|c0 cx] eqn:Ec; [congruence|]. rewrite <- Ec. clear Ec N.
    assert (H : forall l st, (forall ir, In ir l -> fst ir < length elements) -> exists r, rfold (s3_step esim rows elements commx theta) l st = Ok r).
    { induction l as [|ir l IH]; intros st H; cbn [rfold]; [eauto|]. unfold s3_step at 1. destruct (nth_error elements (fst ir)) as [e|] eqn:Ee; [|apply nth_error_None in Ee; specialize (H ir (or_introl eq_refl)); lia].
      destruct (existsb _ _); cbn [rbind]; apply IH; intros; apply H; cbn; auto. }
    apply H. intros [i x] I. apply enum_nth in I. cbn. assert (i < length rows) by (apply nth_error_Some; congruence). lia.
  Qed.
End Step3.
(** Residues are a subsequence of the elements. *)
Lemma residues_subseq esim rows elements comms commx theta R comms' : cbc_step3 esim rows elements comms commx theta = Ok (R, comms') -> subseq R elements.
Proof.
  intros E. destruct (step3_spec _ _ _ _ _ _ _ _ E) as (-> & _ & Le & _). clear E. set (P := fun x => forallb _ _). revert elements Le. clearbody P.
  induction rows as [|x rs IH]; intros [|e es] Le; cbn [combine filter map]; [constructor|apply subseq_nil|cbn in Le; lia|]. cbn [length] in Le. destruct (P _); cbn [map snd]; constructor; apply IH; lia.
Qed.
Lemma major_subseq argsort csim esim mxrows elements t1 t2 L eles C R : major_steps argsort csim esim mxrows elements t1 t2 L eles = Ok (C, R) -> subseq R eles.
Proof.
  unfold major_steps. intros E. apply rbind_ok in E as (rows & _ & E). apply rbind_ok in E as ([comms cn] & E2 & E). cbn [fst snd] in E. destruct comms as [|c0 cs].
  - injection E as <- <-. apply subseq_refl.
  - apply rmap_ok in E as ([R' c'] & E3 & E). injection E as _ ->. eapply residues_subseq; eauto.
Qed.

(** ** The loop *)
Section Loop.
  Context {C : Type}.
  Variable step : nat -> list pystr -> res (list C * list pystr).
  Hypothesis Sub : forall i r c r', step i r = Ok (c, r') -> subseq r' r.
  Definition cur (i : nat) (r : list pystr) := match step i r with Ok r => r | Err _ => ([], []) end.
  Lemma cur_sub i r : subseq (snd (cur i r)) r.
  Proof. unfold cur. destruct (step i r) as [[c r']|] eqn:E; cbn; [eapply Sub; eauto|apply subseq_nil]. Qed.
  (** The chain of residue lists: each a subsequence of the one before, shorter than it except possibly the last *)
  Fixpoint shrinking (prev : list pystr) (Rs : list (list pystr)) : Prop :=
    match Rs with
    | [] => True
    | R :: Rs' => subseq R prev /\ (length R < length prev \/ (R = prev /\ Rs' = [])) /\ shrinking R Rs'
    end.
  Lemma from_acc fuel : forall i r Cs Rs, cluster_from step fuel i r Cs Rs = (Cs ++ fst (cluster_from step fuel i r [] []), Rs ++ snd (cluster_from step fuel i r [] [])).
  Proof.
    induction fuel as [|f IH]; intros i r Cs Rs; cbn [cluster_from]; [cbn; now rewrite !app_nil_r|]. destruct r as [|e l] eqn:Er; [cbn; now rewrite !app_nil_r|]. rewrite <- Er. clear Er.
    destruct (match step i r with Ok r => r | Err _ => ([], []) end) as [c r']. destruct (length r' <=? 2); [reflexivity|]. destruct (length r' =? length r); [reflexivity|].
    rewrite (IH _ _ (Cs ++ _)), (IH _ _ ([] ++ _)). cbn [fst snd app]. now rewrite <- !app_assoc.
  Qed.
  Lemma from_shrinks fuel : forall i r, shrinking r (snd (cluster_from step fuel i r [] [])) /\
    length (fst (cluster_from step fuel i r [] [])) = length (snd (cluster_from step fuel i r [] [])) /\ length (snd (cluster_from step fuel i r [] [])) <= fuel /\ length (snd (cluster_from step fuel i r [] [])) <= length r.
  Proof.
    induction fuel as [|f IH]; intros i r; cbn [cluster_from]; [cbn; auto with arith|]. destruct r as [|e l] eqn:Er; [cbn; auto with arith|]. rewrite <- Er in *.
    pose proof (cur_sub i r) as Sb. unfold cur in Sb. destruct (match step i r with Ok r => r | Err _ => ([], []) end) as [c r'] eqn:Ec. cbn [snd] in Sb. assert (Lr : 1 <= length r) by (rewrite Er; cbn; lia). clear Er.
    pose proof (subseq_length _ _ Sb) as Le.
    assert (Or : length r' < length r \/ r' = r) by (destruct (Nat.eq_dec (length r') (length r)); [right; now apply subseq_eq|left; lia]).
    destruct (length r' <=? 2) eqn:T2; [|destruct (length r' =? length r) eqn:Tn].
    - cbn [app fst snd shrinking length]. split; [|lia]. split; auto. split; [intuition|exact I].
    - cbn [app fst snd shrinking length]. split; [|lia]. split; auto. split; [intuition|exact I].
    - apply Nat.eqb_neq in Tn. rewrite from_acc. destruct (IH (S i) r') as (H1 & H2 & H3 & H4). cbn [app fst snd shrinking length]. split; [|lia]. split; auto. split; [left; lia|auto].
  Qed.
  (** With enough iterations the limit does not matter. *)
  Lemma from_fuel f1 : forall f2 i r, length r <= f1 -> length r <= f2 -> cluster_from step f1 i r [] [] = cluster_from step f2 i r [] [].
  Proof.
    induction f1 as [|f1 IH]; intros [|f2] i r L1 L2; auto.
    - destruct r; [reflexivity|cbn in L1; lia].
    - destruct r; [reflexivity|cbn in L2; lia].
    - cbn [cluster_from]. destruct r as [|e l] eqn:Er; auto. rewrite <- Er in *. clear Er. pose proof (cur_sub i r) as Sb. unfold cur in Sb. destruct (match step i r with Ok r => r | Err _ => ([], []) end) as [c r'] eqn:Ec. cbn [snd] in Sb.
      pose proof (subseq_length _ _ Sb) as Le. destruct (length r' <=? 2); auto. destruct (length r' =? length r) eqn:Tn; auto. apply Nat.eqb_neq in Tn. rewrite (from_acc f1), (from_acc f2), (IH f2); auto; lia.
  Qed.
End Loop.
Lemma cluster_shrinks {C} (step : nat -> list pystr -> res (list C * list pystr)) : (forall i r c r', step i r = Ok (c, r') -> subseq r' r) ->
  forall num_iter elements num_eles Cs Rs, cluster step num_iter elements num_eles = (Cs, Rs) ->
  shrinking (if (0 <? num_eles)%Z then firstn (Z.to_nat num_eles) elements else elements) Rs /\ length Cs = length Rs /\ length Rs <= num_iter /\ length Rs <= length elements.
Proof.
  intros Sub ni els ne Cs Rs E. unfold cluster in E. set (st := if (0 <? ne)%Z then _ else _) in *. destruct (from_shrinks step Sub ni 1 st) as (A & B & D & F). rewrite E in *. cbn [fst snd] in *. repeat split; auto.
  etransitivity; [exact F|]. subst st. destruct (0 <? ne)%Z; auto. rewrite firstn_length. lia.
Qed.
Lemma cluster_limit {C} (step : nat -> list pystr -> res (list C * list pystr)) : (forall i r c r', step i r = Ok (c, r') -> subseq r' r) ->
  forall n1 n2 elements num_eles, length elements <= n1 -> length elements <= n2 -> cluster step n1 elements num_eles = cluster step n2 elements num_eles.
Proof.
  intros Sub n1 n2 els ne L1 L2. unfold cluster. apply from_fuel; auto; destruct (0 <? ne)%Z; auto; rewrite firstn_length; lia.
Qed.

(** ** The multi-core first step *)
Lemma filter_mod_split {A} m (l : list (nat * A)) : m <> 0 -> Permutation (concat (map (fun g => filter (fun ie => fst ie mod m =? g) l) (seq 0 m))) l.
Proof.
  intros Hm. induction l as [|[i x] l IH].
  - assert (H : forall s, concat (map (fun g => filter (fun ie : nat * A => fst ie mod m =? g) []) s) = []) by (induction s; auto). now rewrite H.
  - assert (Hi : In (i mod m) (seq 0 m)) by (apply in_seq; pose proof (Nat.mod_upper_bound i m Hm); lia). pose proof (seq_NoDup m 0) as Nd.
    assert (H : forall s, NoDup s -> Permutation (concat (map (fun g => filter (fun ie : nat * A => fst ie mod m =? g) ((i, x) :: l)) s))
                 ((if in_dec Nat.eq_dec (i mod m) s then [(i, x)] else []) ++ concat (map (fun g => filter (fun ie : nat * A => fst ie mod m =? g) l) s))).
    { clear. induction s as [|g s IH]; intros Nd; [constructor|]. inversion Nd as [|? ? Ng Nd']; subst. cbn [map concat]. rewrite (IH Nd'). cbn [filter fst]. destruct (Nat.eqb_spec (i mod m) g) as [E|E].
      - subst g. destruct (in_dec Nat.eq_dec (i mod m) s) as [C|_]; [contradiction|]. destruct (in_dec Nat.eq_dec (i mod m) (i mod m :: s)) as [_|C]; [|exfalso; apply C; left; auto]. cbn [app]. reflexivity.
      - destruct (in_dec Nat.eq_dec (i mod m) s) as [C|C]; destruct (in_dec Nat.eq_dec (i mod m) (g :: s)) as [D|D]; cbn in D; try (exfalso; intuition congruence).
        + cbn [app]. symmetry. apply Permutation_middle.
        + reflexivity. }
    rewrite (H _ Nd). destruct (in_dec Nat.eq_dec (i mod m) (seq 0 m)); [|contradiction]. cbn [app]. now constructor.
Qed.
Lemma groups_all m elements : m <> 0 -> Permutation (concat (data_group m elements)) elements.
Proof.
  intros Hm. pose proof (Permutation_map snd (filter_mod_split m (enumerate elements) Hm)) as P. rewrite enum_snd, concat_map, map_map in P. exact P.
Qed.
Lemma groups_length m elements : length (data_group m elements) = m.
Proof. unfold data_group. now rewrite map_length, seq_length. Qed.
Section Multi.
  Variable cse : pystr -> res (list scored).
  Lemma step1_perm a b : Permutation a b -> Permutation (step1 cse a) (step1 cse b).
  Proof. unfold step1. apply Permutation_flat_map. Qed.
  Lemma step1_concat ls : step1 cse (concat ls) = concat (map (step1 cse) ls).
  Proof. induction ls as [|l ls IH]; auto. cbn [concat map]. rewrite <- IH. unfold step1. apply flat_map_app. Qed.
  Lemma files_distinct groups sched : NoDup (map snd sched) -> l_files cse groups sched = map (fun tp => (snd tp, step1 cse (nth (fst tp) groups []))) sched.
  Proof.
    unfold l_files. intros Nd. assert (H : forall l (d : dict nat (list scored)), NoDup (map snd l) -> (forall p, In p (map snd l) -> ~ In p (dkeys d)) ->
      fold_left (fun d tp => dset d (snd tp) (step1 cse (nth (fst tp) groups []))) l d = d ++ map (fun tp => (snd tp, step1 cse (nth (fst tp) groups []))) l).
    { clear. induction l as [|tp l IH]; intros d N D; cbn [fold_left map]; [now rewrite app_nil_r|]. inversion N as [|? ? N1 N2]; subst.
      assert (Ds : dset d (snd tp) (step1 cse (nth (fst tp) groups [])) = d ++ [(snd tp, step1 cse (nth (fst tp) groups []))]).
      { assert (Nk : ~ In (snd tp) (dkeys d)) by (apply D; cbn; auto). clear - Nk. induction d as [|[k v] d IH]; auto. cbn [dset app]. unfold dkeys in Nk. cbn in Nk. destruct (eqdec (snd tp) k) as [Eq|Ne]; [exfalso; apply Nk; left; auto|]. f_equal. apply IH. auto. }
      rewrite Ds, IH; auto; [now rewrite <- app_assoc|]. intros p Ip. unfold dkeys. rewrite map_app, in_app_iff. cbn. intros [C|[C|[]]]; [eapply D; [right; exact Ip|exact C]|]. subst. contradiction. }
    apply H; auto.
  Qed.
  Lemma nth_seq_map {A} (l : list A) d : map (fun i => nth i l d) (seq 0 (length l)) = l.
  Proof.
    assert (H : forall p (l : list A), map (fun i => nth i (p ++ l) d) (seq (length p) (length l)) = l).
    { clear. intros p l. revert p. induction l as [|x l IH]; intros p; auto. cbn [length seq map]. rewrite app_nth2, Nat.sub_diag by lia. cbn [nth]. f_equal. specialize (IH (p ++ [x])). rewrite app_length in IH. cbn [length] in IH. rewrite Nat.add_1_r in IH. rewrite <- app_assoc in IH. exact IH. }
    apply (H [] l).
  Qed.
  (** Every process takes at most one task: the same clusters *)
  Theorem multicore_same m elements sched r : m <> 0 -> NoDup (map snd sched) -> step1_multicore cse m elements sched r -> exists L, r = Ok L /\ Permutation L (step1 cse elements).
  Proof.
    intros Hm Nd H. destruct m as [|m]; [congruence|]. unfold step1_multicore in H. remember (S m) as k eqn:Ek. destruct H as (Pt & listing & Pl & ->). eexists. split; [reflexivity|]. rewrite files_distinct in Pl by auto.
    assert (Pc : Permutation (concat (map snd listing)) (concat (map snd (map (fun tp => (snd tp, step1 cse (nth (fst tp) (data_group k elements) []))) sched)))) by (rewrite <- !flat_map_concat_map; now apply Permutation_flat_map).
    rewrite Pc, map_map. cbn [snd]. rewrite <- (map_map fst (fun t => step1 cse (nth t (data_group k elements) []))).
    rewrite <- flat_map_concat_map, Pt, flat_map_concat_map, <- (map_map (fun t => nth t (data_group k elements) []) (step1 cse)).
    rewrite <- (groups_length k elements) at 1. rewrite nth_seq_map, <- step1_concat. apply step1_perm, groups_all. lia.
  Qed.
  (** In any case nothing is invented. *)
  Theorem multicore_sound m elements sched L x : step1_multicore cse m elements sched (Ok L) -> In x L -> In x (step1 cse elements).
  Proof.
    intros H Ix. destruct m as [|m]; [discriminate H|]. unfold step1_multicore in H. remember (S m) as k eqn:Ek. destruct H as (Pt & listing & Pl & [= ->]). apply in_concat in Ix as (l & Il & Ix). apply in_map_iff in Il as ([p l'] & <- & Il). apply (Permutation_in _ Pl) in Il. cbn [snd] in *.
    assert (Q : exists t, In t (map fst sched) /\ l' = step1 cse (nth t (data_group k elements) [])).
    { clear - Il. unfold l_files in Il. assert (Hd : forall l (d : dict nat (list scored)), In (p, l') (fold_left (fun d tp => dset d (snd tp) (step1 cse (nth (fst tp) (data_group k elements) []))) l d) -> In (p, l') d \/ exists t, In t (map fst l) /\ l' = step1 cse (nth t (data_group k elements) [])).
      { clear. induction l as [|tp l IH]; intros d I; cbn [fold_left] in I; auto. destruct (IH _ I) as [I'|(t & It & E)]; [|right; exists t; cbn; auto].
        assert (Ds : forall (d : dict nat (list scored)) k' v, In (p, l') (dset d k' v) -> In (p, l') d \/ l' = v).
        { clear. induction d as [|[a b] d IH]; intros k' v; cbn [dset]; [intros [[= <- <-]|[]]; auto|]. destruct (eqdec k' a); intros [E|I]; [injection E as _ <-; auto|cbn; auto|cbn; auto|]. destruct (IH _ _ I); cbn; auto. }
        destruct (Ds _ _ _ I') as [|E]; auto. right. exists (fst tp). cbn; auto. }
      destruct (Hd _ _ Il) as [[]|H]; exact H. }
    destruct Q as (t & It & ->). apply (Permutation_in _ Pt), in_seq in It.
    eapply Permutation_in; [apply step1_perm, (groups_all k elements); lia|]. rewrite step1_concat. apply in_concat. eexists. split; [|exact Ix]. apply in_map, nth_In. rewrite groups_length. lia.
  Qed.
End Multi.
