(** * Proofs about copying *)
From Coq Require Import String NArith ZArith Bool Arith Lia List.
From Verif Require Import Base Str VocabModel DepModel PatModel PatProofs QryModel BaseLemmas CpyModel CpySpec.
Import ListNotations.
Local Open Scope nat_scope.
Local Open Scope list_scope.

Lemma pv_ind' (P : pv -> Prop) :
  P PNone -> (forall b, P (PBool b)) -> (forall z, P (PInt z)) -> (forall s, P (PStr s)) ->
  (forall l, (forall x, In x l -> P x) -> P (PList l)) ->
  (forall d, (forall k x, In (k, x) d -> P x) -> P (PDict d)) ->
  (forall b a, (forall k x, In (k, x) a -> P x) -> P (PObj b a)) -> forall x, P x.
Proof.
  intros H1 H2 H3 H4 H5 H6 H7. fix IH 1. intros [| b | z | s | l | d | b a].
  - exact H1.
  - apply H2.
  - apply H3.
  - apply H4.
  - apply H5. induction l as [|x l IHl]; intros y I; [destruct I|]. destruct I as [<- | I]; [apply IH|exact (IHl y I)].
  - apply H6. induction d as [|[k x] d IHl]; intros k' y I; [destruct I|]. destruct I as [E | I]; [injection E as _ <-; apply IH|exact (IHl k' y I)].
  - apply H7. induction a as [|[k x] a IHl]; intros k' y I; [destruct I|]. destruct I as [E | I]; [injection E as _ <-; apply IH|exact (IHl k' y I)].
Qed.

(** ** One copier for both *)
Definition on_list (f : pv -> res pv) := fix go (l : list pv) : res (list pv) := match l with [] => Ok [] | x :: l => rbind (f x) (fun y => rmap (cons y) (go l)) end.
Definition on_dict (f : pv -> res pv) := fix go (d : list (pystr * pv)) : res (list (pystr * pv)) :=
  match d with [] => Ok [] | (k, x) :: d => rbind (f x) (fun y => rmap (cons (k, y)) (go d)) end.

Lemma on_list_ok f l : (forall x, In x l -> f x = Ok x) -> on_list f l = Ok l.
Proof. induction l as [|x l IH]; intros A; [reflexivity|]. cbn [on_list]. rewrite (A x) by now left. cbn [rbind]. rewrite IH by (intros y I; apply A; now right). reflexivity. Qed.
Lemma on_dict_ok f l : (forall k x, In (k, x) l -> f x = Ok x) -> on_dict f l = Ok l.
Proof. induction l as [|[k x] l IH]; intros A; [reflexivity|]. cbn [on_dict]. rewrite (A k x) by now left. cbn [rbind]. rewrite IH by (intros k' y I; apply (A k'); now right). reflexivity. Qed.
Lemma on_list_err f l x : (forall x, In x l -> f x = Ok x \/ f x = Err TypeError) -> In x l -> f x = Err TypeError -> on_list f l = Err TypeError.
Proof.
  induction l as [|y l IH]; intros A I E; [destruct I|]. cbn [on_list]. destruct (A y (or_introl eq_refl)) as [Ey|Ey]; rewrite Ey; [|reflexivity].
  cbn [rbind]. destruct I as [-> | I]; [rewrite Ey in E; discriminate E|]. rewrite IH; auto. intros z J. apply A. now right.
Qed.
Lemma on_dict_err f l k x : (forall k x, In (k, x) l -> f x = Ok x \/ f x = Err TypeError) -> In (k, x) l -> f x = Err TypeError -> on_dict f l = Err TypeError.
Proof.
  induction l as [|[k' y] l IH]; intros A I E; [destruct I|]. cbn [on_dict]. destruct (A k' y (or_introl eq_refl)) as [Ey|Ey]; rewrite Ey; [|reflexivity].
  cbn [rbind]. destruct I as [Ek | I]; [injection Ek as _ ->; rewrite Ey in E; discriminate E|]. rewrite IH; auto. intros k'' z J. apply (A k''). now right.
Qed.

Definition through (dc newer : bool) (x : pv) : res pv := if dc then py_deepcopy newer x else py_send newer x.
Lemma dget_none (a : list (pystr * pv)) k : (forall k' y, In (k', y) a -> k' <> k) -> dget a k = None.
Proof.
  intros A. destruct (dget a k) eqn:E; [|reflexivity]. exfalso. induction a as [|[k' y] a IH]; [discriminate E|].
  cbn [dget] in E. destruct (eqdec k k') as [Q|Q].
  - exact (A k' y (or_introl eq_refl) (eq_sym Q)).
  - apply IH; auto. intros k'' z I. apply (A k'' z). now right.
Qed.

Lemma usual_in y x : usual x -> inside y x -> usual y.
Proof.
  intros U I b a k z J K. apply (U b a k z); auto. clear U K. induction I as [x|w x' l Il I2 IH|w k' x' d Il I2 IH|w k' x' b' a' Il I2 IH]; auto.
  - econstructor; eauto.
  - eapply in_dict; eauto.
  - eapply in_attr; eauto.
Qed.


Section Through.
  Variables (dc newer : bool).
  Notation f := (through dc newer).
  Lemma through_list l : f (PList l) = rmap PList (on_list f l).
  Proof. destruct dc; reflexivity. Qed.
  Lemma through_dict d : f (PDict d) = rmap PDict (on_dict f d).
  Proof. destruct dc; reflexivity. Qed.
  Lemma usual_get b a : usual (PObj b a) -> dget a (u "__deepcopy__") = None /\ dget a (u "__getstate__") = None.
  Proof. intros U. split; apply dget_none; intros k y I; apply (U b a k y (in_self _) I). Qed.
  Lemma through_obj a : usual (PObj false a) -> f (PObj false a) = rmap (PObj false) (on_dict f a).
  Proof.
    intros U. destruct (usual_get _ _ U) as [N1 N2]. destruct dc; cbn [through]; [cbn [py_deepcopy]|cbn [py_send]]; unfold special, state_of, special; rewrite ?N1, N2;
      destruct newer; cbn [rbind]; unfold set_state; cbn [special dget]; change (fix go d := _) with (on_dict (through true true)) || idtac.
    all: match goal with |- rbind ?x _ = rmap _ ?y => change x with y; destruct y; reflexivity end.
  Qed.
  Lemma through_vocab a : usual (PObj true a) -> (exists a', on_dict f a = Ok a') \/ on_dict f a = Err TypeError -> f (PObj true a) = Err TypeError.
  Proof.
    intros U O. destruct (usual_get _ _ U) as [N1 N2]. destruct dc; cbn [through]; [cbn [py_deepcopy]|cbn [py_send]]; unfold special, state_of, special; rewrite ?N1, N2;
      (destruct newer; [|reflexivity]); cbn [v_getattr]; cbn -[dget on_dict py_deepcopy py_send].
    all: destruct O as [[a' O]|O]; cbn [through] in O;
      match goal with |- context [rbind ?x _] => match type of O with ?y = _ => change x with y; rewrite O end end; reflexivity.
  Qed.

  Lemma split_list l : (forall x, In x l -> (~ has_vocab x /\ f x = Ok x) \/ (has_vocab x /\ f x = Err TypeError)) ->
    (forall x, In x l -> ~ has_vocab x /\ f x = Ok x) \/ exists x, In x l /\ has_vocab x /\ f x = Err TypeError.
  Proof.
    induction l as [|x l IH]; intros A; [left; intros y []|]. destruct (A x (or_introl eq_refl)) as [B|B].
    - destruct IH as [C|(y & I & C)]; [intros y I; apply A; now right| |].
      + left. intros y [<- | I]; auto.
      + right. exists y. split; [now right|exact C].
    - right. exists x. split; [now left|exact B].
  Qed.
  Lemma split_dict (d : list (pystr * pv)) : (forall k x, In (k, x) d -> (~ has_vocab x /\ f x = Ok x) \/ (has_vocab x /\ f x = Err TypeError)) ->
    (forall k x, In (k, x) d -> ~ has_vocab x /\ f x = Ok x) \/ exists k x, In (k, x) d /\ has_vocab x /\ f x = Err TypeError.
  Proof.
    induction d as [|[k x] l IH]; intros A; [left; intros k y []|]. destruct (A k x (or_introl eq_refl)) as [B|B].
    - destruct IH as [C|(k' & y & I & C)]; [intros k' y I; apply (A k'); now right| |].
      + left. intros k' y [E | I]; [injection E as _ <-; exact B|eauto].
      + right. exists k', y. split; [now right|exact C].
    - right. exists k, x. split; [now left|exact B].
  Qed.

  Theorem through_cases x : usual x -> (~ has_vocab x /\ f x = Ok x) \/ (has_vocab x /\ f x = Err TypeError).
  Proof.
    assert (At : forall x, (forall y, inside y x -> y = x) -> (forall a, x <> PObj true a) -> ~ has_vocab x).
    { intros y A B [a I]. apply A in I. exact (B a (eq_sym I)). }
    induction x as [| b | z | s | l IH | d IH | b a IH] using pv_ind'; intros U.
    1-4: left; split; [apply At; [intros y I; inversion I; reflexivity|discriminate]|destruct dc; reflexivity].
    - assert (A : forall x, In x l -> (~ has_vocab x /\ f x = Ok x) \/ (has_vocab x /\ f x = Err TypeError)).
      { intros x I. apply IH; auto. apply (usual_in x (PList l) U). exact (in_list _ _ _ I (in_self _)). }
      rewrite through_list. destruct (split_list l A) as [B|(x & I & [a V] & E)].
      + left. split; [|rewrite on_list_ok; [reflexivity|intros x I; apply B; exact I]].
        intros [a V]. inversion V as [|y1 x1 l1 I1 I2| |]; subst. destruct (B x1 I1) as [B' _]. apply B'. exists a. assumption.
      + right. split; [exists a; exact (in_list _ _ _ I V)|]. rewrite (on_list_err f l x); auto. intros y J. destruct (A y J) as [[_ G]|[_ G]]; auto.
    - assert (A : forall k x, In (k, x) d -> (~ has_vocab x /\ f x = Ok x) \/ (has_vocab x /\ f x = Err TypeError)).
      { intros k x I. apply (IH k); auto. apply (usual_in x (PDict d) U). exact (in_dict _ _ _ _ I (in_self _)). }
      rewrite through_dict. destruct (split_dict d A) as [B|(k & x & I & [a V] & E)].
      + left. split; [|rewrite on_dict_ok; [reflexivity|intros k x I; apply (B k); exact I]].
        intros [a V]. inversion V as [| |y1 k1 x1 l1 I1 I2|]; subst. destruct (B k1 x1 I1) as [B' _]. apply B'. exists a. assumption.
      + right. split; [exists a; exact (in_dict _ _ _ _ I V)|]. rewrite (on_dict_err f d k x); auto. intros k' y J. destruct (A k' y J) as [[_ G]|[_ G]]; auto.
    - assert (A : forall k x, In (k, x) a -> (~ has_vocab x /\ f x = Ok x) \/ (has_vocab x /\ f x = Err TypeError)).
      { intros k x I. apply (IH k); auto. apply (usual_in x (PObj b a) U). exact (in_attr _ _ _ _ _ I (in_self _)). }
      destruct (split_dict a A) as [B|(k & x & I & [a' V] & E)].
      + assert (O : on_dict f a = Ok a) by (apply on_dict_ok; intros k x I; apply (B k); exact I). destruct b.
        * right. split; [exists a; apply in_self|]. apply through_vocab; eauto.
        * left. split; [|rewrite through_obj, O by exact U; reflexivity].
          intros [a' V]. inversion V as [| | |y1 k1 x1 b1 l1 I1 I2]; subst. destruct (B k1 x1 I1) as [B' _]. apply B'. exists a'. assumption.
      + assert (O : on_dict f a = Err TypeError) by (apply (on_dict_err f a k x); auto; intros k' y J; destruct (A k' y J) as [[_ G]|[_ G]]; auto).
        right. split; [exists a'; exact (in_attr _ _ _ _ _ I V)|]. destruct b; [apply through_vocab; auto|rewrite through_obj, O by exact U; reflexivity].
  Qed.
End Through.

Lemma deepcopy_cases newer x : usual x -> (~ has_vocab x /\ py_deepcopy newer x = Ok x) \/ (has_vocab x /\ py_deepcopy newer x = Err TypeError).
Proof. exact (through_cases true newer x). Qed.
Lemma send_cases newer x : usual x -> (~ has_vocab x /\ py_send newer x = Ok x) \/ (has_vocab x /\ py_send newer x = Err TypeError).
Proof. exact (through_cases false newer x). Qed.

(** ** Vocabularies *)
Lemma inside_freqs d y : inside y (freqs d) -> y = freqs d \/ exists z, y = PInt z.
Proof.
  intros I. inversion I as [| |y' k x d' J K|]; subst; auto. right. apply in_map_iff in J. destruct J as ([k' z] & E & _). injection E as _ <-.
  inversion K; subst; eauto.
Qed.
Lemma freqs_usual d : usual (freqs d).
Proof. intros b a k y I. apply inside_freqs in I. destruct I as [I|[z I]]; discriminate I. Qed.
Lemma freqs_plain d : ~ has_vocab (freqs d).
Proof. intros [a I]. apply inside_freqs in I. destruct I as [I|[z I]]; discriminate I. Qed.
Lemma vocab_inside v y : inside y (pv_of_vocab v) -> y = pv_of_vocab v \/ inside y (freqs (fd v)) \/ y = PNone \/ y = PBool (filt v) \/ y = PStr (u "utf-8").
Proof.
  intros I. inversion I as [| | |y' k x b a J K]; subst; auto.
  destruct J as [E|[E|[E|[E|[]]]]]; injection E as _ <-; auto; inversion K; subst; auto.
Qed.
Lemma vocab_usual v : usual (pv_of_vocab v).
Proof.
  intros b a k y I J. apply vocab_inside in I. destruct I as [I|[I|[I|[I|I]]]]; try discriminate I.
  - injection I as _ ->. destruct J as [E|[E|[E|[E|[]]]]]; injection E as <- _; split; vm_compute; discriminate.
  - exfalso. apply (freqs_plain (fd v)). apply inside_freqs in I. destruct I as [I|[z I]]; discriminate I.
Qed.
Lemma vocab_has v : has_vocab (pv_of_vocab v).
Proof. eexists. apply in_self. Qed.
Lemma vocab_copies newer v : py_deepcopy newer (pv_of_vocab v) = Err TypeError /\ py_send newer (pv_of_vocab v) = Err TypeError.
Proof.
  split; [destruct (deepcopy_cases newer _ (vocab_usual v)) as [[A _]|[_ A]]|destruct (send_cases newer _ (vocab_usual v)) as [[A _]|[_ A]]]; auto; destruct (A (vocab_has v)).
Qed.
Lemma ints_freqs d : ints (freqs d) = Ok d.
Proof. unfold ints, freqs. induction d as [|[k z] d IH]; [reflexivity|]. cbn [map rmapm fst snd]. cbn [rbind rmap]. rewrite IH. reflexivity. Qed.
Lemma freqs_copy newer d : py_deepcopy newer (freqs d) = Ok (freqs d).
Proof. destruct (deepcopy_cases newer _ (freqs_usual d)) as [[_ A]|[A _]]; [exact A|destruct (freqs_plain d A)]. Qed.
Lemma vocab_deepcopy_ok newer v : vocab_deepcopy newer v = Ok (v_deepcopy v).
Proof. unfold vocab_deepcopy. rewrite freqs_copy. cbn [rbind]. rewrite freqs_copy. cbn [rbind]. rewrite ints_freqs. reflexivity. Qed.
Lemma get_dict_ok newer v : get_dict newer v = Ok (fd v).
Proof. unfold get_dict. rewrite freqs_copy. apply ints_freqs. Qed.

(** ** Templates *)
Lemma copies_ok newer ms : (forall g, In g ms -> usual (g_filter g)) -> (forall g, In g ms -> ~ has_vocab (g_filter g)) -> rmapm (copy_given newer) ms = Ok ms.
Proof.
  induction ms as [|[m x] ms IH]; intros A B; [reflexivity|]. cbn [rmapm]. unfold copy_given at 1. cbn [g_macro g_filter].
  destruct (deepcopy_cases newer x (A _ (or_introl eq_refl))) as [[_ E]|[E _]]; [|destruct (B _ (or_introl eq_refl) E)].
  rewrite E. cbn [rmap rbind]. rewrite IH; [reflexivity| |]; intros g I; [apply A|apply B]; now right.
Qed.
Lemma copies_err newer ms : (forall g, In g ms -> usual (g_filter g)) -> (exists g, In g ms /\ has_vocab (g_filter g)) -> rmapm (copy_given newer) ms = Err TypeError.
Proof.
  intros A (g & I & V). induction ms as [|[m x] ms IH]; [destruct I|]. cbn [rmapm]. unfold copy_given at 1. cbn [g_macro g_filter].
  destruct (deepcopy_cases newer x (A _ (or_introl eq_refl))) as [[N E]|[_ E]]; rewrite E; [|reflexivity].
  cbn [rmap rbind]. rewrite IH; [reflexivity| |].
  - intros g' J. apply A. now right.
  - destruct I as [<- | I]; [destruct (N V)|exact I].
Qed.
Lemma plain_matched g : plain (Given (with_matched (g_macro g) []) (g_filter g)) = with_matched (plain g) [].
Proof. reflexivity. Qed.
Lemma templates_ok newer rows fname ms : ms <> [] -> (forall g, In g ms -> usual (g_filter g)) -> (forall g, In g ms -> ~ has_vocab (g_filter g)) ->
  exists ms', read_templates_py newer rows fname (Some ms) = Ok ms' /\ map plain ms' = read_templates (map plain ms) /\ map g_filter ms' = map g_filter ms.
Proof.
  intros N A B. eexists. split; [|split].
  - unfold read_templates_py. destruct ms; [destruct (N eq_refl)|]. rewrite copies_ok by assumption. reflexivity.
  - unfold read_templates. rewrite !map_map. apply map_ext. intros g. reflexivity.
  - rewrite map_map. reflexivity.
Qed.
Lemma templates_err newer rows fname ms : (forall g, In g ms -> usual (g_filter g)) -> (exists g, In g ms /\ has_vocab (g_filter g)) ->
  read_templates_py newer rows fname (Some ms) = Err TypeError.
Proof.
  intros A B. unfold read_templates_py. destruct ms as [|g ms]; [destruct B as (g & [] & _)|]. rewrite copies_err by assumption. reflexivity.
Qed.
Lemma templates_none newer rows fname macros : macros = None \/ macros = Some [] -> fname = None \/ fname = Some [] ->
  read_templates_py newer rows fname macros = Err ValueError.
Proof. intros [-> | ->] [-> | ->]; reflexivity. Qed.
Lemma templates_file newer rows fname macros rs : macros = None \/ macros = Some [] -> fname <> [] -> rows fname = Ok rs -> rs <> [] ->
  exists e, read_templates_py newer rows (Some fname) macros = Err e.
Proof.
  intros M F E R. destruct (macro_csv_error rs R) as [[e C] _]. exists e.
  destruct fname as [|c fname]; [destruct (F eq_refl)|]. destruct M as [-> | ->]; cbn [read_templates_py]; rewrite E; cbn [rbind]; rewrite C; reflexivity.
Qed.

(** ** Workers *)
Lemma job_macros_ok newer targets ms : (forall g, In g ms -> usual (g_filter g)) -> (forall g, In g ms -> ~ has_vocab (g_filter g)) ->
  job_macros newer targets ms = Ok (map (fun g => Given (g_macro g) (pv_of_vocab (v_deepcopy targets))) ms).
Proof.
  intros A B. unfold job_macros. rewrite copies_ok by assumption. cbn [rbind]. clear A B. rewrite vocab_deepcopy_ok. cbn [rmap]. induction ms as [|g ms IH]; [reflexivity|].
  cbn [rmapm map rbind]. rewrite IH. reflexivity.
Qed.
Lemma keys_freqs (d : dict pystr Z) : dkeys (map (fun kv => (fst kv, PInt (snd kv))) d) = dkeys d.
Proof. unfold dkeys. rewrite map_map. reflexivity. Qed.
Lemma filter_vocab v : filter_keys (pv_of_vocab v) = Some (dkeys (fd v)).
Proof.
  transitivity (Some (dkeys (map (fun kv => (fst kv, PInt (snd kv))) (fd v)))); [|now rewrite keys_freqs].
  unfold filter_keys, pv_of_vocab, freqs. reflexivity.
Qed.
Lemma job_plain newer targets ms : (forall g, In g ms -> usual (g_filter g)) -> (forall g, In g ms -> ~ has_vocab (g_filter g)) ->
  exists ms', job_macros newer targets ms = Ok ms' /\ map plain ms' = map (fun m => with_filter m (Some (dkeys (fd targets)))) (map plain ms).
Proof.
  intros A B. eexists. split; [apply job_macros_ok; assumption|]. rewrite !map_map. apply map_ext. intros g. unfold plain. cbn [g_macro g_filter]. rewrite filter_vocab. reflexivity.
Qed.

(** The attributes of a macro but the filter: ordinary values under ordinary names *)
Definition ordinary (a : list (pystr * pv)) : Prop := usual (PObj false a) /\ ~ has_vocab (PObj false a) /\ ~ In (u "target_filter") (map fst a).
Lemma del_filter a x : ~ In (u "target_filter") (map fst a) -> del_attr (u "target_filter") (PObj false (a ++ [(u "target_filter", x)])) = Ok (PObj false a).
Proof.
  intros N. cbn [del_attr]. assert (M : dmem (a ++ [(u "target_filter", x)]) (u "target_filter") = true).
  { apply dmem_In. unfold dkeys. rewrite map_app. apply in_or_app. right. now left. }
  rewrite M. f_equal. f_equal. rewrite filter_app. replace (filter _ [(u "target_filter", x)]) with (@nil (pystr * pv)) by reflexivity. rewrite app_nil_r.
  clear M. induction a as [|[k y] a IH]; [reflexivity|]. cbn [filter fst]. destruct (eqb k (u "target_filter")) eqn:E.
  - exfalso. apply N. left. cbn [fst]. unfold eqb in E. destruct (eqdec k (u "target_filter")); [assumption|discriminate E].
  - cbn [negb]. f_equal. apply IH. intros I. apply N. now right.
Qed.
Lemma inside_list_objs y l : inside y (PList l) -> y = PList l \/ exists x, In x l /\ inside y x.
Proof. intros I. inversion I; subst; eauto. Qed.
Lemma tally_sent newer rest ms : (forall g, In g ms -> ordinary (rest (g_macro g))) ->
  put_tally newer (map (macro_obj rest) ms) = Ok (PList (map (fun g => PObj false (rest (g_macro g))) ms)).
Proof.
  intros A. unfold put_tally, put_tally_with.
  assert (D : rmapm (del_attr (u "target_filter")) (map (macro_obj rest) ms) = Ok (map (fun g => PObj false (rest (g_macro g))) ms)).
  { induction ms as [|g ms IH]; [reflexivity|]. cbn [map rmapm]. unfold macro_obj at 1. rewrite del_filter by (apply A; now left).
    cbn [rbind]. rewrite IH by (intros g' I; apply A; now right). reflexivity. }
  rewrite D. cbn [rbind]. set (l := map _ ms).
  assert (Q : forall x, In x l -> usual x /\ ~ has_vocab x). { intros x I. apply in_map_iff in I. destruct I as (g & <- & I). destruct (A g I) as (B & C & _). auto. }
  assert (U : usual (PList l)).
  { intros b a k y I J. apply inside_list_objs in I. destruct I as [I|(x & Il & I)]; [discriminate I|]. exact (proj1 (Q x Il) b a k y I J). }
  destruct (send_cases newer _ U) as [[_ E]|[V _]]; [exact E|]. exfalso. destruct V as [a I]. apply inside_list_objs in I. destruct I as [I|(x & Il & I)]; [discriminate I|].
  apply (proj2 (Q x Il)). exists a. exact I.
Qed.
Lemma macro_obj_usual rest g : ordinary (rest (g_macro g)) -> usual (g_filter g) -> usual (macro_obj rest g).
Proof.
  intros (A & _ & _) B b a k y I J. inversion I as [| | |y1 k1 x1 b1 a1 I1 I2]; subst.
  - apply in_app_or in J. destruct J as [J|[J|[]]]; [exact (A false _ k y (in_self _) J)|]. injection J as <- _. split; vm_compute; discriminate.
  - apply in_app_or in I1. destruct I1 as [I1|[I1|[]]].
    + apply (A b a k y); auto. exact (in_attr _ _ _ _ _ I1 I2).
    + injection I1 as _ <-. exact (B b a k y I2 J).
Qed.
Lemma tally_kept newer rest ms : (forall g, In g ms -> ordinary (rest (g_macro g)) /\ usual (g_filter g)) -> (exists g, In g ms /\ has_vocab (g_filter g)) ->
  put_tally_with false newer (map (macro_obj rest) ms) = Err TypeError.
Proof.
  intros A (g & I & [a V]). unfold put_tally_with. cbn [rbind]. set (l := map _ ms).
  assert (U : usual (PList l)).
  { intros b a' k y J K. apply inside_list_objs in J. destruct J as [J|(x & Il & J)]; [discriminate J|]. apply in_map_iff in Il. destruct Il as (g' & <- & Il).
    destruct (A g' Il) as [B C]. exact (macro_obj_usual rest g' B C b a' k y J K). }
  destruct (send_cases newer _ U) as [[N _]|[_ E]]; [|exact E]. exfalso. apply N. exists a. apply (in_list _ (macro_obj rest g)); [apply in_map; exact I|].
  apply (in_attr _ (u "target_filter") (g_filter g)); [apply in_or_app; right; now left|exact V].
Qed.
