(** * Proofs about deprel/deputils.py and deprel/dephandler.py. *)
From Coq Require Import String NArith ZArith Bool Arith Permutation Lia List.
From Verif Require Import Base BaseLemmas Str StrLemmas VocabModel DrlModel DrlSpec.
Import ListNotations.

Lemma starts_with_iff a : forall x, starts_with a x = true <-> exists t, x = a ++ t.
Proof.
  induction a as [|c a IH]; intros [|d x]; cbn [starts_with]; try (split; [intros _; now exists []|reflexivity]).
  - split; [intros _; now exists (d :: x)|reflexivity].
  - split; [discriminate|intros (t & E); discriminate E].
  - destruct (eqdec c d) as [E|E]; [subst d|].
    + rewrite IH. split; intros (t & Et); exists t; [now rewrite Et|]. now injection Et.
    + split; [discriminate|]. intros (t & Et). injection Et as E' _. congruence.
Qed.
Lemma inside_iff a : forall x, inside a x = true <-> exists p q, x = p ++ a ++ q.
Proof.
  induction x as [|c x IH].
  - cbn [inside]. rewrite orb_false_r, starts_with_iff. split.
    + intros (t & E). exists [], t. exact E.
    + intros (p & q & E). destruct p; [now exists q|discriminate].
  - cbn [inside]. rewrite orb_true_iff, starts_with_iff, IH. split.
    + intros [(t & E)|(p & q & E)]; [exists [], t; exact E|]. exists (c :: p), q. now rewrite E.
    + intros (p & q & E). destruct p as [|d p]; [left; now exists q|right]. injection E as _ E. eauto.
Qed.
Lemma end_iff l : starts_with (u "</s") l = true <-> sentence_end l.
Proof. apply starts_with_iff. Qed.

(** ** split_large_file *)
Lemma n_ends_app a : forall j b k, n_ends a j -> n_ends b k -> n_ends (a ++ b) (j + k).
Proof. induction a as [|l a IH]; intros j b k Ha Hb; inversion Ha; subst; cbn [app plus]; auto; constructor; auto. Qed.
Lemma n_ends_fun a : forall j k, n_ends a j -> n_ends a k -> j = k.
Proof. induction a as [|l a IH]; intros j k Hj Hk; inversion Hj; inversion Hk; subst; try contradiction; auto. Qed.

Definition split_inv (n : nat) (lines : list pystr) (st : list pystr * list pystr * N) : Prop :=
  exists blocks rest k, lines = concat blocks ++ rest /\ Forall (block n) blocks /\ n_ends rest k /\ k < n /\
    st = (map as_file blocks, map strip rest, N.of_nat (length blocks * n + k)).

Lemma split_step_inv n lines st l : 0 < n -> split_inv n lines st -> split_inv n (lines ++ [l]) (split_step (N.of_nat n) st l).
Proof.
  intros Hn (blocks & rest & k & El & Fb & Er & Hk & Est). subst st. unfold split_step.
  destruct (starts_with (u "</s") l) eqn:Es.
  - apply end_iff in Es. assert (Hr : n_ends (rest ++ [l]) (S k)).
    { rewrite <- Nat.add_1_r. apply n_ends_app; auto. apply (ends_end l [] 0); auto. constructor. }
    destruct (N.eqb_spec ((N.of_nat (length blocks * n + k) + 1) mod N.of_nat n) 0) as [E|E].
    + assert (Ek : S k = n).
      { replace (N.of_nat (length blocks * n + k) + 1)%N with (N.of_nat (S k) + N.of_nat (length blocks) * N.of_nat n)%N in E by lia.
        rewrite N.mod_add in E by lia. destruct (Nat.eq_dec (S k) n) as [|Ne]; auto.
        rewrite N.mod_small in E by lia. lia. }
      exists (blocks ++ [rest ++ [l]]), [], 0. rewrite concat_app, app_length, !map_app. cbn [concat length map].
      rewrite !app_nil_r. split; [rewrite El; now rewrite <- app_assoc|]. split.
      { apply Forall_app. split; auto. constructor; auto. split; [congruence|]. exists rest, l. auto. }
      split; [constructor|]. split; [lia|]. unfold as_file. rewrite map_app. cbn [map]. f_equal. lia.
    + exists blocks, (rest ++ [l]), (S k). split; [rewrite El; now rewrite <- app_assoc|]. split; [auto|]. split; [auto|].
      split.
      { destruct (Nat.eq_dec (S k) n) as [Ek|Ne]; [|lia]. exfalso. apply E.
        replace (N.of_nat (length blocks * n + k) + 1)%N with (N.of_nat (S (length blocks)) * N.of_nat n)%N by lia. apply N.mod_mul. lia. }
      rewrite map_app. cbn [map]. f_equal. lia.
  - assert (Ne : ~ sentence_end l) by (rewrite <- end_iff, Es; discriminate).
    exists blocks, (rest ++ [l]), k. split; [rewrite El; now rewrite <- app_assoc|]. split; [auto|].
    split; [rewrite <- (Nat.add_0_r k); apply n_ends_app; auto; apply (ends_other l [] 0); auto; constructor|].
    split; [auto|]. now rewrite map_app.
Qed.
Lemma split_fold_inv n lines : 0 < n -> split_inv n lines (fold_left (split_step (N.of_nat n)) lines ([], [], 0%N)).
Proof.
  intros Hn. induction lines as [|l lines IH] using rev_ind.
  - exists [], [], 0. repeat split; auto. constructor.
  - rewrite fold_left_app. cbn [fold_left]. apply split_step_inv; auto.
Qed.
Theorem split_blocks n lines : 0 < n -> exists blocks rest k,
  lines = concat blocks ++ rest /\ Forall (block n) blocks /\ n_ends rest k /\ k < n /\
  split_every (N.of_nat n) lines = map as_file blocks.
Proof.
  intros Hn. destruct (split_fold_inv n lines Hn) as (blocks & rest & k & A & B & C & D & E).
  exists blocks, rest, k. unfold split_every. rewrite E. auto.
Qed.
Lemma n_ends_total a : exists k, n_ends a k.
Proof.
  induction a as [|l a (k & IH)]; [exists 0; constructor|].
  destruct (starts_with (u "</s") l) eqn:Es.
  - apply end_iff in Es. exists (S k). now constructor.
  - exists k. apply ends_other; auto. rewrite <- end_iff, Es. discriminate.
Qed.
Lemma blocks_ends n blocks : Forall (block n) blocks -> n_ends (concat blocks) (length blocks * n).
Proof. induction 1 as [|b bs Hb _ IH]; [constructor|]. cbn [concat length]. apply n_ends_app; auto. apply Hb. Qed.
(** The number of files is the number of sentences divided by n; a part without n sentences is lost. *)
Theorem split_count n lines k : 0 < n -> n_ends lines k -> length (split_every (N.of_nat n) lines) = k / n.
Proof.
  intros Hn Hk. destruct (split_blocks n lines Hn) as (blocks & rest & j & El & Fb & Er & Hj & E).
  rewrite E, map_length. assert (Ek : k = length blocks * n + j).
  { apply (n_ends_fun lines); auto. rewrite El. apply n_ends_app; auto. now apply blocks_ends. }
  rewrite Ek, Nat.div_add_l by lia. rewrite Nat.div_small by lia. lia.
Qed.
Theorem split_rest_lost n lines rest k : 0 < n -> n_ends rest k -> k < n -> (exists j, n_ends lines (j * n)) ->
  split_every (N.of_nat n) (lines ++ rest) = split_every (N.of_nat n) lines.
Proof.
  intros Hn Hr Hk (j & Hj). unfold split_every. rewrite fold_left_app.
  destruct (split_fold_inv n lines Hn) as (blocks & r & i & El & Fb & Er & Hi & E).
  assert (Ei : i = 0).
  { assert (X : j * n = length blocks * n + i).
    { apply (n_ends_fun lines); auto. rewrite El. apply n_ends_app; auto. now apply blocks_ends. }
    assert (Y : (j * n) mod n = i) by (rewrite X, Nat.add_comm, Nat.mod_add by lia; apply Nat.mod_small; lia).
    rewrite Nat.mod_mul in Y by lia. auto. }
  subst i. rewrite E. clear E El Er. replace (length blocks * n + 0) with (length blocks * n + 0) by auto.
  assert (G : forall ls chunk a b, n_ends ls b -> a + b < n ->
    fst (fst (fold_left (split_step (N.of_nat n)) ls (map as_file blocks, chunk, N.of_nat (length blocks * n + a)))) = map as_file blocks).
  { clear. intros ls. induction ls as [|l ls IH]; intros chunk a b Hb Hab; cbn [fold_left]; auto.
    unfold split_step at 2. inversion Hb as [|? ? b' He Hb'|? ? ? He Hb']; subst.
    - rewrite (proj2 (end_iff l) He).
      replace (N.of_nat (length blocks * n + a) + 1)%N with (N.of_nat (S a) + N.of_nat (length blocks) * N.of_nat n)%N by lia.
      rewrite N.mod_add by lia. rewrite N.mod_small by lia. destruct (N.eqb_spec (N.of_nat (S a)) 0) as [X|_]; [lia|].
      replace (N.of_nat (S a) + N.of_nat (length blocks) * N.of_nat n)%N with (N.of_nat (length blocks * n + S a)) by lia.
      apply (IH _ _ b'); auto. lia.
    - destruct (starts_with (u "</s") l) eqn:Es; [now apply end_iff in Es|]. eapply IH; eauto. }
  apply (G rest _ 0 k); auto.
Qed.

(** ** read_nodes *)
Lemma fields_split line cs : fields line cs -> cs <> [] -> split 9%N (strip line) = cs.
Proof. intros (E & F) H. rewrite E. apply split_join; auto. Qed.
Lemma last_fst_app ps p s : last_fst (ps ++ [p]) s = if eqb (fst p) s then Some (snd p) else last_fst ps s.
Proof. unfold last_fst. rewrite rev_app_distr. cbn [rev app List.find]. destruct (eqb (fst p) s); auto. Qed.
Lemma last_snd_app ps p s : last_snd (ps ++ [p]) s = if eqb (snd p) s then Some (fst p) else last_snd ps s.
Proof. unfold last_snd. rewrite rev_app_distr. cbn [rev app List.find]. destruct (eqb (snd p) s); auto. Qed.
Lemma rfold_app {A T} (f : T -> A -> res T) l1 : forall l2 s, rfold f (l1 ++ l2) s = rbind (rfold f l1 s) (rfold f l2).
Proof. induction l1 as [|x l1 IH]; intros l2 s; cbn [app rfold rbind]; auto. destruct (f s x); cbn [rbind]; auto. Qed.
Theorem read_nodes_last lines ps : Forall2 (fun l p => fields l [fst p; snd p]) lines ps ->
  exists n2i i2n, read_nodes lines = Ok (n2i, i2n) /\ (forall s, dget n2i s = last_fst ps s) /\ (forall i, dget i2n i = last_snd ps i).
Proof.
  revert ps. induction lines as [|l lines IH] using rev_ind; intros ps F.
  - inversion F. exists [], []. auto.
  - apply Forall2_app_inv_l in F. destruct F as (ps1 & ps2 & F1 & F2 & E).
    inversion F2 as [|? p ? ? Hp F3]; subst. inversion F3; subst.
    destruct (IH ps1 F1) as (a & b & Ea & Ha & Hb). unfold read_nodes in *. rewrite rfold_app, Ea. cbn [rbind rfold].
    unfold read_node. rewrite (fields_split l [fst p; snd p]) by (auto; discriminate). cbn [rbind fst snd].
    exists (dset a (fst p) (snd p)), (dset b (snd p) (fst p)). split; auto. split; intros x; rewrite dget_dset.
    + rewrite last_fst_app. unfold eqb. destruct (eqdec (fst p) x) as [E1|E1], (eqdec x (fst p)) as [E2|E2]; congruence || auto.
    + rewrite last_snd_app. unfold eqb. destruct (eqdec (snd p) x) as [E1|E1], (eqdec x (snd p)) as [E2|E2]; congruence || auto.
Qed.
Theorem read_nodes_bad lines cs l : In l lines -> fields l cs -> cs <> [] -> length cs <> 2 -> read_nodes lines = Err ValueError.
Proof.
  intros Hl Hf Hn Hc. unfold read_nodes.
  assert (B : forall st, read_node st l = Err ValueError).
  { intros st. unfold read_node. rewrite (fields_split l cs); auto. destruct cs as [|a [|b [|c cs]]]; cbn in Hc; auto; lia. }
  generalize (@nil (pystr * pystr), @nil (pystr * pystr)) as st. induction lines as [|x lines IH]; intros st; [destruct Hl|].
  cbn [rfold]. destruct Hl as [E|Hl].
  - subst x. now rewrite B.
  - unfold read_node at 1. destruct (split 9%N (strip x)) as [|a [|b [|c cs']]]; cbn [rbind]; auto.
Qed.
Lemma last_fst_In ps s i : last_fst ps s = Some i -> In (s, i) ps.
Proof.
  unfold last_fst. destruct (List.find _ (rev ps)) as [p|] eqn:E; [|discriminate]. cbn. intros X. injection X as X.
  apply List.find_some in E. destruct E as (Hi & Hs). unfold eqb in Hs. destruct (eqdec (fst p) s); [|discriminate].
  apply in_rev in Hi. destruct p; cbn in *. now subst.
Qed.
Lemma last_snd_In ps s i : last_snd ps i = Some s -> In (s, i) ps.
Proof.
  unfold last_snd. destruct (List.find _ (rev ps)) as [p|] eqn:E; [|discriminate]. cbn. intros X. injection X as X.
  apply List.find_some in E. destruct E as (Hi & Hs). unfold eqb in Hs. destruct (eqdec (snd p) i); [|discriminate].
  apply in_rev in Hi. destruct p; cbn in *. now subst.
Qed.
Lemma last_fst_some ps s i : In (s, i) ps -> NoDup (map fst ps) -> last_fst ps s = Some i.
Proof.
  intros Hi N. unfold last_fst. destruct (List.find _ (rev ps)) as [[a b]|] eqn:E.
  - apply List.find_some in E. destruct E as (Hj & Hs). unfold eqb in Hs. cbn in Hs. destruct (eqdec a s); [|discriminate]. subst a.
    apply in_rev in Hj. cbn. f_equal. induction ps as [|[x y] ps IH]; [destruct Hi|]. cbn in N. inversion N as [|? ? Nx N']; subst.
    destruct Hi as [Hi|Hi], Hj as [Hj|Hj]; auto.
    + congruence.
    + injection Hi as <- <-. destruct Nx. apply in_map_iff. now exists (x, b).
    + injection Hj as <- <-. destruct Nx. apply in_map_iff. now exists (x, i).
  - apply List.find_none with (x := (s, i)) in E; [|now apply in_rev in Hi]. unfold eqb in E. cbn in E. destruct (eqdec s s); congruence.
Qed.
Lemma last_snd_some ps s i : In (s, i) ps -> NoDup (map snd ps) -> last_snd ps i = Some s.
Proof.
  intros Hi N. unfold last_snd. destruct (List.find _ (rev ps)) as [[a b]|] eqn:E.
  - apply List.find_some in E. destruct E as (Hj & Hs). unfold eqb in Hs. cbn in Hs. destruct (eqdec b i); [|discriminate]. subst b.
    apply in_rev in Hj. cbn. f_equal. induction ps as [|[x y] ps IH]; [destruct Hi|]. cbn in N. inversion N as [|? ? Nx N']; subst.
    destruct Hi as [Hi|Hi], Hj as [Hj|Hj]; auto.
    + congruence.
    + injection Hi as <- <-. destruct Nx. apply in_map_iff. now exists (a, y).
    + injection Hj as <- <-. destruct Nx. apply in_map_iff. now exists (s, y).
  - apply List.find_none with (x := (s, i)) in E; [|now apply in_rev in Hi]. unfold eqb in E. cbn in E. destruct (eqdec i i); congruence.
Qed.
Theorem read_nodes_inverse lines ps : Forall2 (fun l p => fields l [fst p; snd p]) lines ps -> NoDup (map fst ps) -> NoDup (map snd ps) ->
  exists n2i i2n, read_nodes lines = Ok (n2i, i2n) /\ forall s i, (dget n2i s = Some i <-> In (s, i) ps) /\ (dget i2n i = Some s <-> In (s, i) ps).
Proof.
  intros F N1 N2. destruct (read_nodes_last lines ps F) as (a & b & E & Ha & Hb). exists a, b. split; auto.
  intros s i. rewrite Ha, Hb. split; split.
  - apply last_fst_In.
  - intros Hi. now apply last_fst_some.
  - apply last_snd_In.
  - intros Hi. now apply last_snd_some.
Qed.

(** ** cartesian_product, group *)
Section Prod.
  Context {K V : Type} `{EqDec K}.
  Notation row m := (map (fun ks : K * list V => map (pair (fst ks)) (snd ks)) m).

  Lemma dict_of_nodup (l : list (K * V)) : NoDup (map fst l) -> dict_of l = l.
  Proof.
    unfold dict_of. assert (G : forall (l : list (K * V)) (d : dict K V), NoDup (map fst (d ++ l)) -> fold_left (fun (d : dict K V) kv => dset d (fst kv) (snd kv)) l d = d ++ l).
    { clear l. induction l as [|[k v] l IH]; intros d Hn; cbn [fold_left]; [now rewrite app_nil_r|].
      assert (Nk : ~ In k (dkeys d)).
      { rewrite map_app in Hn. cbn in Hn. apply NoDup_remove in Hn. intros Hk. apply (proj2 Hn). apply in_or_app. now left. }
      cbn [fst snd]. assert (Ed : dset d k v = d ++ [(k, v)]).
      { clear -Nk. induction d as [|[a b] d IH]; cbn [dset app]; auto. cbn in Nk.
        destruct (eqdec k a) as [E|E]; [subst; tauto|]. rewrite IH; auto. }
      rewrite Ed, IH; [now rewrite <- app_assoc|]. now rewrite <- app_assoc. }
    intros Hn. apply (G l []). exact Hn.
  Qed.
  Lemma product_spec (m : dict K (list V)) : forall x, In x (product (row m)) <->
    Forall2 (fun kv ks => fst kv = fst ks /\ In (snd kv) (snd ks)) x m.
  Proof.
    induction m as [|[k l] m IH]; intros x; cbn [map product].
    - split; [intros [<-|[]]; constructor|]. intros F. inversion F. now left.
    - rewrite in_flat_map. split.
      + intros (kv & Hk & Hx). apply in_map_iff in Hk. destruct Hk as (v & <- & Hv). apply in_map_iff in Hx. destruct Hx as (x' & <- & Hx).
        constructor; [cbn; auto|]. now apply IH.
      + intros F. inversion F as [|[k' v] ? x' ? (E & Hv) F' Ex]; subst. cbn in E, Hv. subst k'. exists (k, v). split.
        * apply in_map. exact Hv.
        * apply in_map. now apply IH.
  Qed.
  Lemma F2_keys (x : list (K * V)) m : Forall2 (fun kv (ks : K * list V) => fst kv = fst ks /\ In (snd kv) (snd ks)) x m -> map fst x = dkeys m.
  Proof. unfold dkeys. induction 1 as [|a b x m (E & _) _ IH]; cbn; auto. now rewrite E, IH. Qed.
  Lemma cartesian_eq (m : dict K (list V)) : dwf m -> cartesian_product m = product (row m).
  Proof.
    intros W. unfold cartesian_product. erewrite map_ext_in; [apply map_id|]. intros x Hx. cbn beta.
    apply dict_of_nodup. apply product_spec in Hx. apply F2_keys in Hx. rewrite Hx. exact W.
  Qed.
  Lemma choice_F2 (m : dict K (list V)) d : dwf m ->
    Forall2 (fun kv ks => fst kv = fst ks /\ In (snd kv) (snd ks)) d m <-> choice m d.
  Proof.
    intros W. split.
    - intros F. pose proof (F2_keys _ _ F) as Ek. split; [exact Ek|]. intros k v Hd.
      assert (Wd : dwf d) by (unfold dwf, dkeys in *; now rewrite Ek).
      apply dget_Some_In in Hd. clear Wd Ek. induction F as [|[a b] [c l] d m (E & Hv) F IH]; [destruct Hd|].
      cbn in E, Hv. subst c. inversion W as [|? ? Na W']; subst. destruct Hd as [Hd|Hd].
      + injection Hd as -> ->. exists l. split; auto. cbn. destruct (eqdec k k); congruence.
      + destruct (IH W' Hd) as (l' & El & Hl). exists l'. split; auto. cbn. destruct (eqdec k a) as [->|]; auto.
        exfalso. apply Na. apply dget_Some_key in El. exact El.
    - intros (Ek & Hc). assert (Wd : dwf d) by (unfold dwf; now rewrite Ek). revert d Ek Hc Wd.
      induction m as [|[k l] m IH]; intros [|[a v] d] Ek Hc Wd; try discriminate; [constructor|].
      injection Ek as -> Ek. inversion W as [|? ? Nk W']; subst. inversion Wd as [|? ? Nd Wd']; subst. constructor.
      + cbn. split; auto. destruct (Hc k v) as (l' & El & Hl); [cbn; destruct (eqdec k k); congruence|].
        cbn in El. destruct (eqdec k k); congruence.
      + apply IH; auto. intros k' v' Hd. destruct (Hc k' v') as (l' & El & Hl).
        { cbn. destruct (eqdec k' k) as [->|]; auto. exfalso. apply Nk. fold (dkeys m). rewrite <- Ek. now apply dget_Some_key in Hd. }
        exists l'. split; auto. cbn in El. destruct (eqdec k' k) as [->|]; auto.
        exfalso. apply Nk. fold (dkeys m). rewrite <- Ek. now apply dget_Some_key in Hd.
  Qed.
  Theorem product_choices (m : dict K (list V)) : dwf m -> forall d, In d (cartesian_product m) <-> choice m d.
  Proof. intros W d. rewrite cartesian_eq, product_spec by auto. now apply choice_F2. Qed.
  Lemma FOP_app {A} (P : A -> A -> Prop) l1 : forall l2, ForallOrdPairs P l1 -> ForallOrdPairs P l2 -> (forall x y, In x l1 -> In y l2 -> P x y) ->
    ForallOrdPairs P (l1 ++ l2).
  Proof.
    induction l1 as [|x l1 IH]; intros l2 F1 F2 Hx; auto. inversion F1; subst. cbn [app]. constructor.
    - apply Forall_app. split; auto. apply Forall_forall. intros y Hy. apply Hx; [now left|auto].
    - apply IH; auto. intros a b Ha Hb. apply Hx; [now right|auto].
  Qed.
  Theorem product_order (m : dict K (list V)) : dwf m -> ForallOrdPairs (before m) (cartesian_product m).
  Proof.
    intros W. rewrite cartesian_eq by auto. induction m as [|[k l] m IH]; cbn [map product].
    - constructor; constructor.
    - inversion W as [|? ? Nk W']; subst. specialize (IH W'). cbn [fst snd].
      assert (G : forall l1 l0, l = l0 ++ l1 ->
        ForallOrdPairs (before ((k, l) :: m)) (flat_map (fun x => map (cons x) (product (row m))) (map (pair k) l1))).
      { induction l1 as [|v l1 IHl]; intros l0 El; [constructor|]. cbn [map flat_map]. apply FOP_app.
        - revert IH. generalize (fun d => proj1 (product_spec m d)). generalize (product (row m)) as ds.
          induction ds as [|d ds IHd]; intros Hs Fd; cbn [map]; [constructor|]. inversion Fd as [|? ? Hd Fd']; subst. constructor.
          + apply Forall_forall. intros y Hy. apply in_map_iff in Hy. destruct Hy as (d' & <- & Hd').
            rewrite Forall_forall in Hd. destruct (Hd _ Hd') as (m1 & k' & l' & m2 & x1 & x & x2 & y & x3 & Em & El' & Hb & Hx & Hy).
            exists ((k, l0 ++ v :: l1) :: m1), k', l', m2, x1, x, x2, y, x3. split; [cbn; now rewrite Em|]. split; auto.
            assert (Ek : k' <> k). { intros ->. apply Nk. unfold dkeys. rewrite Em, map_app. apply in_or_app. right. now left. }
            repeat split.
            * intros a [<-|Ha]; cbn; [destruct (eqdec k k); congruence|]. destruct (eqdec a k); auto.
            * cbn. destruct (eqdec k' k); congruence.
            * cbn. destruct (eqdec k' k); congruence.
          + apply IHd; auto. intros d' Hd'. apply Hs. now right.
        - apply (IHl (l0 ++ [v])). now rewrite <- app_assoc.
        - intros a b Ha Hb. apply in_map_iff in Ha. destruct Ha as (a' & <- & Ha). apply in_flat_map in Hb. destruct Hb as (kv & Hkv & Hb).
          apply in_map_iff in Hkv. destruct Hkv as (w & <- & Hw). apply in_map_iff in Hb. destruct Hb as (b' & <- & Hb).
          apply in_split in Hw. destruct Hw as (l2 & l3 & El1).
          exists [], k, l, m, l0, v, l2, w, l3. repeat split.
          + now rewrite El, El1.
          + intros a [].
          + cbn. destruct (eqdec k k); congruence.
          + cbn. destruct (eqdec k k); congruence. }
      apply (G l []). reflexivity.
  Qed.
End Prod.

Section Group.
  Context {P Q : Type} `{EqDec P} `{EqDec Q}.
  Lemma group_fold (l : list (P * Q)) : let d := fold_left group_step l [] in
    dwf d /\ (forall p, In p (dkeys d) <-> exists s, In (p, s) l) /\
    (forall p ss, dget d p = Some ss -> NoDup ss /\ forall s, In s ss <-> In (p, s) l).
  Proof.
    induction l as [|[p s] l IH] using rev_ind; cbn zeta.
    - cbn. split; [constructor|]. split; [|discriminate]. intros p. split; [tauto|]. now intros (s & X).
    - rewrite fold_left_app. cbn [fold_left]. cbn zeta in IH. destruct IH as (W & Hk & Hs).
      set (d := fold_left group_step l []) in *. unfold group_step. cbn [fst snd].
      split; [now apply dwf_dset|]. split.
      + intros q. split.
        * intros Hq. destruct (eqdec q p) as [->|Nq]; [exists s; apply in_or_app; right; now left|].
          apply dget_key_Some in Hq. destruct Hq as (v & Hq). rewrite dget_dset in Hq. destruct (eqdec q p); [congruence|].
          apply dget_Some_key, Hk in Hq. destruct Hq as (t & Ht). exists t. apply in_or_app. now left.
        * intros (t & Ht). destruct (eqdec q p) as [->|Nq].
          { eapply dget_Some_key. rewrite dget_dset. destruct (eqdec p p); [reflexivity|congruence]. }
          apply in_app_or in Ht. destruct Ht as [Ht|[Ht|[]]]; [|congruence].
          assert (Hq : In q (dkeys d)) by (apply Hk; eauto). apply dget_key_Some in Hq. destruct Hq as (v & Hq).
          eapply dget_Some_key. rewrite dget_dset. destruct (eqdec q p); [congruence|eauto].
      + intros q ss. rewrite dget_dset. destruct (eqdec q p) as [->|Nq].
        * intros E. injection E as <-. destruct (dget d p) as [o|] eqn:Eo.
          { destruct (Hs _ _ Eo) as (No & Ho). destruct (mem s o) eqn:Em.
            - apply mem_In in Em. split; auto. intros t. rewrite Ho, in_app_iff. split; [tauto|]. intros [|[X|[]]]; auto.
              injection X as <-. now apply Ho.
            - apply mem_nIn in Em. split.
              + apply (Permutation_NoDup (Permutation_cons_append o s)). now constructor.
              + intros t. rewrite !in_app_iff, Ho. cbn. split; intros [|[X|[]]]; auto; [right; left; congruence|injection X; auto]. }
          { cbn [mem app]. assert (Nn : forall t, ~ In (p, t) l).
            { intros t Ht. assert (Hp : In p (dkeys d)) by (apply Hk; eauto). apply dget_key_Some in Hp. destruct Hp; congruence. }
            cbn. split; [constructor; [intros []|constructor]|]. intros t. rewrite in_app_iff. cbn. split; intros X.
            - destruct X as [X|[]]. subst t. auto.
            - destruct X as [X|[X|[]]]; [now apply Nn in X|]. injection X; auto. }
        * intros E. destruct (Hs _ _ E) as (No & Ho). split; auto. intros t. rewrite Ho, in_app_iff. cbn. split; [tauto|].
          intros [|[X|[]]]; auto. congruence.
  Qed.
End Group.
