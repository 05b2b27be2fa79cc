(** * Proofs about file name lists, directory trees and the construction of handlers. *)
From Coq Require Import String NArith ZArith Bool Arith Permutation Sorted Lia List.
From Verif Require Import Base BaseLemmas Str StrLemmas VocabModel ConfModel ConfSpec DepMatchProofs ConfProofs.
Import ListNotations.
Local Open Scope string_scope.
Local Open Scope nat_scope.
Local Open Scope list_scope.

(** ** os.path.splitext *)
Lemma index_app {A} `{EqDec A} (c : A) a z : ~ In c a -> index_of c (a ++ c :: z) = Some (length a).
Proof.
  induction a as [|x a IH]; cbn [app index_of length]; intros N; [destruct (eqdec c c); congruence|].
  destruct (eqdec c x) as [->|]; [exfalso; apply N; left; auto|]. rewrite IH; [reflexivity|]. intros i; apply N; right; auto.
Qed.
Lemma rfind_last c a z : ~ In c z -> rfind c (a ++ c :: z) = Some (length a).
Proof.
  intros N. unfold rfind. rewrite rev_app_distr. cbn [rev]. rewrite <- app_assoc. cbn [app].
  rewrite index_app by (rewrite <- in_rev; auto). rewrite rev_length, app_length. cbn [length]. f_equal. lia.
Qed.
Lemma rfind_none c s : ~ In c s -> rfind c s = None.
Proof. intros N. unfold rfind. rewrite (proj2 (index_of_None c (rev s))); auto. rewrite <- in_rev. auto. Qed.

Lemma splitext_app p : fst (splitext p) ++ snd (splitext p) = p.
Proof.
  unfold splitext. destruct (rfind dot p) as [d|]; [|apply app_nil_r]. destruct (_ <=? _); [|apply app_nil_r].
  destruct (existsb _ _); [|apply app_nil_r]. cbn [fst snd]. apply firstn_skipn.
Qed.
(** [dirn] is empty or ends with a slash. *)
Lemma splitext_name dirn n e : (dirn = [] \/ exists d, dirn = d ++ [slash]) -> ~ In slash n -> (exists c, In c n /\ c <> dot) -> ~ In dot e -> ~ In slash e ->
  splitext (dirn ++ n ++ dot :: e) = (dirn ++ n, dot :: e).
Proof.
  intros Hd Hn (c & Ic & Nc) Ed Es. unfold splitext. rewrite app_assoc, rfind_last by auto.
  assert (St : match rfind slash ((dirn ++ n) ++ dot :: e) with Some i => S i | None => 0 end = length dirn).
  { destruct Hd as [->|(d & ->)].
    - cbn [app]. rewrite rfind_none; [reflexivity|]. rewrite in_app_iff. cbn [In]. intros [X|[X|X]]; auto. discriminate X.
    - rewrite <- !app_assoc. cbn [app]. rewrite rfind_last.
      + rewrite app_length. cbn. lia.
      + rewrite in_app_iff. cbn [In]. intros [X|[X|X]]; auto. discriminate X. }
  rewrite St, app_length. rewrite (proj2 (Nat.leb_le _ _)) by lia.
  replace (length dirn + length n - length dirn) with (length n) by lia.
  assert (X : firstn (length n) (skipn (length dirn) ((dirn ++ n) ++ dot :: e)) = n).
  { rewrite <- app_assoc, skipn_app, skipn_all, Nat.sub_diag. cbn [app skipn]. rewrite firstn_app, firstn_all, Nat.sub_diag. cbn [firstn]. apply app_nil_r. }
  rewrite X. replace (existsb (fun c0 => negb (c0 =? dot)%N) n) with true.
  - rewrite <- app_length. rewrite firstn_app, firstn_all, Nat.sub_diag, skipn_app, skipn_all, Nat.sub_diag. cbn [firstn skipn app]. rewrite app_nil_r. reflexivity.
  - symmetry. apply existsb_exists. exists c. split; auto. apply negb_true_iff. apply N.eqb_neq. auto.
Qed.

(** The identifiers of two files are equal only if they differ in the extension alone. *)
Lemma fid_equal a b : fid_of a = fid_of b -> a <> b -> snd (splitext a) <> snd (splitext b).
Proof. unfold fid_of. intros E N X. apply N. rewrite <- (splitext_app a), <- (splitext_app b). congruence. Qed.
Lemma fid_same_stem dirn n e e' : (dirn = [] \/ exists d, dirn = d ++ [slash]) -> ~ In slash n -> (exists c, In c n /\ c <> dot) ->
  ~ In dot e -> ~ In slash e -> ~ In dot e' -> ~ In slash e' -> fid_of (dirn ++ n ++ dot :: e) = fid_of (dirn ++ n ++ dot :: e').
Proof. intros. unfold fid_of. rewrite !splitext_name by auto. reflexivity. Qed.

(** ** File name lists *)
Lemma fnames_reads dirname lines :
  reads dirname lines (map (fun f => if mem slash f then f else dirname ++ slash :: f) (filter keep_line (map strip lines))).
Proof.
  induction lines as [|l lines IH]; cbn [map filter]; [constructor|]. unfold keep_line at 1. destruct (strip l) as [|c t] eqn:E; [constructor; auto|].
  destruct (N.eqb_spec c hash) as [->|ne]; cbn [negb].
  - eapply rd_comment; eauto.
  - cbn [map]. destruct (mem slash (c :: t)) eqn:Em.
    + apply mem_In in Em. rewrite <- E in *. constructor; auto; rewrite E; [discriminate|]. cbn. intros [= ->]. auto.
    + apply mem_nIn in Em. rewrite <- E in *. constructor; auto; rewrite E; [discriminate|]. cbn. intros [= ->]. auto.
Qed.
Lemma reads_fun d lines r r' : reads d lines r -> reads d lines r' -> r = r'.
Proof.
  intros A. revert r'. induction A as [|l ls r S A IH|l t ls r S A IH|l ls r S1 S2 S3 A IH|l ls r S1 S2 S3 A IH]; intros r' B; inversion B; subst; auto;
    try (exfalso; rewrite ?S in *; cbn in *; congruence); try (f_equal; auto); try contradiction; try (exfalso; rewrite H1 in *; cbn in *; congruence).
Qed.

Section Fnames.
  Variable read_lines : pystr -> pystr -> res (list pystr).
  Variable lookup : pystr -> option dir.

  Lemma read_fnames_other filename dirname enc lines : snd (splitext filename) <> u ".fnames" -> read_lines (filename ++ u ".fnames") enc = Ok lines ->
    exists r, read_fnames read_lines filename dirname enc = Ok r /\ reads dirname lines r.
  Proof.
    intros N R. unfold read_fnames. destruct (eqdec _ _); [contradiction|]. rewrite R. eexists. split; [reflexivity|]. apply fnames_reads.
  Qed.
  Lemma read_fnames_ext filename dirname enc lines : snd (splitext filename) = u ".fnames" -> read_lines filename enc = Ok lines ->
    exists r, read_fnames read_lines filename dirname enc = Ok r /\ reads dirname lines r.
  Proof.
    intros N R. unfold read_fnames. destruct (eqdec _ _); [|contradiction]. rewrite R. eexists. split; [reflexivity|]. apply fnames_reads.
  Qed.
  (** A name with or without the extension. *)
  Lemma read_fnames_both dirn n dirname enc lines : (dirn = [] \/ exists d, dirn = d ++ [slash]) -> good_name n -> ~ In dot n ->
    read_lines (dirn ++ n ++ u ".fnames") enc = Ok lines ->
    exists r, reads dirname lines r /\ read_fnames read_lines (dirn ++ n) dirname enc = Ok r /\ read_fnames read_lines (dirn ++ n ++ u ".fnames") dirname enc = Ok r.
  Proof.
    intros Hd [Nn Ns] Nd R.
    assert (Hc : exists c, In c n /\ c <> dot). { destruct n as [|c n]; [contradiction|]. exists c. split; [left; auto|]. intros ->. apply Nd. left; auto. }
    assert (E1 : snd (splitext (dirn ++ n ++ u ".fnames")) = u ".fnames").
    { change (u ".fnames") with (dot :: u "fnames"). rewrite splitext_name; auto; cbn; intuition discriminate. }
    assert (E2 : snd (splitext (dirn ++ n)) <> u ".fnames").
    { intros X. pose proof (splitext_app (dirn ++ n)) as Y. rewrite X in Y.
      destruct Hd as [->|(d & ->)].
      - cbn [app] in Y. apply Nd. rewrite <- Y. apply in_or_app. right. left. reflexivity.
      - (* the last seven characters of d ++ "/" ++ n: the dot is in n or before the slash *)
        assert (Z : forall a b c, a ++ u ".fnames" = (b ++ [slash]) ++ c -> ~ In slash (u ".fnames") -> exists w, c = w ++ u ".fnames").
        { clear. intros a b c E N. revert b c E. induction a as [|x a IH]; intros b c E.
          - exfalso. apply N. cbn [app] in E. rewrite E. apply in_or_app. left. apply in_or_app. right. left. reflexivity.
          - destruct b as [|y b]; cbn [app] in E.
            + injection E as -> E. exists a. auto.
            + injection E as -> E. eapply IH; eauto. }
        destruct (Z _ _ _ Y) as (w & ->); [cbn; intuition discriminate|]. apply Nd. apply in_or_app. right. left. reflexivity. }
    destruct (read_fnames_other (dirn ++ n) dirname enc lines E2) as (r & A & B); [rewrite <- app_assoc; auto|].
    destruct (read_fnames_ext (dirn ++ n ++ u ".fnames") dirname enc lines E1 R) as (r' & A' & B'). rewrite (reads_fun _ _ _ _ B' B) in A'. eauto.
  Qed.

  Lemma prepare_reads cp enc filename lines : snd (splitext filename) = u ".fnames" -> read_lines filename (u "utf-8") = Ok lines ->
    exists r, prepare_fnames read_lines lookup cp enc (FStr filename) = Ok r /\ reads enc lines r.
  Proof. intros. unfold prepare_fnames. apply read_fnames_ext; auto. Qed.
  Lemma reads_dir d d' lines r : reads d lines r -> reads d' lines r -> (exists l, In l lines /\ strip l <> [] /\ hd_error (strip l) <> Some 35%N /\ ~ In slash (strip l)) -> d = d'.
  Proof.
    intros A B (l & I & X1 & X2 & X3). rewrite (reads_fun _ _ _ _ A (fnames_reads d lines)) in B. pose proof (reads_fun _ _ _ _ B (fnames_reads d' lines)) as E. clear A B r.
    assert (K : In (strip l) (filter keep_line (map strip lines))).
    { apply filter_In. split; [apply in_map; auto|]. unfold keep_line. destruct (strip l) as [|c t]; [contradiction|]. apply negb_true_iff, N.eqb_neq. intros ->. apply X2. reflexivity. }
    revert E K. generalize (filter keep_line (map strip lines)) as kl. induction kl as [|k kl IH]; cbn [map]; intros E K; [destruct K|]. injection E as E1 E2.
    destruct K as [->|K]; [|auto]. rewrite (proj2 (mem_nIn _ _) X3) in E1. apply app_inv_tail in E1. auto.
  Qed.
End Fnames.

(** ** Directory trees *)
Section DirInd.
  Variable P : dir -> Prop.
  Hypothesis H : forall fs subs, Forall (fun s => P (snd s)) subs -> P (Dir fs subs).
  Fixpoint dir_ind' (d : dir) : P d :=
    match d with
    | Dir fs subs => H fs subs ((fix go l : Forall (fun s => P (snd s)) l :=
        match l with [] => Forall_nil _ | x :: l' => Forall_cons x (dir_ind' (snd x)) (go l') end) subs)
    end.
End DirInd.

Fixpoint comps (d : dir) : list (list pystr) :=
  match d with Dir fs subs => map (fun f => [f]) fs ++ flat_map (fun s => map (cons (fst s)) (comps (snd s))) subs end.

Lemma flat_map_ext_in {A B} (f g : A -> list B) l : (forall x, In x l -> f x = g x) -> flat_map f l = flat_map g l.
Proof. induction l as [|x l IH]; cbn; intros E; auto. rewrite E by auto. rewrite IH by auto. reflexivity. Qed.
Lemma flat_map_flat {A B C} (f : A -> list B) (g : B -> list C) l : flat_map g (flat_map f l) = flat_map (fun x => flat_map g (f x)) l.
Proof. induction l as [|x l IH]; cbn; auto. rewrite flat_map_app, IH. reflexivity. Qed.
Lemma map_flat {A B C} (f : A -> list B) (g : B -> C) l : map g (flat_map f l) = flat_map (fun x => map g (f x)) l.
Proof. induction l as [|x l IH]; cbn; auto. rewrite map_app, IH. reflexivity. Qed.

Lemma walk_comps d : forall root, flat_map (fun rf => map (path_join (fst rf)) (snd rf)) (os_walk root d) = map (path_str root) (comps d).
Proof.
  induction d as [fs subs IH] using dir_ind'. intros root. cbn [os_walk comps flat_map fst snd]. rewrite map_app, map_map. f_equal.
  rewrite flat_map_flat, map_flat. apply flat_map_ext_in. intros s Hs. rewrite map_map. rewrite Forall_forall in IH. rewrite (IH s Hs). reflexivity.
Qed.
Lemma comps_file_in d : forall p, In p (comps d) <-> file_in d p.
Proof.
  induction d as [fs subs IH] using dir_ind'. rewrite Forall_forall in IH. intros p. cbn [comps]. rewrite in_app_iff, in_map_iff, in_flat_map. split.
  - intros [(f & <- & Hf)|([n d] & Hs & Hp)]; [constructor; auto|]. apply in_map_iff in Hp as (q & <- & Hq). cbn [fst snd] in *.
    econstructor; [exact Hs|]. apply (IH (n, d) Hs). auto.
  - intros F. inversion F as [? ? f Hf|? ? n d q Hs Hq]; subst; [left; eauto|]. right. exists (n, d). split; auto. apply in_map_iff. exists q. split; auto. apply (IH (n, d) Hs). auto.
Qed.

Lemma perm_flat_map {A B} (f : A -> list B) l l' : Permutation l l' -> Permutation (flat_map f l) (flat_map f l').
Proof.
  induction 1; cbn [flat_map]; auto.
  - apply Permutation_app_head. auto.
  - rewrite !app_assoc. apply Permutation_app_tail. apply Permutation_app_comm.
  - eapply perm_trans; eauto.
Qed.
Lemma walk_perm root d : Permutation (walk_files root d) (map (path_str root) (comps d)).
Proof. unfold walk_files. rewrite <- walk_comps. apply perm_flat_map. symmetry. apply isort_perm. Qed.

Lemma walk_In root d x : In x (walk_files root d) <-> exists p, file_in d p /\ x = path_str root p.
Proof.
  split.
  - intros I. apply (Permutation_in _ (walk_perm root d)) in I. apply in_map_iff in I as (p & <- & Hp). exists p. split; auto. apply comps_file_in. auto.
  - intros (p & Hp & ->). apply (Permutation_in _ (Permutation_sym (walk_perm root d))). apply in_map. apply comps_file_in. auto.
Qed.

(** *** Path strings *)
Definition base (root : pystr) : pystr := match rev root with [] => [] | c :: _ => if eqdec c slash then root else root ++ [slash] end.
Lemma path_join_base root n : good_name n -> path_join root n = base root ++ n.
Proof.
  intros [N S]. unfold path_join, base. destruct n as [|c n]; [contradiction|]. destruct (eqdec c slash) as [->|]; [exfalso; apply S; left; auto|].
  destruct (rev root) as [|d r] eqn:E.
  - reflexivity.
  - destruct (eqdec d slash); auto. rewrite <- app_assoc. reflexivity.
Qed.
Lemma base_name root n : good_name n -> base (base root ++ n) = base root ++ n ++ [slash].
Proof.
  intros [N S]. unfold base at 1. rewrite rev_app_distr. destruct (rev n) as [|c r] eqn:E.
  - apply (f_equal (@rev _)) in E. rewrite rev_involutive in E. contradiction.
  - cbn [app]. destruct (eqdec c slash) as [->|]; [|rewrite <- app_assoc; auto].
    exfalso. apply S. rewrite in_rev, E. left; auto.
Qed.
Lemma path_str_base p : forall root, p <> [] -> Forall good_name p -> path_str root p = base root ++ join slash p.
Proof.
  induction p as [|n p IH]; intros root Ne G; [contradiction|]. inversion G as [|? ? Gn Gp]; subst. unfold path_str. cbn [fold_left]. fold (path_str (path_join root n) p).
  destruct p as [|m p]; [cbn; apply path_join_base; auto|]. rewrite IH by (auto; discriminate). rewrite path_join_base, base_name by auto.
  change (join slash (n :: m :: p)) with (n ++ slash :: join slash (m :: p)). rewrite <- !app_assoc. reflexivity.
Qed.
Lemma path_str_inj root p q : p <> [] -> q <> [] -> Forall good_name p -> Forall good_name q -> path_str root p = path_str root q -> p = q.
Proof.
  intros Np Nq Gp Gq E. rewrite !path_str_base in E by auto. apply app_inv_head in E. apply (f_equal (split slash)) in E.
  rewrite !split_join in E; auto; eapply Forall_impl; try eassumption; intros a [_ X]; exact X.
Qed.

Lemma file_in_good d p : good_dir d -> file_in d p -> p <> [] /\ Forall good_name p.
Proof.
  intros G F. induction F as [fs subs f Hf|fs subs n d p Hs F IH]; inversion G as [? ? Nd Gn Gs]; subst; rewrite Forall_forall in Gn.
  - split; [discriminate|]. constructor; auto. apply Gn, in_or_app; auto.
  - destruct IH as [_ Gp]; [eauto|]. split; [discriminate|]. constructor; auto. apply Gn, in_or_app. right. change n with (fst (n, d)). apply in_map. auto.
Qed.

Lemma comps_NoDup d : good_dir d -> NoDup (comps d).
Proof.
  induction d as [fs subs IH] using dir_ind'. rewrite Forall_forall in IH. intros G. inversion G as [? ? Nd Gn Gs]; subst. cbn [comps].
  assert (Nf : NoDup fs) by (clear - Nd; induction fs; [constructor|]; cbn in Nd; inversion Nd; subst; constructor; auto; intros i; apply H1, in_or_app; auto).
  assert (Ns : NoDup (map fst subs)) by (clear - Nd; induction fs; auto; cbn in Nd; inversion Nd; auto).
  apply NoDup_app'.
  - clear - Nf. induction Nf; cbn; constructor; auto. intros i. apply in_map_iff in i as (y & E & I). injection E as ->. contradiction.
  - assert (X : forall s, In s subs -> NoDup (comps (snd s))) by (intros [n d] Hs; apply IH; [auto|]; eapply Gs; eauto). clear - X Ns.
    induction subs as [|[n d] subs IHs]; cbn [flat_map]; [constructor|]. cbn [map fst] in Ns. inversion Ns as [|? ? Nn Ns']; subst. cbn [fst snd]. apply NoDup_app'.
    + apply FinFun.Injective_map_NoDup; [intros a b E; injection E; auto|]. apply (X (n, d)). left; auto.
    + apply IHs; auto. intros s Hs. apply X. right; auto.
    + intros p I1 I2. apply in_map_iff in I1 as (q & <- & _). apply in_flat_map in I2 as ([n' d'] & Hs & I2). apply in_map_iff in I2 as (q' & E & _). cbn [fst] in E. injection E as -> _.
      apply Nn. change n with (fst (n, d')). apply in_map. auto.
  - intros p I1 I2. apply in_map_iff in I1 as (f & <- & Hf). apply in_flat_map in I2 as ([n' d'] & Hs & I2). apply in_map_iff in I2 as (q' & E & Iq). cbn [fst snd] in *. injection E as -> ->.
    apply comps_file_in in Iq. inversion Iq.
Qed.
Lemma walk_NoDup root d : good_dir d -> NoDup (walk_files root d).
Proof.
  intros G. eapply Permutation_NoDup; [symmetry; apply walk_perm|].
  assert (X : forall p, In p (comps d) -> p <> [] /\ Forall good_name p) by (intros p Hp; apply (file_in_good d); auto; apply comps_file_in; auto).
  pose proof (comps_NoDup d G) as N. revert X N. generalize (comps d) as l. induction l as [|p l IH]; cbn [map]; intros X N; [constructor|]. inversion N as [|? ? Np Nl]; subst.
  constructor; [|apply IH; auto; intros q Hq; apply X; right; auto]. intros I. apply in_map_iff in I as (q & E & Iq).
  destruct (X p (or_introl eq_refl)) as [A1 A2]. destruct (X q (or_intror Iq)) as [B1 B2]. apply path_str_inj in E; auto. subst q. contradiction.
Qed.

(** *** Order *)
Definition pairs_of (ws : list (pystr * list pystr)) : list (pystr * pystr) := flat_map (fun rf => map (pair (fst rf)) (snd rf)) ws.
Lemma walk_pairs root d : walk_files root d = map (fun rf => path_join (fst rf) (snd rf)) (pairs_of (isort (fun a b => sleb (fst a) (fst b)) (os_walk root d))).
Proof. unfold walk_files, pairs_of. rewrite map_flat. apply flat_map_ext_in. intros [r f] _. cbn [fst snd]. rewrite map_map. reflexivity. Qed.
Lemma SS_app {A} (R : A -> A -> Prop) l l' : StronglySorted R l -> StronglySorted R l' -> (forall x y, In x l -> In y l' -> R x y) -> StronglySorted R (l ++ l').
Proof.
  intros S S' X. induction S as [|a l S IH F]; cbn [app]; auto. constructor; [apply IH; intros; apply X; auto; right; auto|].
  apply Forall_app. split; auto. apply Forall_forall. intros y Hy. apply X; auto. left; auto.
Qed.
Lemma pairs_sorted ws : StronglySorted (fun a b => sleb (fst a) (fst b) = true) ws -> StronglySorted (fun a b : pystr * pystr => sleb (fst a) (fst b) = true) (pairs_of ws).
Proof.
  intros S. induction S as [|[r fs] ws S IH F]; cbn [pairs_of flat_map]; [constructor|]. fold (pairs_of ws). cbn [fst snd]. apply SS_app; auto.
  - clear. induction fs as [|f fs IH]; cbn [map]; constructor; auto. apply Forall_forall. intros x Hx. apply in_map_iff in Hx as (y & <- & _). cbn. apply sleb_refl.
  - intros x y Hx Hy. apply in_map_iff in Hx as (f & <- & _). apply in_flat_map in Hy as ([r' fs'] & Hw & Hy). apply in_map_iff in Hy as (f' & <- & _). cbn [fst].
    rewrite Forall_forall in F. apply (F _ Hw).
Qed.
Lemma walk_pair_file root d : forall r f, In (r, f) (pairs_of (os_walk root d)) -> exists q, file_in d (q ++ [f]) /\ r = path_str root q.
Proof.
  revert root. induction d as [fs subs IH] using dir_ind'. rewrite Forall_forall in IH. intros root r f I. unfold pairs_of in I. cbn [os_walk flat_map fst snd] in I.
  apply in_app_or in I as [I|I].
  - apply in_map_iff in I as (g & E & Hg). injection E as <- <-. exists []. split; [constructor; auto|reflexivity].
  - rewrite flat_map_flat in I. apply in_flat_map in I as ([n d] & Hs & I). cbn [fst snd] in I. destruct (IH (n, d) Hs _ _ _ I) as (q & Hq & ->). exists (n :: q). split; [econstructor; eauto|reflexivity].
Qed.
Lemma SS_nth {A} (R : A -> A -> Prop) l : StronglySorted R l -> forall i j x y, i < j -> nth_error l i = Some x -> nth_error l j = Some y -> R x y.
Proof.
  induction 1 as [|a l S IH F]; intros i j x y L E1 E2; [destruct i; discriminate|]. destruct j as [|j]; [lia|]. cbn in E2. destruct i as [|i]; cbn in E1.
  - injection E1 as ->. rewrite Forall_forall in F. apply F. eapply nth_error_In; eauto.
  - apply (IH i j); auto. lia.
Qed.
Lemma walk_order root d q1 f1 q2 f2 i j : good_dir d -> file_in d (q1 ++ [f1]) -> file_in d (q2 ++ [f2]) ->
  nth_error (walk_files root d) i = Some (path_str root (q1 ++ [f1])) -> nth_error (walk_files root d) j = Some (path_str root (q2 ++ [f2])) ->
  sltb (path_str root q1) (path_str root q2) = true -> i < j.
Proof.
  intros G F1 F2 E1 E2 Lt. rewrite walk_pairs in E1, E2. rewrite nth_error_map in E1, E2.
  set (ps := pairs_of _) in *. assert (S : StronglySorted (fun a b : pystr * pystr => sleb (fst a) (fst b) = true) ps) by (apply pairs_sorted, isort_sorted; [intros; apply sleb_total|intros a b c; apply sleb_trans]).
  assert (Key : forall k q f, file_in d (q ++ [f]) -> option_map (fun rf : pystr * pystr => path_join (fst rf) (snd rf)) (nth_error ps k) = Some (path_str root (q ++ [f])) -> exists r g, nth_error ps k = Some (r, g) /\ r = path_str root q).
  { intros k q f F E. destruct (nth_error ps k) as [[r g]|] eqn:En; [|discriminate]. cbn in E. injection E as E. exists r, g. split; auto.
    apply nth_error_In in En. assert (In (r, g) (pairs_of (os_walk root d))) as I.
    { unfold ps in En. unfold pairs_of in *. eapply Permutation_in; [|exact En]. apply perm_flat_map. symmetry. apply isort_perm. }
    destruct (walk_pair_file root d r g I) as (q' & F' & ->).
    assert (X : path_join (path_str root q') g = path_str root (q' ++ [g])) by (unfold path_str; rewrite fold_left_app; reflexivity). rewrite X in E.
    destruct (file_in_good d _ G F) as [_ A]. destruct (file_in_good d _ G F') as [_ B].
    apply path_str_inj in E; auto; [|destruct q'; discriminate|destruct q; discriminate]. apply app_inj_tail in E as [-> _]. reflexivity. }
  destruct (Key _ _ _ F1 E1) as (r1 & g1 & N1 & ->). destruct (Key _ _ _ F2 E2) as (r2 & g2 & N2 & ->).
  destruct (lt_eq_lt_dec i j) as [[L| ->]|L]; auto; exfalso.
  - rewrite N1 in N2. injection N2 as E _. rewrite E in Lt. unfold sltb in Lt. rewrite scmp_refl in Lt. discriminate.
  - pose proof (SS_nth _ _ S j i _ _ L N2 N1) as X. cbn [fst] in X. unfold sltb, sleb in *. rewrite (scmp_opp (path_str root q1)) in X. destruct (scmp (path_str root q1) (path_str root q2)); discriminate.
Qed.

(** *** Listing order *)
Lemma Forall2_flat {A B C D} (R : A -> B -> Prop) (Q : C -> D -> Prop) (f : A -> list C) (g : B -> list D) l l' :
  Forall2 R l l' -> (forall a b, In a l -> R a b -> exists c, Permutation (f a) c /\ Forall2 Q c (g b)) -> exists c, Permutation (flat_map f l) c /\ Forall2 Q c (flat_map g l').
Proof.
  induction 1 as [|a b l l' Hr F IH]; intros X; cbn [flat_map]; [exists []; auto|].
  destruct (X a b (or_introl eq_refl) Hr) as (c1 & P1 & Q1). destruct IH as (c2 & P2 & Q2); [intros; apply X; auto; right; auto|].
  exists (c1 ++ c2). split; [apply Permutation_app; auto|apply Forall2_app; auto].
Qed.
Lemma same_walk R d : forall d' root, same_dir R d d' -> exists ws, Permutation (os_walk root d) ws /\ Forall2 (fun a b => fst a = fst b /\ R (snd a) (snd b)) ws (os_walk root d').
Proof.
  induction d as [fs subs IH] using dir_ind'. rewrite Forall_forall in IH. intros d' root S. inversion S as [? fs' ? subs' subs'' Rf Pe F]; subst. cbn [os_walk].
  destruct (Forall2_flat _ (fun a b => fst a = fst b /\ R (snd a) (snd b)) (fun s => os_walk (path_join root (fst s)) (snd s)) (fun s => os_walk (path_join root (fst s)) (snd s)) _ _ F) as (c & Pc & Fc).
  - intros [n a] [n' b] Hi [E Sd]. cbn [fst snd] in *. subst n'. apply (IH (n, a)); auto. apply (Permutation_in _ (Permutation_sym Pe)). auto.
  - exists ((root, fs) :: c). split; [|constructor; auto]. constructor. eapply perm_trans; [apply perm_flat_map; exact Pe|exact Pc].
Qed.
Lemma same_files_perm root d d' : same_dir (@Permutation pystr) d d' -> Permutation (walk_files root d) (walk_files root d').
Proof.
  intros S. destruct (same_walk _ d d' root S) as (ws & P & F). unfold walk_files.
  eapply perm_trans; [apply perm_flat_map; symmetry; apply isort_perm|]. eapply perm_trans; [apply perm_flat_map; exact P|].
  eapply perm_trans; [|apply perm_flat_map; apply isort_perm]. clear - F. induction F as [|[r f] [r' f'] l l' [E P] F IH]; cbn [flat_map]; auto. cbn [fst snd] in *. subst r'. apply Permutation_app; auto. apply Permutation_map. auto.
Qed.
Lemma walk_roots_NoDup d : forall root, good_dir d -> NoDup (map fst (os_walk root d)).
Proof.
  (* roots are the path strings of the subdirectories *)
  assert (X : exists rs : dir -> list (list pystr), forall d, (forall root, map fst (os_walk root d) = map (path_str root) (rs d)) /\ (good_dir d -> NoDup (rs d) /\ Forall (Forall good_name) (rs d))).
  { exists (fix rs d := match d with Dir fs subs => [] :: flat_map (fun s => map (cons (fst s)) (rs (snd s))) subs end).
    intros e. induction e as [fs subs IH] using dir_ind'. rewrite Forall_forall in IH. split.
    - intros root. cbn [os_walk map fst]. f_equal. rewrite !map_flat. apply flat_map_ext_in. intros s Hs. destruct (IH s Hs) as [E _]. rewrite E, map_map. reflexivity.
    - intros G. inversion G as [? ? Nd Gn Gs]; subst. assert (Ns : NoDup (map fst subs)) by (clear - Nd; induction fs; auto; cbn in Nd; inversion Nd; auto).
      assert (Gn' : forall s, In s subs -> good_name (fst s)) by (intros s Hs; rewrite Forall_forall in Gn; apply Gn, in_or_app; right; apply in_map; auto).
      split.
      + constructor; [intros I; apply in_flat_map in I as (s & _ & I); apply in_map_iff in I as (q & E & _); discriminate|].
        assert (Y : forall s, In s subs -> good_dir (snd s)) by (intros [n e] Hs; eapply Gs; eauto). clear - IH Ns Y.
        induction subs as [|[n e] subs IHs]; cbn [flat_map]; [constructor|]. cbn [map fst] in Ns. inversion Ns as [|? ? Nn Ns']; subst. cbn [fst snd]. apply NoDup_app'.
        * apply FinFun.Injective_map_NoDup; [intros a b E; injection E; auto|]. destruct (IH (n, e) (or_introl eq_refl)) as [_ Z]. apply Z. apply (Y (n, e)). left; auto.
        * apply IHs; auto; intros s Hs; [apply IH|apply Y]; right; auto.
        * intros p I1 I2. apply in_map_iff in I1 as (q & <- & _). apply in_flat_map in I2 as ([n' d'] & Hs & I2). apply in_map_iff in I2 as (q' & E & _). cbn [fst] in E. injection E as -> _.
          apply Nn. change n with (fst (n, d')). apply in_map. auto.
      + constructor; [constructor|]. apply Forall_forall. intros p I. apply in_flat_map in I as (s & Hs & I). apply in_map_iff in I as (q & <- & Iq). constructor; [auto|].
        destruct (IH s Hs) as [_ Z]. destruct Z as [_ Z]; [destruct s as [n e]; eapply Gs; eauto|]. rewrite Forall_forall in Z. apply Z. auto. }
  destruct X as (rs & X). intros root G. destruct (X d) as [E Z]. rewrite E. destruct (Z G) as [Nd Gg]. clear - Nd Gg.
  induction Nd as [|p l Np Nd IH]; cbn [map]; [constructor|]. inversion Gg as [|? ? Gp Gl]; subst. constructor; auto.
  intros I. apply in_map_iff in I as (q & Eq & Iq). rewrite Forall_forall in Gl. pose proof (Gl q Iq) as Gq.
  (* append a file name to compare *)
  assert (G1 : Forall good_name (p ++ [u "f"])) by (apply Forall_app; split; auto; constructor; auto; split; [discriminate|]; cbn; intuition discriminate).
  assert (G2 : Forall good_name (q ++ [u "f"])) by (apply Forall_app; split; auto; constructor; auto; split; [discriminate|]; cbn; intuition discriminate).
  assert (Y : path_str root (p ++ [u "f"]) = path_str root (q ++ [u "f"])) by (unfold path_str in *; rewrite !fold_left_app, Eq; reflexivity).
  apply path_str_inj in Y; auto; [|destruct p; discriminate|destruct q; discriminate]. apply app_inj_tail in Y as [-> _]. contradiction.
Qed.
Lemma same_files_eq root d d' : good_dir d -> same_dir eq d d' -> walk_files root d = walk_files root d'.
Proof.
  intros G S. destruct (same_walk _ d d' root S) as (ws & P & F).
  assert (ws = os_walk root d') as -> by (clear - F; induction F as [|[a b] [a' b'] l l' [E1 E2] F IH]; auto; cbn [fst snd] in *; congruence).
  unfold walk_files. f_equal. pose proof (walk_roots_NoDup d root G) as N.
  apply (sorted_perm_unique (fun a b : pystr * list pystr => sleb (fst a) (fst b) = true)).
  - intros x y Hx Hy A B. apply isort_In in Hx. apply isort_In in Hy. pose proof (sleb_antisym _ _ A B) as E. clear - N Hx Hy E.
    induction (os_walk root d) as [|z l IH]; [destruct Hx|]. cbn [map] in N. inversion N as [|? ? Nz Nl]; subst. destruct Hx as [->|Hx], Hy as [->|Hy]; auto; exfalso; apply Nz; [rewrite E|rewrite <- E]; apply in_map; auto.
  - apply isort_sorted; [intros; apply sleb_total|intros a b c; apply sleb_trans].
  - apply isort_sorted; [intros; apply sleb_total|intros a b c; apply sleb_trans].
  - eapply perm_trans; [symmetry; apply isort_perm|]. eapply perm_trans; [exact P|apply isort_perm].
Qed.

(** ** Handlers *)
Lemma is_prefix_iff d : forall p, is_prefix d p = true <-> exists q, p = d ++ q.
Proof.
  induction d as [|x d IH]; intros [|y p]; cbn [is_prefix].
  - split; eauto. intros _. exists []. auto.
  - split; eauto. intros _. exists (y :: p). auto.
  - split; [discriminate|]. intros (q & E). discriminate.
  - destruct (eqdec x y) as [->|n].
    + rewrite IH. split; intros (q & E); exists q; cbn in *; congruence.
    + split; [discriminate|]. intros (q & E). cbn in E. congruence.
Qed.
Lemma under_iff d p : under d p = true <-> exists q, q <> [] /\ p = d ++ q.
Proof.
  unfold under. rewrite andb_true_iff, is_prefix_iff, Nat.ltb_lt. split.
  - intros [(q & ->) L]. exists q. split; auto. intros ->. rewrite app_nil_r in L. lia.
  - intros (q & N & ->). split; eauto. rewrite app_length. destruct q; [contradiction|cbn; lia].
Qed.

Section Handler.
  Context {RX : Type}.
  Variable compile : pystr -> res RX.
  Variable tmpdir : pystr.
  Variable tmpcomps : list pystr.

  Lemma construct_files indicator s fs p :
    In p (snd (handler_init compile tmpdir tmpcomps indicator s fs)) <-> In p fs /\ ~ (exists q, q <> [] /\ p = tmpcomps ++ q).
  Proof.
    unfold handler_init. cbn [snd]. unfold clean_dir. rewrite filter_In, negb_true_iff, <- under_iff. destruct (under tmpcomps p); intuition congruence.
  Qed.
  Lemma no_paths indicator s fs h s' : fmt_init compile s = (Ok h, s') ->
    dget s (u "tmp-path") = None -> dget s (u "output-path") = None ->
    fst (handler_init compile tmpdir tmpcomps indicator s fs) = Err KeyError.
  Proof.
    intros I T O. unfold handler_init. rewrite I. cbn [fst rbind].
    assert (K : forall k, k <> u "colloc" -> dget s' k = dget s k) by (intros k N; rewrite <- (settings_kept compile s k N), I; reflexivity).
    unfold opt_str at 1, choose_tmp, dmem, sget_str, sget. rewrite !K by discriminate. rewrite T, O. reflexivity.
  Qed.
  Lemma output_only indicator s fs h o : fst (handler_init compile tmpdir tmpcomps indicator s fs) = Ok h ->
    dget s (u "tmp-path") = None -> dget s (u "output-path") = Some (VStr o) -> h_tmp h = path_join tmpdir indicator /\ h_output h = o.
  Proof.
    intros I T O. unfold handler_init in I. cbn [fst] in I. destruct (fmt_init compile s) as [f s'] eqn:If.
    assert (K : forall k, k <> u "colloc" -> dget s' k = dget s k) by (intros k N; rewrite <- (settings_kept compile s k N), If; reflexivity).
    apply rbind_ok in I as (f' & -> & I). unfold opt_str at 1, choose_tmp, dmem, sget_str, sget in I. rewrite !K in I by discriminate. rewrite T, O in I. cbn [negb rbind vstr rmap] in I.
    apply rbind_ok in I as (enc & _ & I). apply rmap_ok in I as (cp & _ & ->). auto.
  Qed.
  Lemma tmp_given indicator s fs h t : fst (handler_init compile tmpdir tmpcomps indicator s fs) = Ok h ->
    dget s (u "tmp-path") = Some (VStr t) -> h_tmp h = path_join t indicator.
  Proof.
    intros I T. unfold handler_init in I. cbn [fst] in I. destruct (fmt_init compile s) as [f s'] eqn:If.
    assert (K : forall k, k <> u "colloc" -> dget s' k = dget s k) by (intros k N; rewrite <- (settings_kept compile s k N), If; reflexivity).
    apply rbind_ok in I as (f' & -> & I). apply rbind_ok in I as (out & _ & I). apply rbind_ok in I as (tmp & Et & I).
    unfold choose_tmp, dmem, sget_str, sget in Et. rewrite !K in Et by discriminate. rewrite T in Et. cbn in Et. injection Et as <-.
    apply rbind_ok in I as (enc & _ & I). apply rmap_ok in I as (cp & _ & ->). auto.
  Qed.
End Handler.
