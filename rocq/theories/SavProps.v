(** * Claims about saved objects (C155-C157). *)
From Coq Require Import String NArith ZArith Bool Arith Lia List.
From Verif Require Import Base BaseLemmas Str SavModel SavSpec SavProofs SavProofs2.
Import ListNotations.
Local Open Scope string_scope.
Local Open Scope nat_scope.
Local Open Scope list_scope.

(** ** C155: what is saved comes back *)
Theorem C155_round_trip_partial : forall {A K Oth : Type} (size : A -> nat) (nnz : K -> A -> A -> A -> nat) (contig : A -> A)
  (writable : pystr -> bool) (picklable : heap A K Oth -> nat -> bool) n lim ignore separately mmap (s : st A K Oth) a fname l,
  (forall p, writable p = true) -> (forall h, picklable h a = true) ->
  tree n (hp s) a l -> (forall b, In b l -> good_obj (attrs (hp s) b)) ->
  (forall x, In x ignore \/ (exists ls, separately = Some ls /\ In x ls) -> ~ In x added) ->
  mmap && compressed fname = false ->
  exists s', save size nnz contig writable picklable n lim ignore separately s a (ToName fname) = Some (s', Ok tt) /\
  exists h', load n mmap (fs s') fname = Some (Ok (h', a)) /\ length h' = length (hp s) /\ (forall b, ~ In b l -> attrs h' b = attrs (hp s) b) /\
    back size nnz contig n lim ignore separately (hp s) a h'.
Proof. exact @round_trip. Qed.
Print Assumptions C155_round_trip_partial.
Theorem C155_files : forall {A K Oth : Type} (size : A -> nat) (nnz : K -> A -> A -> A -> nat) (contig : A -> A)
  (writable : pystr -> bool) (picklable : heap A K Oth -> nat -> bool) n lim ignore separately (s : st A K Oth) a t s' r,
  save size nnz contig writable picklable n lim ignore separately s a t = Some (s', r) ->
  forall p, match t with ToName fname => forall l, p <> names fname l | ToHandle fname => p <> fname end -> fs s' p = fs s p.
Proof. exact @save_files. Qed.
Print Assumptions C155_files.
(** The names and contents of the files of arrays and sparse matrices *)
Theorem C155_array_files : forall {A K Oth : Type} (size : A -> nat) (nnz : K -> A -> A -> A -> nat) (contig : A -> A)
  (writable : pystr -> bool) (picklable : heap A K Oth -> nat -> bool) n lim ignore separately (s s' : st A K Oth) a fname l x v,
  (forall p, writable p = true) -> (forall h, picklable h a = true) ->
  tree n (hp s) a l -> (forall b, In b l -> good_obj (attrs (hp s) b)) ->
  (forall x, In x ignore \/ (exists ls, separately = Some ls /\ In x ls) -> ~ In x added) ->
  save size nnz contig writable picklable n lim ignore separately s a (ToName fname) = Some (s', Ok tt) ->
  dget (attrs (hp s) a) x = Some v -> ~ In x ignore -> apart size nnz separately lim x v = true ->
  let packed := exists q, fname = q ++ u ".gz" \/ fname = q ++ u ".bz2" in
  let at_ t := fs s' (fname ++ u "." ++ x ++ t) in
  match v with
  | VArr y => (~ packed -> at_ (u ".npy") = Some (FArr (contig y))) /\ (packed -> at_ (u ".npz") = Some (FNpz [(u "val", contig y)]))
  | VSp k d p i =>
      (~ packed -> at_ (u ".data.npy") = Some (FArr d) /\ at_ (u ".indptr.npy") = Some (FArr p) /\ at_ (u ".indices.npy") = Some (FArr i) /\ at_ (u ".npy") = Some (FHollow k)) /\
      (packed -> at_ (u ".sparse.npz") = Some (FNpz [(u "data", d); (u "indptr", p); (u "indices", i)]) /\ at_ (u ".npz") = Some (FHollow k))
  | _ => True
  end.
Proof. exact @array_files. Qed.
Print Assumptions C155_array_files.
(** When loading fails *)
Theorem C155_load_failures : forall {A K Oth : Type} n mmap (f : pystr -> option (file A K Oth)) fname,
  (f fname = None -> load n mmap f fname = Some (Err IOError)) /\
  forall h a, n <> 0 -> f fname = Some (FObj h a) ->
    (forall x r, dget (attrs h a) (u "__recursive_saveloads") = Some (VNames (x :: r)) -> (forall b, dget (attrs h a) x <> Some (VRef b)) -> load n mmap f fname = Some (Err AttributeError)) /\
    (forall x l, dget (attrs h a) (u "__recursive_saveloads") = None -> dget (attrs h a) (u "__numpys") = Some (VNames l) -> In x l ->
       f (fname ++ u "." ++ x ++ u ".npy") = None -> f (fname ++ u "." ++ x ++ u ".npz") = None -> exists e, load n mmap f fname = Some (Err e)) /\
    (forall x l, dget (attrs h a) (u "__recursive_saveloads") = None -> dget (attrs h a) (u "__numpys") = Some (VNames (x :: l)) -> mmap = true ->
       (exists q, fname = q ++ u ".gz" \/ fname = q ++ u ".bz2") -> load n mmap f fname = Some (Err IOError)).
Proof. exact @load_failures. Qed.
Print Assumptions C155_load_failures.

(** Arrays are numbers here: their size *)
Definition X_save (lim : nat) (ignore : list pystr) (separately : option (list pystr)) (s : st nat unit nat) (t : target) :=
  save (fun x => x) (fun _ x _ _ => x) (fun x => x) (fun _ => true) (fun _ _ => true) 5 lim ignore separately s 0 t.
Definition empty : pystr -> option (file nat unit nat) := fun _ => None.
(** A model with a large array, a small one, a sparse matrix, and a vocabulary with a large array *)
Definition ex_h : heap nat unit nat :=
  [[(u "name", VOther 3); (u "big", VArr 50); (u "small", VArr 2); (u "sp", VSp tt 60 61 62); (u "voc", VRef 1); (u "memo", VOther 9)];
   [(u "arr", VArr 70); (u "top", VRef 2)]; [(u "n", VOther 1)]].
Lemma ex_tree : tree 5 ex_h 0 [0; 1; 2].
Proof.
  cbn [tree]. split; [cbn; lia|]. split; [cbn; auto|]. exists (fun _ => [1; 2]). split.
  - intros x b E. apply dget_Some_In in E. cbn in E. repeat (destruct E as [E|E]; [try discriminate|]); [|contradiction]. injection E as <- <-.
    split; [|split; [intros c; cbn; tauto|cbn; lia]].
    split; [cbn; lia|]. split; [cbn; auto|]. exists (fun _ => [2]). split.
    + intros x b E. apply dget_Some_In in E. cbn in E. repeat (destruct E as [E|E]; [try discriminate|]); [|contradiction]. injection E as <- <-.
      split; [|split; [intros c; cbn; tauto|cbn; lia]].
      split; [cbn; lia|]. split; [cbn; auto|]. exists (fun _ => []). split.
      * intros x b E. apply dget_Some_In in E. cbn in E. destruct E as [E|[]]. discriminate.
      * intros x y b c E. apply dget_Some_In in E. cbn in E. destruct E as [E|[]]. discriminate.
    + intros x y b c E1 E2 N. exfalso. apply N. apply dget_Some_In in E1, E2. cbn in E1, E2.
      repeat (destruct E1 as [E1|E1]; [try discriminate|]); [|contradiction]. injection E1 as <- _.
      repeat (destruct E2 as [E2|E2]; [try discriminate|]); [|contradiction]. injection E2 as <- _. reflexivity.
  - intros x y b c E1 E2 N. exfalso. apply N. apply dget_Some_In in E1, E2. cbn in E1, E2.
    repeat (destruct E1 as [E1|E1]; [try discriminate|]); [|contradiction]. injection E1 as <- _.
    repeat (destruct E2 as [E2|E2]; [try discriminate|]); [|contradiction]. injection E2 as <- _. reflexivity.
Qed.
Lemma good_simple (o : obj nat unit nat) : dwf o -> forallb (fun kv => negb (mem 46%N (fst kv)) && negb (mem (fst kv) added)) o = true -> good_obj o.
Proof.
  intros W F. rewrite forallb_forall in F. split; [exact W|]. split.
  - intros x v D. apply dget_Some_In in D. apply F in D. apply andb_true_iff in D as [D _]. apply negb_true_iff in D. cbn [fst] in D. intros I. apply mem_In in I. exact (eq_true_false_abs _ I D).
  - intros x v I D. apply dget_Some_In in D. apply F in D. apply andb_true_iff in D as [_ D]. apply negb_true_iff in D. cbn [fst] in D. apply mem_In in I. exfalso. exact (eq_true_false_abs _ I D).
Qed.
Lemma ex_good b : In b [0; 1; 2] -> good_obj (attrs ex_h b).
Proof.
  intros [<- |[<- |[<- |[]]]]; (apply good_simple; [|vm_compute; reflexivity]); unfold dwf, dkeys; cbn [attrs nth ex_h map fst];
    repeat (constructor; [intros I; cbn [In] in I; repeat (destruct I as [I|I]; [vm_compute in I; discriminate|]); contradiction|]); constructor.
Qed.
Example C155_ex : exists s', X_save 40 [u "memo"] None (St ex_h empty) (ToName (u "m.bin")) = Some (s', Ok tt) /\
  (exists h', load 5 false (fs s') (u "m.bin") = Some (Ok (h', 0)) /\
     back (fun x => x) (fun _ x _ _ => x) (fun x => x) 5 40 [u "memo"] None ex_h 0 h' /\
     dget (attrs h' 0) (u "big") = Some (VArr 50) /\ dget (attrs h' 0) (u "memo") = Some VNone /\ dget (attrs h' 1) (u "arr") = Some (VArr 70)) /\
  fs s' (u "m.bin.big.npy") = Some (FArr 50) /\ fs s' (u "m.bin.small.npy") = None /\ fs s' (u "m.bin.voc.arr.npy") = Some (FArr 70) /\
  fs s' (u "m.bin.sp.indptr.npy") = Some (FArr 61).
Proof.
  destruct (C155_round_trip_partial (fun x => x) (fun _ x _ _ => x) (fun x => x) (fun _ => true) (fun (_ : heap nat unit nat) _ => true) 5 40 [u "memo"] None false (St ex_h empty) 0 (u "m.bin") [0; 1; 2])
    as (s' & E & h' & EL & _ & _ & B); auto; [exact ex_tree|exact ex_good| |].
  { intros x [[<- |[]]|(ls & Q & _)]; [|discriminate]. intros I. vm_compute in I. repeat (destruct I as [I|I]; [discriminate|]). contradiction. }
  exists s'. split; [exact E|]. split.
  - exists h'. split; [exact EL|]. split; [exact B|]. cbn [back] in B.
    assert (NI : forall x, mem x added = false -> ~ In x added) by (intros x M I; apply mem_In in I; congruence).
    split; [destruct (B (u "big") (NI (u "big") eq_refl)) as [Q _]; exact Q|]. split; [destruct (B (u "memo") (NI (u "memo") eq_refl)) as [Q _]; exact Q|].
    destruct (B (u "voc") (NI (u "voc") eq_refl)) as [_ B1]. destruct (B1 1 eq_refl (u "arr") (NI (u "arr") eq_refl)) as [Q _]. exact Q.
  - unfold save, smart_save in E. vm_compute in E. injection E as <-. vm_compute. repeat split; reflexivity.
Qed.
Example C155_ex_packed : exists s', X_save 40 [] None (St ex_h empty) (ToName (u "m.bz2")) = Some (s', Ok tt) /\
  fs s' (u "m.bz2.big.npz") = Some (FNpz [(u "val", 50)]) /\ fs s' (u "m.bz2.sp.npz") = Some (FHollow tt) /\
  fs s' (u "m.bz2.voc.arr.npz") = Some (FNpz [(u "val", 70)]) /\
  load 5 true (fs s') (u "m.bz2") = Some (Err IOError) /\ load 5 false (fs s') (u "m") = Some (Err IOError).
Proof.
  destruct (X_save 40 [] None (St ex_h empty) (ToName (u "m.bz2"))) as [[s' r]|] eqn:E; [|vm_compute in E; discriminate].
  assert (R : r = Ok tt) by (vm_compute in E; injection E as _ <-; reflexivity). subst r. exists s'. split; [reflexivity|].
  assert (NI : forall x, In x [] \/ (exists ls : list pystr, None = Some ls /\ In x ls) -> ~ In x added) by (intros x [[]|(ls & Q & _)]; discriminate).
  assert (PK : exists q, u "m.bz2" = q ++ u ".gz" \/ u "m.bz2" = q ++ u ".bz2") by (exists (u "m"); right; reflexivity).
  pose proof (C155_array_files _ _ _ _ _ 5 40 [] None (St ex_h empty) s' 0 (u "m.bz2") [0; 1; 2] (u "big") (VArr 50) (fun _ => eq_refl) (fun _ => eq_refl) ex_tree ex_good NI E eq_refl (fun x => x) eq_refl) as [_ Q1].
  pose proof (C155_array_files _ _ _ _ _ 5 40 [] None (St ex_h empty) s' 0 (u "m.bz2") [0; 1; 2] (u "sp") (VSp tt 60 61 62) (fun _ => eq_refl) (fun _ => eq_refl) ex_tree ex_good NI E eq_refl (fun x => x) eq_refl) as [_ Q2].
  split; [exact (Q1 PK)|]. split; [exact (proj2 (Q2 PK))|]. vm_compute in E. injection E as <-. vm_compute. auto.
Qed.
(** An attribute that is listed but is not an array comes back as None *)
Theorem C155_listed_refuted : ~ forall separately (h : heap nat unit nat) s' h' x v,
  X_save 40 [] (Some separately) (St h empty) (ToName (u "m")) = Some (s', Ok tt) -> load 5 false (fs s') (u "m") = Some (Ok (h', 0)) ->
  ~ In x added -> dget (attrs h 0) x = Some v -> dget (attrs h' 0) x = Some v.
Proof.
  intros H. specialize (H [u "name"] [[(u "name", VOther 3)]]).
  destruct (X_save 40 [] (Some [u "name"]) (St [[(u "name", VOther 3)]] empty) (ToName (u "m"))) as [[s' r]|] eqn:E; [|vm_compute in E; discriminate].
  assert (R : r = Ok tt) by (vm_compute in E; injection E as _ <-; reflexivity). subst r.
  destruct (load 5 false (fs s') (u "m")) as [[[h' a]|e]|] eqn:EL; [|vm_compute in E; injection E as <-; vm_compute in EL; discriminate..].
  assert (a = 0) by (vm_compute in E; injection E as <-; vm_compute in EL; injection EL as _ <-; reflexivity). subst a.
  specialize (H s' h' (u "name") (VOther 3) eq_refl EL). assert (Q : dget (attrs h' 0) (u "name") = Some (VOther 3)).
  { apply H; [|reflexivity]. intros I. apply mem_In in I. vm_compute in I. discriminate. }
  vm_compute in E. injection E as <-. vm_compute in EL. injection EL as <-. vm_compute in Q. discriminate.
Qed.
Print Assumptions C155_listed_refuted.
(** An object in two attributes loses its large arrays: it is saved twice, the second time without them *)
Theorem C155_shared_refuted : ~ forall (h : heap nat unit nat) s' h' b x v,
  X_save 40 [] None (St h empty) (ToName (u "m")) = Some (s', Ok tt) -> load 5 false (fs s') (u "m") = Some (Ok (h', 0)) ->
  ~ In x added -> dget (attrs h b) x = Some v -> dget (attrs h' b) x = Some v.
Proof.
  intros H. specialize (H [[(u "row", VRef 1); (u "col", VRef 1)]; [(u "arr", VArr 70)]]).
  destruct (X_save 40 [] None (St [[(u "row", VRef 1); (u "col", VRef 1)]; [(u "arr", VArr 70)]] empty) (ToName (u "m"))) as [[s' r]|] eqn:E; [|vm_compute in E; discriminate].
  assert (R : r = Ok tt) by (vm_compute in E; injection E as _ <-; reflexivity). subst r.
  destruct (load 5 false (fs s') (u "m")) as [[[h' a]|e]|] eqn:EL; [|vm_compute in E; injection E as <-; vm_compute in EL; discriminate..].
  assert (a = 0) by (vm_compute in E; injection E as <-; vm_compute in EL; injection EL as _ <-; reflexivity). subst a.
  specialize (H s' h' 1 (u "arr") (VArr 70) eq_refl EL). assert (Q : dget (attrs h' 1) (u "arr") = Some (VArr 70)).
  { apply H; [|reflexivity]. intros I. apply mem_In in I. vm_compute in I. discriminate. }
  vm_compute in E. injection E as <-. vm_compute in EL. injection EL as <-. vm_compute in Q. discriminate.
Qed.
Print Assumptions C155_shared_refuted.

(** ** C156: the object that was saved keeps its attributes *)
Theorem C156_attributes : forall {A K Oth : Type} (size : A -> nat) (nnz : K -> A -> A -> A -> nat) (contig : A -> A)
  (writable : pystr -> bool) (picklable : heap A K Oth -> nat -> bool) n lim ignore separately (s : st A K Oth) a t s' r,
  save size nnz contig writable picklable n lim ignore separately s a t = Some (s', r) ->
  r = Ok tt \/ r = Err AttributeError \/ (forall fname l, t = ToName fname -> l <> [] -> writable (names fname l) = true) \/ (forall x b, ~ In (x, VRef b) (attrs (hp s) a)) ->
  same_attrs (hp s) (hp s').
Proof. exact @save_keeps. Qed.
Print Assumptions C156_attributes.
(** also an object that is in two attributes, and when the object cannot be pickled *)
Definition ex_shared : heap nat unit nat := [[(u "row", VRef 1); (u "big", VArr 90); (u "col", VRef 1)]; [(u "arr", VArr 70)]].
Example C156_ex :
  (exists s', X_save 40 [] None (St ex_shared empty) (ToName (u "m")) = Some (s', Ok tt) /\ same_attrs ex_shared (hp s')) /\
  (exists s', save (fun x => x) (fun _ x _ _ => x) (fun x => x) (fun _ => true) (fun _ _ => false) 5 40 [] None (St ex_shared empty) 0 (ToName (u "m")) = Some (s', Err AttributeError) /\
     same_attrs ex_shared (hp s') /\ dget (attrs (hp s') 0) (u "big") = Some (VArr 90) /\ fs s' (u "m") = Some FCut).
Proof.
  split.
  - destruct (X_save 40 [] None (St ex_shared empty) (ToName (u "m"))) as [[s' r]|] eqn:E; [|vm_compute in E; discriminate].
    assert (R : r = Ok tt) by (vm_compute in E; injection E as _ <-; reflexivity). subst r. exists s'. split; [reflexivity|].
    exact (C156_attributes _ _ _ _ _ _ _ _ _ _ _ _ _ _ E (or_introl eq_refl)).
  - destruct (save (fun x => x) (fun _ x _ _ => x) (fun x => x) (fun _ => true) (fun _ _ => false) 5 40 [] None (St ex_shared empty) 0 (ToName (u "m"))) as [[s' r]|] eqn:E; [|vm_compute in E; discriminate].
    assert (R : r = Err AttributeError) by (vm_compute in E; injection E as _ <-; reflexivity). subst r. exists s'. split; [reflexivity|].
    split; [exact (C156_attributes _ _ _ _ _ _ _ _ _ _ _ _ _ _ E (or_intror (or_introl eq_refl)))|]. vm_compute in E. injection E as <-. vm_compute. auto.
Qed.
(** When a file of a nested object cannot be written, the attributes of the object above it are lost *)
Theorem C156_failure_refuted : ~ forall (writable : pystr -> bool) (s : st nat unit nat) s' r,
  save (fun x => x) (fun _ x _ _ => x) (fun x => x) writable (fun _ _ => true) 5 40 [] None s 0 (ToName (u "m")) = Some (s', r) -> same_attrs (hp s) (hp s').
Proof.
  intros H. specialize (H (fun p => negb (eqb p (u "m.voc.arr.npy"))) (St ex_h empty)).
  destruct (save (fun x => x) (fun _ x _ _ => x) (fun x => x) (fun p => negb (eqb p (u "m.voc.arr.npy"))) (fun _ _ => true) 5 40 [] None (St ex_h empty) 0 (ToName (u "m"))) as [[s' r]|] eqn:E; [|vm_compute in E; discriminate].
  specialize (H s' r eq_refl 0 (u "big")). vm_compute in E. injection E as <- <-. assert (Q := H ltac:(intros I; apply mem_In in I; vm_compute in I; discriminate)). vm_compute in Q. discriminate.
Qed.
Print Assumptions C156_failure_refuted.
(** An object that contains itself cannot be saved to a name: the recursion does not end *)
Theorem C156_cycle_refuted : ~ forall (s : st nat unit nat), exists n s' r,
  save (fun x => x) (fun _ x _ _ => x) (fun x => x) (fun _ => true) (fun _ _ => true) n 40 [] None s 0 (ToName (u "m")) = Some (s', r).
Proof.
  intros H. destruct (H (St [[(u "me", VRef 0)]] empty)) as (n & s' & r & E). cbn [save] in E. unfold smart_save in E.
  assert (Q : forall n fname f, save_specials (fun x => x) (fun (_ : unit) x _ _ => x) (fun x => x) (fun _ => true) n 40 [] (compressed (u "m")) None (St [[(u "me", VRef 0 : val nat unit nat)]] f) 0 fname = None).
  { clear. induction n as [|n IH]; intros fname f; [reflexivity|]. cbn [save_specials hp attrs nth]. cbn [separate map filter snd large app set_aside fold_left upd fs visit]. rewrite IH. reflexivity. }
  rewrite Q in E. discriminate.
Qed.
Print Assumptions C156_cycle_refuted.
(** A save that fails does not leave the file that was there *)
Theorem C156_earlier_refuted : ~ forall (picklable : heap nat unit nat -> nat -> bool) (s s' : st nat unit nat) e x,
  load 5 false (fs s) (u "m") = Some (Ok x) ->
  save (fun x => x) (fun _ x _ _ => x) (fun x => x) (fun _ => true) picklable 5 40 [] None s 0 (ToName (u "m")) = Some (s', Err e) ->
  load 5 false (fs s') (u "m") = Some (Ok x).
Proof.
  intros H. specialize (H (fun _ _ => false) (St [] (fun _ => Some (FObj [] 0)))).
  destruct (save (fun x => x) (fun _ x _ _ => x) (fun x => x) (fun _ => true) (fun _ _ => false) 5 40 [] None (St [] (fun _ => Some (FObj [] 0))) 0 (ToName (u "m"))) as [[s' [r|e]]|] eqn:E;
    [vm_compute in E; discriminate| |vm_compute in E; discriminate].
  specialize (H s' e ([], 0) eq_refl eq_refl). vm_compute in E. injection E as <- <-. vm_compute in H. discriminate.
Qed.
Print Assumptions C156_earlier_refuted.

(** ** C157: saving to an open file *)
Theorem C157_handle : forall {A K Oth : Type} (size : A -> nat) (nnz : K -> A -> A -> A -> nat) (contig : A -> A)
  (writable : pystr -> bool) (picklable : heap A K Oth -> nat -> bool) n lim ignore separately mmap (s : st A K Oth) a fname,
  n <> 0 -> writable fname = true -> picklable (hp s) a = true ->
  (forall x, In x added -> dget (attrs (hp s) a) x = None) ->
  exists s', save size nnz contig writable picklable n lim ignore separately s a (ToHandle fname) = Some (s', Ok tt) /\ hp s' = hp s /\
    load n mmap (fs s') fname = Some (Ok (hp s, a)).
Proof. exact @handle_round_trip. Qed.
Print Assumptions C157_handle.
Example C157_ex : exists s', X_save 40 [] None (St ex_shared empty) (ToHandle (u "m")) = Some (s', Ok tt) /\ load 5 true (fs s') (u "m") = Some (Ok (ex_shared, 0)).
Proof.
  destruct (C157_handle (fun x => x) (fun (_ : unit) x _ _ => x) (fun x => x) (fun _ => true) (fun _ _ => true) 5 40 [] None true (St ex_shared empty) 0 (u "m")) as (s' & E & _ & L); auto.
  - intros x I. cbn [added In] in I. repeat (destruct I as [<- |I]; [vm_compute; reflexivity|]). contradiction.
  - exists s'. split; [exact E|exact L].
Qed.
(** not after the object was saved to a name: the new file points to arrays under its own name, which are not there *)
Theorem C157_after_name_refuted : ~ forall (s : st nat unit nat) s1 s2,
  X_save 40 [] None s (ToName (u "m")) = Some (s1, Ok tt) -> X_save 40 [] None s1 (ToHandle (u "copy")) = Some (s2, Ok tt) ->
  exists h', load 5 false (fs s2) (u "copy") = Some (Ok (h', 0)).
Proof.
  intros H. specialize (H (St ex_h empty)).
  destruct (X_save 40 [] None (St ex_h empty) (ToName (u "m"))) as [[s1 r]|] eqn:E; [|vm_compute in E; discriminate].
  assert (R : r = Ok tt) by (vm_compute in E; injection E as _ <-; reflexivity). subst r.
  destruct (X_save 40 [] None s1 (ToHandle (u "copy"))) as [[s2 r]|] eqn:E2; [|discriminate].
  assert (R : r = Ok tt) by (cbn in E2; injection E2 as _ <-; reflexivity). subst r.
  destruct (H s1 s2 eq_refl E2) as (h' & L). vm_compute in E. injection E as <-. vm_compute in E2. injection E2 as <-. vm_compute in L. discriminate.
Qed.
Print Assumptions C157_after_name_refuted.

(** ** Computed cases *)
(** Arrays are numbers, their size, made contiguous by adding 100; the third array of a sparse matrix is the number of its cells *)
Definition Y_save (can : pystr -> bool) (lim : nat) (ignore : list pystr) (separately : option (list pystr)) (h : heap nat unit nat) (t : target) :=
  save (fun x => x) (fun _ _ _ i => i) (fun x => x + 100) can (fun _ _ => true) 5 lim ignore separately (St h empty) 0 t.
Definition Y_files : list string := ["m"; "m.a.npy"; "m.b.npy"; "m.v.npy"; "m.s.npy"; "m.s.data.npy"; "m.s.indptr.npy"; "m.s.indices.npy"; "m.q.npy"; "m.v.a.npy"; "m.v.z.npy"; "m.v.v.a.npy"; "m.w.a.npy"; "m.sp.npy"]%string.
Definition Y_written (x : option (st nat unit nat * res unit)) : list (string * file nat unit nat) * heap nat unit nat * option (res unit) :=
  match x with
  | Some (s, r) => (flat_map (fun n => match fs s (u n) with Some f => [(n, f)] | None => [] end) (tl Y_files), hp s, Some r)
  | None => ([], [], None)
  end.
Definition Y_loaded (mmap : bool) (x : option (st nat unit nat * res unit)) (fname : string) :=
  match x with Some (s, _) => load 5 mmap (fs s) (u fname) | None => None end.
Definition Y_h : heap nat unit nat :=
  [[(u "a", VArr 40); (u "b", VArr 39); (u "s", VSp tt 10 20 40); (u "q", VSp tt 40 40 39); (u "v", VRef 1); (u "z", VArr 90); (u "w", VRef 3)];
   [(u "a", VArr 41); (u "b", VArr 2); (u "z", VArr 80); (u "v", VRef 2)]; [(u "a", VArr 42)]; [(u "a", VArr 43)]].
Definition noted (np sc ig rc : list string) : obj nat unit nat :=
  [(u "__numpys", VNames (map u np)); (u "__scipys", VNames (map u sc)); (u "__ignoreds", VNames (map u ig)); (u "__recursive_saveloads", VNames (map u rc))].
(** By size, with z ignored everywhere: what is written, what the objects are afterwards, what is read *)
Example C155_values :
  Y_written (Y_save (fun _ => true) 40 [u "z"] None Y_h (ToName (u "m"))) =
  ([("m.a.npy", FArr 140); ("m.s.npy", FHollow tt); ("m.s.data.npy", FArr 10); ("m.s.indptr.npy", FArr 20); ("m.s.indices.npy", FArr 40); ("m.v.a.npy", FArr 141);
    ("m.v.v.a.npy", FArr 142); ("m.w.a.npy", FArr 143)]%string,
   [[(u "b", VArr 39); (u "q", VSp tt 40 40 39); (u "v", VRef 1); (u "w", VRef 3)] ++ noted ["a"] ["s"] ["z"] ["v"; "w"] ++ [(u "a", VArr 40); (u "s", VSp tt 10 20 40); (u "z", VArr 90)];
    [(u "b", VArr 2); (u "v", VRef 2)] ++ noted ["a"] [] ["z"] ["v"] ++ [(u "a", VArr 41); (u "z", VArr 80)];
    noted ["a"] [] [] [] ++ [(u "a", VArr 42)]; noted ["a"] [] [] [] ++ [(u "a", VArr 43)]], Some (Ok tt)) /\
  Y_loaded true (Y_save (fun _ => true) 40 [u "z"] None Y_h (ToName (u "m"))) "m" =
  Some (Ok ([[(u "b", VArr 39); (u "q", VSp tt 40 40 39); (u "v", VRef 1); (u "w", VRef 3)] ++ noted ["a"] ["s"] ["z"] ["v"; "w"] ++ [(u "a", VArr 140); (u "s", VSp tt 10 20 40); (u "z", VNone)];
    [(u "b", VArr 2); (u "v", VRef 2)] ++ noted ["a"] [] ["z"] ["v"] ++ [(u "a", VArr 141); (u "z", VNone)];
    noted ["a"] [] [] [] ++ [(u "a", VArr 142)]; noted ["a"] [] [] [] ++ [(u "a", VArr 143)]], 0)).
Proof. vm_compute. split; reflexivity. Qed.
(** By name: a list counts for the object itself, and only the list; below the top the size decides. *)
Example C155_values_list :
  fst (fst (Y_written (Y_save (fun _ => true) 42 [] (Some [u "b"; u "s"]) Y_h (ToName (u "m"))))) =
  [("m.b.npy", FArr 139); ("m.s.npy", FHollow tt); ("m.s.data.npy", FArr 10); ("m.s.indptr.npy", FArr 20); ("m.s.indices.npy", FArr 40); ("m.v.z.npy", FArr 180); ("m.v.v.a.npy", FArr 142);
   ("m.w.a.npy", FArr 143)]%string.
Proof. vm_compute. reflexivity. Qed.
(** Compressed *)
Example C155_values_packed :
  rmap (fun ha => map (fun x => dget (attrs (fst ha) 0) (u x)) ["a"; "s"]) (match Y_loaded false (Y_save (fun _ => true) 40 [] None Y_h (ToName (u "m.gz"))) "m.gz" with Some x => x | None => Err KeyError end)
    = Ok [Some (VArr 140); Some (VSp tt 10 20 40)] /\
  Y_loaded true (Y_save (fun _ => true) 40 [] None [[(u "a", VArr 40)]] (ToName (u "m.gz"))) "m.gz" = Some (Err IOError) /\
  Y_loaded true (Y_save (fun _ => true) 40 [] None [[(u "s", VSp tt 10 20 40)]] (ToName (u "m.gz"))) "m.gz" = Some (Err IOError).
Proof. vm_compute. repeat split. Qed.
(** A file that cannot be written: the object has its arrays again, the one below it has not. *)
Example C156_values :
  snd (fst (Y_written (Y_save (fun p => negb (eqb p (u "m.s.indptr.npy"))) 40 [] None [[(u "a", VArr 40); (u "s", VSp tt 10 20 40); (u "v", VRef 1)]; [(u "a", VArr 41)]] (ToName (u "m")))))
    = [[(u "v", VRef 1); (u "a", VArr 40); (u "s", VSp tt 10 20 40)]; noted ["a"] [] [] []].
Proof. vm_compute. reflexivity. Qed.
(** An array that has gone, a nested object that has gone, and no file *)
Definition Y_without (gone : string) (x : option (st nat unit nat * res unit)) : option (res (heap nat unit nat * nat)) :=
  match x with Some (s, _) => load 5 false (fun p => if eqb p (u gone) then None else fs s p) (u "m") | None => None end.
Example C157_values :
  Y_without "m.a.npy" (Y_save (fun _ => true) 40 [] None Y_h (ToName (u "m"))) = Some (Err IOError) /\
  Y_without "m.s.npy" (Y_save (fun _ => true) 40 [] None Y_h (ToName (u "m"))) = Some (Err IOError) /\
  Y_without "m.s.indices.npy" (Y_save (fun _ => true) 40 [] None Y_h (ToName (u "m"))) = Some (Err IOError) /\
  Y_without "m.w.a.npy" (Y_save (fun _ => true) 40 [] None Y_h (ToName (u "m"))) = Some (Err IOError) /\
  Y_without "m" (Y_save (fun _ => true) 40 [] None Y_h (ToName (u "m"))) = Some (Err IOError) /\
  load 5 false (fun p => if eqb p (u "m") then Some (FObj [[(u "__recursive_saveloads", VNames [u "v"])]] 0) else None) (u "m") = Some (@Err (heap nat unit nat * nat) AttributeError).
Proof. vm_compute. repeat split. Qed.
