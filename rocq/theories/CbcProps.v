(** * Claims about clustering by committee: C53 to C58 and C88 to C96. *)
From Coq Require Import String NArith ZArith QArith Bool Arith Permutation Sorted Lia List.
From Verif Require Import Base BaseLemmas Str CbcModel CbcSpec CbcIndexProofs CbcMergeProofs CbcCleanProofs CbcStepProofs CbcLoopProofs CbcClustProofs CbcMoreProofs.
Import ListNotations.
Local Open Scope nat_scope.

(** Used in the examples: *)
Definition a : pystr := u "a". Definition b : pystr := u "b". Definition c : pystr := u "c". Definition d : pystr := u "d".
(** Share of elements in common *)
Definition ex_csim (rows x y : list pystr) : Q := (Z.of_nat (length (filter (fun e => mem e y) x)) # Pos.of_nat (Nat.max (length x) (length y)))%Q.
(** Similar to committees with the element or with the element before it *)
Definition ex_esim (rows : list pystr) (x : pystr) (names : list pystr) : Q := if mem x names then 9 # 10 else if eqb x c && mem b names then 1 # 2 else 1 # 10.

(** ** C53: the positions of pairs in the condensed distances *)
Theorem C53_bijection : forall n,
  (forall j i, j < i -> i < n -> exists k, square_to_condensed (Z.of_nat i) (Z.of_nat j) (Z.of_nat n) = Ok k /\ (0 <= k < Z.of_nat n * (Z.of_nat n - 1) / 2)%Z) /\
  (forall j i j' i' k, j < i -> i < n -> j' < i' -> i' < n -> square_to_condensed (Z.of_nat i) (Z.of_nat j) (Z.of_nat n) = Ok k ->
     square_to_condensed (Z.of_nat i') (Z.of_nat j') (Z.of_nat n) = Ok k -> j = j' /\ i = i') /\
  (forall k, (0 <= k < Z.of_nat n * (Z.of_nat n - 1) / 2)%Z -> exists j i, j < i /\ i < n /\ square_to_condensed (Z.of_nat i) (Z.of_nat j) (Z.of_nat n) = Ok k).
Proof. exact @condensed_bijection. Qed.
Print Assumptions C53_bijection.
Theorem C53_items : forall n, 1 <= n -> items_of_condensed (Z.of_nat n * (Z.of_nat n - 1) / 2) = Z.of_nat n.
Proof. exact @items_recovered. Qed.
Print Assumptions C53_items.
(** The position is that of scipy's layout; in either order of the pair. *)
Theorem C53_layout : forall n {A} (M : nat -> nat -> A) j i, j < i -> i < n ->
  exists k, square_to_condensed (Z.of_nat i) (Z.of_nat j) (Z.of_nat n) = Ok (Z.of_nat k) /\ square_to_condensed (Z.of_nat j) (Z.of_nat i) (Z.of_nat n) = Ok (Z.of_nat k) /\
            nth_error (condensed_of n M) k = Some (M j i).
Proof. intros n A M j i Hj Hi. destruct (condensed_nth n M j i Hj Hi) as (k & E & H). exists k. repeat split; auto. now rewrite sq_sym. Qed.
Print Assumptions C53_layout.
Example C53_ex : map (fun ij => square_to_condensed (fst ij) (snd ij) 4) [(0, 1); (0, 2); (0, 3); (1, 2); (1, 3); (3, 2)]%Z = map Ok [0; 1; 2; 3; 4; 5]%Z /\ items_of_condensed 6 = 4%Z.
Proof. vm_compute. auto. Qed.
(** Not for the same item twice *)
Example C53_same : square_to_condensed 2 2 4 = Err AssertionError.
Proof. reflexivity. Qed.

(** ** C54: merging loses nothing and invents nothing.  Every committee occurs exactly once in the pairs. *)
Theorem C54_partition : forall argsort simmx theta, square simmx -> sorts_rows argsort simmx ->
  Permutation (indices (get_merged_committee argsort simmx theta)) (seq 0 (length simmx)).
Proof. exact @merged_partition. Qed.
Print Assumptions C54_partition.
(** In step 2: each kept cluster is in one merged committee, each merged committee is the union of one or two kept
    clusters, and the committees returned are these with every singleton added to the most similar one if it is
    similar enough. *)
Theorem C54_step2 : forall argsort csim esim rows L elements theta comms cnames, NoDup elements -> (forall names, sorts_rows argsort (simmx_of csim rows names)) ->
    cbc_step2 argsort csim esim rows L elements theta = Ok (comms, cnames) ->
    let kept := map snd (fst (clean_clusters L)) in let singles := snd (clean_clusters L) in
    exists merged mnames,
      (forall k, In k kept -> exists m, In m merged /\ incl k m) /\
      (forall m, In m merged -> exists k k', In k kept /\ In k' kept /\ same_set m (k ++ k')) /\
      (rows = elements -> mnames = merged) /\ length mnames = length merged /\
      length comms = length merged /\ (rows = elements -> cnames = comms) /\ length cnames = length comms /\
      forall j c, nth_error comms j = Some c -> exists m, nth_error merged j = Some m /\
        forall e, In e c <-> In e m \/ exists x i, In e singles /\ nth_error elements i = Some e /\ nth_error rows i = Some x /\
                                                   let row := map (esim rows x) mnames in argmax row = j /\ (theta <= nth j row 0)%Q.
Proof. exact @step2_spec. Qed.
Print Assumptions C54_step2.
(** {a,b} and {b,c} are merged, d goes with the second committee. *)
Definition ex_L : list scored := [(9 # 10, [a; b]); (8 # 10, [c; b]); (-1, [d]); (7 # 10, [u "e"; u "f"])]%Q.
Definition ex_els : list pystr := [a; b; c; d; u "e"; u "f"].
Example C54_ex : let esim rows x names := if eqb x d && mem (u "e") names then 1 # 2 else ex_esim rows x names in
  cbc_step2 argsort_std ex_csim esim ex_els ex_L ex_els (1 # 2) = Ok ([[a; b; c]; [d; u "e"; u "f"]], [[a; b; c]; [d; u "e"; u "f"]]) /\
  (forall names, sorts_rows argsort_std (simmx_of ex_csim ex_els names)) /\ NoDup ex_els.
Proof. split; [vm_compute; reflexivity|]. split; [intros; apply argsort_std_ok|]. repeat constructor; cbn; intuition discriminate. Qed.

(** ** C55: cleaning.  No kept cluster contains another one. *)
Theorem C55_antichain : forall L i j x y, nth_error (fst (clean_clusters L)) i = Some x -> nth_error (fst (clean_clusters L)) j = Some y -> i <> j -> snd x <> [] -> ~ incl (snd x) (snd y).
Proof. exact @clean_antichain. Qed.
Print Assumptions C55_antichain.
(** Every kept cluster is one of those given with a positive score. *)
Theorem C55_sound : forall L k, In k (fst (clean_clusters L)) -> exists x, In x L /\ (0 < fst x)%Q /\ fst k = fst x /\ same_set (snd k) (snd x) /\ NoDup (snd k).
Proof. exact @clean_sound. Qed.
Print Assumptions C55_sound.
(** Every cluster with a positive score contains a kept one, if different clusters have different scores and equal
    clusters equal ones.  Missing: clusters with the same score, for which see the next theorem. *)
Theorem C55_covers_partial : forall L, (forall x, In x L -> (0 < fst x)%Q -> snd x <> [] /\ NoDup (snd x)) ->
  (forall x y, In x L -> In y L -> (0 < fst x)%Q -> (0 < fst y)%Q -> (same_set (snd x) (snd y) <-> (fst x == fst y)%Q)) ->
  forall x, In x L -> (0 < fst x)%Q -> exists k, In k (fst (clean_clusters L)) /\ incl (snd k) (snd x).
Proof. exact @clean_covers. Qed.
Print Assumptions C55_covers_partial.
Example C55_ex : let L := [(9 # 10, [a; b]); (5 # 10, [a; b; c]); (9 # 10, [b; a]); (4 # 10, [c; d])]%Q in
  fst (clean_clusters L) = [(9 # 10, [a; b]); (4 # 10, [c; d])]%Q.
Proof. vm_compute. reflexivity. Qed.
(** A cluster found twice with another one of the same score in between is dropped altogether. *)
Theorem C55_covers_refuted : exists L x, In x L /\ (0 < fst x)%Q /\ (forall y, In y L -> snd y <> [] /\ NoDup (snd y)) /\ ~ exists k, In k (fst (clean_clusters L)) /\ incl (snd k) (snd x).
Proof.
  exists [(1 # 2, [a; b]); (1 # 2, [c; d]); (1 # 2, [a; b])]%Q, (1 # 2, [a; b])%Q. split; [cbn; auto|]. split; [reflexivity|]. split.
  - intros y Iy. cbn in Iy. assert (N : NoDup [a; b]) by (repeat constructor; cbn; intuition discriminate). assert (N' : NoDup [c; d]) by (repeat constructor; cbn; intuition discriminate).
    destruct Iy as [<-|[<-|[<-|[]]]]; cbn [snd]; split; auto; discriminate.
  - intros (k & I & Inc). vm_compute in I. destruct I as [<-|[]]. specialize (Inc c (or_introl eq_refl)). cbn in Inc. intuition discriminate.
Qed.
Print Assumptions C55_covers_refuted.

(** ** C56: the loop.  Whatever a recursion does, as long as it returns some of its elements in order: the residue lists get
    shorter, except that the last may be that of the recursion before; there are at most as many as the limit and as
    elements. *)
Theorem C56_shrinks_partial : forall {C} (step : nat -> list pystr -> res (list C * list pystr)), (forall i r c r', step i r = Ok (c, r') -> subseq r' r) ->
  forall num_iter elements num_eles Cs Rs, cluster step num_iter elements num_eles = (Cs, Rs) ->
  shrinking (if (0 <? num_eles)%Z then firstn (Z.to_nat num_eles) elements else elements) Rs /\ length Cs = length Rs /\ length Rs <= num_iter /\ length Rs <= length elements.
Proof. exact @cluster_shrinks. Qed.
Print Assumptions C56_shrinks_partial.
(** A recursion without new committees gives the same residues. *)
Theorem C56_shrinks_refuted : exists (step : nat -> list pystr -> res (list (list pystr) * list pystr)) elements, (forall i r c r', step i r = Ok (c, r') -> subseq r' r) /\
  cluster step 10 elements (-1) = ([[]], [elements]) /\ length elements = 3.
Proof.
  exists (fun _ r => Ok ([], r)), [a; b; c]. split; [intros i r x r' E; injection E as _ <-; apply subseq_refl|]. split; reflexivity.
Qed.
Print Assumptions C56_shrinks_refuted.
(** From a limit of as many iterations as elements on, the limit does not matter. *)
Theorem C56_limit : forall {C} (step : nat -> list pystr -> res (list C * list pystr)), (forall i r c r', step i r = Ok (c, r') -> subseq r' r) ->
  forall n1 n2 elements num_eles, length elements <= n1 -> length elements <= n2 -> cluster step n1 elements num_eles = cluster step n2 elements num_eles.
Proof. exact @cluster_limit. Qed.
Print Assumptions C56_limit.
(** The recursion of the code is such a step. *)
Theorem C56_step : forall argsort csim esim mxrows elements t1 t2 (L : list pystr -> list scored) eles C R, major_steps argsort csim esim mxrows elements t1 t2 (L eles) eles = Ok (C, R) -> subseq R eles.
Proof. intros until L. intros eles C R. apply major_subseq. Qed.
Print Assumptions C56_step.
(** Two elements less each time *)
Example C56_ex : cluster (fun _ r => Ok ([firstn 2 r], skipn 2 r)) 10 [a; b; c; d; u "e"; u "f"; u "g"] (-1) =
  ([[[a; b]]; [[c; d]]; [[u "e"; u "f"]]], [[c; d; u "e"; u "f"; u "g"]; [u "e"; u "f"; u "g"]; [u "g"]]).
Proof. vm_compute. reflexivity. Qed.

(** ** C57: residues of step 3, and the assignment of the others to the most similar committee *)
Theorem C57_residues_partial : forall esim rows elements comms commx theta R comms', rows = elements -> cbc_step3 esim rows elements comms commx theta = Ok (R, comms') ->
    R = filter (fun e => forallb (fun s => qlt s theta) (map (esim rows e) commx)) elements /\ length comms' = length comms /\
    forall j c', nth_error comms' j = Some c' -> exists c, nth_error comms j = Some c /\
      forall e, In e c' <-> In e c \/ (In e elements /\ forallb (fun s => qlt s theta) (map (esim rows e) commx) = false /\ argmax (map (esim rows e) commx) = j).
Proof. exact @step3_own. Qed.
Print Assumptions C57_residues_partial.
Theorem C57_total : forall esim rows elements comms commx theta, commx <> [] -> length rows <= length elements -> exists r, cbc_step3 esim rows elements comms commx theta = Ok r.
Proof. exact @step3_total. Qed.
Print Assumptions C57_total.
(** The most similar committee: the first of those with the highest similarity *)
Theorem C57_argmax : forall l, l <> [] -> exists v, nth_error l (argmax l) = Some v /\ forall j x, nth_error l j = Some x -> (x <= v)%Q /\ (j < argmax l -> (x < v)%Q).
Proof. exact @argmax_spec. Qed.
Print Assumptions C57_argmax.
Example C57_ex : cbc_step3 ex_esim [a; b; c; d] [a; b; c; d] [[a; b]] [[a; b]] (1 # 2) = Ok ([d], [[a; b; c]]).
Proof. vm_compute. reflexivity. Qed.
(** The assignment is not in what CBC.cluster returns: c is neither a residue nor in a committee. *)
Theorem C57_assigned_refuted : exists argsort csim esim elements L C R e, major_steps argsort csim esim elements elements (1 # 2) (1 # 2) L elements = Ok (C, R) /\
  In e elements /\ ~ In e R /\ ~ exists c, In c C /\ In e c.
Proof.
  exists argsort_std, ex_csim, ex_esim, [a; b; c; d], [(9 # 10, [a; b])%Q], [[a; b]], [d], c. split; [vm_compute; reflexivity|]. split; [cbn; auto|].
  split; [cbn; intuition discriminate|]. intros (x & [<-|[]] & I). cbn in I. intuition discriminate.
Qed.
Print Assumptions C57_assigned_refuted.

(** ** C58: step 1 with several processes.  Missing: a process that takes two tasks. *)
Theorem C58_same_partial : forall cse m elements sched r, m <> 0 -> NoDup (map snd sched) -> step1_multicore cse m elements sched r -> exists L, r = Ok L /\ Permutation L (step1 cse elements).
Proof. exact @multicore_same. Qed.
Print Assumptions C58_same_partial.
(** No cluster is invented in any case. *)
Theorem C58_sound : forall cse m elements sched L x, step1_multicore cse m elements sched (Ok L) -> In x L -> In x (step1 cse elements).
Proof. exact @multicore_sound. Qed.
Print Assumptions C58_sound.
(** The tasks have all elements. *)
Theorem C58_tasks : forall m elements, m <> 0 -> Permutation (concat (data_group m elements)) elements /\ length (data_group m elements) = m.
Proof. intros m elements H. split; [now apply groups_all|apply groups_length]. Qed.
Print Assumptions C58_tasks.
Definition ex_cse (e : pystr) : res (list scored) := Ok [((1 # 2)%Q, [e; a])].
Example C58_ex : exists L, step1_multicore ex_cse 2 [b; c; d] [(1, 12); (0, 11)] (Ok L) /\ Permutation L (step1 ex_cse [b; c; d]) /\ NoDup (map snd [(1, 12); (0, 11)]).
Proof.
  eexists. split; [split; [apply perm_swap|]; eexists; split; [reflexivity|reflexivity]|]. split; [|repeat constructor; cbn; intuition discriminate]. apply perm_swap.
Qed.
(** A process with two tasks overwrites the clusters of the first: those of b are lost. *)
Theorem C58_reused_refuted : exists L, step1_multicore ex_cse 2 [b; c] [(0, 11); (1, 11)] (Ok L) /\ L = [((1 # 2)%Q, [c; a])] /\ ~ Permutation L (step1 ex_cse [b; c]).
Proof.
  eexists. split; [split; [reflexivity|]; eexists; split; [reflexivity|reflexivity]|]. split; [reflexivity|]. intros P. apply Permutation_length in P. discriminate.
Qed.
Print Assumptions C58_reused_refuted.
(** With one CPU there are no tasks to deal the elements to. *)
Theorem C58_one_cpu_refuted : forall cse e elements sched r, step1_multicore cse 0 (e :: elements) sched r -> r = Err ZeroDivisionError.
Proof. intros * H. exact H. Qed.
Print Assumptions C58_one_cpu_refuted.

(** ** C88: the clusters of an element partition its neighbours. *)
Theorem C88_partition : forall fcluster mean median percentile linkage sqrt_of neighbours condensed glb prune t metric e r sub,
    (forall Z q, length (fcluster Z q) = S (length Z)) -> (forall d Z, linkage d = Ok Z -> forall s, condensed s = Ok d -> S (length Z) = length s) ->
    prune = u "minsize" \/ prune = u "distance" -> neighbours e = Ok sub ->
    cluster_similar_elements fcluster mean median percentile linkage sqrt_of neighbours condensed glb prune t metric false e = Ok r ->
    Permutation (concat (map snd r)) sub /\ forall sc, In sc r -> snd sc <> [].
Proof. exact @cse_partition. Qed.
Print Assumptions C88_partition.
(** Three neighbours; the first two together *)
Definition ex_fc (Z : list (Q * Q)) (q : Q) : list BinNums.Z := map (fun i => if i <? 2 then 1%Z else 2%Z) (seq 0 (S (length Z))).
Definition ex_lk (d : list Q) : res (list (Q * Q)) := match d with [] => Err ValueError | _ => Ok [(1 # 10, 2); (9 # 10, 3)]%Q end.
Definition ex_cd (s : list pystr) : res (list Q) := if length s =? 3 then Ok [1 # 10; 9 # 10; 8 # 10]%Q else Err ValueError.
Definition ex_cl (prune : pystr) (t : thr) (metric : pystr) (highest : bool) (e : pystr) : res (list scored) :=
  cluster_similar_elements ex_fc (fun _ => 1 # 2) (fun _ => 1 # 2) (fun _ _ => 1 # 2) ex_lk (fun _ => 1%Q) (fun _ => Ok [c; a; d]) ex_cd [a; b; c; d] prune t metric highest e.
Example C88_ex : ex_cl (u "distance") (TStr (u "median")) (u "with_size") false b = Ok [(18 # 10, [c; a]); (-1, [d])]%Q /\
  (forall Z q, length (ex_fc Z q) = S (length Z)) /\ (forall d Z, ex_lk d = Ok Z -> forall s, ex_cd s = Ok d -> S (length Z) = length s).
Proof.
  split; [vm_compute; reflexivity|]. split; [intros; unfold ex_fc; now rewrite map_length, seq_length|]. intros d0 Z E s Es. unfold ex_cd in Es. destruct (length s =? 3) eqn:L; [|discriminate]. apply Nat.eqb_eq in L. rewrite L.
  injection Es as <-. injection E as <-. reflexivity.
Qed.

(** ** C89: the highest scoring cluster.  Missing: no cluster of several elements with a positive score. *)
Theorem C89_best_partial : forall fcluster mean median percentile linkage sqrt_of neighbours condensed glb prune t metric e all best,
    cluster_similar_elements fcluster mean median percentile linkage sqrt_of neighbours condensed glb prune t metric false e = Ok all ->
    cluster_similar_elements fcluster mean median percentile linkage sqrt_of neighbours condensed glb prune t metric true e = Ok best ->
    (exists sc, In sc all /\ length (snd sc) <> 1 /\ (0 < fst sc)%Q) ->
    exists sc, best = [sc] /\ In sc all /\ length (snd sc) <> 1 /\ forall sc', In sc' all -> length (snd sc') <> 1 -> (fst sc' <= fst sc)%Q.
Proof. exact @best_cluster. Qed.
Print Assumptions C89_best_partial.
Example C89_ex : ex_cl (u "distance") (TStr (u "median")) (u "with_size") true b = Ok [(18 # 10, [c; a])]%Q.
Proof. vm_compute. reflexivity. Qed.
(** Otherwise the result is an empty cluster. *)
Theorem C89_empty_refuted : forall fcluster mean median percentile linkage sqrt_of neighbours condensed glb prune t metric e all best,
    cluster_similar_elements fcluster mean median percentile linkage sqrt_of neighbours condensed glb prune t metric false e = Ok all ->
    cluster_similar_elements fcluster mean median percentile linkage sqrt_of neighbours condensed glb prune t metric true e = Ok best ->
    all <> [] -> (forall Z q, ~ In (-1)%Z (fcluster Z q)) -> (forall sc, In sc all -> length (snd sc) <> 1 -> (fst sc <= 0)%Q) -> best = [(0%Q, [])].
Proof. exact @best_none. Qed.
Print Assumptions C89_empty_refuted.
Example C89_empty_ex : let cl h := cluster_similar_elements (fun Z _ => map Z.of_nat (seq 1 (S (length Z)))) (fun _ => 1 # 2) (fun _ => 1 # 2) (fun _ _ => 1 # 2) ex_lk (fun _ => 1%Q) (fun _ => Ok [c; a; d]) ex_cd [a; b; c; d]
    (u "distance") (TStr (u "median")) (u "with_size") h b in
  cl false = Ok [(-1, [c]); (-1, [a]); (-1, [d])]%Q /\ cl true = Ok [(0%Q, [])].
Proof. vm_compute. auto. Qed.

(** ** C90: each committee in turn is merged with the most similar free one after it, if that is similar enough.  Missing: the
    least similar committee is never taken. *)
Theorem C90_best_partial : forall argsort simmx theta, square simmx -> sorts_rows argsort simmx ->
    (forall i j, i < length simmx -> j < length simmx -> i <> j -> (cell simmx i j < cell simmx i i)%Q) ->
    forall l1 i o l2, get_merged_committee argsort simmx theta = l1 ++ (i, o) :: l2 ->
    i < length simmx /\ ~ In i (indices l1) /\
    match o with
    | Some j => i < j /\ j < length simmx /\ ~ In j (indices l1) /\ (theta <= cell simmx i j)%Q /\
                forall j', i < j' -> j' < length simmx -> ~ In j' (indices l1) -> (cell simmx i j' <= cell simmx i j)%Q
    | None => forall j', i < j' -> j' < length simmx -> ~ In j' (indices l1) -> (cell simmx i j' < theta)%Q \/ forall j, j < length simmx -> (cell simmx i j' <= cell simmx i j)%Q
    end.
Proof. exact @merge_best. Qed.
Print Assumptions C90_best_partial.
Definition ex_sim : list (list Q) := [[1; 1 # 10; 1 # 2; 6 # 10]; [1 # 10; 1; 7 # 10; 3 # 10]; [1 # 2; 7 # 10; 1; 2 # 10]; [6 # 10; 3 # 10; 2 # 10; 1]]%Q.
Example C90_ex : get_merged_committee argsort_std ex_sim (1 # 2) = [(0, Some 3); (1, Some 2)] /\ sorts_rows argsort_std ex_sim /\ square ex_sim.
Proof. split; [vm_compute; reflexivity|]. split; [apply argsort_std_ok|]. intros row I. cbn in I. intuition (subst; reflexivity). Qed.
(** Two committees are never merged, however similar. *)
Theorem C90_two_refuted : forall argsort x y theta, length (argsort x) = 2 -> length (argsort y) = 2 -> get_merged_committee argsort [x; y] theta = [(0, None); (1, None)].
Proof. exact @two_never. Qed.
Print Assumptions C90_two_refuted.
Example C90_two_ex : let m := [[1; 99 # 100]; [99 # 100; 1]]%Q in get_merged_committee argsort_std m (1 # 2) = [(0, None); (1, None)] /\ sorts_rows argsort_std m.
Proof. split; [vm_compute; reflexivity|apply argsort_std_ok]. Qed.

(** ** C91: every element ends up in a committee or among the residues.  Within a recursion, an element that is not a residue is
    similar enough to some committee.  Missing: elements that are not rows. *)
Theorem C91_accounted_partial : forall argsort csim esim mxrows elements t1 t2 L eles C R, (elements = eles -> mxrows = eles) -> incl eles mxrows -> major_steps argsort csim esim mxrows elements t1 t2 L eles = Ok (C, R) ->
  C = [] /\ R = eles \/ exists names, cbc_step2 argsort csim esim eles L eles t1 = Ok (C, names) /\ R = filter (fun e => forallb (fun s => qlt s t2) (map (esim eles e) names)) eles.
Proof. exact @major_spec. Qed.
Print Assumptions C91_accounted_partial.
Example C91_ex : major_steps argsort_std ex_csim ex_esim [a; b; c; d] [a; b; c; d] (1 # 2) (1 # 2) [(9 # 10, [a; b])%Q] [a; b; c; d] = Ok ([[a; b]], [d]).
Proof. vm_compute. reflexivity. Qed.
(** When a recursion fails, its elements are in neither list: CBC.cluster returns [[]] and [[]]. *)
Theorem C91_failure_refuted : forall {C} (step : nat -> list pystr -> res (list C * list pystr)) n elements x, elements <> [] -> step 1 elements = Err x -> cluster step (S n) elements (-1) = ([[]], [[]]).
Proof. exact @cluster_error. Qed.
Print Assumptions C91_failure_refuted.
(** It fails when step 1 finds nothing. *)
Theorem C91_nothing_refuted : forall argsort csim esim mxrows elements t1 t2 eles,
  exists e, major_steps argsort csim esim mxrows elements t1 t2 [] eles = Err e /\ (e = ValueError <-> elements = eles \/ exists x, In x eles /\ In x mxrows).
Proof. exact @no_clusters. Qed.
Print Assumptions C91_nothing_refuted.
(** An element that is not a row: in later recursions the rows move up, so that the last elements are judged by no row at all.  Here c is
    judged by the row of d, and d by none: it is neither in a committee nor a residue. *)
Theorem C91_stranger_refuted : major_steps argsort_std ex_csim ex_esim [a; b; d] [a; b; c; d; u "e"] (1 # 2) (1 # 2) [(9 # 10, [a; b])%Q] [a; b; c; d] = Ok ([[a; b]], [c]) /\
  (ex_esim [] d [a; b] < 1 # 2)%Q.
Proof. split; vm_compute; reflexivity. Qed.
Print Assumptions C91_stranger_refuted.
Example C91_failure_ex : cluster (fun _ r => major_steps argsort_std ex_csim ex_esim [a; b] [a; b] (1 # 2) (1 # 2) (step1 (fun _ => Err ValueError) r) r) 1000 [a; b] (-1) = ([[]], [[]]).
Proof. vm_compute. reflexivity. Qed.

(** ** C92: committees consist of the elements given, and residues are some of them in order. *)
Theorem C92_elements : forall argsort csim esim mxrows elements t1 t2 L eles C R, major_steps argsort csim esim mxrows elements t1 t2 L eles = Ok (C, R) ->
  (forall c e, In c C -> In e c -> In e eles) /\ subseq R eles.
Proof. exact @major_elements. Qed.
Print Assumptions C92_elements.

(** ** C93: elements that cleaning keeps.  The singletons returned are the elements heading a cluster without positive score
    that are in no cluster with one. *)
Theorem C93_singletons_partial : forall L e, In e (snd (clean_clusters L)) <->
  (exists x rest, In x L /\ (fst x <= 0)%Q /\ snd x = e :: rest) /\ forall y, In y L -> (0 < fst y)%Q -> ~ In e (snd y).
Proof. exact @clean_singletons. Qed.
Print Assumptions C93_singletons_partial.
Example C93_ex : snd (clean_clusters [(9 # 10, [a; b]); (-1, [c]); (-1, [a])]%Q) = [c].
Proof. vm_compute. reflexivity. Qed.
(** c is in a cluster that is dropped, and therefore not a singleton either. *)
Theorem C93_lost_refuted : exists L e, (exists x, In x L /\ In e (snd x) /\ (0 < fst x)%Q) /\ (exists x, In x L /\ snd x = [e]) /\ ~ In e (snd (clean_clusters L)) /\ forall k, In k (fst (clean_clusters L)) -> ~ In e (snd k).
Proof.
  exists [(9 # 10, [a; b]); (5 # 10, [a; b; c]); (-1, [c])]%Q, c. split; [exists (5 # 10, [a; b; c])%Q; cbn; intuition|]. split; [exists (-1, [c])%Q; cbn; auto|].
  split; [vm_compute; easy|]. intros k I. vm_compute in I. destruct I as [<-|[]]. cbn. intuition discriminate.
Qed.
Print Assumptions C93_lost_refuted.
(** A cluster of two with a negative score leaves only its first element. *)
Theorem C93_second_refuted : clean_clusters [((-1 # 10)%Q, [a; b])] = ([], [a]).
Proof. vm_compute. reflexivity. Qed.
Print Assumptions C93_second_refuted.

(** ** C94: the vectors used for an element are its own: C57_residues_partial says so for elements given in the order of the matrix
    rows.  In another order, an element is judged by the row at its position. *)
Theorem C94_rows_partial : forall esim rows elements comms commx theta R comms', cbc_step3 esim rows elements comms commx theta = Ok (R, comms') ->
    R = map snd (filter (fun xe => forallb (fun s => qlt s theta) (map (esim rows (fst xe)) commx)) (combine rows elements)) /\ length comms' = length comms /\ length rows <= length elements /\
    forall j c', nth_error comms' j = Some c' -> exists c, nth_error comms j = Some c /\
      forall e, In e c' <-> In e c \/ exists x, In (x, e) (combine rows elements) /\ forallb (fun s => qlt s theta) (map (esim rows x) commx) = false /\ argmax (map (esim rows x) commx) = j.
Proof. exact @step3_spec. Qed.
Print Assumptions C94_rows_partial.
(** d is far from {a,b}, but c gets to be the residue. *)
Theorem C94_order_refuted : exists C, major_steps argsort_std ex_csim ex_esim [a; b; d; c] [a; b; c; d] (1 # 2) (1 # 2) [(9 # 10, [a; b])%Q] [a; b; c; d] = Ok (C, [c]) /\
  (ex_esim [] d [a; b] < 1 # 2)%Q /\ ((1 # 2) <= ex_esim [] c [a; b])%Q.
Proof. eexists. split; [vm_compute; reflexivity|]. split; vm_compute; [reflexivity|discriminate]. Qed.
Print Assumptions C94_order_refuted.

(** ** C95: the pruning method minsize with the default threshold 'median': a TypeError for every element, no clusters, and nothing
    returned. *)
Theorem C95_minsize_refuted : forall fcluster mean median percentile linkage sqrt_of neighbours condensed glb s metric highest e sub cd Z, neighbours e = Ok sub -> condensed sub = Ok cd -> linkage cd = Ok Z -> Z <> [] ->
  cluster_similar_elements fcluster mean median percentile linkage sqrt_of neighbours condensed glb (u "minsize") (TStr s) metric highest e = Err TypeError.
Proof. exact @minsize_string. Qed.
Print Assumptions C95_minsize_refuted.
Theorem C95_none_refuted : forall cse elements, (forall e, In e elements -> exists x, cse e = Err x) -> step1 cse elements = [].
Proof. exact @step1_all_fail. Qed.
Print Assumptions C95_none_refuted.
(** Which threshold is used otherwise.  Distance: *)
Theorem C95_distance : forall fcluster mean median percentile Z s r, flat_cluster fcluster mean median percentile Z (TStr s) (u "distance") = r ->
  (s = u "mean" /\ r = Ok (fcluster Z (mean (map fst Z)))) \/ (s = u "median" /\ r = Ok (fcluster Z (median (map fst Z)))) \/
  (exists pre rest, s = pre ++ percent :: rest /\ ~ In percent pre /\
     ((exists p, int_of_str pre = Ok p /\ ((0 <= p <= 100)%Z /\ r = Ok (fcluster Z (percentile (map fst Z) p)) \/ ~ (0 <= p <= 100)%Z /\ r = Err ValueError)) \/
      exists e, int_of_str pre = Err e /\ r = Err e)) \/
  (s <> u "mean" /\ s <> u "median" /\ ~ In percent s /\ r = Err NotImplementedError).
Proof. exact @flat_strings. Qed.
Print Assumptions C95_distance.
Example C95_distance_ex : let f := flat_cluster (fun Z q => [Qnum q]) (fun _ => 1%Q) (fun _ => 2%Q) (fun _ p => inject_Z p) [(1 # 2, 2); (3 # 4, 3)]%Q in
  f (TStr (u "median")) (u "distance") = Ok [2%Z] /\ f (TStr (u "25%")) (u "distance") = Ok [25%Z] /\ f (TStr (u "250%")) (u "distance") = Err ValueError /\ f (TStr (u "max")) (u "distance") = Err NotImplementedError.
Proof. vm_compute. auto. Qed.
(** Smallest size: the distance of the first merge that gives a cluster of at least that size; 1 if there is none. *)
Theorem C95_minsize : forall fcluster mean median percentile Z q, exists d, flat_cluster fcluster mean median percentile Z (TNum q) (u "minsize") = Ok (fcluster Z d) /\
  ((exists pre dc post, Z = pre ++ dc :: post /\ (forall x, In x pre -> (snd x < q)%Q) /\ (q <= snd dc)%Q /\ d = fst dc) \/ (forall x, In x Z -> (snd x < q)%Q) /\ d = 1%Q).
Proof. exact @flat_minsize. Qed.
Print Assumptions C95_minsize.
Example C95_minsize_ex : let f := flat_cluster (fun Z q => [Qnum q]) (fun _ => 1%Q) (fun _ => 2%Q) (fun _ p => inject_Z p) [(1 # 2, 2); (3 # 4, 3)]%Q in
  f (TNum 3) (u "minsize") = Ok [3%Z] /\ f (TNum 4) (u "minsize") = Ok [1%Z].
Proof. vm_compute. auto. Qed.
Example C95_ex : step1 (ex_cl (u "minsize") (TStr (u "median")) (u "with_size") false) [a; b] = [] /\ ex_cl (u "minsize") (TNum 2) (u "with_size") false b = Ok [(18 # 10, [c; a]); (-1, [d])]%Q.
Proof. vm_compute. auto. Qed.

(** ** C96: the score of a cluster is the mean similarity of its pairs, with its size as the metric says; -1 for one element. *)
Theorem C96_scores : forall fcluster mean median percentile linkage sqrt_of neighbours condensed glb prune t metric e r sub D, (forall i j, D i j = D j i) -> 1 <= length sub ->
    neighbours e = Ok sub -> condensed sub = Ok (condensed_of (length sub) D) ->
    cluster_similar_elements fcluster mean median percentile linkage sqrt_of neighbours condensed glb prune t metric false e = Ok r ->
    forall sc, In sc r -> exists ids, NoDup ids /\ Forall2 (fun i x => nth_error sub i = Some x) ids (snd sc) /\
      (length ids = 1 -> fst sc = (-1)%Q) /\
      (length ids <> 1 -> let n := length ids in let mean_sim := (qsum (map (fun ij => 1 - D (fst ij) (snd ij)) (pairs ids)) / inject_Z (Z.of_nat n * (Z.of_nat n - 1) / 2))%Q in
                          metric = u "with_size_sqrt" /\ fst sc = (sqrt_of n * mean_sim)%Q \/
                          metric = u "with_size" /\ fst sc = (inject_Z (Z.of_nat n) * mean_sim)%Q \/
                          metric = u "without_size" /\ fst sc = mean_sim).
Proof. exact @exact_scores. Qed.
Print Assumptions C96_scores.
(** average_similarity itself *)
Theorem C96_average : forall n M idx, 1 <= n -> NoDup idx -> (forall i, In i idx -> i < n) -> (forall i j, M i j = M j i) -> 2 <= length idx ->
  average_similarity (map Z.of_nat idx) (condensed_of n M) = Ok (qsum (map (fun ij => M (fst ij) (snd ij)) (pairs idx)) / inject_Z (Z.of_nat (length idx) * (Z.of_nat (length idx) - 1) / 2))%Q.
Proof. exact @average_exact. Qed.
Print Assumptions C96_average.
(** Items 0, 2 and 3 of 4, with similarity i*j *)
Example C96_ex : average_similarity [3; 0; 2]%Z (condensed_of 4 (fun i j => inject_Z (Z.of_nat (i * j)))) = Ok (6 # 3)%Q.
Proof. vm_compute. reflexivity. Qed.

(** ** Computed cases *)
Example C54_values :
  (* committee 2 is nearest to 0 and 1, and goes to 0; 1 then takes 3 *)
  get_merged_committee argsort_std [[1; 1 # 10; 8 # 10; 3 # 10]; [1 # 10; 1; 9 # 10; 7 # 10]; [8 # 10; 9 # 10; 1; 2 # 10]; [3 # 10; 7 # 10; 2 # 10; 1]]%Q (1 # 2) = [(0, Some 2); (1, Some 3)] /\
  (* 1 is nearest to 0, which comes before it; 2 after it is not similar enough *)
  get_merged_committee argsort_std [[1; 4 # 10; 3 # 10]; [6 # 10; 1; 2 # 10]; [3 # 10; 2 # 10; 1]]%Q (1 # 2) = [(0, None); (1, None); (2, None)] /\
  (* a singleton that is not similar enough stays out, one that is goes to the first of the most similar committees *)
  cbc_step2 argsort_std ex_csim (fun _ x _ => if eqb x d then 1 # 2 else 4 # 10) [a; b; c; d; u "e"] [(9 # 10, [a; b]); (8 # 10, [c]); (-1, [d]); (-1, [u "e"])]%Q [a; b; c; d; u "e"] (1 # 2)
    = Ok ([[a; b; d]; [c]], [[a; b; d]; [c]]).
Proof. vm_compute. auto. Qed.
Example C57_values :
  argmax [1 # 2; 9 # 10; 9 # 10; 1 # 10]%Q = 1 /\
  cbc_step3 (fun _ x n => if mem x n then 9 # 10 else if eqb x d then 2 # 10 else 1 # 2) [a; b; c; d] [a; b; c; d] [[a]; [b]] [[a]; [b]] (1 # 2) = Ok ([d], [[a; c]; [b]]) /\
  cbc_step3 (fun _ x n => if mem x n then 9 # 10 else 1 # 10) [a; b] [a; b] [[a]; [b]] [[a]; [b]] (1 # 2) = Ok ([], [[a]; [b]]).
Proof. vm_compute. auto. Qed.
Definition four_sims : list Q := [9 # 10; 1 # 10; 1 # 10; 1 # 10; 1 # 10; 5 # 10]%Q.
Example C89_values :
  rmap (map (fun sc => (Qred (fst sc), snd sc))) (score_cluster (fun _ => 1%Q) [(1%Z, [0; 1]); (2%Z, [2; 3])] four_sims (u "with_size") true) = Ok [((9 # 5)%Q, [0; 1])].
Proof. vm_compute. auto. Qed.
Example C91_values :
  (* another list of elements than that of the object: only its rows count for the similarities *)
  major_steps argsort_std ex_csim (fun rows x n => if length rows =? 2 then 9 # 10 else 1 # 10) [a; b; c; d] [a; b; c; d] (1 # 2) (1 # 2) [(9 # 10, [a; b])%Q] [a; b] = Ok ([[a; b]], []).
Proof. vm_compute. auto. Qed.
Example C96_values : rmap Qred (average_similarity [0; 1; 2]%Z [1 # 10; 2 # 10; 6 # 10]%Q) = Ok (3 # 10)%Q.
Proof. vm_compute. auto. Qed.
