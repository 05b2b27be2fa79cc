(** * Model of nephosem/models/cbc.py: clustering by committee.

    Similarities, distances and scores are rationals.  External: the matrices' neighbours and condensed distances,
    scipy's linkage and fcluster, numpy's mean, median, percentile, argsort, math.sqrt, and the cosine similarities of
    vectors; all are parameters, so the theorems hold whatever they compute.  Not a number is not modelled, nor is the
    writing of temporary and result files except for the names under which worker results are stored. *)
From Coq Require Import String NArith ZArith QArith Bool Arith Permutation List.
From Verif Require Import Base Str.
Import ListNotations.
Local Open Scope nat_scope.

Definition qlt (a b : Q) : bool := negb (Qle_bool b a).
(** l[z] for a Python list or array: negative indices count from the end *)
Definition pyget {A} (l : list A) (z : Z) : res A :=
  let n := Z.of_nat (length l) in
  let z := if (z <? 0)%Z then (z + n)%Z else z in
  if (z <? 0)%Z then Err IndexError else match nth_error l (Z.to_nat z) with Some x => Ok x | None => Err IndexError end.
Definition enumerate {A} (l : list A) : list (nat * A) := combine (seq 0 (length l)) l.

(** ** Condensed similarities *)
(** square_to_condensed, cbc.py:1142-1147.  j*(j+1) is even, so the float division is exact. *)
Definition square_to_condensed (i j n : Z) : res Z :=
  if (i =? j)%Z then Err AssertionError else
  let '(i, j) := if (i <? j)%Z then (j, i) else (i, j) in
  Ok (n * j - j * (j + 1) / 2 + i - 1 - j)%Z.
(** [(idx[i], idx[j])] for i < j *)
Fixpoint pairs {A} (l : list A) : list (A * A) := match l with [] => [] | x :: l' => map (pair x) l' ++ pairs l' end.
(** int(math.sqrt(len(simmx) * 2)) + 1 *)
Definition items_of_condensed (len : Z) : Z := (Z.sqrt (len * 2) + 1)%Z.
(** average_similarity, cbc.py:1121-1139 *)
Definition average_similarity (idx : list Z) (simmx : list Q) : res Q :=
  let n := items_of_condensed (Z.of_nat (length simmx)) in
  let size := Z.of_nat (length idx) in
  rbind (rfold (fun s ij => rbind (square_to_condensed (fst ij) (snd ij) n) (fun k => rmap (Qplus s) (pyget simmx k))) (pairs idx) 0%Q) (fun s =>
  let csize := (size * (size - 1) / 2)%Z in
  if (csize =? 0)%Z then Err ZeroDivisionError else Ok (s / inject_Z csize)%Q).

(** ** Clusters of the neighbours of one element *)
Notation scored := (Q * list pystr)%type.
(** The parameter t: a number or a string *)
Inductive thr := TNum (q : Q) | TStr (s : pystr).
Section Flat.
  (** A row of the linkage matrix: merge distance and number of elements *)
  Variable fcluster : list (Q * Q) -> Q -> list Z.
  Variables mean median : list Q -> Q.
  Variable percentile : list Q -> Z -> Q.
  Definition percent : N := 37%N.
  (** flat_cluster, cbc.py:963-1033; the cluster number of every observation.  Comparing a number with a string is a TypeError; numpy's percentile
      refuses numbers outside of 0 to 100. *)
  Definition flat_cluster (Z : list (Q * Q)) (t : thr) (criterion : pystr) : res (list BinNums.Z) :=
    if eqb criterion (u "minsize") then
      match t with
      | TNum q => Ok (fcluster Z (match find (fun dc => Qle_bool q (snd dc)) Z with Some dc => fst dc | None => 1%Q end))
      | TStr _ => match Z with [] => Ok (fcluster Z 1%Q) | _ => Err TypeError end
      end
    else if eqb criterion (u "distance") then
      let mergedist := map fst Z in
      match t with
      | TStr s => if eqb s (u "mean") then Ok (fcluster Z (mean mergedist))
                  else if eqb s (u "median") then Ok (fcluster Z (median mergedist))
                  else match index_of percent s with
                       | Some i => rbind (int_of_str (firstn i s)) (fun p =>
                                   if ((0 <=? p) && (p <=? 100))%Z then Ok (fcluster Z (percentile mergedist p)) else Err ValueError)
                       | None => Err NotImplementedError
                       end
      | TNum q => Ok (fcluster Z q)
      end
    else Ok [].
  (** hierarchical_cluster, cbc.py:931-960: cluster number -> positions *)
  Definition group (labels : list BinNums.Z) : dict BinNums.Z (list nat) :=
    fold_left (fun d ic => dset d (snd ic) ((match dget d (snd ic) with Some l => l | None => [] end) ++ [fst ic])) (enumerate labels) [].
  Variable linkage : list Q -> res (list (Q * Q)).
  Definition hierarchical_cluster (distmx : list Q) (prune_method : pystr) (t : thr) : res (dict BinNums.Z (list nat)) :=
    rbind (linkage distmx) (fun Z => rmap group (flat_cluster Z t prune_method)).

  (** score_cluster, cbc.py:1036-1087, with cluster_avgsim 1090-1118; score_func is not used by the code. *)
  Variable sqrt_of : nat -> Q.
  Definition avgsim_of (ids : list nat) (simmx : list Q) : res Q :=
    if length ids =? 1 then Ok 1%Q else average_similarity (map BinInt.Z.of_nat ids) simmx.
  Definition score_of (metric : pystr) (size : nat) (avgsim : Q) : res Q :=
    if eqb metric (u "with_size_sqrt") then Ok (sqrt_of size * avgsim)%Q
    else if eqb metric (u "with_size") then Ok (inject_Z (BinInt.Z.of_nat size) * avgsim)%Q
    else if eqb metric (u "without_size") then Ok avgsim
    else Err NotImplementedError.
  (** Scores so far, best cluster number and score *)
  Definition sc_step (metric : pystr) (sims : dict BinNums.Z Q) (st : dict BinNums.Z Q * (BinNums.Z * Q)) (ci : BinNums.Z * list nat)
    : res (dict BinNums.Z Q * (BinNums.Z * Q)) :=
    let '(scores, (maxc, maxs)) := st in
    if length (snd ci) =? 1 then Ok (dset scores (fst ci) (-1)%Q, (maxc, maxs)) else
    rbind (match dget sims (fst ci) with Some a => Ok a | None => Err KeyError end) (fun avgsim =>
    rmap (fun score => (dset scores (fst ci) score, if qlt maxs score then (fst ci, score) else (maxc, maxs)))
         (score_of metric (length (snd ci)) avgsim)).
  (** clusters is a defaultdict(list): clusters[-1] is the empty list when no cluster has a positive score. *)
  Definition score_cluster (clusters : dict BinNums.Z (list nat)) (simmx : list Q) (metric : pystr) (highest : bool) : res (list (Q * list nat)) :=
    rbind (rmapm (fun ci => rmap (pair (fst ci)) (avgsim_of (snd ci) simmx)) clusters) (fun sims =>
    rbind (rfold (sc_step metric sims) clusters ([], ((-1)%Z, 0%Q))) (fun st =>
      let '(scores, (maxc, maxs)) := st in
      if highest then Ok [(maxs, match dget clusters maxc with Some c => c | None => [] end)]
      else rmapm (fun ci => match dget scores (fst ci) with Some s => Ok (s, snd ci) | None => Err KeyError end) clusters)).

  (** sub2glb, cbc.py:909-928 *)
  Definition sub2glb (cluster : list nat) (subitems glbitems : list pystr) : res (list nat) :=
    rbind (rmapm (fun i => match nth_error subitems i with Some x => Ok x | None => Err IndexError end) cluster) (fun items =>
    let glbitem2id := dict_of (combine glbitems (seq 0 (length glbitems))) in
    rmapm (fun it => match dget glbitem2id it with Some i => Ok i | None => Err KeyError end) items).
  (** cluster_similar_elements, cbc.py:847-906.  [neighbours e]: the row items of the submatrix of the most similar elements;
      [condensed]: the condensed distances between some items; [glb]: the row items of the distance matrix. *)
  Variable neighbours : pystr -> res (list pystr).
  Variable condensed : list pystr -> res (list Q).
  Variable glb : list pystr.
  Definition cluster_similar_elements (prune_method : pystr) (t : thr) (metric : pystr) (highest : bool) (e : pystr) : res (list scored) :=
    rbind (neighbours e) (fun sub => rbind (condensed sub) (fun cd =>
    rbind (hierarchical_cluster cd prune_method t) (fun clusters =>
    match clusters with
    | [] => Ok []
    | _ =>
        rbind (score_cluster clusters (map (fun d => 1 - d)%Q cd) metric highest) (fun scs =>
        rmapm (fun sc => rbind (sub2glb (snd sc) sub glb) (fun ids =>
                         rmap (pair (fst sc)) (rmapm (fun i => match nth_error glb i with Some x => Ok x | None => Err IndexError end) ids))) scs)
    end))).
End Flat.

(** ** Step 1 *)
Section Step1.
  Variable cse : pystr -> res (list scored).
  (** The loop of cbc_step1_single, cbc.py:390-446, and of cbc_step1_call, 366-380: an element that raises gives no clusters. *)
  Definition step1 (elements : list pystr) : list scored := flat_map (fun e => match cse e with Ok l => l | Err _ => [] end) elements.
  (** cbc_step1_multicore, cbc.py:305-311: the elements dealt out in turn *)
  Definition data_group (num_cores : nat) (elements : list pystr) : list (list pystr) :=
    map (fun g => map snd (filter (fun ie => fst ie mod num_cores =? g) (enumerate elements))) (seq 0 num_cores).
  (** cbc.py:313-346: task number and process id in the order in which the tasks end.  A task writes its list to a file named
      after the process; the files are then read in the order of os.listdir.  Not modelled: failing to load the saved
      distance matrix; the JSON format (scores are numbers, clusters lists of strings). *)
  Definition l_files (groups : list (list pystr)) (sched : list (nat * nat)) : dict nat (list scored) :=
    fold_left (fun d tp => dset d (snd tp) (step1 (nth (fst tp) groups []))) sched [].
  Definition step1_multicore (num_cores : nat) (elements : list pystr) (sched : list (nat * nat)) (r : res (list scored)) : Prop :=
    match num_cores with
    | O => r = Err (match elements with [] => ValueError | _ => ZeroDivisionError end)
    | _ => Permutation (map fst sched) (seq 0 num_cores) /\
           exists listing, Permutation listing (l_files (data_group num_cores elements) sched) /\ r = Ok (concat (map snd listing))
    end.
End Step1.

(** ** Step 2 *)
(** remove_duplicate, cbc.py:643-658 *)
Definition close (a b : Q) : bool := Qle_bool (if Qle_bool 0 (a - b) then a - b else b - a)%Q (1 # 1000000000).
Fixpoint rd_from (prev : scored) (l : list scored) : list scored :=
  match l with
  | [] => []
  | x :: l' =>
      if negb (close (fst x) (fst prev)) || negb (eqb (isort sleb (snd x)) (isort sleb (snd prev)))
      then (fst x, dedup (snd x)) :: rd_from x l'
      else rd_from prev l'
  end.
Definition remove_duplicate (clusters : list scored) : list scored :=
  match clusters with [] => [] | x :: l => (fst x, dedup (snd x)) :: rd_from x l end.
(** inverted_index, cbc.py:695-701: element -> cluster numbers *)
Definition inverted_index (L : list scored) : dict pystr (list nat) :=
  fold_left (fun d ic => fold_left (fun d e => let s := match dget d e with Some s => s | None => [] end in
                                               dset d e (if mem (fst ic) s then s else s ++ [fst ic])) (snd (snd ic)) d) (enumerate L) [].
(** remove_singleton, cbc.py:661-669 *)
Definition remove_singleton (singles : list pystr) (invidx : dict pystr (list nat)) : list pystr := filter (fun e => negb (dmem invidx e)) singles.
(** remove_superset, cbc.py:672-692 *)
Definition common (invidx : dict pystr (list nat)) (clust : list pystr) : option (list nat) :=
  fold_left (fun acc e => let ix := match dget invidx e with Some s => s | None => [] end in
                          Some (match acc with None => ix | Some a => filter (fun c => mem c ix) a end)) clust None.
Definition superclusters (clusters : list scored) (invidx : dict pystr (list nat)) : list nat :=
  flat_map (fun ic => match common invidx (snd (snd ic)) with None => [] | Some a => filter (fun c => negb (c =? fst ic)) a end) (enumerate clusters).
Definition remove_superset (clusters : list scored) (invidx : dict pystr (list nat)) : list scored :=
  map snd (filter (fun ic => negb (mem (fst ic) (superclusters clusters invidx))) (enumerate clusters)).
(** clean_clusters, cbc.py:593-640; sorted(reverse=True) keeps the order of equal scores. *)
Fixpoint take_while {A} (p : A -> bool) (l : list A) : list A := match l with [] => [] | x :: l' => if p x then x :: take_while p l' else [] end.
Fixpoint drop_while {A} (p : A -> bool) (l : list A) : list A := match l with [] => [] | x :: l' => if p x then drop_while p l' else l end.
Definition clean_clusters (L : list scored) : list scored * list pystr :=
  let sortedL := isort (fun a b => Qle_bool (fst b) (fst a)) L in
  let clusters := take_while (fun x => qlt 0 (fst x)) sortedL in
  let singletons := drop_while (fun x => qlt 0 (fst x)) sortedL in
  let sgleles := dedup (flat_map (fun x => firstn 1 (snd x)) singletons) in
  let diffL := remove_duplicate clusters in
  let invidx := inverted_index diffL in
  (remove_superset diffL invidx, remove_singleton sgleles invidx).

(** get_merged_committee, cbc.py:546-590; [argsort]: the sorted positions of a row.  The positions are tried from the last
    but one down to the second. *)
Definition cell (simmx : list (list Q)) (i j : nat) : Q := nth j (nth i simmx []) 0%Q.
Definition gm_step (argsort : list Q -> list nat) (simmx : list (list Q)) (theta : Q) (st : list (nat * option nat) * list nat) (i : nat)
  : list (nat * option nat) * list nat :=
  let '(mergecomms, merged) := st in
  if mem i merged then st else
  match find (fun t => (i <? t) && negb (mem t merged)) (rev (removelast (tl (argsort (nth i simmx []))))) with
  | None => (mergecomms ++ [(i, None)], merged)
  | Some idx => if qlt (cell simmx i idx) theta then (mergecomms ++ [(i, None)], merged)
                else (mergecomms ++ [(i, Some idx)], merged ++ [idx])
  end.
Definition get_merged_committee (argsort : list Q -> list nat) (simmx : list (list Q)) (theta : Q) : list (nat * option nat) :=
  fst (fold_left (gm_step argsort simmx theta) (seq 0 (length simmx)) ([], [])).

(** numpy.argmax: the first largest *)
Fixpoint argmax_from (best : nat) (v : Q) (i : nat) (l : list Q) : nat :=
  match l with [] => best | x :: l' => if qlt v x then argmax_from i x (S i) l' else argmax_from best v (S i) l' end.
Definition argmax (l : list Q) : nat := match l with [] => 0 | x :: l' => argmax_from 0 x 1 l' end.

Section Step23.
  Variable argsort : list Q -> list nat.
  (** Cosine similarity of two committee vectors, and of an element's measure vector and a committee vector.  A
      committee vector depends on the frequency vectors of its elements and of all rows of the matrix. *)
  Variable csim : list pystr -> list pystr -> list pystr -> Q.
  Variable esim : list pystr -> pystr -> list pystr -> Q.
  (** The row items of the frequency and measure matrices *)
  Variable rows : list pystr.
  Definition row_names (ids : list nat) : res (list pystr) :=
    rmapm (fun i => match nth_error rows i with Some x => Ok x | None => Err IndexError end) ids.
  Definition extend (l : list (list nat)) (i : nat) (x : nat) : list (list nat) :=
    map (fun jc => if fst jc =? i then snd jc ++ [x] else snd jc) (enumerate l).
  (** cbc_step2, cbc.py:449-543: the committees as elements, and as the names of the matrix rows they are computed from.
      For an empty L it returns L, which cannot be unpacked (260); cosine_similarity of no committees is a
      ValueError. *)
  Definition e_ids (elements : list pystr) : dict pystr nat := dict_of (combine elements (seq 0 (length elements))).
  Definition to_ids (elements : list pystr) (c : list pystr) : res (list nat) :=
    rmap (isort Nat.leb) (rmapm (fun e => match dget (e_ids elements) e with Some i => Ok i | None => Err KeyError end) c).
  Definition merge_ids (idxcomms : list (list nat)) (ij : nat * option nat) : list nat :=
    isort Nat.leb (dedup (nth (fst ij) idxcomms [] ++ match snd ij with Some j => nth j idxcomms [] | None => [] end)).
  Definition simmx_of (names : list (list pystr)) : list (list Q) := map (fun a => map (csim rows a) names) names.
  Definition add_singletons (theta : Q) (names : list (list pystr)) (mergecomms : list (list nat)) (sgl : list (nat * pystr)) : list (list nat) :=
    fold_left (fun mc sn => let row := map (esim rows (snd sn)) names in
                            let cid := argmax row in
                            if Qle_bool theta (nth cid row 0%Q) then extend mc cid (fst sn) else mc) sgl mergecomms.
  Definition cbc_step2 (L : list scored) (elements : list pystr) (theta : Q) : res (list (list pystr) * list (list pystr)) :=
    match L with
    | [] => Err ValueError
    | _ =>
        let '(committees, singletons) := clean_clusters L in
        rbind (rmapm (fun sc => to_ids elements (snd sc)) committees) (fun idxcomms =>
        rbind (rmapm row_names idxcomms) (fun names =>
        match idxcomms with
        | [] => Err ValueError
        | _ =>
            let mergecomms := map (merge_ids idxcomms) (get_merged_committee argsort (simmx_of names) theta) in
            rbind (rmapm row_names mergecomms) (fun mnames =>
            rbind (to_ids elements singletons) (fun sglidx =>
            rbind (row_names sglidx) (fun snames =>
            let full := map (isort Nat.leb) (add_singletons theta mnames mergecomms (combine sglidx snames)) in
            rbind (rmapm row_names full) (fun cnames =>
            rmap (fun comms => (comms, cnames))
                 (rmapm (rmapm (fun i => match nth_error elements i with Some x => Ok x | None => Err IndexError end)) full)))))
        end))
    end.

  (** cbc_step3, cbc.py:798-844: residues and committees with the assigned elements; commx is given by the names of its
      committees *)
  Definition assign (comms : list (list pystr)) (c : nat) (e : pystr) : list (list pystr) :=
    map (fun jc => if (fst jc =? c) && negb (mem e (snd jc)) then snd jc ++ [e] else snd jc) (enumerate comms).
  Definition s3_step (elements : list pystr) (commx : list (list pystr)) (theta : Q) (st : list pystr * list (list pystr)) (ir : nat * pystr)
    : res (list pystr * list (list pystr)) :=
    let row := map (esim rows (snd ir)) commx in
    match nth_error elements (fst ir) with
    | None => Err IndexError
    | Some e => if existsb (fun s => Qle_bool theta s) row then Ok (fst st, assign (snd st) (argmax row) e) else Ok (fst st ++ [e], snd st)
    end.
  Definition cbc_step3 (elements : list pystr) (comms commx : list (list pystr)) (theta : Q) : res (list pystr * list (list pystr)) :=
    match commx with
    | [] => Err ValueError
    | _ => rfold (s3_step elements commx theta) (enumerate rows) ([], comms)
    end.
End Step23.

(** major_steps, cbc.py:219-287, for the clusters L found by step 1: committees and residues.  The sub-matrices are taken only
    when eles differs from cbc.elements; [mxrows]: the row items of the matrices.  submatrix keeps the items that are rows; without
    any it returns None, which has no attribute matrix (260).  The committees extended by step 3 are not returned. *)
Definition major_rows (mxrows elements eles : list pystr) : res (list pystr) :=
  if eqb elements eles then Ok mxrows else match filter (fun e => mem e mxrows) eles with [] => Err AttributeError | rows => Ok rows end.
Definition major_steps (argsort : list Q -> list nat) (csim : list pystr -> list pystr -> list pystr -> Q) (esim : list pystr -> pystr -> list pystr -> Q)
  (mxrows elements : list pystr) (theta1 theta2 : Q) (L : list scored) (eles : list pystr) : res (list (list pystr) * list pystr) :=
  rbind (major_rows mxrows elements eles) (fun rows =>
  rbind (cbc_step2 argsort csim esim rows L eles theta1) (fun cc =>
  match fst cc with
  | [] => Ok ([], eles)
  | _ => rmap (fun rc => (fst cc, fst rc)) (cbc_step3 esim rows eles (fst cc) (snd cc) theta2)
  end)).

(** CBC.cluster, cbc.py:148-216: the loop.  [step i] is major_steps in the i-th recursion; its exceptions are logged. *)
Section Cluster.
  Context {C : Type}.
  Variable step : nat -> list pystr -> res (list C * list pystr).
  Fixpoint cluster_from (fuel i : nat) (residues : list pystr) (Cs : list (list C)) (Rs : list (list pystr)) : list (list C) * list (list pystr) :=
    match fuel with
    | O => (Cs, Rs)
    | S f =>
        match residues with
        | [] => (Cs, Rs)
        | _ =>
            let '(curC, curR) := match step i residues with Ok r => r | Err _ => ([], []) end in
            let Cs := Cs ++ [curC] in let Rs := Rs ++ [curR] in
            if length curR <=? 2 then (Cs, Rs)
            else if length curR =? length residues then (Cs, Rs)
            else cluster_from f (S i) curR Cs Rs
        end
    end.
  Definition cluster (num_iter : nat) (elements : list pystr) (num_eles : Z) : list (list C) * list (list pystr) :=
    cluster_from num_iter 1 (if (0 <? num_eles)%Z then firstn (Z.to_nat num_eles) elements else elements) [] [].
End Cluster.
