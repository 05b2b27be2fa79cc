(** * Claims about similarities, ranks, token weights and token vectors (C41-C45, C81-C83). *)
From Coq Require Import String NArith ZArith Bool Arith Reals Lra Lia Psatz Permutation List.
From Verif Require Import Base BaseLemmas Str StrLemmas VocabModel MxModel MxSpec MxProofs MxTtmProofs MxOpsProofs MxElemProofs MxCellProofs CalcModel CalcProofs CalcVecModel CalcVecSpec CalcVecProofs CalcVecProofs2.
Import ListNotations.
Local Open Scope R_scope.

(** Closes [tgood] of a concrete matrix *)
Ltac good := constructor; cbn; [repeat constructor; cbn; intuition (try discriminate; try lia)|reflexivity|reflexivity|repeat constructor; cbn; intuition discriminate|repeat constructor; cbn; intuition discriminate].

(** Equality of concrete vectors *)
Ltac cellv := unfold weighted_sum; repeat match goal with |- context [map ?f (tcols ?m)] => let l := eval hnf in (tcols m) in change (tcols m) with l; cbn [map] end; unfold val; repeat match goal with |- context [index_of ?x ?l] => let r := eval vm_compute in (index_of x l) in change (index_of x l) with r end; cbn.
Ltac vec := cbn; cellv; repeat match goal with |- _ :: _ = _ :: _ => apply f_equal2; [lra|] end; reflexivity.

(** ** C41: similarity ranks *)
Theorem C41_ranks : forall (reverse : bool) (a : dense) (n : nat) (ranks : list (list nat)), Forall (fun row => length row = n) a -> compute_simrank reverse a n ranks ->
  length ranks = length a /\
  forall i, (i < length a)%nat -> Permutation (nth i ranks []) (seq 1 n) /\
    forall j k, (j < n)%nat -> (k < n)%nat -> cell a i k < cell a i j ->
      if reverse then (nth k (nth i ranks []) 0 < nth j (nth i ranks []) 0)%nat else (nth j (nth i ranks []) 0 < nth k (nth i ranks []) 0)%nat.
Proof. exact simrank_ok. Qed.
Print Assumptions C41_ranks.
Theorem C41_always_answers : forall (reverse : bool) (a : dense) (n : nat), exists ranks, compute_simrank reverse a n ranks.
Proof. exact simrank_exists. Qed.
Print Assumptions C41_always_answers.
Definition ex_sim : dense := [[1; 1/2; 3/4]; [1/2; 1; 0]].
Example C41_ex : Forall (fun row => length row = 3%nat) ex_sim /\ compute_simrank false ex_sim 3 [[1; 3; 2]; [2; 1; 3]]%nat /\ compute_simrank true ex_sim 3 [[3; 1; 2]; [2; 3; 1]]%nat.
Proof.
  split; [repeat constructor|]. split.
  - exists [[0; 2; 1]; [1; 0; 2]]%nat. split; [|reflexivity]. (constructor; [split|constructor; [split|constructor]]); cbn.
    + apply perm_skip, perm_swap.
    + intros x y (A & B). assert (x = 0 /\ y = 1 \/ x = 0 /\ y = 2 \/ x = 1 /\ y = 2)%nat as [(-> & ->)|[(-> & ->)|(-> & ->)]] by lia; cbn; lra.
    + apply perm_swap.
    + intros x y (A & B). assert (x = 0 /\ y = 1 \/ x = 0 /\ y = 2 \/ x = 1 /\ y = 2)%nat as [(-> & ->)|[(-> & ->)|(-> & ->)]] by lia; cbn; lra.
  - exists [[1; 2; 0]; [2; 0; 1]]%nat. split; [|reflexivity]. (constructor; [split|constructor; [split|constructor]]); cbn.
    + apply Permutation_sym. apply (Permutation_cons_append [1; 2]%nat 0%nat).
    + intros x y (A & B). assert (x = 0 /\ y = 1 \/ x = 0 /\ y = 2 \/ x = 1 /\ y = 2)%nat as [(-> & ->)|[(-> & ->)|(-> & ->)]] by lia; cbn; lra.
    + apply (Permutation_cons_append [0; 1]%nat 2%nat).
    + intros x y (A & B). assert (x = 0 /\ y = 1 \/ x = 0 /\ y = 2 \/ x = 1 /\ y = 2)%nat as [(-> & ->)|[(-> & ->)|(-> & ->)]] by lia; cbn; lra.
Qed.

(** ** C81: documentation of reverse: "True: the rank 1 represents the most similar one of that row" *)
Definition reverse_doc : Prop := forall a n ranks, Forall (fun row => length row = n) a -> compute_simrank true a n ranks ->
  forall i j k, (i < length a)%nat -> (j < n)%nat -> (k < n)%nat -> nth j (nth i ranks []) 0%nat = 1%nat -> cell a i k <= cell a i j.
Theorem C81_reverse_refuted : ~ reverse_doc.
Proof.
  intros H. destruct C41_ex as (A & _ & B). specialize (H _ _ _ A B 0 1 0)%nat. cbn in H. assert (1 <= 1 / 2) by (apply H; auto; lia). lra.
Qed.
Print Assumptions C81_reverse_refuted.
(** What holds: rank 1 is given to a least similar item of the row; it does so with reverse=False to a most similar one. *)
Theorem C81_rank_one : forall reverse a n ranks, Forall (fun row => length row = n) a -> compute_simrank reverse a n ranks ->
  forall i j k, (i < length a)%nat -> (j < n)%nat -> (k < n)%nat -> nth j (nth i ranks []) 0%nat = 1%nat -> if reverse then cell a i j <= cell a i k else cell a i k <= cell a i j.
Proof.
  intros reverse a n ranks F S i j k Li Lj Lk E. destruct (simrank_ok _ _ _ _ F S) as (L & H). destruct (H i Li) as (P & O).
  assert (G : (1 <= nth k (nth i ranks []) 0)%nat). { assert (I : In (nth k (nth i ranks []) 0%nat) (nth i ranks [])) by (apply nth_In; rewrite (Permutation_length P), seq_length; lia). apply (Permutation_in _ P), in_seq in I. lia. }
  destruct reverse; apply Rnot_lt_le; intros Lt; [specialize (O j k Lj Lk Lt)|specialize (O k j Lk Lj Lt)]; cbn in O; lia.
Qed.
Print Assumptions C81_rank_one.

(** ** C42: cosine similarity *)
Theorem C42_cosine : forall (m : ttm R) (axis : Z), tgood m -> trows m <> [] -> tcols m <> [] -> axis = 0%Z \/ axis = 1%Z -> let items := axis_items m axis in
  exists a, compute_cosine m axis = Ok (a, items) /\ shape (length items) (length items) a /\
    forall x y, In x items -> In y items -> sim_of (a, items) x y = if eqb x y then 1 else cos_of (axis_vec m axis x) (axis_vec m axis y).
Proof. exact compute_cosine_ok. Qed.
Print Assumptions C42_cosine.
Theorem C42_symmetric_bounded : forall (m : ttm R) (axis : Z) s, tgood m -> compute_cosine m axis = Ok s ->
  forall x y, In x (snd s) -> In y (snd s) -> sim_of s x y = sim_of s y x /\ -1 <= sim_of s x y <= 1 /\ sim_of s x x = 1.
Proof.
  intros m axis s G E x y Ix Iy. assert (A : axis = 0%Z \/ axis = 1%Z).
  { exact (proj1 (cosine_inv m axis s G E)). }
  destruct (cosine_inv m axis s G E) as (_ & NR & NC). destruct (compute_cosine_ok m axis G NR NC A) as (a & E' & _ & V). rewrite E in E'. inversion E'; subst s; clear E'. cbn [snd] in *. rewrite !V by assumption.
  rewrite eqb_refl. split; [|split; [|reflexivity]].
  - destruct (eqb x y) eqn:Q; [apply eqb_true in Q; subst; now rewrite eqb_refl|]. apply eqb_neq in Q. rewrite (proj2 (eqb_neq y x)) by congruence. apply cos_sym.
  - destruct (eqb x y); [lra|apply cos_bounds].
Qed.
Print Assumptions C42_symmetric_bounded.
Theorem C42_scaling : forall (m m2 : ttm R) (axis : Z) s s2, tgood m -> tgood m2 -> axis_items m2 axis = axis_items m axis ->
  (forall x, In x (axis_items m axis) -> exists k, 0 < k /\ axis_vec m2 axis x = map (fun v => k * v) (axis_vec m axis x)) ->
  compute_cosine m axis = Ok s -> compute_cosine m2 axis = Ok s2 -> snd s2 = snd s /\ forall x y, In x (snd s) -> In y (snd s) -> sim_of s2 x y = sim_of s x y.
Proof.
  intros m m2 axis s s2 G G2 EI K E E2. assert (A : axis = 0%Z \/ axis = 1%Z).
  { exact (proj1 (cosine_inv m axis s G E)). }
  destruct (cosine_inv m axis s G E) as (_ & NR & NC). destruct (compute_cosine_ok m axis G NR NC A) as (a & E' & _ & V). destruct (cosine_inv m2 axis s2 G2 E2) as (_ & NR2 & NC2). destruct (compute_cosine_ok m2 axis G2 NR2 NC2 A) as (a2 & E2' & _ & V2). rewrite E in E'. rewrite E2 in E2'. inversion E'. inversion E2'. subst s s2. cbn [snd].
  split; [exact EI|]. intros x y Ix Iy. rewrite V by assumption. rewrite V2 by now rewrite EI. destruct (eqb x y); [reflexivity|].
  destruct (K x Ix) as (k & Pk & ->). destruct (K y Iy) as (k' & Pk' & ->). rewrite cos_scale by assumption. rewrite cos_sym, cos_scale by assumption. apply cos_sym.
Qed.
Print Assumptions C42_scaling.
(** Similarity 1 between different items means that their vectors, unless zero, are positive multiples of each other. *)
Theorem C42_one : forall (m : ttm R) (axis : Z) s, tgood m -> compute_cosine m axis = Ok s -> forall x y, In x (snd s) -> In y (snd s) -> x <> y ->
  (sim_of s x y = 1 <-> (exists v, In v (axis_vec m axis x) /\ v <> 0) /\ exists k, 0 < k /\ axis_vec m axis y = map (fun v => k * v) (axis_vec m axis x)).
Proof.
  intros m axis s G E x y Ix Iy N. assert (A : axis = 0%Z \/ axis = 1%Z).
  { exact (proj1 (cosine_inv m axis s G E)). }
  destruct (cosine_inv m axis s G E) as (_ & NR & NC). destruct (compute_cosine_ok m axis G NR NC A) as (a & E' & _ & V). rewrite E in E'. inversion E'; subst s; clear E'. cbn [snd] in *. rewrite V by assumption. rewrite (proj2 (eqb_neq x y) N).
  assert (L : length (axis_vec m axis x) = length (axis_vec m axis y)) by (unfold axis_vec, row_vec, col_vec; destruct (axis =? 0)%Z; now rewrite !map_length).
  set (p := axis_vec m axis x) in *. set (q := axis_vec m axis y) in *. split.
  - intros C. destruct (Req_EM_T (norm2 p) 0) as [Z|Np]; [unfold cos_of in C; destruct (Req_EM_T (norm2 p) 0); [lra|contradiction]|].
    destruct (Req_EM_T (norm2 q) 0) as [Z|Nq]; [rewrite cos_sym in C; unfold cos_of in C; destruct (Req_EM_T (norm2 q) 0); [lra|contradiction]|].
    split; [|now apply cos_one]. destruct (Exists_dec (fun v => v <> 0) p) as [X|X]; [intros v; destruct (Req_EM_T v 0); [right|left]; tauto|now apply Exists_exists|].
    exfalso. apply Np, norm2_zero_iff, Forall_forall. intros v I. destruct (Req_EM_T v 0); [assumption|]. exfalso. apply X, Exists_exists. eauto.
  - intros ((v & I & Nv) & k & K & ->). assert (Np : norm2 p <> 0) by (intros Z; apply norm2_zero_iff in Z; rewrite Forall_forall in Z; now apply Nv, Z). rewrite cos_sym, cos_scale by assumption. now apply cos_self.
Qed.
Print Assumptions C42_one.
Theorem C42_axis : forall (m : ttm R) (axis : Z), axis <> 0%Z -> axis <> 1%Z -> compute_cosine m axis = Err ValueError.
Proof. intros m axis A B. unfold compute_cosine, by_axis. apply Z.eqb_neq in A, B. now rewrite A, B. Qed.
Print Assumptions C42_axis.
(** A matrix without rows or without columns has no similarities, not even empty ones. *)
Theorem C42_no_cells : forall (m : ttm R) (axis : Z), tgood m -> trows m = [] \/ tcols m = [] -> compute_cosine m axis = Err ValueError.
Proof. exact cosine_empty. Qed.
Print Assumptions C42_no_cells.
Example C42_ex_no_cells : tgood (Ttm (Sp Csr [] 2) [] [u "x"; u "y"] : ttm R) /\ compute_cosine (Ttm (Sp Csr [] 2) [] [u "x"; u "y"]) 1 = Err ValueError.
Proof. split; [good|reflexivity]. Qed.
Definition ex_v : ttm R := Ttm (Sp Csr [[(0%nat, 3); (1%nat, 4)]; [(0%nat, 6); (1%nat, 8)]; []; [(1%nat, 2)]] 2) [u "a"; u "b"; u "c"; u "d"] [u "x"; u "y"].
Lemma ex_v_good : tgood ex_v. Proof. good. Qed.
Example C42_ex : exists s, compute_cosine ex_v 0 = Ok s /\ sim_of s (u "a") (u "b") = 1 /\ sim_of s (u "a") (u "c") = 0 /\ sim_of s (u "c") (u "c") = 1 /\ sim_of s (u "a") (u "d") = 4 / 5.
Proof.
  destruct (C42_cosine ex_v 0 ex_v_good ltac:(discriminate) ltac:(discriminate) (or_introl eq_refl)) as (a & E & _ & V). exists (a, trows ex_v). split; [exact E|]. change (axis_items ex_v 0) with (trows ex_v) in V.
  assert (Va : axis_vec ex_v 0 (u "a") = [3; 4]) by vec. assert (Vb : axis_vec ex_v 0 (u "b") = [6; 8]) by vec.
  assert (Vd : axis_vec ex_v 0 (u "d") = [0; 2]) by vec. assert (Vc : axis_vec ex_v 0 (u "c") = [0; 0]) by reflexivity.
  assert (Na : norm2 [3; 4] = 5) by (unfold norm2; rewrite !dot_cons; unfold dot; cbn [combine map sumr fold_right]; replace (3 * 3 + (4 * 4 + 0)) with (5 * 5) by lra; apply sqrt_square; lra).
  assert (Nd : norm2 [0; 2] = 2) by (unfold norm2; rewrite !dot_cons; unfold dot; cbn [combine map sumr fold_right]; replace (0 * 0 + (2 * 2 + 0)) with (2 * 2) by lra; apply sqrt_square; lra).
  rewrite !V by (cbn; tauto). rewrite Va, Vb, Vc, Vd. split; [|split; [|split; [reflexivity|]]].
  - cbn [eqb]. change (eqb (u "a") (u "b")) with false. cbn iota. apply cos_one; [reflexivity|rewrite Na; lra| |exists 2; split; [lra|vec]].
    intros Z. apply norm2_zero_iff in Z. inversion Z. lra.
  - change (eqb (u "a") (u "c")) with false. cbn iota. rewrite cos_sym. unfold cos_of. destruct (Req_EM_T (norm2 [0; 0]) 0) as [|N]; [reflexivity|]. exfalso. apply N, norm2_zero_iff. repeat constructor.
  - change (eqb (u "a") (u "d")) with false. cbn iota. unfold cos_of. rewrite Na, Nd. destruct (Req_EM_T 5 0); [lra|]. destruct (Req_EM_T 2 0); [lra|]. rewrite !dot_cons. unfold dot. cbn [combine map sumr fold_right]. lra.
Qed.

(** ** C83: cosine distance *)
Theorem C83_distance : forall other (m : ttm R) (axis : Z), tgood m -> trows m <> [] -> tcols m <> [] -> axis = 0%Z \/ axis = 1%Z -> let items := axis_items m axis in
  exists a d, compute_cosine m axis = Ok (a, items) /\ compute_distance other m axis (u "cosine") = Ok (d, items) /\ shape (length items) (length items) d /\
    forall x y, In x items -> In y items -> sim_of (d, items) x y = 1 - sim_of (a, items) x y.
Proof. exact compute_distance_ok. Qed.
Print Assumptions C83_distance.
Theorem C83_range : forall other (m : ttm R) (axis : Z) d, tgood m -> compute_distance other m axis (u "cosine") = Ok d ->
  forall x y, In x (snd d) -> In y (snd d) -> 0 <= sim_of d x y <= 2 /\ sim_of d x y = sim_of d y x /\ sim_of d x x = 0.
Proof.
  intros other m axis d G E x y Ix Iy. assert (A : axis = 0%Z \/ axis = 1%Z).
  { exact (proj1 (distance_inv other m axis d G E)). }
  destruct (distance_inv other m axis d G E) as (_ & NR & NC). destruct (compute_distance_ok other m axis G NR NC A) as (a & d' & EC & ED & _ & V). rewrite E in ED. inversion ED; subst d; clear ED. cbn [snd] in *. rewrite !V by assumption.
  destruct (C42_symmetric_bounded m axis _ G EC x y Ix Iy) as (S & B & D). rewrite D, S in *. repeat split; lra.
Qed.
Print Assumptions C83_range.
Theorem C83_unknown_metric : forall other (m : ttm R) (axis : Z) metric, ~ In metric [u "cosine"; u "cos"; u "euclidean"; u "cityblock"; u "manhattan"; u "l1"; u "l2"] ->
  compute_distance other m axis metric = Err (if orb (axis =? 0)%Z (axis =? 1)%Z then NotImplementedError else ValueError).
Proof.
  intros other m axis metric N. apply mem_nIn in N. unfold compute_distance, by_axis, metrics. rewrite N. destruct (axis =? 0)%Z; [reflexivity|]. destruct (axis =? 1)%Z; reflexivity.
Qed.
Print Assumptions C83_unknown_metric.
Theorem C83_no_cells : forall other (m : ttm R) (axis : Z) metric, tgood m -> trows m = [] \/ tcols m = [] ->
  In metric [u "cosine"; u "cos"; u "euclidean"; u "cityblock"; u "manhattan"; u "l1"; u "l2"] -> compute_distance other m axis metric = Err ValueError.
Proof. exact distance_empty. Qed.
Print Assumptions C83_no_cells.
Example C83_ex_no_cells : tgood (Ttm (Sp Csr [[]; []] 0) [u "x"; u "y"] [] : ttm R) /\ compute_distance (fun _ _ => Err ValueError) (Ttm (Sp Csr [[]; []] 0) [u "x"; u "y"] []) 0 (u "l1") = Err ValueError.
Proof. split; [good|apply C83_no_cells; [good|now right|cbn; tauto]]. Qed.
Example C83_ex : exists d, compute_distance (fun _ _ => Err ValueError) ex_v 0 (u "cosine") = Ok d /\ sim_of d (u "a") (u "b") = 0 /\ sim_of d (u "a") (u "d") = 1 / 5.
Proof.
  destruct (C83_distance (fun _ _ => Err ValueError) ex_v 0 ex_v_good ltac:(discriminate) ltac:(discriminate) (or_introl eq_refl)) as (a & d & EC & ED & _ & V). exists (d, axis_items ex_v 0). split; [exact ED|].
  destruct C42_ex as (s & E & A & _ & _ & B). rewrite EC in E. inversion E; subst s. rewrite !V by (cbn; tauto). rewrite A, B. split; lra.
Qed.

(** ** C43: token weights *)
(** The weight of the token's own type, for tokens lemma/pos/... whose lemma and part of speech have no slash. *)
Theorem C43_weights_partial : forall (pos tw : ttm R) (booleanize : bool), tgood pos -> tgood tw -> tcols pos = tcols tw ->
  exists m', compute_token_weights pos tw booleanize (u "lemma/pos") = Ok m' /\ tgood m' /\ trows m' = trows pos /\ tcols m' = tcols pos /\
  forall l p rest c, ~ In slash l -> ~ In slash p -> In c (tcols pos) -> let t := l ++ slash :: p ++ slash :: rest in In t (trows pos) ->
    val m' t c = masked booleanize (val pos t c) (val tw (l ++ slash :: p) c).
Proof.
  intros pos tw b G1 G2 EC. destruct (token_weights_ok pos tw b (u "lemma/pos") G1 G2 EC) as (m' & A & B & C & D & V). exists m'. repeat (split; [assumption|]).
  intros l p rest c N1 N2 Ic t It. rewrite V by assumption. unfold t. now rewrite type_of_lemma_pos.
Qed.
Print Assumptions C43_weights_partial.
Theorem C43_lemma_only : forall (pos tw : ttm R) (booleanize : bool) fmt, fmt <> u "lemma/pos" -> tgood pos -> tgood tw -> tcols pos = tcols tw ->
  exists m', compute_token_weights pos tw booleanize fmt = Ok m' /\ tgood m' /\ trows m' = trows pos /\ tcols m' = tcols pos /\
  forall l rest c, ~ In slash l -> In c (tcols pos) -> let t := l ++ slash :: rest in In t (trows pos) ->
    val m' t c = masked booleanize (val pos t c) (val tw l c).
Proof.
  intros pos tw b fmt NF G1 G2 EC. destruct (token_weights_ok pos tw b fmt G1 G2 EC) as (m' & A & B & C & D & V). exists m'. repeat (split; [assumption|]).
  intros l rest c N1 Ic t It. rewrite V by assumption. unfold t. now rewrite type_of_lemma.
Qed.
Print Assumptions C43_lemma_only.
Theorem C43_columns_differ : forall (pos tw : ttm R) booleanize fmt, tcols pos <> tcols tw -> compute_token_weights pos tw booleanize fmt = Err ValueError.
Proof. intros pos tw b fmt N. unfold compute_token_weights. now rewrite (proj2 (eqb_neq _ _) N). Qed.
Print Assumptions C43_columns_differ.
(** The wish: a token string is its type followed by file name and line number, whatever the type. *)
Definition own_type_weights : Prop := forall (pos tw : ttm R), tgood pos -> tgood tw -> tcols pos = tcols tw ->
  exists m', compute_token_weights pos tw true (u "lemma/pos") = Ok m' /\
  forall type fname line c, ~ In slash fname -> ~ In slash line -> In c (tcols pos) -> let t := type ++ slash :: fname ++ slash :: line in In t (trows pos) -> In type (trows tw) ->
    val m' t c = masked true (val pos t c) (val tw type c).
Definition ex_pos : ttm R := Ttm (Sp Csr [[(0%nat, 1)]; [(0%nat, 2); (1%nat, 5)]] 2) [u "and/or/CC/f/1"; u "run/V/f/2"] [u "x"; u "y"].
Definition ex_tw : ttm R := Ttm (Sp Csr [[(0%nat, 3)]; [(0%nat, 4); (1%nat, 7)]] 2) [u "and/or/CC"; u "run/V"] [u "x"; u "y"].
Lemma ex_pos_good : tgood ex_pos. Proof. good. Qed.
Lemma ex_tw_good : tgood ex_tw. Proof. good. Qed.
Theorem C43_own_type_refuted : ~ own_type_weights.
Proof.
  intros H. destruct (H ex_pos ex_tw ex_pos_good ex_tw_good eq_refl) as (m' & E & V).
  destruct (token_weights_ok ex_pos ex_tw true (u "lemma/pos") ex_pos_good ex_tw_good eq_refl) as (m2 & E2 & _ & _ & _ & V2). rewrite E in E2. inversion E2; subst m2.
  specialize (V (u "and/or/CC") (u "f") (u "1") (u "x")). specialize (V2 (u "and/or/CC/f/1") (u "x")). cbv zeta in V.
  change (u "and/or/CC" ++ slash :: u "f" ++ slash :: u "1") with (u "and/or/CC/f/1") in V. rewrite V2 in V by (cbn; tauto).
  assert (A : val ex_pos (u "and/or/CC/f/1") (u "x") = 1) by (cellv; lra). assert (B : val ex_tw (u "and/or/CC") (u "x") = 3) by (cellv; lra). assert (C : val ex_tw (type_of (u "lemma/pos") (u "and/or/CC/f/1")) (u "x") = 0) by reflexivity.
  rewrite A, B, C in V. unfold masked in V. destruct (Req_EM_T 1 0); [lra|]. assert (0 = 3); [|lra]. apply V; cbn; intuition discriminate.
Qed.
Print Assumptions C43_own_type_refuted.
Example C43_ex : exists m', compute_token_weights ex_pos ex_tw true (u "lemma/pos") = Ok m' /\ val m' (u "run/V/f/2") (u "x") = 4 /\ val m' (u "run/V/f/2") (u "y") = 7.
Proof.
  destruct (C43_weights_partial ex_pos ex_tw true ex_pos_good ex_tw_good eq_refl) as (m' & E & _ & _ & _ & V). exists m'. split; [exact E|].
  assert (A : val ex_pos (u "run/V/f/2") (u "x") = 2) by (cellv; lra). assert (B : val ex_pos (u "run/V/f/2") (u "y") = 5) by (cellv; lra).
  assert (C : val ex_tw (u "run/V") (u "x") = 4) by (cellv; lra). assert (D : val ex_tw (u "run/V") (u "y") = 7) by (cellv; lra).
  pose proof (V (u "run") (u "V") (u "f/2") (u "x")) as V1. pose proof (V (u "run") (u "V") (u "f/2") (u "y")) as V2. cbv zeta in V1, V2.
  change (u "run" ++ slash :: u "V" ++ slash :: u "f/2") with (u "run/V/f/2") in V1, V2. change (u "run" ++ slash :: u "V") with (u "run/V") in V1, V2.
  rewrite A, C in V1. rewrite B, D in V2. unfold masked in V1, V2. destruct (Req_EM_T 2 0); [lra|]. destruct (Req_EM_T 5 0); [lra|]. split; [apply V1|apply V2]; cbn; intuition discriminate.
Qed.

(** ** C44: token vectors by addition *)
Theorem C44_addition : forall (w soc : ttm R) normalization, tgood w -> tgood soc -> (forall x, In x (tcols w) <-> In x (trows soc)) ->
  In normalization [u "no"; u "l1"; u "l2"; u "max"] -> normalization = u "no" \/ (trows w <> [] /\ tcols soc <> []) -> sfmt (tmx w) = Csr -> sfmt (tmx soc) = Csr ->
  exists m', compute_token_vectors w soc (u "addition") normalization = Ok m' /\ tgood m' /\ trows m' = trows w /\ tcols m' = tcols soc /\
    forall t f, In t (trows w) -> In f (tcols soc) -> val m' t f = norm_by normalization (map (weighted_sum w soc t) (tcols soc)) (weighted_sum w soc t f).
Proof. exact addition_ok. Qed.
Print Assumptions C44_addition.
(** The order of the rows of the second matrix does not matter. *)
Theorem C44_row_order : forall (w soc soc2 : ttm R) normalization m m2, tgood w -> tgood soc -> tgood soc2 -> sfmt (tmx w) = Csr -> sfmt (tmx soc) = Csr -> sfmt (tmx soc2) = Csr ->
  In normalization [u "no"; u "l1"; u "l2"; u "max"] ->
  Permutation (trows soc) (trows soc2) -> tcols soc = tcols soc2 -> (forall c f, val soc c f = val soc2 c f) ->
  compute_token_vectors w soc (u "addition") normalization = Ok m -> compute_token_vectors w soc2 (u "addition") normalization = Ok m2 ->
  trows m = trows m2 /\ tcols m = tcols m2 /\ forall t f, In t (trows m) -> In f (tcols m) -> val m t f = val m2 t f.
Proof.
  intros w soc soc2 nrm m m2 GW G1 G2 F0 F1 F2 IN P EC V E1 E2.
  assert (SS : forall x, In x (tcols w) <-> In x (trows soc)). { destruct (same_set (tcols w) (trows soc)) eqn:Q; [now apply same_set_ok|]. unfold compute_token_vectors in E1. rewrite Q in E1. discriminate. }
  assert (SS2 : forall x, In x (tcols w) <-> In x (trows soc2)) by (intros x; rewrite SS; split; apply Permutation_in; [assumption|now symmetry]).
  destruct (addition_ok w soc nrm GW G1 SS IN (vectors_inv _ _ _ _ _ GW G1 E1) F0 F1) as (a & A1 & _ & A2 & A3 & A4). destruct (addition_ok w soc2 nrm GW G2 SS2 IN (vectors_inv _ _ _ _ _ GW G2 E2) F0 F2) as (b & B1 & _ & B2 & B3 & B4).
  rewrite E1 in A1. rewrite E2 in B1. inversion A1. inversion B1. subst a b. rewrite A2, A3, B2, B3. split; [reflexivity|]. split; [assumption|]. intros t f It If. rewrite A4 by assumption. rewrite B4 by now rewrite <- ?EC.
  assert (W : forall f, weighted_sum w soc t f = weighted_sum w soc2 t f) by (intros; unfold weighted_sum; f_equal; apply map_ext; intros; now rewrite V).
  rewrite <- EC, W. f_equal. apply map_ext. exact W.
Qed.
Print Assumptions C44_row_order.
(** With l1 normalisation the absolute values of each row add up to 1, unless the row is zero. *)
Theorem C44_l1_unit : forall (w soc : ttm R) operation m, tgood w -> tgood soc -> compute_token_vectors w soc operation (u "l1") = Ok m ->
  forall t, In t (trows m) -> sumr (map (fun f => Rabs (val m t f)) (tcols m)) = 1 \/ forall f, val m t f = 0.
Proof.
  intros w soc op m GW GS E t It.
  assert (SS : forall x, In x (tcols w) <-> In x (trows soc)). { destruct (same_set (tcols w) (trows soc)) eqn:Q; [now apply same_set_ok|]. unfold compute_token_vectors in E. rewrite Q in E. discriminate. }
  assert (X : exists g, trows m = trows w /\ tcols m = tcols soc /\ forall t f, In t (trows w) -> In f (tcols soc) -> val m t f = norm_by (u "l1") (map (g t) (tcols soc)) (g t f)).
  { assert (IN : In (u "l1") [u "no"; u "l1"; u "l2"; u "max"]) by (right; now left). destruct (in_dec eqdec op [u "addition"; u "weightedmean"; u "multiplication"]) as [I|N]; [|rewrite vectors_unknown_op in E by assumption; discriminate].
    destruct I as [<-|[<-|[<-|[]]]].
    - assert (F : sfmt (tmx w) = Csr /\ sfmt (tmx soc) = Csr). { destruct (sfmt (tmx w)) eqn:F1; [destruct (sfmt (tmx soc)) eqn:F2; [auto|]|]; rewrite addition_csc in E; auto; discriminate. }
      destruct (addition_ok w soc (u "l1") GW GS SS IN (vectors_inv _ _ _ _ _ GW GS E) (proj1 F) (proj2 F)) as (a & A1 & _ & A). rewrite E in A1. inversion A1; subst. eexists. exact A.
    - destruct (weighted_mean_ok w soc (u "l1") GW GS SS IN (vectors_inv _ _ _ _ _ GW GS E)) as (a & A1 & _ & A). rewrite E in A1. inversion A1; subst. eexists. exact A.
    - destruct (multiplication_ok w soc (u "l1") GW GS SS IN (vectors_inv _ _ _ _ _ GW GS E)) as (a & A1 & _ & A). rewrite E in A1. inversion A1; subst. eexists. exact A. }
  destruct X as (g & ER & EC & V). rewrite ER in It. rewrite EC. unfold norm_by in V. change (eqb (u "l1") (u "no")) with false in V. cbn iota in V.
  set (n := vec_norm (u "l1") (map (g t) (tcols soc))). assert (EN : n = sumr (map Rabs (map (g t) (tcols soc)))) by reflexivity.
  assert (PN : 0 <= n). { rewrite EN. apply sumr_nonneg. intros x I. apply in_map_iff in I as (y & <- & _). apply Rabs_pos. }
  destruct (Req_EM_T n 0) as [Z|NZ].
  - right. intros f. destruct (in_dec eqdec f (tcols soc)) as [If|Nf]; [|refine (val_no_col m t f _); now rewrite EC]. rewrite V by assumption. fold n. destruct (Req_EM_T n 0); [|contradiction].
    assert (A : Rabs (g t f) = 0). { rewrite EN in Z. refine (sumr_nonneg_zero _ _ Z _ _); [intros x I; apply in_map_iff in I as (y & <- & _); apply Rabs_pos|apply in_map, in_map, If]. }
    destruct (Req_EM_T (g t f) 0); [assumption|]. now apply Rabs_no_R0 in A.
  - left. rewrite (map_ext_in _ (fun f => Rabs (g t f / n))). 2:{ intros f If. rewrite V by assumption. fold n. destruct (Req_EM_T n 0); [contradiction|reflexivity]. }
    rewrite <- (map_map (g t) (fun x => Rabs (x / n))). rewrite sumr_abs_div by assumption. rewrite <- EN. field. assumption.
Qed.
Print Assumptions C44_l1_unit.
(** Without tokens or features, normalisation fails. *)
Theorem C44_no_cells : forall (w soc : ttm R) operation normalization, tgood w -> tgood soc -> normalization <> u "no" -> trows w = [] \/ tcols soc = [] ->
  compute_token_vectors w soc operation normalization = Err ValueError \/
  (operation = u "addition" /\ compute_token_vectors w soc operation normalization = Err AssertionError).
Proof. exact vectors_empty. Qed.
Print Assumptions C44_no_cells.
Example C44_ex_no_cells : compute_token_vectors (Ttm (Sp Csr [] 1) [] [u "x"]) (Ttm (Sp Csr [[(0%nat, 1%R)]] 1) [u "x"] [u "f"]) (u "multiplication") (u "l2") = Err ValueError.
Proof. edestruct C44_no_cells as [E|(E & _)]; [| | | |exact E|discriminate]; [good|good|discriminate|now left]. Qed.
Theorem C44_mismatch : forall (w soc : ttm R) operation normalization, ~ (forall x, In x (tcols w) <-> In x (trows soc)) -> compute_token_vectors w soc operation normalization = Err ValueError.
Proof. exact vectors_mismatch. Qed.
Print Assumptions C44_mismatch.
Theorem C44_unknown_operation : forall (w soc : ttm R) operation normalization, tgood w -> tgood soc -> ~ In operation [u "addition"; u "weightedmean"; u "multiplication"] ->
  compute_token_vectors w soc operation normalization = Err ValueError.
Proof. exact vectors_unknown_op. Qed.
Print Assumptions C44_unknown_operation.
Theorem C44_unknown_normalization : forall (w soc : ttm R) operation normalization, tgood w -> tgood soc -> ~ In normalization [u "no"; u "l1"; u "l2"; u "max"] ->
  compute_token_vectors w soc operation normalization = Err ValueError \/ compute_token_vectors w soc operation normalization = Err AssertionError.
Proof. exact vectors_unknown_norm. Qed.
Print Assumptions C44_unknown_normalization.
(** A transposed matrix (csc) makes addition fail. *)
Theorem C44_csc : forall (w soc : ttm R) normalization, tgood w -> tgood soc -> sfmt (tmx w) = Csc \/ sfmt (tmx soc) = Csc -> (forall x, In x (tcols w) <-> In x (trows soc)) ->
  compute_token_vectors w soc (u "addition") normalization = Err AssertionError.
Proof. exact addition_csc. Qed.
Print Assumptions C44_csc.
Definition ex_w : ttm R := Ttm (Sp Csr [[(0%nat, 2); (1%nat, 1)]; [(1%nat, -1)]] 2) [u "t1"; u "t2"] [u "x"; u "y"].
Definition ex_soc : ttm R := Ttm (Sp Csr [[(0%nat, 5)]; [(0%nat, 3); (1%nat, 4)]] 2) [u "y"; u "x"] [u "f"; u "g"].
Lemma ex_w_good : tgood ex_w. Proof. good. Qed.
Lemma ex_soc_good : tgood ex_soc. Proof. good. Qed.
Lemma ex_set : forall x, In x (tcols ex_w) <-> In x (trows ex_soc). Proof. cbn. intros x. tauto. Qed.
Example C44_ex : exists m', compute_token_vectors ex_w ex_soc (u "addition") (u "no") = Ok m' /\ val m' (u "t1") (u "f") = 11 /\ val m' (u "t1") (u "g") = 8 /\ val m' (u "t2") (u "f") = -5.
Proof.
  destruct (C44_addition ex_w ex_soc (u "no") ex_w_good ex_soc_good ex_set (or_introl eq_refl) (or_introl eq_refl) eq_refl eq_refl) as (m' & E & _ & _ & _ & V). exists m'. split; [exact E|].
  rewrite !V by (cbn; tauto). unfold norm_by. rewrite eqb_refl. cellv. split; [|split]; lra.
Qed.
Example C44_ex_csc : exists w', tt_transpose ex_w = Ok w' /\ tgood w' /\ sfmt (tmx w') = Csc.
Proof. eexists. split; [reflexivity|]. split; [good|reflexivity]. Qed.

(** ** C45: token vectors by multiplication *)
Definition products : Prop := forall (w soc : ttm R), tgood w -> tgood soc -> (forall x, In x (tcols w) <-> In x (trows soc)) ->
  exists m', compute_token_vectors w soc (u "multiplication") (u "no") = Ok m' /\
    forall t f, In t (trows w) -> In f (tcols soc) ->
      val m' t f = fold_right Rmult 1 (map (fun c => if Req_EM_T (val w t c * val soc c f) 0 then 1 else val w t c * val soc c f) (tcols w)).
(** What is computed: 0 if some context word of the token (non-zero weight) has a zero feature value, otherwise 1; then the normalisation. *)
Theorem C45_all_or_nothing : forall (w soc : ttm R) normalization, tgood w -> tgood soc -> (forall x, In x (tcols w) <-> In x (trows soc)) -> In normalization [u "no"; u "l1"; u "l2"; u "max"] ->
  normalization = u "no" \/ (trows w <> [] /\ tcols soc <> []) ->
  exists m' g, compute_token_vectors w soc (u "multiplication") normalization = Ok m' /\ tgood m' /\ trows m' = trows w /\ tcols m' = tcols soc /\
    (forall t f, In t (trows w) -> In f (tcols soc) -> val m' t f = norm_by normalization (map (g t) (tcols soc)) (g t f)) /\
    (forall t f, (g t f = 0 /\ exists c, In c (tcols w) /\ val w t c <> 0 /\ val soc c f = 0) \/ (g t f = 1 /\ forall c, In c (tcols w) -> val w t c <> 0 -> val soc c f <> 0)).
Proof.
  intros w soc nrm GW GS SS IN NE. destruct (multiplication_ok w soc nrm GW GS SS IN NE) as (m' & A & B & C & D & V). exists m', (all_or_nothing w soc). repeat (split; [assumption|]).
  intros t f. unfold all_or_nothing. destruct (existsb _ _) eqn:E; [left|right]; (split; [reflexivity|]).
  - apply existsb_exists in E as (c & I & Q). apply andb_true_iff in Q as (Q1 & Q2). exists c. split; [assumption|]. split; [apply negb_true_iff in Q1; now apply isz_false in Q1|now apply isz_ok in Q2].
  - intros c I N1 N2. assert (Q : existsb (fun c => negb (isz (val w t c)) && isz (val soc c f)) (tcols w) = true); [|congruence].
    apply existsb_exists. exists c. split; [assumption|]. apply andb_true_iff. split; [apply negb_true_iff; now apply isz_false|now apply isz_ok].
Qed.
Print Assumptions C45_all_or_nothing.
Theorem C45_products_refuted : ~ products.
Proof.
  intros H. destruct (H ex_w ex_soc ex_w_good ex_soc_good ex_set) as (m' & E & V). destruct (C45_all_or_nothing ex_w ex_soc (u "no") ex_w_good ex_soc_good ex_set (or_introl eq_refl) (or_introl eq_refl)) as (m2 & g & E2 & _ & _ & _ & V2 & G).
  rewrite E in E2. inversion E2; subst m2. specialize (V (u "t1") (u "f") ltac:(cbn; tauto) ltac:(cbn; tauto)). specialize (V2 (u "t1") (u "f") ltac:(cbn; tauto) ltac:(cbn; tauto)).
  rewrite V2 in V. unfold norm_by in V. rewrite eqb_refl in V. specialize (G (u "t1") (u "f")). cbn [map tcols ex_w fold_right] in V.
  assert (A : val ex_w (u "t1") (u "x") * val ex_soc (u "x") (u "f") = 6) by (cellv; lra). assert (B : val ex_w (u "t1") (u "y") * val ex_soc (u "y") (u "f") = 5) by (cellv; lra).
  rewrite A, B in V. destruct (Req_EM_T 6 0); [lra|]. destruct (Req_EM_T 5 0); [lra|]. destruct G as [(G & _)|(G & _)]; lra.
Qed.
Print Assumptions C45_products_refuted.
Example C45_ex : exists m', compute_token_vectors ex_w ex_soc (u "multiplication") (u "no") = Ok m' /\ val m' (u "t1") (u "f") = 1 /\ val m' (u "t1") (u "g") = 0.
Proof.
  destruct (C45_all_or_nothing ex_w ex_soc (u "no") ex_w_good ex_soc_good ex_set (or_introl eq_refl) (or_introl eq_refl)) as (m' & g & E & _ & _ & _ & V & G). exists m'. split; [exact E|].
  rewrite !V by (cbn; tauto). unfold norm_by. rewrite eqb_refl. split.
  - assert (X : val ex_soc (u "x") (u "f") = 3) by (cellv; lra). assert (Y : val ex_soc (u "y") (u "f") = 5) by (cellv; lra).
    destruct (G (u "t1") (u "f")) as [(_ & c & [<-|[<-|[]]] & _ & Z)|(Q & _)]; [lra|lra|exact Q].
  - destruct (G (u "t1") (u "g")) as [(Q & _)|(_ & Z)]; [exact Q|]. exfalso. apply (Z (u "y")); [cbn; tauto|cellv; lra|reflexivity].
Qed.

(** ** C82: weighted means *)
(** With non-negative weights, not all zero, the mean lies between the values of the token's context words. *)
Theorem C82_mean_partial : forall (w soc : ttm R), tgood w -> tgood soc -> (forall x, In x (tcols w) <-> In x (trows soc)) ->
  exists m', compute_token_vectors w soc (u "weightedmean") (u "no") = Ok m' /\ tgood m' /\ trows m' = trows w /\ tcols m' = tcols soc /\
    (forall t f lo hi, In t (trows w) -> In f (tcols soc) -> (forall c, In c (tcols w) -> 0 <= val w t c) -> (exists c, In c (tcols w) /\ val w t c <> 0) ->
      (forall c, In c (tcols w) -> val w t c <> 0 -> lo <= val soc c f <= hi) -> lo <= val m' t f <= hi) /\
    (forall t f, In t (trows w) -> (forall c, In c (tcols w) -> val w t c = 0) -> val m' t f = 0).
Proof.
  intros w soc GW GS SS. destruct (weighted_mean_ok w soc (u "no") GW GS SS (or_introl eq_refl) (or_introl eq_refl)) as (m' & A & B & C & D & V). exists m'. repeat (split; [assumption|]).
  cbv zeta in V. unfold norm_by in V. rewrite eqb_refl in V. split.
  - intros t f lo hi It If P (c & Ic & Nc) Bd. rewrite V by assumption. destruct (weighted_bounds (tcols w) (val w t) (fun c => val soc c f) lo hi P Bd) as (B1 & B2). fold (weighted_sum w soc t f) in B1, B2.
    set (s := sumr (map (val w t) (tcols w))) in *. assert (Ps : 0 < s).
    { assert (G : 0 <= s) by (apply sumr_nonneg; intros x I; apply in_map_iff in I as (y & <- & I); now apply P). destruct (Req_EM_T s 0) as [Z|]; [|lra]. exfalso. apply Nc.
      apply (sumr_nonneg_zero (map (val w t) (tcols w))); [intros x I; apply in_map_iff in I as (y & <- & I); now apply P|exact Z|now apply in_map]. }
    unfold nan_div. destruct (Req_EM_T s 0); [lra|]. split; apply (Rmult_le_reg_r s); try assumption; replace (weighted_sum w soc t f / s * s) with (weighted_sum w soc t f) by (field; lra); assumption.
  - intros t f It Z. destruct (in_dec eqdec f (tcols soc)) as [If|Nf]; [|refine (val_no_col m' t f _); now rewrite D]. rewrite V by assumption.
    assert (S0 : weighted_sum w soc t f = 0) by (apply sumr_zero; intros x I; apply in_map_iff in I as (c & <- & I); rewrite Z by assumption; ring). rewrite S0. unfold nan_div.
    destruct (Req_EM_T _ 0); [|unfold Rdiv; ring]. destruct (Req_EM_T 0 0); [reflexivity|contradiction].
Qed.
Print Assumptions C82_mean_partial.
(** With weights of both signs (PMI without positive part) the result need not lie between the values, and weights that cancel give the largest double. *)
Definition mean_between : Prop := forall (w soc : ttm R) m' t f lo hi, tgood w -> tgood soc -> compute_token_vectors w soc (u "weightedmean") (u "no") = Ok m' -> In t (trows w) -> In f (tcols soc) ->
  (forall c, In c (tcols w) -> lo <= val soc c f <= hi) -> lo <= 0 <= hi -> lo <= val m' t f <= hi.
Definition ex_cancel : ttm R := Ttm (Sp Csr [[(0%nat, 1); (1%nat, -1)]] 2) [u "t1"] [u "x"; u "y"].
Lemma ex_cancel_good : tgood ex_cancel. Proof. good. Qed.
Example C82_cancel : exists m', compute_token_vectors ex_cancel ex_soc (u "weightedmean") (u "no") = Ok m' /\ val m' (u "t1") (u "f") = - dbl_max /\ val m' (u "t1") (u "g") = dbl_max.
Proof.
  destruct (weighted_mean_ok ex_cancel ex_soc (u "no") ex_cancel_good ex_soc_good ltac:(cbn; intros; tauto) (or_introl eq_refl) (or_introl eq_refl)) as (m' & A & B & C & D & V). exists m'. split; [exact A|].
  rewrite !V by (cbn; tauto). unfold norm_by. rewrite eqb_refl. cbv zeta. assert (Z : sumr (map (val ex_cancel (u "t1")) (tcols ex_cancel)) = 0) by (cellv; lra). rewrite Z.
  assert (W1 : weighted_sum ex_cancel ex_soc (u "t1") (u "f") = -2) by (cellv; lra). assert (W2 : weighted_sum ex_cancel ex_soc (u "t1") (u "g") = 4) by (cellv; lra). rewrite W1, W2.
  unfold nan_div. destruct (Req_EM_T 0 0); [|contradiction]. destruct (Req_EM_T (-2) 0); [lra|]. destruct (Req_EM_T 4 0); [lra|]. destruct (Rlt_dec 0 (-2)); [lra|]. destruct (Rlt_dec 0 4); [auto|lra].
Qed.
Theorem C82_mean_refuted : ~ mean_between.
Proof.
  intros H. destruct C82_cancel as (m' & E & _ & V). specialize (H ex_cancel ex_soc m' (u "t1") (u "g") 0 4 ex_cancel_good ex_soc_good E ltac:(cbn; tauto) ltac:(cbn; tauto)).
  assert (K : 0 <= val m' (u "t1") (u "g") <= 4) by (apply H; [intros c [<-|[<-|[]]]; cellv; lra|lra]). rewrite V in K. unfold dbl_max in K.
  assert (P : 2 ^ 3 <= 2 ^ 1023) by (apply Rle_pow; [lra|lia]). assert (Q : / 2 ^ 52 <= 1). { rewrite <- Rinv_1. apply Rinv_le_contravar; [lra|]. rewrite <- (pow1 52). apply pow_incr. lra. }
  set (a := 2 ^ 1023) in *. set (b := / 2 ^ 52) in *. clearbody a b. cbn in P. nra.
Qed.
Print Assumptions C82_mean_refuted.
