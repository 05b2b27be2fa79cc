(** * Claims C24-C31, C34 and C66-C72: matrices. *)
From Coq Require Import String NArith ZArith Bool Arith Lia Sorted Permutation QArith Qcanon List.
From Verif Require Import Base BaseLemmas MxModel MxSpec MxProofs MxTtmProofs MxOpsProofs MxMergeProofs MxCellProofs MxElemProofs
  MxMoreProofs MxSimModel MxSimProofs MxTypedModel MxTypedProofs.
Import ListNotations.
Local Open Scope Z_scope.
Local Open Scope nat_scope.

(** Matrices for the examples:
<<
      x y z        y w
   a  1 . 2     a  4 .
   b  . 3 .     b  . 5     >> *)
Definition ex_a : ttm Z := Ttm (Sp Csr [[(0, 1%Z); (2, 2%Z)]; [(1, 3%Z)]] 3) [u "a"; u "b"] [u "x"; u "y"; u "z"].
Definition ex_b : ttm Z := Ttm (Sp Csr [[(0, 4%Z)]; [(1, 5%Z)]] 2) [u "a"; u "b"] [u "y"; u "w"].
Ltac good := constructor; cbn; [unfold spwf; cbn; repeat (apply Forall_cons || apply Forall_nil); (split; [repeat constructor; cbn; intuition discriminate|repeat constructor])|reflexivity|reflexivity|repeat constructor; cbn; intuition discriminate|repeat constructor; cbn; intuition discriminate].
Example ex_a_good : tgood ex_a. Proof. good. Qed.
Example ex_b_good : tgood ex_b. Proof. good. Qed.
Lemma incl_of_mem (l1 l2 : list pystr) : forallb (fun x => mem x l2) l1 = true -> incl l1 l2.
Proof. intros H x I. rewrite forallb_forall in H. apply mem_In, H, I. Qed.
Lemma nodup_of_dedup (l : list pystr) : dedup l = l -> NoDup l.
Proof. intros <-. apply dedup_NoDup. Qed.

(** ** C24: dict to matrix and back *)
Theorem C24_dict_matrix_dict : forall {V} {NV : Num V} (d : dict pystr (dict pystr V)) (rows cols : list pystr),
  NoDup rows -> NoDup cols -> mxwf d rows cols -> (exists r c v, dget2 d r c = Some v) ->
  exists s d',
    dict_to_sp d rows cols = Ok s /\ mk_ttm s rows cols = Ok (Ttm s rows cols) /\ tgood (Ttm s rows cols) /\
    (forall r c, val (Ttm s rows cols) r c = oz (dget2 d r c)) /\
    sp_to_dict s rows cols = Ok d' /\ forall r c, dget2 d' r c = dget2 d r c.
Proof. exact @roundtrip. Qed.
Print Assumptions C24_dict_matrix_dict.
(** The value of a pair of items is what indexing with the two strings returns. *)
Theorem C24_value_is_indexing : forall {V} {NV : Num V} (m : ttm V) r c, tgood m ->
  tt_get m r c = if mem r (trows m) && mem c (tcols m) then Ok (val m r c) else Err KeyError.
Proof. exact @val_get. Qed.
Print Assumptions C24_value_is_indexing.
Definition ex_dict : dict pystr (dict pystr Z) := [(u "b", [(u "y", 3%Z)]); (u "a", [(u "z", 2%Z); (u "x", 1%Z)])].
Example C24_ex : mxwf ex_dict [u "a"; u "b"; u "c"] [u "z"; u "x"; u "y"] /\ (exists r c v, dget2 ex_dict r c = Some v).
Proof.
  split; [|exists (u "b"), (u "y"), 3%Z; reflexivity]. split; [repeat constructor; cbn; intuition discriminate|].
  intros r row [E|[E|[]]]; injection E as <- <-; (split; [cbn; tauto|]); (split; [repeat constructor; cbn; intuition discriminate|]); intros x I; cbn in *; tauto.
Qed.
Example C24_ex_run : rmap entries (dict_to_sp ex_dict [u "a"; u "b"; u "c"] [u "z"; u "x"; u "y"]) = Ok [(0, 0, 2%Z); (0, 1, 1%Z); (1, 2, 3%Z)].
Proof. vm_compute. reflexivity. Qed.
Example C24_ex_get : tt_get ex_a (u "a") (u "z") = Ok 2%Z /\ tt_get ex_a (u "a") (u "w") = Err KeyError.
Proof. split; vm_compute; reflexivity. Qed.

(** ** C25: submatrix *)
(** The requested items that the matrix has, in the requested order; by position, so that repeated items are covered. *)
Theorem C25_submatrix_cells : forall {V} {NV : Num V} (m : ttm V) (row col : option (list pystr)), tgood m ->
  found (trows m) row -> found (tcols m) col ->
  exists m', tt_submatrix m row col = Ok (Some m') /\
    trows m' = (match row with Some l => filter (fun e => mem e (trows m)) l | None => trows m end) /\
    tcols m' = (match col with Some l => filter (fun e => mem e (tcols m)) l | None => tcols m end) /\
    spwf (tmx m') /\ nrows (tmx m') = length (trows m') /\ ncols (tmx m') = length (tcols m') /\ sfmt (tmx m') = sfmt (tmx m) /\
    forall i j r c, nth_error (trows m') i = Some r -> nth_error (tcols m') j = Some c -> spget (tmx m') i j = val m r c.
Proof. exact @submatrix_ok. Qed.
Print Assumptions C25_submatrix_cells.
(** With distinct items the result is again a matrix with distinct items, and every pair of items keeps its value. *)
Theorem C25_submatrix_values : forall {V} {NV : Num V} (m : ttm V) (row col : option (list pystr)) (m' : ttm V), tgood m ->
  tt_submatrix m row col = Ok (Some m') ->
  (forall l, row = Some l -> NoDup l) -> (forall l, col = Some l -> NoDup l) ->
  tgood m' /\ forall r c, val m' r c = if mem r (trows m') && mem c (tcols m') then val m r c else zero.
Proof. exact @submatrix_val. Qed.
Print Assumptions C25_submatrix_values.
(** No requested item present: nothing is returned, and only then. *)
Theorem C25_submatrix_none : forall {V} {NV : Num V} (m : ttm V) (row col : option (list pystr)), tgood m ->
  (tt_submatrix m row col = Ok None <-> ~ (found (trows m) row /\ found (tcols m) col)).
Proof.
  intros V NV m row col G. split; [|apply submatrix_none, G]. intros E [F1 F2].
  destruct (submatrix_ok m row col G F1 F2) as (m' & E' & _). rewrite E in E'. discriminate.
Qed.
Print Assumptions C25_submatrix_none.
Example C25_ex : found (trows ex_a) (Some [u "b"; u "q"; u "a"]) /\ found (tcols ex_a) (Some [u "z"]) /\
  rmap (option_map (fun m => (trows m, tcols m, entries (tmx m)))) (tt_submatrix ex_a (Some [u "b"; u "q"; u "a"]) (Some [u "z"]))
  = Ok (Some ([u "b"; u "a"], [u "z"], [(1, 0, 2%Z)])).
Proof. split; [vm_compute; discriminate|]. split; [vm_compute; discriminate|]. vm_compute. reflexivity. Qed.
Example C25_ex_none : tt_submatrix ex_a (Some [u "q"]) None = Ok None.
Proof. vm_compute. reflexivity. Qed.

(** ** C26: reorder and transpose *)
Theorem C26_reorder : forall {V} {NV : Num V} (m : ttm V) (items : list pystr) (axis1 : bool), tgood m -> NoDup items ->
  incl items (if axis1 then tcols m else trows m) ->
  exists m', tt_reorder m items axis1 = Ok m' /\ tgood m' /\
    trows m' = (if axis1 then trows m else items) /\ tcols m' = (if axis1 then items else tcols m) /\
    forall r c, In (if axis1 then c else r) items -> val m' r c = val m r c.
Proof. exact @reorder_ok. Qed.
Print Assumptions C26_reorder.
(** An item that the matrix does not have is refused. *)
Theorem C26_reorder_unknown : forall {V} (m : ttm V) (items : list pystr) (axis1 : bool), tgood m ->
  ~ incl items (if axis1 then tcols m else trows m) -> tt_reorder m items axis1 = Err KeyError.
Proof. exact @reorder_missing. Qed.
Print Assumptions C26_reorder_unknown.
Theorem C26_transpose : forall {V} {NV : Num V} (m : ttm V), tgood m ->
  exists m', tt_transpose m = Ok m' /\ tgood m' /\ trows m' = tcols m /\ tcols m' = trows m /\
    (forall r c, val m' c r = val m r c) /\ tt_transpose m' = Ok m.
Proof. exact @transpose_ok. Qed.
Print Assumptions C26_transpose.
Example C26_ex : NoDup [u "z"; u "x"; u "y"] /\ incl [u "z"; u "x"; u "y"] (tcols ex_a) /\
  rmap (fun m => (tcols m, entries (tmx m))) (tt_reorder ex_a [u "z"; u "x"; u "y"] true)
  = Ok ([u "z"; u "x"; u "y"], [(0, 1, 1%Z); (0, 0, 2%Z); (1, 2, 3%Z)]).
Proof. split; [apply nodup_of_dedup; reflexivity|]. split; [apply incl_of_mem; reflexivity|]. vm_compute. reflexivity. Qed.
Example C26_ex_unknown : ~ incl [u "q"] (trows ex_a) /\ tt_reorder ex_a [u "q"] false = Err KeyError.
Proof. split; [intros H; specialize (H _ (or_introl eq_refl)); cbn in H; intuition discriminate|vm_compute; reflexivity]. Qed.
Example C26_ex_transpose : rmap (fun m => (trows m, tcols m, entries (tmx m))) (tt_transpose ex_a)
  = Ok ([u "x"; u "y"; u "z"], [u "a"; u "b"], [(0, 0, 1%Z); (2, 0, 2%Z); (1, 1, 3%Z)]).
Proof. vm_compute. reflexivity. Qed.

(** ** C27: merging two matrices with the same rows *)
Theorem C27_merge_two_adds : forall {V} {NV : Num V} (a b : ttm V), tgood a -> tgood b -> trows a = trows b ->
  tcols a = tcols b \/ sfmt (tmx a) = Csr /\ sfmt (tmx b) = Csr ->
  exists m, merge_two a b = Ok m /\ tgood m /\ trows m = trows a /\
    (forall c, In c (tcols m) <-> In c (tcols a) \/ In c (tcols b)) /\
    (tcols m = tcols a \/ StronglySorted (fun x y => sleb x y = true) (tcols m)) /\
    (sfmt (tmx a) = Csr -> sfmt (tmx m) = Csr) /\
    forall r c, val m r c = add (val a r c) (val b r c).
Proof. exact @merge_two_ok. Qed.
Print Assumptions C27_merge_two_adds.
Theorem C27_merge_two_commutes : forall {V} {NV : Num V} (a b m m' : ttm V), mergeable a -> mergeable b -> trows a = trows b ->
  merge_two a b = Ok m -> merge_two b a = Ok m' -> same_cells m m'.
Proof. exact @merge_two_comm. Qed.
Print Assumptions C27_merge_two_commutes.
Theorem C27_merge_two_associates : forall {V} {NV : Num V} (a b c ab bc m m' : ttm V),
  mergeable a -> mergeable b -> mergeable c -> trows a = trows b -> trows b = trows c ->
  merge_two a b = Ok ab -> merge_two ab c = Ok m -> merge_two b c = Ok bc -> merge_two a bc = Ok m' -> same_cells m m'.
Proof. exact @merge_two_assoc. Qed.
Print Assumptions C27_merge_two_associates.
Example C27_ex : mergeable ex_a /\ mergeable ex_b /\ trows ex_a = trows ex_b /\
  rmap (fun m => (tcols m, entries (tmx m))) (merge_two ex_a ex_b)
  = Ok ([u "w"; u "x"; u "y"; u "z"], [(0, 1, 1%Z); (0, 2, 4%Z); (0, 3, 2%Z); (1, 0, 5%Z); (1, 2, 3%Z)]).
Proof. split; [exact (conj ex_a_good eq_refl)|]. split; [exact (conj ex_b_good eq_refl)|]. split; [reflexivity|]. vm_compute. reflexivity. Qed.

(** ** C67: merging whatever the rows and the storage order *)
(** Full statement, for every two matrices. *)
Definition merge_two_any : Prop := forall (a b : ttm Z), tgood a -> tgood b ->
  exists m, merge_two a b = Ok m /\ forall r c, val m r c = (val a r c + val b r c)%Z.
(** Different rows are refused. *)
Theorem C67_different_rows_refused : forall {V} {NV : Num V} (a b : ttm V), trows a <> trows b -> merge_two a b = Err NotImplementedError.
Proof. exact @merge_two_rows. Qed.
Print Assumptions C67_different_rows_refused.
Definition ex_row : ttm Z := Ttm (Sp Csr [[(0, 1%Z)]] 1) [u "c"] [u "x"].
Theorem C67_merge_any_rows_refuted : ~ merge_two_any.
Proof. intros H. destruct (H ex_a ex_row) as (m & E & _); [apply ex_a_good|good|]. vm_compute in E. discriminate. Qed.
Print Assumptions C67_merge_any_rows_refuted.
(** Full statement for matrices with the same rows. *)
Definition merge_two_any_storage : Prop := forall (a b : ttm Z), tgood a -> tgood b -> trows a = trows b ->
  exists m, merge_two a b = Ok m /\ forall r c, val m r c = (val a r c + val b r c)%Z.
(** A square matrix obtained by transposing is merged as if it had not been transposed: no error, wrong cells. *)
Definition ex_t : ttm Z := Ttm (Sp Csc [[(1, 7%Z)]; []] 2) [u "a"; u "b"] [u "x"; u "y"].
Example ex_t_transposed : tt_transpose (Ttm (Sp Csr [[(1, 7%Z)]; []] 2) [u "x"; u "y"] [u "a"; u "b"]) = Ok ex_t.
Proof. reflexivity. Qed.
Theorem C67_merge_any_storage_refuted : ~ merge_two_any_storage.
Proof.
  intros H. destruct (H ex_t ex_b) as (m & E & VV); [good|apply ex_b_good|reflexivity|]. vm_compute in E. injection E as <-.
  specialize (VV (u "b") (u "x")). vm_compute in VV. discriminate.
Qed.
Print Assumptions C67_merge_any_storage_refuted.

(** ** C28: merging several matrices *)
Theorem C28_merge_matrices_adds : forall {V} {NV : Num V} (l : list (ttm V)), l <> [] -> Forall tgood l ->
  Exists (fun m => entries (tmx m) <> []) l \/
    (forall m m', In m l -> In m' l -> trows m = trows m' /\ tcols m = tcols m') ->
  exists s rows cols, merge_matrices l = Ok (Some (s, rows, cols)) /\ tgood (Ttm s rows cols) /\
    union_items trows l rows /\ union_items tcols l cols /\
    forall r c, val (Ttm s rows cols) r c = sumv (map (fun m => val m r c) l).
Proof. exact @merge_matrices_ok. Qed.
Print Assumptions C28_merge_matrices_adds.
(** TypeTokenMatrix.merge *)
Theorem C28_merge_method_adds : forall {V} {NV : Num V} (a b : ttm V), tgood a -> tgood b ->
  entries (tmx a) <> [] \/ entries (tmx b) <> [] ->
  exists m, tt_merge a b = Ok m /\ tgood m /\ sfmt (tmx m) = Csr /\
    trows m = sunion (trows a) (trows b) /\ tcols m = sunion (tcols a) (tcols b) /\
    forall r c, val m r c = add (val a r c) (val b r c).
Proof. exact @tt_merge_ok. Qed.
Print Assumptions C28_merge_method_adds.
Example C28_ex : Forall tgood [ex_a; ex_b; ex_row; ex_t] /\ Exists (fun m : ttm Z => entries (tmx m) <> []) [ex_a; ex_b; ex_row; ex_t] /\
  rmap (option_map (fun x => (snd (fst x), snd x, entries (fst (fst x))))) (merge_matrices [ex_a; ex_b; ex_row; ex_t])
  = Ok (Some ([u "a"; u "b"; u "c"], [u "w"; u "x"; u "y"; u "z"],
              [(0, 1, 1%Z); (0, 2, 4%Z); (0, 3, 2%Z); (1, 0, 5%Z); (1, 1, 7%Z); (1, 2, 3%Z); (2, 1, 1%Z)])).
Proof.
  split; [apply Forall_cons; [apply ex_a_good|apply Forall_cons; [apply ex_b_good|apply Forall_cons; [good|apply Forall_cons; [good|constructor]]]]|].
  split; [left; vm_compute; discriminate|]. vm_compute. reflexivity.
Qed.

(** ** C66: matrices without counts *)
(** Full statement: a dict with no counts gives a matrix of zeros. *)
Definition empty_dict_ok : Prop := forall (d : dict pystr (dict pystr Z)) rows cols, NoDup rows -> NoDup cols -> mxwf d rows cols ->
  (forall r c, dget2 d r c = None) -> exists s, dict_to_sp d rows cols = Ok s.
Theorem C66_empty_dict_refused : forall {V} {NV : Num V} (d : dict pystr (dict pystr V)) rows cols, NoDup rows -> NoDup cols -> mxwf d rows cols ->
  (forall r c, dget2 d r c = None) -> dict_to_sp d rows cols = Err ValueError.
Proof. exact @dict_to_sp_empty. Qed.
Print Assumptions C66_empty_dict_refused.
Theorem C66_empty_dict_refuted : ~ empty_dict_ok.
Proof.
  intros H. destruct (H [(u "a", [])] [u "a"] [u "x"]) as (s & E); try (apply nodup_of_dedup; reflexivity).
  - split; [repeat constructor; cbn; tauto|]. intros r row [E|[]]. injection E as <- <-. split; [now left|]. split; [constructor|]. intros x [].
  - intros r c. unfold dget2. cbn. destruct (eqdec r _); reflexivity.
  - vm_compute in E. discriminate.
Qed.
Print Assumptions C66_empty_dict_refuted.
(** Merging matrices of zeros: fine with the same items (C28), an error with different ones. *)
Definition merge_matrices_total : Prop := forall (l : list (ttm Z)), l <> [] -> Forall tgood l -> exists x, merge_matrices l = Ok x.
Theorem C66_merge_of_zeros_refused : forall {V} {NV : Num V} (m0 m1 : ttm V) (ms : list (ttm V)), Forall tgood (m0 :: m1 :: ms) ->
  Forall (fun m => entries (tmx m) = []) (m0 :: m1 :: ms) ->
  (exists m, In m (m1 :: ms) /\ (trows m <> trows m0 \/ tcols m <> tcols m0)) ->
  merge_matrices (m0 :: m1 :: ms) = Err ValueError.
Proof. exact @merge_matrices_no_entries. Qed.
Print Assumptions C66_merge_of_zeros_refused.
Definition ex_z1 : ttm Z := Ttm (Sp Csr [[]] 1) [u "a"] [u "x"].
Definition ex_z2 : ttm Z := Ttm (Sp Csr [[]] 1) [u "b"] [u "x"].
Theorem C66_merge_of_zeros_refuted : ~ merge_matrices_total.
Proof.
  intros H. destruct (H [ex_z1; ex_z2]) as (x & E); [discriminate|apply Forall_cons; [good|apply Forall_cons; [good|constructor]]|]. vm_compute in E. discriminate.
Qed.
Print Assumptions C66_merge_of_zeros_refuted.

(** ** C29: drop *)
Theorem C29_drop_rows : forall {V} {NV : Num V} (m : ttm V) n, tgood m -> length (trows m) <> 1 ->
  let kept := filter (fun r => n <? length (filter (fun c => negb (isz (val m r c))) (tcols m))) (trows m) in
  kept = [] /\ tt_drop m false n = Ok None \/
  exists m', tt_drop m false n = Ok (Some m') /\ tgood m' /\ trows m' = kept /\ tcols m' = tcols m /\
    forall r c, In r (trows m') -> val m' r c = val m r c.
Proof. exact @drop_rows. Qed.
Print Assumptions C29_drop_rows.
Theorem C29_drop_columns : forall {V} {NV : Num V} (m : ttm V) n, tgood m -> length (tcols m) <> 1 ->
  let kept := filter (fun c => n <? length (filter (fun r => negb (isz (val m r c))) (trows m))) (tcols m) in
  kept = [] /\ tt_drop m true n = Ok None \/
  exists m', tt_drop m true n = Ok (Some m') /\ tgood m' /\ tcols m' = kept /\ trows m' = trows m /\
    forall r c, In c (tcols m') -> val m' r c = val m r c.
Proof. exact @drop_cols. Qed.
Print Assumptions C29_drop_columns.
Theorem C29_drop_single_fails : forall {V} {NV : Num V} (m : ttm V) (axis1 : bool) n, tgood m ->
  length (if axis1 then tcols m else trows m) = 1 -> tt_drop m axis1 n = Err IndexError.
Proof. exact @drop_single. Qed.
Print Assumptions C29_drop_single_fails.
Example C29_ex : length (trows ex_a) <> 1 /\
  rmap (option_map (fun m => (trows m, entries (tmx m)))) (tt_drop ex_a false 1) = Ok (Some ([u "a"], [(0, 0, 1%Z); (0, 2, 2%Z)])) /\
  tt_drop ex_a true 1 = Ok None /\ tt_drop ex_row false 0 = Err IndexError.
Proof. split; [discriminate|]. split; [vm_compute; reflexivity|]. split; vm_compute; reflexivity. Qed.

(** ** C69: drop_empty *)
Theorem C69_drop_empty_rows : forall {V} {NV : Num V} (m : ttm V) (explicit : bool), tgood m ->
  (trows m <> [] /\ (forall r, In r (trows m) -> dropped_row m explicit r) /\ tt_drop_empty m false explicit = Ok None) \/
  exists m', tt_drop_empty m false explicit = Ok (Some m') /\ tgood m' /\ without (dropped_row m explicit) (trows m) (trows m') /\
    tcols m' = tcols m /\ forall r c, In r (trows m') -> val m' r c = val m r c.
Proof. exact @drop_empty_rows_spec. Qed.
Print Assumptions C69_drop_empty_rows.
Theorem C69_drop_empty_columns : forall {V} {NV : Num V} (m : ttm V) (explicit : bool), tgood m ->
  (tcols m <> [] /\ (forall c, In c (tcols m) -> dropped_col m explicit c) /\ tt_drop_empty m true explicit = Err AttributeError) \/
  exists m', tt_drop_empty m true explicit = Ok (Some m') /\ tgood m' /\ without (dropped_col m explicit) (tcols m) (tcols m') /\
    trows m' = trows m /\ forall r c, In c (tcols m') -> val m' r c = val m r c.
Proof. exact @drop_empty_cols_spec. Qed.
Print Assumptions C69_drop_empty_columns.
Definition ex_e : ttm Z := Ttm (Sp Csr [[(0, 0%Z)]; []; [(1, 3%Z)]] 2) [u "a"; u "b"; u "c"] [u "x"; u "y"].
Example C69_ex : tgood ex_e /\ rmap (option_map trows) (tt_drop_empty ex_e false false) = Ok (Some [u "c"]) /\
  rmap (option_map trows) (tt_drop_empty ex_e false true) = Ok (Some [u "a"; u "c"]) /\
  rmap (option_map tcols) (tt_drop_empty ex_e true false) = Ok (Some [u "y"]) /\
  tt_drop_empty ex_z1 true false = Err AttributeError.
Proof. split; [good|]. repeat split; vm_compute; reflexivity. Qed.
(** Full statement, as documented: with explicit=True a row with only explicit zeros counts as empty; otherwise only a row with nothing stored. *)
Definition drop_empty_documented : Prop := forall (m m' : ttm Z) (explicit : bool), tgood m -> tt_drop_empty m false explicit = Ok (Some m') ->
  forall r, In r (trows m) -> (In r (trows m') <-> if explicit then exists c, val m r c <> 0%Z else row_stored m r).
Theorem C69_documented_refuted : ~ drop_empty_documented.
Proof.
  intros H. assert (G : tgood ex_e) by good. destruct (H ex_e _ true G eq_refl (u "a")) as [X _]; [now left|].
  destruct X as (c & N); [vm_compute; tauto|]. apply N. unfold val. cbn. destruct (eqdec c _); [reflexivity|]. destruct (eqdec c _); reflexivity.
Qed.
Print Assumptions C69_documented_refuted.
(** Full statement: dropping empty columns always returns. *)
Definition drop_empty_total : Prop := forall (m : ttm Z) (axis1 explicit : bool), tgood m -> exists x, tt_drop_empty m axis1 explicit = Ok x.
Theorem C69_all_columns_empty_refuted : ~ drop_empty_total.
Proof. intros H. destruct (H ex_z1 true false) as (x & E); [good|]. vm_compute in E. discriminate. Qed.
Print Assumptions C69_all_columns_empty_refuted.

(** ** C30: element-wise multiplication and comparison *)
(** Missing: explicit zeros in the left matrix. *)
Theorem C30_multiply_cells_partial : forall {V} {NV : Num V} (m o : ttm V), tgood m -> tgood o -> trows m = trows o -> tcols m = tcols o ->
  exists x, tt_multiply m o = Ok x /\ tgood x /\ trows x = trows m /\ tcols x = tcols m /\
    (no_zeros (tmx m) -> forall r c, val x r c = mul (val m r c) (val o r c)) /\
    (~ no_zeros (tmx m) -> forall r c, val x r c = if tstored_dec o r c then val m r c else zero).
Proof. exact @tt_multiply_ok. Qed.
Print Assumptions C30_multiply_cells_partial.
(** Comparison: the stored cells that satisfy it.  It agrees with the dense comparison when zero does not satisfy the comparison or every cell is stored. *)
Theorem C30_comparison_mask : forall {V} {NV : Num V} (op : cmpop) (m : ttm V) k, tgood m -> ~ ((op = CLe \/ op = CGe) /\ k = zero) ->
  exists x, tt_cmp op m k = Ok x /\ tgood x /\ trows x = trows m /\ tcols x = tcols m /\ is_mask (tmx x) /\
    (forall r c, tstored x r c <-> tstored m r c /\ cmpb op (val m r c) k = true) /\
    forall r c, val x r c = if tstored_dec x r c then one else zero.
Proof. exact @tt_cmp_ok. Qed.
Print Assumptions C30_comparison_mask.
Theorem C30_comparison_dense_partial : forall {V} {NV : Num V} (op : cmpop) (m : ttm V) k x, tgood m -> tt_cmp op m k = Ok x ->
  cmpb op zero k = false \/ (forall r c, In r (trows m) -> In c (tcols m) -> tstored m r c) ->
  forall r c, In r (trows m) -> In c (tcols m) -> val x r c = if cmpb op (val m r c) k then one else zero.
Proof. exact @tt_cmp_dense. Qed.
Print Assumptions C30_comparison_dense_partial.
(** m.multiply(o > k): explicit zeros of m do no harm with a mask. *)
Theorem C30_multiply_by_mask : forall {V} {NV : Num V} (m o : ttm V) (op : cmpop) k x, tgood m -> tgood o ->
  trows m = trows o -> tcols m = tcols o -> tt_cmp op o k = Ok x ->
  exists y, tt_multiply m x = Ok y /\ tgood y /\ trows y = trows m /\ tcols y = tcols m /\
    forall r c, val y r c = if tstored_dec x r c then val m r c else zero.
Proof. exact @multiply_cmp. Qed.
Print Assumptions C30_multiply_by_mask.
Example C30_ex : no_zeros (tmx ex_a) /\ rmap (fun m => entries (tmx m)) (tt_multiply ex_a ex_a) = Ok [(0, 0, 1%Z); (0, 2, 4%Z); (1, 1, 9%Z)] /\
  cmpb CGt (zero : Z) 1%Z = false /\
  rmap (fun m => entries (tmx m)) (tt_cmp CGt ex_a 1%Z) = Ok [(0, 2, 1%Z); (1, 1, 1%Z)] /\
  rmap (fun m => entries (tmx m)) (rbind (tt_cmp CGt ex_a 1%Z) (tt_multiply ex_a)) = Ok [(0, 2, 2%Z); (1, 1, 3%Z)].
Proof. split; [repeat constructor|]. repeat split; vm_compute; reflexivity. Qed.
(** Full statement for multiplication. *)
Definition multiply_cells : Prop := forall (m o x : ttm Z), tgood m -> tgood o -> trows m = trows o -> tcols m = tcols o ->
  tt_multiply m o = Ok x -> forall r c, val x r c = (val m r c * val o r c)%Z.
Definition ex_m1 : ttm Z := Ttm (Sp Csr [[(0, 0%Z); (1, 2%Z)]] 2) [u "a"] [u "x"; u "y"].
Definition ex_m2 : ttm Z := Ttm (Sp Csr [[(0, 5%Z); (1, 5%Z)]] 2) [u "a"] [u "x"; u "y"].
(** One explicit zero in m: the result is m itself where o has stored cells. *)
Theorem C30_multiply_cells_refuted : ~ multiply_cells.
Proof.
  intros H. assert (A : tgood ex_m1) by good. assert (B : tgood ex_m2) by good. specialize (H ex_m1 ex_m2 _ A B eq_refl eq_refl eq_refl (u "a") (u "y")). vm_compute in H. discriminate.
Qed.
Print Assumptions C30_multiply_cells_refuted.
(** Full statement for multiplication by item: the matrices have the same items, in different orders. *)
Definition multiply_by_item : Prop := forall (m o x : ttm Z), tgood m -> tgood o -> no_zeros (tmx m) -> Permutation (trows m) (trows o) ->
  Permutation (tcols m) (tcols o) -> tt_multiply m o = Ok x -> forall r c, val x r c = (val m r c * val o r c)%Z.
Definition ex_m3 : ttm Z := Ttm (Sp Csr [[(0, 5%Z); (1, 7%Z)]] 2) [u "a"] [u "y"; u "x"].
Theorem C30_multiply_by_item_refuted : ~ multiply_by_item.
Proof.
  intros H. assert (A : tgood ex_m2) by good. assert (B : tgood ex_m3) by good.
  specialize (H ex_m2 ex_m3 _ A B ltac:(repeat constructor) ltac:(apply Permutation_refl) ltac:(apply perm_swap) eq_refl (u "a") (u "x")). vm_compute in H. discriminate.
Qed.
Print Assumptions C30_multiply_by_item_refuted.
(** Full statement for comparison. *)
Definition comparison_dense : Prop := forall (op : cmpop) (m : ttm Z) k, tgood m ->
  exists x, tt_cmp op m k = Ok x /\ forall r c, In r (trows m) -> In c (tcols m) -> val x r c = if cmpb op (val m r c) k then 1%Z else 0%Z.
(** a < 1 misses the cells that are not stored. *)
Theorem C30_comparison_dense_refuted : ~ comparison_dense.
Proof.
  intros H. destruct (H CLt ex_a 1%Z ex_a_good) as (x & E & VV). vm_compute in E. injection E as <-.
  specialize (VV (u "a") (u "y") ltac:(cbn; tauto) ltac:(cbn; tauto)). vm_compute in VV. discriminate.
Qed.
Print Assumptions C30_comparison_dense_refuted.
(** m >= 0 and m <= 0 raise for every matrix. *)
Theorem C30_comparison_zero_raises : forall {V} {NV : Num V} (op : cmpop) (m : ttm V), op = CLe \/ op = CGe -> tt_cmp op m zero = Err NotImplementedError.
Proof. intros V NV op m O. unfold tt_cmp. now rewrite sm_cmp_zero. Qed.
Print Assumptions C30_comparison_zero_raises.

(** ** C31: marginal sums *)
Theorem C31_sums : forall {V} {NV : Num V} (m : ttm V) (axis1 : bool), tgood m ->
  length (if axis1 then trows m else tcols m) <> 1 ->
  exists d, tt_sum m axis1 = Ok d /\ dkeys d = (if axis1 then trows m else tcols m) /\
    forall k, dget d k = if mem k (if axis1 then trows m else tcols m)
                         then Some (if axis1 then sumv (map (fun c => val m k c) (tcols m)) else sumv (map (fun r => val m r k) (trows m)))
                         else None.
Proof. exact @tt_sum_ok. Qed.
Print Assumptions C31_sums.
Theorem C31_totals : forall {V} {NV : Num V} (m : ttm V), tgood m ->
  tt_total m = sumv (map (fun r => sumv (map (fun c => val m r c) (tcols m))) (trows m)) /\
  tt_total m = sumv (map (fun c => sumv (map (fun r => val m r c) (trows m))) (tcols m)).
Proof. exact @tt_total_ok. Qed.
Print Assumptions C31_totals.
(** The restriction in the quantifier is needed: with a single row (column) the call fails. *)
Theorem C31_single_fails : forall {V} {NV : Num V} (m : ttm V) (axis1 : bool), tgood m ->
  length (if axis1 then trows m else tcols m) = 1 -> tt_sum m axis1 = Err TypeError.
Proof. exact @tt_sum_single. Qed.
Print Assumptions C31_single_fails.
Example C31_ex : tt_sum ex_a true = Ok [(u "a", 3%Z); (u "b", 3%Z)] /\ tt_sum ex_a false = Ok [(u "x", 1%Z); (u "y", 3%Z); (u "z", 2%Z)] /\
  tt_total ex_a = 6%Z /\ tt_sum ex_row true = Err TypeError.
Proof. repeat split; vm_compute; reflexivity. Qed.

(** ** C34: most similar items *)
Theorem C34_most_similar : forall {V} {NV : Num V} (mx : list (list V)) (items : list pystr) item k (descending : bool) p,
  NoDup items -> length mx = length items -> Forall (fun row => length row = length items) mx -> In item items ->
  partition_for (nth (idx items item) mx []) k descending p ->
  exists l, most_similar mx items item k descending p = Ok l /\ NoDup l /\ incl l items /\ ~ In item l /\
    (length l = Nat.min k (length items - 1) \/ length l = S k /\ length l <= length items - 1) /\
    forall x y, In x l -> In y items -> y <> item -> ~ In y l -> closer descending (dist mx items item y) (dist mx items item x) = false.
Proof. exact @most_similar_ok. Qed.
Print Assumptions C34_most_similar.
Definition ex_items : list pystr := map u ["a"; "b"; "c"; "d"]%string.
Definition ex_dist : list (list Z) := [[0; 3; 1; 2]; [3; 0; 3; 3]; [1; 3; 0; 3]; [2; 3; 3; 0]]%Z.
Example C34_ex : NoDup ex_items /\ length ex_dist = length ex_items /\ Forall (fun row => length row = length ex_items) ex_dist /\
  In (u "a") ex_items /\ partition_for (nth (idx ex_items (u "a")) ex_dist []) 2 false [2; 0; 3; 1] /\
  most_similar ex_dist ex_items (u "a") 2 false [2; 0; 3; 1] = Ok [u "c"; u "d"] /\
  closer false (dist ex_dist ex_items (u "a") (u "d")) (dist ex_dist ex_items (u "a") (u "b")) = true.
Proof.
  split; [apply nodup_of_dedup; reflexivity|]. split; [reflexivity|]. split; [repeat constructor|]. split; [now left|]. split.
  - intros _. split; [|split].
    + cbn. apply perm_trans with [0; 2; 3; 1]; [apply perm_swap|]. apply perm_skip. apply perm_trans with [2; 1; 3]; [apply perm_skip, perm_swap|]. apply perm_swap.
    + intros x y L E. cbn in L, E. injection E as <-. do 3 (destruct x as [|x]; [reflexivity|]). lia.
    + intros x y L E. assert (X : length (nth (idx ex_items (u "a")) ex_dist []) = 4) by reflexivity. rewrite X in L. lia.
  - split; vm_compute; reflexivity.
Qed.
(** An item that is not in the matrix is refused. *)
Theorem C34_unknown_item : forall {V} (mx : list (list V)) (items : list pystr) item k (descending : bool) p,
  ~ In item items -> most_similar mx items item k descending p = Err ValueError.
Proof. intros V mx items item k d p N. unfold most_similar. destruct (index_of item items) eqn:E; [|reflexivity]. exfalso. assert (Z : index_of item items = None) by now apply index_of_None. congruence. Qed.
Print Assumptions C34_unknown_item.

(** ** C70: most_similar(item, k) returns k items *)
(** Full statement. *)
Definition exactly_k : Prop := forall (mx : list (list Z)) (items : list pystr) item k p l,
  NoDup items -> length mx = length items -> Forall (fun row => length row = length items) mx -> In item items -> k < length items ->
  partition_for (nth (idx items item) mx []) k false p -> most_similar mx items item k false p = Ok l -> length l = k.
(** Every partial sort: k or k + 1 items (C34).  With two items at distance 0 from each other (duplicates), item "a" may be left out of its own k + 1 nearest. *)
Definition ex_tie : list (list Z) := [[0; 0; 0]; [0; 0; 0]; [0; 0; 0]]%Z.
Theorem C70_exactly_k_refuted : ~ exactly_k.
Proof.
  intros H. specialize (H ex_tie (map u ["a"; "b"; "c"]%string) (u "a") 1 [1; 2; 0] [u "b"; u "c"]).
  cut (2 = 1); [discriminate|]. apply H; [apply nodup_of_dedup; reflexivity|reflexivity|repeat constructor|now left|cbn; lia| |vm_compute; reflexivity].
  intros _. split; [|split].
  - cbn. apply perm_trans with [1; 0; 2]; [apply perm_skip, perm_swap|apply perm_swap].
  - intros x y L E. cbn in E. injection E as <-. do 2 (destruct x as [|x]; [reflexivity|]). lia.
  - intros x y L _. assert (X : length (nth (idx (map u ["a"; "b"; "c"]%string) (u "a")) ex_tie []) = 3) by reflexivity. rewrite X in L. lia.
Qed.
Print Assumptions C70_exactly_k_refuted.
(** Exactly min(k, n-1) items when the item itself is strictly closer to itself than any other item.  Missing: ties. *)
Theorem C70_exactly_k_partial : forall {V} {NV : Num V} (mx : list (list V)) (items : list pystr) item k (descending : bool) p l,
  NoDup items -> length mx = length items -> Forall (fun row => length row = length items) mx -> In item items ->
  (forall y, In y items -> y <> item -> closer descending (dist mx items item item) (dist mx items item y) = true) ->
  partition_for (nth (idx items item) mx []) k descending p -> most_similar mx items item k descending p = Ok l ->
  length l = Nat.min k (length items - 1).
Proof. exact @most_similar_exact. Qed.
Print Assumptions C70_exactly_k_partial.
Example C70_ex : forall y, In y ex_items -> y <> u "a" -> closer false (dist ex_dist ex_items (u "a") (u "a")) (dist ex_dist ex_items (u "a") y) = true.
Proof. intros y [<-|[<-|[<-|[<-|[]]]]] N; vm_compute; try reflexivity. now contradiction N. Qed.

(** ** C68: equal *)
Theorem C68_equal_sound : forall {V} {NV : Num V} (a b : ttm V), tgood a -> tgood b -> tt_equal a b = true ->
  trows a = trows b /\ tcols a = tcols b /\ forall r c, val a r c = val b r c.
Proof. exact @tt_equal_sound. Qed.
Print Assumptions C68_equal_sound.
(** Missing: matrices with explicit zeros. *)
Theorem C68_equal_complete_partial : forall {V} {NV : Num V} (a b : ttm V), tgood a -> tgood b -> no_zeros (tmx a) -> no_zeros (tmx b) ->
  trows a = trows b -> tcols a = tcols b -> (forall r c, val a r c = val b r c) -> tt_equal a b = true.
Proof. exact @tt_equal_complete. Qed.
Print Assumptions C68_equal_complete_partial.
Definition equal_complete : Prop := forall (a b : ttm Z), tgood a -> tgood b ->
  trows a = trows b -> tcols a = tcols b -> (forall r c, val a r c = val b r c) -> tt_equal a b = true.
Definition ex_m1' : ttm Z := Ttm (Sp Csr [[(1, 2%Z)]] 2) [u "a"] [u "x"; u "y"].
Theorem C68_equal_complete_refuted : ~ equal_complete.
Proof.
  intros H. assert (A : tgood ex_m1) by good. assert (B : tgood ex_m1') by good. specialize (H ex_m1 ex_m1' A B eq_refl eq_refl).
  assert (E : tt_equal ex_m1 ex_m1' = false) by (vm_compute; reflexivity). rewrite E in H. discriminate H.
  intros r c. unfold val. change (trows ex_m1) with [u "a"]. change (trows ex_m1') with [u "a"]. change (tcols ex_m1) with [u "x"; u "y"]. change (tcols ex_m1') with [u "x"; u "y"].
  cbn [index_of]. destruct (eqdec r _); [|reflexivity]. destruct (eqdec c (u "x")); [reflexivity|]. destruct (eqdec c (u "y")); reflexivity.
Qed.
Print Assumptions C68_equal_complete_refuted.
Example C68_ex : no_zeros (tmx ex_a) /\ tt_equal ex_a ex_a = true /\ tt_equal ex_a ex_b = false.
Proof. split; [repeat constructor|]. split; vm_compute; reflexivity. Qed.

(** ** C71: concatenate *)
Theorem C71_concatenate : forall {V} {NV : Num V} (a b : ttm V), tgood a -> tgood b -> tcols a = tcols b ->
  (forall r, In r (trows a) -> In r (trows b) -> False) ->
  exists m, tt_concat a b = Ok m /\ tgood m /\ trows m = trows a ++ trows b /\ tcols m = tcols a /\
    forall r c, val m r c = add (val a r c) (val b r c).
Proof. exact @concat_ok. Qed.
Print Assumptions C71_concatenate.
Definition ex_c : ttm Z := Ttm (Sp Csc [[(0, 8%Z)]; []; []] 1) [u "c"] [u "x"; u "y"; u "z"].
Example C71_ex : tgood ex_c /\ tcols ex_a = tcols ex_c /\ (forall r, In r (trows ex_a) -> In r (trows ex_c) -> False) /\
  rmap (fun m => (trows m, entries (tmx m))) (tt_concat ex_a ex_c) = Ok ([u "a"; u "b"; u "c"], [(0, 0, 1%Z); (0, 2, 2%Z); (1, 1, 3%Z); (2, 0, 8%Z)]).
Proof. split; [good|]. split; [reflexivity|]. split; [|vm_compute; reflexivity]. intros r [<-|[<-|[]]] [E|[]]; discriminate. Qed.

(** ** C72: number types in a dict *)
Theorem C72_one_number_type : forall (d : dict pystr (dict pystr tnum)) rows cols t, t <> TBool ->
  (forall r row c v, In (r, row) d -> In (c, v) row -> fst v = t /\ tvalid v) ->
  d2s_typed d rows cols = dict_to_sp (untyped d) rows cols.
Proof. exact typed_ok. Qed.
Print Assumptions C72_one_number_type.
Definition q (n : Z) (d : positive) : Qc := Q2Qc (Qmake n d).
Example C72_ex : forall r row c v, In (r, row) [(u "a", [(u "x", (TFloat, q 1 2)); (u "y", (TFloat, q 5 2))])] -> In (c, v) row -> fst v = TFloat /\ tvalid v.
Proof. intros r row c v [E|[]] I. injection E as <- <-. destruct I as [E|[E|[]]]; injection E as <- <-; split; reflexivity. Qed.
(** Full statement: the conversion keeps every value. *)
Definition any_number_types : Prop := forall (d : dict pystr (dict pystr tnum)) rows cols s,
  (forall r row c v, In (r, row) d -> In (c, v) row -> tvalid v) -> NoDup rows -> NoDup cols -> mxwf (untyped d) rows cols ->
  d2s_typed d rows cols = Ok s -> forall r c, val (Ttm s rows cols) r c = oz (dget2 (untyped d) r c).
(** {"a": {"x": 1, "y": 2.5}}: the first value is an int, 2.5 becomes 2. *)
Theorem C72_mixed_number_types_refuted : ~ any_number_types.
Proof.
  intros H. set (d := [(u "a", [(u "x", (TInt, q 1 1)); (u "y", (TFloat, q 5 2))])] : dict pystr (dict pystr tnum)).
  destruct (d2s_typed d [u "a"] [u "x"; u "y"]) as [s|e] eqn:E; [|vm_compute in E; discriminate].
  specialize (H d [u "a"] [u "x"; u "y"] s). assert (X : val (Ttm s [u "a"] [u "x"; u "y"]) (u "a") (u "y") = oz (dget2 (untyped d) (u "a") (u "y"))).
  { apply H; [|apply nodup_of_dedup; reflexivity|apply nodup_of_dedup; reflexivity| |exact E].
    - intros r row c v [Q|[]] I. injection Q as <- <-. destruct I as [Q|[Q|[]]]; injection Q as <- <-; reflexivity.
    - split; [repeat constructor; cbn; tauto|]. intros r row [Q|[]]. injection Q as <- <-. split; [now left|]. split; [apply nodup_of_dedup; reflexivity|]. apply incl_of_mem. reflexivity. }
  apply (f_equal this) in X. vm_compute in E. injection E as <-. vm_compute in X. discriminate.
Qed.
Print Assumptions C72_mixed_number_types_refuted.
(** Values that are all booleans: the indices are converted too, the count of row 2 ends up in row 1. *)
Theorem C72_boolean_indices_refuted : ~ any_number_types.
Proof.
  intros H. set (d := [(u "c", [(u "x", (TBool, q 1 1))])] : dict pystr (dict pystr tnum)).
  destruct (d2s_typed d [u "a"; u "b"; u "c"] [u "x"]) as [s|e] eqn:E; [|vm_compute in E; discriminate].
  specialize (H d [u "a"; u "b"; u "c"] [u "x"] s). assert (X : val (Ttm s [u "a"; u "b"; u "c"] [u "x"]) (u "c") (u "x") = oz (dget2 (untyped d) (u "c") (u "x"))).
  { apply H; [|apply nodup_of_dedup; reflexivity|apply nodup_of_dedup; reflexivity| |exact E].
    - intros r row c v [Q|[]] I. injection Q as <- <-. destruct I as [Q|[]]; injection Q as <- <-; reflexivity.
    - split; [repeat constructor; cbn; tauto|]. intros r row [Q|[]]. injection Q as <- <-. split; [cbn; tauto|]. split; [apply nodup_of_dedup; reflexivity|]. apply incl_of_mem. reflexivity. }
  apply (f_equal this) in X. vm_compute in E. injection E as <-. vm_compute in X. discriminate.
Qed.
Print Assumptions C72_boolean_indices_refuted.
