(** * Claims about printing, item numbers and CSV files (C150-C154). *)
From Coq Require Import String NArith ZArith Bool Arith Permutation Sorted Lia List.
From Verif Require Import Base BaseLemmas Str VocabModel MxModel MxSpec ShowModel ShowSpec ShowProofs.
Import ListNotations.
Local Open Scope string_scope.
Local Open Scope nat_scope.
Local Open Scope list_scope.

(** ** C150: the printed table *)
Theorem C150_sparse : forall (V : Type) (NV : Num V) (show : V -> pystr) m n_rows n_cols, tgood m -> not_negative n_rows -> not_negative n_cols ->
  exists text, (forall i j, stored (tmx m) i j -> text i j = show (spget (tmx m) i j)) /\
    (forall i j, ~ stored (tmx m) i j -> text i j = u "NaN") /\
    let r := length (trows m) in let c := length (tcols m) in
    print_sparse show m n_rows n_cols = Ok (a_table r c (shown n_rows r) (shown n_cols c) (trows m) (tcols m) text).
Proof. exact @print_sparse_text. Qed.
Print Assumptions C150_sparse.
Theorem C150_dense : forall (V : Type) (NV : Num V) (show : V -> pystr) rows cols a n_rows n_cols,
  length a = length rows -> Forall (fun row => length row = length cols) a -> not_negative n_rows -> not_negative n_cols ->
  let r := length rows in let c := length cols in
  print_dense show rows cols a n_rows n_cols = a_table r c (shown n_rows r) (shown n_cols c) rows cols (fun i j => show (nth j (nth i a []) zero)).
Proof. exact @print_dense_ok. Qed.
Print Assumptions C150_dense.
(** "If either is set to None, print the standard amount" (matrix.py:1447): the standard amount is 7, None prints all *)
Theorem C150_none_refuted : exists m : ttm Z, tgood m /\ print_sparse str_of_Z m None None <> print_sparse str_of_Z m (Some 7%Z) (Some 7%Z) /\
  print_sparse str_of_Z m None None = print_sparse str_of_Z m (Some 0%Z) (Some 8%Z).
Proof. exact none_witness. Qed.
Print Assumptions C150_none_refuted.
Definition m150 : ttm Z := Ttm (Sp Csr [[(1, 5%Z)]; [(0, 0%Z); (2, 7%Z)]; []] 3) [u "a"; u "b"; u "c"] [u "x"; u "y"; u "z"].
Lemma good150 : tgood m150.
Proof.
  constructor; cbn; try reflexivity.
  - repeat (apply Forall_cons; [split; [repeat constructor; cbn; intuition discriminate|repeat (apply Forall_cons; [cbn; lia|]); apply Forall_nil]|]); apply Forall_nil.
  - repeat constructor; cbn; intuition discriminate.
  - repeat constructor; cbn; intuition discriminate.
Qed.
Example C150_ex : tgood m150 /\ stored (tmx m150) 1 0 /\ ~ stored (tmx m150) 0 0 /\
  print_sparse str_of_Z m150 (Some 2%Z) None =
    Ok [[u "[3, 3]"; u "x"; u "y"; u "z"]; [u "a"; u "NaN"; u "5"; u "NaN"]; [u "b"; u "0"; u "NaN"; u "7"]; [u "..."; u "..."; u "..."; u "..."]] /\
  print_dense str_of_Z [u "a"; u "b"] [u "x"; u "y"] [[1%Z; 2%Z]; [3%Z; 4%Z]] None (Some 1%Z) =
    [[u "[2, 2]"; u "x"; u "..."]; [u "a"; u "1"; u "..."]; [u "b"; u "3"; u "..."]].
Proof.
  split; [exact good150|]. split; [cbn; auto|]. split; [cbn; intuition discriminate|]. split; vm_compute; reflexivity.
Qed.

(** ** C151: the text of a Vocab *)
Theorem C151_repr : forall show v,
  (length (fd v) <= 7 -> v_repr show v = u "[" ++ join 44%N (map show (fd v)) ++ u "]") /\
  (7 < length (fd v) -> exists s, by_freq (fd v) s /\
     v_repr show v = u "[" ++ join 44%N (map show (firstn 3 s)) ++ u " ... " ++ join 44%N (map show (skipn (length s - 3) s)) ++ u "]").
Proof. exact repr_ok. Qed.
Print Assumptions C151_repr.
(** The sorted list is unique *)
Theorem C151_by_freq_unique : forall l s s', by_freq l s -> by_freq l s' -> s = s'.
Proof. exact by_freq_unique. Qed.
Print Assumptions C151_by_freq_unique.
Definition v151 : vocab := Vocab [(u "a", 3); (u "b", 9); (u "c", 3); (u "d", 1); (u "e", 4); (u "f", 9); (u "g", 2); (u "h", 1)]%Z false true.
Example C151_ex : by_freq (fd v151) [(u "b", 9); (u "f", 9); (u "e", 4); (u "a", 3); (u "c", 3); (u "g", 2); (u "d", 1); (u "h", 1)]%Z /\
  v_repr fst v151 = u "[b,f,e ... g,d,h]" /\ v_repr fst (Vocab [(u "a", 3); (u "b", 9)]%Z false true) = u "[a,b]".
Proof.
  split; [|split; vm_compute; reflexivity].
  destruct (repr_ok fst v151) as [_ R]. split; [|split].
  - change (Permutation (fd v151) (isort (fun a b => (snd b <=? snd a)%Z) (fd v151))). apply isort_perm.
  - change (StronglySorted (fun a b : pystr * Z => (snd b <= snd a)%Z) (isort (fun a b => (snd b <=? snd a)%Z) (fd v151))). apply freq_sorted.
  - intros f. exact (freq_filter (fd v151) f).
Qed.

(** ** C152: a matrix written to a CSV file and read back *)
(** With index_col=0: the cells come back, NaN where a sparse matrix stores nothing *)
Theorem C152_read_index : forall (V : Type) (show : V -> pystr) (parse : pystr -> fld V) (dedup_names : list pystr -> list pystr),
  (forall v, parse (show v) = FNum v) -> parse [] = FNaN -> (forall l, NoDup l -> dedup_names l = l) ->
  forall rows cols cells, length cells = length rows -> Forall (fun row => length row = length cols) cells -> Forall (fun c => c <> []) cols ->
  NoDup (u "Unnamed: 0" :: cols) ->
  read_frame parse dedup_names (Some 0) (to_csv show true rows cols cells) =
    Ok (Frame (Some (infer parse rows)) cols (map (map (fun c => match c with Some v => FNum v | None => FNaN end)) cells)).
Proof. exact @read_index. Qed.
Print Assumptions C152_read_index.
(** ... and the row items, when none is a word for a missing value and not all are numbers *)
Theorem C152_row_items : forall (V : Type) (parse : pystr -> fld V) rows,
  (forall r, In r rows -> parse r <> FNaN) -> (exists r s, In r rows /\ parse r = FStr s) -> infer parse rows = map FStr rows.
Proof. exact @labels_back. Qed.
Print Assumptions C152_row_items.
(** In general: words for a missing value are lost, and row items that all are numbers come back as numbers *)
Theorem C152_row_items_general : forall (V : Type) (parse : pystr -> fld V) rows i r, nth_error rows i = Some r ->
  nth_error (infer parse rows) i = Some
    match parse r with
    | FNaN => FNaN
    | f => if existsb (fun s => match parse s with FStr _ => true | _ => false end) rows then FStr r else f
    end.
Proof. exact @labels_general. Qed.
Print Assumptions C152_row_items_general.
(** With the default index_col=None the row items are a column "Unnamed: 0" and the rows are numbered *)
Theorem C152_read_default : forall (V : Type) (show : V -> pystr) (parse : pystr -> fld V) (dedup_names : list pystr -> list pystr),
  (forall v, parse (show v) = FNum v) -> parse [] = FNaN -> (forall l, NoDup l -> dedup_names l = l) ->
  forall rows cols cells, length cells = length rows -> Forall (fun row => length row = length cols) cells -> Forall (fun c => c <> []) cols ->
  NoDup (u "Unnamed: 0" :: cols) ->
  read_frame parse dedup_names None (to_csv show true rows cols cells) =
    Ok (Frame None (u "Unnamed: 0" :: cols)
          (map (fun lr => fst lr :: map (fun c => match c with Some v => FNum v | None => FNaN end) (snd lr)) (combine (infer parse rows) cells))).
Proof. exact @read_default. Qed.
Print Assumptions C152_read_default.
(** issparse=True with index_col=0: exactly the cells that were not stored, and the stored cells other than zero, are stored *)
Theorem C152_sparse : forall (V : Type) (NV : Num V) (show : V -> pystr) (parse : pystr -> fld V) (dedup_names : list pystr -> list pystr),
  (forall v, parse (show v) = FNum v) -> parse [] = FNaN -> (forall l, NoDup l -> dedup_names l = l) ->
  forall m : ttm V, tgood m -> Forall (fun c => c <> []) (tcols m) -> ~ In (u "Unnamed: 0") (tcols m) ->
  exists f es, read_frame parse dedup_names (Some 0) (to_csv show true (trows m) (tcols m) (sparse_frame (tmx m))) = Ok f /\
    from_frame_sparse f = Ok es /\
    forall i j x, In (i, j, x) es <-> i < nrows (tmx m) /\ j < ncols (tmx m) /\
      ((~ stored (tmx m) i j /\ x = None) \/ (stored (tmx m) i j /\ x = Some (spget (tmx m) i j) /\ isz (spget (tmx m) i j) = false)).
Proof. exact @csv_sparse. Qed.
Print Assumptions C152_sparse.
(** issparse=True with the default index_col: an error when a row item is a word *)
Theorem C152_sparse_default : forall (V : Type) (NV : Num V) (show : V -> pystr) (parse : pystr -> fld V) (dedup_names : list pystr -> list pystr),
  (forall v, parse (show v) = FNum v) -> parse [] = FNaN -> (forall l, NoDup l -> dedup_names l = l) ->
  forall m : ttm V, tgood m -> Forall (fun c => c <> []) (tcols m) -> ~ In (u "Unnamed: 0") (tcols m) ->
  (exists r s, In r (trows m) /\ parse r = FStr s) -> (forall r, In r (trows m) -> parse r <> FNaN) ->
  rbind (read_frame parse dedup_names None (to_csv show true (trows m) (tcols m) (sparse_frame (tmx m)))) from_frame_sparse = Err TypeError.
Proof. exact @csv_sparse_default. Qed.
Print Assumptions C152_sparse_default.
(** One character per number, for the examples *)
Definition show1 (z : Z) : pystr := [Z.to_N z].
Definition parse1 (s : pystr) : fld Z :=
  match s with [] => FNaN | [c] => if (c <? 10)%N then FNum (Z.of_N c) else FStr s | _ => if eqb s (u "NA") then FNaN else FStr s end.
Definition csv150 (ix : option nat) : res (frame Z) := read_frame parse1 (fun l => l) ix (to_csv show1 true (trows m150) (tcols m150) (sparse_frame (tmx m150))).
Example C152_ex :
  csv150 (Some 0) = Ok (Frame (Some [FStr (u "a"); FStr (u "b"); FStr (u "c")]) [u "x"; u "y"; u "z"]
    [[FNaN; FNum 5%Z; FNaN]; [FNum 0%Z; FNaN; FNum 7%Z]; [FNaN; FNaN; FNaN]]) /\
  csv150 None = Ok (Frame None [u "Unnamed: 0"; u "x"; u "y"; u "z"]
    [[FStr (u "a"); FNaN; FNum 5%Z; FNaN]; [FStr (u "b"); FNum 0%Z; FNaN; FNum 7%Z]; [FStr (u "c"); FNaN; FNaN; FNaN]]) /\
  rbind (csv150 (Some 0)) from_frame_sparse =
    Ok [(0, 0, None); (0, 1, Some 5%Z); (0, 2, None); (1, 1, None); (1, 2, Some 7%Z); (2, 0, None); (2, 1, None); (2, 2, None)] /\
  rbind (csv150 None) from_frame_sparse = Err TypeError /\
  infer parse1 [u "a"; u "NA"] = [FStr (u "a"); FNaN].
Proof. repeat split; vm_compute; reflexivity. Qed.
(** read_csv(to_csv(m)) is m: false with the default arguments, and of sparse matrices also with index_col=0 *)
Theorem C152_round_trip_refuted : exists (m : ttm Z) (show : Z -> pystr) (parse : pystr -> fld Z) (dn : list pystr -> list pystr),
  tgood m /\ (forall r, In r (trows m) -> parse r = FStr r) /\ parse [] = FNaN /\ (forall l, dn l = l) /\
  (forall i j, stored (tmx m) i j -> parse (show (spget (tmx m) i j)) = FNum (spget (tmx m) i j)) /\
  let file := to_csv show true (trows m) (tcols m) (sparse_frame (tmx m)) in
  (forall f, read_frame parse dn None file = Ok f -> f_rows f = None /\ f_cols f <> tcols m) /\
  exists f es, read_frame parse dn (Some 0) file = Ok f /\ f_cols f = tcols m /\ from_frame_sparse f = Ok es /\ In (0, 0, None) es /\ spget (tmx m) 0 0 = 0%Z.
Proof.
  exists m150, show1, parse1, (fun l => l). split; [exact good150|]. split; [cbn; intros r; intuition (subst; reflexivity)|]. split; [reflexivity|]. split; [reflexivity|].
  split; [intros i j S; cbn in S; destruct S as [E|[E|[E|[]]]]; injection E as <- <-; reflexivity|]. cbv zeta.
  split.
  - intros f E. change (csv150 None = Ok f) in E. destruct C152_ex as (_ & D & _). rewrite D in E. injection E as <-. split; [reflexivity|discriminate].
  - destruct C152_ex as (A & _ & B & _). rewrite A in B. cbn [rbind] in B.
    eexists _, _. split; [exact A|]. split; [reflexivity|]. split; [exact B|]. split; [cbn; auto|reflexivity].
Qed.
Print Assumptions C152_round_trip_refuted.

(** ** C153: the numbers of the items *)
Theorem C153_item_ids : forall items,
  (forall e, dget (item_ids items) e = None <-> ~ In e items) /\
  (forall e i, dget (item_ids items) e = Some i -> nth_error items i = Some e /\ forall k, nth_error items k = Some e -> k <= i) /\
  (NoDup items -> forall e i, dget (item_ids items) e = Some i <-> nth_error items i = Some e).
Proof. exact item_ids_ok. Qed.
Print Assumptions C153_item_ids.
Example C153_ex : dget (item_ids [u "a"; u "b"; u "a"]) (u "a") = Some 2 /\ dget (item_ids [u "a"; u "b"; u "a"]) (u "c") = None /\
  NoDup [u "a"; u "b"] /\ dget (item_ids [u "a"; u "b"]) (u "b") = Some 1.
Proof. split; [vm_compute; reflexivity|]. split; [vm_compute; reflexivity|]. split; [repeat constructor; cbn; intuition discriminate|vm_compute; reflexivity]. Qed.

(** ** C154: drop_zero_rows, drop_zero_cols and methods that cannot succeed *)
Theorem C154_drop_zero : forall (V : Type) (by_rows : bool) r c (es : list (nat * nat * V)),
  drop_zero by_rows KOther r c es = Err AttributeError /\
  exists kept es', Sorted lt kept /\ (forall k, In k kept <-> exists e, In e es /\ k = if by_rows then fst (fst e) else snd (fst e)) /\
    drop_zero by_rows KCoo r c es = Ok (if by_rows then length kept else r, if by_rows then c else length kept, es') /\
    Forall2 (fun e e' => snd e' = snd e /\
      if by_rows then nth_error kept (fst (fst e')) = Some (fst (fst e)) /\ snd (fst e') = snd (fst e)
      else fst (fst e') = fst (fst e) /\ nth_error kept (snd (fst e')) = Some (snd (fst e))) es es'.
Proof. exact @drop_zero_ok. Qed.
Print Assumptions C154_drop_zero.
Example C154_ex : drop_zero true KCoo 4 2 [(3, 0, 5%Z); (1, 1, 6%Z); (3, 1, 7%Z)] = Ok (2, 2, [(1, 0, 5%Z); (0, 1, 6%Z); (1, 1, 7%Z)]) /\
  drop_zero false KCoo 4 3 [(3, 2, 5%Z); (1, 0, 6%Z)] = Ok (4, 2, [(3, 1, 5%Z); (1, 0, 6%Z)]).
Proof. split; vm_compute; reflexivity. Qed.
(** "Drop rows with only zero values": a row whose stored values are all zero is kept *)
Theorem C154_zero_rows_refuted : exists (es : list (nat * nat * Z)) n c es', drop_zero true KCoo 2 1 es = Ok (n, c, es') /\
  (forall e, In e es -> fst (fst e) = 0 -> snd e = 0%Z) /\ n = 2.
Proof.
  exists [(0, 0, 0%Z); (1, 0, 5%Z)], 2, 1, [(0, 0, 0%Z); (1, 0, 5%Z)]. split; [vm_compute; reflexivity|]. split; [|reflexivity].
  cbn. intros e [<- |[<- |[]]]; cbn; [reflexivity|discriminate].
Qed.
Print Assumptions C154_zero_rows_refuted.
Theorem C154_never : forall (V : Type) (m : ttm V), tt_drop_zero_rows m = None /\ spmatrix_to_dict m = Err NameError /\
  forall rows cols item_list idx_list axis, exists e, reorder_verbose rows cols item_list idx_list axis = Err e.
Proof. intros. split; [reflexivity|]. split; [reflexivity|]. exact reorder_verbose_fails. Qed.
Print Assumptions C154_never.
Theorem C154_describe : forall r c size, (describe r c size = Err ZeroDivisionError <-> r = 0 \/ c = 0) /\
  (0 < r -> 0 < c -> describe r c size = Ok (r, c, size, (Z.of_nat (size * 100), Z.of_nat (r * c)))).
Proof. exact describe_ok. Qed.
Print Assumptions C154_describe.
Example C154_never_ex : reorder_verbose [u "a"] [] (Some [u "a"]) false 0 = Err AttributeError /\ reorder_verbose [u "a"] [] (Some [u "b"]) false 0 = Err KeyError /\
  describe 3 2 4 = Ok (3, 2, 4, (400%Z, 6%Z)).
Proof. repeat split; vm_compute; reflexivity. Qed.
