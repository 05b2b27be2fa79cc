(** * Claims C32, C33, C73, C74: saving and loading matrices. *)
From Coq Require Import String NArith ZArith Bool Arith List.
From Verif Require Import Base BaseLemmas Str MxModel MxSpec MxProofs MxFileModel MxFileProofs.
Import ListNotations.
Local Open Scope Z_scope.
Local Open Scope nat_scope.

(** The value at a position *)
Definition acell {V} `{Num V} (m : anymx V) (i j : nat) : V :=
  match m with Sparse s => spget s i j | Dense l _ => nth j (nth i l []) zero end.
(** The same items and cells *)
Definition same_matrix {V} `{Num V} (a b : amx V) : Prop :=
  arows a = arows b /\ acols a = acols b /\ forall i j, acell (amat a) i j = acell (amat b) i j.

Definition dir : pystr := u "/tmp".
Definition no_files : fs Z := fun _ => None.
Definition ex_csr : amx Z := Amx (Sparse (Sp Csr [[(0, 1%Z); (2, 2%Z)]; [(1, 3%Z)]] 3)) [u "a"; u "b"] [u "x"; u "y"; u "z"].
Definition ex_dense : amx Z := Amx (Dense [[1; 2]; [3; 4]]%Z 2) [u "a"; u "b"] [u "a"; u "b"].
Definition ex_square : amx Z := Amx (Sparse (Sp Csc [[(1, 7%Z)]; []] 2)) [u "a"; u "b"] [u "x"; u "y"].
Definition ex_one (r : pystr) (v : Z) : amx Z := Amx (Sparse (Sp Csr [[(0, v)]] 1)) [r] [u "x"].
Definition ex_one_dense (r : pystr) (v : Z) : amx Z := Amx (Dense [[v]] 1) [r] [u "x"].

(** ** C32: save and load *)
(** Row-major matrices and arrays, packed or not.  Missing: column-major matrices; an array next to a stale .npz file; an unpacked
    file whose name ends in .pac. *)
Theorem C32_load_save_partial : forall {V} (f : fs V) d name (m : amx V) (pack : bool),
  shape_ok m -> row_major m -> (sparse m = false -> f (npz_of d (load_base name)) = None) -> (pack = false -> snd (splitext name) <> pac) ->
  fst (load (save f m d name pack) d name pack) = Ok m.
Proof. intros V f d name m pack. apply (load_save f d name m pack). Qed.
Print Assumptions C32_load_save_partial.
Example C32_ex : shape_ok ex_csr /\ row_major ex_csr /\ snd (splitext (u "m.wcmx")) <> pac /\
  fst (load (save no_files ex_csr dir (u "m.wcmx") false) dir (u "m.wcmx") false) = Ok ex_csr /\
  shape_ok ex_dense /\ row_major ex_dense /\ load_base (u "m.wcmx.pac") = u "m.wcmx" /\ no_files (npz_of dir (u "m.wcmx")) = None /\
  fst (load (save no_files ex_dense dir (u "m.wcmx.pac") true) dir (u "m.wcmx") true) = Ok ex_dense.
Proof. split; [reflexivity|]. split; [reflexivity|]. split; [discriminate|]. split; [vm_compute; reflexivity|]. repeat split; vm_compute; reflexivity. Qed.
(** Column-major matrices, as transpose makes them: an error unless square; a square one comes back with its cells exchanged. *)
Theorem C32_load_save_transposed : forall {V} (f : fs V) d name (m : amx V) s (pack : bool),
  shape_ok m -> amat m = Sparse s -> sfmt s = Csc -> (pack = false -> snd (splitext name) <> pac) ->
  fst (load (save f m d name pack) d name pack) =
    if nrows s =? ncols s then Ok (Amx (Sparse (sp_transpose s)) (arows m) (acols m)) else Err ValueError.
Proof. exact @load_save_csc. Qed.
Print Assumptions C32_load_save_transposed.
Example C32_ex_transposed : shape_ok ex_square /\ fst (load (save no_files ex_square dir (u "m") true) dir (u "m") true)
  = Ok (Amx (Sparse (Sp Csr [[(1, 7%Z)]; []] 2)) [u "a"; u "b"] [u "x"; u "y"]).
Proof. split; [reflexivity|vm_compute; reflexivity]. Qed.
(** Full statement. *)
Definition lossless (ok : fs Z -> amx Z -> pystr -> bool -> Prop) : Prop := forall f m name pack, shape_ok m -> ok f m name pack ->
  exists m', fst (load (save f m dir name pack) dir name pack) = Ok m' /\ same_matrix m' m.
Theorem C32_transposed_refuted : ~ lossless (fun f m name pack => f = no_files /\ pack = true).
Proof.
  intros H. destruct (H no_files ex_square (u "m") true eq_refl (conj eq_refl eq_refl)) as (m' & E & _ & _ & C).
  vm_compute in E. injection E as <-. specialize (C 0 1). vm_compute in C. discriminate.
Qed.
Print Assumptions C32_transposed_refuted.
(** An array, where an earlier sparse matrix was saved unpacked under the same name. *)
Theorem C32_stale_file_refuted : ~ lossless (fun f m name pack => row_major m /\ pack = true).
Proof.
  intros H. destruct (H (save no_files (ex_one (u "a") 1%Z) dir (u "m") false) (ex_one_dense (u "b") 2%Z) (u "m") true eq_refl (conj I eq_refl)) as (m' & E & _ & _ & C).
  vm_compute in E. injection E as <-. specialize (C 0 0). vm_compute in C. discriminate.
Qed.
Print Assumptions C32_stale_file_refuted.
(** An unpacked file name that ends in .pac. *)
Theorem C32_unpacked_pac_name_refuted : ~ lossless (fun f m name pack => row_major m /\ f = no_files).
Proof.
  intros H. destruct (H no_files ex_csr (u "m.pac") false eq_refl (conj eq_refl eq_refl)) as (m' & E & _). vm_compute in E. discriminate.
Qed.
Print Assumptions C32_unpacked_pac_name_refuted.

(** ** C33: a crash while saving *)
(** Packed saves.  Missing: unpacked saves; a sparse matrix replacing an array; the cases missing in C32. *)
Theorem C33_crash_packed_partial : forall {V} (f : fs V) d name (m : amx V) (old : option (amx V)) n (during : bool),
  let b := load_base name in
  shape_ok m -> row_major m -> (sparse m = false -> f (npz_of d b) = None) ->
  (match old with
   | None => f (pac_of d b) = None
   | Some o => f (pac_of d b) = Some (zip_of d b o) /\ shape_ok o /\ row_major o /\ (sparse o = false -> sparse m = false)
   end) ->
  let r := fst (load (crash f (save_steps m d name true) n during) d name true) in
  r = Ok m \/ (exists e, r = Err e) \/ exists o, old = Some o /\ r = Ok o.
Proof. exact @crash_packed. Qed.
Print Assumptions C33_crash_packed_partial.
Example C33_ex : let f := save no_files (ex_one (u "a") 1%Z) dir (u "m") true in
  f (pac_of dir (load_base (u "m"))) = Some (zip_of dir (load_base (u "m")) (ex_one (u "a") 1%Z)) /\
  fst (load (crash f (save_steps ex_csr dir (u "m") true) 1 true) dir (u "m") true) = Ok (ex_one (u "a") 1%Z) /\
  fst (load (crash f (save_steps ex_csr dir (u "m") true) 2 true) dir (u "m") true) = Err ValueError /\
  fst (load (crash f (save_steps ex_csr dir (u "m") true) 3 false) dir (u "m") true) = Ok ex_csr.
Proof. repeat split; vm_compute; reflexivity. Qed.
(** Full statement. *)
Definition crash_safe (pack : bool) : Prop := forall (old m : amx Z) name n during, shape_ok old -> row_major old -> shape_ok m -> row_major m ->
  let r := fst (load (crash (save no_files old dir name pack) (save_steps m dir name pack) n during) dir name pack) in
  (exists e, r = Err e) \/ exists x, r = Ok x /\ (same_matrix x old \/ same_matrix x m).
(** Unpacked: the new items with the old cells. *)
Theorem C33_crash_unpacked_refuted : ~ crash_safe false.
Proof.
  intros H. destruct (H (ex_one (u "a") 1%Z) (ex_one (u "b") 2%Z) (u "m") 1 false eq_refl eq_refl eq_refl eq_refl) as [(e & E)|(x & E & [(R & _)|(_ & _ & C)])];
    vm_compute in E; try discriminate; injection E as <-.
  - vm_compute in R. discriminate.
  - specialize (C 0 0). vm_compute in C. discriminate.
Qed.
Print Assumptions C33_crash_unpacked_refuted.
(** Packed, a sparse matrix replacing an array: the old items with the new cells. *)
Theorem C33_crash_packed_refuted : ~ crash_safe true.
Proof.
  intros H. destruct (H (ex_one_dense (u "a") 1%Z) (ex_one (u "b") 2%Z) (u "m") 2 false eq_refl I eq_refl eq_refl) as [(e & E)|(x & E & [(_ & _ & C)|(R & _)])];
    vm_compute in E; try discriminate; injection E as <-.
  - specialize (C 0 0). vm_compute in C. discriminate.
  - vm_compute in R. discriminate.
Qed.
Print Assumptions C33_crash_packed_refuted.

(** ** C73: other files *)
(** A packed save changes the .pac file and removes the .meta and .npz (.npy) files of that name; no other file. *)
Theorem C73_save_others_partial : forall {V} (f : fs V) (m : amx V) d name p, let b := load_base name in p <> pac_of d b ->
  save f m d name true p = if eqb p (meta_of d b) || eqb p (mx_path d b (amat m)) then None else f p.
Proof. exact @save_pack_others. Qed.
Print Assumptions C73_save_others_partial.
(** Loading a packed matrix leaves all files as they were, if there were no files of that name with .meta, .npz and .npy. *)
Theorem C73_load_others_partial : forall {V} (f : fs V) d name (o : amx V), let b := load_base name in row_major o ->
  f (pac_of d b) = Some (zip_of d b o) -> f (meta_of d b) = None -> f (npz_of d b) = None -> f (npy_of d b) = None ->
  forall p, snd (load f d name true) p = f p.
Proof. exact @load_pack_others. Qed.
Print Assumptions C73_load_others_partial.
Example C73_ex : let f := save no_files ex_csr dir (u "m") true in
  f (pac_of dir (load_base (u "m"))) = Some (zip_of dir (load_base (u "m")) ex_csr) /\ f (meta_of dir (u "m")) = None /\
  f (npz_of dir (u "m")) = None /\ f (npy_of dir (u "m")) = None.
Proof. repeat split; vm_compute; reflexivity. Qed.
(** Full statements: saving packed only writes the .pac file; loading changes nothing. *)
Definition save_only_pac : Prop := forall (f : fs Z) m name p, shape_ok m -> p <> pac_of dir (load_base name) -> save f m dir name true p = f p.
Definition load_changes_nothing : Prop := forall (f : fs Z) m name p, shape_ok m -> row_major m ->
  f (pac_of dir (load_base name)) = Some (zip_of dir (load_base name) m) -> snd (load f dir name true) p = f p.
(** A file of the user called m.meta is gone after saving "m" ... *)
Theorem C73_save_others_refuted : ~ save_only_pac.
Proof.
  intros H. specialize (H (put no_files (meta_of dir (u "m")) (Some (FOther (u "notes")))) ex_csr (u "m") (meta_of dir (u "m")) eq_refl ltac:(discriminate)).
  vm_compute in H. discriminate.
Qed.
Print Assumptions C73_save_others_refuted.
(** ... and after loading "m". *)
Theorem C73_load_others_refuted : ~ load_changes_nothing.
Proof.
  intros H. specialize (H (put (save no_files ex_csr dir (u "m") true) (meta_of dir (u "m")) (Some (FOther (u "notes")))) ex_csr (u "m") (meta_of dir (u "m")) eq_refl eq_refl eq_refl).
  vm_compute in H. discriminate.
Qed.
Print Assumptions C73_load_others_refuted.

(** ** C74: renaming a packed file *)
(** Full statement: a packed matrix can be loaded under another name. *)
Definition rename {V} (f : fs V) (p q : path) : fs V := put (put f p None) q (f p).
Definition renamed_loads : Prop := forall (m : amx Z) name name', shape_ok m -> row_major m ->
  fst (load (rename (save no_files m dir name true) (pac_of dir (load_base name)) (pac_of dir (load_base name'))) dir name' true) = Ok m.
Theorem C74_renamed_refuted : ~ renamed_loads.
Proof. intros H. specialize (H ex_csr (u "m") (u "n") eq_refl eq_refl). vm_compute in H. discriminate. Qed.
Print Assumptions C74_renamed_refuted.
(** Worse: next to an unpacked matrix of the new name it loads that one instead. *)
Definition renamed_never_another : Prop := forall (f : fs Z) (m m' : amx Z) name name', shape_ok m -> row_major m ->
  f (pac_of dir (load_base name)) = Some (zip_of dir (load_base name) m) ->
  fst (load (rename f (pac_of dir (load_base name)) (pac_of dir (load_base name'))) dir name' true) = Ok m' -> same_matrix m' m.
Theorem C74_renamed_another_refuted : ~ renamed_never_another.
Proof.
  intros H. specialize (H (save (save no_files ex_csr dir (u "m") true) (ex_one (u "a") 1%Z) dir (u "n") false) ex_csr (ex_one (u "a") 1%Z) (u "m") (u "n") eq_refl eq_refl).
  destruct H as (R & _); [vm_compute; reflexivity|vm_compute; reflexivity|]. discriminate.
Qed.
Print Assumptions C74_renamed_another_refuted.
(** Copying the file to another directory under the same name works (missing for C74: another name). *)
Theorem C74_moved_partial : forall {V} (f : fs V) d d' name (m : amx V), let b := load_base name in
  shape_ok m -> row_major m -> (sparse m = false -> f (npz_of d' b) = None) -> f (pac_of d b) = Some (zip_of d b m) ->
  fst (load (put f (pac_of d' b) (f (pac_of d b))) d' name true) = Ok m.
Proof.
  intros V f d d' name m b S R N P. apply load_packed; auto; fold b.
  - intros D. unfold put. rewrite n13. auto.
  - unfold put. rewrite eqb_refl, P. unfold zip_of. destruct (amat m); reflexivity.
Qed.
Print Assumptions C74_moved_partial.
