(** * Saving and loading matrices: proofs. *)
From Coq Require Import NArith ZArith Bool Arith Lia List.
From Verif Require Import Base BaseLemmas Str MxModel MxSpec MxProofs MxFileModel.
Import ListNotations.

Section FileProofs.
  Context {V : Type}.
  Implicit Types (m : amx V) (s : sp V) (f : fs V).

  (** ** The three arrays *)
  Lemma cumul_length n (ls : list (list (nat * V))) : length (cumul n ls) = S (length ls).
  Proof. revert n. induction ls as [|l t IH]; intros n; [reflexivity|]. cbn [cumul length]. now rewrite IH. Qed.
  Lemma cumul_last n (ls : list (list (nat * V))) : last (cumul n ls) 0 = n + length (concat ls).
  Proof.
    revert n. induction ls as [|l t IH]; intros n; [cbn; lia|]. cbn [cumul concat]. rewrite app_length.
    assert (X : forall a (q : list nat), q <> [] -> last (a :: q) 0 = last q 0) by (intros a [|]; [congruence|reflexivity]).
    rewrite X by (destruct t; discriminate). rewrite IH. lia.
  Qed.
  Lemma cut_cumul (ls : list (list (nat * V))) : forall pre n, n = length pre -> cut (pre ++ concat ls) (cumul n ls) = ls.
  Proof.
    induction ls as [|l t IH]; intros pre n E; [reflexivity|]. cbn [cumul concat].
    assert (X : forall q, cumul (n + length l) t = q -> cut (pre ++ l ++ concat t) (n :: q) = firstn (n + length l - n) (skipn n (pre ++ l ++ concat t)) :: cut (pre ++ l ++ concat t) q).
    { intros q <-. destruct t; reflexivity. }
    rewrite (X _ eq_refl). f_equal.
    - replace (n + length l - n) with (length l) by lia. subst n. rewrite skipn_app, skipn_all, Nat.sub_diag. cbn [skipn app]. rewrite firstn_app, firstn_all, Nat.sub_diag. apply app_nil_r.
    - rewrite app_assoc. apply IH. rewrite app_length. lia.
  Qed.
  Lemma combine_split' (l : list (nat * V)) : combine (map fst l) (map snd l) = l.
  Proof. induction l as [|[a b] t IH]; [reflexivity|]. cbn. now rewrite IH. Qed.
  Lemma csr_of_arrays s nr nc : csr_of (sp_data s) (sp_indices s) (sp_indptr s) nr nc = if nmajor s =? nr then Ok (Sp Csr (lanes s) nc) else Err ValueError.
  Proof.
    unfold csr_of, sp_data, sp_indices, sp_indptr, nmajor. rewrite cumul_length, cumul_last. cbn [Nat.eqb]. destruct (length (lanes s) =? nr); [|reflexivity]. cbn [negb].
    assert (H : hd 0 (cumul 0 (lanes s)) = 0) by (destruct (lanes s); reflexivity). rewrite H, !map_length. cbn [Nat.add]. rewrite !Nat.eqb_refl, Nat.leb_refl. cbn [negb].
    rewrite combine_split'. pose proof (cut_cumul (lanes s) [] 0 eq_refl) as C. cbn [app] in C. rewrite C. reflexivity.
  Qed.
  (** A csr matrix is read back; of a csc matrix the lanes are read back as rows. *)
  Lemma read_sparse s : read_mx (Some (mx_file (Sparse s))) true =
    match sfmt s with
    | Csr => Ok (Sparse s)
    | Csc => if nrows s =? ncols s then Ok (Sparse (Sp Csr (lanes s) (nminor s))) else Err ValueError
    end.
  Proof.
    cbn [mx_file read_mx]. rewrite csr_of_arrays. unfold nrows, ncols. destruct s as [[|] ls nm]; cbn [sfmt nmajor lanes nminor].
    - unfold nmajor. cbn [lanes]. now rewrite Nat.eqb_refl.
    - unfold nmajor. cbn [lanes]. rewrite (Nat.eqb_sym nm). destruct (Nat.eqb_spec (length ls) nm) as [->|]; reflexivity.
  Qed.

  (** ** Names *)
  Lemma ext_neq d b e1 e2 : e1 <> e2 -> eqb ((d, b ++ e1) : path) (d, b ++ e2) = false.
  Proof. intros N. apply eqb_neq. intros E. injection E as E. apply app_inv_head in E. auto. Qed.
  Ltac nq := unfold meta_of, npz_of, npy_of, pac_of, pac; intros; apply ext_neq; discriminate.
  Lemma n01 d b : eqb (meta_of d b) (npz_of d b) = false. Proof. nq. Qed.
  Lemma n02 d b : eqb (meta_of d b) (npy_of d b) = false. Proof. nq. Qed.
  Lemma n03 d b : eqb (meta_of d b) (pac_of d b) = false. Proof. nq. Qed.
  Lemma n10 d b : eqb (npz_of d b) (meta_of d b) = false. Proof. nq. Qed.
  Lemma n12 d b : eqb (npz_of d b) (npy_of d b) = false. Proof. nq. Qed.
  Lemma n13 d b : eqb (npz_of d b) (pac_of d b) = false. Proof. nq. Qed.
  Lemma n20 d b : eqb (npy_of d b) (meta_of d b) = false. Proof. nq. Qed.
  Lemma n21 d b : eqb (npy_of d b) (npz_of d b) = false. Proof. nq. Qed.
  Lemma n23 d b : eqb (npy_of d b) (pac_of d b) = false. Proof. nq. Qed.
  Lemma n30 d b : eqb (pac_of d b) (meta_of d b) = false. Proof. nq. Qed.
  Lemma n31 d b : eqb (pac_of d b) (npz_of d b) = false. Proof. nq. Qed.
  Lemma n32 d b : eqb (pac_of d b) (npy_of d b) = false. Proof. nq. Qed.
  Hint Rewrite n01 n02 n03 n10 n12 n13 n20 n21 n23 n30 n31 n32 : names.
  Lemma pat_eq d b (x : anymx V) : (d, snd (mx_path d b x)) = mx_path d b x. Proof. destruct x; reflexivity. Qed.
  Lemma pme_eq d b : (d, snd (meta_of d b)) = meta_of d b. Proof. reflexivity. Qed.
  Ltac paths := unfold put; repeat (rewrite eqb_refl || (progress autorewrite with names)).

  Definition shape_ok m : Prop := mk_amx (amat m) (arows m) (acols m) = Ok m.
  Definition row_major m : Prop := match amat m with Sparse s => sfmt s = Csr | Dense _ _ => True end.
  Definition sparse m : bool := match amat m with Sparse _ => true | Dense _ _ => false end.

  (** Loading from files written for [m]; a stale .npz file hides an .npy file. *)
  Lemma load_from_ok f d b m pack : shape_ok m -> row_major m -> (sparse m = false -> f (npz_of d b) = None) ->
    f (meta_of d b) = Some (FMeta (arows m) (acols m)) -> f (mx_path d b (amat m)) = Some (mx_file (amat m)) ->
    fst (load_from f d b pack) = Ok m.
  Proof.
    intros S R N M X. unfold load_from, row_major, sparse, shape_ok in *. destruct (amat m) as [s|l n] eqn:A; cbn [mx_path] in X.
    - rewrite X. rewrite M. rewrite read_sparse, R. exact S.
    - rewrite (N eq_refl). rewrite X, M. cbn [mx_file read_mx]. exact S.
  Qed.
  Lemma load_base_pack (name : pystr) : load_base name = save_base name true. Proof. reflexivity. Qed.
  Definition zip_of d b m : file V := FZip [(snd (meta_of d b), FMeta (arows m) (acols m)); (snd (mx_path d b (amat m)), mx_file (amat m))].
  (** Loading a packed matrix, whatever else is in the directory. *)
  Lemma load_packed f d name m : let b := load_base name in shape_ok m -> row_major m -> (sparse m = false -> f (npz_of d b) = None) ->
    f (pac_of d b) = Some (zip_of d b m) -> fst (load f d name true) = Ok m.
  Proof.
    intros b S R N P. unfold load. fold b. rewrite P. unfold zip_of, extract. cbn [map fst snd]. rewrite pme_eq, pat_eq. cbn [do_steps fold_left do_step].
    apply load_from_ok; auto.
    - intros Q. specialize (N Q). unfold sparse in Q. destruct (amat m); [discriminate|]. cbn [mx_path]. paths. exact N.
    - destruct (amat m); cbn [mx_path]; paths; reflexivity.
    - paths. reflexivity.
  Qed.
  Lemma load_save f d name m (pack : bool) : let b := load_base name in shape_ok m -> row_major m ->
    (sparse m = false -> f (npz_of d b) = None) -> (pack = false -> snd (splitext name) <> pac) ->
    fst (load (save f m d name pack) d name pack) = Ok m.
  Proof.
    intros b S R N NM. destruct pack.
    - apply load_packed; auto; fold b; unfold save, save_steps; rewrite <- load_base_pack; fold b; cbn [app do_steps fold_left do_step].
      + intros Q. specialize (N Q). unfold sparse in Q. destruct (amat m); [discriminate|]. cbn [mx_path]. paths. exact N.
      + unfold zip_of. destruct (amat m); cbn [mx_path]; paths; reflexivity.
    - unfold load. assert (B : b = name). { unfold b, load_base. destruct (eqb _ pac) eqn:E; [|reflexivity]. apply eqb_true in E. now contradiction (NM eq_refl). }
      fold b. apply load_from_ok; auto; unfold save, save_steps, save_base; rewrite <- B; cbn [app do_steps fold_left do_step].
      + intros Q. specialize (N Q). unfold sparse in Q. destruct (amat m); [discriminate|]. cbn [mx_path]. paths. exact N.
      + destruct (amat m); cbn [mx_path]; paths; reflexivity.
      + paths. reflexivity.
  Qed.
  (** Column-major (transposed) matrices: an error unless square, and the lanes read as rows if square. *)
  Lemma load_save_csc f d name m s (pack : bool) : shape_ok m -> amat m = Sparse s -> sfmt s = Csc -> (pack = false -> snd (splitext name) <> pac) ->
    fst (load (save f m d name pack) d name pack) =
      if nrows s =? ncols s then Ok (Amx (Sparse (sp_transpose s)) (arows m) (acols m)) else Err ValueError.
  Proof.
    intros S A F NM. assert (X : forall g b, g (meta_of d b) = Some (FMeta (arows m) (acols m)) -> g (npz_of d b) = Some (mx_file (Sparse s)) ->
      forall p, fst (load_from g d b p) = if nrows s =? ncols s then Ok (Amx (Sparse (sp_transpose s)) (arows m) (acols m)) else Err ValueError).
    { intros g b GM GX p. unfold load_from. rewrite GX, GM. rewrite read_sparse, F. destruct (Nat.eqb_spec (nrows s) (ncols s)) as [E|]; [|reflexivity].
      unfold shape_ok, mk_amx in *. rewrite A in S. unfold sp_transpose. rewrite F. cbn [fst]. destruct s as [sf ls nm]. cbn in F. subst sf.
      unfold nrows, ncols, nmajor in *. cbn [sfmt lanes nminor] in *. rewrite <- E in *. destruct (negb (nm =? length (arows m))); [discriminate|]. destruct (negb (nm =? length (acols m))); [discriminate|]. reflexivity. }
    assert (B : pack = false -> load_base name = name). { intros P. unfold load_base. destruct (eqb _ pac) eqn:E; [|reflexivity]. apply eqb_true in E. now contradiction (NM P). }
    unfold load, save, save_steps. rewrite A. destruct pack.
    - rewrite <- load_base_pack. set (b := load_base name). cbn [app do_steps fold_left do_step mx_path]. paths. unfold extract. cbn [map fst snd]. rewrite pme_eq.
      change (d, snd (npz_of d b)) with (npz_of d b). cbn [do_steps fold_left do_step]. apply X; paths; reflexivity.
    - rewrite (B eq_refl). unfold save_base. cbn [app do_steps fold_left do_step mx_path]. apply X; paths; reflexivity.
  Qed.

  (** ** Crashes *)
  Lemma crash_other f l n (during : bool) p : (forall q c, In (Write q c) l -> q <> p) -> (forall q, In (Remove q) l -> q <> p) -> crash f l n during p = f p.
  Proof.
    intros W R. assert (X : forall l' g, incl l' l -> do_steps g l' p = g p).
    { induction l' as [|s t IH]; intros g I; [reflexivity|]. cbn [do_steps fold_left]. fold (do_steps (do_step g s) t). rewrite IH by (intros x Ix; apply I; now right).
      assert (Is : In s l) by (apply I; now left). destruct s as [q c|q]; cbn [do_step]; unfold put.
      - destruct (eqb p q) eqn:E; [apply eqb_true in E; subst; now contradiction (W _ _ Is)|reflexivity].
      - destruct (eqb p q) eqn:E; [apply eqb_true in E; subst; now contradiction (R _ Is)|reflexivity]. }
    assert (F : do_steps f (firstn n l) p = f p) by (apply X; intros x I; rewrite <- (firstn_skipn n l); apply in_app_iff; now left).
    unfold crash. destruct during; [|exact F]. destruct (nth_error l n) as [[q c|q]|] eqn:E; try exact F.
    unfold put. destruct (eqb p q) eqn:Q; [|exact F]. apply eqb_true in Q. subst. apply nth_error_In in E. now contradiction (W _ _ E).
  Qed.
  (** The packed file during a packed save: as before, cut off, or complete. *)
  Lemma crash_pac f m d name n (during : bool) : let b := load_base name in let f' := crash f (save_steps m d name true) n during in
    f' (pac_of d b) = f (pac_of d b) \/ f' (pac_of d b) = Some FCut \/ f' (pac_of d b) = Some (zip_of d b m).
  Proof.
    cbv zeta. unfold save_steps, crash. rewrite <- load_base_pack. set (b := load_base name). cbn [app].
    assert (Q : eqb (pac_of d b) (mx_path d b (amat m)) = false) by (destruct (amat m); cbn [mx_path]; autorewrite with names; reflexivity).
    do 6 (destruct n as [|n]; [cbn [firstn do_steps fold_left do_step nth_error]; destruct during; unfold put; rewrite ?eqb_refl, ?n30, ?Q; auto|]).
    cbn [firstn do_steps fold_left do_step nth_error]. destruct during; [destruct n; cbn [nth_error]|]; unfold put; rewrite ?eqb_refl, ?n30, ?Q; auto.
  Qed.
  Lemma crash_npz f m d name n (during : bool) : sparse m = false -> crash f (save_steps m d name true) n during (npz_of d (load_base name)) = f (npz_of d (load_base name)).
  Proof.
    intros D. unfold sparse in D. apply crash_other.
    - intros q c I. unfold save_steps in I. rewrite <- load_base_pack in I. destruct (amat m); [discriminate|]. cbn [mx_path app In] in I.
      destruct I as [E|[E|[E|[E|[E|[]]]]]]; try discriminate; injection E as <- _; apply eqb_neq; autorewrite with names; reflexivity.
    - intros q I. unfold save_steps in I. rewrite <- load_base_pack in I. destruct (amat m); [discriminate|]. cbn [mx_path app In] in I.
      destruct I as [E|[E|[E|[E|[E|[]]]]]]; try discriminate; injection E as <-; apply eqb_neq; autorewrite with names; reflexivity.
  Qed.
  (** A packed save interrupted anywhere: the new matrix, the old one or an error.  [old] is the packed matrix that was there, if any. *)
  Lemma crash_packed f d name m old n (during : bool) : let b := load_base name in
    shape_ok m -> row_major m -> (sparse m = false -> f (npz_of d b) = None) ->
    (match old with
     | None => f (pac_of d b) = None
     | Some o => f (pac_of d b) = Some (zip_of d b o) /\ shape_ok o /\ row_major o /\ (sparse o = false -> sparse m = false)
     end) ->
    let r := fst (load (crash f (save_steps m d name true) n during) d name true) in
    r = Ok m \/ (exists e, r = Err e) \/ exists o, old = Some o /\ r = Ok o.
  Proof.
    cbv zeta. intros S R N O. set (b := load_base name) in *. set (f' := crash f _ n during).
    assert (NZ : sparse m = false -> f' (npz_of d b) = None) by (intros D; unfold f', b; rewrite crash_npz; auto).
    destruct (crash_pac f m d name n during) as [P|[P|P]]; cbv zeta in P; fold b in P; fold f' in P.
    - destruct old as [o|].
      + destruct O as (PO & SO & RO & DO). right. right. exists o. split; [reflexivity|]. apply load_packed; auto. fold b. congruence.
      + right. left. exists IOError. unfold load. fold b. now rewrite P, O.
    - right. left. exists ValueError. unfold load. fold b. now rewrite P.
    - left. apply load_packed; auto.
  Qed.

  (** ** Other files *)
  Lemma save_pack_others f m d name p : let b := load_base name in p <> pac_of d b ->
    save f m d name true p = if eqb p (meta_of d b) || eqb p (mx_path d b (amat m)) then None else f p.
  Proof.
    cbv zeta. intros NP. unfold save, save_steps. rewrite <- load_base_pack. set (b := load_base name) in *. cbn [app do_steps fold_left do_step]. unfold put.
    apply eqb_neq in NP. rewrite NP. destruct (eqb p (meta_of d b)), (eqb p (mx_path d b (amat m))); reflexivity.
  Qed.
  Lemma load_pack_others f d name o : let b := load_base name in row_major o ->
    f (pac_of d b) = Some (zip_of d b o) -> f (meta_of d b) = None -> f (npz_of d b) = None -> f (npy_of d b) = None ->
    forall p, snd (load f d name true) p = f p.
  Proof.
    cbv zeta. intros R P NM NZ NY p. unfold load. set (b := load_base name) in *. rewrite P. unfold zip_of, extract. cbn [map fst snd]. rewrite pme_eq, pat_eq. cbn [do_steps fold_left do_step].
    unfold load_from. unfold row_major in R. destruct (amat o) as [s|l nn] eqn:A; cbn [mx_path].
    - unfold put at 1. rewrite eqb_refl. cbv iota beta. unfold put at 1 2. rewrite n01, eqb_refl. unfold put at 1. rewrite eqb_refl. rewrite read_sparse, R. cbn [snd]. unfold put.
      destruct (eqb p (npz_of d b)) eqn:E1; [apply eqb_true in E1; now subst|]. destruct (eqb p (meta_of d b)) eqn:E2; [apply eqb_true in E2; now subst|reflexivity].
    - assert (Z0 : put (put f (meta_of d b) (Some (FMeta (arows o) (acols o)))) (npy_of d b) (Some (mx_file (Dense l nn))) (npz_of d b) = None) by (paths; exact NZ). rewrite Z0.
      assert (Z1 : put (put f (meta_of d b) (Some (FMeta (arows o) (acols o)))) (npy_of d b) (Some (mx_file (Dense l nn))) (npy_of d b) = Some (FNpy l nn)) by (paths; reflexivity). rewrite Z1.
      assert (Z2 : put (put f (meta_of d b) (Some (FMeta (arows o) (acols o)))) (npy_of d b) (Some (mx_file (Dense l nn))) (meta_of d b) = Some (FMeta (arows o) (acols o))) by (paths; reflexivity). rewrite Z2.
      cbn [read_mx]. cbn [snd]. unfold put. destruct (eqb p (npy_of d b)) eqn:E1; [apply eqb_true in E1; now subst|]. destruct (eqb p (meta_of d b)) eqn:E2; [apply eqb_true in E2; now subst|reflexivity].
  Qed.
End FileProofs.
