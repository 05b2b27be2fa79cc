(** * Token matrices of a corpus: one row per occurrence, and the distances in the text. *)
From Coq Require Import String NArith ZArith Bool Arith Lia Permutation List.
From Verif Require Import Base BaseLemmas Str StrLemmas VocabModel TermsModel TermsProofs CorpusModel CorpusSpec CorpusSegProofs CorpusTokProofs CorpusMoreProofs
  MxModel MxSpec MxTtmProofs MxOpsProofs TokMxModel TokMxSpec TokMxProofs.
From Verif Require DepMatchProofs.
Import ListNotations.
Local Open Scope nat_scope.

(** ** Lists and strings *)
Lemma NoDup_flat_map {A B} (f : A -> list B) l : NoDup l -> (forall x, In x l -> NoDup (f x)) ->
  (forall x y z, In x l -> In y l -> In z (f x) -> In z (f y) -> x = y) -> NoDup (flat_map f l).
Proof.
  induction l as [|x l IH]; intros N F D; cbn [flat_map]; [constructor|]. inversion N as [|? ? NI N']; subst. apply NoDup_app'.
  - apply F; cbn; auto.
  - apply IH; auto; [intros; apply F; cbn; auto|]. intros a b z Ia Ib. apply D; cbn; auto.
  - intros z I1 I2. apply in_flat_map in I2 as (y & Iy & I2). apply NI. rewrite (D x y z); cbn; auto.
Qed.
Lemma NoDup_map_inj {A B} (f : A -> B) l : NoDup l -> (forall x y, In x l -> In y l -> f x = f y -> x = y) -> NoDup (map f l).
Proof.
  induction 1 as [|x l NI N IH]; intros D; cbn [map]; constructor.
  - intros I. apply in_map_iff in I as (y & E & Iy). apply NI. rewrite (D x y); cbn; auto.
  - apply IH. intros; apply D; cbn; auto.
Qed.
Lemma dedup_id {A} `{EqDec A} (l : list A) : NoDup l -> dedup l = l.
Proof.
  induction 1 as [|x l NI N IH]; [reflexivity|]. cbn [dedup]. rewrite IH. f_equal. clear -NI. induction l as [|y l IH]; [reflexivity|]. cbn [filter].
  cbn in NI. replace (eqb x y) with false by (symmetry; apply eqb_neq; intros ->; auto). cbn [negb]. f_equal. apply IH. tauto.
Qed.
Lemma split_app c s t : split c (s ++ c :: t) = split c s ++ split c t.
Proof.
  induction s as [|x s IH]; cbn [app split]; [now destruct (eqdec c c)|]. destruct (eqdec x c); [now rewrite IH|]. rewrite IH.
  destruct (split c s) as [|p ps] eqn:E; [elim (split_nonempty _ _ E)|]. reflexivity.
Qed.
Lemma join_snoc c l p : l <> [] -> join c (l ++ [p]) = join c l ++ c :: p.
Proof.
  induction l as [|x l IH]; [congruence|]. intros _. destruct l as [|y l]; [reflexivity|].
  change (join c ((x :: y :: l) ++ [p])) with (x ++ c :: join c ((y :: l) ++ [p])). rewrite IH by discriminate.
  change (join c (x :: y :: l)) with (x ++ c :: join c (y :: l)). now rewrite <- app_assoc.
Qed.
Lemma split_join2 c vals a b : ~ In c a -> ~ In c b -> exists pre, split c (join c (vals ++ [a; b])) = pre ++ [a; b].
Proof.
  intros Na Nb. change [a; b] with ([a] ++ [b]) at 1. rewrite app_assoc, join_snoc by now destruct vals. rewrite split_app, (split_noc_id c b Nb).
  destruct vals as [|v vals].
  - exists []. cbn [app join]. now rewrite (split_noc_id c a Na).
  - rewrite join_snoc by discriminate. rewrite split_app, (split_noc_id c a Na). exists (split c (join c (v :: vals))). now rewrite <- app_assoc.
Qed.
Lemma split_join_ge c l : l <> [] -> length l <= length (split c (join c l)).
Proof.
  induction l as [|x l IH]; [congruence|]. intros _. destruct l as [|y l].
  - cbn [join length]. destruct (split c x) eqn:E; [elim (split_nonempty _ _ E)|cbn; lia].
  - change (join c (x :: y :: l)) with (x ++ c :: join c (y :: l)). rewrite split_app, app_length. specialize (IH ltac:(discriminate)).
    assert (1 <= length (split c x)) by (destruct (split c x) eqn:E; [elim (split_nonempty _ _ E)|cbn; lia]). cbn [length] in *. lia.
Qed.
Lemma str_of_Z_slash z : ~ In slash (str_of_Z z).
Proof. intros I. apply str_of_Z_chars in I as [I|I]; vm_compute in I; discriminate. Qed.
Lemma str_of_nat_inj a b : str_of_Z (Z.of_nat a) = str_of_Z (Z.of_nat b) -> a = b.
Proof. intros E. assert (H : Ok (Z.of_nat a) = Ok (Z.of_nat b)) by (rewrite <- !int_str; now rewrite E). injection H as H. lia. Qed.

Lemma Forall2_fst {A B C} (P : A * B -> A * C -> Prop) a b : Forall2 (fun f fd => fst fd = fst f /\ P f fd) a b -> map fst b = map fst a.
Proof. induction 1 as [|f fd a b [Q _] _ IH]; [reflexivity|]. cbn [map]. now rewrite Q, IH. Qed.

(** ** Lines of the segments *)
Section Lines.
  Context {L M : Type} (match_line : L -> option M) (separator : L -> bool).
  Lemma segs_lids lid lines : (forall x, In x (concat (segments_from match_line separator lid lines)) -> lid < snd x) /\
    NoDup (map snd (concat (segments_from match_line separator lid lines))).
  Proof.
    revert lid. induction lines as [|y lines IH]; intros lid; cbn [segments_from]; [split; [intros x []|constructor]|].
    destruct (IH (S lid)) as [B N]. destruct (match_line y) as [m|].
    - destruct (segments_from_cons match_line separator (S lid) lines) as (seg & segs & E). rewrite E in *. cbn [concat app] in *. split.
      + intros x [<-|I]; cbn; [lia|]. specialize (B x I). lia.
      + cbn [map snd]. constructor; [|exact N]. intros I. apply in_map_iff in I as (x & Q & I). specialize (B x I). lia.
    - destruct (separator y); cbn [concat app]; (split; [intros x I; specialize (B x I); lia|exact N]).
  Qed.
  Lemma same_line lines xs ys i j x y : In xs (segments match_line separator lines) -> In ys (segments match_line separator lines) ->
    nth_error xs i = Some x -> nth_error ys j = Some y -> snd x = snd y -> xs = ys /\ i = j /\ x = y.
  Proof.
    unfold segments. destruct (segs_lids 0 lines) as [_ N]. revert N. generalize (segments_from match_line separator 0 lines).
    intros segs N Ix Iy Nx Ny E.
    assert (Ex : xs = ys).
    { clear -N Ix Iy Nx Ny E. apply nth_error_In in Nx, Ny. induction segs as [|s segs IH]; [destruct Ix|]. cbn [concat] in N. rewrite map_app in N.
      assert (Ds : forall p q, In p s -> In q (concat segs) -> snd p = snd q -> False).
      { intros p q Ip Iq Q. clear -N Ip Iq Q. induction s as [|z s IH]; [destruct Ip|]. cbn [map app] in N. inversion N as [|? ? NI N']; subst.
        destruct Ip as [->|Ip]; [|auto]. apply NI. apply in_or_app. right. rewrite Q. now apply in_map. }
      assert (N' : NoDup (map snd (concat segs))) by (clear -N; induction (map snd s) as [|z l IH]; [exact N|inversion N; auto]).
      destruct Ix as [->|Ix], Iy as [->|Iy]; [reflexivity| | |auto].
      - exfalso. apply (Ds x y Nx); [|exact E]. apply in_concat. eauto.
      - exfalso. apply (Ds y x Ny); [|auto]. apply in_concat. eauto. }
    subst ys. split; [reflexivity|].
    assert (Nxs : NoDup (map snd xs)).
    { clear -N Ix. induction segs as [|s segs IH]; [destruct Ix|]. cbn [concat] in N. rewrite map_app in N. destruct Ix as [->|Ix].
      - clear -N. induction (map snd xs) as [|z l IH]; [constructor|]. cbn [app] in N. inversion N as [|? ? NI N']; subst. constructor; [|auto].
        intros I. apply NI, in_or_app. auto.
      - apply IH; [|exact Ix]. clear -N. induction (map snd s) as [|z l IH]; [exact N|inversion N; auto]. }
    assert (i = j); [|subst; split; [reflexivity|congruence]].
    eapply (proj1 (NoDup_nth_error _) Nxs).
    - rewrite map_length. apply nth_error_Some. congruence.
    - rewrite (map_nth_error _ _ _ Nx), (map_nth_error _ _ _ Ny). congruence.
  Qed.
End Lines.

(** ** Windows *)
Lemma nth_skipn {A} (l : list A) n k : nth_error (skipn n l) k = nth_error l (n + k).
Proof. revert l. induction n as [|n IH]; intros l; [reflexivity|]. destruct l as [|x l]; [now destruct k|]. cbn [skipn plus nth_error]. apply IH. Qed.
Lemma nth_firstn {A} (l : list A) n k : nth_error (firstn n l) k = if k <? n then nth_error l k else None.
Proof.
  revert l k. induction n as [|n IH]; intros l k; [now destruct k|]. destruct l as [|x l]; cbn [firstn].
  - destruct k; cbn [nth_error]; now destruct (_ <? _).
  - destruct k as [|k]; [reflexivity|]. cbn [nth_error]. rewrite IH. reflexivity.
Qed.
Lemma left_length {A} l (xs : list A) i : i <= length xs -> length (left_ctx l xs i) = i - (i - l).
Proof. intros I. unfold left_ctx. rewrite skipn_length, firstn_length. lia. Qed.
Lemma occurs_window {M} (gc : M -> pystr) l r (xs : list (M * nat)) i c z : i < length xs ->
  occurs (map (fun x => gc (fst x)) (left_ctx l xs i)) (map (fun x => gc (fst x)) (right_ctx r xs i)) c z <->
  exists j, seen_at gc l r xs i c j /\ z = (Z.of_nat j - Z.of_nat i)%Z.
Proof.
  intros I. unfold occurs, seen_at, in_window. rewrite map_length, left_length by lia. split.
  - intros [(k & Nk & ->)|(k & Nk & ->)]; rewrite nth_error_map in Nk; destruct (nth_error _ k) as [x|] eqn:E; cbn in Nk; try discriminate; injection Nk as Nk.
    + unfold left_ctx in E. rewrite nth_skipn, nth_firstn in E. destruct (Nat.ltb_spec (i - l + k) i); [|discriminate]. exists (i - l + k).
      split; [split; [|eauto]|lia]. rewrite !andb_true_iff, negb_true_iff, Nat.eqb_neq, !Nat.leb_le. lia.
    + unfold right_ctx in E. rewrite nth_firstn, nth_skipn in E. destruct (Nat.ltb_spec k r); [|discriminate]. exists (S i + k).
      split; [split; [|eauto]|lia]. rewrite !andb_true_iff, negb_true_iff, Nat.eqb_neq, !Nat.leb_le. lia.
  - intros (j & (W & x & Nj & <-) & ->). rewrite !andb_true_iff, negb_true_iff, Nat.eqb_neq, !Nat.leb_le in W. destruct W as [[Ne W1] W2].
    destruct (Nat.lt_ge_cases j i) as [Lt|Ge]; [left; exists (j - (i - l))|right; exists (j - S i)].
    + split; [|lia]. rewrite nth_error_map. unfold left_ctx. rewrite nth_skipn, nth_firstn. replace (i - l + (j - (i - l))) with j by lia.
      destruct (Nat.ltb_spec j i); [|lia]. now rewrite Nj.
    + split; [|lia]. rewrite nth_error_map. unfold right_ctx. rewrite nth_firstn, nth_skipn. replace (S i + (j - S i)) with j by lia.
      destruct (Nat.ltb_spec (j - S i) r); [|lia]. now rewrite Nj.
Qed.

(** ** The corpus *)
Section Pipe.
  Context {L M : Type} (match_line : L -> option M) (separator : L -> bool) (get_type get_colloc : M -> pystr)
          (word lemma pos : M -> option pystr) (tfmt kfmt cfmt : pystr) (cs : list pystr) (order : list pystr -> list pystr)
          (cv : vocab) (l r : nat) (qs : list pystr) (files : list (pystr * list L)).
  Hypothesis order_perm : forall x, Permutation x (order x).
  Hypothesis r_pos : 0 < r.
  Hypothesis cfmt_ne : cfmt <> [].
  Hypothesis colloc_ok : forall m, fmt_join (item_attrs (word m) (lemma m) (pos m)) cfmt = Ok (get_colloc m).
  Hypothesis kfmt_ok : split slash kfmt = cs ++ [f_fid; f_lid].
  Hypothesis token_ok : forall m c, In c cs -> exists v, dget (item_attrs (word m) (lemma m) (pos m)) c = Some (Some v).
  Hypothesis fids : NoDup (map fst files).
  Hypothesis fids_ok : forall f, In f files -> ~ In slash (fst f).

  Let keep (x : M * nat) : bool := if v_len cv =? 0 then true else v_contains cv (get_colloc (fst x)).
  Let segs (lines : list L) := segments match_line separator lines.
  Let ctok' := ctok_of word lemma pos tfmt kfmt cfmt.
  Definition tok_at (xs : list (M * nat)) (i : nat) (x : M * nat) : @token M :=
    Token x (filter keep (left_ctx l xs i)) (filter keep (right_ctx r xs i)).

  Lemma kstr fid (t : @token M) : exists vals, ct_str (ctok' fid t) = Ok (join slash (vals ++ [fid; str_of_Z (Z.of_nat (snd (tk_node t)))])).
  Proof.
    set (m := fst (tk_node t)). set (a := item_attrs (word m) (lemma m) (pos m)).
    assert (F : exists vals, Forall2 (fun c v => dget a c = Some (Some v)) cs vals).
    { assert (H : forall c, In c cs -> exists v, dget a c = Some (Some v)) by (intros c; apply token_ok). clear -H.
      induction cs as [|c cs' IH]; [exists []; constructor|]. destruct (H c (or_introl eq_refl)) as (v & V). destruct IH as (vs & F).
      { intros c' I. apply H. cbn; auto. } exists (v :: vs). now constructor. }
    destruct F as (vals & F). exists vals. unfold ct_str, ctok', ctok_of. cbn [ct_node]. unfold kn_token. cbn [kn_attrs kn_format]. fold m. fold a.
    apply fmt_join_ok. rewrite kfmt_ok. apply Forall2_app.
    - clear -F. induction F as [|c v cs vs E F IH]; constructor; auto. now rewrite dget_app, E.
    - repeat constructor; rewrite dget_app; reflexivity.
  Qed.
  Lemma kstr_inj fid t fid' t' s : ~ In slash fid -> ~ In slash fid' -> ct_str (ctok' fid t) = Ok s -> ct_str (ctok' fid' t') = Ok s ->
    fid = fid' /\ snd (tk_node t) = snd (tk_node t').
  Proof.
    intros N N' E E'. destruct (kstr fid t) as (v & K). destruct (kstr fid' t') as (v' & K'). rewrite K in E. rewrite K' in E'.
    apply (f_equal (fun o : res pystr => match o with Ok y => y | Err _ => [] end)) in E, E'. cbv beta iota in E, E'.
    destruct (split_join2 slash v fid (str_of_Z (Z.of_nat (snd (tk_node t)))) N (str_of_Z_slash _)) as (p & S1).
    destruct (split_join2 slash v' fid' (str_of_Z (Z.of_nat (snd (tk_node t')))) N' (str_of_Z_slash _)) as (p' & S2).
    assert (S3 : p ++ [fid; str_of_Z (Z.of_nat (snd (tk_node t)))] = p' ++ [fid'; str_of_Z (Z.of_nat (snd (tk_node t')))]).
    { transitivity (split slash s); [rewrite <- E; symmetry; exact S1|rewrite <- E'; exact S2]. }
    clear S2. rename S3 into S2.
    change (p ++ [fid; str_of_Z (Z.of_nat (snd (tk_node t)))]) with (p ++ [fid] ++ [str_of_Z (Z.of_nat (snd (tk_node t)))]) in S2.
    change (p' ++ [fid'; str_of_Z (Z.of_nat (snd (tk_node t')))]) with (p' ++ [fid'] ++ [str_of_Z (Z.of_nat (snd (tk_node t')))]) in S2.
    rewrite !app_assoc in S2. apply app_inj_tail in S2 as [S2 Q]. apply app_inj_tail in S2 as [_ ->]. split; [reflexivity|]. now apply str_of_nat_inj.
  Qed.

  Lemma colloc_str m fmt : fmt = Some cfmt -> to_colloc (inode_of word lemma pos tfmt cfmt m) fmt = Ok (get_colloc m).
  Proof.
    intros ->. unfold to_colloc, to_fmt, inode_of. cbn [in_attrs in_cfmt]. destruct cfmt as [|c f] eqn:E; [congruence|]. cbn [truthy]. apply colloc_ok.
  Qed.
  Lemma tok_collocs fid t : collocs_are (Some cfmt) (ctok' fid t) (map (fun x => get_colloc (fst x)) (tk_left t)) (map (fun x => get_colloc (fst x)) (tk_right t)).
  Proof.
    apply collocs_code. unfold ctok', ctok_of. cbn [ct_l ct_r]. split; [generalize (tk_left t)|generalize (tk_right t)]; intros x; induction x; cbn [map]; constructor; auto using colloc_str.
  Qed.
  Lemma collocs_fun fmt t ls rs ls' rs' : collocs_are fmt t ls rs -> collocs_are fmt t ls' rs' -> ls = ls' /\ rs = rs'.
  Proof.
    assert (X : forall n a b, Forall2 (fun n s => to_colloc n fmt = Ok s) n a -> Forall2 (fun n s => to_colloc n fmt = Ok s) n b -> a = b).
    { intros n a b F. revert b. induction F; intros b G; inversion G; subst; [reflexivity|]. f_equal; [congruence|auto]. }
    rewrite !collocs_code. intros [A B] [A' B']. split; eauto.
  Qed.

  (** The tokens of all files *)
  Lemma retrieve_inv m : retrieve_tokens word lemma pos tfmt kfmt cfmt match_line separator get_type get_colloc order cv l r qs files = Ok m ->
    exists ds, nodes_to_matrix order (Some cfmt) (nodes_of_files word lemma pos tfmt kfmt cfmt ds) = Ok m /\
      Forall2 (fun f fd => fst fd = fst f /\
        tok_update_one_file match_line separator get_type get_colloc cv l r (snd f) (tok_init qs) = Ok (snd fd)) files ds.
  Proof.
    unfold retrieve_tokens. destruct (rmapm _ files) as [ds|] eqn:E; cbn [rbind]; [|discriminate]. intros Q. exists ds. split; [exact Q|].
    apply DepMatchProofs.rmapm_ok in E. clear Q fids fids_ok. induction E as [|f fd a b H E IH]; constructor; auto. apply DepMatchProofs.rmap_ok in H.
    destruct H as (d & H & ->). cbn [fst snd]. auto.
  Qed.

  Lemma file_dict f fd : In f files -> tok_update_one_file match_line separator get_type get_colloc cv l r (snd f) (tok_init qs) = Ok fd ->
    forall k, dget fd k = if mem k qs then Some (flat_map (seg_tokens get_type keep l r k) (segs (snd f))) else None.
  Proof.
    intros _ E. destruct (tokens_exact match_line separator get_type get_colloc cv l r (snd f) qs r_pos) as (d & E' & G).
    assert (d = fd) by congruence. subst d. exact G.
  Qed.
  Lemma seg_tokens_In k xs t : In t (seg_tokens get_type keep l r k xs) <-> exists i x, nth_error xs i = Some x /\ get_type (fst x) = k /\ t = tok_at xs i x.
  Proof.
    unfold seg_tokens. rewrite in_flat_map. split.
    - intros (i & _ & I). destruct (nth_error xs i) as [x|] eqn:E; [|destruct I]. destruct (eqb (get_type (fst x)) k) eqn:Q; [|destruct I].
      apply (proj1 (eqb_eq _ _)) in Q. destruct I as [<-|[]]. exists i, x. repeat split; [exact E|exact Q].
    - intros (i & x & E & Q & ->). exists i. split; [apply in_seq; assert (i < length xs) by (apply nth_error_Some; congruence); lia|].
      rewrite E, Q, eqb_refl. cbn; auto.
  Qed.

  Section Files.
    Context (ds : list (pystr * @tokdict M)).
    Hypothesis ds_ok : Forall2 (fun f fd => fst fd = fst f /\
        tok_update_one_file match_line separator get_type get_colloc cv l r (snd f) (tok_init qs) = Ok (snd fd)) files ds.
    Let nodes := nodes_of_files word lemma pos tfmt kfmt cfmt ds.
    (** pairs of file id and token *)
    Definition ptoks : list (pystr * @token M) :=
      match ds with
      | [] => []
      | f0 :: _ => flat_map (fun k => flat_map (fun f => map (fun t => (fst f, t)) (match dget (snd f) k with Some x => x | None => [] end)) ds) (dkeys (snd f0))
      end.
    Lemma toks_ptoks : toks_of nodes = map (fun p => ctok' (fst p) (snd p)) ptoks.
    Proof.
      unfold toks_of, nodes, nodes_of_files, ptoks. destruct ds as [|f0 ds'] eqn:E; [reflexivity|]. rewrite <- E. clear E. unfold dvals. rewrite map_map. cbn [snd].
      generalize (dkeys (snd f0)). intros ks. induction ks as [|k ks IH]; [reflexivity|]. cbn [map flat_map]. rewrite map_app, IH. f_equal. cbn [tn_tokens]. clear.
      induction ds as [|f d IH]; [reflexivity|]. cbn [flat_map]. rewrite map_app, IH. f_equal. rewrite map_map. reflexivity.
    Qed.
    Lemma ptoks_In fid t : In (fid, t) ptoks <-> exists f xs i x, In f files /\ fst f = fid /\ In xs (segs (snd f)) /\ nth_error xs i = Some x /\
      In (get_type (fst x)) qs /\ t = tok_at xs i x.
    Proof.
      assert (G : forall fd, In fd ds -> exists f, In f files /\ fst f = fst fd /\ forall k, dget (snd fd) k =
        if mem k qs then Some (flat_map (seg_tokens get_type keep l r k) (segs (snd f))) else None).
      { intros fd I. destruct (Forall2_In_r _ _ _ _ ds_ok I) as (f & If & Ef & H). exists f. split; [exact If|]. split; [auto|]. now apply file_dict. }
      assert (K : forall f0 ds', ds = f0 :: ds' -> forall k, In k (dkeys (snd f0)) <-> In k qs).
      { intros f0 ds' E k. destruct (G f0) as (f & _ & _ & Gf); [rewrite E; cbn; auto|]. rewrite <- (dmem_In (snd f0) k). unfold dmem.
        rewrite Gf, <- mem_In. destruct (mem k qs); split; congruence. }
      unfold ptoks. split.
      - intros I. destruct ds as [|f0 ds'] eqn:E; [destruct I|]. rewrite <- E in *. apply in_flat_map in I as (k & Ik & I). apply in_flat_map in I as (fd & Ifd & I).
        apply in_map_iff in I as (t' & Q & I). injection Q as <- ->. destruct (G fd Ifd) as (f & If & Ef & Gf). rewrite Gf in I. destruct (mem k qs) eqn:Mk; [|destruct I].
        apply in_flat_map in I as (xs & Ixs & I). apply seg_tokens_In in I as (i & x & Nx & Qx & ->). exists f, xs, i, x. apply mem_In in Mk. subst k. auto 10.
      - intros (f & xs & i & x & If & <- & Ixs & Nx & Iq & ->). destruct (Forall2_In_l _ _ _ _ ds_ok If) as (fd & Ifd & Ef & H).
        destruct ds as [|f0 ds'] eqn:E; [destruct Ifd|]. rewrite <- E in *. apply in_flat_map. exists (get_type (fst x)). split; [now apply (K f0 ds' E)|].
        apply in_flat_map. exists fd. split; [exact Ifd|]. apply in_map_iff. exists (tok_at xs i x). split; [apply f_equal2; [exact Ef|reflexivity]|].
        rewrite (file_dict f (snd fd) If H), (proj2 (mem_In _ _) Iq). apply in_flat_map. exists xs. split; [exact Ixs|]. apply seg_tokens_In. eauto.
    Qed.

    Lemma file_unique f g : In f files -> In g files -> fst f = fst g -> f = g.
    Proof.
      clear -fids. revert fids. generalize files. intros fl N. induction fl as [|h fl IH]; [intros []|]. cbn [map] in N. inversion N as [|? ? NI N']; subst.
      intros [<-|If] [<-|Ig] E; auto; exfalso; apply NI; [rewrite E|rewrite <- E]; now apply in_map.
    Qed.
    Lemma ptoks_inj p q : In p ptoks -> In q ptoks -> fst p = fst q -> snd (tk_node (snd p)) = snd (tk_node (snd q)) -> p = q.
    Proof.
      destruct p as [fid t], q as [fid' t']. cbn [fst snd]. intros Ip Iq <- Et. apply ptoks_In in Ip as (f & xs & i & x & If & Ef & Ixs & Nx & _ & ->).
      apply ptoks_In in Iq as (g & ys & j & y & Ig & Eg & Iys & Ny & _ & ->). assert (f = g) by (apply file_unique; congruence). subst g.
      cbn [tok_at tk_node] in Et. destruct (same_line match_line separator (snd f) xs ys i j x y Ixs Iys Nx Ny Et) as (-> & -> & ->). reflexivity.
    Qed.
    Lemma ptoks_NoDup : NoDup ptoks.
    Proof.
      assert (X : NoDup (map (fun p => (fst p, tk_node (snd p))) ptoks)); [|eapply NoDup_map_inv; exact X].
      assert (KD : forall f0 ds', ds = f0 :: ds' -> NoDup (dkeys (snd f0))).
      { intros f0 ds' E. destruct (Forall2_In_r _ _ _ f0 ds_ok) as (f & _ & _ & H); [rewrite E; cbn; auto|].
        destruct (tok_file match_line separator get_type get_colloc cv l r (snd f) (tok_init qs)) as (d & Ed & Kd & _); [lia|].
        rewrite H in Ed. injection Ed as <-. rewrite Kd. apply dwf_dict_of. }
      assert (FD : NoDup (map fst ds)).
{ rewrite (Forall2_fst _ _ _ ds_ok). exact fids. }
      assert (G : forall fd k, In fd ds -> exists f, fst f = fst fd /\
        map tk_node (match dget (snd fd) k with Some x => x | None => [] end) = if mem k qs then filter (fun x => eqb (get_type (fst x)) k) (concat (segs (snd f))) else []).
      { intros fd k I. destruct (Forall2_In_r _ _ _ _ ds_ok I) as (f & If & Ef & H). exists f. split; [auto|]. rewrite (file_dict f (snd fd) If H).
        destruct (mem k qs); [|reflexivity]. generalize (segs (snd f)). intros sg. induction sg as [|xs sg IH]; [reflexivity|]. cbn [flat_map concat].
        rewrite map_app, filter_app, IH. f_equal. apply seg_tokens_nodes. }
      unfold ptoks. destruct ds as [|f0 ds'] eqn:E; [constructor|]. rewrite <- E in *. specialize (KD f0 ds' E).
      set (part := fun k (f : pystr * @tokdict M) => map (fun x => (fst f, x)) (map tk_node (match dget (snd f) k with Some x => x | None => [] end))).
      assert (Q : forall ks, map (fun p : pystr * @token M => (fst p, tk_node (snd p)))
         (flat_map (fun k => flat_map (fun f => map (fun t => (fst f, t)) (match dget (snd f) k with Some x => x | None => [] end)) ds) ks)
         = flat_map (fun k => flat_map (part k) ds) ks).
      { intros ks. induction ks as [|k ks IH]; [reflexivity|]. cbn [flat_map]. rewrite map_app, IH. f_equal. clear. induction ds as [|f d IH]; [reflexivity|].
        cbn [flat_map]. rewrite map_app, IH. f_equal. unfold part. rewrite !map_map. reflexivity. }
      rewrite Q. assert (Pk : forall k fd fid x, In fd ds -> In (fid, x) (part k fd) -> fid = fst fd /\ get_type (fst x) = k).
      { intros k fd fid x I J. unfold part in J. apply in_map_iff in J as (y & Ey & J). injection Ey as <- ->. split; [reflexivity|].
        destruct (G fd k I) as (f & _ & Gf). rewrite Gf in J. destruct (mem k qs); [|destruct J]. apply filter_In in J as [_ J]. now apply (proj1 (eqb_eq _ _)) in J. }
      apply NoDup_flat_map; [exact KD| |].
      - intros k _. apply NoDup_flat_map; [eapply NoDup_map_inv; exact FD| |].
        + intros fd I. unfold part. apply NoDup_map_inj; [|intros x y _ _ W; injection W; auto]. destruct (G fd k I) as (f & _ & ->).
          destruct (mem k qs); [|constructor]. apply NoDup_filter. eapply NoDup_map_inv. apply (segs_lids match_line separator 0 (snd f)).
        + intros a b [fid x] Ia Ib J1 J2. apply Pk in J1 as [-> _]; [|exact Ia]. apply Pk in J2 as [J2 _]; [|exact Ib]. clear -FD Ia Ib J2. induction ds as [|h d IH]; [destruct Ia|].
          cbn [map] in FD. inversion FD as [|? ? NI N']; subst. destruct Ia as [<-|Ia], Ib as [<-|Ib]; auto; exfalso; apply NI; [rewrite J2|rewrite <- J2]; now apply in_map.
      - intros k1 k2 [fid x] _ _ J1 J2. apply in_flat_map in J1 as (f1 & I1 & J1). apply in_flat_map in J2 as (f2 & I2 & J2).
        apply Pk in J1 as [_ <-]; [|exact I1]. apply Pk in J2 as [_ J2]; [|exact I2]. exact J2.
    Qed.
    Definition occs : list (pystr * (M * nat)) :=
      flat_map (fun f => map (fun x => (fst f, x)) (filter (fun x => mem (get_type (fst x)) qs) (concat (segs (snd f))))) files.
    Lemma ptoks_occs : Permutation (map (fun p => (fst p, tk_node (snd p))) ptoks) occs.
    Proof.
      apply NoDup_Permutation.
      - apply NoDup_map_inj; [apply ptoks_NoDup|]. intros p q Ip Iq E. injection E as E1 E2. apply ptoks_inj; auto. now rewrite E2.
      - unfold occs. apply NoDup_flat_map; [eapply NoDup_map_inv; exact fids| |].
        + intros f _. apply NoDup_map_inj; [|intros x y _ _ W; injection W; auto]. apply NoDup_filter. eapply NoDup_map_inv. apply (segs_lids match_line separator 0 (snd f)).
        + intros f g [fid x] If Ig J1 J2. apply in_map_iff in J1 as (y & E1 & _). apply in_map_iff in J2 as (z & E2 & _). apply file_unique; congruence.
      - intros [fid x]. unfold occs. rewrite in_map_iff, in_flat_map. split.
        + intros ([fid' t] & E & I). cbn [fst snd] in E. injection E as <- <-. apply ptoks_In in I as (f & xs & i & x & If & <- & Ixs & Nx & Iq & ->).
          exists f. split; [exact If|]. cbn [tok_at tk_node]. apply in_map. apply filter_In. split; [|now apply mem_In]. apply in_concat. exists xs. split; [exact Ixs|].
          eapply nth_error_In; exact Nx.
        + intros (f & If & J). apply in_map_iff in J as (y & E & J). injection E as <- ->. apply filter_In in J as [J Iq]. apply mem_In in Iq.
          apply in_concat in J as (xs & Ixs & J). apply In_nth_error in J as (i & Nx). exists (fst f, tok_at xs i x). split; [reflexivity|].
          apply ptoks_In. exists f, xs, i, x. auto 10.
    Qed.
  End Files.

  Notation retrieve := (retrieve_tokens word lemma pos tfmt kfmt cfmt match_line separator get_type get_colloc order cv l r qs files).

  (** Number of occurrences of the queries *)
  Lemma one_row_each m : retrieve = Ok m ->
    length (trows m) = sumn (map (fun f => length (filter (fun x => mem (get_type x) qs) (matches_of match_line (snd f)))) files).
  Proof.
    intros E. destruct (retrieve_inv m E) as (ds & En & Hds).
    assert (F : exists ss, Forall2 (fun t s => ct_str t = Ok s) (toks_of (nodes_of_files word lemma pos tfmt kfmt cfmt ds)) ss /\ NoDup ss).
    { rewrite (toks_ptoks ds Hds). assert (N : NoDup (ptoks ds)) by now apply ptoks_NoDup.
      assert (I : forall p, In p (ptoks ds) -> ~ In slash (fst p)).
      { intros [fid t] Ip. apply (ptoks_In ds Hds) in Ip as (f & _ & _ & _ & If & <- & _). cbn. now apply fids_ok. }
      assert (J : forall p q, In p (ptoks ds) -> In q (ptoks ds) -> fst p = fst q -> snd (tk_node (snd p)) = snd (tk_node (snd q)) -> p = q)
        by (intros; eapply ptoks_inj; eauto).
      revert N I J. generalize (ptoks ds). intros ps. induction ps as [|p ps IH]; intros N I J; [exists []; split; constructor|].
      inversion N as [|? ? NI N']; subst. destruct IH as (ss & F & Ns); auto; [intros; apply I; cbn; auto|intros; apply J; cbn; auto|].
      destruct (kstr (fst p) (snd p)) as (vals & K). eexists. split; [cbn [map]; constructor; [exact K|exact F]|]. constructor; [|exact Ns]. intros Is.
      destruct (Forall2_In_r _ _ _ _ F Is) as (t & It & Q). apply in_map_iff in It as (q & <- & Iq). apply NI.
      destruct (kstr_inj (fst p) (snd p) (fst q) (snd q) _ (I p (or_introl eq_refl)) (I q (or_intror Iq)) K Q) as [Q1 Q2].
      replace p with q; [exact Iq|]. symmetry. apply J; [now left|now right|exact Q1|exact Q2]. }
    destruct F as (ss & F & N). rewrite (rows_count order order_perm _ _ _ ss En F), (dedup_id ss N), <- (Forall2_length' _ _ _ F), (toks_ptoks ds Hds), map_length.
    assert (P := Permutation_length (ptoks_occs ds Hds)). rewrite map_length in P. rewrite P. unfold occs.
    unfold segs, segments. clear. induction files as [|f fl IH]; [reflexivity|]. cbn [flat_map map]. rewrite app_length, map_length.
    match goal with |- _ = sumn (?a :: ?b) => change (sumn (a :: b)) with (a + sumn b) end. apply f_equal2; [|exact IH].
    rewrite <- (segments_concat match_line separator 0 (snd f)). generalize (concat (segments_from match_line separator 0 (snd f))).
    intros xs. induction xs as [|x xs IHx]; [reflexivity|]. cbn [filter map]. destruct (mem (get_type (fst x)) qs); cbn [length]; auto.
  Qed.

  (** The row of an occurrence *)
  Lemma occurrence_row m f xs i x : retrieve = Ok m -> In f files -> In xs (segs (snd f)) -> nth_error xs i = Some x -> In (get_type (fst x)) qs ->
    exists s, ct_str (ctok' (fst f) (tok_at xs i x)) = Ok s /\ In s (trows m) /\
      let ls := map (fun y => get_colloc (fst y)) (filter keep (left_ctx l xs i)) in
      let rs := map (fun y => get_colloc (fst y)) (filter keep (right_ctx r xs i)) in
      forall c, (In c (ls ++ rs) -> rightmost ls rs c (val m s c)) /\ (~ In c (ls ++ rs) -> val m s c = 0%Z).
  Proof.
    intros E If Ixs Nx Iq. destruct (retrieve_inv m E) as (ds & En & Hds). destruct (token_matrix order order_perm _ _ _ En) as (G & HR & _ & HV).
    destruct (kstr (fst f) (tok_at xs i x)) as (vals & K). eexists. split; [exact K|]. set (s := join _ _) in *.
    assert (Ip : In (fst f, tok_at xs i x) (ptoks ds)) by (apply (ptoks_In ds Hds); exists f, xs, i, x; auto 10).
    assert (It : In (ctok' (fst f) (tok_at xs i x)) (toks_of (nodes_of_files word lemma pos tfmt kfmt cfmt ds))).
    { rewrite (toks_ptoks ds Hds). apply in_map_iff. exists (fst f, tok_at xs i x). auto. }
    assert (Is : In s (trows m)) by (apply HR; eauto). split; [exact Is|].
    destruct (row_last order order_perm _ _ _ s En Is) as (t & Lt). destruct (HV t s Lt) as (ls & rs & Cl & V). destruct Lt as (Et & a & b & Ets & _).
    assert (It' : In t (toks_of (nodes_of_files word lemma pos tfmt kfmt cfmt ds))) by (rewrite Ets; apply in_or_app; cbn; auto).
    rewrite (toks_ptoks ds Hds) in It'. apply in_map_iff in It' as ([fid' t'] & <- & Ip').
    assert (S1 : ~ In slash (fst f)) by now apply fids_ok.
    assert (S2 : ~ In slash fid'). { apply (ptoks_In ds Hds) in Ip' as (g & _ & _ & _ & Ig & <- & _). now apply fids_ok. }
    cbn [fst snd] in *. destruct (kstr_inj (fst f) (tok_at xs i x) fid' t' s S1 S2 K Et) as [Q1 Q2].
    assert (Q := ptoks_inj ds Hds _ _ Ip Ip' Q1 Q2). injection Q as <- <-.
    destruct (collocs_fun _ _ _ _ _ _ Cl (tok_collocs (fst f) (tok_at xs i x))) as [-> ->]. exact V.
  Qed.

  (** Without a vocabulary: distances in the text *)
  Lemma distance m f xs i x : v_len cv = 0 -> retrieve = Ok m -> In f files -> In xs (segs (snd f)) -> nth_error xs i = Some x -> In (get_type (fst x)) qs ->
    exists s, ct_str (ctok' (fst f) (tok_at xs i x)) = Ok s /\ In s (trows m) /\
      forall c, (forall j, seen_at get_colloc l r xs i c j -> (forall j', seen_at get_colloc l r xs i c j' -> j' <= j) -> val m s c = (Z.of_nat j - Z.of_nat i)%Z) /\
        ((forall j, ~ seen_at get_colloc l r xs i c j) -> val m s c = 0%Z).
  Proof.
    intros V0 E If Ixs Nx Iq. destruct (occurrence_row m f xs i x E If Ixs Nx Iq) as (s & K & Is & V). exists s. split; [exact K|]. split; [exact Is|].
    assert (KA : forall ys, filter keep ys = ys).
    { intros ys. unfold keep. rewrite V0. cbn. induction ys as [|y ys IH]; [reflexivity|]. cbn [filter]. now rewrite IH. }
    cbv zeta in V. rewrite !KA in V. assert (Li : i < length xs) by (apply nth_error_Some; congruence). intros c. destruct (V c) as [V1 V2].
    assert (OI : forall ls rs z, occurs ls rs c z -> In c (ls ++ rs)).
    { intros ls rs z [(k & Nk & _)|(k & Nk & _)]; apply in_or_app; apply nth_error_In in Nk; auto. }
    assert (IO : forall ls rs, In c (ls ++ rs) -> exists z, occurs ls rs c z).
    { intros ls rs I. apply in_app_or in I as [I|I]; apply In_nth_error in I as (k & Nk); eexists; [left|right]; eauto. }
    split.
    - intros j Sj Mj. assert (O := proj2 (occurs_window get_colloc l r xs i c (Z.of_nat j - Z.of_nat i) Li) (ex_intro _ j (conj Sj eq_refl))).
      destruct (V1 (OI _ _ _ O)) as [O' B]. apply (occurs_window get_colloc l r xs i c _ Li) in O' as (j' & Sj' & Ej'). specialize (Mj j' Sj'). specialize (B _ O). lia.
    - intros N. apply V2. intros I. destruct (IO _ _ I) as (z & O). apply (occurs_window get_colloc l r xs i c _ Li) in O as (j & Sj & _). exact (N j Sj).
  Qed.
  Lemma rows_slashes m s : retrieve = Ok m -> In s (trows m) -> length cs + 2 <= length (split slash s).
  Proof.
    intros E I. destruct (retrieve_inv m E) as (ds & En & Hds). destruct (token_matrix order order_perm _ _ _ En) as (_ & HR & _).
    destruct (proj1 (HR s) I) as (t & It & Es). rewrite (toks_ptoks ds Hds) in It. apply in_map_iff in It as ([fid t'] & <- & Ip). cbn [fst snd] in Es.
    apply (ptoks_In ds Hds) in Ip as (f & xs & i & x & _ & _ & _ & _ & _ & ->).
    unfold ct_str, ctok', ctok_of, kn_token in Es. cbn [ct_node kn_attrs kn_format] in Es. unfold fmt_join in Es. rewrite kfmt_ok in Es.
    destruct (rmapm _ (cs ++ [f_fid; f_lid])) as [vs|] eqn:R; cbn [rbind] in Es; [|discriminate]. apply DepMatchProofs.rmapm_ok in R. apply Forall2_length' in R.
    apply DepMatchProofs.rmap_ok in Es as (ws & W & ->). apply DepMatchProofs.rmapm_ok in W. apply Forall2_length' in W. rewrite app_length in R. cbn [length] in R.
    assert (Lw : length cs + 2 <= length ws) by lia. assert (G := split_join_ge slash ws). destruct ws as [|w ws]; [cbn in Lw; lia|]. specialize (G ltac:(discriminate)). lia.
  Qed.
End Pipe.
