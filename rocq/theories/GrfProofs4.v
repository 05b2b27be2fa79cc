(** * Printed graphs; setters of macros; feature_old. *)
From Coq Require Import String NArith ZArith Bool Arith Permutation Sorted Lia List.
From Verif Require Import Base BaseLemmas Str StrLemmas VocabModel CorpusModel ParModel MxModel DepModel DepSpec JsonProofs GrfModel GrfSpec GrfProofs.
Import ListNotations.
Local Open Scope string_scope.
Local Open Scope nat_scope.
Local Open Scope list_scope.

(** ** The unlabelled head *)
Lemma root_error {M} (re_match : pystr -> pystr -> option M) s p v t b a lb la r :
  In v (nodes s) -> In t (nodes p) -> length (nodes p) <> 1 -> preds s v = b :: lb -> preds p t = a :: la ->
  a <> (-1)%Z -> b <> (-1)%Z -> has_rel s (b, v) r -> In b (nodes s) -> (forall x, dget (gnodes s) b = Some x -> dget x (u "label") = None) ->
  match_sub_template re_match s p v t = ([], Err KeyError).
Proof.
  intros Hv Ht N Ps Pp Na Nb R Hb L. unfold match_sub_template.
  destruct (length (nodes p)) as [|k] eqn:E; [destruct (nodes p); [destruct Ht|discriminate]|].
  cbn [msub length]. rewrite E. replace (1 =? S k) with false by (symmetry; apply Nat.eqb_neq; lia).
  unfold gpreds at 1. rewrite (proj2 (mem_In t (nodes p)) Ht), Pp. cbn [wget wfor]. rewrite (proj2 (Z.eqb_neq _ _) Na).
  unfold gpreds at 1. rewrite (proj2 (mem_In v (nodes s)) Hv), Ps. cbn [wget wfor]. rewrite (proj2 (Z.eqb_neq _ _) Nb).
  unfold fits at 1. cbn [fst snd]. rewrite (has_rel_erel _ _ _ _ R). cbn [rbind].
  assert (nlabel s b = Err KeyError) as ->.
  { unfold nlabel, look. destruct (dget (gnodes s) b) as [x|] eqn:Ex; [|reflexivity]. cbn [rbind]. rewrite (L x eq_refl). reflexivity. }
  reflexivity.
Qed.

(** ** SentenceGraph.__repr__ *)
Lemma upd_length {A} (l : list A) i x : length (upd l i x) = length l.
Proof. revert i. induction l as [|y l IH]; intros [|i]; cbn; auto. Qed.
Lemma nth_upd {A} (l : list A) i j x : i < length l -> nth_error (upd l i x) j = if i =? j then Some x else nth_error l j.
Proof.
  revert i j. induction l as [|y l IH]; intros [|i] [|j] H; cbn in *; try lia; try reflexivity. apply IH. lia.
Qed.
Definition fill (d : dict Z attrs) (l : list (option aval)) : res (list (option aval)) :=
  rfold (fun l va => put l (fst va) (Some (repr_label (snd va)))) d l.
Lemma fill_ok d : forall l, NoDup (dkeys d) -> (forall v, In v (dkeys d) -> (0 <= v < Z.of_nat (length l))%Z) ->
  exists l', fill d l = Ok l' /\ length l' = length l /\
    forall i, i < length l -> nth_error l' i = match dget d (Z.of_nat i) with Some a => Some (Some (repr_label a)) | None => nth_error l i end.
Proof.
  unfold fill. induction d as [|[v a] d IH]; intros l D R; [exists l; repeat split; reflexivity|].
  cbn [dkeys map fst] in D, R. inversion D; subst. pose proof (R v (or_introl eq_refl)) as Rv.
  cbn [rfold fst snd]. unfold put, py_index. replace (0 <=? v)%Z with true by (symmetry; apply Z.leb_le; lia).
  replace (Z.to_nat v <? length l) with true by (symmetry; apply Nat.ltb_lt; lia). cbn [rbind].
  destruct (IH (upd l (Z.to_nat v) (Some (repr_label a)))) as (l' & E & L & N).
  - exact H2.
  - intros w Hw. rewrite upd_length. apply R. right. exact Hw.
  - exists l'. split; [exact E|]. rewrite upd_length in *. split; [exact L|]. intros i Hi. rewrite (N i Hi). cbn [dget].
    rewrite nth_upd by lia. destruct (eqdec (Z.of_nat i) v) as [Ev|Ev].
    + subst v. rewrite Nat2Z.id, Nat.eqb_refl. replace (dget d (Z.of_nat i)) with (@None attrs); [reflexivity|].
      symmetry. apply dget_None. exact H1.
    + replace (Z.to_nat v =? i) with false by (symmetry; apply Nat.eqb_neq; lia). reflexivity.
Qed.
Lemma rmapm_cells (l : list (option aval)) xs : map (fun x => Some (AStr x)) xs = l -> rmapm join_cell l = Ok xs.
Proof. intros <-. induction xs as [|x xs IH]; [reflexivity|]. cbn [map rmapm join_cell rbind]. rewrite IH. reflexivity. Qed.
Lemma repr_numbered g xs : gwf g -> numbered g -> length xs = length (nodes g) ->
  (forall i x, nth_error xs i = Some x -> shows g i x) -> sentence_repr g = Ok (join 32%N xs).
Proof.
  intros (D & _) Nb L Sh. unfold sentence_repr.
  destruct (fill_ok (gnodes g) (repeat None (length (nodes g)))) as (l' & E & L' & N').
  - exact D.
  - intros v Hv. rewrite repeat_length. apply Nb. exact Hv.
  - unfold fill in E. rewrite E. cbn [rbind]. rewrite repeat_length in *. rewrite (rmapm_cells l' xs); [reflexivity|].
    assert (G : forall (a b : list (option aval)), length a = length b -> (forall i, i < length a -> nth_error a i = nth_error b i) -> a = b).
    { clear. induction a as [|x a IH]; intros [|y b] L H; try discriminate; [reflexivity|]. f_equal.
      - specialize (H 0). cbn in H. assert (Some x = Some y) by (apply H; lia). congruence.
      - apply IH; [cbn in L; lia|]. intros i Hi. apply (H (S i)). cbn. lia. }
    apply G; [rewrite map_length; lia|]. intros i Hi. rewrite map_length in Hi. rewrite nth_error_map.
    destruct (nth_error xs i) as [x|] eqn:Ex; [|apply nth_error_None in Ex; lia]. cbn [option_map].
    rewrite N' by lia. destruct (Sh _ _ Ex) as (a & Ha & Hl). rewrite Ha. unfold repr_label.
    destruct (dget a (u "label")); congruence.
Qed.
Lemma fill_index d v : forall l, In v (dkeys d) -> (Z.of_nat (length l) <= v)%Z -> fill d l = Err IndexError.
Proof.
  unfold fill. induction d as [|[w a] d IH]; intros l Hv R; [destruct Hv|]. cbn [rfold fst snd].
  destruct Hv as [<- |Hv].
  - cbn [fst] in *. unfold put, py_index. replace (0 <=? w)%Z with true by (symmetry; apply Z.leb_le; lia).
    replace (Z.to_nat w <? length l) with false by (symmetry; apply Nat.ltb_ge; lia). reflexivity.
  - unfold put. destruct (py_index (length l) w); cbn [rbind]; [|reflexivity]. apply IH; [exact Hv|]. rewrite upd_length. exact R.
Qed.
Lemma repr_gap g v : In v (nodes g) -> (Z.of_nat (length (nodes g)) <= v)%Z -> sentence_repr g = Err IndexError.
Proof.
  intros Hv R. unfold sentence_repr. pose proof (fill_index (gnodes g) v (repeat None (length (nodes g))) Hv) as F. rewrite repeat_length in F.
  unfold fill in F. rewrite (F R). reflexivity.
Qed.
(** Numbers that are not negative and below the number of nodes fill the range. *)
Lemma numbered_or_gap g : gwf g -> (forall v, In v (nodes g) -> (0 <= v)%Z) ->
  numbered g \/ exists v, In v (nodes g) /\ (Z.of_nat (length (nodes g)) <= v)%Z.
Proof.
  intros (D & _) P. destruct (existsb (fun v => (Z.of_nat (length (nodes g)) <=? v)%Z) (nodes g)) eqn:E.
  - right. apply existsb_exists in E. destruct E as (v & Hv & E). exists v. split; [exact Hv|]. apply Z.leb_le. exact E.
  - left. assert (Q : forall v, In v (nodes g) -> (v < Z.of_nat (length (nodes g)))%Z).
    { intros v Hv. destruct (Z_lt_le_dec v (Z.of_nat (length (nodes g)))) as [G|G]; [exact G|]. exfalso.
      assert (existsb (fun v => (Z.of_nat (length (nodes g)) <=? v)%Z) (nodes g) = true); [|congruence].
      apply existsb_exists. exists v. split; [exact Hv|]. apply Z.leb_le. exact G. }
    intros v. split; [intros Hv; split; [apply P|apply Q]; exact Hv|]. intros R.
    assert (I : incl (map Z.of_nat (seq 0 (length (nodes g)))) (nodes g)).
    { apply NoDup_length_incl; [exact D|rewrite map_length, seq_length; apply le_n|].
      intros w Hw. apply in_map_iff. exists (Z.to_nat w). split; [apply Z2Nat.id, P, Hw|]. apply in_seq. specialize (P _ Hw). specialize (Q _ Hw). lia. }
    apply I. apply in_map_iff. exists (Z.to_nat v). split; [lia|]. apply in_seq. lia.
Qed.
Lemma repr_unlabelled g : gwf g -> numbered g -> lacks g (u "label") -> sentence_repr g = Ok (join 32%N (repeat (u "ROOT") (length (nodes g)))).
Proof.
  intros W Nb L. apply repr_numbered; [exact W|exact Nb|apply repeat_length|]. intros i x E.
  assert (i < length (nodes g)) by (rewrite <- (repeat_length (u "ROOT")); apply nth_error_Some; congruence).
  assert (Hi : In (Z.of_nat i) (nodes g)) by (apply Nb; lia). destruct (dget_key_Some _ _ Hi) as [a Ha]. exists a. split; [exact Ha|].
  rewrite (L _ _ Ha). apply nth_error_In, repeat_spec in E. exact E.
Qed.

Lemma cells_bad l c : In c l -> join_cell c = Err TypeError -> rmapm join_cell l = Err TypeError.
Proof.
  induction l as [|d l IH]; intros H E; [destruct H|]. cbn [rmapm]. destruct H as [-> |H]; [rewrite E; reflexivity|].
  rewrite (IH H E). destruct d as [[x|z]|]; reflexivity.
Qed.
Lemma repr_integer g v a z : gwf g -> numbered g -> dget (gnodes g) v = Some a -> dget a (u "label") = Some (AInt z) -> sentence_repr g = Err TypeError.
Proof.
  intros (D & _) Nb Hv Hl. unfold sentence_repr.
  destruct (fill_ok (gnodes g) (repeat None (length (nodes g)))) as (l' & E & L' & N').
  - exact D.
  - intros w Hw. rewrite repeat_length. apply Nb. exact Hw.
  - unfold fill in E. rewrite E. cbn [rbind]. rewrite repeat_length in *.
    assert (R : (0 <= v < Z.of_nat (length (nodes g)))%Z) by (apply Nb; exact (dget_Some_key _ _ _ Hv)).
    rewrite (cells_bad l' (Some (repr_label a))); [reflexivity| |].
    + apply (nth_error_In _ (Z.to_nat v)). rewrite N' by lia. rewrite Z2Nat.id by lia. rewrite Hv. reflexivity.
    + unfold repr_label. rewrite Hl. reflexivity.
Qed.

(** ** DiGraph.__repr__ *)
Definition node_line (v : Z) : pystr := u "v: " ++ str_of_Z v.
Definition rel_text (g : graph) (e : Z * Z) : pystr :=
  match dget (gedges g) e with
  | Some a => match dget a (u "rel") with Some x => str_val x | None => u "None" end
  | None => u "None"
  end.
Definition edge_line (g : graph) (e : Z * Z) : pystr := u "e: " ++ str_of_Z (fst e) ++ u " " ++ str_of_Z (snd e) ++ u " " ++ rel_text g e.
Lemma nl_num z : ~ In 10%N (str_of_Z z).
Proof. intros H. apply num_chars in H. discriminate. Qed.
Lemma nl_u (x : string) : forallb (fun c => negb (c =? 10)%N) (u x) = true -> ~ In 10%N (u x).
Proof. intros H Hin. rewrite forallb_forall in H. specialize (H _ Hin). discriminate. Qed.
Lemma node_line_nl v : ~ In 10%N (node_line v).
Proof. unfold node_line. rewrite in_app_iff. intros [H|H]; [exact (nl_u "v: " eq_refl H)|exact (nl_num _ H)]. Qed.
Lemma edge_line_nl g e : ~ In 10%N (rel_text g e) -> ~ In 10%N (edge_line g e).
Proof.
  intros R. unfold edge_line. rewrite !in_app_iff. intros [H|[H|[H|[H|[H|H]]]]];
    [exact (nl_u "e: " eq_refl H)|exact (nl_num _ H)|exact (nl_u " " eq_refl H)|exact (nl_num _ H)|exact (nl_u " " eq_refl H)|exact (R H)].
Qed.
Lemma split_c c (x : pystr) : split c (c :: x) = [] :: split c x.
Proof. change (c :: x) with (@nil N ++ c :: x). apply split_app_noc. intros []. Qed.
Lemma lines_split {A} (f : A -> pystr) l tail : (forall x, In x l -> ~ In 10%N (f x)) ->
  split 10%N (concat (map (fun x => nl ++ f x) l) ++ 10%N :: tail) = [] :: map f l ++ split 10%N tail.
Proof.
  induction l as [|x l IH]; intros H.
  - cbn [map concat app]. change (10%N :: tail) with (@nil N ++ 10%N :: tail). rewrite split_app_noc by intros []. reflexivity.
  - cbn [map concat]. rewrite <- !app_assoc.
    change (nl ++ f x ++ ?t) with (10%N :: f x ++ t). rewrite split_c. f_equal.
    assert (G : forall t, exists t', concat (map (fun x => nl ++ f x) l) ++ 10%N :: t = 10%N :: t' /\ split 10%N (concat (map (fun x => nl ++ f x) l) ++ 10%N :: t) = [] :: split 10%N t').
    { intros t. destruct l as [|y l']; cbn [map concat app].
      - exists t. split; [reflexivity|]. apply split_c.
      - eexists. split; [reflexivity|]. apply split_c. }
    destruct (G tail) as (t' & E1 & E2). rewrite IH in E2 by (intros y Hy; apply H; right; exact Hy). injection E2 as E2.
    rewrite E1. rewrite split_app_noc by (apply H; left; reflexivity).
    rewrite <- E2. reflexivity.
Qed.
Lemma digraph_lines g : (forall e, In e (edge_list g) -> ~ In 10%N (rel_text g e)) ->
  split 10%N (digraph_repr g) = [] :: map node_line (nodes g) ++ map (edge_line g) (edge_list g) ++ [[]].
Proof.
  intros H. unfold digraph_repr.
  change (map (fun v => nl ++ u "v: " ++ str_of_Z v) (nodes g)) with (map (fun v => nl ++ node_line v) (nodes g)).
  change (map (fun e => nl ++ u "e: " ++ _) (edge_list g)) with (map (fun e => nl ++ edge_line g e) (edge_list g)).
  assert (E : forall l, (forall e, In e l -> ~ In 10%N (rel_text g e)) -> exists t, concat (map (fun e => nl ++ edge_line g e) l) ++ nl = 10%N :: t /\ split 10%N t = map (edge_line g) l ++ [[]]).
  { intros l Hl. pose proof (lines_split (edge_line g) l [] (fun x Hx => edge_line_nl g x (Hl x Hx))) as Q. change (split 10%N []) with [@nil N] in Q.
    destruct l as [|e l]; [exists []; split; reflexivity|]. cbn [map concat] in *. eexists. split; [reflexivity|].
    cbn [nl app] in Q. rewrite split_c in Q. injection Q as Q. exact Q. }
  destruct (E _ H) as (t & E1 & E2). rewrite E1. rewrite lines_split by (intros; apply node_line_nl). rewrite E2. reflexivity.
Qed.

(** ** set_feature, set_target *)
Lemma dget_map_snd {K V W} `{EqDec K} (f : K -> V -> W) (d : dict K V) k : dget (map (fun kv => (fst kv, f (fst kv) (snd kv))) d) k = option_map (f k) (dget d k).
Proof. induction d as [|[k' v] d IH]; [reflexivity|]. cbn [map dget fst snd]. destruct (eqdec k k') as [-> |]; [reflexivity|exact IH]. Qed.
Lemma set_feature_node t fl g v : dget (gnodes (set_feature t fl g)) v =
  option_map (fun a => dset a (u "feature") (abool (if is_target t v then false else match dget fl v with Some b => b | None => true end))) (dget (gnodes g) v).
Proof. exact (dget_map_snd (fun k a => dset a (u "feature") (abool (if is_target t k then false else match dget fl k with Some b => b | None => true end))) (gnodes g) v). Qed.
Lemma set_feature_edge t fl g e : dget (gedges (set_feature t fl g)) e = option_map (fun a => dset a (u "feature") (abool true)) (dget (gedges g) e).
Proof. exact (dget_map_snd (fun _ a => dset a (u "feature") (abool true)) (gedges g) e). Qed.

Section Feat.
  Context {M : Type} (re_match : pystr -> pystr -> option M).
  Lemma match_attrs_lack pa a attr : In attr (dkeys pa) -> dget a attr = None -> forall d, match_attrs re_match pa a <> Ok (Some d).
  Proof.
    intros Hin L. induction pa as [|[k x] pa IH]; [destruct Hin|]. intros d. cbn [match_attrs]. unfold look.
    destruct Hin as [E|Hin].
    - cbn [fst] in E. subst k. rewrite L. discriminate.
    - destruct (dget a k); [|discriminate]. cbn [rbind]. destruct (py_match re_match x a0) as [[m|]|]; cbn [rbind]; try discriminate.
      destruct (match_attrs re_match pa a) as [[d'|]|] eqn:E; cbn; try discriminate. exfalso. exact (IH Hin d' eq_refl).
  Qed.
  Lemma match_node_feature t fl g a v d : dget a (u "feature") = None -> match_node re_match (set_feature t fl g) a v <> Ok (Some d).
  Proof.
    intros L. unfold match_node. destruct a as [|x a]; [discriminate|]. unfold look. rewrite set_feature_node.
    destruct (dget (gnodes g) v) as [pa|] eqn:Hp; [|discriminate]. cbn [option_map rbind]. apply (match_attrs_lack _ _ (u "feature")); [|exact L].
    apply dkeys_dset_In. left. reflexivity.
  Qed.
  Lemma rflat_nil {A B} (f : A -> res (list B)) l r : (forall x y, In x l -> f x = Ok y -> y = []) -> rflat f l = Ok r -> r = [].
  Proof.
    unfold rflat. revert r. induction l as [|x l IH]; intros r H E; [cbn in E; congruence|]. cbn [rmapm] in E.
    destruct (f x) as [y|] eqn:F; [|discriminate]. cbn [rbind] in E. destruct (rmapm f l) as [ys|] eqn:F'; [|discriminate]. cbn in E.
    injection E as <-. rewrite (H x y (or_introl eq_refl) F). cbn [app]. apply IH; [|reflexivity]. intros x' y' Hx. apply H. right. exact Hx.
  Qed.
  Lemma feature_no_match t fl g s m l : gwf (sgraph s) -> lacks (sgraph s) (u "feature") -> mgraph m = set_feature t fl g ->
    tree_match re_match s m = Some (Ok l) -> l = [].
  Proof.
    intros (D & _) L E. unfold tree_match. destruct (istree (sgraph s)); [|congruence].
    destruct (mem 1%Z (nodes (mgraph m))); [|discriminate]. destruct (get_root (mgraph m)) as [fr|]; [|discriminate]. cbn [option_map].
    intros H. injection H as H. revert H. apply rflat_nil. intros [v a] y Hin. cbn [fst snd]. rewrite E.
    destruct (match_node re_match (set_feature t fl g) a fr) as [[d|]|] eqn:F; [| |discriminate].
    - exfalso. revert F. apply match_node_feature. apply (L v). apply dget_In; assumption.
    - cbn. congruence.
  Qed.
  Lemma dset_fresh {K V} `{EqDec K} (d : dict K V) k x : ~ In k (dkeys d) -> dset d k x = d ++ [(k, x)].
  Proof.
    induction d as [|[k' y] d IH]; intros N; [reflexivity|]. cbn [dset app]. destruct (eqdec k k') as [-> |]; [exfalso; apply N; left; reflexivity|].
    f_equal. apply IH. intros Hin. apply N. right. exact Hin.
  Qed.
  Lemma match_attrs_key pa a k x : satisfies re_match pa a -> dget a k = None -> match_attrs re_match (pa ++ [(k, x)]) a = Err KeyError.
  Proof.
    intros S0 L. induction pa as [|[k' y] pa IH].
    - cbn. unfold look. rewrite L. reflexivity.
    - cbn [app match_attrs]. destruct (S0 k' y (or_introl eq_refl)) as (r & z & -> & Hz & Q). unfold look. rewrite Hz. cbn [rbind py_match].
      destruct (re_match r z); [|congruence]. cbn [rbind]. rewrite IH; [reflexivity|]. intros a' r' Hin. apply S0. right. exact Hin.
  Qed.
  Lemma feature_key_error t fl g v pa a : dget (gnodes g) v = Some pa -> ~ In (u "feature") (dkeys pa) -> a <> [] -> satisfies re_match pa a ->
    dget a (u "feature") = None -> match_node re_match (set_feature t fl g) a v = Err KeyError.
  Proof.
    intros Hp N Na S0 L. unfold match_node. destruct a as [|x a]; [congruence|]. unfold look. rewrite set_feature_node, Hp. cbn [option_map rbind].
    rewrite dset_fresh by exact N. apply match_attrs_key; assumption.
  Qed.
End Feat.

(** ** feature_old *)
Section Old.
  Context {M : Type} (re_match : pystr -> pystr -> option M) (re_group1 : M -> res (option pystr)) (assemble : list pystr -> list pystr -> res pystr).
  Notation fold_ := (feature_old re_match re_group1 assemble).
  Lemma old_edges_ok g es es' rs : old_edges re_match re_group1 g es = (es', Ok rs) ->
    es' = combine (dkeys es) (map MStr rs) /\ length rs = length es /\
    Forall2 (fun ex r => exists a, snd ex = MAttrs a /\ old_edge re_match re_group1 g (fst ex) (snd ex) = Ok r) es rs.
  Proof.
    revert es' rs. induction es as [|[e x] es IH]; intros es' rs E; cbn [old_edges] in E.
    - injection E as <- <-. repeat split; constructor.
    - destruct (old_edge re_match re_group1 g e x) as [r|] eqn:Ex; [|discriminate].
      destruct (old_edges re_match re_group1 g es) as [es1 [rs1|]] eqn:E1; [|discriminate]. cbn in E. injection E as <- <-.
      destruct (IH _ _ eq_refl) as (-> & L & F). split; [reflexivity|]. split; [cbn; lia|]. constructor; [|exact F].
      cbn [fst snd]. destruct x as [a|z]; [exists a; auto|]. exfalso. unfold old_edge in Ex. destruct (look (gedges g) e) as [pa|]; [|discriminate]. cbn [rbind] in Ex.
      destruct (look pa (u "deprel")); discriminate.
  Qed.
  Lemma feature_old_twice g ns e x es es' y : fold_ g ns ((e, x) :: es) = (es', Ok y) ->
    (forall k, In k (dkeys ((e, x) :: es)) -> exists r, In (k, MStr r) es') /\ fold_ g ns es' = (es', Err TypeError).
  Proof.
    unfold feature_old. destruct (rmapm (old_node re_match re_group1 g) (filter (fun va => negb (fst va =? 1)%Z) ns)) as [nl_|] eqn:En; [|discriminate].
    destruct (old_edges re_match re_group1 g ((e, x) :: es)) as [es1 [rs|]] eqn:E1; [|discriminate]. intros H. injection H as <- _.
    destruct (old_edges_ok _ _ _ _ E1) as (E2 & L & F). split.
    - intros k Hk. rewrite E2. clear - Hk L. revert Hk rs L. generalize ((e, x) :: es) as d. induction d as [|[k' v'] d IH]; intros Hk rs L; [destruct Hk|].
      destruct rs as [|r rs]; [discriminate|]. cbn [dkeys map fst combine]. destruct Hk as [<- |Hk]; [exists r; left; reflexivity|].
      destruct (IH Hk rs) as [r' Hr']; [cbn in L; lia|]. exists r'. right. exact Hr'.
    - destruct rs as [|r rs]; [discriminate|]. cbn [dkeys map fst combine] in E2. rewrite E2. cbn [old_edges].
      inversion F as [|? ? ? ? (a & Ha & Ho) _]; subst. cbn [fst snd] in *. unfold old_edge in *.
      destruct (look (gedges g) e) as [pa|]; [|discriminate]. cbn [rbind] in *. destruct (look pa (u "deprel")); [|discriminate]. reflexivity.
  Qed.
  Lemma old_repr_piece (pa a : attrs) (attr out : pystr) regex x : dget pa attr = Some regex -> dget a attr = Some x -> piece re_match re_group1 pa a attr out ->
    old_repr re_match re_group1 regex x = Ok out.
  Proof.
    intros Hr Hx (r & y & Hr' & Hy & P). assert (regex = AStr r) as -> by congruence. assert (x = AStr y) as -> by congruence.
    unfold old_repr. cbn [py_match rbind]. destruct (re_match r y) as [m|]; [|rewrite P; reflexivity].
    destruct (re_group1 m) as [[z|]|]; [rewrite P; reflexivity|destruct P|rewrite P; reflexivity].
  Qed.
  Lemma old_node_text g v a out : node_text re_match re_group1 g v a out -> old_node re_match re_group1 g (v, a) = Ok (v, out).
  Proof.
    intros (pa & x & y & Hp & Px & Py & ->). unfold old_node. cbn [fst snd rmapm]. unfold look. rewrite Hp. cbn [rbind].
    pose proof Px as (r1 & x1 & R1 & X1 & _). pose proof Py as (r2 & x2 & R2 & X2 & _). rewrite R1, X1, R2, X2. cbn [rbind].
    rewrite (old_repr_piece _ _ _ _ _ _ R1 X1 Px). cbn [rbind]. rewrite (old_repr_piece _ _ _ _ _ _ R2 X2 Py). reflexivity.
  Qed.
  Lemma old_edge_text g e x out : edge_text re_match re_group1 g e x out -> old_edge re_match re_group1 g e x = Ok out.
  Proof.
    intros (pa & a & Hp & -> & P). unfold old_edge, look. rewrite Hp. cbn [rbind]. pose proof P as (r1 & x1 & R1 & X1 & _). rewrite R1, X1. cbn [rbind].
    exact (old_repr_piece _ _ _ _ _ _ R1 X1 P).
  Qed.
  Lemma old_nodes_all g ns l : Forall2 (fun va vx => fst va = fst vx /\ node_text re_match re_group1 g (fst va) (snd va) (snd vx)) ns l ->
    rmapm (old_node re_match re_group1 g) ns = Ok l.
  Proof.
    intros F. induction F as [|[v a] [w x] ns l [E H] F IH]; [reflexivity|]. cbn [fst snd] in *. subst w. cbn [rmapm].
    rewrite (old_node_text _ _ _ _ H). cbn [rbind]. rewrite IH. reflexivity.
  Qed.
  Lemma old_edges_all g es rs : Forall2 (fun ex r => edge_text re_match re_group1 g (fst ex) (snd ex) r) es rs ->
    old_edges re_match re_group1 g es = (combine (dkeys es) (map MStr rs), Ok rs).
  Proof.
    intros F. induction F as [|[e x] r es rs H F IH]; [reflexivity|]. cbn [fst snd] in H. cbn [old_edges]. rewrite (old_edge_text _ _ _ _ H), IH. reflexivity.
  Qed.
  Lemma sorted_unique (a b : list (Z * pystr)) : Permutation a b -> NoDup (map fst a) -> StronglySorted (fun x y => (fst x <=? fst y)%Z = true) a ->
    StronglySorted (fun x y => (fst x <= fst y)%Z) b -> a = b.
  Proof.
    revert b. induction a as [|x a IH]; intros b P D Sa Sb; [apply Permutation_nil in P; congruence|].
    destruct b as [|y b]; [apply Permutation_sym, Permutation_nil in P; discriminate|].
    assert (x = y).
    { inversion Sa; subst. inversion Sb; subst. inversion D; subst.
      assert (Hx : In x (y :: b)) by (apply (Permutation_in _ P); left; reflexivity). destruct Hx as [E|Hx]; [congruence|].
      assert (Hy : In y (x :: a)) by (apply (Permutation_in _ (Permutation_sym P)); left; reflexivity). destruct Hy as [E|Hy]; [congruence|].
      rewrite Forall_forall in H2, H4. specialize (H2 _ Hy). specialize (H4 _ Hx). apply Z.leb_le in H2.
      exfalso. apply H5. replace (fst x) with (fst y) by lia. apply in_map. exact Hy. }
    subst y. f_equal. inversion Sa; subst. inversion Sb; subst. inversion D; subst. apply IH; try assumption. exact (Permutation_cons_inv P).
  Qed.
  Lemma feature_old_text g ns es l sorted_l rs : dwf ns ->
    Forall2 (fun va vx => fst va = fst vx /\ node_text re_match re_group1 g (fst va) (snd va) (snd vx)) (filter (fun va => negb (fst va =? 1)%Z) ns) l ->
    Permutation l sorted_l -> StronglySorted (fun x y => (fst x <= fst y)%Z) sorted_l ->
    Forall2 (fun ex r => edge_text re_match re_group1 g (fst ex) (snd ex) r) es rs ->
    fold_ g ns es = (combine (dkeys es) (map MStr rs), assemble (map snd sorted_l) rs).
  Proof.
    intros W F P S0 F'. unfold feature_old. rewrite (old_nodes_all _ _ _ F), (old_edges_all _ _ _ F'). cbn [rbind]. f_equal. f_equal. f_equal.
    assert (D : NoDup (map fst l)).
    { replace (map fst l) with (dkeys (filter (fun va : Z * attrs => negb (fst va =? 1)%Z) ns)).
      - apply NoDup_map_filter. exact W.
      - clear - F. induction F as [|x y a b [E _] F IH]; [reflexivity|]. cbn [dkeys map]. unfold dkeys in IH. rewrite IH, E. reflexivity. }
    unfold by_idx. pose proof (isort_perm (fun a b : Z * pystr => (fst a <=? fst b)%Z) l) as Q. apply sorted_unique.
    - apply Permutation_sym in Q. exact (Permutation_trans Q P).
    - apply (Permutation_NoDup (Permutation_map fst Q)). exact D.
    - apply isort_sorted.
      + intros x y. destruct (Z.leb_spec (fst x) (fst y)); [left; reflexivity|right; apply Z.leb_le; lia].
      + intros x y z H1 H2. apply Z.leb_le in H1, H2. apply Z.leb_le. lia.
    - exact S0.
  Qed.
End Old.
