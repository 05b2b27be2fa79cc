(** * Lemmas about JSON frequency lists. *)
From Coq Require Import Decimal DecimalPos DecimalN DecimalZ DecimalFacts String NArith ZArith Bool Arith Lia List.
From Verif Require Import Base BaseLemmas Str StrLemmas VocabModel JsonModel.
Import ListNotations.
Local Open Scope nat_scope.
Local Open Scope list_scope.

Lemma jrun_app st a b : jrun st (a ++ b) = jrun (jrun st a) b.
Proof. apply fold_left_app. Qed.
Lemma jrun_cons st c s : jrun st (c :: s) = jrun (jstep st c) s.
Proof. reflexivity. Qed.
Lemma jrun_fail s : jrun JFail s = JFail.
Proof. induction s; auto. Qed.

(** ** Strings *)
Lemma esc_ok d acc c : jrun (JKey d acc) (esc c) = JKey d (c :: acc).
Proof.
  unfold esc. repeat match goal with |- context [(c =? ?k)%N] => destruct (N.eqb_spec c k) as [->|?]; [reflexivity|] end.
  destruct (N.ltb_spec c 32) as [L|L].
  - assert (c = 0 \/ c = 1 \/ c = 2 \/ c = 3 \/ c = 4 \/ c = 5 \/ c = 6 \/ c = 7 \/ c = 11 \/ c = 14 \/ c = 15 \/ c = 16 \/ c = 17 \/ c = 18 \/ c = 19 \/ c = 20
      \/ c = 21 \/ c = 22 \/ c = 23 \/ c = 24 \/ c = 25 \/ c = 26 \/ c = 27 \/ c = 28 \/ c = 29 \/ c = 30 \/ c = 31)%N as H by lia.
    repeat destruct H as [->|H]; try reflexivity. subst. reflexivity.
  - cbn [jrun fold_left jstep]. unfold quote, backslash.
    destruct (N.eqb_spec c 34); [contradiction|]. destruct (N.eqb_spec c 92); [contradiction|]. destruct (N.ltb_spec c 32); [lia|]. reflexivity.
Qed.
Lemma escs_ok d s : forall acc, jrun (JKey d acc) (flat_map esc s) = JKey d (rev s ++ acc).
Proof.
  induction s as [|c s IH]; intros acc; [reflexivity|]. cbn [flat_map]. rewrite jrun_app, esc_ok, IH. cbn [rev]. now rewrite <- app_assoc.
Qed.

(** ** Numbers *)
Lemma nolead d : unorm d = d -> match d with D0 d' => d' = Nil | Nil => False | _ => True end.
Proof.
  unfold unorm. destruct d; cbn [nzhead]; intros E; auto; [discriminate|].
  assert (B : forall e, match nzhead e with D0 _ => False | _ => True end) by (induction e; cbn; auto). specialize (B d).
  destruct (nzhead d) eqn:X; try discriminate E; [|destruct B]. congruence.
Qed.
Lemma to_uint_norm n : unorm (N.to_uint n) = N.to_uint n.
Proof. rewrite <- (DecimalN.Unsigned.to_of (N.to_uint n)). now rewrite DecimalN.Unsigned.of_to. Qed.
Lemma uint_jdigits n : jdigits (uint_str (N.to_uint n)) = true.
Proof.
  assert (H := nolead _ (to_uint_norm n)).
  assert (D : forallb (fun c => (48 <=? c) && (c <=? 57))%N (uint_str (N.to_uint n)) = true).
  { apply forallb_forall. intros c I. now apply uint_str_digits in I. }
  destruct (N.to_uint n) eqn:E; cbn [uint_str] in *; [contradiction|..]; unfold jdigits; rewrite D; try reflexivity. rewrite H. reflexivity.
Qed.
Lemma jint_str z : jint (str_of_Z z) = Ok z.
Proof.
  unfold jint. rewrite int_str. enough (E : match str_of_Z z with c :: s' => if (c =? minus)%N then jdigits s' else jdigits (str_of_Z z) | [] => false end = true) by now rewrite E.
  unfold str_of_Z. destruct z as [|p|p]; cbn [Z.to_int]; [reflexivity| |].
  - assert (H := uint_jdigits (Npos p)). cbn [N.to_uint] in H. destruct (uint_str (Pos.to_uint p)) as [|c s] eqn:E; [discriminate|].
    destruct (N.eqb_spec c minus) as [->|]; [|exact H]. discriminate.
  - change (minus =? minus)%N with true. exact (uint_jdigits (Npos p)).
Qed.
Lemma num_chars z c : In c (str_of_Z z) -> jws c || (c =? 44)%N || (c =? 125)%N = false.
Proof.
  intros I. apply str_of_Z_chars in I as [I| ->]; [|reflexivity]. unfold is_digit in I. apply andb_true_iff in I as [A B]. apply N.leb_le in A, B. unfold jws.
  repeat match goal with |- context [(c =? ?k)%N] => destruct (N.eqb_spec c k); [lia|] end. reflexivity.
Qed.
Lemma num_ok d k s : (forall c, In c s -> jws c || (c =? 44)%N || (c =? 125)%N = false) -> forall acc, jrun (JNum d k acc) s = JNum d k (rev s ++ acc).
Proof.
  induction s as [|c s IH]; intros H acc; [reflexivity|]. rewrite jrun_cons. cbn [jstep]. rewrite (H c (or_introl eq_refl)), IH by (intros; apply H; now right).
  cbn [rev]. now rewrite <- app_assoc.
Qed.
Lemma colon_ok d acc s : jrun (JKey d acc) (quote :: 58%N :: 32%N :: s) = jrun (JVal d (rev acc)) s.
Proof. reflexivity. Qed.
Lemma item_ok d kv : jrun (JKey d []) (tl (jitem kv)) = JNum d (fst kv) (rev (str_of_Z (snd kv))).
Proof.
  unfold jitem, jstring. cbn [tl app]. rewrite <- !app_assoc, jrun_app, escs_ok. cbn [app]. rewrite colon_ok, app_nil_r, rev_involutive.
  destruct (str_of_Z (snd kv)) as [|c s] eqn:E.
  - destruct (str_of_Z_last (snd kv)) as (s & x & E' & _). rewrite E in E'. now destruct s.
  - rewrite jrun_cons. cbn [jstep]. assert (H : forall x, In x (c :: s) -> jws x || (x =? 44)%N || (x =? 125)%N = false) by (rewrite <- E; apply num_chars).
    assert (W : jws c = false) by (specialize (H c (or_introl eq_refl)); now apply orb_false_iff in H as [[H _]%orb_false_iff _]).
    rewrite W, num_ok by (intros; apply H; now right). reflexivity.
Qed.
Lemma item_ok' d kv : jrun (JNext d) (jitem kv) = JNum d (fst kv) (rev (str_of_Z (snd kv))).
Proof. rewrite <- item_ok. reflexivity. Qed.
Lemma num_end d k z c : jws c || (c =? 44)%N || (c =? 125)%N = true -> jstep (JNum d k (rev (str_of_Z z))) c = jafter (dset d k z) c.
Proof. intros H. cbn [jstep]. rewrite H, rev_involutive, jint_str. reflexivity. Qed.
Lemma items_ok l : forall d k z, jrun (JNum d k (rev (str_of_Z z))) (flat_map (fun kv => 44%N :: nlindent ++ jitem kv) l ++ [10; 125]%N)
  = JDone (fold_left (fun d kv => dset d (fst kv) (snd kv)) l (dset d k z)).
Proof.
  induction l as [|kv l IH]; intros d k z.
  - cbn [flat_map app fold_left]. rewrite !jrun_cons, num_end by reflexivity. reflexivity.
  - cbn [flat_map fold_left]. rewrite <- app_assoc. cbn [app]. rewrite jrun_cons, num_end by reflexivity. change (jafter (dset d k z) 44%N) with (JNext (dset d k z)).
    rewrite <- app_assoc, jrun_app. change (jrun (JNext (dset d k z)) nlindent) with (JNext (dset d k z)). rewrite jrun_app, item_ok'. apply IH.
Qed.
Lemma dset_new {V} (d : dict pystr V) k v : ~ In k (dkeys d) -> dset d k v = d ++ [(k, v)].
Proof.
  induction d as [|[k' v'] d IH]; cbn [dset dkeys map fst app In]; intros N; [reflexivity|]. destruct (eqdec k k') as [->|]; [tauto|]. f_equal. apply IH. tauto.
Qed.
Lemma fold_dset (l : dict pystr Z) : forall d, NoDup (dkeys (d ++ l)) -> fold_left (fun d kv => dset d (fst kv) (snd kv)) l d = d ++ l.
Proof.
  induction l as [|[k z] l IH]; intros d N; cbn [fold_left]; [now rewrite app_nil_r|]. cbn [fst snd]. rewrite dset_new.
  - rewrite IH; [now rewrite <- app_assoc|]. now rewrite <- app_assoc.
  - unfold dkeys in *. rewrite map_app in N. cbn [map fst] in N. apply NoDup_remove_2 in N. intros I. apply N. apply in_or_app. now left.
Qed.
(** ** The round trip *)
Lemma json_roundtrip d : dwf d -> load_json (save_json d) = Ok d.
Proof.
  intros W. unfold load_json. destruct d as [|kv d]; [reflexivity|]. cbn [save_json]. rewrite jrun_cons. change (jstep JStart 123) with JOpen.
  rewrite jrun_app. change (jrun JOpen nlindent) with JOpen. rewrite jrun_app.
  assert (E : jrun JOpen (jitem kv) = JNum [] (fst kv) (rev (str_of_Z (snd kv)))) by (rewrite <- item_ok; reflexivity).
  rewrite E, items_ok. f_equal. destruct kv as [k z]. cbn [fst snd dset]. now apply (fold_dset d [(k, z)]).
Qed.
(** ** Cut-off files *)
Lemma done_ws d s d' : jrun (JDone d) s = JDone d' -> forall c, In c s -> jws c = true.
Proof.
  induction s as [|c s IH]; intros E c' I; [destruct I|]. rewrite jrun_cons in E. cbn [jstep] in E. destruct (jws c) eqn:W; [|rewrite jrun_fail in E; discriminate].
  destruct I as [<-|I]; auto.
Qed.
Lemma save_json_last d : exists s, save_json d = s ++ [125%N].
Proof.
  destruct d as [|kv d]; [now exists [123%N]|]. cbn [save_json]. exists (123%N :: nlindent ++ jitem kv ++ flat_map (fun kv => 44%N :: nlindent ++ jitem kv) d ++ [10%N]). cbn [app]. f_equal. rewrite <- !app_assoc. reflexivity.
Qed.
Lemma json_cut d p q : dwf d -> save_json d = p ++ q -> q <> [] -> load_json p = Err ValueError.
Proof.
  intros W E Nq. unfold load_json. destruct (jrun JStart p) as [ | | | | | | | | | | d' |] eqn:R; try reflexivity. exfalso.
  assert (RT := json_roundtrip d W). unfold load_json in RT. rewrite E, jrun_app, R in RT. destruct (jrun (JDone d') q) as [ | | | | | | | | | | d'' |] eqn:R'; try discriminate.
  destruct (save_json_last d) as [s Es]. assert (I : In 125%N q).
  { destruct (exists_last Nq) as (q' & x & ->). rewrite Es, app_assoc in E. apply app_inj_tail in E as [_ <-]. apply in_or_app. right. now left. }
  discriminate (done_ws _ _ _ R' _ I).
Qed.
(** ** make_type_file *)
Lemma type_dict_subvocab v types : type_dict v types = fd (v_subvocab v types).
Proof.
  unfold v_subvocab, type_dict. cbn [fd vocab_init]. generalize (@nil (pystr * Z)). induction types as [|t l IH]; intros d; cbn [fold_left]; [reflexivity|].
  rewrite <- IH. f_equal. f_equal. unfold dmem. now destruct (dget (fd v) t).
Qed.
