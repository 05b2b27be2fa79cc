(** * Final theorems about vocabularies (C17-C23 and companions). *)
From Coq Require Import String NArith ZArith QArith Bool Arith Lia List Permutation Sorted.
From Verif Require Import Base BaseLemmas Str VocabModel VocabSpec VocabFileModel VocabProofs VocabFileProofs.
Import ListNotations.
Local Open Scope Z_scope.

(** C17. Any history of item assignments, increments and (successful or failing) lookups on a Vocab
    over a plain dict is described by the finite map of the history. *)
Theorem C17_vocab_history (d : dict pystr Z) (ops : list vop) : dwf d ->
  let v := v_run (vocab_init false d) ops in
  let m := s_run (dget d) ops in
  (forall k, fst (v_lookup v k) = match m k with Some f => Ok f | None => Err KeyError end) /\
  (forall k, v_contains v k = true <-> m k <> None) /\
  enumerates (v_keys v) m /\
  (forall k f, In (k, f) (v_items v) <-> m k = Some f) /\
  (forall l, enumerates l m -> v_len v = length l /\ v_sum v = sumZ (map (sval m) l)).
Proof. exact (vocab_history d ops). Qed.
Print Assumptions C17_vocab_history.
Example C17_example : dwf ex_dict /\
  let v := v_run (vocab_init false ex_dict) [VIncr (u "new/N") 4; VSet (u "boy/N") 7; VIncr (u "boy/N") 1; VLookup (u "zzz")] in
  v_sum v = 17 /\ v_len v = 5%nat /\ fst (v_lookup v (u "boy/N")) = Ok 8.
Proof. split; [exact ex_dict_wf|]. vm_compute. auto. Qed.

(** C18. The frequency list contains every entry once, in the order of [before], and is the same for
    every insertion order of the same mapping. *)
Theorem C18_dataframe_order (v : vocab) : dwf (fd v) ->
  Permutation (v_items v) (v_dataframe v) /\ StronglySorted before (v_dataframe v).
Proof. intros W. split; [exact (df_perm v)|exact (df_sorted v W)]. Qed.
Print Assumptions C18_dataframe_order.
Theorem C18_dataframe_canonical (v1 v2 : vocab) : dwf (fd v1) -> dwf (fd v2) ->
  (forall k, vget v1 k = vget v2 k) -> v_dataframe v1 = v_dataframe v2.
Proof. exact (df_canonical v1 v2). Qed.
Print Assumptions C18_dataframe_canonical.
Theorem C18_item_list_sorted (v : vocab) : dwf (fd v) ->
  Permutation (v_keys v) (v_item_list v) /\ StronglySorted (fun a b => sltb a b = true) (v_item_list v).
Proof. exact (item_list_spec v). Qed.
Print Assumptions C18_item_list_sorted.
Example C18_example : dwf ex_dict /\ dwf (rev ex_dict) /\
  v_dataframe (vocab_init false ex_dict) = v_dataframe (vocab_init false (rev ex_dict)) /\
  map fst (v_dataframe (vocab_init false ex_dict)) = [u "give/V"; u "a/b/N"; u "boy/N"; u "at/P"].
Proof.
  split; [exact ex_dict_wf|]. split; [|vm_compute; auto].
  unfold dwf, ex_dict; cbn. repeat constructor; cbn; intuition discriminate.
Qed.

(** C19. vocab[:n] has min(n, len) entries, with their frequencies, and every entry kept comes before
    every entry left out. *)
Theorem C19_slice_most_frequent (v : vocab) (n : nat) : dwf (fd v) ->
  exists r, v_getitem (ASlice None (Some (Z.of_nat n))) v = Ok r /\
    v_len r = Nat.min n (v_len v) /\
    (forall k f, vget r k = Some f -> vget v k = Some f) /\
    (forall k f k' f', vget r k = Some f -> vget v k' = Some f' -> vget r k' = None -> before (k, f) (k', f')).
Proof. exact (slice_top v n). Qed.
Print Assumptions C19_slice_most_frequent.
(** vocab[a:b] for arbitrary (possibly negative or missing) bounds: the entries of the ordered view whose
    position lies in the slice, in that order. *)
Theorem C19_slice_range (v : vocab) (a b : option Z) : dwf (fd v) ->
  exists r, v_getitem (ASlice a b) v = Ok r /\ v_items r = at_positions (in_slice (v_len v) a b) (v_dataframe v).
Proof. exact (slice_general' v a b). Qed.
Print Assumptions C19_slice_range.
Example C19_example : dwf ex_dict /\
  rmap v_keys (v_getitem (ASlice None (Some 2)) (vocab_init false ex_dict)) = Ok [u "give/V"; u "a/b/N"].
Proof. split; [exact ex_dict_wf|]. reflexivity. Qed.

(** C20. Comparisons select by frequency; complementary comparisons partition; tuples are conjunctions. *)
Theorem C20_comparisons (v : vocab) (q : Q) (k : pystr) : dwf (fd v) ->
  (In k (v_lt v q) <-> exists f, vget v k = Some f /\ (inject_Z f < q)%Q) /\
  (In k (v_le v q) <-> exists f, vget v k = Some f /\ (inject_Z f <= q)%Q) /\
  (In k (v_eq v q) <-> exists f, vget v k = Some f /\ (inject_Z f == q)%Q) /\
  (In k (v_gt v q) <-> exists f, vget v k = Some f /\ (q < inject_Z f)%Q) /\
  (In k (v_ge v q) <-> exists f, vget v k = Some f /\ (q <= inject_Z f)%Q).
Proof.
  exact (fun W => conj (In_v_lt v q k W) (conj (In_v_le v q k W) (conj (In_v_eq v q k W)
          (conj (In_v_gt v q k W) (In_v_ge v q k W))))).
Qed.
Print Assumptions C20_comparisons.
Theorem C20_tuple_is_conjunction (v : vocab) (cs : list (list pystr)) : dwf (fd v) ->
  exists r, v_getitem (ATuple (map AItems cs)) v = Ok r /\ dwf (fd r) /\
    forall k f, vget r k = Some f <-> vget v k = Some f /\ (forall c, In c cs -> In k c).
Proof. exact (select_tuple_spec cs v). Qed.
Print Assumptions C20_tuple_is_conjunction.
Theorem C20_select_items (v : vocab) (l : list pystr) : dwf (fd v) ->
  exists r, v_getitem (AItems l) v = Ok r /\ dwf (fd r) /\
    forall k f, vget r k = Some f <-> vget v k = Some f /\ In k l.
Proof. exact (select_items_spec v l). Qed.
Print Assumptions C20_select_items.
Theorem C20_select_freqs (v : vocab) (l : list Z) : dwf (fd v) ->
  exists r, v_getitem (AFreqs l) v = Ok r /\ dwf (fd r) /\
    forall k f, vget r k = Some f <-> vget v k = Some f /\ In f l.
Proof. exact (select_freqs_spec v l). Qed.
Print Assumptions C20_select_freqs.
(** vocab[vocab.freq >= q] and vocab[vocab.freq < q] split the vocabulary. *)
Theorem C20_partition (v : vocab) (q : Q) : dwf (fd v) ->
  exists hi lo, v_getitem (AItems (v_ge v q)) v = Ok hi /\ v_getitem (AItems (v_lt v q)) v = Ok lo /\
    forall k f, vget v k = Some f <-> (vget hi k = Some f /\ vget lo k = None) \/ (vget lo k = Some f /\ vget hi k = None).
Proof. exact (select_partition v q). Qed.
Print Assumptions C20_partition.
Example C20_example : dwf ex_dict /\
  v_ge (vocab_init false ex_dict) (5 # 2) = [u "give/V"] /\
  rmap v_keys (v_getitem (ATuple [AItems (v_ge (vocab_init false ex_dict) 2); AItems (v_lt (vocab_init false ex_dict) 3)])
     (vocab_init false ex_dict)) = Ok [u "boy/N"; u "a/b/N"].
Proof. split; [exact ex_dict_wf|]. vm_compute. auto. Qed.

(** C21. subvocab: exactly the asked items, with their frequency or 0. *)
Theorem C21_subvocab (v : vocab) (items : list pystr) (k : pystr) :
  (In k items -> vget (v_subvocab v items) k = Some (sval (vget v) k)) /\
  (~ In k items -> vget (v_subvocab v items) k = None).
Proof. exact (subvocab_spec v items k). Qed.
Print Assumptions C21_subvocab.
Example C21_example :
  v_items (v_subvocab (vocab_init false ex_dict) [u "give/V"; u "new"; u "give/V"]) = [(u "give/V", 3); (u "new", 0)].
Proof. reflexivity. Qed.

(** C22. Plain text save/load. The full claim (every vocabulary survives) is false: *)
Theorem C22_plain_roundtrip_refuted :
  exists v, dwf (fd v) /\ forall float_ok,
    ~ exists d, load_plain float_ok (save_plain (fd v)) = Ok d /\ forall k, dget d k = option_map FInt (vget v k).
Proof. exact plain_roundtrip_refuted. Qed.
Print Assumptions C22_plain_roundtrip_refuted.
(** It holds exactly for the vocabularies all of whose items are safe. *)
Theorem C22_plain_roundtrip_iff_partial (float_ok : pystr -> bool) (v : vocab) : dwf (fd v) ->
  (exists d, load_plain float_ok (save_plain (fd v)) = Ok d /\ forall k, dget d k = option_map FInt (vget v k))
  <-> (forall k, v_contains v k = true -> safe_item k).
Proof. exact (save_load_iff float_ok v). Qed.
Print Assumptions C22_plain_roundtrip_iff_partial.
Example C22_example : dwf ex_dict /\ (forall k, v_contains (vocab_init false ex_dict) k = true -> safe_item k) /\
  load_plain (fun _ => false) (save_plain ex_dict) = Ok (lift_ints (v_dataframe (vocab_init false ex_dict))).
Proof. split; [exact ex_dict_wf|]. split; [exact ex_dict_safe|reflexivity]. Qed.

(** C23. equal is equality of mappings. *)
Theorem C23_equal_is_map_equality (v1 v2 : vocab) : dwf (fd v1) -> dwf (fd v2) ->
  v_equal v1 v2 = true <-> forall k, vget v1 k = vget v2 k.
Proof. exact (v_equal_spec v1 v2). Qed.
Print Assumptions C23_equal_is_map_equality.
Example C23_example : v_equal (vocab_init false ex_dict) (vocab_init false (rev ex_dict)) = true /\
  v_equal (vocab_init false ex_dict) (vocab_init false (tl ex_dict)) = false.
Proof. vm_compute. auto. Qed.

(** C61. Reading never changes a vocabulary: false when it was built from a defaultdict, *)
Theorem C61_lookup_pure_refuted : exists v k, v_len (snd (v_lookup v k)) <> v_len v.
Proof. exists (vocab_init true ex_dict), (u "zzz"). vm_compute. discriminate. Qed.
Print Assumptions C61_lookup_pure_refuted.
(** true when it was built from a dict or the item is present, *)
Theorem C61_lookup_pure_partial (v : vocab) (k : pystr) :
  isdef v = false \/ v_contains v k = true -> snd (v_lookup v k) = v.
Proof. exact (fun H => match H with or_introl D => lookup_pure_dict v k D | or_intror M => lookup_present v k M end). Qed.
Print Assumptions C61_lookup_pure_partial.
(** and otherwise the item is always inserted. *)
Theorem C61_lookup_inserts (v : vocab) (k : pystr) : isdef v = true -> v_contains v k = false ->
  v_len (snd (v_lookup v k)) = S (v_len v) /\ v_contains (snd (v_lookup v k)) k = true.
Proof. exact (lookup_default_inserts v k). Qed.
Print Assumptions C61_lookup_inserts.
Example C61_example : isdef (vocab_init true ex_dict) = true /\ v_contains (vocab_init true ex_dict) (u "zzz") = false
  /\ v_contains (vocab_init true ex_dict) (u "boy/N") = true.
Proof. vm_compute. auto. Qed.

(** C62. select_items(word): exactly the items whose part before the last '/' is the word. *)
Theorem C62_select_items_word (v : vocab) (word : pystr) : dwf (fd v) ->
  forall k f, vget (v_select_word v word) k = Some f <-> vget v k = Some f /\ is_word_of word k.
Proof. exact (select_word_spec v word). Qed.
Print Assumptions C62_select_items_word.
Example C62_example : v_keys (v_select_word (vocab_init false ex_dict) (u "a/b")) = [u "a/b/N"].
Proof. reflexivity. Qed.
