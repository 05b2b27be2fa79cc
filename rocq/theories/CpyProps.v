(** * Theorems about copying and sending objects that hold a Vocab, and about the templates of DepRelHandler. *)
From Coq Require Import String NArith ZArith Bool Arith List.
From Verif Require Import Base Str VocabModel DepModel PatModel QryModel CpyModel CpySpec CpyProofs.
Import ListNotations.
Local Open Scope string_scope.
Local Open Scope nat_scope.
Local Open Scope list_scope.

(** ** C193: copies of vocabularies *)
(** The methods give an equal, independent vocabulary or dict, before and after Python 3.11 alike. *)
Theorem C193_copy_partial : forall newer v, exists w,
  vocab_deepcopy newer v = Ok w /\ vocab_copy newer v = Ok w /\ fd w = fd v /\ isdef w = isdef v /\ (filt w = true <-> fd v <> []) /\ get_dict newer v = Ok (fd v).
Proof.
  intros newer v. exists (v_deepcopy v). split; [apply vocab_deepcopy_ok|]. split; [apply vocab_deepcopy_ok|]. split; [reflexivity|]. split; [reflexivity|].
  split; [|apply get_dict_ok]. unfold v_deepcopy, vocab_init. cbn [filt]. destruct (fd v); split; auto; try discriminate; intros A; destruct (A eq_refl).
Qed.
Print Assumptions C193_copy_partial.
Definition v_ex : vocab := {| fd := [(u "a/N", 2%Z); (u "b/V", 0%Z)]; isdef := false; filt := false |}.
Example C193_ex : get_dict false v_ex = Ok [(u "a/N", 2%Z); (u "b/V", 0%Z)] /\ vocab_copy true v_ex = Ok {| fd := [(u "a/N", 2%Z); (u "b/V", 0%Z)]; isdef := false; filt := true |}.
Proof. vm_compute. repeat split. Qed.
(** The standard ways of copying raise TypeError for every Vocab: Vocab.__getattr__ answers for __getstate__ and __setstate__ too. *)
Theorem C193_deepcopy_refuted : forall newer v, py_deepcopy newer (pv_of_vocab v) = Err TypeError /\ py_send newer (pv_of_vocab v) = Err TypeError.
Proof. exact vocab_copies. Qed.
Print Assumptions C193_deepcopy_refuted.
Example C193_deepcopy_ex : py_deepcopy true (pv_of_vocab v_ex) = Err TypeError /\ py_deepcopy false (freqs (fd v_ex)) = Ok (freqs (fd v_ex)) /\
  v_getattr (u "__setstate__") = GNone /\ v_getattr (u "freq") = GSelf.
Proof. vm_compute. repeat split. Qed.
(** And for everything that holds one at any depth; what holds none is copied and sent as it is. *)
Theorem C193_holders : forall newer x, usual x ->
  (has_vocab x -> py_deepcopy newer x = Err TypeError /\ py_send newer x = Err TypeError) /\
  (~ has_vocab x -> py_deepcopy newer x = Ok x /\ py_send newer x = Ok x).
Proof.
  intros newer x U. destruct (deepcopy_cases newer x U) as [[N E]|[V E]], (send_cases newer x U) as [[N' E']|[V' E']]; split; intros A; auto; try (destruct (N A)); try (destruct (A V)); try (destruct (N V')).
  destruct (N' V).
Qed.
Print Assumptions C193_holders.
(** isEmpty and setFILTER *)
Theorem C193_empty : forall v, (is_empty v = true <-> forall k, dget (fd v) k = None) /\
  forall b, filt (set_filter v b) = b /\ fd (set_filter v b) = fd v /\ is_empty (set_filter v b) = is_empty v.
Proof.
  intros v. split; [|repeat split; reflexivity]. unfold is_empty. destruct (fd v) as [|[k x] d]; split; auto; intros A; try discriminate.
  specialize (A k). cbn [dget] in A. destruct (eqdec k k) as [_|N]; [discriminate A|destruct (N eq_refl)].
Qed.
Print Assumptions C193_empty.
Example C193_empty_ex : is_empty v_ex = false /\ is_empty (vocab_init false []) = true /\ filt (set_filter v_ex true) = true.
Proof. vm_compute. repeat split. Qed.
(** A handler with a Vocab, as it is sent to a process that is not forked *)
Definition handler_ex (v : pv) : pv := PObj false [(u "workers", PInt 2); (u "macros", PList []); (u "targets", v); (u "mode", PStr (u "type"))].
Lemma handler_usual x : usual x -> usual (handler_ex x).
Proof.
  intros U b a k y I J. inversion I as [| | |y1 k1 x1 b1 a1 I1 I2]; subst.
  - destruct J as [E|[E|[E|[E|[]]]]]; injection E as <- _; split; vm_compute; discriminate.
  - destruct I1 as [E|[E|[E|[E|[]]]]]; injection E as _ <-; [inversion I2| |exact (U b a k y I2 J)|inversion I2].
    apply inside_list_objs in I2. destruct I2 as [I2|(x' & [] & _)]. discriminate I2.
Qed.
Example C193_holders_ex : usual (handler_ex (pv_of_vocab v_ex)) /\ has_vocab (handler_ex (pv_of_vocab v_ex)) /\ py_send false (handler_ex (pv_of_vocab v_ex)) = Err TypeError /\
  py_send true (handler_ex (pv_of_vocab v_ex)) = Err TypeError /\ usual (handler_ex PNone) /\ ~ has_vocab (handler_ex PNone) /\ py_send false (handler_ex PNone) = Ok (handler_ex PNone).
Proof.
  split; [apply handler_usual, vocab_usual|]. split.
  - eexists. apply (in_attr _ (u "targets") (pv_of_vocab v_ex)); [right; right; now left|apply in_self].
  - split; [vm_compute; reflexivity|]. split; [vm_compute; reflexivity|]. split; [apply handler_usual; intros b a k y I; inversion I|]. split; [|vm_compute; reflexivity].
    intros [a I]. inversion I as [| | |y1 k1 x1 b1 a1 I1 I2]; subst. destruct I1 as [E|[E|[E|[E|[]]]]]; injection E as _ <-; [inversion I2| |inversion I2|inversion I2].
    apply inside_list_objs in I2. destruct I2 as [I2|(x' & [] & _)]. discriminate I2.
Qed.

(** ** C194: templates *)
(** Macros whose filters hold no Vocab: copies of them without their matches, with the same filters *)
Theorem C194_templates_partial : forall newer rows fname ms, ms <> [] -> (forall g, In g ms -> usual (g_filter g) /\ ~ has_vocab (g_filter g)) ->
  exists ms', read_templates_py newer rows fname (Some ms) = Ok ms' /\ map g_filter ms' = map g_filter ms /\
              map plain ms' = read_templates (map plain ms) /\ (forall g, In g ms' -> matched (g_macro g) = []).
Proof.
  intros newer rows fname ms N A. destruct (templates_ok newer rows fname ms N) as (ms' & E & P & F); [intros g I; apply A; exact I|intros g I; apply A; exact I|].
  exists ms'. split; [exact E|]. split; [exact F|]. split; [exact P|]. intros g I. assert (J : In (plain g) (map plain ms')) by now apply in_map.
  rewrite P in J. unfold read_templates in J. apply in_map_iff in J. destruct J as (m & J & _). change (matched (g_macro g)) with (matched (plain g)). rewrite <- J. reflexivity.
Qed.
Print Assumptions C194_templates_partial.
Definition macro_ex : macro := Macro (Graph [(1%Z, [(u "lemma", AStr (u "(\w+)"))])] []) 0 1 (-1) [(u "lemma", 1%Z)] [] [] None [MRec [(1%Z, [(u "lemma", AStr (u "cat"))])] []].
Definition given_ex (x : pv) : given := Given macro_ex x.
Definition keys_ex : pv := PDict [(u "cat", PInt 0)].
Lemma atom_ok x : (forall y, inside y x -> forall b a, y <> PObj b a) -> usual x /\ ~ has_vocab x.
Proof. intros A. split; [intros b a k y I _; destruct (A _ I b a eq_refl)|intros [a I]; exact (A _ I true a eq_refl)]. Qed.
Lemma keys_ok : usual keys_ex /\ ~ has_vocab keys_ex.
Proof. split; [exact (freqs_usual [(u "cat", 0%Z)])|exact (freqs_plain [(u "cat", 0%Z)])]. Qed.
Example C194_ex : let ms := [given_ex keys_ex; given_ex PNone] in ms <> [] /\ (forall g, In g ms -> usual (g_filter g) /\ ~ has_vocab (g_filter g)) /\
  read_templates_py false (fun _ => Err IOError) None (Some ms) = Ok [Given (with_matched macro_ex []) keys_ex; Given (with_matched macro_ex []) PNone] /\
  map target_filter (map plain ms) = [Some [u "cat"]; None].
Proof.
  cbn zeta. split; [discriminate|]. split; [|split; vm_compute; reflexivity]. intros g [<- | [<- | []]]; [exact keys_ok|]. apply atom_ok. intros y I b a. inversion I; discriminate.
Qed.
(** A Vocab as filter, which the constructor of MacroGraph asks for: TypeError *)
Theorem C194_filter_refuted : forall newer rows fname ms, (forall g, In g ms -> usual (g_filter g)) -> (exists g v, In g ms /\ g_filter g = pv_of_vocab v) ->
  read_templates_py newer rows fname (Some ms) = Err TypeError.
Proof. intros newer rows fname ms A (g & v & I & E). apply templates_err; auto. exists g. split; auto. rewrite E. apply vocab_has. Qed.
Print Assumptions C194_filter_refuted.
Example C194_filter_ex : let ms := [given_ex PNone; given_ex (pv_of_vocab v_ex)] in
  (forall g, In g ms -> usual (g_filter g)) /\ (exists g v, In g ms /\ g_filter g = pv_of_vocab v) /\
  read_templates_py false (fun _ => Ok []) (Some (u "f.tsv")) (Some ms) = Err TypeError.
Proof.
  cbn zeta. split; [|split; [exists (given_ex (pv_of_vocab v_ex)), v_ex; split; [right; now left|reflexivity]|vm_compute; reflexivity]].
  intros g [<- | [<- | []]]; [|apply vocab_usual]. apply atom_ok. intros y I b a. inversion I; discriminate.
Qed.
(** Without macros: ValueError if there is no file name either; no table with a row can be read. *)
Theorem C194_file_refuted : forall newer rows macros, macros = None \/ macros = Some [] ->
  (forall fname, fname = None \/ fname = Some [] -> read_templates_py newer rows fname macros = Err ValueError) /\
  (forall fname rs, fname <> [] -> rows fname = Ok rs -> rs <> [] -> exists e, read_templates_py newer rows (Some fname) macros = Err e).
Proof.
  intros newer rows macros M. split; [intros fname F; apply templates_none; assumption|]. intros fname rs F E R. exact (templates_file newer rows fname macros rs M F E R).
Qed.
Print Assumptions C194_file_refuted.
Example C194_file_ex : let rows := fun f => if eqb f (u "empty.tsv") then Ok [] else if eqb f (u "t.tsv") then Ok [(u "(?P<lemma>\w+)", u "->(?P<deprel>nsubj) (?P<lemma>x)")] else Err IOError in
  read_templates_py false rows (Some (u "t.tsv")) None = Err TypeError /\ read_templates_py false rows (Some (u "t.tsv")) (Some []) = Err TypeError /\
  read_templates_py false rows (Some (u "none.tsv")) None = Err IOError /\ read_templates_py false rows (Some (u "empty.tsv")) None = Ok [] /\
  read_templates_py false rows None (Some []) = Err ValueError.
Proof. vm_compute. repeat split. Qed.
(** The macros of a job: the filter is a copy of the targets, whatever the macros had. *)
Theorem C194_job : forall newer targets ms, (forall g, In g ms -> usual (g_filter g) /\ ~ has_vocab (g_filter g)) ->
  exists ms', job_macros newer targets ms = Ok ms' /\ map plain ms' = map (fun m => with_filter m (Some (dkeys (fd targets)))) (map plain ms).
Proof. intros newer targets ms A. apply job_plain; intros g I; apply A; exact I. Qed.
Print Assumptions C194_job.
Example C194_job_ex : (forall g, In g [given_ex keys_ex] -> usual (g_filter g) /\ ~ has_vocab (g_filter g)) /\
  job_macros false v_ex [given_ex keys_ex] = Ok [given_ex (pv_of_vocab {| fd := fd v_ex; isdef := false; filt := true |})].
Proof. split; [intros g [<- | []]; exact keys_ok|vm_compute; reflexivity]. Qed.
(** The results of a job reach the parent process because the filters are deleted; with them the worker would fail. *)
Theorem C194_sent : forall newer rest ms, (forall g, In g ms -> ordinary (rest (g_macro g)) /\ usual (g_filter g)) ->
  put_tally newer (map (macro_obj rest) ms) = Ok (PList (map (fun g => PObj false (rest (g_macro g))) ms)) /\
  ((exists g, In g ms /\ has_vocab (g_filter g)) -> put_tally_with false newer (map (macro_obj rest) ms) = Err TypeError).
Proof. intros newer rest ms A. split; [apply tally_sent; intros g I; apply A; exact I|]. intros V. apply tally_kept; assumption. Qed.
Print Assumptions C194_sent.
Definition rest_ex (m : macro) : list (pystr * pv) := [(u "target_idx", PInt (target_idx m)); (u "matched_nodes", PInt (Z.of_nat (length (matched m))))].
Example C194_sent_ex : let ms := [given_ex (pv_of_vocab v_ex)] in
  (forall g, In g ms -> ordinary (rest_ex (g_macro g)) /\ usual (g_filter g)) /\ (exists g, In g ms /\ has_vocab (g_filter g)) /\
  put_tally false (map (macro_obj rest_ex) ms) = Ok (PList [PObj false [(u "target_idx", PInt 1); (u "matched_nodes", PInt 1)]]) /\
  put_tally_with false false (map (macro_obj rest_ex) ms) = Err TypeError /\ put_tally false [PObj false []] = Err AttributeError.
Proof.
  cbn zeta. split; [|split; [eexists; split; [now left|apply vocab_has]|repeat split; vm_compute; reflexivity]]. intros g [<- | []]. split; [|apply vocab_usual].
  unfold ordinary. split; [|split].
  - intros b a k y I J. inversion I as [| | |y1 k1 x1 b1 a1 I1 I2]; subst.
    + destruct J as [E|[E|[]]]; injection E as <- _; split; vm_compute; discriminate.
    + destruct I1 as [E|[E|[]]]; injection E as _ <-; inversion I2.
  - intros [a I]. inversion I as [| | |y1 k1 x1 b1 a1 I1 I2]; subst. destruct I1 as [E|[E|[]]]; injection E as _ <-; inversion I2.
  - intros [E|[E|[]]]; vm_compute in E; discriminate E.
Qed.
