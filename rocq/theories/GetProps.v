(** * Claims about the older line reader, sentences and found paths: C164, C165. *)
From Coq Require Import String NArith ZArith Bool Arith Lia List.
From Verif Require Import Base BaseLemmas Str StrLemmas VocabModel ConfModel GetModel GetSpec GetProofs.
Import ListNotations.
Local Open Scope string_scope.
Local Open Scope nat_scope.
Local Open Scope list_scope.

(** ** C164 *)
(** A Getter can be made exactly from settings with a form, six regular expressions and five lists of numbers, the last of them
    named after the form. *)
Theorem C164_settings : forall {RX M} (compile : pystr -> res RX) s, (exists g, getter_init (M:=M) compile s = Ok g) <->
  exists form, dget s (u "form") = Some (VStr form) /\ Forall (accepted (machine compile) s) machine_keys /\ Forall (accepted integers s) (getter_keys form).
Proof. intros. apply getter_iff. Qed.
Print Assumptions C164_settings.
(** The numbers are those written in the settings. *)
Theorem C164_numbers : forall {RX M} (compile : pystr -> res RX) s g, getter_init (M:=M) compile s = Ok g -> forall ids,
  (listed s (u "get-word") ids -> g_word g = ids) /\ (listed s (u "get-pos") ids -> g_pos g = ids) /\
  (listed s (u "get-lemma") ids -> g_lemma g = ids) /\ (listed s (u "get-colloc") ids -> g_colloc g = ids) /\
  (listed s (u "get-" ++ g_form g) ids -> g_node g = ids).
Proof. exact @getter_numbers. Qed.
Print Assumptions C164_numbers.
(** The items of a match are its groups with slashes between them; a type is lemma and part of speech; no other form is known. *)
Theorem C164_items : forall {RX M} (group : M -> Z -> res (option pystr)) (g : @getter RX M) m,
  (forall lp pp, groups_are group m (g_lemma g) lp -> groups_are group m (g_pos g) pp ->
     g_get_item group g m (u "type") = Ok (join slash lp ++ slash :: join slash pp)) /\
  (forall ps, groups_are group m (g_word g) ps -> g_get_item group g m (u "word") = Ok (join slash ps)) /\
  (forall ps, groups_are group m (g_lemma g) ps -> g_get_item group g m (u "lemma") = Ok (join slash ps)) /\
  (forall form, ~ In form (map u ["type"; "word"; "lemma"]) -> g_get_item group g m form = Err ValueError).
Proof. intros. split; [intros; now apply item_type|]. split; [intros; now apply item_word|]. split; [intros; now apply item_lemma|]. intros; now apply item_other. Qed.
Print Assumptions C164_items.
(** A token is word, part of speech, file and line. *)
Theorem C164_token : forall {RX M} (group : M -> Z -> res (option pystr)) (g : @getter RX M) m wp pp fid lid,
  groups_are group m (g_word g) wp -> groups_are group m (g_pos g) pp ->
  g_get_token group g m fid lid = Ok (join slash wp ++ slash :: join slash pp ++ slash :: fid ++ slash :: lid).
Proof. exact @token_word. Qed.
Print Assumptions C164_token.
(** A group that took no part in the match is a TypeError. *)
Theorem C164_missing_group : forall {RX M} (group : M -> Z -> res (option pystr)) (g : @getter RX M) m,
  (forall i, In i (g_word g) -> exists o, group m i = Ok o) -> (exists i, In i (g_word g) /\ group m i = Ok None) ->
  g_get_item group g m (u "word") = Err TypeError.
Proof. intros RX M group g m A E. exact (form_none group m (g_word g) A E). Qed.
Print Assumptions C164_missing_group.
(** The properties are those of the last line given to init_machine. *)
Theorem C164_line : forall {RX M} (rx_match : RX -> pystr -> option M) (group : M -> Z -> res (option pystr)) g line m ps,
  rx_match (g_wordline g) line = Some m ->
  (groups_are group m (g_word g) ps -> p_word group (init_machine rx_match g line) = Ok (join slash ps)) /\
  (groups_are group m (g_pos g) ps -> p_pos group (init_machine rx_match g line) = Ok (join slash ps)) /\
  (groups_are group m (g_lemma g) ps -> p_lemma group (init_machine rx_match g line) = Ok (join slash ps)).
Proof. exact @prop_line. Qed.
Print Assumptions C164_line.
Theorem C164_no_line : forall {RX M} (rx_match : RX -> pystr -> option M) (group : M -> Z -> res (option pystr)) g line,
  rx_match (g_wordline g) line = None -> g_word g <> [] -> p_word group (init_machine rx_match g line) = Err AttributeError.
Proof. exact @prop_none. Qed.
Print Assumptions C164_no_line.

(** Lines with tab-separated columns; a "regular expression" is a column count and a match is the list of columns. *)
Definition tab_compile (s : pystr) : res nat := Ok (length s).
Definition tab_match (n : nat) (line : pystr) : option (list pystr) := if n =? length (split 9 line) then Some (split 9 line) else None.
Definition tab_group (m : list pystr) (i : Z) : res (option pystr) :=
  if (i =? 0)%Z then Ok (Some (join 9 m)) else if (i <? 0)%Z then Err IndexError
  else match nth_error m (Z.to_nat i - 1) with Some x => Ok (Some x) | None => Err IndexError end.
Definition ex_settings : settings := map (fun kv => (u (fst kv), VStr (u (snd kv))))
  [("form", "pos"); ("token-line-machine", "....."); ("word-line-machine", "..."); ("separator-line-machine", "."); ("left-boundary-machine", ".");
   ("right-boundary-machine", "."); ("single-boundary-machine", "."); ("get-word", "1"); ("get-pos", "2"); ("get-lemma", "3"); ("get-colloc", "3,2")].
Example C164_ex : exists g, getter_init (M:=list pystr) tab_compile ex_settings = Ok g /\ listed ex_settings (u "get-colloc") [3; 2]%Z /\
  g_colloc g = [3; 2]%Z /\ g_form g = u "pos" /\ exists line m, line = join 9 (map u ["walked"; "V"; "walk"]) /\
  tab_match (g_wordline g) line = Some m /\
  g_get_item tab_group g m (u "type") = Ok (u "walk/V") /\ g_get_token tab_group g m (u "f") (u "7") = Ok (u "walked/V/f/7") /\
  groups_are tab_group m (g_word g) [u "walked"] /\ p_lemma tab_group (init_machine tab_match g line) = Ok (u "walk").
Proof.
  eexists. split; [vm_compute; reflexivity|]. split; [split; [discriminate|reflexivity]|]. split; [reflexivity|]. split; [reflexivity|].
  eexists. eexists. split; [reflexivity|]. split; [vm_compute; reflexivity|]. repeat split; try (vm_compute; reflexivity).
  constructor; [vm_compute; reflexivity|constructor].
Qed.
Example C164_ex_missing : exists (g : @getter nat unit) m,
  (forall i, In i (g_word g) -> exists o, (fun _ (_ : Z) => Ok None) m i = @Ok (option pystr) o) /\
  (exists i, In i (g_word g) /\ (fun (_ : unit) (_ : Z) => @Ok (option pystr) None) m i = Ok None).
Proof.
  exists (@Getter nat unit [] None 0 0 0 0 0 0 [1%Z] [] [] [] []), tt. split; [intros; now eexists|]. exists 1%Z. split; [now left|reflexivity].
Qed.
(** A Getter can give the items of its own form.  It cannot, if the form is not type, word or lemma. *)
Theorem C164_form_refuted : exists g m, getter_init (M:=list pystr) tab_compile ex_settings = Ok g /\
  tab_match (g_wordline g) (join 9 (map u ["walked"; "V"; "walk"])) = Some m /\ g_get_item tab_group g m (g_form g) = Err ValueError.
Proof. eexists. eexists. split; [vm_compute; reflexivity|]. split; vm_compute; reflexivity. Qed.
Print Assumptions C164_form_refuted.
(** A token starts with the lemma, as its template says.  It starts with the word. *)
Theorem C164_token_refuted : exists g m, getter_init (M:=list pystr) tab_compile ex_settings = Ok g /\
  tab_match (g_wordline g) (join 9 (map u ["walked"; "V"; "walk"])) = Some m /\
  g_get_item tab_group g m (u "lemma") = Ok (u "walk") /\ g_get_token tab_group g m (u "f") (u "7") <> Ok (u "walk/V/f/7").
Proof. eexists. eexists. split; [vm_compute; reflexivity|]. split; [vm_compute; reflexivity|]. split; [vm_compute; reflexivity|]. vm_compute. discriminate. Qed.
Print Assumptions C164_token_refuted.
(** token_line_machine matches some line.  It matches none: every call is a TypeError. *)
Theorem C164_token_line_refuted : forall {RX M} (rx_match : RX -> pystr -> option M) g line fid lid,
  token_line_machine rx_match g line fid lid = Err TypeError.
Proof. reflexivity. Qed.
Print Assumptions C164_token_line_refuted.

(** ** C165 *)
(** The content of a sentence: its lines that do not start with an angle bracket, in order. *)
Theorem C165_content : forall lines, lines <> [] -> Forall (fun x => ~ In 10%N x) lines ->
  exists keep, get_content (sent_init (join 10 lines)) = filter keep lines /\ forall x, keep x = false <-> exists s, x = 60%N :: s.
Proof.
  intros lines N F. exists (fun x => negb (is_tag x)). split; [now apply sent_lines|]. intros x. rewrite <- tag_iff. destruct (is_tag x); cbn; split; congruence.
Qed.
Print Assumptions C165_content.
(** Parsing another text appends its lines. *)
Theorem C165_parse : forall s t, get_content (sent_parse s (Some t)) = get_content s ++ get_content (sent_init t).
Proof. exact sent_again. Qed.
Print Assumptions C165_parse.
Example C165_ex : let lines := map u ["<s>"; "a"; ""; "b"; "</s>"] in lines <> [] /\ Forall (fun x => ~ In 10%N x) lines /\
  get_content (sent_init (join 10 lines)) = map u ["a"; ""; "b"].
Proof. cbn zeta. split; [discriminate|]. split; [repeat constructor; cbn; intuition discriminate|reflexivity]. Qed.
(** Parsing the sentence again changes nothing.  Its lines are appended once more. *)
Theorem C165_again_refuted : exists t, get_content (sent_parse (sent_init t) None) <> get_content (sent_init t).
Proof. exists (u "a"). discriminate. Qed.
Print Assumptions C165_again_refuted.
(** A sentence without text has no lines.  It has one, the empty line. *)
Theorem C165_empty_refuted : get_content (sent_init []) = [[]].
Proof. reflexivity. Qed.
Print Assumptions C165_empty_refuted.
(** A Path starts with the given matches; every add_path adds one at the end; nothing else than its own list is touched. *)
Theorem C165_path : forall {T} st fresh (t : T) o ms, let '(st', p) := path_init st fresh t o in
  add_paths st' p ms (p_matches p) = (match o with Some i => st i | None => [] end) ++ ms /\
  path_size (add_paths st' p ms) p = length (match o with Some i => st i | None => [] end) + length ms /\
  p_template p = t /\ forall j, j <> fresh -> j <> p_matches p -> add_paths st' p ms j = st j.
Proof.
  intros. pose proof (path_starts st fresh t o) as H. destruct (path_init st fresh t o) as [st' p]. destruct H as (H1 & H2 & H3).
  assert (E : add_paths st' p ms (p_matches p) = (match o with Some i => st i | None => [] end) ++ ms) by (now rewrite add_paths_list, H1).
  split; [exact E|]. split; [unfold path_size; now rewrite E, app_length|]. split; [exact H2|]. intros j N N'. rewrite add_paths_other by exact N'. now apply H3.
Qed.
Print Assumptions C165_path.
(** The list of the caller: it gets the added matches too if it was not empty, and none of them if it was. *)
Theorem C165_owner : forall {T} st fresh (t : T) i ms, i <> fresh -> let '(st', p) := path_init st fresh t (Some i) in
  add_paths st' p ms i = match st i with [] => [] | _ => st i ++ ms end.
Proof. exact @path_owner. Qed.
Print Assumptions C165_owner.
Definition ex_store : match_store := fun i => match i with 0 => [[u "x"]] | _ => [] end.
Example C165_ex_path : let '(st, p) := path_init ex_store 9 tt (Some 0) in 0 <> 9 /\ add_paths st p [[u "y"]; [u "z"]] 0 = [[u "x"]; [u "y"]; [u "z"]] /\
  path_size (add_paths st p [[u "y"]; [u "z"]]) p = 3.
Proof. repeat split. discriminate. Qed.
(** A list of the caller is not changed by add_path; a list of the caller is always the list of the path.  Neither holds. *)
Theorem C165_owner_refuted :
  (exists st i ms, i <> 9 /\ let '(st', p) := path_init st 9 tt (Some i) in add_paths st' p ms i <> st i) /\
  (exists st i ms, i <> 9 /\ let '(st', p) := path_init st 9 tt (Some i) in add_paths st' p ms i <> add_paths st' p ms (p_matches p)).
Proof.
  split; [exists ex_store, 0, [[u "y"]]|exists ex_store, 1, [[u "y"]]]; (split; [discriminate|]); vm_compute; discriminate.
Qed.
Print Assumptions C165_owner_refuted.

(** ** Computed cases *)
Example C164_values : exists g, getter_init (M:=list pystr) tab_compile ex_settings = Ok g /\
  let line := join 9 (map u ["walked"; "V"; "walk"]) in
  let g1 := init_machine tab_match g line in
  let m := map u ["walked"; "V"; "walk"] in
  g_node g = [2%Z] /\ form_getter tab_group (g_colloc g) m = Ok (u "walk/V") /\ g_get_item tab_group g m (u "word") = Ok (u "walked") /\
  g_get_item tab_group g m (u "lemma") = Ok (u "walk") /\ p_pos tab_group g1 = Ok (u "V") /\ p_word tab_group g1 = Ok (u "walked") /\
  p_pos tab_group g = Err AttributeError /\ p_word tab_group (init_machine tab_match g1 (u "<s>")) = Err AttributeError /\
  token_line_machine tab_match g line (u "f") (u "7") = Err TypeError /\ g_separator tab_match g (u "<s>") = Some [u "<s>"].
Proof. eexists. split; [vm_compute; reflexivity|]. repeat split; vm_compute; reflexivity. Qed.
Definition other_store : match_store := fun i => match i with 0 => [[u "x"]] | 9 => [[u "old"]] | _ => [] end.
Example C165_values :
  (let '(st, p) := path_init other_store 9 tt None in path_size st p = 0 /\ st 0 = [[u "x"]] /\ add_path st p [u "y"] 0 = [[u "x"]] /\ add_path st p [u "y"] 9 = [[u "y"]]) /\
  (let '(st, p) := path_init other_store 9 tt (Some 0) in st 9 = [[u "old"]] /\ add_path st p [u "y"] 9 = [[u "old"]]).
Proof. repeat split. Qed.
