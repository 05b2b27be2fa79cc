(** * What the claims about queries, saved frequency lists and concordances mean. *)
From Coq Require Import NArith ZArith Bool Arith List.
From Verif Require Import Base Str VocabModel VocabFileModel TermsModel TokMxModel TokMxSpec QryModel.
Import ListNotations.

(** ** Queries *)
(** The field [f] gives the word [w] for the corpus [n]: name, one colon, word, with white space around them dropped. *)
Definition gives (f n w : pystr) : Prop :=
  exists a b, f = a ++ colon :: b /\ ~ In colon a /\ ~ In colon b /\ n = strip a /\ w = strip b.
(** The last word that the fields give for [n]; the first word that they give for any corpus. *)
Definition last_given (fs : list pystr) (n w : pystr) : Prop :=
  exists p f s, fs = p ++ f :: s /\ gives f n w /\ forall f', In f' s -> forall w', ~ gives f' n w'.
Definition first_given (fs : list pystr) (w : pystr) : Prop :=
  exists p f s n, fs = p ++ f :: s /\ gives f n w /\ forall f', In f' p -> forall n' w', ~ gives f' n' w'.
Definition names (fs : list pystr) (n : pystr) : Prop := exists f w, In f fs /\ gives f n w.

(** ** A plain file cut off *)
(** The first [n] items; or these and the next one, with a frequency whose digits may be cut off. *)
Definition cut_reading (items : list (pystr * Z)) (d : dict pystr fval) : Prop :=
  exists n, d = map (fun kv => (fst kv, FInt (snd kv))) (firstn n items) \/
    exists k z t r z', nth_error items n = Some (k, z) /\ str_of_Z z = t ++ r /\ t <> [] /\ int_of_str t = Ok z' /\
      d = map (fun kv => (fst kv, FInt (snd kv))) (firstn n items) ++ [(k, FInt z')].

(** ** Concordances *)
(** The tokens in order: type by type *)
Definition toks_of (d : dict pystr (tnode ctok)) : list ctok := flat_map (fun kv => tn_tokens (snd kv)) d.
(** What a line shows: token, left collocates, target, right collocates *)
Definition crow : Type := pystr * list pystr * pystr * list pystr.
Definition row_is (fmt own : option pystr) (t : ctok) (r : crow) : Prop :=
  match r with (s, ls, w, rs) =>
    ct_str t = Ok s /\ collocs_are fmt t ls rs /\ colloc_string fmt (INode (kn_attrs (ct_node t)) None own) w
  end.
(** A string without white space that is not empty *)
Definition solid (s : pystr) : Prop := s <> [] /\ forall c, In c s -> is_ws c = false.
Definition solid_row (r : crow) : Prop :=
  match r with (s, ls, w, rs) => solid s /\ Forall solid ls /\ solid w /\ Forall solid rs end.
(** Reading a line: four fields between tabs, words between spaces *)
Definition words (s : pystr) : list pystr := match s with [] => [] | _ => split space s end.
Definition read_row (line : pystr) : option crow :=
  match split tab line with [s; l; w; r] => Some (s, words l, w, words r) | _ => None end.

(** ** Subsets *)
(** [k] different numbers below [f] *)
Definition sample_of (f k : nat) (l : list nat) : Prop := NoDup l /\ length l = k /\ forall i, In i l -> i < f.
