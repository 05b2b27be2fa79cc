(** * C76 in general: build_col_freq with vocabularies of any kind, FILTERPRESENT set or not. *)
From Coq Require Import String NArith ZArith Bool Arith List.
From Verif Require Import Base VocabModel CorpusModel CorpusSpec CorpusExamples ParModel ParProofs MxModel MxSpec ParColModel ParColSpec ParColProofs ParProps ParColProps ParStrayProofs.
Import ListNotations.
Local Open Scope nat_scope.
Local Open Scope list_scope.

(** A pair of items is let through by the flags, but is not in the vocabularies, and occurs in the files. *)
Definition strays {L M} (match_line : L -> option M) separator (get_type get_colloc : M -> pystr) rv cv l r (contents : list (list L)) : Prop :=
  exists t c, allowed rv t = true /\ (any_column cv = true \/ allowed cv c = true) /\ wanted rv cv t c = false /\
              (0 < all_pairs match_line separator get_type get_colloc l r contents t c)%Z.
Lemma stray_strays {L M} (match_line : L -> option M) separator (get_type get_colloc : M -> pystr) rv cv l r cs :
  stray match_line separator get_type get_colloc rv cv l r cs <-> strays match_line separator get_type get_colloc rv cv l r cs.
Proof.
  unfold stray, strays, passes. split; intros (t & c & H).
  - destruct H as (H1 & H2 & H3). exists t, c. apply andb_true_iff in H1 as [H1 H4]. apply orb_true_iff in H4. auto.
  - destruct H as (H1 & H4 & H2 & H3). exists t, c. split; [|auto]. apply andb_true_iff. split; [exact H1|]. apply orb_true_iff. exact H4.
Qed.

(** Every finished run returns the counts of the files whose workers met no such pair and could read all their files; the other
    workers died, and what they had counted is lost. *)
Theorem C76_survivors : forall {L M} (match_line : L -> option M) separator (get_type get_colloc : M -> pystr) rv cv l r,
  dwf (fd rv) -> dwf (fd cv) -> forall nw files sched st,
  run (cf_job match_line separator get_type get_colloc rv l r) (cf_finish rv cv) (cf_start cv nw files) sched = Some st -> joined st = true ->
  exists css o, cf_result st = Ok o /\
    holds_counts rv cv o (corpus_pairs match_line separator get_type get_colloc rv cv l r (concat css)) /\
    Forall2 (fun w x => match w with
                        | WExit => fst x = map Ok (snd x) /\ ~ strays match_line separator get_type get_colloc rv cv l r (snd x)
                        | _ => snd x = [] /\ ((exists e, In (Err e) (fst x)) \/
                                              exists cs, fst x = map Ok cs /\ strays match_line separator get_type get_colloc rv cv l r cs)
                        end) (workers st)
      (combine (shares (cf_init cv) (cf_job match_line separator get_type get_colloc rv l r) (cf_finish rv cv) nw files sched) css) /\
    length css = nw.
Proof.
  intros L M match_line separator get_type get_colloc rv cv l r WR WC nw files sched st E Jn.
  destruct (pool_fates match_line separator get_type get_colloc rv cv l r WR WC nw files sched st E Jn) as (css & o & A & B & C & D).
  exists css, o. split; [exact A|]. split; [exact B|]. split; [|exact D].
  pose proof (stray_strays match_line separator get_type get_colloc rv cv l r) as S1.
  induction C as [|w x ws xs F C IH]; constructor; [|exact IH]. unfold fate in F.
  destruct w; try (destruct F as [F1 [F2|(cs & F2 & F3)]]; (split; [exact F1|]); [left; exact F2|right; exists cs; split; [exact F2|apply S1; exact F3]]).
  destruct F as [F1 F2]. split; [exact F1|]. intros X. apply F2, S1. exact X.
Qed.
Print Assumptions C76_survivors.

(** Two workers, a row vocabulary {a} filled with increment(): the worker that takes "a b" meets b as a type and dies, the one that
    takes "a" alone exits. *)
Definition ex_irv : vocab := v_incr no_vocab (u "a") 1.
Example C76_ex_survivors : dwf (fd ex_irv) /\ filt ex_irv = false /\
  strays ex_match ex_is_sep ex_id ex_id ex_irv no_vocab 1 1 [map u ["a"; "b"]%string] /\
  exists st, run (cf_job ex_match ex_is_sep ex_id ex_id ex_irv 1 1) (cf_finish ex_irv no_vocab)
               (cf_start no_vocab 2 (map Ok [map u ["a"; "b"]%string; map u ["a"; "a"]%string]))
               [Producer; Worker 0; Producer; Worker 1; Producer; Producer; Worker 0; Worker 1; Worker 1; Worker 1] = Some st /\ joined st = true /\
    workers st = [WDead; WExit] /\
    exists m, cf_result st = Ok (Some m) /\ entries (tmx m) = [(0, 0, 2%Z)].
Proof.
  split; [repeat constructor; cbn; intuition discriminate|]. split; [reflexivity|]. split.
  { exists (u "b"), (u "a"). split; [reflexivity|]. split; [left; reflexivity|]. split; vm_compute; reflexivity. }
  eexists. split; [vm_compute; reflexivity|]. split; [vm_compute; reflexivity|]. split; [vm_compute; reflexivity|]. eexists. split; vm_compute; reflexivity.
Qed.

(** With files that can all be read: some worker dies if and only if a stray pair occurs; without one the counts are right, whatever
    the flags. *)
Theorem C76_exact : forall {L M} (match_line : L -> option M) separator (get_type get_colloc : M -> pystr) rv cv l r,
  dwf (fd rv) -> dwf (fd cv) -> forall nw contents sched st, 1 <= nw ->
  run (cf_job match_line separator get_type get_colloc rv l r) (cf_finish rv cv) (cf_start cv nw (map Ok contents)) sched = Some st -> joined st = true ->
  ((exists w, In w (workers st) /\ w <> WExit) -> strays match_line separator get_type get_colloc rv cv l r contents) /\
  (strays match_line separator get_type get_colloc rv cv l r contents -> ~ forall w, In w (workers st) -> w = WExit) /\
  (~ strays match_line separator get_type get_colloc rv cv l r contents ->
   exists o, cf_result st = Ok o /\ holds_counts rv cv o (corpus_pairs match_line separator get_type get_colloc rv cv l r contents)).
Proof.
  intros L M match_line separator get_type get_colloc rv cv l r WR WC nw contents sched st N E Jn.
  destruct (pool_clean match_line separator get_type get_colloc rv cv l r WR WC nw contents sched st N E Jn) as (A & D & B).
  assert (S1 : stray match_line separator get_type get_colloc rv cv l r contents <-> strays match_line separator get_type get_colloc rv cv l r contents) by apply stray_strays.
  split; [|split].
  - intros (w & I & W). apply S1, (D w I W).
  - intros H X. apply (proj1 A X). apply S1. exact H.
  - intros H. apply B. intros X. apply H, S1. exact X.
Qed.
Print Assumptions C76_exact.
(** A row vocabulary filled with increment() from the same corpus, as nothing else occurs in it: the counts are right. *)
Definition ex_irv2 : vocab := v_incr ex_irv (u "b") 1.
Example C76_ex_exact : dwf (fd ex_irv2) /\ filt ex_irv2 = false /\
  ~ strays ex_match ex_is_sep ex_id ex_id ex_irv2 no_vocab 1 1 [map u ["a"; "b"]%string] /\
  exists st, run (cf_job ex_match ex_is_sep ex_id ex_id ex_irv2 1 1) (cf_finish ex_irv2 no_vocab)
               (cf_start no_vocab 1 (map Ok [map u ["a"; "b"]%string])) [Producer; Worker 0; Producer; Worker 0; Worker 0; Worker 0] = Some st /\ joined st = true /\
    exists m, cf_result st = Ok (Some m) /\ entries (tmx m) = [(0, 1, 1%Z); (1, 0, 1%Z)].
Proof.
  assert (W : dwf (fd ex_irv2)) by (repeat constructor; cbn; intuition discriminate).
  assert (R : exists st, run (cf_job ex_match ex_is_sep ex_id ex_id ex_irv2 1 1) (cf_finish ex_irv2 no_vocab)
               (cf_start no_vocab 1 (map Ok [map u ["a"; "b"]%string])) [Producer; Worker 0; Producer; Worker 0; Worker 0; Worker 0] = Some st /\ joined st = true /\
      workers st = [WExit]).
  { eexists. split; [vm_compute; reflexivity|]. split; vm_compute; reflexivity. }
  split; [exact W|]. split; [reflexivity|]. split.
  { destruct R as (st & R1 & R2 & R3). intros S1. assert (N : 1 <= 1) by auto. assert (W0 : dwf (fd no_vocab)) by constructor.
    destruct (C76_exact _ _ _ _ ex_irv2 no_vocab 1 1 W W0 1 _ _ _ N R1 R2) as (_ & B & _). apply (B S1). rewrite R3. intros w [<- | []]. reflexivity. }
  eexists. split; [vm_compute; reflexivity|]. split; [vm_compute; reflexivity|]. eexists. split; vm_compute; reflexivity.
Qed.
