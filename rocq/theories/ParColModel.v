(** * The pool counting co-occurrences: ColFreqHandler, typetoken.py:184-478. *)
From Coq Require Import NArith ZArith Bool Arith List.
From Verif Require Import Base VocabModel CorpusModel ParModel MxModel.
Import ListNotations.

(** utils.count_values, utils.py:178-183 *)
Definition count_values (d : mtxdict) : nat := sumn (map (fun kv => length (snd kv)) d).

Section ColFreq.
  Context {L M : Type}.
  Variable match_line : L -> option M.
  Variable separator : L -> bool.
  Variables get_type get_colloc : M -> pystr.
  (** self.row_vocab, self.col_vocab *)
  Variables rv cv : vocab.
  Variables l r : nat.
  Notation file := (res (list L)).

  (** nocolvocab, typetoken.py:194-196 *)
  Definition nocolvocab : bool := match fd cv with [] => true | _ => false end.
  (** Before the loop of a worker: an empty nested dict; self.col_vocab (typetoken.py:240-243) or a new empty chunk_col_vocab (293-294). *)
  Definition cf_init : colst := ColSt [] (if nocolvocab then vocab_init false [] else cv).
  (** One job, typetoken.py:247-251 and 298-302; nothing is put on the result queue. *)
  Definition cf_job (s : colst) (f : file) : res (colst * option (option (ttm Z))) :=
    rbind f (fun lines => rmap (fun s' => (s', None))
      (col_update_one_file match_line separator get_type get_colloc rv l r lines s)).
  (** After the None job, typetoken.py:276-287 and 322-336.  The sub-matrix is saved under a name that is unique to the worker and
      the name is put; here the matrix itself is the item (saving and loading give it back: C32).  [Some None] is -1.
      The items of self.col_vocab are listed before the loop (241), those of chunk_col_vocab after it (323). *)
  Definition cf_cols (s : colst) : list pystr := v_item_list (if nocolvocab then c_col s else cv).
  Definition cf_finish (s : colst) : res (option (option (ttm Z))) :=
    if 0 <? count_values (c_mtx s) then
      rbind (dict_to_sp (c_mtx s) (v_item_list rv) (cf_cols s)) (fun m =>
      rmap (fun t => Some (Some t)) (mk_ttm m (v_item_list rv) (cf_cols s)))
    else Ok (if nocolvocab then None else Some None).
  (** _process_results, typetoken.py:448-473: reads qsize() items.  [if not resmtx] is true only for None: TypeTokenMatrix defines
      neither __bool__ nor __len__. *)
  Definition cf_merge (acc : option (ttm Z)) (x : option (ttm Z)) : res (option (ttm Z)) :=
    match x with
    | None => Ok acc
    | Some m => match acc with None => Ok (Some m) | Some a => rmap Some (merge_two a m) end
    end.
  Definition cf_result (st : pstate file colst (option (ttm Z))) : res (option (ttm Z)) := rfold cf_merge (results st) None.
  (** build_col_freq from 219 on, with a non-empty row vocabulary. *)
  Definition cf_start (nworkers : nat) (files : list file) := start (R:=option (ttm Z)) cf_init nworkers files.
End ColFreq.
