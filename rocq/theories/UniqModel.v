(** * Whole searches with -unique

    The file tree walk of [BftwModel] and [DeepenModel] calls [CbModel.eval_callback], with the trie of files that have been seen.  How the
    expressions and stat() behave for the file at [p] is given by [answers p]. *)
From Coq Require Import List ZArith NArith Arith Bool.
From Coq Require Import Init.Byte.
From Verif Require Import BftwModel DeepenModel SearchModel.
From Verif Require TrieModel CbModel.
Import ListNotations.

(** src/eval.c 1380-1394, the parts of [struct callback_args] that matter: [seen], and the files that the expression was evaluated for, latest first *)
Record args := mkArgs { seen : TrieModel.trie; evaluated : list pos }.
Definition start : args := mkArgs TrieModel.trie_init [].

(** The parts of [struct BFTW] *)
Definition event_file (e : event) : CbModel.file :=
  CbModel.mkFile (match e_type e with BFS_ERROR => true | _ => false end)
    (match e_type e with BFS_DIR => true | _ => false end) (N.of_nat (e_depth e)) (of_visit (e_visit e)) (e_path e).

(** src/eval.c 1457-1551, [eval_callback].  A failed assertion ends everything. *)
Definition unique_callback (omax : nat) (c : CbModel.ctx) (answers : pos -> CbModel.world) (u : args) (e : event) : action * args :=
  match CbModel.eval_callback omax c (seen u) (event_file e) (answers (e_pos e)) with
  | None => (BFTW_STOP, u)
  | Some (seen, (o, act)) =>
      (to_action act, mkArgs seen (match o with CbModel.Evaluated => e_pos e :: evaluated u | _ => evaluated u end))
  end.
