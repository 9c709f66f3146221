(** * Model of src/eval.c: what is done with each file that the walk reports

    Expressions are functions: they may change the action that is returned to the
    walk, and -exclude also has a result.  The progress bar, debugging output and
    error messages are not modelled.  [None] is a failed assertion. *)
From Coq Require Import List ZArith NArith Arith Bool.
From Coq Require Import Init.Byte.
From Coq Require Strings.Byte.
From Verif Require Import TrieModel PwModel.
Import ListNotations.

(** bftw.h 16-32 and 109-120, [enum bftw_visit] and [enum bftw_action] *)
Inductive visit := Pre | Post.
Inductive action := Continue | Prune | Stop.

(** ctx.h, the parts of [struct bfs_ctx] used here: -unique, -X, -mindepth, -maxdepth
    (both of type int), whether BFTW_POST_ORDER is set, and whether the strategy is BFTW_IDS *)
Record ctx := mkCtx { unique : bool; xargs_safe : bool; mindepth : Z; maxdepth : Z; post_order : bool; ids : bool }.

(** bftw.h 45-87, the parts of [struct BFTW] used here *)
Record file := mkFile { is_error : bool; is_dir : bool; f_depth : N; f_visit : visit; f_path : list byte }.

(** What eval_callback() calls: stat(), which may fail, the allocations of the trie,
    the expression of -exclude and the main expression *)
Record world := mkWorld { stat : option (N * N); mem : allocs; exclude : action -> bool * action; expr : action -> action }.

(** What became of a file: an error was reported for it; -unique could not look at it or
    dropped it; it was excluded; its path is unsafe; the expression was not evaluated; it was *)
Inductive outcome := Errored | Unknown | Duplicate | Excluded | Unsafe | Skipped | Evaluated.

(** The bytes of an unsigned integer (little-endian) *)
Fixpoint le_bytes (k : nat) (n : N) : list byte :=
  match k with O => [] | S k => byte_of n :: le_bytes k (n / 256) end.

(** stat.c 373-376, [bfs_stat_id], for 64-bit dev_t and ino_t *)
Definition stat_id (dev ino : N) : key := le_bytes 8 dev ++ le_bytes 8 ino.

(** The conversion of int to size_t *)
Definition size_t (z : Z) : N := Z.to_N (z mod 2 ^ 64).

(** The characters given to strpbrk() in eval.c 1516 *)
Definition unsafe_char (b : byte) : bool :=
  existsb (Byte.eqb b) [x20; x09; x0a; x27; x22; x5c].

Section Callback.
Variable omax : nat.

(** eval.c 1230-1252, [eval_file_unique].  The second part of the result is [None] for true. *)
Definition eval_file_unique (w : world) (seen : trie) : option (trie * option outcome) :=
  match stat w with
  | None => Some (seen, Some Unknown)
  | Some (dev, ino) =>
      match insert_mem omax (mem w) seen (stat_id dev ino) with
      | (tr, Found l) => if negb (N.eqb (values tr (lid l)) 0) then Some (tr, Some Duplicate)
                         else Some (set_leaf tr l 1, None)
      | (tr, Null) => Some (tr, Some Unknown)
      | (_, Assert) => None
      end
  end.

(** 1510-1537, the rest of [eval_callback] *)
Definition eval_file (c : ctx) (f : file) (w : world) : outcome * action :=
  let '(ex, act) := exclude w Continue in
  if ex then (Excluded, Prune)
  else if xargs_safe c && existsb unsafe_char (f_path f) then (Unsafe, Prune)
  else
    let act := if (maxdepth c <? 0)%Z || (size_t (maxdepth c) <=? f_depth f)%N then Prune else act in
    let expected :=
      if post_order c && (ids c || is_dir f) && (f_depth f <? size_t (maxdepth c))%N then Post else Pre in
    let visited := match f_visit f, expected with Pre, Pre => true | Post, Post => true | _, _ => false end in
    if visited && (size_t (mindepth c) <=? f_depth f)%N && (f_depth f <=? size_t (maxdepth c))%N
    then (Evaluated, expr w act)
    else (Skipped, act).

(** 1457-1551, [eval_callback] *)
Definition eval_callback (c : ctx) (seen : trie) (f : file) (w : world) : option (trie * (outcome * action)) :=
  if is_error f then Some (seen, (Errored, Prune))
  else if unique c && match f_visit f with Pre => true | Post => false end then
    match eval_file_unique w seen with
    | None => None
    | Some (seen, None) => Some (seen, eval_file c f w)
    | Some (seen, Some Duplicate) => Some (seen, (Duplicate, Prune))
    | Some (seen, Some o) => Some (seen, (o, Continue))
    end
  else Some (seen, eval_file c f w).

(** A sequence of calls *)
Fixpoint callbacks (c : ctx) (seen : trie) (calls : list (file * world)) : option (list (outcome * action)) :=
  match calls with
  | [] => Some []
  | (f, w) :: calls =>
      match eval_callback c seen f w with
      | None => None
      | Some (seen, r) => match callbacks c seen calls with
                          | None => None
                          | Some rs => Some (r :: rs)
                          end
      end
  end.
End Callback.
