(** * The limit on the size of commands: exec.c *)
From Coq Require Import List ZArith.
From Verif Require Import ExecModel.
Import ListNotations.
Local Open Scope Z_scope.

(** Conversion to [long], with 64 bits *)
Definition to_long (z : Z) : Z := (z + 2 ^ 63) mod 2 ^ 64 - 2 ^ 63.

(** [arg_max -= n] for [n] of type [size_t]: the difference is computed in [size_t] and converted to [long]. *)
Definition take (arg_max : Z) (n : Z) : Z := to_long ((arg_max - n) mod 2 ^ 64).
(** The loops of 71-73 and 79-81, with [bfs_exec_arg_size] (52-54) *)
Definition take_args (arg_max : Z) (l : list arg) : Z := fold_left (fun m a => take m (Z.of_nat (arg_size a))) l arg_max.

(** 57 *)
Definition BFS_EXEC_ARG_MAX : Z := 16777216.

(** 60-107, [bfs_exec_arg_max].  [sc_arg_max] and [sc_pagesize] are what sysconf() returns, [fixed] are the arguments
    of the template before the last.  The result is not negative, so its conversion to [size_t] keeps it. *)
Definition bfs_exec_arg_max (sc_arg_max sc_pagesize : Z) (environ fixed : list arg) : Z :=
  let arg_max := if sc_arg_max <? 0 then BFS_EXEC_ARG_MAX else sc_arg_max in
  let arg_max := take_args arg_max environ in
  let arg_max := take arg_max 8 in
  let arg_max := take_args arg_max fixed in
  let arg_max := take arg_max 8 in
  let page_size := if sc_pagesize <? 4096 then 4096 else sc_pagesize in
  let arg_max := to_long (arg_max - page_size) in
  let arg_max := to_long (arg_max - 2048) in
  if arg_max <? 0 then 0 else if BFS_EXEC_ARG_MAX <? arg_max then BFS_EXEC_ARG_MAX else arg_max.
