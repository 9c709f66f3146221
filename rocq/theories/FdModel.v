(** * File descriptors

    src/eval.c raises the limit on open files and works out how many of them the walk may use; src/parse.c and src/expr.c
    add up how many the expression needs; src/exec.c gives the original limit back to commands. *)
From Coq Require Import List NArith ZArith Bool.
Import ListNotations.
Local Open Scope Z_scope.

(** Linux.  A limit ([rlim_t]) is any number below 2^64. *)
Definition RLIM_INFINITY : Z := 2 ^ 64 - 1.

(** src/bfstd.c 582-601: RLIM_SAVED_CUR and RLIM_SAVED_MAX are both RLIM_INFINITY on Linux. *)
Definition rlim_isinf (r : Z) : bool := r =? RLIM_INFINITY.

(** src/bfstd.c 603-611 *)
Definition rlim_cmp (a b : Z) : Z :=
  let a_inf := rlim_isinf a in
  let b_inf := rlim_isinf b in
  if a_inf || b_inf then Z.b2z a_inf - Z.b2z b_inf
  else Z.b2z (b <? a) - Z.b2z (a <? b).

(** [struct rlimit] *)
Record rlimit := mkRlimit { rlim_cur : Z; rlim_max : Z }.

(** What a conversion from [rlim_t] to [int] gives *)
Definition to_int (r : Z) : Z := let x := r mod 2 ^ 32 in if x <? 2 ^ 31 then x else x - 2 ^ 32.

(** src/eval.c 1554-1581.  [orig] is [ctx->orig_nofile], [raise] is [ctx->raise_nofile] and [set] is whether setrlimit() succeeds.  The result
    is that of the function, with [ctx->cur_nofile], which is also the limit of the process. *)
Definition raise_fdlimit (orig : rlimit) (raise set : bool) : Z * rlimit :=
  let cur := rlim_cur orig in
  let max := if raise then rlim_max orig else cur in
  let target := 64 * 1024 in
  let target := if rlim_cmp target max >? 0 then max else target in
  if rlim_cmp target cur <=? 0 then (to_int target, orig)
  else if set then (to_int target, mkRlimit target max)
  else (to_int cur, orig).

(** src/exec.c 375-380: the limit of a command.  [now] is [ctx->cur_nofile]. *)
Definition command_limit (orig now : rlimit) : rlimit :=
  if rlim_cmp (rlim_cur orig) (rlim_cur now) <? 0 then orig else now.

(** Primaries, as far as descriptors matter.  [Names]: those that look up the names of users or groups for their output, like -ls
    and -printf %u.  [Other]: all that need no descriptors, like -name, -print or -delete, and -fprint, whose file is open already. *)
Inductive primary := Empty | Nogroup | Nouser | Exec (multi chdir : bool) | Names | Other.
Inductive expr := Leaf (p : primary) | Node (children : list expr).

(** [persistent_fds] and [ephemeral_fds] (src/expr.h 127-130) *)
Record counts := mkCounts { persistent_fds : Z; ephemeral_fds : Z }.
(** src/expr.c 17-38: zero at first *)
Definition no_fds : counts := mkCounts 0 0.

(** src/parse.c 1241-1248 (-empty), 1253-1312 (-exec and the like), 1832-1839 (-nogroup), 1872-1879 (-nouser) *)
Definition parse_fds (p : primary) : counts :=
  match p with
  | Empty => mkCounts 0 1
  | Exec multi chdir =>
      let c := mkCounts 0 2 in
      if chdir then
        if multi then mkCounts (persistent_fds c + 1) (ephemeral_fds c)
        else mkCounts (persistent_fds c) (ephemeral_fds c + 1)
      else c
  | Nogroup => mkCounts 0 3
  | Nouser => mkCounts 0 3
  | Names | Other => no_fds
  end.

(** src/expr.c 55-68, without the list *)
Definition append_fds (e child : counts) : counts :=
  mkCounts (persistent_fds e + persistent_fds child)
           (if ephemeral_fds e <? ephemeral_fds child then ephemeral_fds child else ephemeral_fds e).

(** The numbers of an expression that was built, or rebuilt by the optimizer (src/opt.c 644-653), by appending its children *)
Fixpoint expr_fds (e : expr) : counts :=
  match e with
  | Leaf p => parse_fds p
  | Node cs => fold_left append_fds (map expr_fds cs) no_fds
  end.

(** src/eval.c 1601-1637.  [nfiles] is [ctx->nfiles]; [entries] is the number of entries that can be read from /proc/self/fd or
    /dev/fd, if one of them can be opened. *)
Definition infer_fdlimit (nfiles : Z) (entries : option Z) (e : expr) (limit : Z) : Z :=
  let nopen := match entries with Some n => -1 + n | None => 3 + nfiles end in
  let ret := limit - nopen in
  let ret := ret - persistent_fds (expr_fds e) in
  let ret := ret - ephemeral_fds (expr_fds e) in
  if ret <? 2 then 2 else ret.

(** src/bftw.c 909-926: the number of directories that may be open, and the number of background threads.  [uring] is BFS_WITH_LIBURING. *)
Definition bftw_split (uring : bool) (nopenfd nthreads : Z) : option (Z * Z) :=
  if nopenfd <? 2 then None
  else if uring then
    let nthreads := if nthreads >=? nopenfd - 1 then nopenfd - 2 else nthreads in
    Some (nopenfd - nthreads, nthreads)
  else Some (nopenfd, nthreads).

(** What a search starts with.  [threads] is [ctx->threads] (-j). *)
Record start := mkStart {
  orig_nofile : rlimit; raise_nofile : bool; can_set : bool; n_files : Z; fd_entries : option Z;
  exclude : expr; expression : expr; uring : bool; threads : Z }.

(** src/eval.c 1725-1741: the limits of the process and the budget of the walk *)
Definition search_fds (s : start) : option (rlimit * Z * Z) :=
  let (fdlimit, now) := raise_fdlimit (orig_nofile s) (raise_nofile s) (can_set s) in
  let fdlimit := infer_fdlimit (n_files s) (fd_entries s) (expression s) fdlimit in
  match bftw_split (uring s) fdlimit (threads s - 1) with
  | Some (dirs, nthreads) => Some (now, dirs, nthreads)
  | None => None
  end.
