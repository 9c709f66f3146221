(** * What a search needs of file descriptors *)
From Coq Require Import List Arith ZArith.
From Verif Require Import FdModel CacheSpec.
Import ListNotations.

(** What the system guarantees for limits.  The largest number stands for no limit. *)
Definition limits_ok (l : rlimit) : Prop := (0 <= rlim_cur l <= rlim_max l /\ rlim_max l < 2 ^ 64)%Z.

Fixpoint leaves (e : expr) : list primary :=
  match e with Leaf p => [p] | Node cs => flat_map leaves cs end.

(** -execdir ... + keeps the directory of the files it has collected open (src/exec.c 269-312). *)
Definition keeps (p : primary) : nat := match p with Exec true true => 1 | _ => 0 end.

(** What a primary opens while it is evaluated: the directory (src/eval.c 457-494); a pipe to a new process (src/xspawn.c), and the directory to
    run it in; whatever the system needs to look up a user or a group, for which bfs assumes three. *)
Definition opens (p : primary) : nat :=
  match p with
  | Empty => 1
  | Exec false true => 3
  | Exec _ _ => 2
  | Nogroup | Nouser | Names => 3
  | Other => 0
  end.

(** How many to put aside for an expression: all that are kept, and the most that one primary opens *)
Definition reserve (e : expr) : nat := list_sum (map keeps (leaves e)) + list_max (map opens (leaves e)).

(** The descriptors that are open for the walk are those of the log of its cache (see C31); with io_uring, there is one more for each thread.
    [standing] have been open from the start, those in [waiting] keep theirs, and [running] is evaluated now. *)
Definition in_use (standing rings : nat) (log : list CacheModel.event) (waiting : list primary) (running : primary) : nat :=
  standing + rings + length (live log) + list_sum (map keeps waiting) + opens running.

(** The number of open files was found out, or guessed well. *)
Definition counted (s : start) (standing : nat) : Prop :=
  fd_entries s = Some (Z.of_nat standing + 1)%Z \/ (fd_entries s = None /\ (Z.of_nat standing <= 3 + n_files s)%Z).

(** Nothing that is not reserved for *)
Definition accounted (s : start) : Prop :=
  ~ In Names (leaves (expression s)) /\ Forall (fun p => opens p = 0) (leaves (exclude s)).

Definition rings (s : start) (nthreads : Z) : nat := if uring s then Z.to_nat nthreads else 0.
