(** * Model of open_std_streams() in src/main.c 65-112

    The system: the table of open file descriptors is a list, the descriptor is
    the index.  open() uses the least free descriptor, as POSIX says.  Each call
    of open() and dup2() may fail; the oracle says which. *)
From Coq Require Import List ZArith Bool.
Import ListNotations.

(** How a file was opened *)
Inductive mode := O_PATH | O_RDONLY | O_WRONLY.
(** What a descriptor refers to: a file that was open when the program was
    started, or one that it opened itself *)
Inductive file := Given (n : nat) | DevNull (m : mode).
Definition table := list (option file).

Definition get (t : table) (fd : nat) : option file := nth fd t None.
Fixpoint set (t : table) (fd : nat) (f : option file) : table :=
  match fd, t with
  | O, [] => [f]
  | O, _ :: t => f :: t
  | S fd, [] => None :: set [] fd f
  | S fd, x :: t => x :: set t fd f
  end.
Fixpoint lowest (t : table) : nat :=
  match t with
  | [] => O
  | None :: _ => O
  | Some _ :: t => S (lowest t)
  end.

(** The calls made so far, and the table *)
Record state := mkState { calls : nat; fds : table }.

Section Program.
  Variable fails : nat -> bool.
  (** Whether the platform has O_PATH *)
  Variable has_path : bool.

  (** open("/dev/null", flags), dup2() and close(); [None] is the return value -1.
      close() frees the descriptor even if it fails. *)
  Definition sys_open (flags : mode) (s : state) : option nat * state :=
    if fails (calls s) then (None, mkState (S (calls s)) (fds s))
    else let fd := lowest (fds s) in (Some fd, mkState (S (calls s)) (set (fds s) fd (Some (DevNull flags)))).
  Definition sys_dup2 (oldfd newfd : nat) (s : state) : option nat * state :=
    if fails (calls s) then (None, mkState (S (calls s)) (fds s))
    else (Some newfd, mkState (S (calls s)) (set (fds s) newfd (get (fds s) oldfd))).
  Definition sys_close (fd : nat) (s : state) : state := mkState (calls s) (set (fds s) fd None).

  (** 68-70: fcntl(F_GETFD) fails with EBADF if the descriptor is not open, and
      with nothing else *)
  Definition isopen (fd : nat) (s : state) : bool := match get (fds s) fd with Some _ => true | None => false end.

  (** 75-84; [None] is a negative return value *)
  Definition redirect (fd : nat) (flags : mode) (s : state) : option nat * state :=
    match sys_open flags s with
    | (None, s) => (None, s)
    | (Some newfd, s) =>
        if Nat.eqb newfd fd then (Some newfd, s)
        else let '(ret, s) := sys_dup2 newfd fd s in (ret, sys_close newfd s)
    end.

  (** 92-97 *)
  Definition inflags : mode := if has_path then O_PATH else O_WRONLY.
  Definition outflags : mode := if has_path then O_PATH else O_RDONLY.

  Definition STDIN_FILENO := 0%nat.
  Definition STDOUT_FILENO := 1%nat.
  Definition STDERR_FILENO := 2%nat.

  (** One of the three conditions at 99, 102 and 106; [true] if it is false *)
  Definition ensure (fd : nat) (flags : mode) (s : state) : bool * state :=
    if isopen fd s then (true, s)
    else match redirect fd flags s with (Some _, s) => (true, s) | (None, s) => (false, s) end.

  (** 91-112; [true] is the return value 0 *)
  Definition open_std_streams (s : state) : bool * state :=
    let '(ok, s) := ensure STDERR_FILENO outflags s in
    if negb ok then (false, s)
    else
      let '(ok, s) := ensure STDOUT_FILENO outflags s in
      if negb ok then (false, s)
      else ensure STDIN_FILENO inflags s.
End Program.
