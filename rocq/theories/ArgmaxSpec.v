(** * How large a command may be on Linux *)
From Coq Require Import List ZArith.
From Verif Require Import ExecModel.
Import ListNotations.
Local Open Scope Z_scope.

Definition len (s : arg) : Z := Z.of_nat (length s).
(** A string with its terminator and a pointer to it *)
Definition space (l : list arg) : Z := fold_right (fun s n => len s + 1 + 8 + n) 0 l.

(** What execve() allows for arguments and environment: a quarter of the stack, but at most 6 MiB and at least 128 KiB *)
Definition allowance (stack : Z) : Z := Z.max 131072 (Z.min (stack / 4) 6291456).

(** execve() accepts a command: no string is longer than 32 pages, and all strings, with the path of the executable file, and
    the pointers to them are within what is allowed.  Otherwise it fails with E2BIG. *)
Definition short (s : arg) : Prop := len s + 1 <= 131072.
Definition accepted (stack : Z) (file : arg) (environ argv : list arg) : Prop :=
  short file /\ Forall short environ /\ Forall short argv /\
  len file + 1 + space environ + space argv <= allowance stack.

(** The system runs every command, unless it is too large. *)
Definition linux (stack : Z) (file : arg) (environ : list arg) (kernel : nat -> list arg -> outcome) : Prop :=
  forall n argv, kernel n argv <> Fault /\ (kernel n argv = TooBig <-> ~ accepted stack file environ argv).

(** The limit that the GNU C library reports: it does not know about 6 MiB. *)
Definition reported_limit (stack : Z) : Z := Z.max 131072 (stack / 4).
