(** * Model of xread() and xwrite() in src/bfstd.c

    The kernel is a sequence of answers, one per system call.  A buffer is the
    list of its bytes.  [None] means that the answers ran out before the loop
    ended: the program is still retrying. *)
From Coq Require Import List Arith Bool.
From Coq Require Import Init.Byte.
Import ListNotations.

(** What the kernel does with one call: it fails with EINTR, or with another
    error number, or it is willing to transfer up to [k] bytes. *)
Inductive answer := Interrupted | Failed (errno : nat) | Transfer (k : nat).

(** The byte store at [p], [p + 1], ... *)
Definition store (buf : list byte) (p : nat) (s : list byte) : list byte :=
  firstn p buf ++ s ++ skipn (p + length s) buf.

(** How the loop ended *)
Inductive ending := Full | Eof | Error (errno : nat).

(** read(2): [file] is what the descriptor has yet to deliver.  It delivers
    nothing at end of file and at least one byte otherwise. *)
Definition read_amount (k n : nat) (file : list byte) : nat :=
  min (min (max k 1) n) (length file).

(** src/bfstd.c 709-731, xread.  Returns the count, the buffer, the rest of the
    file and how the loop ended (errno is 0 for [Eof]). *)
Fixpoint xread (answers : list answer) (file buf : list byte) (nbytes count : nat)
  : option (nat * list byte * list byte * ending) :=
  if count <? nbytes then
    match answers with
    | [] => None
    | Interrupted :: more => xread more file buf nbytes count
    | Failed e :: _ => Some (count, buf, file, Error e)
    | Transfer k :: more =>
        let n := read_amount k (nbytes - count) file in
        if n =? 0 then Some (count, buf, file, Eof)
        else xread more (skipn n file) (store buf count (firstn n file)) nbytes (count + n)
    end
  else Some (count, buf, file, Full).

(** src/bfstd.c 733-755, xwrite.  write(2) accepts up to [k] bytes, possibly
    none; [file] is what has been accepted so far. *)
Fixpoint xwrite (answers : list answer) (file buf : list byte) (nbytes count : nat)
  : option (nat * list byte * ending) :=
  if count <? nbytes then
    match answers with
    | [] => None
    | Interrupted :: more => xwrite more file buf nbytes count
    | Failed e :: _ => Some (count, file, Error e)
    | Transfer k :: more =>
        let n := min k (nbytes - count) in
        if n =? 0 then Some (count, file, Eof)
        else xwrite more (file ++ firstn n (skipn count buf)) buf nbytes (count + n)
    end
  else Some (count, file, Full).
