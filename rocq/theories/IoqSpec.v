(** * What an I/O queue may do

    The log of a queue lists what can be seen of it, the latest event first.
    The first half is about logs only; the second says what it means that a
    thread cannot go on. *)

From Coq Require Import List Arith NArith Bool.
Import ListNotations.
From Verif Require Import IoqModel.

(** ** Logs *)

(** What has happened to a request *)
Definition accepted (r : nat) (l : list event) : Prop := exists close, In (Accept r close) l.
Definition completed (r : nat) (l : list event) : Prop := exists t ran, In (Complete r t ran) l.
Definition returned (r : nat) (l : list event) : Prop := In (Return r) l.
Definition cancelled (l : list event) : Prop := In Cancelled l.

(** An event may come after those in the log.
    - Each request is accepted once, and not after the queue was cancelled.
    - It is completed by one of the workers, after it was accepted, and only
      once.  Its operation is done unless the queue was cancelled, and files
      are closed even then.
    - It is returned after it was completed, and only once. *)
Definition allowed (workers : nat) (e : event) (l : list event) : Prop :=
  match e with
  | Accept r _ => ~ accepted r l /\ ~ cancelled l
  | Complete r t ran =>
      accepted r l /\ ~ completed r l /\ 1 <= t <= workers /\
      (ran = false <-> cancelled l /\ In (Accept r false) l)
  | Return r => completed r l /\ ~ returned r l
  | Cancelled => ~ cancelled l
  end.

Fixpoint proper (workers : nat) (l : list event) : Prop :=
  match l with
  | [] => True
  | e :: r => allowed workers e r /\ proper workers r
  end.

(** At some moment the queue was cancelled although a request that it had
    accepted was not completed yet. *)
Definition interrupted (l : list event) : Prop :=
  exists later earlier r,
    l = later ++ Cancelled :: earlier /\ accepted r earlier /\ ~ completed r earlier.

(** ** Threads *)

(** An address that malloc() could return, or that of an object with the same
    alignment: not null, and with two bits to spare. *)
Definition address (p : N) : Prop := (0 < p < 2 ^ 64 /\ p mod 4 = 0)%N.

(** Whether the word of a slot has an entry: it is neither zero nor a count of
    pushes to skip, besides the bit that says that somebody waits. *)
Definition has_entry (w : N) : Prop := (2 <= w < 2 ^ 63)%N.

(** Thread [t] sleeps until slot [i] of the queue [q] has room, or an entry. *)
Definition sleeps_to_push (size : nat) (s : st) (t : nat) (q : which) (i : nat) : Prop :=
  exists todo n more v, job (th s t) = Push q todo n more (Sleep v) /\ i = n mod size.
Definition sleeps_to_pop (size : nat) (s : st) (t : nat) (q : which) (i : nat) : Prop :=
  exists got n more block v, job (th s t) = Pop q got n more block (Sleep v) /\ i = n mod size.

(** Thread [t] has just changed slot [i], and is on its way to wake up the
    threads that wait for that. *)
Definition waking (p : pc) : bool :=
  match p with Wake1 _ | Wake2 _ | Wake3 _ => true | _ => false end.
Definition wakes (size : nat) (s : st) (t : nat) (q : which) (i : nat) : Prop :=
  match job (th s t) with
  | Rest => False
  | Push q' _ n _ p | Pop q' _ n _ _ p => q' = q /\ n mod size = i /\ waking p = true
  end.

(** Thread [t] cannot take a step; a sleeping thread does not wake up for no
    reason. *)
Definition halted (depth workers bexp : nat) (monitor : nat -> nat) (stop : N) (asserts : bool) (s : st) (t : nat) : Prop :=
  forall o, step depth bexp monitor stop asserts t false o s = Some s.

(** No worker can go on, and neither can the owner, or it is between calls and
    has submitted every request. *)
Definition waits (depth workers bexp : nat) (monitor : nat -> nat) (stop : N) (asserts : bool) (s : st) : Prop :=
  (forall t, 1 <= t <= workers -> halted depth workers bexp monitor stop asserts s t) /\
  (halted depth workers bexp monitor stop asserts s 0 \/
   job (th s 0) = Rest /\ at_ (th s 0) = M_idle /\ pend (th s 0) = []).

(** A worker has returned from its loop. *)
Definition exited (s : st) (t : nat) : Prop := job (th s t) = Rest /\ at_ (th s t) = W_exit.
