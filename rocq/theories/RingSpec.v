(** * What the threads of the I/O queue should do *)
From Coq Require Import List Bool Arith ZArith Lia.
From Verif Require Import RingModel.
Import ListNotations.

Definition closes (k : op) : Prop := k = Close \/ k = Closedir.
Definition opens_or_stats (k : op) : Prop := k = Opendir \/ k = Stat.

(** Whether the queue was cancelled *)
Definition was_cancelled (env : nat -> moment) : Prop := exists t, cancelled (env t) = true.

Section Life.
  Variable cancel : Prop.

  (** The life of a request, from being taken to being answered: the operation is carried out once, by a system call or by the ring, and its
      result is the answer.  A request is refused only if the queue was cancelled, and closing is never refused.  A descriptor that was
      opened by the ring is either made into the directory of a successful answer, or closed. *)
  Inductive life : op -> list what -> Prop :=
  | l_refused k : cancel -> ~ closes k -> life k [Took k; Refused; Answered (- EINTR)]
  | l_sync k r : life k [Took k; Did r; Answered r]
  | l_ring k r : (r < 0)%Z \/ ~ opens_or_stats k -> life k [Took k; Queued; Sent; Done r; Seen; Answered r]
  | l_stat r r' : (0 <= r)%Z -> life Stat [Took Stat; Queued; Sent; Done r; Seen; Converted r'; Answered r']
  | l_dir fd r : (0 <= fd)%Z -> (0 <= r)%Z -> life Opendir [Took Opendir; Queued; Sent; Done fd; Seen; Wrapped fd r; Answered r]
  | l_nodir fd r : (0 <= fd)%Z -> (r < 0)%Z -> life Opendir [Took Opendir; Queued; Sent; Done fd; Seen; Wrapped fd r; Dropped fd; Answered r]
  | l_dropped fd : cancel -> (0 <= fd)%Z -> life Opendir [Took Opendir; Queued; Sent; Done fd; Seen; Dropped fd; Answered (- EINTR)].

  (** So far so good, and the end *)
  Definition begun (l : list what) : Prop := l = [] \/ exists k l', life k (l ++ l').
  Definition ended (l : list what) : Prop := l = [] \/ exists k, life k l.
End Life.

(** What happened to a request *)
Fixpoint story (i : nat) (t : list event) : list what :=
  match t with
  | [] => []
  | Of j w :: t => if j =? i then w :: story i t else story i t
  | _ :: t => story i t
  end.

Definition is_sent (e : event) : bool := match e with Of _ Sent => true | _ => false end.
Definition is_seen (e : event) : bool := match e with Of _ Seen => true | _ => false end.
Definition is_queued (e : event) : bool := match e with Of _ Queued => true | _ => false end.
Definition count (f : event -> bool) (t : list event) : nat := length (filter f t).
(** The number of entries that were submitted, and not reaped: the completion queue has a place for each of them. *)
Definition outstanding (t : list event) : nat := count is_sent t - count is_seen t.
(** The number of entries in the submission queue *)
Definition waiting (t : list event) : nat := count is_queued t - count is_sent t.

(** What may happen next: the thread waits for new requests only when all others are answered; it waits only for completions that
    can come; and neither queue of the ring overflows. *)
Definition allowed (cancel : Prop) (entries : nat) (past : list event) (e : event) : Prop :=
  match e with
  | Block => forall i, ended cancel (story i past)
  | Wait n => n <= outstanding past
  | Of _ Sent => outstanding past < 2 * entries
  | Of _ Queued => waiting past < entries
  | Bug => False
  | _ => True
  end.

(** IOQ_STOP is the last thing in the queue. *)
Definition stops_last (IOQ_BATCH : nat) (env : nat -> moment) : Prop :=
  forall t l l', firstn IOQ_BATCH (popped (env t)) = l ++ None :: l' -> l' = [].
