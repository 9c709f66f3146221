(** * C54: every request to the background threads is answered once *)
From Coq Require Import List Bool Arith ZArith Lia.
From Verif Require Import RingModel RingSpec RingProofs.
Import ListNotations.

(** Whatever the kernel and the other threads do, and for as long as the thread runs: neither queue of the ring overflows, no assertion fails, the thread waits
    only for completions that can come, and waits for new requests only if it answered all others.  Each request is carried out once and answered once, with the
    result, and closing is never refused; a descriptor opened by the ring becomes a directory or is closed.  When the thread ends, every request that it took is
    answered, and IOQ_STOP is there for the other threads. *)
Theorem C54_worker : forall env IOQ_BATCH entries has_openat has_close has_statx has_unwrapdir,
  0 < IOQ_BATCH -> 0 < entries -> stops_last IOQ_BATCH env ->
  forall ring fuel,
  let (ended_loop, s) := ioq_work env IOQ_BATCH entries has_openat has_close has_statx has_unwrapdir ring fuel in
  (forall past e future, trace s = past ++ e :: future -> allowed (was_cancelled env) entries past e) /\
  (forall i, begun (was_cancelled env) (story i (trace s))) /\
  (ended_loop = true -> (forall i, ended (was_cancelled env) (story i (trace s))) /\ In Restop (trace s)).
Proof. exact work_correct. Qed.
Print Assumptions C54_worker.

(** If IOQ_STOP is not the last of its batch, which may happen with several threads (see C13), then the requests after it are lost. *)
Theorem C54_stop_refuted : exists env IOQ_BATCH entries has_openat has_close has_statx has_unwrapdir fuel,
  0 < IOQ_BATCH /\ 0 < entries /\
  forall ring, let (ended_loop, s) := ioq_work env IOQ_BATCH entries has_openat has_close has_statx has_unwrapdir ring fuel in
  ended_loop = true /\ In Bug (trace s) /\ exists i, ~ ended (was_cancelled env) (story i (trace s)).
Proof. exact stop_refuted. Qed.
Print Assumptions C54_stop_refuted.

Module Examples.
  (** The queue is cancelled after a while, and the kernel accepts one entry at a time. *)
  Definition slow (t : nat) : moment :=
    mkMoment (6 <=? t) (match t with 0 => [Some Opendir; Some Stat; Some Closedir; Some (Nop false)] | _ => [Some Stat; Some Close; None] end)
      (if Nat.even t then 0 else 1) (if Nat.even t then [(1, 3%Z)] else [(0, 5%Z)]) 7%Z.
  (** The kernel accepts everything, but no directory can be made. *)
  Definition quick (t : nat) : moment :=
    mkMoment false (match t with 0 => [Some Opendir; Some Stat; Some Closedir; Some (Nop false)] | _ => [Some Stat; Some Close; None] end) 10 [(0, 5%Z)] (-2)%Z.
  Example slow_stops : stops_last 4 slow.
  Proof.
    intros t a b E. destruct t as [|t]; cbn in E.
    - do 4 (destruct a as [|? a]; [discriminate E|]; injection E as _ E). destruct a; discriminate E.
    - destruct a as [|? a]; [discriminate E|]; injection E as _ E. destruct a as [|? a]; [discriminate E|]; injection E as _ E.
      destruct a as [|? a]; [injection E as E; symmetry; exact E|]. injection E as _ E. destruct a; discriminate E.
  Qed.
  Example slow_ring : (let (r, s) := ioq_work slow 4 2 true true true true true 100 in (r, map (fun i => story i (trace s)) [0; 1; 2; 3; 4; 5; 6])) =
    (true,
     [[Took Opendir; Queued; Sent; Done 5; Seen; Dropped 5; Answered (-4)];
      [Took Stat; Queued; Sent; Done 5; Seen; Converted 7; Answered 7];
      [Took Closedir; Queued; Sent; Done 5; Seen; Answered 5];
      [Took (Nop false); Refused; Answered (-4)];
      [Took Stat; Refused; Answered (-4)];
      [Took Close; Queued; Sent; Done 5; Seen; Answered 5];
      []]%Z).
  Proof. vm_compute. reflexivity. Qed.
  Example slow_order : filter (fun e => match e with Wait _ | Of _ Sent | Of _ Queued => true | _ => false end) (trace (snd (ioq_work slow 4 2 true true true true true 100))) =
    [Of 0 Queued; Of 1 Queued; Of 0 Sent; Wait 1; Of 1 Sent; Wait 0; Of 2 Queued; Of 5 Queued; Of 2 Sent; Wait 1; Of 5 Sent; Wait 0].
  Proof. vm_compute. reflexivity. Qed.
  Example quick_ring : (let (r, s) := ioq_work quick 4 2 true true true false true 100 in (r, map (fun i => story i (trace s)) [0; 1; 2])) =
    (true,
     [[Took Opendir; Queued; Sent; Done 5; Seen; Wrapped 5 (-2); Dropped 5; Answered (-2)];
      [Took Stat; Queued; Sent; Done 5; Seen; Converted (-2); Answered (-2)];
      [Took Closedir; Did (-2); Answered (-2)]]%Z).
  Proof. vm_compute. reflexivity. Qed.
  Example without_ring : (let (r, s) := ioq_work slow 4 2 true true true true false 100 in (r, trace s)) =
    (true,
     [Block; Of 0 (Took Opendir); Of 1 (Took Stat); Of 2 (Took Closedir); Of 3 (Took (Nop false)); Of 0 (Did 7); Of 1 (Did 7); Of 2 (Did 7); Of 3 Refused;
      Of 0 (Answered 7); Of 1 (Answered 7); Of 2 (Answered 7); Of 3 (Answered (-4)); Block; Of 4 (Took Stat); Of 5 (Took Close); Of 4 Refused; Of 5 (Did 7); Restop;
      Of 4 (Answered (-4)); Of 5 (Answered 7)]%Z).
  Proof. vm_compute. reflexivity. Qed.
End Examples.
