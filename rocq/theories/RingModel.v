(** * The background threads of the I/O queue: src/ioq.c 474-532 and 599-984 *)
From Coq Require Import List Bool Arith ZArith.
Import ListNotations.

(** Requests.  They are numbered in the order in which this thread takes them from the queue of pending requests. *)
Inductive op := Nop (heavy : bool) | Close | Opendir | Closedir | Stat.
Record ent := mkEnt { id : nat; kind : op }.

(** What happens to a request: it is taken from the queue; found to be cancelled; carried out by a system call with a
    result; put into the submission queue; submitted to the kernel; completed by the kernel with a result; reaped; its new
    descriptor made into a directory, with a result, or closed; its struct statx converted, with a result; and handed back
    to the main thread with a result. *)
Inductive what :=
| Took (k : op) | Refused | Did (r : Z) | Queued | Sent | Done (r : Z) | Seen
| Wrapped (fd r : Z) | Dropped (fd : Z) | Converted (r : Z) | Answered (r : Z).
(** What the thread does: something to a request; wait for the queue of pending requests; wait for completions; put
    IOQ_STOP back into the queue; or violate an assertion or use a null pointer. *)
Inductive event := Of (i : nat) (w : what) | Block | Wait (n : nat) | Restop | Bug.

Definition EINTR : Z := 4.

(** The environment at some moment: whether the queue was cancelled; what a batch popped from the queue has ([None] is IOQ_STOP);
    how many entries the kernel accepts (none if there is an error); which ones it completes, and how; the result of a system call *)
Record moment := mkMoment { cancelled : bool; popped : list (option op); accepted : nat; completed : list (nat * Z); result : Z }.

(** [struct ioq_batch], as the position [head] and the entries after it *)
Record batch := mkBatch { head : nat; rest : list (option ent) }.

(** [struct ioq_ring_state] (653-672), with the local batch of ioq_ring_prep(), the rings, the number of requests so far and what happened *)
Record st := mkSt {
  clock : nat; next : nat; trace : list event;
  pending : batch; ready : list (ent * Z);
  sq : list ent; flight : list ent; cq : list (ent * Z);
  prepped : nat; submitted : nat; stop : bool }.

Definition emit (e : event) (s : st) : st :=
  mkSt (clock s) (next s) (trace s ++ [e]) (pending s) (ready s) (sq s) (flight s) (cq s) (prepped s) (submitted s) (stop s).
Definition tick (s : st) : st :=
  mkSt (S (clock s)) (next s) (trace s) (pending s) (ready s) (sq s) (flight s) (cq s) (prepped s) (submitted s) (stop s).
Definition set_pending (b : batch) (s : st) : st :=
  mkSt (clock s) (next s) (trace s) b (ready s) (sq s) (flight s) (cq s) (prepped s) (submitted s) (stop s).
Definition set_ready (l : list (ent * Z)) (s : st) : st :=
  mkSt (clock s) (next s) (trace s) (pending s) l (sq s) (flight s) (cq s) (prepped s) (submitted s) (stop s).
Definition set_rings (q f : list ent) (c : list (ent * Z)) (s : st) : st :=
  mkSt (clock s) (next s) (trace s) (pending s) (ready s) q f c (prepped s) (submitted s) (stop s).
Definition set_counts (p n : nat) (s : st) : st :=
  mkSt (clock s) (next s) (trace s) (pending s) (ready s) (sq s) (flight s) (cq s) p n (stop s).
Definition set_stop (b : bool) (s : st) : st :=
  mkSt (clock s) (next s) (trace s) (pending s) (ready s) (sq s) (flight s) (cq s) (prepped s) (submitted s) b.
Definition set_next (n : nat) (s : st) : st :=
  mkSt (clock s) n (trace s) (pending s) (ready s) (sq s) (flight s) (cq s) (prepped s) (submitted s) (stop s).
Definition init : st := mkSt 0 0 [] (mkBatch 0 []) [] [] [] [] 0 0 false.

(** Functions that may not return: [false] if this is as far as it went. *)
Definition andthen (r : bool * st) (f : st -> bool * st) : bool * st := if fst r then f (snd r) else r.
(** bfs_assert() *)
Definition check (b : bool) (s : st) : st := if b then s else emit Bug s.

Section Thread.
  (** What the environment does; IOQ_BATCH; the number of entries in the submission queue, which is half of those in the completion
      queue; which operations the ring has (541-549), and BFS_USE_UNWRAPDIR *)
  Variable env : nat -> moment.
  Variables (IOQ_BATCH entries : nat).
  Variables (has_openat has_close has_statx has_unwrapdir : bool).

  (** ** Batches *)

  (** 486-491: push a batch to the ready queue *)
  Definition ioq_batch_flush (s : st) : st :=
    set_ready [] (fold_left (fun s x => emit (Of (id (fst x)) (Answered (snd x))) s) (ready s) s).
  (** 494-500 *)
  Definition ioq_batch_push (e : ent) (r : Z) (s : st) : st :=
    let s := set_ready (ready s ++ [(e, r)]) s in
    if IOQ_BATCH <=? length (ready s) then ioq_batch_flush s else s.
  (** 481-483 *)
  Definition ioq_batch_empty (s : st) : bool := match rest (pending s) with [] => true | _ => false end.

  (** Take the requests of a batch *)
  Fixpoint take (l : list (option op)) (s : st) : list (option ent) * st :=
    match l with
    | [] => ([], s)
    | Some k :: l =>
        let i := next s in
        let (r, s) := take l (set_next (S i) (emit (Of i (Took k)) s)) in
        (Some (mkEnt i k) :: r, s)
    | None :: l => let (r, s) := take l s in (None :: r, s)
    end.
  (** 503-515.  A popper that is blocked goes on when there is something. *)
  Definition ioq_batch_fill (block : bool) (s : st) : bool * st :=
    let s := if block then emit Block s else s in
    let l := firstn IOQ_BATCH (popped (env (clock s))) in
    match l, block with
    | [], true => (false, s)
    | _, _ => let (r, s) := take l (tick s) in (true, set_pending (mkBatch 0 r) s)
    end.
  (** 518-535.  The result is [None] for a null pointer. *)
  Definition ioq_batch_pop (block : bool) (s : st) : bool * option (option ent) * st :=
    let pop s :=
      match rest (pending s) with
      | [] => (true, None, s)
      | x :: l => (true, Some x, set_pending (mkBatch (S (head (pending s))) l) s)
      end in
    if ioq_batch_empty s then
      if negb block && (head (pending s) <? IOQ_BATCH) then
        (true, None, set_pending (mkBatch (S (head (pending s))) (rest (pending s))) s)
      else
        let (ran, s) := ioq_batch_fill block s in
        if ran then pop s else (false, None, s)
    else pop s.

  (** ** Carrying out requests *)

  (** 599-612 *)
  Definition ioq_check_cancel (k : op) (s : st) : bool * st :=
    let c := cancelled (env (clock s)) in
    (c && match k with Close | Closedir => false | _ => true end, tick s).
  (** 614-652: a system call (for [Nop], getppid() or nothing) *)
  Definition ioq_dispatch_sync (e : ent) (s : st) : Z * st :=
    let r := match kind e with Nop _ => 0%Z | _ => result (env (clock s)) end in
    (r, emit (Of (id e) (Did r)) (tick s)).

  (** ** The kernel *)

  Fixpoint remove_at {A} (n : nat) (l : list A) : list A :=
    match n, l with
    | _, [] => []
    | O, _ :: l => l
    | S n, x :: l => x :: remove_at n l
    end.
  (** Some of the submitted entries are completed, in any order. *)
  Definition complete (l : list (nat * Z)) (s : st) : st :=
    fold_left (fun s c =>
      match nth_error (flight s) (fst c) with
      | None => s
      | Some e => emit (Of (id e) (Done (snd c))) (set_rings (sq s) (remove_at (fst c) (flight s)) (cq s ++ [(e, snd c)]) s)
      end) l s.
  (** The first entries are submitted. *)
  Fixpoint send (n : nat) (s : st) : st :=
    match n, sq s with
    | S n, e :: q => send n (emit (Of (id e) Sent) (set_rings q (flight s ++ [e]) (cq s) s))
    | _, _ => s
    end.
  (** io_uring_submit_and_wait().  The kernel waits only if it accepted all entries. *)
  Definition submit_and_wait (n : nat) (s : st) : nat * st :=
    let m := env (clock s) in
    let k := min (accepted m) (length (sq s)) in
    let all := k =? length (sq s) in
    let s := send k (tick s) in
    let s := if all then emit (Wait n) s else s in
    (k, complete (completed m) s).
  (** io_uring_wait_cqes().  It may be interrupted. *)
  Definition wait_cqes (n : nat) (s : st) : st :=
    complete (completed (env (clock s))) (emit (Wait n) (tick s)).

  (** ** The io_uring worker *)

  (** 674-718 *)
  Definition ioq_reap_cqe (e : ent) (res : Z) (s : st) : st :=
    if (res <? 0)%Z then ioq_batch_push e res s
    else
      match kind e with
      | Opendir =>
          let (c, s) := ioq_check_cancel Opendir s in
          if c then ioq_batch_push e (- EINTR)%Z (emit (Of (id e) (Dropped res)) s)
          else
            let r := result (env (clock s)) in
            let s := emit (Of (id e) (Wrapped res r)) (tick s) in
            let s := if (0 <=? r)%Z then s else emit (Of (id e) (Dropped res)) s in
            ioq_batch_push e r s
      | Stat =>
          let r := result (env (clock s)) in
          ioq_batch_push e r (emit (Of (id e) (Converted r)) (tick s))
      | _ => ioq_batch_push e res s
      end.
  (** 734-737: io_uring_for_each_cqe().  Entries may be added meanwhile. *)
  Fixpoint for_each_cqe (fuel : nat) (seen : nat) (s : st) : bool * nat * st :=
    let s := complete (completed (env (clock s))) (tick s) in
    match cq s with
    | [] => (true, seen, s)
    | (e, res) :: c =>
        match fuel with
        | O => (false, seen, s)
        | S fuel => for_each_cqe fuel (S seen) (ioq_reap_cqe e res (emit (Of (id e) Seen) (set_rings (sq s) (flight s) c s)))
        end
    end.
  (** 727-747, the loop *)
  Fixpoint drain_loop (fuel : nat) (wait_nr : nat) (s : st) : bool * st :=
    if submitted s =? 0 then (true, s)
    else
      match fuel with
      | O => (false, s)
      | S fuel =>
          let s := if 0 <? wait_nr then wait_cqes wait_nr s else s in
          let '(ran, seen, s) := for_each_cqe fuel 0 s in
          if ran then
            let s := set_counts (prepped s) (submitted s - seen) s in
            if wait_nr <=? seen then (true, s) else drain_loop fuel (wait_nr - seen) s
          else (false, s)
      end.
  (** 721-750 *)
  Definition ioq_ring_drain (fuel : nat) (wait_nr : nat) (s : st) : bool * st :=
    let s := check (wait_nr <=? submitted s) s in
    andthen (drain_loop fuel wait_nr s) (fun s => (true, ioq_batch_flush s)).
  (** 770-787, the loop, and the last line *)
  Fixpoint submit_loop (fuel : nat) (wait_nr : nat) (s : st) : bool * st :=
    if prepped s =? 0 then ioq_ring_drain fuel wait_nr s
    else
      match fuel with
      | O => (false, s)
      | S fuel =>
          let (ret, s) := submit_and_wait wait_nr s in
          if ret <=? 0 then submit_loop fuel wait_nr s
          else
            let s := set_counts (prepped s - ret) (submitted s + ret) s in
            if 0 <? prepped s then andthen (ioq_ring_drain fuel (submitted s) s) (submit_loop fuel 0)
            else submit_loop fuel wait_nr s
      end.
  (** 753-790 *)
  Definition ioq_ring_submit (fuel : nat) (s : st) : bool * st :=
    let unreaped := prepped s + submitted s in
    let wait_nr := if (prepped s =? 0) && (0 <? unreaped) then 1 else 0 in
    let wait_nr := if entries <? unreaped then unreaped - entries else wait_nr in
    submit_loop fuel wait_nr s.
  (** 793-797 *)
  Fixpoint ioq_reserve_sqes (fuel : nat) (count : nat) (s : st) : bool * st :=
    if entries - length (sq s) <? count then
      match fuel with
      | O => (false, s)
      | S fuel => andthen (ioq_ring_submit fuel s) (ioq_reserve_sqes fuel count)
      end
    else (true, s).
  (** 800-803: io_uring_get_sqe() fails if the queue is full. *)
  Definition ioq_get_sqe (fuel : nat) (s : st) : bool * st :=
    andthen (ioq_reserve_sqes fuel 1 s) (fun s => (true, check (length (sq s) <? entries) s)).
  (** 806-858: whether there is an SQE for the request *)
  Definition has_sqe (k : op) : bool :=
    match k with
    | Nop heavy => heavy
    | Close => has_close
    | Opendir => has_openat
    | Closedir => has_unwrapdir && has_close
    | Stat => has_statx
    end.
  (** 861-863 *)
  Definition ioq_ring_empty (s : st) : bool :=
    (prepped s =? 0) && (submitted s =? 0) && match ready s with [] => true | _ => false end.
  (** 866-881 *)
  Definition ioq_prep_sqe (fuel : nat) (e : ent) (s : st) : bool * st :=
    let (c, s) := ioq_check_cancel (kind e) s in
    if c then (true, ioq_batch_push e (- EINTR)%Z (emit (Of (id e) Refused) s))
    else if has_sqe (kind e) then
      andthen (ioq_get_sqe fuel s) (fun s =>
        let s := emit (Of (id e) Queued) (set_rings (sq s ++ [e]) (flight s) (cq s) s) in
        (true, set_counts (S (prepped s)) (submitted s) s))
    else
      let (r, s) := ioq_dispatch_sync e s in
      (true, ioq_batch_push e r s).
  (** 894-907, the loop *)
  Fixpoint prep_loop (fuel : nat) (s : st) : bool * st :=
    match fuel with
    | O => (false, s)
    | S fuel =>
        match ioq_batch_pop (ioq_ring_empty s) s with
        | (false, _, s) => (false, s)
        | (true, Some None, s) => (true, set_stop true (emit Restop s))
        | (true, Some (Some e), s) => andthen (ioq_prep_sqe fuel e s) (prep_loop fuel)
        | (true, None, s) => (true, s)
        end
    end.
  (** 884-911, with the result.  The batch is a local variable that is reset. *)
  Definition ioq_ring_prep (fuel : nat) (s : st) : bool * bool * st :=
    if stop s then (true, false, s)
    else
      let (ran, s) := prep_loop fuel (set_pending (mkBatch 0 []) s) in
      if ran then
        let s := check (ioq_batch_empty s) s in
        (true, negb (ioq_ring_empty s), s)
      else (false, false, s).
  (** 930-935 *)
  Fixpoint work_loop (fuel : nat) (s : st) : bool * st :=
    match fuel with
    | O => (false, s)
    | S fuel =>
        match ioq_ring_prep fuel s with
        | (false, _, s) => (false, s)
        | (true, true, s) => andthen (ioq_ring_submit fuel s) (work_loop fuel)
        | (true, false, s) => ioq_ring_drain fuel (submitted s) s
        end
    end.

  (** ** The synchronous worker *)

  (** 948-964 *)
  Fixpoint sync_loop (fuel : nat) (s : st) : bool * st :=
    match fuel with
    | O => (false, s)
    | S fuel =>
        let s := if ioq_batch_empty s then ioq_batch_flush s else s in
        match ioq_batch_pop true s with
        | (false, _, s) => (false, s)
        | (true, None, s) => (false, emit Bug s)
        | (true, Some None, s) => (true, emit Restop s)
        | (true, Some (Some e), s) =>
            let (c, s) := ioq_check_cancel (kind e) s in
            let (r, s) := if c then ((- EINTR)%Z, emit (Of (id e) Refused) s) else ioq_dispatch_sync e s in
            sync_loop fuel (ioq_batch_push e r s)
        end
    end.
  (** 941-968 *)
  Definition ioq_sync_work (fuel : nat) (s : st) : bool * st :=
    andthen (sync_loop fuel s) (fun s => (true, ioq_batch_flush (check (ioq_batch_empty s) s))).

  (** 970-984: [ring] is whether there is a ring and it was enabled.  The result is whether the thread ended. *)
  Definition ioq_work (ring : bool) (fuel : nat) : bool * st :=
    if ring then work_loop fuel init else ioq_sync_work fuel init.
End Thread.
