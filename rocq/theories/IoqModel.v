(** * The I/O queue

    This models src/ioq.c with synchronous workers: the words of the slots,
    the two circular buffers, waiting and waking, batches, the loop of a
    worker, and the calls of the thread that owns the queue.

    Threads take turns in any order, one access to shared memory at a time;
    memory is sequentially consistent.  The io_uring workers (ioq.c 540-937)
    are not modelled, and neither is what a request does. *)

From Coq Require Import List Arith NArith Bool.
Import ListNotations.

(** ** Words *)

Section Words.
Local Open Scope N_scope.

(** uintptr_t *)
Definition W : N := 2 ^ 64.

(** [~x] *)
Definition not64 (x : N) : N := N.lxor x (W - 1).

(** IOQ_BLOCKED, IOQ_SKIP_BIT, IOQ_SKIP and IOQ_SKIP_ONE, ioq.c 175-183. *)
Definition BLOCKED : N := 1.
Definition SKIP_BIT : N := 63.
Definition SKIP : N := N.shiftl 1 SKIP_BIT.
Definition SKIP_ONE : N := not64 BLOCKED.

(** ioq_slot_blend(), ioq.c 346-351. *)
Definition blend (slot skip full : N) : N :=
  let mask := (W - N.shiftr slot SKIP_BIT) mod W in
  let ret := N.lor (N.land skip mask) (N.land full (not64 mask)) in
  N.land ret (not64 BLOCKED).

(** The body of the loop of ioq_slot_push(), ioq.c 358-369: the next value of
    the slot, or [None] to wait. *)
Definition push_next (ent prev : N) : option N :=
  if blend prev 0 prev =? 0 then
    Some (blend prev ((prev + W - SKIP_ONE) mod W) (N.shiftr ent 1))
  else None.

(** The result of ioq_slot_push(), ioq.c 380. *)
Definition pushed (prev : N) : bool := N.land prev SKIP =? 0.

(** The body of the loop of ioq_slot_pop(), ioq.c 395-405. *)
Definition pop_next (block : bool) (prev : N) : option N :=
  let next := (prev + SKIP_ONE) mod W in
  let next := blend next next 0 in
  if block && negb (next =? 0) then None else Some next.

(** The result of ioq_slot_pop(), ioq.c 416-420. *)
Definition popped (prev : N) : N := N.shiftl (blend prev 0 prev) 1 mod W.

(** Whether someone might be waiting, ioq.c 376 and 412. *)
Definition blocked (w : N) : bool := negb (N.land w BLOCKED =? 0).

End Words.

(** ** State *)

(** The two queues, struct ioq, ioq.c 580-583. *)
Inductive which : Type := Pending | Ready.

Definition which_eqb (a b : which) : bool :=
  match a, b with Pending, Pending | Ready, Ready => true | _, _ => false end.

(** Where a thread is in ioq_slot_push() or ioq_slot_pop(), ioq.c 278-421. *)
Inductive pc : Type :=
| Tickets            (* before fetch_add() of the head or tail, 426, 438, 452 *)
| Load               (* before the first load, 355 and 385 *)
| Try (prev : N)     (* at the start of the loop, 357 and 386 *)
| Spin (value : N)   (* before a load, 290 *)
| Lock (value : N)   (* before mutex_lock(), 298 *)
| Check (value : N)  (* before the load, 300 *)
| Mark (value : N)   (* before compare_exchange_strong(), 307 *)
| Wait (value : N)   (* before cond_wait(), 315 *)
| Sleep (value : N)  (* in cond_wait() *)
| Woken (value : N)  (* about to lock the mutex again in cond_wait() *)
| Recheck (value : N)  (* before the load, 316 *)
| Unlock (ret : N)   (* before mutex_unlock(), 320 *)
| Wake1 (prev : N)   (* before mutex_lock(), 340 *)
| Wake2 (prev : N)   (* before mutex_unlock(), 341 *)
| Wake3 (prev : N).  (* before cond_broadcast(), 342 *)

(** What a thread is doing with a queue: nothing; ioqq_push_batch(), ioq.c
    434-447, with the entries and the slots that are left; or
    ioqq_pop_batch(), ioq.c 449-458, with the entries that it got, the slots
    that are left, and whether to block.  ioqq_push(), ioq.c 423-432, is the
    same as pushing a batch of one. *)
Inductive task : Type :=
| Rest
| Push (q : which) (todo : list N) (i more : nat) (p : pc)
| Pop (q : which) (got : list N) (i more : nat) (block : bool) (p : pc).

(** Where a thread is outside of the queues. *)
Inductive point : Type :=
| M_idle      (* the owner of the queue may call any function *)
| M_filled    (* after ioq_batch_fill() in ioq_pop() *)
| W_top       (* the start of the loop of ioq_sync_work(), ioq.c 950 *)
| W_take      (* before ioq_batch_pop(), 954 *)
| W_filled    (* after ioq_batch_fill() in there *)
| W_stopped   (* after the loop, 967 *)
| W_exit.     (* after the last flush *)

(** A thread.  [pend] is the rest of [pending_batch] for the owner, or of
    [pending] for a worker; [done] that of [ready_batch], or [ready].  [spent]
    is [ready_batch.head]. *)
Record thread : Type := Th {
  job : task;
  at_ : point;
  pend : list N;
  done : list N;
  spent : nat;
}.

(** What can be seen of the queue.  Requests are numbered in the order they
    are accepted. *)
Inductive event : Type :=
| Accept (r : nat) (close : bool)         (* a request, maybe a close *)
| Complete (r t : nat) (ran : bool)       (* completed by a worker, or cancelled *)
| Return (r : nat)                        (* returned by ioq_pop() *)
| Cancelled.                              (* ioq_cancel() *)

(** struct ioq, ioq.c 564-597, both struct ioqq, ioq.c 190-206, and the
    threads: number 0 is the owner of the queue and the others are workers.
    [head] and [tail] do not wrap around here: the theorems are about fewer
    than 2^61 steps.  [used] are the allocated entries, [req] and [closes] are
    what is in them, and [held] are those that the owner got from ioq_pop(). *)
Record st : Type := St {
  slots : which -> nat -> N;
  head : which -> nat;
  tail : which -> nat;
  owner : which -> nat -> option nat;
  th : nat -> thread;
  cancel : bool;
  count : nat;
  used : list N;
  held : list N;
  req : N -> nat;
  closes : N -> bool;
  fresh : nat;
  log : list event;
}.

Definition set_slots v s := St v (head s) (tail s) (owner s) (th s) (cancel s) (count s) (used s) (held s) (req s) (closes s) (fresh s) (log s).
Definition set_head v s := St (slots s) v (tail s) (owner s) (th s) (cancel s) (count s) (used s) (held s) (req s) (closes s) (fresh s) (log s).
Definition set_tail v s := St (slots s) (head s) v (owner s) (th s) (cancel s) (count s) (used s) (held s) (req s) (closes s) (fresh s) (log s).
Definition set_owner v s := St (slots s) (head s) (tail s) v (th s) (cancel s) (count s) (used s) (held s) (req s) (closes s) (fresh s) (log s).
Definition set_th v s := St (slots s) (head s) (tail s) (owner s) v (cancel s) (count s) (used s) (held s) (req s) (closes s) (fresh s) (log s).
Definition set_cancel v s := St (slots s) (head s) (tail s) (owner s) (th s) v (count s) (used s) (held s) (req s) (closes s) (fresh s) (log s).
Definition set_held v s := St (slots s) (head s) (tail s) (owner s) (th s) (cancel s) (count s) (used s) v (req s) (closes s) (fresh s) (log s).
Definition set_used c v h s := St (slots s) (head s) (tail s) (owner s) (th s) (cancel s) c v h (req s) (closes s) (fresh s) (log s).
Definition emit e s := St (slots s) (head s) (tail s) (owner s) (th s) (cancel s) (count s) (used s) (held s) (req s) (closes s) (fresh s) (e :: log s).

Definition upd {A} (f : nat -> A) (k : nat) (v : A) : nat -> A :=
  fun j => if j =? k then v else f j.
Definition upd2 {A} (f : which -> nat -> A) (q : which) (k : nat) (v : A) : which -> nat -> A :=
  fun q' => if which_eqb q' q then upd (f q') k v else f q'.
Definition updq {A} (f : which -> A) (q : which) (v : A) : which -> A :=
  fun q' => if which_eqb q' q then v else f q'.
Definition updN {A} (f : N -> A) (k : N) (v : A) : N -> A :=
  fun j => if N.eqb j k then v else f j.

Definition put q i w s := set_slots (upd2 (slots s) q i w) s.
Definition own q m o s := set_owner (upd2 (owner s) q m o) s.
Definition put_th t x s := set_th (upd (th s) t x) s.

Definition set_job j x := Th j (at_ x) (pend x) (done x) (spent x).

Section Queue.

(** The depth of the queue, the number of workers, IOQ_BATCH (ioq.c 461) as a
    power of two, the monitor of each slot (262-276), the address of IOQ_STOP
    (538), and whether assertions are checked. *)
Variable depth workers bexp : nat.
Variable monitor : nat -> nat.
Variable stop : N.
Variable asserts : bool.

(** IOQ_BATCH *)
Definition batch : nat := 2 ^ bexp.

(** The number of slots, ioq.c 223-225; bit_ceil() is the subject of C37. *)
Definition size : nat := 2 ^ Nat.log2_up depth.

(** ioq.c 223-258, 1126-1169, and the start of each worker, 941-947. *)
Definition init : st :=
  St (fun _ _ => 0%N) (fun _ => 0) (fun _ => 0) (fun _ _ => None)
     (fun t => Th Rest (if t =? 0 then M_idle else if t <=? workers then W_top else W_exit) [] [] 0)
     false 0 [] [] (fun _ => 0) (fun _ => false) 0 [].

(** ** One slot *)

(** cond_broadcast(): all threads that sleep on the same monitor wake up. *)
Definition wake_pc (q : which) (m : nat) (q' : which) (i : nat) (p : pc) : pc :=
  match p with
  | Sleep v => if which_eqb q' q && (monitor (i mod size) =? m) then Woken v else p
  | _ => p
  end.

Definition wake_task q m (j : task) : task :=
  match j with
  | Rest => Rest
  | Push q' todo i more p => Push q' todo i more (wake_pc q m q' i p)
  | Pop q' got i more b p => Pop q' got i more b (wake_pc q m q' i p)
  end.

Definition broadcast q m s : st :=
  set_th (fun t => set_job (wake_task q m (job (th s t))) (th s t)) s.

(** The outcome of a step: the thread stays where it is, goes on, or is done
    with the slot, which had a previous value. *)
Inductive res : Type :=
| Stay
| Next (p : pc) (s : st)
| Fin (prev : N) (s : st).

(** One step of ioq_slot_push(), ioq_slot_pop(), ioq_slot_wait() or
    ioq_slot_wake(), ioq.c 278-421, of thread [t] for slot [i].  [next] is the
    body of the loop.  [b] is for what is left open: whether a
    compare_exchange_weak() fails for no reason, whether to spin once more
    (the number of times is not modelled), and whether cond_wait() returns for
    no reason. *)
Definition slot_step (t : nat) (q : which) (i : nat) (next : N -> option N) (p : pc) (b : bool) (s : st) : res :=
  let w := slots s q i in
  let m := monitor i in
  match p with
  | Tickets => Stay
  | Load => Next (Try w) s
  | Try prev =>
      match next prev with
      | None => Next (Spin prev) s
      | Some n =>
          if (w =? prev)%N && negb b then
            if blocked prev then Next (Wake1 prev) (put q i n s)
            else Fin prev (put q i n s)
          else Next (Try w) s
      end
  | Spin v =>
      if (w =? v)%N then if b then Stay else Next (Lock v) s
      else Next (Try w) s
  | Lock v =>
      match owner s q m with
      | None => Next (Check v) (own q m (Some t) s)
      | Some _ => Stay
      end
  | Check v =>
      if (w =? v)%N then
        if blocked v then Next (Wait v) s else Next (Mark v) s
      else Next (Unlock w) s
  | Mark v =>
      if (w =? v)%N then
        Next (Wait (N.lor v BLOCKED)) (put q i (N.lor v BLOCKED) s)
      else Next (Unlock w) s
  | Wait v => Next (Sleep v) (own q m None s)
  | Sleep v => if b then Next (Woken v) s else Stay
  | Woken v =>
      match owner s q m with
      | None => Next (Recheck v) (own q m (Some t) s)
      | Some _ => Stay
      end
  | Recheck v =>
      if (w =? v)%N then Next (Wait v) s else Next (Unlock w) s
  | Unlock r => Next (Try r) (own q m None s)
  | Wake1 prev =>
      match owner s q m with
      | None => Next (Wake2 prev) (own q m (Some t) s)
      | Some _ => Stay
      end
  | Wake2 prev => Next (Wake3 prev) (own q m None s)
  | Wake3 prev => Fin prev (broadcast q m s)
  end.

(** ** Batches *)

(** The entries of ioq_batch_fill(), ioq.c 503-508. *)
Definition entries (l : list N) : list N := filter (fun e => negb (N.eqb e 0)) l.

(** After the slots are done, ioq.c 439-446: go on with the next slot, or take
    new ones for the entries that are left. *)
Definition push_on (q : which) (todo : list N) (i more : nat) : task :=
  match more with
  | S _ => Push q todo i more Load
  | O => match todo with [] => Rest | _ => Push q todo 0 0 Tickets end
  end.

(** ioq.c 453-457 and, at the end, 500-508. *)
Definition pop_on (t : nat) (q : which) (got : list N) (i more : nat) (x : thread) : thread :=
  match more with
  | S _ => set_job (Pop q got i more false Load) x
  | O =>
      if t =? 0 then Th Rest M_filled (pend x) (entries got) 0
      else Th Rest W_filled (entries got) (done x) 0
  end.

(** ioq_batch_flush(), ioq.c 482-487, of all entries in [l]. *)
Definition flush (q : which) (l : list N) : task :=
  match l with [] => Rest | _ => Push q l 0 0 Tickets end.

(** A step inside of a queue. *)
Definition queue_step (t : nat) (b : bool) (s : st) : st :=
  let x := th s t in
  match job x with
  | Rest => s
  | Push q todo i more Tickets =>
      let n := length todo in
      put_th t (set_job (Push q todo (head s q) n Load) x)
        (set_head (updq (head s) q (head s q + n)) s)
  | Pop q got i more block Tickets =>
      put_th t (set_job (Pop q [] (tail s q) batch block Load) x)
        (set_tail (updq (tail s) q (tail s q + batch)) s)
  | Push q todo i more p =>
      match slot_step t q (i mod size) (push_next (hd 0%N todo)) p b s with
      | Stay => s
      | Next p' s' => put_th t (set_job (Push q todo i more p') x) s'
      | Fin prev s' =>
          let todo' := if pushed prev then tl todo else todo in
          put_th t (set_job (push_on q todo' (S i) (pred more)) x) s'
      end
  | Pop q got i more block p =>
      match slot_step t q (i mod size) (pop_next block) p b s with
      | Stay => s
      | Next p' s' => put_th t (set_job (Pop q got i more block p') x) s'
      | Fin prev s' => put_th t (pop_on t q (got ++ [popped prev]) (S i) (pred more) x) s'
      end
  end.

(** ** Workers *)

(** A step of ioq_sync_work() outside of a queue, ioq.c 949-969.  [None] is a
    failed assertion, or a null pointer dereference. *)
Definition worker_step (t : nat) (s : st) : option st :=
  let x := th s t in
  match at_ x with
  | W_top =>
      (* 951-953 *)
      match pend x with
      | [] => Some (put_th t (Th (flush Ready (done x)) W_take [] [] (spent x)) s)
      | _ => Some (put_th t (Th Rest W_take (pend x) (done x) (spent x)) s)
      end
  | W_take | W_filled =>
      match pend x with
      | [] =>
          match at_ x with
          | W_take =>
              (* 954, with 514-529 *)
              Some (put_th t (Th (Pop Pending [] 0 0 true Tickets) W_take [] (done x) (spent x)) s)
          | _ => None
          end
      | e :: r =>
          if N.eqb e stop then
            (* 955-958 *)
            Some (put_th t (Th (Push Pending [e] 0 0 Tickets) W_stopped r (done x) (spent x)) s)
          else
            (* 960-963, with 600-612 and 490-496 *)
            let ran := negb (cancel s) || closes s e in
            let d := done x ++ [e] in
            let s' := emit (Complete (req s e) t ran) s in
            if batch <=? length d then
              Some (put_th t (Th (flush Ready d) W_top r [] (spent x)) s')
            else Some (put_th t (Th Rest W_top r d (spent x)) s')
      end
  | W_stopped =>
      (* 966-967 *)
      if asserts && negb (match pend x with [] => true | _ => false end) then None
      else Some (put_th t (Th (flush Ready (done x)) W_exit (pend x) [] (spent x)) s)
  | _ => Some s
  end.

(** ** The owner of the queue *)

Inductive op : Type :=
| Request (a : N) (close : bool)  (* ioq_nop(), ioq_close(), ... with a new entry *)
| Submit                          (* ioq_submit() *)
| Get (block : bool)              (* ioq_pop() *)
| Free (a : N)                    (* ioq_free() *)
| Cancel.                         (* ioq_cancel() *)

(** What arena_alloc() may return: an aligned address that is not in use. *)
Definition usable (a : N) (s : st) : bool :=
  (negb (a =? 0) && (a <? W) && (a mod 4 =? 0) && negb (a =? stop) && negb (existsb (N.eqb a) (used s)))%N.

Fixpoint drop1 (a : N) (l : list N) : list N :=
  match l with
  | [] => []
  | e :: r => if N.eqb e a then r else e :: drop1 a r
  end.

(** The end of ioq_pop(), with ioq_batch_pop(), ioq.c 531. *)
Definition take (x : thread) (s : st) : st :=
  match done x with
  | [] => put_th 0 (Th Rest M_idle (pend x) [] (spent x)) s
  | e :: r =>
      put_th 0 (Th Rest M_idle (pend x) r (S (spent x)))
        (emit (Return (req s e)) (set_held (e :: held s) s))
  end.

(** A call by the owner.  Entries that are freed must have been returned, and
    ioq_pop() must come after ioq_submit() (ioq.c 1278-1279): calls that break
    these rules are not made. *)
Definition owner_step (o : op) (s : st) : st :=
  let x := th s 0 in
  match o with
  | Request a close =>
      (* 1175-1194, 1196-1271 and 490-496 *)
      if cancel s then s
      else if depth <=? count s then s
      else if usable a s then
        let s1 := St (slots s) (head s) (tail s) (owner s) (th s) (cancel s)
                     (S (count s)) (a :: used s) (held s) (updN (req s) a (fresh s)) (updN (closes s) a close)
                     (S (fresh s)) (Accept (fresh s) close :: log s) in
        let l := pend x ++ [a] in
        if batch <=? length l then put_th 0 (Th (flush Pending l) M_idle [] (done x) (spent x)) s1
        else put_th 0 (Th Rest M_idle l (done x) (spent x)) s1
      else s
  | Submit =>
      (* 1273-1275 *)
      put_th 0 (Th (flush Pending (pend x)) M_idle [] (done x) (spent x)) s
  | Get block =>
      (* 1277-1286 and 513-532 *)
      match pend x with
      | _ :: _ => s
      | [] =>
          if count s =? 0 then s
          else
            match done x with
            | _ :: _ => take x s
            | [] =>
                if negb block && (spent x <? batch) then
                  put_th 0 (Th Rest M_idle [] [] (S (spent x))) s
                else put_th 0 (Th (Pop Ready [] 0 0 block Tickets) M_filled [] [] (spent x)) s
            end
      end
  | Free a =>
      (* 1288-1299 *)
      if existsb (N.eqb a) (held s) then
        set_used (pred (count s)) (drop1 a (used s)) (drop1 a (held s)) s
      else s
  | Cancel =>
      (* 1301-1306 *)
      if cancel s then s
      else
        put_th 0 (Th (flush Pending (pend x ++ [stop])) M_idle [] (done x) (spent x))
          (emit Cancelled (set_cancel true s))
  end.

(** ** Runs *)

(** One step of thread [t], which makes the call [o] if it is the owner and
    does nothing else. *)
Definition step (t : nat) (b : bool) (o : op) (s : st) : option st :=
  let x := th s t in
  match job x with
  | Rest =>
      match at_ x with
      | M_idle => Some (owner_step o s)
      | M_filled => Some (take x s)
      | _ => worker_step t s
      end
  | _ => Some (queue_step t b s)
  end.

Fixpoint steps (l : list (nat * bool * op)) (s : st) : option st :=
  match l with
  | [] => Some s
  | (t, b, o) :: r =>
      match step t b o s with
      | Some s' => steps r s'
      | None => None
      end
  end.

Definition run (l : list (nat * bool * op)) : option st := steps l init.

End Queue.
