(** * Adding and removing signal hooks while signals arrive

    src/sighook.c: reference counts (50-172), read-copy-update (174-250), lists (252-313), run_hooks() (455-483), sighook_impl() (610-627) and sigunhook() (662-675), as
    steps of threads which run at the same time.  A signal handler may interrupt any thread at any point, so each one that is in progress is a
    thread of its own here.  Hooks are added and removed by one thread at a time, as [sigmutex] makes sure.

    Simplifications: there is one list of hooks (those of a signal).  Memory is sequentially consistent.  The loop of compare_exchange_weak() in
    arc_get() (100-104) is one step, the one at which it succeeds, or at which it finds no reference.  Fewer than [SIZE_MAX] handlers run at a time.
    sem_post() and sem_wait() are one step each.  A removed hook is freed just before the mutex is unlocked rather than just after it.  Allocations succeed.  Numbers of hooks are not used again, so that using the memory of a removed hook is always noticed. *)
From Coq Require Import List Arith Bool.
Import ListNotations.

(** 184-197: a pointer in an arc: NULL, RCU_NULL, or a node *)
Inductive val := NULL | RCU_NULL | NODE (n : nat).

(** 53-65 *)
Record arc := mkArc { refs : nat; ptr : val; sem : nat }.

(** Whether there are semaphores (39-44 and 74-80): [Sem] if sem_init() works, [Spin] if it does not, and [NoSem] if they are not compiled in. *)
Inductive config := Sem | Spin | NoSem.

(** A pointer to a [struct rcu]: 0 is the head of the list, and other numbers are nodes, whose [next] is meant.
    A pointer to a slot (177-182) is one with the index. *)
Definition slot : Type := nat * bool.

(** ** A handler.  [Put] is arc_put() (110-111), and [Post] the part of it after the reference was given up (113-119).  [k] says what comes next. *)
Inductive next := Done | Fin (h : slot) | AtN (n : nat) (h : slot).
Inductive rpc :=
| Idle
| Load (c : nat) (held : option slot)                    (* rcu_read() (222-224): load [active] *)
| Get (c : nat) (s : bool) (held : option slot)          (* arc_get() (98-104) *)
| Ptr (c : nat) (s : bool) (held : option slot)          (* arc_get() (106): read the pointer *)
| Put (h : slot) (k : next)
| Post (h : slot) (k : next)
| At (n : nat) (h : slot)                                (* should_run() (456-468) *)
| Run (n : nat) (h : slot).                              (* run_hooks() (476): the hook is running. *)
(** [ran] are the hooks that it has run, the last one first. *)
Record reader := mkReader { pc : rpc; ran : list nat }.

(** ** The writer.  The local variables of rcu_list_append() (279-284) and rcu_list_remove() (287-296) are kept in [k]. *)
Inductive kont := KAppend (n : nat) | KRemove (x : nat) (nx : val) | KDestroy (x : nat) (nx : val).
Inductive wpc :=
| WIdle
| WLoad (c : nat) (v : val) (k : kont)                   (* rcu_update() (240-247) and arc_set() (89-93) *)
| WRefs (c : nat) (i : bool) (v : val) (k : kont)        (* arc_set() (94) *)
| WSwap (c : nat) (i : bool) (v : val) (k : kont)        (* rcu_update() (248) *)
| WSub (c : nat) (s : bool) (k : kont)                   (* arc_wait() (138-141) *)
| WWait (c : nat) (s : bool) (k : kont)                  (* arc_wait() (142-154) *)
| WTake (c : nat) (s : bool) (k : kont)                  (* arc_wait() (157-160) *)
| WFix (x : nat) (nx : val)                              (* rcu_list_remove() (290-294) *)
| WDestroy (x : nat) (nx : val)                          (* arc_destroy() (164-172) *)
| WFree (x : nat) (nx : val).                            (* sigunhook() (674) *)

(** [runs] are all hooks that were run by any handler. *)
Record state := mkState { arcs : nat -> bool -> arc; active : nat -> bool; alive : nat -> bool; self : nat -> nat;
  oneshot : nat -> bool; armed : nat -> bool; tail : nat; fresh : nat; w : wpc; rs : list reader; runs : list nat }.

Definition set_arcs (f : nat -> bool -> arc) (st : state) := mkState f (active st) (alive st) (self st) (oneshot st) (armed st) (tail st) (fresh st) (w st) (rs st) (runs st).
Definition set_active (f : nat -> bool) (st : state) := mkState (arcs st) f (alive st) (self st) (oneshot st) (armed st) (tail st) (fresh st) (w st) (rs st) (runs st).
Definition set_self (f : nat -> nat) (st : state) := mkState (arcs st) (active st) (alive st) f (oneshot st) (armed st) (tail st) (fresh st) (w st) (rs st) (runs st).
Definition set_armed (f : nat -> bool) (st : state) := mkState (arcs st) (active st) (alive st) (self st) (oneshot st) f (tail st) (fresh st) (w st) (rs st) (runs st).
Definition set_alive (f : nat -> bool) (st : state) := mkState (arcs st) (active st) f (self st) (oneshot st) (armed st) (tail st) (fresh st) (w st) (rs st) (runs st).
Definition set_tail (t : nat) (st : state) := mkState (arcs st) (active st) (alive st) (self st) (oneshot st) (armed st) t (fresh st) (w st) (rs st) (runs st).
Definition set_w (p : wpc) (st : state) := mkState (arcs st) (active st) (alive st) (self st) (oneshot st) (armed st) (tail st) (fresh st) p (rs st) (runs st).
Definition set_rs (l : list reader) (st : state) := mkState (arcs st) (active st) (alive st) (self st) (oneshot st) (armed st) (tail st) (fresh st) (w st) l (runs st).
Definition set_runs (l : list nat) (st : state) := mkState (arcs st) (active st) (alive st) (self st) (oneshot st) (armed st) (tail st) (fresh st) (w st) (rs st) l.

Definition upd {A} (f : nat -> A) (n : nat) (x : A) : nat -> A := fun m => if m =? n then x else f m.
Definition upd_arc (f : nat -> bool -> arc) (h : slot) (a : arc) : nat -> bool -> arc :=
  fun c s => if (c =? fst h) && Bool.eqb s (snd h) then a else f c s.
Definition put_arc (h : slot) (a : arc) (st : state) : state := set_arcs (upd_arc (arcs st) h a) st.
Definition arc_at (st : state) (h : slot) : arc := arcs st (fst h) (snd h).
Fixpoint set_nth {A} (i : nat) (x : A) (l : list A) : list A :=
  match l, i with
  | [], _ => []
  | _ :: l, O => x :: l
  | y :: l, S i => y :: set_nth i x l
  end.

(** What comes of a step: [Bad] is a use of freed memory, or a failed assertion; [Blocked] threads must wait. *)
Inductive result := Next (st : state) | Blocked | Bad.

(** ** Steps of a handler: for_rcu() (305-313) in run_hooks() (471-483).  [held] is [prev], whose reference is given up after the next one was taken. *)
Definition set_pc (i : nat) (r : reader) (p : rpc) (st : state) : state := set_rs (set_nth i (mkReader p (ran r)) (rs st)) st.
Definition go (k : next) : rpc := match k with Done => Idle | Fin h => Put h Done | AtN n h => At n h end.

Definition read_step (cfg : config) (i : nat) (r : reader) (st : state) : result :=
  match pc r with
  | Idle => Blocked
  | Load c held =>
      if alive st c then Next (set_pc i r (Get c (active st c) held) st) else Bad
  | Get c s held =>
      if alive st c then
        let a := arcs st c s in
        match refs a with
        | O => Next (set_pc i r (Load c held) st)
        | S _ => Next (set_pc i r (Ptr c s held) (put_arc (c, s) (mkArc (S (refs a)) (ptr a) (sem a)) st))
        end
      else Bad
  | Ptr c s held =>
      if alive st c then
        match ptr (arcs st c s) with
        | NULL => Next (set_pc i r (Load c held) st)
        | RCU_NULL => Next (set_pc i r (match held with None => Put (c, s) Done | Some p => Put p (Fin (c, s)) end) st)
        | NODE n => Next (set_pc i r (match held with None => At n (c, s) | Some p => Put p (AtN n (c, s)) end) st)
        end
      else Bad
  | Put h k =>
      if alive st (fst h) then
        let a := arc_at st h in
        let st := put_arc h (mkArc (refs a - 1) (ptr a) (sem a)) st in
        Next (set_pc i r (match cfg with NoSem => go k | _ => if refs a =? 1 then Post h k else go k end) st)
      else Bad
  | Post h k =>
      if alive st (fst h) then
        let a := arc_at st h in
        Next (set_pc i r (go k) (match cfg with Sem => put_arc h (mkArc (refs a) (ptr a) (S (sem a))) st | _ => st end))
      else Bad
  | At n h =>
      if alive st n then
        if oneshot st n && negb (armed st n) then Next (set_pc i r (Load n (Some h)) st)
        else Next (set_rs (set_nth i (mkReader (Run n h) (n :: ran r)) (rs st))
               (set_runs (n :: runs st) (if oneshot st n then set_armed (upd (armed st) n false) st else st)))
      else Bad
  | Run n h =>
      if alive st n then Next (set_pc i r (Load n (Some h)) st) else Bad
  end.

(** ** Steps of the writer: rcu_update() (240-250) and rcu_destroy() (215-219), with arc_wait() (137-161).  The assertions are those of arc_set() (90), arc_wait() (139 and 145),
    rcu_decode() (195) and arc_destroy() (165). *)
Definition write_step (cfg : config) (st : state) : result :=
  let resume k :=
    match k with
    | KAppend _ => WIdle
    | KRemove x nx => WFix x nx
    | KDestroy x nx => WDestroy x nx
    end in
  match w st with
  | WIdle => Blocked
  | WLoad c v k =>
      if alive st c then
        let i := active st c in
        let a := arcs st c (negb i) in
        if refs a =? 0 then Next (set_w (WRefs c i v k) (put_arc (c, negb i) (mkArc (refs a) v (sem a)) st)) else Bad
      else Bad
  | WRefs c i v k =>
      if alive st c then
        let a := arcs st c (negb i) in
        Next (set_w (WSwap c i v k) (put_arc (c, negb i) (mkArc 1 (ptr a) (sem a)) st))
      else Bad
  | WSwap c i v k =>
      if alive st c then Next (set_w (WSub c i k) (set_active (upd (active st) c (negb i)) st)) else Bad
  | WSub c s k =>
      if alive st c then
        let a := arcs st c s in
        match refs a with
        | O => Bad
        | S n => Next (set_w (match n with O => WTake c s k | S _ => WWait c s k end) (put_arc (c, s) (mkArc n (ptr a) (sem a)) st))
        end
      else Bad
  | WWait c s k =>
      if alive st c then
        let a := arcs st c s in
        match cfg with
        | Sem =>
            match sem a with
            | O => Blocked
            | S m => if refs a =? 0 then Next (set_w (WTake c s k) (put_arc (c, s) (mkArc (refs a) (ptr a) m) st)) else Bad
            end
        | _ => if refs a =? 0 then Next (set_w (WTake c s k) st) else Blocked
        end
      else Bad
  | WTake c s k =>
      if alive st c then
        let a := arcs st c s in
        match ptr a with
        | NULL => Bad
        | _ => Next (set_w (resume k) (put_arc (c, s) (mkArc (refs a) NULL (sem a)) st))
        end
      else Bad
  | WFix x nx =>
      match nx with
      | NODE p =>
          if alive st x && alive st p then Next (set_w (WSub x (active st x) (KDestroy x nx)) (set_self (upd (self st) p (self st x)) st)) else Bad
      | _ => if alive st x then Next (set_w (WSub x (active st x) (KDestroy x nx)) (set_tail 0 st)) else Bad
      end
  | WDestroy x nx =>
      if alive st x && (refs (arcs st x true) =? 0) && (refs (arcs st x false) =? 0) then Next (set_w (WFree x nx) st) else Bad
  | WFree x nx =>
      if alive st x then Next (set_w WIdle (set_alive (upd (alive st) x false) st)) else Bad
  end.

(** sighook_impl() (610-627) and rcu_list_append() (279-282), up to rcu_update(): the hook gets the number [fresh]. *)
Definition empty_arc : arc := mkArc 0 NULL 0.
Definition start_append (os : bool) (st : state) : state :=
  let n := fresh st in
  mkState (upd_arc (upd_arc (arcs st) (n, true) empty_arc) (n, false) (mkArc 1 RCU_NULL 0)) (upd (active st) n false) (upd (alive st) n true)
    (upd (self st) n (tail st)) (upd (oneshot st) n os) (upd (armed st) n true) n (S n) (WLoad (tail st) (NODE n) (KAppend n)) (rs st) (runs st).

(** rcu_list_remove() (287-288), up to rcu_update() *)
Definition start_remove (n : nat) (st : state) : result :=
  if alive st n then
    match ptr (arcs st n (active st n)) with
    | NULL => Bad
    | nx => Next (set_w (WLoad (self st n) nx (KRemove n nx)) st)
    end
  else Bad.

(** ** What may happen next: a signal arrives in thread [i], whose handler begins; a handler or the writer takes a step; or the program adds or removes a hook,
    if no other thread is doing so *)
Inductive event := Begin (i : nat) | Read (i : nat) | Write | Append (os : bool) | Remove (n : nat).

Definition step (cfg : config) (e : event) (st : state) : result :=
  match e with
  | Begin i =>
      match nth_error (rs st) i with
      | Some (mkReader Idle _) => Next (set_rs (set_nth i (mkReader (Load 0 None) []) (rs st)) st)
      | _ => Blocked
      end
  | Read i => match nth_error (rs st) i with Some r => read_step cfg i r st | None => Blocked end
  | Write => write_step cfg st
  | Append os => match w st with WIdle => Next (start_append os st) | _ => Blocked end
  | Remove n => match w st with WIdle => start_remove n st | _ => Blocked end
  end.

(** rcu_list_init() (273-276), with as many threads for handlers as there may be *)
Definition init (threads : nat) : state :=
  mkState (fun c s => if (c =? 0) && negb s then mkArc 1 RCU_NULL 0 else empty_arc) (fun _ => false) (fun c => c =? 0) (fun _ => 0)
    (fun _ => false) (fun _ => false) 0 1 WIdle (repeat (mkReader Idle []) threads) [].
