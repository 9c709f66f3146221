(** * Model of src/sighook.c: signal dispositions, and how signals are raised again

    Hooks without SH_ONESHOT (which nothing in bfs uses; it is part of C36), in one thread, with the lists of hooks as
    lists (C36 and C62 are about those).  The numbers of signals are those of Linux on x86 and most other machines. *)
From Coq Require Import List Bool Arith ZArith Lia.
From Verif Require Import DispSpec.
Import ListNotations.
Open Scope nat_scope.

(** struct sigaction: SIG_DFL, SIG_IGN or [sigdispatch] *)
Inductive action := Dfl | Ign | Dispatch.
Definition of_start (a : start) : action := match a with AtDefault => Dfl | Ignored => Ign end.

(** The dispositions and blocked signals of the process, the variables [signals] and [saved] (sighook.c 548 and
    564), the hooks of all lists in order, and errno *)
Record state := mkState {
  disp : nat -> action;
  blocked : nat -> bool;
  signals : list nat;
  saved : list (nat * action);
  hooks : list hook;
  errno : Z
}.

Definition upd {A} (f : nat -> A) (i : nat) (x : A) : nat -> A := fun j => if j =? i then x else f j.
Definition set_disp (s : state) (sig : nat) (a : action) : state :=
  mkState (upd (disp s) sig a) (blocked s) (signals s) (saved s) (hooks s) (errno s).
Definition set_blocked (s : state) (sig : nat) (b : bool) : state :=
  mkState (disp s) (upd (blocked s) sig b) (signals s) (saved s) (hooks s) (errno s).
Definition set_signals (s : state) (l : list nat) : state :=
  mkState (disp s) (blocked s) l (saved s) (hooks s) (errno s).
Definition set_saved (s : state) (l : list (nat * action)) : state :=
  mkState (disp s) (blocked s) (signals s) l (hooks s) (errno s).
Definition set_hooks (s : state) (l : list hook) : state :=
  mkState (disp s) (blocked s) (signals s) (saved s) l (errno s).
Definition set_errno (s : state) (e : Z) : state :=
  mkState (disp s) (blocked s) (signals s) (saved s) (hooks s) e.

(** The process when it is started *)
Definition init (started : nat -> start) : state :=
  mkState (fun sig => of_start (started sig)) (fun _ => false) [] [] [] 0%Z.

(** 335-337, [siglist] *)
Definition siglist (sig : nat) : nat := sig mod 64.

(** 343-350, [is_user_generated]; SI_USER is 0 and SI_QUEUE is -1. *)
Definition is_user_generated (code : Z) : bool := ((code =? 0) || (code =? -1) || (code <=? 0))%Z.

(** 353-360, [is_fault] *)
Definition is_fault (sig : nat) (code : Z) : bool :=
  if (sig =? 7) || (sig =? 8) || (sig =? 4) || (sig =? 11) then negb (is_user_generated code) else false.

(** 363-401, FATAL_SIGNALS: SIGABRT, SIGALRM, SIGBUS, SIGFPE, SIGHUP, SIGILL, SIGINT, SIGIO, SIGPIPE, SIGPOLL, SIGPROF,
    SIGPWR, SIGQUIT, SIGSEGV, SIGSTKFLT, SIGSYS, SIGTERM, SIGTRAP, SIGUSR1, SIGUSR2, SIGVTALRM, SIGXCPU, SIGXFSZ *)
Definition FATAL_SIGNALS : list nat :=
  [6; 14; 7; 8; 1; 4; 2; 29; 13; 29; 27; 30; 3; 11; 16; 31; 15; 5; 10; 12; 26; 24; 25].
Definition SIGRTMIN : nat := 34.
Definition SIGRTMAX : nat := 64.
Definition SIGABRT : nat := 6.

(** 404-424, [is_fatal] *)
Definition is_fatal (sig : nat) : bool :=
  existsb (fun f => sig =? f) FATAL_SIGNALS || ((SIGRTMIN <=? sig) && (sig <=? SIGRTMAX)).

Section System.
(** Whether sigaction() lets the disposition of a signal be changed, and what hooks leave in errno *)
Variable can : nat -> bool.
Variable clobber : nat -> Z.

(** sigaction(), signal(): [None] is an error *)
Definition sigaction (s : state) (sig : nat) (a : action) : option state :=
  if can sig then Some (set_disp s sig a) else None.

(** ** Sending signals to oneself *)

(** raise(): a blocked signal stays pending, and one that is ignored has no effect.  Otherwise its default action
    is done.  This is only used when the signal is not handled. *)
Inductive raised := Returns | Dies (by_ : nat).
Definition raise (s : state) (sig : nat) : raised :=
  if blocked s sig then Returns
  else match disp s sig, default_of sig with Dfl, Terminate => Dies sig | _, _ => Returns end.

(** 427-453, [reraise]: the signal the process dies of.  Sending the same siginfo_t again (446-448) has the effects
    of raise(). *)
Definition reraise (s : state) (sig : nat) : nat :=
  match sigaction s sig Dfl with
  | None => SIGABRT
  | Some s1 =>
      let s2 := set_blocked s1 sig false in
      match raise s2 sig with Dies by_ => by_ | Returns => SIGABRT end
  end.

(** ** Dispatching signals *)

(** 456-459, [should_run] without SH_ONESHOT *)
Definition should_run (sig : nat) (h : hook) : bool := negb (negb (snd (fst h) =? sig) && negb (snd (fst h) =? 0)).

(** 471-482, [run_hooks]: the hooks run and whether one of them has SH_CONTINUE *)
Fixpoint run_hooks (s : state) (l : list hook) (sig : nat) : state * list nat * bool :=
  match l with
  | [] => (s, [], false)
  | h :: l =>
      if should_run sig h then
        let '(s, ran, f) := run_hooks (set_errno s (clobber (fst (fst h)))) l sig in (s, fst (fst h) :: ran, snd h || f)
      else run_hooks s l sig
  end.

(** The hooks in a list, sighook_impl 619-620 *)
Definition in_list (s : state) (i : nat) : list hook := filter (fun h => siglist (snd (fst h)) =? i) (hooks s).

(** 485-530, [sigdispatch]: what the handler does *)
Inductive handled := Return (s : state) (ran : list nat) | Die (by_ : nat) (ran exits : list nat).
Definition sigdispatch (s : state) (sig : nat) (code : Z) : handled :=
  if is_fault sig code then
    match sigaction s sig Dfl with
    | Some s => Return s []
    | None => Die (reraise s sig) [] []
    end
  else
    let error := errno s in
    let '(s, ran, flag) := run_hooks s (in_list s (siglist sig)) sig in
    if negb flag && is_fatal sig then
      let '(s, exits, _) := run_hooks s (in_list s (siglist 0)) sig in
      Die (reraise s sig) ran exits
    else Return (set_errno s error) ran.

(** The kernel: a signal arrives that is not blocked.  A fault cannot be ignored; after a handler
    has returned, the instruction is executed again. *)
Definition deliver (s : state) (sig : nat) (code : Z) : state * outcome :=
  match disp s sig with
  | Dfl =>
      match default_of sig with
      | Terminate => (s, Killed sig [] [])
      | Ignore | Resume => (s, Continues [])
      | Stop => (s, Stops)
      end
  | Ign => if faulty sig code then (s, Killed sig [] []) else (s, Continues [])
  | Dispatch =>
      match sigdispatch (set_blocked s sig true) sig code with
      | Die by_ ran exits => (s, Killed by_ ran exits)
      | Return s ran =>
          let s := set_blocked s sig false in
          if faulty sig code then
            match disp s sig with Dispatch => (s, Loops) | _ => (s, Killed sig ran []) end
          else (s, Continues ran)
      end
  end.

(** ** Registration *)

(** 545-607, [siginit]; [mem] is whether there is memory.  Its static variables are part of the state. *)
Definition siginit (s : state) (sig : nat) (mem : bool) : state * bool :=
  if negb ((1 <=? sig) && (sig <=? 64)) then (s, false)
  else if existsb (Nat.eqb sig) (signals s) then (s, true)
  else
    let updated := sig :: signals s in
    let original := disp s sig in
    if negb mem then (s, false)
    else
      let s1 := set_saved s (saved s ++ [(sig, original)]) in
      match sigaction s1 sig Dispatch with
      | None => (set_saved s1 (saved s), false)
      | Some s2 => (set_signals s2 updated, true)
      end.

(** 610-625, [sighook_impl] *)
Definition sighook_impl (s : state) (n sig : nat) (go mem : bool) : state * bool :=
  if mem then (set_hooks s (hooks s ++ [(n, sig, go)]), true) else (s, false).

(** 627-639, [sighook] *)
Definition sighook (s : state) (n sig : nat) (go mem mem' : bool) : state * bool :=
  let '(s, ok) := siginit s sig mem in
  if ok then sighook_impl s n sig go mem' else (s, false).

(** 641-660, [atsigexit] *)
Definition siginit_all (l : list nat) (mem : nat -> bool) (s : state) : state :=
  fold_left (fun s sig => fst (siginit s sig (mem sig))) l s.
Definition atsigexit (s : state) (n : nat) (mem : nat -> bool) (mem' : bool) : state * bool :=
  let s := siginit_all FATAL_SIGNALS mem s in
  let s := siginit_all (seq SIGRTMIN (SIGRTMAX - SIGRTMIN + 1)) mem s in
  sighook_impl s n 0 false mem'.

(** 662-675, [sigunhook] *)
Definition sigunhook (s : state) (n : nat) : state :=
  set_hooks s (filter (fun h => negb (fst (fst h) =? n)) (hooks s)).

(** ** Starting commands *)

(** 677-693, [sigreset]: [None] is an error *)
Fixpoint restore (s : state) (l : list (nat * action)) : option state :=
  match l with
  | [] => Some s
  | (sig, a) :: l => match sigaction s sig a with None => None | Some s => restore s l end
  end.
Definition sigreset (s : state) : option state := restore s (saved s).

(** execve(), and posix_spawn(): handled signals are reset, and ignored ones stay ignored. *)
Definition execve (s : state) (sig : nat) : start := match disp s sig with Ign => Ignored | _ => AtDefault end.

(** xspawn.c 600-612 in the child after fork() (625-660), and 684-688: how the command treats signals *)
Definition command (s : state) (posix : bool) : option (nat -> start) :=
  if posix then Some (execve s)
  else match sigreset s with None => None | Some s => Some (execve s) end.

(** ** Histories *)

(** Whether there is memory during each operation: for what [siginit] saves, and for the hook *)
Definition memory : Type := (nat -> bool) * bool.
Definition step (s : state) (o : op) (m : memory) : state * result :=
  match o with
  | Hook n sig go => let '(s, ok) := sighook s n sig go (fst m sig) (snd m) in (s, Added ok)
  | AtExit n => let '(s, ok) := atsigexit s n (fst m) (snd m) in (s, Added ok)
  | Unhook n => (sigunhook s n, Removed)
  | Signal sig code => let '(s, o) := deliver s sig code in (s, Seen o)
  end.

(** A process that was killed does nothing more. *)
Definition over (r : result) : bool := match r with Seen (Killed _ _ _) | Seen Loops => true | _ => false end.
Fixpoint run (s : state) (os : list (op * memory)) : option (state * list (op * result)) :=
  match os with
  | [] => Some (s, [])
  | (o, m) :: os =>
      let '(s, r) := step s o m in
      if over r then None
      else match run s os with None => None | Some (s, h) => Some (s, (o, r) :: h) end
  end.
End System.

(** There was enough memory for [siginit] at all times. *)
Definition plenty (os : list (op * memory)) : Prop := Forall (fun x => forall g, fst (snd x) g = true) os.
