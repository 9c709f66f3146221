(** * What signals do to bfs, and to the commands it starts

    A process is started with every signal either ignored (by nohup, or for jobs in the background) or at its
    default.  Functions ("hooks") may be called when a signal arrives, but apart from those that ask for
    the process to go on, they must not change what the signal does. *)
From Coq Require Import List Bool Arith ZArith Lia.
Import ListNotations.
Open Scope nat_scope.

(** ** Signals of Linux, signal(7) *)
Inductive default := Terminate | Ignore | Stop | Resume.
Definition default_of (sig : nat) : default :=
  match sig with
  | 17 (* SIGCHLD *) | 23 (* SIGURG *) | 28 (* SIGWINCH *) => Ignore
  | 18 (* SIGCONT *) => Resume
  | 19 (* SIGSTOP *) | 20 (* SIGTSTP *) | 21 (* SIGTTIN *) | 22 (* SIGTTOU *) => Stop
  | _ => Terminate
  end.

(** How a process was told to treat a signal when it was started *)
Inductive start := AtDefault | Ignored.

(** The kernel sends SIGILL, SIGBUS, SIGFPE and SIGSEGV for instructions that cannot be executed.
    Codes of signals sent by processes are not positive. *)
Definition faulty (sig : nat) (code : Z) : bool :=
  ((sig =? 4) || (sig =? 7) || (sig =? 8) || (sig =? 11)) && (0 <? code)%Z.

(** ** What is done to a process

    [Hook n sig go] asks for function [n] to be called for signal [sig]; [go] is whether the process is to go on
    after that.  [AtExit n] asks for it to be called before any signal ends the process. *)
Inductive op := Hook (n sig : nat) (go : bool) | AtExit (n : nat) | Unhook (n : nat) | Signal (sig : nat) (code : Z).

(** What happens: functions [ran] are called, then those for [exits] *)
Inductive outcome :=
| Continues (ran : list nat)
| Stops
| Killed (by_ : nat) (ran exits : list nat)
| Loops.
Inductive result := Added (ok : bool) | Removed | Seen (o : outcome).

(** The functions that are asked for: number, signal and whether the process goes on; signal 0 is for [AtExit]. *)
Definition hook : Type := nat * nat * bool.
Definition live1 (l : list hook) (x : op * result) : list hook :=
  match x with
  | (Hook n sig go, Added true) => l ++ [(n, sig, go)]
  | (AtExit n, Added true) => l ++ [(n, 0, false)]
  | (Unhook n, _) => filter (fun h => negb (fst (fst h) =? n)) l
  | _ => l
  end.
Definition live (h : list (op * result)) : list hook := fold_left live1 h [].

Definition for_signal (l : list hook) (sig : nat) : list hook := filter (fun h => snd (fst h) =? sig) l.
Definition numbers (l : list hook) : list nat := map (fun h => fst (fst h)) l.

(** ** What must happen when a signal arrives

    [can] is which signals the system allows to be handled. *)
Definition expected (can : nat -> bool) (started : nat -> start) (l : list hook) (sig : nat) (code : Z) : outcome :=
  if faulty sig code then Killed sig [] []
  else if existsb snd (for_signal l sig) then Continues (numbers (for_signal l sig))
  else match started sig, default_of sig with
       | Ignored, _ | AtDefault, Ignore | AtDefault, Resume => Continues (numbers (for_signal l sig))
       | AtDefault, Stop => Stops
       | AtDefault, Terminate =>
           Killed sig (numbers (for_signal l sig)) (if can sig then numbers (for_signal l 0) else [])
       end.

(** Whether functions were asked for that concern a signal *)
Definition touches (sig : nat) (o : op) : bool :=
  match o with Hook _ g _ => g =? sig | AtExit _ => true | _ => false end.
Definition touched (sig : nat) (os : list op) : bool := existsb (touches sig) os.

(** SIGKILL and SIGSTOP can be neither handled nor ignored, and glibc keeps 32 and 33 for itself.  There are 64 signals. *)
Record system (can : nat -> bool) (started : nat -> start) : Prop := {
  never : can 9 = false /\ can 19 = false /\ can 32 = false /\ can 33 = false;
  range : forall sig, can sig = true -> 1 <= sig <= 64;
  fixed : forall sig, can sig = false -> started sig = AtDefault
}.

(** Functions are not asked for to replace stopping, every one has its own number, and removed ones were there. *)
Definition fair (o : op) : Prop :=
  match o with Hook _ sig _ => 1 <= sig /\ default_of sig <> Stop | Signal sig _ => 1 <= sig < 64 | _ => True end.

(** The same, apart from which functions for exits are called *)
Definition same_fate (a b : outcome) : Prop :=
  match a, b with
  | Continues r, Continues r' => r = r'
  | Stops, Stops => True
  | Killed x r _, Killed y r' _ => x = y /\ r = r'
  | _, _ => False
  end.
