(** * What may be relied on when hooks are added and removed while signals arrive *)
From Coq Require Import List Arith Bool.
From Verif Require Import RcuModel.
Import ListNotations.

(** The hook that is being added, or removed *)
Definition kont_of (p : wpc) : option kont :=
  match p with
  | WLoad _ _ k | WRefs _ _ _ k | WSwap _ _ _ k | WSub _ _ k | WWait _ _ k | WTake _ _ k => Some k
  | WFix x nx => Some (KRemove x nx)
  | WDestroy x nx | WFree x nx => Some (KDestroy x nx)
  | WIdle => None
  end.
Definition busy (st : state) (n : nat) : Prop :=
  match kont_of (w st) with Some (KAppend m) | Some (KRemove m _) | Some (KDestroy m _) => m = n | None => False end.

(** sighook() has returned the hook [n], and sigunhook() has not been called for it. *)
Definition registered (st : state) (n : nat) : Prop := 1 <= n /\ alive st n = true /\ ~ busy st n.

(** sigunhook() has returned. *)
Definition gone (st : state) (n : nat) : Prop := 1 <= n < fresh st /\ alive st n = false.

(** The program only removes hooks that it has added and not removed yet. *)
Definition allowed (st : state) (e : event) : Prop := match e with Remove n => registered st n | _ => True end.

(** It also does not remove the newest of several hooks. *)
Definition orderly (st : state) (e : event) : Prop :=
  match e with
  | Remove n => registered st n /\ ((exists m, n < m /\ registered st m) \/ (forall m, registered st m -> m = n))
  | _ => True
  end.

(** What the threads may do, in any order, as long as the program keeps to [ok] *)
Inductive runs_to (cfg : config) (ok : state -> event -> Prop) : state -> list event -> state -> Prop :=
| rt_nil st : runs_to cfg ok st [] st
| rt_cons st e st' es st'' : ok st e -> step cfg e st = Next st' -> runs_to cfg ok st' es st'' -> runs_to cfg ok st (e :: es) st''.
Definition reachable (cfg : config) (threads : nat) (st : state) : Prop := exists es, runs_to cfg allowed (init threads) es st.

(** A handler is running the function of the hook. *)
Definition running (st : state) (n : nat) : Prop := exists r h, In r (rs st) /\ pc r = Run n h.

(** The handler of thread [i] is not running, and has run these hooks when it was last. *)
Definition returned (st : state) (i : nat) (l : list nat) : Prop := nth_error (rs st) i = Some (mkReader Idle (rev l)).
Definition in_progress (st : state) (i : nat) : Prop := exists r, nth_error (rs st) i = Some r /\ pc r <> Idle.
Definition all_idle (st : state) : Prop := forall r, In r (rs st) -> pc r = Idle.
