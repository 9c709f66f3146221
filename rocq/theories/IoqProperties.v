(** * C13: the I/O queue

    A queue has [depth] entries, [workers] worker threads, two rings of slots,
    batches of [2 ^ bexp] and a map [monitor] from slots to monitors; [stop]
    is the address of its stop request, and [asserts] says whether assertions
    are compiled in.  The list [l] is a schedule: which thread goes next,
    whether its compare-and-swap fails or its sleep ends for no reason, and
    what the owner calls.  All of them are quantified over, so any number of
    wakeups may come late, and any number of entries may be in flight.

    A slot counts the pushes to skip in 63 bits, so the number of steps is
    bounded by [2 ^ 61].

    IoqSpec.v says what a log may be and when a thread cannot go on. *)

From Coq Require Import List Arith NArith.
Import ListNotations.
From Verif Require Import IoqModel IoqSpec IoqFacts.

(** Each request that is accepted is completed at most once, by one worker,
    and after that returned at most once; nothing else is completed or
    returned. *)
Theorem C13_exactly_once :
  forall depth workers bexp monitor stop asserts,
  address stop -> 1 <= workers ->
  forall l s, (N.of_nat (length l) < 2 ^ 61)%N ->
  run depth workers bexp monitor stop asserts l = Some s ->
  proper workers (log s).
Proof. exact exactly_once. Qed.
Print Assumptions C13_exactly_once.

(** Whoever sleeps at a slot to push finds it full, and whoever sleeps to pop
    finds it without an entry, or somebody is on the way to wake them up. *)
Theorem C13_no_lost_wakeup :
  forall depth workers bexp monitor stop asserts,
  address stop -> 1 <= workers ->
  forall l s, (N.of_nat (length l) < 2 ^ 61)%N ->
  run depth workers bexp monitor stop asserts l = Some s ->
  (forall t q i, sleeps_to_push (size depth) s t q i ->
     has_entry (slots s q i) \/ exists u, wakes (size depth) s u q i) /\
  (forall t q i, sleeps_to_pop (size depth) s t q i ->
     ~ has_entry (slots s q i) \/ exists u, wakes (size depth) s u q i).
Proof. exact no_lost_wakeup. Qed.
Print Assumptions C13_no_lost_wakeup.

(** When nobody can go on, each request that was accepted has been completed.
    If the owner waits for a request then each one has been returned too, and
    if the queue was cancelled then each worker has returned.  (Without
    assertions, a queue that is cancelled may lose requests: see below.) *)
Theorem C13_no_deadlock :
  forall depth workers bexp monitor stop asserts,
  address stop -> 1 <= workers ->
  forall l s, (N.of_nat (length l) < 2 ^ 61)%N ->
  run depth workers bexp monitor stop asserts l = Some s ->
  waits depth workers bexp monitor stop asserts s ->
  asserts = true \/ ~ cancelled (log s) ->
  (forall r, accepted r (log s) -> completed r (log s)) /\
  (halted depth workers bexp monitor stop asserts s 0 -> forall r, accepted r (log s) -> returned r (log s)) /\
  (cancelled (log s) -> forall t, 1 <= t <= workers -> exited s t).
Proof. exact no_deadlock. Qed.
Print Assumptions C13_no_deadlock.

(** No step fails, except for the assertion at the end of a worker, and that
    one only if there are at least two workers, and the queue was cancelled
    before all requests were completed. *)
Theorem C13_safe :
  forall depth workers bexp monitor stop asserts,
  address stop -> 1 <= workers ->
  forall l s t b o, (N.of_nat (length l) < 2 ^ 61)%N ->
  run depth workers bexp monitor stop asserts l = Some s ->
  step depth bexp monitor stop asserts t b o s = None ->
  asserts = true /\ 2 <= workers /\ interrupted (log s).
Proof. exact safe. Qed.
Print Assumptions C13_safe.

(** And that one does fail (finding F21): the stop request may overtake other
    requests if a worker is interrupted while the others go around the ring.
    Without the assertion, the other requests are lost, and an owner that
    waits for them sleeps forever. *)
Theorem C13_cancel_refuted :
  (exists l, run 8 2 3 (fun i => i) 4 true l = None) /\
  exists l s r, run 8 2 3 (fun i => i) 4 false l = Some s /\ accepted r (log s) /\ ~ completed r (log s) /\
    forall t, t <= 2 -> halted 8 2 3 (fun i => i) 4 false s t.
Proof. exact cancel_loses. Qed.
Print Assumptions C13_cancel_refuted.

Module Examples.

(** Two workers, four entries, slots that share monitors *)
Definition go (l : list (nat * bool * op)) : option st := run 4 2 1 (fun i => i mod 2) 64 true l.
Definition turns (l : list nat) (n : nat) : list (nat * bool * op) :=
  concat (repeat (map (fun t => (t, false, Submit)) l) n).
Definition calls (o : op) : list (nat * bool * op) := [(0, false, o)].

Example stop_is_an_address : address 64.
Proof. repeat split; vm_compute; congruence. Qed.

(** The workers go to sleep, three requests come, and are completed and
    returned. *)
Definition some := turns [1; 2] 40 ++
  calls (Request 8 false) ++ calls (Request 16 true) ++ turns [0] 30 ++ calls (Request 32 false) ++ turns [0; 2; 1] 60 ++
  calls (Get true) ++ turns [0] 30 ++ calls (Get true) ++ turns [0] 30 ++ calls (Get true) ++ turns [0] 30.

Example some_requests :
  option_map (fun s => rev (log s)) (go some) =
  Some [Accept 0 false; Accept 1 true; Accept 2 false; Complete 0 1 true; Complete 1 1 true; Complete 2 2 true;
        Return 0; Return 1; Return 2].
Proof. vm_compute. reflexivity. Qed.

(** Both workers are asleep at that point, at different slots. *)
Example workers_sleep :
  option_map (fun s => map (fun t => match job (th s t) with Pop Pending _ i _ _ (Sleep _) => Some (i mod 8) | _ => None end) [1; 2]) (go (turns [1; 2] 40)) =
  Some [Some 0; Some 2].
Proof. vm_compute. reflexivity. Qed.

(** A wakeup on its way *)
Example wakeup_on_its_way :
  option_map (fun s => (job (th s 1), slots s Pending 0, job (th s 0)))
    (go (turns [1; 2] 40 ++ calls (Request 8 false) ++ calls (Request 16 false) ++ turns [0] 4)) =
  Some (Pop Pending [] 0 2 true (Sleep 1), 4%N, Push Pending [8%N; 16%N] 0 2 (Wake2 1)).
Proof. vm_compute. reflexivity. Qed.

(** A queue that was cancelled after it was used: both workers have returned. *)
Example cancelled_after :
  option_map (fun s => (cancel s, map (fun t => at_ (th s t)) [1; 2])) (go (some ++ calls Cancel ++ turns [0; 1; 2] 60)) =
  Some (true, [W_exit; W_exit]).
Proof. vm_compute. reflexivity. Qed.

(** Then nobody can go on, and the owner is between calls, so that
    C13_no_deadlock applies. *)
Example cancelled_waits s :
  go (some ++ calls Cancel ++ turns [0; 1; 2] 60) = Some s -> waits 4 2 1 (fun i => i mod 2) 64 true s.
Proof.
  intros E. assert (X : option_map (fun s => map (fun t => (job (th s t), at_ (th s t), pend (th s t))) [0; 1; 2])
    (go (some ++ calls Cancel ++ turns [0; 1; 2] 60)) = Some [(Rest, M_idle, []); (Rest, W_exit, []); (Rest, W_exit, [])]) by (vm_compute; reflexivity).
  rewrite E in X. injection X as A0 B0 C0 A1 B1 C1 A2 B2 C2. split; [|auto].
  intros t T. destruct t as [|[|[|t]]]; [inversion T as [A _]; inversion A|apply exit_halted; assumption..|destruct T as [_ T]; do 2 apply le_S_n in T; inversion T].
Qed.

End Examples.
