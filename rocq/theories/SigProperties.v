(** Property theorems for signal hooks: C36. *)
From Coq Require Import List Arith Bool Lia.
From Verif Require Import SigModel SigSpec SigProofs.
Import ListNotations.

(** C36: in any history of registrations, removals and signals, each signal runs
    exactly the hooks registered for it and not removed, in the order of their
    registration, and if the process is about to die the hooks for exits as well.

    The full property has no hypothesis [careful] within [allowed_all], and no
    restriction on signal numbers: it fails without them (below).  Missing are histories in which a
    hook is registered on a list whose most recent hook was removed while others
    remained, and signals whose number is divisible by 64. *)
Theorem C36_hooks_partial : forall os fuel, length os <= fuel -> allowed_all os [] (fun _ => false) ->
  run_all fuel os init = Some (seen_all os []).
Proof.
  exact histories.
Qed.
Print Assumptions C36_hooks_partial.

(** C36 fails: after the most recent of several hooks of a signal is removed,
    registering another one drops those that remained. *)
Theorem C36_removal_refuted : exists os fuel, all_allowed os [] /\
  exists es, run_all fuel os init = Some es /\ es <> seen_all os [].
Proof.
  exists [Hook 1 14 false true true; Hook 2 14 false true true; Unhook 2; Hook 3 14 false true true; Signal 14 true false], 10.
  split; [cbn; repeat split; try lia; discriminate|]. eexists. split; [vm_compute; reflexivity|]. vm_compute. discriminate.
Qed.
Print Assumptions C36_removal_refuted.

(** C36 fails for signal 64, which is SIGRTMAX on Linux: its hooks share a list with
    those for exits, so that all of them run twice when it kills the process, and those
    for exits run although it does not. *)
Theorem C36_signal_64_refuted :
  (run_all 10 [Hook 1 0 false false true; Hook 2 64 false false true; Signal 64 true false] init =
     Some [None; None; Some (Died [1; 2] [1; 2])] /\
   seen_all [Hook 1 0 false false true; Hook 2 64 false false true; Signal 64 true false] [] =
     [None; None; Some (Died [2] [1])]) /\
  (run_all 10 [Hook 1 0 false false true; Hook 2 64 false true true; Signal 64 true false] init =
     Some [None; None; Some (Ran [1; 2])] /\
   seen_all [Hook 1 0 false false true; Hook 2 64 false true true; Signal 64 true false] [] =
     [None; None; Some (Ran [2])]).
Proof.
  vm_compute. auto.
Qed.
Print Assumptions C36_signal_64_refuted.

Module Examples.
  (** Hooks of several signals, two of which share a list; one is one-shot *)
  Definition os : list op :=
    [Hook 1 14 false true true; Hook 2 78 false false true; Hook 3 14 true false true; Hook 4 0 false false true;
     Signal 14 true false; Signal 14 true false; Unhook 1; Hook 5 14 false false true; Hook 6 2 false false false;
     Signal 78 false false; Signal 11 true true; Unhook 3; Unhook 5; Unhook 2; Hook 7 14 false false true; Signal 14 true false; Unhook 7].
  Example os_allowed : allowed_all os [] (fun _ => false).
  Proof. cbn. repeat split; try lia; try discriminate. Qed.
  Example os_seen : seen_all os [] =
    [None; None; None; None; Some (Ran [1; 3]); Some (Ran [1]); None; None; None;
     Some (Ran [2]); Some Fault; None; None; None; None; Some (Died [7] [4])].
  Proof. vm_compute. reflexivity. Qed.
End Examples.
