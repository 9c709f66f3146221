(** * C31: the cache of open directories

    A walk is any list of [op]s, and the system and the I/O queue answer with
    any list of [choices]; both are quantified over.  CacheSpec.v says what
    the events of a log may be.  [None] would be a failed assertion, a use of
    freed memory, a counter below zero or a corrupted list. *)

From Coq Require Import List Arith.
Import ListNotations.
From Verif Require Import CacheModel CacheSpec CacheFacts.

(** Nothing ever goes wrong, and every event is in order. *)
Theorem C31_safe :
  forall unwrap budget choices ops,
  exists s, run unwrap budget choices ops = Some s /\ proper budget (log s).
Proof. exact run_safe. Qed.
Print Assumptions C31_safe.

(** At every moment the number of open descriptors is within the budget. *)
Theorem C31_budget :
  forall unwrap budget choices ops s later earlier,
  run unwrap budget choices ops = Some s -> log s = later ++ earlier ->
  NoDup (live earlier) /\ length (live earlier) <= budget.
Proof. exact run_budget. Qed.
Print Assumptions C31_budget.

(** The descriptor of a directory in use stays open, and stays the same, and
    is nobody else's. *)
Theorem C31_pinned :
  forall unwrap budget choices ops s later e earlier f,
  run unwrap budget choices ops = Some s -> log s = later ++ e :: earlier -> 0 < pinned earlier f ->
  exists d, holds earlier f = Some d /\ In d (live earlier) /\
            holds (e :: earlier) f = Some d /\ In d (live (e :: earlier)) /\
            forall g, holds earlier g = Some d -> g = f.
Proof. exact run_pinned. Qed.
Print Assumptions C31_pinned.

(** The list of the cache, from the end, is the order in which directories
    are to be given up; it has the open directories that are not in use, each
    one once. *)
Theorem C31_eviction_order :
  forall unwrap budget choices ops s,
  run unwrap budget choices ops = Some s ->
  rev (lru s) = eviction (log s) /\ NoDup (lru s) /\
  forall f, In f (lru s) <-> holds (log s) f <> None /\ pinned (log s) f = 0.
Proof. exact run_order. Qed.
Print Assumptions C31_eviction_order.

(** After the walk everything is closed. *)
Theorem C31_all_closed :
  forall unwrap budget choices ops s,
  run unwrap budget choices ops = Some s -> queued s = [] -> cur s = None -> flight s = [] ->
  live (log s) = [] /\ streams (log s) = 0 /\ cache_destroy s = true.
Proof. exact run_closed. Qed.
Print Assumptions C31_all_closed.

(** A directory may fail to open although there is room in the budget and the
    system would let it: the system said EMFILE once, for another root, and
    then [capacity] is 1 for the rest of the walk (finding F20). *)
Theorem C31_room_used_refuted :
  exists ops s s',
    run true 10 [1] ops = Some s /\ now s = Failed /\ live (log s) = [0] /\ cap s = 0 /\
    run true 10 [2] ops = Some s' /\ now s' = Reading.
Proof. exact room_used. Qed.
Print Assumptions C31_room_used_refuted.

Module Examples.

(** A root with two directories, one of which has another one; one directory
    is opened ahead by a background thread. *)
Definition walk : list op :=
  [New; Async_open 0; Respond; Take 0; Opendir; New; New; Async_open 1; Finish; Unwrap; Drop; Respond; Unwrap;
   Take 1; Opendir; Ensure; Finish; Unwrap; Drop; Free; Drop;
   Take 2; Opendir; New; Ensure; Finish; Unwrap; Drop;
   Take 3; Opendir; Finish; Unwrap; Drop; Free; Drop; Free; Drop; Free;
   Respond; Respond; Respond].

(** A budget of two is used up: the root's directory is closed to make room
    for dup(). *)
Example tight : exists s, run false 2 [] walk = Some s /\
  queued s = [] /\ cur s = None /\ flight s = [] /\ In (Evict 0) (log s) /\
  exists later earlier, log s = later ++ earlier /\ length (live earlier) = 2 /\ holds earlier 2 = Some 3 /\ pinned earlier 2 = 1.
Proof.
  eexists. split; [vm_compute; reflexivity|]. do 3 (split; [reflexivity|]). split; [cbn; tauto|].
  eexists (firstn 24 _), _. split; [symmetry; apply (firstn_skipn 24)|]. vm_compute. repeat split.
Qed.

(** Without that, everything stays open until it is done with. *)
Example roomy : exists s, run true 3 [] walk = Some s /\
  queued s = [] /\ cur s = None /\ flight s = [] /\ cap s = 3 /\ forall f, ~ In (Evict f) (log s).
Proof.
  eexists. split; [vm_compute; reflexivity|]. do 4 (split; [reflexivity|]).
  intros f. cbn. intuition discriminate.
Qed.

(** Two directories that are not in use: the root is given up last. *)
Example order : exists s, run true 3 [] (firstn 25 walk ++ [Finish]) = Some s /\
  lru s = [0; 2] /\ eviction (log s) = [2; 0] /\ holds (log s) 0 <> None.
Proof. eexists. split; [vm_compute; reflexivity|]. repeat split; discriminate. Qed.

End Examples.
