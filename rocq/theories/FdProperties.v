(** Property theorems for file descriptors: C59. *)
From Coq Require Import List Arith ZArith Permutation Lia.
From Verif Require Import FdModel FdSpec CacheModel CacheSpec FdProofs.
Import ListNotations.

(** C59: at every moment of every search the descriptors in use are within the limit of the process, whatever the walk has opened and
    closed, whatever is evaluated, and whichever primaries keep one for later; provided that the limit is large enough for the expression and two directories.
    Missing: searches that are not [accounted], for which it is refuted below. *)
Theorem C59_within_limit_partial :
  forall s standing now dirs nthreads unwrap choices ops st later earlier waiting rest running,
    limits_ok (orig_nofile s) -> (1 <= threads s)%Z -> counted s standing -> accounted s ->
    search_fds s = Some (now, dirs, nthreads) ->
    (Z.of_nat (standing + reserve (expression s) + 2) <= Z.min 65536 (rlim_cur now))%Z ->
    run unwrap (Z.to_nat dirs) choices ops = Some st -> log st = later ++ earlier ->
    Permutation (waiting ++ rest) (leaves (expression s)) -> In running (leaves (exclude s) ++ leaves (expression s)) ->
    (Z.of_nat (in_use standing (rings s nthreads) earlier waiting running) <= rlim_cur now)%Z.
Proof. exact budget. Qed.
Print Assumptions C59_within_limit_partial.

(** C59: nothing is wasted, either: what is not in use or put aside is all for the walk (up to 65536). *)
Theorem C59_nothing_wasted :
  forall s standing now dirs nthreads,
    limits_ok (orig_nofile s) -> (1 <= threads s)%Z -> fd_entries s = Some (Z.of_nat standing + 1)%Z -> accounted s ->
    search_fds s = Some (now, dirs, nthreads) ->
    (Z.of_nat (standing + reserve (expression s) + 2) <= Z.min 65536 (rlim_cur now))%Z ->
    (Z.of_nat (standing + reserve (expression s) + rings s nthreads) + dirs = Z.min 65536 (rlim_cur now))%Z.
Proof. exact whole_share. Qed.
Print Assumptions C59_nothing_wasted.

(** C59: however low the limit is, there is a walk, with at least two directories; it has fewer threads than asked for only if there are no
    descriptors for them. *)
Theorem C59_always_walks :
  forall s, limits_ok (orig_nofile s) -> (1 <= threads s)%Z -> exists now dirs nthreads,
    search_fds s = Some (now, dirs, nthreads) /\ (2 <= dirs)%Z /\ (0 <= nthreads <= threads s - 1)%Z /\
    (nthreads < threads s - 1 -> uring s = true /\ dirs = 2)%Z.
Proof. exact always_walks. Qed.
Print Assumptions C59_always_walks.

(** C59: the limit is raised to 65536 or the most that is allowed, never lowered, and the hard limit stays what it was; commands get the
    original limits. *)
Theorem C59_limits :
  forall s now dirs nthreads, limits_ok (orig_nofile s) -> search_fds s = Some (now, dirs, nthreads) ->
    rlim_max now = rlim_max (orig_nofile s) /\
    rlim_cur now = (if raise_nofile s && can_set s then Z.max (rlim_cur (orig_nofile s)) (Z.min 65536 (rlim_max (orig_nofile s))) else rlim_cur (orig_nofile s))%bool /\
    command_limit (orig_nofile s) now = orig_nofile s.
Proof. exact limit_of. Qed.
Print Assumptions C59_limits.

(** C59 fails for -exclude: its needs are not counted. *)
Theorem C59_exclude_refuted : exists s standing now dirs nthreads unwrap choices ops st waiting rest running,
  limits_ok (orig_nofile s) /\ (1 <= threads s)%Z /\ counted s standing /\
  ~ In Names (leaves (expression s)) /\ search_fds s = Some (now, dirs, nthreads) /\
  (Z.of_nat (standing + reserve (expression s) + 2) <= Z.min 65536 (rlim_cur now))%Z /\
  run unwrap (Z.to_nat dirs) choices ops = Some st /\
  Permutation (waiting ++ rest) (leaves (expression s)) /\ In running (leaves (exclude s)) /\
  (rlim_cur now < Z.of_nat (in_use standing (rings s nthreads) (log st) waiting running))%Z.
Proof. exact exclude_short. Qed.
Print Assumptions C59_exclude_refuted.

(** C59 fails for actions that print the names of users and groups: nothing is put aside for looking them up. *)
Theorem C59_names_refuted : exists s standing now dirs nthreads unwrap choices ops st waiting rest running,
  limits_ok (orig_nofile s) /\ (1 <= threads s)%Z /\ counted s standing /\
  Forall (fun p => opens p = 0) (leaves (exclude s)) /\ search_fds s = Some (now, dirs, nthreads) /\
  (Z.of_nat (standing + reserve (expression s) + 2) <= Z.min 65536 (rlim_cur now))%Z /\
  run unwrap (Z.to_nat dirs) choices ops = Some st /\
  Permutation (waiting ++ rest) (leaves (expression s)) /\ In running (leaves (expression s)) /\
  (rlim_cur now < Z.of_nat (in_use standing (rings s nthreads) (log st) waiting running))%Z.
Proof. exact names_short. Qed.
Print Assumptions C59_names_refuted.

Module Examples.
  (** bfs -nouser -execdir ls {} + -o -empty -execdir rm {} ';', where 1024 files may be open and 4096 are allowed; 5 are open. *)
  Definition command : expr := Node [Node [Leaf Nouser; Leaf (Exec true true)]; Node [Leaf Empty; Leaf (Exec false true)]; Node [Leaf (Exec true true)]].
  Definition usual (u : bool) (cur max n : Z) : start :=
    {| orig_nofile := mkRlimit cur max; raise_nofile := true; can_set := true; n_files := 1; fd_entries := Some 6%Z;
       exclude := Leaf Other; expression := command; uring := u; threads := n |}.

  Example reserved : reserve command = 5.
  Proof. reflexivity. Qed.
  Example split : map (fun u => search_fds (usual u 1024 4096 8)) [true; false] =
    [Some (mkRlimit 4096 4096, 4079, 7); Some (mkRlimit 4096 4096, 4086, 7)]%Z.
  Proof. reflexivity. Qed.
  Example unlimited : search_fds (usual true 1024 (2 ^ 64 - 1) 1) = Some (mkRlimit 65536 (2 ^ 64 - 1), 65526, 0)%Z.
  Proof. reflexivity. Qed.
  (** There is room for two threads only, or for none. *)
  Example scarce : map (fun n => search_fds (usual true n n 8)) [14; 5]%Z =
    [Some (mkRlimit 14 14, 2, 2); Some (mkRlimit 5 5, 2, 0)]%Z.
  Proof. reflexivity. Qed.

  Example meets : limits_ok (orig_nofile (usual true 14 14 8)) /\ counted (usual true 14 14 8) 5 /\ accounted (usual true 14 14 8) /\
    (Z.of_nat (5 + reserve command + 2) <= Z.min 65536 14)%Z /\ Permutation ([Exec true true; Exec true true] ++ [Nouser; Empty; Exec false true]) (leaves command).
  Proof.
    split; [unfold limits_ok; cbn; lia|]. split; [left; reflexivity|].
    split; [split; [cbn; intuition discriminate|repeat constructor]|]. split; [cbn; lia|]. cbn.
    apply (perm_trans (l' := [Nouser; Exec true true; Exec true true; Empty; Exec false true])).
    - symmetry. apply (Permutation_middle [Exec true true; Exec true true] [Empty; Exec false true]).
    - apply perm_skip, perm_skip. apply (Permutation_cons_append [Empty; Exec false true]).
  Qed.

  (** All 14 may be in use: 5 from the start, two rings, two directories, two kept ones, and three. *)
  Example full : exists st, run false 2 [] reading = Some st /\
    in_use 5 (rings (usual true 14 14 8) 2) (log st) [Exec true true; Exec true true] Nouser = 14.
  Proof. eexists. split; [vm_compute; reflexivity|]. vm_compute. reflexivity. Qed.
End Examples.
