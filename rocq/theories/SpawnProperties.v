(** * Properties of spawning processes *)
From Coq Require Import List Bool Arith ZArith Lia Init.Byte Strings.Byte.
From Verif Require Import SpawnModel SpawnSpec SpawnProofs.
Import ListNotations.

(** A process that was started runs the program that POSIX says, found in the directory that it has changed to, with
    exactly the descriptors, directory, limits and signals that were asked for; nothing changes in the parent.
    This is so with posix_spawn() and with fork(), wherever the descriptors of the error-reporting pipe happen to be. *)
Theorem C52_started access runnable opens directory allowed posix_spawn hp hf search l env cmd p rd wr :
  sane access runnable -> posix_right runnable opens directory allowed env posix_spawn -> Forall plain l ->
  let '(o, p') := bfs_spawn access runnable opens directory allowed posix_spawn cmd env (fold_left (set_up hf) l (bfs_spawn_init hp search)) p rd wr in
  started_right runnable opens directory allowed search env cmd l p o /\ unchanged p p'.
Proof. exact (spawn_started access runnable opens directory allowed posix_spawn hp hf search l env cmd p rd wr). Qed.
Print Assumptions C52_started.

(** -exec and -execdir in particular *)
Theorem C52_exec_started access runnable opens directory allowed posix_spawn hp hf wd nofile env cmd p rd wr :
  sane access runnable -> posix_right runnable opens directory allowed env posix_spawn ->
  let '(o, p') := bfs_exec_spawn access runnable opens directory allowed posix_spawn hp hf wd nofile cmd env p rd wr in
  started_right runnable opens directory allowed true env cmd (exec_requests wd nofile) p o /\ unchanged p p'.
Proof. exact (exec_started access runnable opens directory allowed posix_spawn hp hf wd nofile env cmd p rd wr). Qed.
Print Assumptions C52_exec_started.

(** The pipe is not left open in the new program: what is open was open before. *)
Theorem C52_no_pipe runnable opens directory allowed search env cmd l p exe child : Forall plain l ->
  started_right runnable opens directory allowed search env cmd l p (Started exe child) ->
  forall fd d, fds child fd = Some d -> exists fd' d', fds p fd' = Some d' /\ obj d' = obj d.
Proof. exact (started_old runnable opens directory allowed search env cmd l p exe child). Qed.
Print Assumptions C52_no_pipe.

(** A process is started whenever that is possible, provided that there are two more descriptors; that no directory or other
    file that can not be run is in the way in $PATH; and that the command does not depend on the directory that is changed to. *)
Theorem C52_possible_partial access runnable opens directory allowed posix_spawn hp hf search l env cmd p rd wr n :
  sane access runnable -> posix_right runnable opens directory allowed env posix_spawn -> Forall plain l -> roomy n p l ->
  (forall d x, In x (candidates search env cmd) -> access d x = runnable d x) ->
  (search = false \/ In "/"%byte cmd -> absolute cmd \/ stays l) ->
  started_possible runnable opens directory allowed search env cmd l p
    (fst (bfs_spawn access runnable opens directory allowed posix_spawn cmd env (fold_left (set_up hf) l (bfs_spawn_init hp search)) p rd wr)).
Proof. exact (spawn_possible access runnable opens directory allowed posix_spawn hp hf search l env cmd p rd wr n). Qed.
Print Assumptions C52_possible_partial.

(** -execdir ./s: the command is looked for in the directory that bfs was started in, so it is not run although it could be. *)
Theorem C52_execdir_refuted : exists access runnable opens directory allowed fd env cmd p n,
  sane access runnable /\ (forall d x, access d x = runnable d x) /\ roomy n p (exec_requests (Some fd) None) /\
  forall posix_spawn hp hf rd wr,
    ~ started_possible runnable opens directory allowed true env cmd (exec_requests (Some fd) None) p
        (fst (bfs_exec_spawn access runnable opens directory allowed posix_spawn hp hf (Some fd) None cmd env p rd wr)).
Proof. exact execdir_fails. Qed.
Print Assumptions C52_execdir_refuted.

(** -exec c: a directory called c in $PATH hides a program of that name in a later directory. *)
Theorem C52_hidden_refuted : exists access runnable opens directory allowed env cmd p n,
  sane access runnable /\ roomy n p [] /\
  forall posix_spawn hp hf rd wr, posix_right runnable opens directory allowed env posix_spawn ->
    ~ started_possible runnable opens directory allowed true env cmd [] p
        (fst (bfs_exec_spawn access runnable opens directory allowed posix_spawn hp hf None None cmd env p rd wr)).
Proof. exact hidden_fails. Qed.
Print Assumptions C52_hidden_refuted.

(** With fork(), a file that is opened for the child may be left open under another number, too. *)
Theorem C52_open_refuted : exists access runnable opens directory allowed fd path env cmd p,
  sane access runnable /\
  forall posix_spawn hf rd wr,
    ~ started_right runnable opens directory allowed true env cmd [Open fd path] p
        (fst (bfs_spawn access runnable opens directory allowed posix_spawn cmd env (fold_left (set_up hf) [Open fd path] (bfs_spawn_init false true)) p rd wr)).
Proof. exact open_leaks. Qed.
Print Assumptions C52_open_refuted.

(** With fork(), duplicating a descriptor to itself does not keep it open. *)
Theorem C52_dup2_refuted : exists access runnable opens directory allowed fd env cmd p,
  sane access runnable /\
  forall posix_spawn hf rd wr,
    ~ started_right runnable opens directory allowed true env cmd [Dup2 fd fd] p
        (fst (bfs_spawn access runnable opens directory allowed posix_spawn cmd env (fold_left (set_up hf) [Dup2 fd fd] (bfs_spawn_init false true)) p rd wr)).
Proof. exact dup2_closes. Qed.
Print Assumptions C52_dup2_refuted.

Module Examples.
  (** 0, 1 and 2 are open, 3 is a directory with FD_CLOEXEC; there are two more descriptors, which the pipe takes. *)
  Definition me : proc := mkProc (fun i => match i with 0 | 1 | 2 => Some (mkDesc i false) | 3 => Some (mkDesc 30 true) | _ => None end) 0 (fun _ => 20) false true false.
  Definition opens (d : nat) (path : list byte) : option nat := None.
  Definition directory (o : nat) : option nat := if o =? 30 then Some 1 else None.
  Definition allowed (r v : nat) : bool := true.
  Definition is_file (x : list byte) : bool := if list_eq_dec byte_eq_dec x ["/"; "b"; "/"; "c"]%byte then true else false.
  Definition access (d : nat) (x : list byte) : bool := is_file x || (d =? 1) && if list_eq_dec byte_eq_dec x ["."; "/"; "c"]%byte then true else false.
  Definition env_abs : list byte := ["/"; "a"; ":"; "/"; "b"]%byte.
  Definition env_rel : list byte := ["/"; "a"; ":"; ":"; "/"; "b"]%byte.
  Definition no_posix (s : bool) (c : list byte) (l : list request) (p : proc) : outcome := Failed ENOENT.
  (** The pipe is at 4 and 5.  4 becomes standard input, and the pipe must move. *)
  Definition l : list request := [Dup2 0 4; Dup2 1 5; Fchdir 3; Close 2; Setrlimit RLIMIT_NOFILE 10].

  Example is_sane : sane access access.
  Proof.
    constructor; [auto|]. intros d d' p (q & ->). unfold access. assert (E : (if list_eq_dec byte_eq_dec ("/"%byte :: q) ["."; "/"; "c"]%byte then true else false) = false).
    { destruct (list_eq_dec byte_eq_dec ("/"%byte :: q) ["."; "/"; "c"]%byte); [discriminate|reflexivity]. }
    rewrite E, !andb_false_r. auto.
  Qed.
  Example is_plain : Forall plain l.
  Proof. repeat constructor; cbn; lia. Qed.
  Example is_roomy : roomy 6 me l.
  Proof.
    split; [|split].
    - intros fd L. do 6 (destruct fd as [|fd]; [lia|]). reflexivity.
    - cbn. lia.
    - intros q I. cbn [In l] in I. repeat (destruct I as [<- | I]; [cbn; lia|]). destruct I.
  Qed.
  (** A posix_spawn() that is right: it is made from the specification. *)
  Definition posix (env : list byte) (search : bool) (cmd : list byte) (l : list request) (p : proc) : outcome :=
    match performs opens directory allowed (image_of p) l with
    | None => Failed EBADF
    | Some w => match find (access (dir w)) (candidates search env cmd) with
                | None => Failed ENOENT
                | Some x => Started x (mkProc (fun fd => match inherited w fd with Some o => Some (mkDesc o false) | None => None end) (dir w) (lim w) (blocked p) false (disturbed p))
                end
    end.
  Example is_posix env : posix_right access opens directory allowed env (posix env).
  Proof.
    intros search cmd l p. unfold posix. destruct (performs opens directory allowed (image_of p) l) as [w|] eqn:P.
    - destruct (find (access (dir w)) (candidates search env cmd)) as [x|] eqn:F; cbn.
      + split; [|exact I]. exists w. repeat split; auto.
      + split; [exact I|]. intros (w' & x & P' & F'). rewrite P in P'. injection P' as <-. congruence.
    - cbn. split; [exact I|]. intros (w' & x & P' & F'). congruence.
  Qed.

  (** By fork(), as there is a limit to be set: /b/c with an absolute $PATH, and ./c in the other directory otherwise *)
  Definition shown (r : outcome * proc) :=
    match r with
    | (Started x q, p') => Some (x, map (fds q) (seq 0 8), cwd q, limits q RLIMIT_NOFILE, handled q, blocked q, disturbed q, map (fds p') (seq 0 8))
    | (Failed _, _) => None
    end.
  Definition after : list (option desc) := [Some (mkDesc 0 false); Some (mkDesc 1 false); None; None; Some (mkDesc 0 false); Some (mkDesc 1 false); None; None].
  Definition before : list (option desc) := [Some (mkDesc 0 false); Some (mkDesc 1 false); Some (mkDesc 2 false); Some (mkDesc 30 true); None; None; None; None].
  Definition run (env : list byte) : outcome * proc :=
    bfs_spawn access access opens directory allowed no_posix ["c"%byte] env (fold_left (set_up true) l (bfs_spawn_init true true)) me 100 101.
  Example runs : shown (run env_abs) = Some (["/"; "b"; "/"; "c"]%byte, after, 1, 10, false, false, false, before)
              /\ shown (run env_rel) = Some (["."; "/"; "c"]%byte, after, 1, 10, false, false, false, before).
  Proof. split; vm_compute; reflexivity. Qed.
  (** A descriptor that the pipe has must not be duplicated. *)
  Example no_duplicate : fst (bfs_spawn access access opens directory allowed no_posix ["c"%byte] env_abs (fold_left (set_up true) [Dup2 5 7] (bfs_spawn_init false true)) me 100 101) = Failed EBADF.
  Proof. vm_compute. reflexivity. Qed.
End Examples.
