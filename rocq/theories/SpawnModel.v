(** * Spawning processes: src/xspawn.c *)
From Coq Require Import List Bool Arith ZArith Init.Byte Strings.Byte.
Import ListNotations.

(** ** Processes, as far as they are used here *)

(** A file descriptor: an open file, and whether it has FD_CLOEXEC *)
Record desc := mkDesc { obj : nat; cloexec : bool }.
(** A process: its descriptors, working directory and resource limits, whether signals are blocked, whether
    the signal handlers of bfs are installed, and whether one of them may have been run in a child *)
Record proc := mkProc { fds : nat -> option desc; cwd : nat; limits : nat -> nat; blocked : bool; handled : bool; disturbed : bool }.

Inductive errno := EBADF | EMFILE | ENOENT | ENOTDIR | EPERM | EACCES | ENOMEM.
Inductive ret (A : Type) := Ok (a : A) | Err (e : errno).
Arguments Ok {A}. Arguments Err {A}.

(** The number of RLIMIT_NOFILE *)
Definition RLIMIT_NOFILE : nat := 7.

Definition set_fd (p : proc) (fd : nat) (d : option desc) : proc :=
  mkProc (fun i => if i =? fd then d else fds p i) (cwd p) (limits p) (blocked p) (handled p) (disturbed p).
(** Descriptors in arguments are ints. *)
Definition get_fd (p : proc) (fd : Z) : option desc := if (fd <? 0)%Z then None else fds p (Z.to_nat fd).

(** The lowest descriptor that is free *)
Definition lowest (p : proc) : option nat :=
  find (fun i => match fds p i with None => true | Some _ => false end) (seq 0 (limits p RLIMIT_NOFILE)).
Definition k_close (p : proc) (fd : Z) : ret proc :=
  match get_fd p fd with None => Err EBADF | Some _ => Ok (set_fd p (Z.to_nat fd) None) end.
Definition k_dup2 (p : proc) (old new : Z) : ret proc :=
  match get_fd p old with
  | None => Err EBADF
  | Some d =>
      if (new <? 0)%Z || (limits p RLIMIT_NOFILE <=? Z.to_nat new) then Err EBADF
      else if (old =? new)%Z then Ok p
      else Ok (set_fd p (Z.to_nat new) (Some (mkDesc (obj d) false)))
  end.
(** src/bfstd.c 673-689, [dup_cloexec], by F_DUPFD_CLOEXEC *)
Definition dup_cloexec (p : proc) (fd : nat) : ret (proc * nat) :=
  match fds p fd with
  | None => Err EBADF
  | Some d =>
      match lowest p with
      | None => Err EMFILE
      | Some new => Ok (set_fd p new (Some (mkDesc (obj d) true)), new)
      end
  end.
(** src/bfstd.c 691-707, [pipe_cloexec], by pipe2().  The ends of the pipe are new files. *)
Definition pipe_cloexec (p : proc) (rd wr : nat) : ret (proc * nat * nat) :=
  match lowest p with
  | None => Err EMFILE
  | Some r =>
      let p := set_fd p r (Some (mkDesc rd true)) in
      match lowest p with
      | None => Err EMFILE
      | Some w => Ok (set_fd p w (Some (mkDesc wr true)), r, w)
      end
  end.

(** ** What is asked for *)

(** The calls that set up what a child does *)
Inductive request :=
| Open (fd : nat) (path : list byte)
| Close (fd : nat)
| Dup2 (oldfd newfd : nat)
| Fchdir (fd : nat)
| Setrlimit (resource value : nat).

(** 33-70, [struct bfs_spawn_action] *)
Inductive op := SPAWN_OPEN (path : list byte) | SPAWN_CLOSE | SPAWN_DUP2 | SPAWN_FCHDIR | SPAWN_SETRLIMIT (resource value : nat).
Record action := mkAction { a_op : op; in_fd : Z; out_fd : Z }.
(** xspawn.h, [struct bfs_spawn].  [posix] is the posix_spawn_file_actions_t, if BFS_SPAWN_USE_POSIX is set. *)
Record spawn := mkSpawn { use_path : bool; posix : option (list request); actions : list action }.

Section Setup.
  (** Whether to use posix_spawn(), and whether it can do fchdir() *)
  Variables (has_posix has_fchdir : bool).

  (** 72-94; exec.c 367 sets BFS_SPAWN_USE_PATH *)
  Definition bfs_spawn_init (search : bool) : spawn := mkSpawn search (if has_posix then Some [] else None) [].
  (** 96-108 *)
  Definition clear_posix (c : spawn) : spawn := mkSpawn (use_path c) None (actions c).
  Definition add_posix (c : spawn) (q : request) : spawn :=
    mkSpawn (use_path c) (match posix c with Some l => Some (l ++ [q]) | None => None end) (actions c).
  (** SLIST_APPEND() *)
  Definition append (c : spawn) (a : action) : spawn := mkSpawn (use_path c) (posix c) (actions c ++ [a]).
  (** 142-154 *)
  Definition new_action (o : op) : action := mkAction o (-1) (-1).

  (** 156-178 *)
  Definition bfs_spawn_addopen (c : spawn) (fd : nat) (path : list byte) : spawn :=
    let a := new_action (SPAWN_OPEN path) in
    append (add_posix c (Open fd path)) (mkAction (a_op a) (in_fd a) (Z.of_nat fd)).
  (** 180-199 *)
  Definition bfs_spawn_addclose (c : spawn) (fd : nat) : spawn :=
    let a := new_action SPAWN_CLOSE in
    append (add_posix c (Close fd)) (mkAction (a_op a) (in_fd a) (Z.of_nat fd)).
  (** 201-221 *)
  Definition bfs_spawn_adddup2 (c : spawn) (oldfd newfd : nat) : spawn :=
    append (add_posix c (Dup2 oldfd newfd)) (mkAction SPAWN_DUP2 (Z.of_nat oldfd) (Z.of_nat newfd)).
  (** 235-262 *)
  Definition bfs_spawn_addfchdir (c : spawn) (fd : nat) : spawn :=
    let a := new_action SPAWN_FCHDIR in
    let c := if has_fchdir then add_posix c (Fchdir fd) else clear_posix c in
    append c (mkAction (a_op a) (Z.of_nat fd) (out_fd a)).
  (** 264-291, where there is no posix_spawnattr_setrlimit() *)
  Definition bfs_spawn_setrlimit (c : spawn) (resource value : nat) : spawn :=
    append (clear_posix c) (new_action (SPAWN_SETRLIMIT resource value)).

  (** A series of such calls *)
  Definition set_up (c : spawn) (q : request) : spawn :=
    match q with
    | Open fd path => bfs_spawn_addopen c fd path
    | Close fd => bfs_spawn_addclose c fd
    | Dup2 oldfd newfd => bfs_spawn_adddup2 c oldfd newfd
    | Fchdir fd => bfs_spawn_addfchdir c fd
    | Setrlimit r v => bfs_spawn_setrlimit c r v
    end.
End Setup.

(** ** Finding the executable *)

(** 293-309, [struct bfs_resolver].  [cap] is the size of the buffer. *)
Record resolver := mkRes { exe : list byte; rpath : list byte; cap : nat; done : bool }.

Definition slash : byte := "/"%byte.
Definition colon : byte := ":"%byte.
(** strchr() *)
Fixpoint strchr (s : list byte) (c : byte) : option (list byte) :=
  match s with
  | [] => None
  | x :: s' => if Byte.eqb x c then Some s else strchr s' c
  end.
(** 319-342.  [next] is what is left, or a null pointer.  The result is the first [len] bytes of [path], and the next [next]. *)
Definition bfs_resolve_next (next : option (list byte)) : option (list byte * option (list byte)) :=
  match next with
  | None => None
  | Some path =>
      let (len, next) := match strchr path colon with
                         | Some rest => (length path - length rest, Some (skipn 1 rest))
                         | None => (length path, None)
                         end in
      let (path, len) := if len =? 0 then (["."%byte], 1) else (path, len) in
      Some (firstn len path, next)
  end.
(** src/bfstd.c 437-449: what is in the buffer, or [None] if it was cut *)
Definition xstpencpy (cap : nat) (buf : option (list byte)) (src : list byte) : option (list byte) :=
  match buf with
  | None => None
  | Some l => if length src <? cap - length l then Some (l ++ src) else None
  end.

Section Resolve.
  (** faccessat(X_OK) in a working directory *)
  Variable access : nat -> list byte -> bool.

  (** 350-371, the loop *)
  Fixpoint resolve_loop (fuel : nat) (dir : nat) (cap : nat) (exe : list byte) (next : option (list byte)) : ret (list byte) :=
    match fuel with
    | O => Err ENOMEM
    | S fuel =>
        match bfs_resolve_next next with
        | None => Err ENOENT
        | Some (path, next) =>
            match xstpencpy cap (xstpencpy cap (xstpencpy cap (Some []) path) [slash]) exe with
            | None => Err ENOMEM
            | Some buf => if access dir buf then Ok buf else resolve_loop fuel dir cap exe next
            end
        end
    end.
  (** 344-375 *)
  Definition bfs_resolve_late (dir : nat) (r : resolver) : ret resolver :=
    if done r then Ok r
    else
      match resolve_loop (length (rpath r) + 2) dir (cap r) (exe r) (Some (rpath r)) with
      | Ok buf => Ok (mkRes buf (rpath r) (cap r) true)
      | Err e => Err e
      end.

  (** 377-388 *)
  Definition can_skip_resolve (exe : list byte) (c : spawn) : bool :=
    negb (use_path c) || match strchr exe slash with Some _ => true | None => false end.
  (** 390-402 *)
  Fixpoint resolve_relative (fuel : nat) (next : option (list byte)) : bool :=
    match fuel with
    | O => true
    | S fuel =>
        match bfs_resolve_next next with
        | None => false
        | Some (path, next) => if Byte.eqb (hd x00 path) slash then resolve_relative fuel next else true
        end
    end.
  (** 404-419 *)
  Definition can_resolve_early (path : list byte) (c : spawn) : bool :=
    if negb (resolve_relative (length path + 2) (Some path)) then true
    else negb (existsb (fun a => match a_op a with SPAWN_FCHDIR => true | _ => false end) (actions c)).
  (** 421-436 *)
  Fixpoint capacity_loop (fuel : nat) (max : nat) (next : option (list byte)) : nat :=
    match fuel with
    | O => max
    | S fuel =>
        match bfs_resolve_next next with
        | None => max
        | Some (path, next) => capacity_loop fuel (if max <? length path then length path else max) next
        end
    end.
  Definition resolve_capacity (path exe : list byte) : nat :=
    capacity_loop (length path + 2) 0 (Some path) + 1 + length exe + 1.

  (** 438-499, where posix_spawnp() searches after fchdir().  [env] is $PATH, or what confstr() says. *)
  Definition bfs_resolve_early (dir : nat) (exe : list byte) (env : list byte) (c : spawn) : ret resolver :=
    if can_skip_resolve exe c then
      if access dir exe then Ok (mkRes exe [] 0 true) else Err ENOENT
    else
      let can_finish := can_resolve_early env c in
      let use_posix := match posix c with Some _ => true | None => false end in
      if negb can_finish && use_posix then Ok (mkRes exe env 0 false)
      else
        let r := mkRes exe env (resolve_capacity env exe) false in
        if can_finish then bfs_resolve_late dir r else Ok r.
End Resolve.

(** ** Running it *)

(** How it ends: a process that starts to run an executable, or an error in the parent *)
Inductive outcome := Started (exe : list byte) (child : proc) | Failed (e : errno).

Section Run.
  Variable access : nat -> list byte -> bool.
  (** execve() would run this file *)
  Variable runnable : nat -> list byte -> bool.
  (** What open() opens, in a directory *)
  Variable opens : nat -> list byte -> option nat.
  (** The directory that an open file is *)
  Variable directory : nat -> option nat.
  (** Whether setrlimit() is allowed *)
  Variable allowed : nat -> nat -> bool.
  (** posix_spawn() and, with [true], posix_spawnp() *)
  Variable posix_spawn : bool -> list byte -> list request -> proc -> outcome.

  Definition set_cwd (p : proc) (d : nat) : proc := mkProc (fds p) d (limits p) (blocked p) (handled p) (disturbed p).
  Definition set_limit (p : proc) (r v : nat) : proc :=
    mkProc (fds p) (cwd p) (fun i => if i =? r then v else limits p i) (blocked p) (handled p) (disturbed p).
  Definition k_fchdir (p : proc) (fd : Z) : ret proc :=
    match get_fd p fd with
    | None => Err EBADF
    | Some d => match directory (obj d) with Some dir => Ok (set_cwd p dir) | None => Err ENOTDIR end
    end.
  Definition k_setrlimit (p : proc) (r v : nat) : ret proc := if allowed r v then Ok (set_limit p r v) else Err EPERM.
  Definition k_open (p : proc) (path : list byte) : ret (proc * nat) :=
    match opens (cwd p) path with
    | None => Err ENOENT
    | Some o => match lowest p with None => Err EMFILE | Some fd => Ok (set_fd p fd (Some (mkDesc o false)), fd) end
    end.

  (** 561-593 *)
  Definition run_op (p : proc) (a : action) : ret proc :=
    match a_op a with
    | SPAWN_OPEN path =>
        match k_open p path with
        | Err e => Err e
        | Ok (p, fd) => if (Z.of_nat fd =? out_fd a)%Z then Ok p else k_dup2 p (Z.of_nat fd) (out_fd a)
        end
    | SPAWN_CLOSE => k_close p (out_fd a)
    | SPAWN_DUP2 => k_dup2 p (in_fd a) (out_fd a)
    | SPAWN_FCHDIR => k_fchdir p (in_fd a)
    | SPAWN_SETRLIMIT r v => k_setrlimit p r v
    end.

  (** 545-553 *)
  Definition move_pipe (p : proc) (pipe1 : nat) (a : action) : ret (proc * nat) :=
    if (out_fd a =? Z.of_nat pipe1)%Z then
      match dup_cloexec p pipe1 with
      | Err e => Err e
      | Ok (p, fd) => Ok (set_fd p pipe1 None, fd)
      end
    else Ok (p, pipe1).
  (** 555-559, and the switch *)
  Definition run_action (p : proc) (pipe1 : nat) (a : action) : ret proc :=
    if (in_fd a =? Z.of_nat pipe1)%Z then Err EBADF else run_op p a.

  (** The child after its actions, or an error, with the process and the pipe to report it to *)
  Fixpoint run_actions (p : proc) (pipe1 : nat) (l : list action) : (proc * nat) * option errno :=
    match l with
    | [] => (p, pipe1, None)
    | a :: l =>
        match move_pipe p pipe1 a with
        | Err e => (p, pipe1, Some e)
        | Ok (p, pipe1) =>
            match run_action p pipe1 a with
            | Err e => (p, pipe1, Some e)
            | Ok p => run_actions p pipe1 l
            end
        end
    end.

  (** sighook.c, [sigreset] *)
  Definition sigreset (p : proc) : proc := mkProc (fds p) (cwd p) (limits p) (blocked p) false (disturbed p).
  (** pthread_sigmask(SIG_SETMASK); pending signals are delivered *)
  Definition set_mask (p : proc) (b : bool) : proc :=
    mkProc (fds p) (cwd p) (limits p) b (handled p) (disturbed p || (negb b && handled p)).
  (** execve() closes descriptors *)
  Definition exec_image (p : proc) : proc :=
    mkProc (fun i => match fds p i with Some d => if cloexec d then None else Some d | None => None end) (cwd p) (limits p) (blocked p) (handled p) (disturbed p).

  (** 537-623.  If it fails, the result is the file to which the error is written (if the pipe is open) and the error. *)
  Definition bfs_spawn_exec (r : resolver) (c : spawn) (p : proc) (mask : bool) (pipe0 pipe1 : nat) : (list byte * proc) + (option nat * errno) :=
    let p := set_fd p pipe0 None in
    let '(p, pipe1, failed) := run_actions p pipe1 (actions c) in
    let report e := inr (match fds p pipe1 with Some d => Some (obj d) | None => None end, e) in
    match failed with
    | Some e => report e
    | None =>
        match bfs_resolve_late access (cwd p) r with
        | Err e => report e
        | Ok r =>
            let p := set_mask (sigreset p) mask in
            if runnable (cwd p) (exe r) then inl (exe r, exec_image p) else report EACCES
        end
    end.

  (** 625-680.  [rd] and [wr] are the ends of the pipe.  If the child fails but nothing is written to the pipe, bfs
      does not notice: the child is [gone]. *)
  Definition gone (p : proc) : outcome := Started [] p.
  Definition bfs_fork_spawn (r : resolver) (c : spawn) (p : proc) (rd wr : nat) : outcome * proc :=
    match pipe_cloexec p rd wr with
    | Err e => (Failed e, p)
    | Ok (p, pipe0, pipe1) =>
        let old_mask := blocked p in
        let child := bfs_spawn_exec r c (mkProc (fds p) (cwd p) (limits p) true (handled p) (disturbed p)) old_mask pipe0 pipe1 in
        let parent := set_fd (set_fd p pipe1 None) pipe0 None in
        match child with
        | inl (exe, q) => (Started exe q, parent)
        | inr (Some o, e) => if o =? wr then (Failed e, parent) else (gone p, parent)
        | inr (None, _) => (gone p, parent)
        end
    end.

  (** 503-533 and 682-710; the error of posix_spawn() is returned. *)
  Definition bfs_spawn (exe0 : list byte) (env : list byte) (c : spawn) (p : proc) (rd wr : nat) : outcome * proc :=
    match bfs_resolve_early access (cwd p) exe0 env c with
    | Err e => (Failed e, p)
    | Ok r =>
        match posix c with
        | Some l => (posix_spawn (negb (done r)) (exe r) l p, p)
        | None => bfs_fork_spawn r c p rd wr
        end
    end.

  (** exec.c 362-382: -execdir and -exec *)
  Definition bfs_exec_spawn (has_posix has_fchdir : bool) (wd_fd : option nat) (nofile : option nat) (exe0 env : list byte) (p : proc) (rd wr : nat) : outcome * proc :=
    let c := bfs_spawn_init has_posix true in
    let c := match wd_fd with Some fd => bfs_spawn_addfchdir has_fchdir c fd | None => c end in
    let c := match nofile with Some v => bfs_spawn_setrlimit c RLIMIT_NOFILE v | None => c end in
    bfs_spawn exe0 env c p rd wr.
End Run.
