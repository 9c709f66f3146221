(** * What a spawned process should be *)
From Coq Require Import List Bool Arith Init.Byte Strings.Byte.
From Verif Require Import SpawnModel.
Import ListNotations.

(** ** The process *)

(** What the new program finds: open files, with whether exec closes them, the working directory and the limits *)
Record image := mkImage { files : nat -> option (nat * bool); dir : nat; lim : nat -> nat }.

Section Actions.
  Variable opens : nat -> list byte -> option nat.
  Variable directory : nat -> option nat.
  Variable allowed : nat -> nat -> bool.

  Definition put (w : image) (fd : nat) (f : option (nat * bool)) : image :=
    mkImage (fun i => if Nat.eq_dec i fd then f else files w i) (dir w) (lim w).

  (** What POSIX says about the actions of posix_spawn(): descriptors that are duplicated or opened stay open
      in the new program, and nothing else changes. *)
  Definition perform (w : image) (q : request) : option image :=
    match q with
    | Open fd path =>
        match opens (dir w) path with
        | Some o => if fd <? lim w RLIMIT_NOFILE then Some (put w fd (Some (o, false))) else None
        | None => None
        end
    | Close fd => match files w fd with Some _ => Some (put w fd None) | None => None end
    | Dup2 oldfd newfd =>
        match files w oldfd with
        | Some (o, _) => if newfd <? lim w RLIMIT_NOFILE then Some (put w newfd (Some (o, false))) else None
        | None => None
        end
    | Fchdir fd =>
        match files w fd with
        | Some (o, _) => match directory o with Some d => Some (mkImage (files w) d (lim w)) | None => None end
        | None => None
        end
    | Setrlimit r v => if allowed r v then Some (mkImage (files w) (dir w) (fun i => if Nat.eq_dec i r then v else lim w i)) else None
    end.
  Fixpoint performs (w : image) (l : list request) : option image :=
    match l with [] => Some w | q :: l => match perform w q with Some w => performs w l | None => None end end.
End Actions.

(** The open files after exec *)
Definition inherited (w : image) (fd : nat) : option nat := match files w fd with Some (o, false) => Some o | _ => None end.
(** A process as it is now *)
Definition image_of (p : proc) : image :=
  mkImage (fun i => match fds p i with Some d => Some (obj d, cloexec d) | None => None end) (cwd p) (limits p).

(** ** The program *)

(** The directories in $PATH; an empty one is the current directory. *)
Fixpoint split (s : list byte) : list (list byte) :=
  match s with
  | [] => [[]]
  | c :: s => if Byte.eqb c ":" then [] :: split s else match split s with x :: l => (c :: x) :: l | [] => [[c]] end
  end.
Definition components (path : list byte) : list (list byte) := map (fun x => match x with [] => ["."%byte] | _ => x end) (split path).
(** What a command may be: itself if there is a slash in it or if it is not to be searched for, otherwise files in these directories *)
Definition candidates (search : bool) (path cmd : list byte) : list (list byte) :=
  if search && negb (existsb (Byte.eqb "/") cmd) then map (fun d => d ++ "/"%byte :: cmd) (components path) else [cmd].

(** ** The result *)

Definition absolute (p : list byte) : Prop := exists q, p = "/"%byte :: q.

Section Right.
  Variable runnable : nat -> list byte -> bool.
  Variable opens : nat -> list byte -> option nat.
  Variable directory : nat -> option nat.
  Variable allowed : nat -> nat -> bool.

  (** The actions succeed, and then there is a program to be run in the directory that the process is in by then. *)
  Definition expected (search : bool) (path cmd : list byte) (l : list request) (p : proc) (w : image) (exe : list byte) : Prop :=
    performs opens directory allowed (image_of p) l = Some w /\ find (runnable (dir w)) (candidates search path cmd) = Some exe.

  (** A child process that was started is as it should be. *)
  Definition started_right (search : bool) (path cmd : list byte) (l : list request) (p : proc) (o : outcome) : Prop :=
    match o with
    | Failed _ => True
    | Started exe child =>
        exists w, expected search path cmd l p w exe /\
          (forall fd, fds child fd = match inherited w fd with Some o => Some (mkDesc o false) | None => None end) /\
          cwd child = dir w /\ (forall r, limits child r = lim w r) /\
          blocked child = blocked p /\ handled child = false /\ disturbed child = disturbed p
    end.
  (** It is started whenever that is possible. *)
  Definition started_possible (search : bool) (path cmd : list byte) (l : list request) (p : proc) (o : outcome) : Prop :=
    match o with
    | Failed _ => ~ exists w exe, expected search path cmd l p w exe
    | Started _ _ => True
    end.

  (** Nothing about the parent process changes. *)
  Definition unchanged (p p' : proc) : Prop :=
    (forall fd, fds p' fd = fds p fd) /\ cwd p' = cwd p /\ limits p' = limits p /\ blocked p' = blocked p /\ handled p' = handled p /\ disturbed p' = disturbed p.
End Right.

(** Requests that the fork() implementation handles as it should *)
Definition plain (q : request) : Prop := match q with Open _ _ => False | Dup2 a b => a <> b | _ => True end.

(** Room for the error-reporting pipe: descriptors from [n] on are not used, and at least two of them are allowed. *)
Definition roomy (n : nat) (p : proc) (l : list request) : Prop :=
  (forall fd, n <= fd -> fds p fd = None) /\ n + 2 <= limits p RLIMIT_NOFILE /\
  forall q, In q l -> match q with
                      | Open fd _ | Close fd | Fchdir fd => fd < n
                      | Dup2 a b => a < n /\ b < n
                      | Setrlimit r v => r = RLIMIT_NOFILE -> n + 2 <= v
                      end.

(** The system: what can be run can be accessed, and absolute paths mean the same in all directories. *)
Record sane (access runnable : nat -> list byte -> bool) : Prop := {
  sn_access : forall d p, runnable d p = true -> access d p = true;
  sn_absolute : forall d d' p, absolute p -> access d p = access d' p /\ runnable d p = runnable d' p }.

(** posix_spawn() and posix_spawnp() *)
Definition posix_right (runnable : nat -> list byte -> bool) opens directory allowed (path : list byte) (posix_spawn : bool -> list byte -> list request -> proc -> outcome) : Prop :=
  forall search cmd l p,
    started_right runnable opens directory allowed search path cmd l p (posix_spawn search cmd l p) /\
    started_possible runnable opens directory allowed search path cmd l p (posix_spawn search cmd l p).

(** No change of the working directory is asked for. *)
Definition stays (l : list request) : Prop := forall fd, ~ In (Fchdir fd) l.

(** What -exec and -execdir ask for: to change to the directory of the file, and to restore the limit on open files *)
Definition exec_requests (wd_fd nofile : option nat) : list request :=
  match wd_fd with Some fd => [Fchdir fd] | None => [] end ++ match nofile with Some v => [Setrlimit RLIMIT_NOFILE v] | None => [] end.
