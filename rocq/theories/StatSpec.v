(** * What -P, -H and -L mean for what is seen of a file *)
From Coq Require Import List ZArith NArith Bool Init.Byte.
From Verif Require Import ModeModel StatModel WalkSpec.
From Verif Require BftwModel.
Import ListNotations.
Local Open Scope Z_scope.

(** What lstat() and stat() say of a file *)
Record facts := mkFacts { at_link : result; at_target : result }.

Definition kind (r : result) : ftype := match r with Good s => bfs_mode_to_type (st_mode s) | Bad _ => BFS_ERROR end.

(** The two agree unless the file is a symbolic link, and stat() never says that it is one. *)
Definition consistent (w : facts) : Prop :=
  (forall s, at_link w = Good s -> kind (Good s) <> BFS_LNK -> at_target w = Good s) /\
  (forall e, at_link w = Bad e -> at_target w = Bad e) /\
  (forall s, at_target w = Good s -> kind (Good s) <> BFS_LNK) /\
  (forall e, at_link w = Bad e \/ at_target w = Bad e -> e > 0).

(** The system calls tell these facts, but statx() may be missing or forbidden. *)
Definition tells (sys_fstatat sys_statx : bool -> result) (w : facts) : Prop :=
  sys_fstatat true = at_link w /\ sys_fstatat false = at_target w /\
  forall b, sys_statx b = sys_fstatat b \/ sys_statx b = Bad ENOSYS \/ sys_statx b = Bad EPERM.

(** Errors that say that the target of a link does not exist *)
Definition missing (e : Z) : Prop := e = ENOENT \/ e = ENOTDIR.

(** What should be seen *)
Definition meant (w : facts) (fl : flags) (r : result) : Prop :=
  match fl with
  | BFS_STAT_NOFOLLOW => r = at_link w
  | BFS_STAT_FOLLOW => r = at_target w
  | BFS_STAT_TRYFOLLOW =>
      (exists s, at_target w = Good s /\ r = Good s) \/
      (exists e, at_target w = Bad e /\ missing e /\ r = at_link w) \/
      (exists e, at_target w = Bad e /\ ~ missing e /\ r = Bad e)
  end.

(** The same, up to the error number for a missing file *)
Definition meant_like (w : facts) (fl : flags) (r : result) : Prop :=
  meant w fl r \/ exists e e', r = Bad e /\ missing e /\ missing e' /\ meant w fl (Bad e').

(** A request to the I/O queue has been answered: by a thread, with bfs_stat(), or
    by io_uring, which does not retry (src/ioq.c 840-852). *)
Definition answered (w : facts) (fl : flags) (r : result) : Prop :=
  meant w fl r \/ fl = BFS_STAT_TRYFOLLOW /\ r = at_target w.

(** The state at the beginning of a visit: nothing is known of the file, or what
    the I/O queue has found out (src/bftw.c 1045-1053, 1695-1713) *)
Inductive fresh (w : facts) : BFTW -> Prop :=
| Unseen m has : fresh w (mkBFTW
    (bftw_stat_fill (bftw_stat_init (Some StatBuf) (Some LstatBuf)) (bftw_stat_init None None)) m has)
| Seen m has fl s b : answered w fl (Good s) -> m AsyncBuf = s -> fl <> BFS_STAT_FOLLOW ->
    bftw_stat_cache m (bftw_stat_init None None) fl (Some AsyncBuf) 0 = Some b ->
    fresh w (mkBFTW (bftw_stat_fill (bftw_stat_init (Some StatBuf) (Some LstatBuf)) b) m has)
| Unseeable m has fl e b : answered w fl (Bad e) -> fl <> BFS_STAT_FOLLOW ->
    bftw_stat_cache m (bftw_stat_init None None) fl None e = Some b ->
    fresh w (mkBFTW (bftw_stat_fill (bftw_stat_init (Some StatBuf) (Some LstatBuf)) b) m has).

(** A series of calls of bftw_stat() *)
Fixpoint calls (sys_fstatat sys_statx : bool -> result) (f : BFTW) (l : list flags) : option (list ret * BFTW) :=
  match l with
  | [] => Some ([], f)
  | fl :: l =>
      match bftw_stat sys_fstatat sys_statx f fl with
      | None => None
      | Some (r, f) => option_map (fun '(rs, f) => (r :: rs, f)) (calls sys_fstatat sys_statx f l)
      end
  end.

(** What a returned pointer shows, later *)
Definition shows (f : BFTW) (r : ret) : result := match r with Found p => Good (b_mem f p) | Failed e => Bad e end.

(** The type that readdir() gave, which may be unknown, or that of what something is mounted on *)
Definition hint (w : facts) (mount : bool) (type : ftype) : Prop :=
  type = BFS_UNKNOWN \/ type = kind (at_link w) \/ mount = true /\ type <> BFS_DIR.

(** ** Directories as a graph *)

(** A directory is known by its device and inode number; an entry, with symbolic
    links followed, may be a directory or something else. *)
Definition id := (Z * Z)%type.
Inductive what := Dir (i : id) | Other.
Definition id_eqb (i j : id) : bool := (fst i =? fst j) && (snd i =? snd j).

(** What -xtype looks at: with -P what a link points to, otherwise the link itself *)
Definition other (fl : flags) : flags := match fl with BFS_STAT_NOFOLLOW => BFS_STAT_TRYFOLLOW | _ => BFS_STAT_NOFOLLOW end.
(** The answer of -xtype: a link that points to itself counts as a link. *)
Definition xtype_answer (types : ftype -> bool) (fl : flags) (r : result) : answer :=
  match r, fl with
  | Good s, _ => Answer (types (kind r))
  | Bad e, BFS_STAT_NOFOLLOW => if e =? ELOOP then Answer (types BFS_LNK) else Report
  | Bad _, _ => Report
  end.

Section Graph.
  Variable contents : id -> list (list byte * what).
  Variable roots : list (list byte * what).
  (** Directories that can not be read completely *)
  Variable trouble : id -> bool.

  (** The file at a position, when all links are followed *)
  Fixpoint entry (p : BftwModel.pos) : option (list byte * what) :=
    match p with
    | [] => None
    | [k] => nth_error roots k
    | k :: q => match entry q with Some (_, Dir i) => nth_error (contents i) k | _ => None end
    end.

  (** The file at a position, and the directories above it, the nearest first.
      Nothing is below a directory that is the same as one above it. *)
  Fixpoint resolve (p : BftwModel.pos) : option (list byte * what * list id) :=
    match p with
    | [] => None
    | [k] => option_map (fun e => (e, [])) (nth_error roots k)
    | k :: q =>
        match resolve q with
        | Some (_, Dir i, above) =>
            if existsb (id_eqb i) above then None
            else option_map (fun e => (e, i :: above)) (nth_error (contents i) k)
        | _ => None
        end
    end.

  (** All directories that can be found are among finitely many, and have names. *)
  Definition finite (dirs : list id) : Prop :=
    (forall nm i, In (nm, Dir i) roots -> In i dirs) /\
    (forall j nm i, In j dirs -> In (nm, Dir i) (contents j) -> In i dirs).
  Definition proper : Prop :=
    (forall nm i, In (nm, Dir i) roots -> nm <> []) /\
    (forall j nm i, In (nm, Dir i) (contents j) -> nm <> []).

  (** What a walk would see down to the depth [n], without any check for cycles *)
  Fixpoint grow (n : nat) (e : list byte * what) : tree BftwModel.info :=
    let '(nm, x) := e in
    Node {| BftwModel.name := nm; BftwModel.broken := match x with Dir i => trouble i | Other => false end |}
      (match n, x with S n, Dir i => map (grow n) (contents i) | _, _ => [] end).

  (** The directories from a position up *)
  Fixpoint from (p : BftwModel.pos) : list (list byte * id) :=
    match p with
    | [] => []
    | _ :: q => match entry p with Some (nm, Dir i) => (nm, i) :: from q | _ => [] end
    end.
  (** What the check for cycles finds *)
  Definition loopoff (p : BftwModel.pos) : option nat :=
    match entry p with
    | Some (_, Dir i) => find_loop (mkStat S_IFDIR (fst i) (snd i)) (kept (from (tl p)))
    | _ => None
    end.

  (** A walk that follows all links and checks for cycles *)
  Definition follows {U} (n : nat) (w : BftwModel.env U) : Prop :=
    BftwModel.roots w = map (grow n) roots /\
    forall t p, match entry p with
                | Some (_, Dir _) =>
                    BftwModel.look w t p = match loopoff p with Some _ => BftwModel.BFS_ERROR | None => BftwModel.BFS_DIR end
                | _ => BftwModel.look w t p <> BftwModel.BFS_DIR
                end.
End Graph.
