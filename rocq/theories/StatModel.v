(** * Looking at files: bfs_stat() (src/stat.c), its cache and file types
    (src/bftw.c), -type and -xtype (src/eval.c)

    One visit of one file is modelled.  What the system knows of the file is given
    by the answers of fstatat() and statx(), with and without AT_SYMLINK_NOFOLLOW;
    they do not change during the visit.  Whiteouts do not exist on Linux and are
    left out. *)
From Coq Require Import List ZArith NArith Bool Init.Byte.
From Verif Require Import ModeModel.
Import ListNotations.
Local Open Scope Z_scope.

(** errno.h on Linux *)
Definition EPERM : Z := 1.
Definition ENOENT : Z := 2.
Definition ENOTDIR : Z := 20.
Definition ENOSYS : Z := 38.
Definition ELOOP : Z := 40.

(** [struct bfs_stat] (src/stat.h 85-128), as far as it matters here *)
Record stat := mkStat { st_mode : N; st_dev : Z; st_ino : Z }.

(** The outcome of a system call: a filled buffer, or errno *)
Inductive result := Good (s : stat) | Bad (error : Z).

(** src/stat.h 71-80; BFS_STAT_NOSYNC is left out *)
Inductive flags := BFS_STAT_FOLLOW | BFS_STAT_NOFOLLOW | BFS_STAT_TRYFOLLOW.

(** src/dir.h 37-62, with the types that Linux has *)
Inductive ftype := BFS_ERROR | BFS_UNKNOWN | BFS_BLK | BFS_CHR | BFS_DIR | BFS_FIFO | BFS_LNK | BFS_REG | BFS_SOCK.
Definition ftype_eqb (a b : ftype) : bool :=
  match a, b with
  | BFS_ERROR, BFS_ERROR | BFS_UNKNOWN, BFS_UNKNOWN | BFS_BLK, BFS_BLK | BFS_CHR, BFS_CHR | BFS_DIR, BFS_DIR
  | BFS_FIFO, BFS_FIFO | BFS_LNK, BFS_LNK | BFS_REG, BFS_REG | BFS_SOCK, BFS_SOCK => true
  | _, _ => false
  end.

(** src/dir.c 64-111 *)
Definition bfs_mode_to_type (mode : N) : ftype :=
  let t := N.land mode S_IFMT in
  if N.eqb t S_IFBLK then BFS_BLK
  else if N.eqb t S_IFCHR then BFS_CHR
  else if N.eqb t S_IFDIR then BFS_DIR
  else if N.eqb t S_IFIFO then BFS_FIFO
  else if N.eqb t S_IFLNK then BFS_LNK
  else if N.eqb t S_IFREG then BFS_REG
  else if N.eqb t S_IFSOCK then BFS_SOCK
  else BFS_UNKNOWN.

(** S_ISLNK *)
Definition S_ISLNK (mode : N) : bool := N.eqb (N.land mode S_IFMT) S_IFLNK.

(** src/bfstd.c 45-66.  The category ENOSYS looks at errno, which is [error] in
    all calls. *)
Definition error_is_like (error category : Z) : bool :=
  (error =? category)
  || (if category =? ENOENT then error =? ENOTDIR
      else if category =? ENOSYS then error =? EPERM
      else false).

Section System.
  (** fstatat() and statx(); the argument is whether AT_SYMLINK_NOFOLLOW is given. *)
  Variables sys_fstatat sys_statx : bool -> result.

  (** src/stat.c 287-304, bfs_stat_explicit; the second result is [has_statx] *)
  Definition bfs_stat_explicit (has_statx nofollow : bool) : result * bool :=
    if has_statx then
      match sys_statx nofollow with
      | Good s => (Good s, true)
      | Bad e => if error_is_like e ENOSYS then (sys_fstatat nofollow, false) else (Bad e, true)
      end
    else (sys_fstatat nofollow, false).

  (** src/stat.c 309-321, bfs_stat_tryfollow, and 323-332, bfs_stat with a path *)
  Definition bfs_stat (has_statx : bool) (fl : flags) : result * bool :=
    let nofollow := match fl with BFS_STAT_NOFOLLOW => true | _ => false end in
    let '(ret, has_statx) := bfs_stat_explicit has_statx nofollow in
    match ret, fl with
    | Bad e, BFS_STAT_TRYFOLLOW =>
        if error_is_like e ENOENT then bfs_stat_explicit has_statx true else (ret, has_statx)
    | _, _ => (ret, has_statx)
    end.

  (** ** The cache of one file, src/bftw.c 43-191 *)

  (** The buffers that pointers may point to: [state->stat_buf] and
      [state->lstat_buf] (src/bftw.c 859-862), and one from the arena, which the
      I/O queue has filled *)
  Inductive buffer := StatBuf | LstatBuf | AsyncBuf.
  Definition buffer_eqb (a b : buffer) : bool :=
    match a, b with
    | StatBuf, StatBuf | LstatBuf, LstatBuf | AsyncBuf, AsyncBuf => true
    | _, _ => false
    end.

  (** src/bftw.h, [struct bftw_stat]; errors are -1 if nothing is known. *)
  Record bufs := mkBufs { stat_buf : option buffer; stat_err : Z; lstat_buf : option buffer; lstat_err : Z }.

  (** 43-48 *)
  Definition bftw_stat_init (stat lstat : option buffer) : bufs := mkBufs stat (-1) lstat (-1).

  (** 51-61 *)
  Definition bftw_stat_fill (dest src : bufs) : bufs :=
    let dest := if (stat_err dest <? 0) && (stat_err src >=? 0)
      then mkBufs (stat_buf src) (stat_err src) (lstat_buf dest) (lstat_err dest) else dest in
    if (lstat_err dest <? 0) && (lstat_err src >=? 0)
    then mkBufs (stat_buf dest) (stat_err dest) (lstat_buf src) (lstat_err src) else dest.

  (** The contents of the buffers *)
  Definition memory := buffer -> stat.

  (** 64-88.  [None] is a null pointer that is used. *)
  Definition bftw_stat_cache (m : memory) (b : bufs) (fl : flags) (buf : option buffer) (err : Z) : option bufs :=
    let is_link := match buf with Some p => Some (S_ISLNK (st_mode (m p))) | None => None end in
    match fl with
    | BFS_STAT_NOFOLLOW =>
        let b' := mkBufs (stat_buf b) (stat_err b) buf err in
        if negb (err =? 0) then Some (mkBufs buf err buf err)
        else match is_link with
             | None => None
             | Some true => Some b'
             | Some false => Some (mkBufs buf err buf err)
             end
    | BFS_STAT_TRYFOLLOW =>
        if negb (err =? 0) then Some (mkBufs (stat_buf b) err (lstat_buf b) (lstat_err b))
        else match is_link with
             | None => None
             | Some true => Some (mkBufs (stat_buf b) ENOENT buf err)
             | Some false => Some (mkBufs buf err (lstat_buf b) (lstat_err b))
             end
    | BFS_STAT_FOLLOW => Some (mkBufs buf err (lstat_buf b) (lstat_err b))
    end.

  (** The part of [struct BFTW] (src/bftw.h 51-80) that is used here, with the
      memory and the static variable [has_statx] *)
  Record BFTW := mkBFTW { b_bufs : bufs; b_mem : memory; b_has_statx : bool }.

  (** What a call returns: a pointer, or null and errno *)
  Inductive ret := Found (p : buffer) | Failed (errno : Z).

  Definition store (m : memory) (p : buffer) (s : stat) : memory := fun q => if buffer_eqb p q then s else m q.

  (** 91-132, bftw_stat_impl; [None] is a null pointer that is used. *)
  Definition bftw_stat_impl (f : BFTW) (fl : flags) : option (ret * BFTW) :=
    let b := b_bufs f in
    let nofollow := match fl with BFS_STAT_NOFOLLOW => true | _ => false end in
    let '(buf, err) := if nofollow then (lstat_buf b, lstat_err b) else (stat_buf b, stat_err b) in
    if err =? 0 then match buf with Some p => Some (Found p, f) | None => None end
    else if err >? 0 then Some (Failed err, f)
    else
      match buf with
      | None => None
      | Some p =>
          let '(r, has) := bfs_stat (b_has_statx f) fl in
          match r with
          | Good s =>
              let m := store (b_mem f) p s in
              option_map (fun b => (Found p, mkBFTW b m has)) (bftw_stat_cache m b fl (Some p) 0)
          | Bad e =>
              option_map (fun b => (Failed e, mkBFTW b (b_mem f) has)) (bftw_stat_cache (b_mem f) b fl None e)
          end
      end.

  (** 134-148, bftw_stat *)
  Definition bftw_stat (f : BFTW) (fl : flags) : option (ret * BFTW) :=
    match fl with
    | BFS_STAT_TRYFOLLOW =>
        match bftw_stat_impl f BFS_STAT_FOLLOW with
        | None => None
        | Some (Failed e, f) =>
            if error_is_like e ENOENT then bftw_stat_impl f BFS_STAT_NOFOLLOW else Some (Failed e, f)
        | Some r => Some r
        end
    | _ => bftw_stat_impl f fl
    end.

  (** 150-166, bftw_cached_stat *)
  Definition bftw_cached_stat (f : BFTW) (fl : flags) : option buffer :=
    let b := b_bufs f in
    let lstat := if lstat_err b =? 0 then lstat_buf b else None in
    match fl with
    | BFS_STAT_NOFOLLOW => lstat
    | BFS_STAT_FOLLOW => if stat_err b =? 0 then stat_buf b else None
    | BFS_STAT_TRYFOLLOW =>
        if stat_err b =? 0 then stat_buf b
        else if error_is_like (stat_err b) ENOENT then lstat else None
    end.

  (** ** Types *)

  (** 1412-1423, bftw_stat_flags; the flags are BFTW_FOLLOW_ROOTS and BFTW_FOLLOW_ALL. *)
  Definition bftw_stat_flags (follow_roots follow_all : bool) (depth : nat) : flags :=
    if follow_all || (match depth with O => follow_roots | _ => false end) then BFS_STAT_TRYFOLLOW else BFS_STAT_NOFOLLOW.

  (** 1426-1452, bftw_must_stat.  [always] is BFTW_STAT, [dirs] any of
      BFTW_DETECT_CYCLES, BFTW_SKIP_MOUNTS and BFTW_PRUNE_MOUNTS, and [mount] the
      answer of bfs_might_be_mount(). *)
  Definition bftw_must_stat (always dirs mount : bool) (stat_flags : flags) (type : ftype) : bool :=
    always ||
    match type with
    | BFS_UNKNOWN => true
    | BFS_DIR => dirs
    | BFS_LNK => match stat_flags with BFS_STAT_NOFOLLOW => mount | _ => true end
    | _ => mount
    end.

  (** 1732-1741, the part of bftw_init_ftwbuf that finds the type; the first result
      is [ftwbuf->type] and the second [ftwbuf->error]. *)
  Definition init_type (must_stat : bool) (stat_flags : flags) (type : ftype) (f : BFTW) : option (ftype * Z * BFTW) :=
    if must_stat then
      match bftw_stat f stat_flags with
      | None => None
      | Some (Found p, f) => Some (bfs_mode_to_type (st_mode (b_mem f p)), 0, f)
      | Some (Failed e, f) => Some (BFS_ERROR, e, f)
      end
    else Some (type, 0, f).

  (** 168-191, bftw_type.  The second result is errno, if it is set. *)
  Definition bftw_type (stat_flags : flags) (type : ftype) (f : BFTW) (fl : flags) : option (ftype * option Z * BFTW) :=
    let look :=
      match bftw_stat f fl with
      | None => None
      | Some (Found p, f) => Some (bfs_mode_to_type (st_mode (b_mem f p)), None, f)
      | Some (Failed e, f) => Some (BFS_ERROR, Some e, f)
      end in
    match fl with
    | BFS_STAT_NOFOLLOW =>
        if ftype_eqb type BFS_LNK || match stat_flags with BFS_STAT_NOFOLLOW => true | _ => false end
        then Some (type, None, f) else look
    | BFS_STAT_TRYFOLLOW =>
        if negb (ftype_eqb type BFS_LNK) || match stat_flags with BFS_STAT_TRYFOLLOW => true | _ => false end
        then Some (type, None, f) else look
    | BFS_STAT_FOLLOW =>
        if negb (ftype_eqb type BFS_LNK) then Some (type, None, f)
        else match stat_flags with BFS_STAT_TRYFOLLOW => Some (BFS_ERROR, None, f) | _ => look end
    end.

  (** src/eval.c 986-988; the argument of -type is a set of types. *)
  Definition eval_type (types : ftype -> bool) (type : ftype) : bool := types type.

  (** The answer of a test: [Report] means that an error is reported, and the test is false. *)
  Inductive answer := Answer (b : bool) | Report.

  (** src/eval.c 1019-1037.  [errno] is its value before. *)
  Definition eval_xtype (types : ftype -> bool) (stat_flags : flags) (type : ftype) (f : BFTW) (errno : Z)
    : option (answer * BFTW) :=
    let fl := match stat_flags with
              | BFS_STAT_NOFOLLOW => BFS_STAT_TRYFOLLOW
              | _ => BFS_STAT_NOFOLLOW
              end in
    match bftw_type stat_flags type f fl with
    | None => None
    | Some (type, e, f) =>
        let errno := match e with Some e => e | None => errno end in
        let type := if (match fl with BFS_STAT_TRYFOLLOW => true | _ => false end)
                       && ftype_eqb type BFS_ERROR && (errno =? ELOOP)
                    then BFS_LNK else type in
        Some (if ftype_eqb type BFS_ERROR then Report else Answer (types type), f)
    end.
End System.

(** ** Cycles *)

(** What bftw_save_ftwbuf (src/bftw.c 1978-1986) keeps of a directory, and its path *)
Record ancestor := mkAncestor { a_dev : Z; a_ino : Z; a_nameoff : nat; a_namelen : nat }.

(** src/bftw.c 1743-1752; the ancestors from the parent up.  The result is
    [ftwbuf->loopoff]. *)
Fixpoint find_loop (s : stat) (ancestors : list ancestor) : option nat :=
  match ancestors with
  | [] => None
  | a :: rest =>
      if (a_dev a =? st_dev s) && (a_ino a =? st_ino s) then Some (a_nameoff a + a_namelen a)%nat
      else find_loop s rest
  end.

(** What is kept of the directories above a file, given their names and numbers
    from the parent up: the offsets come from bftw_child_nameoff (src/bftw.c
    700-706, 719-758). *)
Fixpoint kept (l : list (list byte * (Z * Z))) : list ancestor :=
  match l with
  | [] => []
  | (name, (dev, ino)) :: up =>
      let above := kept up in
      let nameoff :=
        match up, above with
        | (parent, _) :: _, a :: _ =>
            let ret := (a_nameoff a + a_namelen a)%nat in
            match rev parent with
            | c :: _ => if Byte.eqb c "/" then ret else S ret
            | [] => ret
            end
        | _, _ => O
        end in
      mkAncestor dev ino nameoff (length name) :: above
  end.
