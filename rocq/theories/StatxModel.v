(** * Reading metadata: src/stat.c 62-371 and xmakedev(), as built for Linux with statx() *)
From Coq Require Import List NArith ZArith Bool.
Import ListNotations.

(** Values of errno *)
Definition EPERM : N := 1.
Definition ENOENT : N := 2.
Definition ENOTDIR : N := 20.
Definition ENOSYS : N := 38.
Definition ENOTSUP : N := 95.
Definition EINVAL : N := 22.

(** Flags of system calls *)
Definition AT_SYMLINK_NOFOLLOW : N := 0x100.
Definition AT_NO_AUTOMOUNT : N := 0x800.
Definition AT_EMPTY_PATH : N := 0x1000.
Definition AT_STATX_DONT_SYNC : N := 0x4000.

(** Bits of stx_mask *)
Definition STATX_ATIME : N := 0x20.
Definition STATX_MTIME : N := 0x40.
Definition STATX_CTIME : N := 0x80.
Definition STATX_BASIC_STATS : N := 0x7ff.
Definition STATX_BTIME : N := 0x800.
Definition STATX_MNT_ID : N := 0x1000.
Definition STATX_MNT_ID_UNIQUE : N := 0x4000.

(** src/stat.h 45-61, [enum bfs_stat_field] *)
Definition BFS_STAT_MODE : N := 0x1.
Definition BFS_STAT_DEV : N := 0x2.
Definition BFS_STAT_INO : N := 0x4.
Definition BFS_STAT_NLINK : N := 0x8.
Definition BFS_STAT_GID : N := 0x10.
Definition BFS_STAT_UID : N := 0x20.
Definition BFS_STAT_SIZE : N := 0x40.
Definition BFS_STAT_BLOCKS : N := 0x80.
Definition BFS_STAT_RDEV : N := 0x100.
Definition BFS_STAT_ATTRS : N := 0x200.
Definition BFS_STAT_ATIME : N := 0x400.
Definition BFS_STAT_BTIME : N := 0x800.
Definition BFS_STAT_CTIME : N := 0x1000.
Definition BFS_STAT_MTIME : N := 0x2000.
Definition BFS_STAT_MNT_ID : N := 0x4000.

(** src/stat.h 71-80, [enum bfs_stat_flags] *)
Definition BFS_STAT_NOFOLLOW : N := 1.
Definition BFS_STAT_TRYFOLLOW : N := 2.
Definition BFS_STAT_NOSYNC : N := 4.

Definition has (x f : N) : bool := negb (N.land x f =? 0)%N.

Record timespec := mkTime { tv_sec : Z; tv_nsec : Z }.

(** [struct stat], as far as it is used *)
Record stat := mkStat {
  st_mode : N; st_dev : N; st_ino : N; st_nlink : N; st_gid : N; st_uid : N; st_size : Z; st_blocks : Z; st_rdev : N;
  st_atim : timespec; st_ctim : timespec; st_mtim : timespec }.

(** [struct statx], as far as it is used *)
Record statx := mkStatx {
  stx_mask : N; stx_mode : N; stx_dev_major : N; stx_dev_minor : N; stx_ino : N; stx_nlink : N; stx_gid : N; stx_uid : N;
  stx_size : N; stx_blocks : N; stx_rdev_major : N; stx_rdev_minor : N; stx_attributes : N; stx_mnt_id : N;
  stx_atime : timespec; stx_btime : timespec; stx_ctime : timespec; stx_mtime : timespec }.

(** src/stat.h 85-121, [struct bfs_stat].  [None] is an indeterminate value. *)
Record bfs_stat := mkBuf {
  mask : N; mode : N; dev : N; ino : N; nlink : N; gid : N; uid : N; size : Z; blocks : Z; rdev : N; mnt_id : N;
  attrs : option N; atime : option timespec; btime : option timespec; ctime : option timespec; mtime : option timespec }.

(** src/bfstd.c 613-621, with makedev() of the GNU C library *)
Definition xmakedev (ma mi : N) : N :=
  N.lor (N.lor (N.lor (N.shiftl (N.land ma 0x00000fff) 8) (N.shiftl (N.land ma 0xfffff000) 32)) (N.land mi 0x000000ff))
        (N.shiftl (N.land mi 0xffffff00) 12).

(** Conversion of a 64-bit number to off_t or blkcnt_t *)
Definition to_signed (n : N) : Z := let z := Z.of_N n in (if (z <? 2 ^ 63)%Z then z else z - 2 ^ 64)%Z.

(** src/stat.c 62-74 *)
Definition bfs_fstatat_flags (flags : N) : N :=
  let ret := 0%N in
  let ret := if has flags BFS_STAT_NOFOLLOW then N.lor ret AT_SYMLINK_NOFOLLOW else ret in
  N.lor ret AT_NO_AUTOMOUNT.

(** src/stat.c 76-134: there are neither flags nor birth times in [struct stat] on Linux. *)
Definition bfs_stat_convert (src : stat) : bfs_stat :=
  let mask := 0%N in
  let mask := N.lor mask BFS_STAT_MODE in
  let mask := N.lor mask BFS_STAT_DEV in
  let mask := N.lor mask BFS_STAT_INO in
  let mask := N.lor mask BFS_STAT_NLINK in
  let mask := N.lor mask BFS_STAT_GID in
  let mask := N.lor mask BFS_STAT_UID in
  let mask := N.lor mask BFS_STAT_SIZE in
  let mask := N.lor mask BFS_STAT_BLOCKS in
  let mask := N.lor mask BFS_STAT_RDEV in
  let mask := N.lor mask BFS_STAT_MNT_ID in
  let mask := N.lor mask BFS_STAT_ATIME in
  let mask := N.lor mask BFS_STAT_CTIME in
  let mask := N.lor mask BFS_STAT_MTIME in
  mkBuf mask (st_mode src) (st_dev src) (st_ino src) (st_nlink src) (st_gid src) (st_uid src) (st_size src) (st_blocks src) (st_rdev src)
        (st_dev src) None (Some (st_atim src)) None (Some (st_ctim src)) (Some (st_mtim src)).

(** src/stat.c 168-176 *)
Definition bfs_statx_flags (flags : N) : N :=
  let ret := bfs_fstatat_flags flags in
  if has flags BFS_STAT_NOSYNC then N.lor ret AT_STATX_DONT_SYNC else ret.

(** src/stat.c 178-187 *)
Definition bfs_statx_mask : N := N.lor (N.lor (N.lor STATX_BASIC_STATS STATX_BTIME) STATX_MNT_ID) STATX_MNT_ID_UNIQUE.

(** src/stat.c 189-266: [inr] is the error *)
Definition bfs_statx_convert (src : statx) : bfs_stat + N :=
  let guaranteed := N.ldiff STATX_BASIC_STATS (N.lor (N.lor STATX_ATIME STATX_CTIME) STATX_MTIME) in
  if negb (N.land (stx_mask src) guaranteed =? guaranteed)%N then inr ENOTSUP
  else
    let mask := 0%N in
    let mask := N.lor mask BFS_STAT_MODE in
    let dev := xmakedev (stx_dev_major src) (stx_dev_minor src) in
    let mask := N.lor mask BFS_STAT_DEV in
    let mask := N.lor mask BFS_STAT_INO in
    let mask := N.lor mask BFS_STAT_NLINK in
    let mask := N.lor mask BFS_STAT_GID in
    let mask := N.lor mask BFS_STAT_UID in
    let mask := N.lor mask BFS_STAT_SIZE in
    let mask := N.lor mask BFS_STAT_BLOCKS in
    let rdev := xmakedev (stx_rdev_major src) (stx_rdev_minor src) in
    let mask := N.lor mask BFS_STAT_RDEV in
    let mask := N.lor mask BFS_STAT_ATTRS in
    let mnt_id := dev in
    let mnt_mask := N.lor STATX_MNT_ID STATX_MNT_ID_UNIQUE in
    let mnt_id := if has (stx_mask src) mnt_mask then stx_mnt_id src else mnt_id in
    let mask := N.lor mask BFS_STAT_MNT_ID in
    let '(atime, mask) := if has (stx_mask src) STATX_ATIME then (Some (stx_atime src), N.lor mask BFS_STAT_ATIME) else (None, mask) in
    let '(btime, mask) := if has (stx_mask src) STATX_BTIME then (Some (stx_btime src), N.lor mask BFS_STAT_BTIME) else (None, mask) in
    let '(ctime, mask) := if has (stx_mask src) STATX_CTIME then (Some (stx_ctime src), N.lor mask BFS_STAT_CTIME) else (None, mask) in
    let '(mtime, mask) := if has (stx_mask src) STATX_MTIME then (Some (stx_mtime src), N.lor mask BFS_STAT_MTIME) else (None, mask) in
    inl (mkBuf mask (stx_mode src) dev (stx_ino src) (stx_nlink src) (stx_gid src) (stx_uid src) (to_signed (stx_size src))
               (to_signed (stx_blocks src)) rdev mnt_id (Some (stx_attributes src)) atime btime ctime mtime).

(** src/bfstd.c 45-66, for the two categories that are used *)
Definition error_is_like (error category : N) : bool :=
  if (error =? category)%N then true
  else if (category =? ENOENT)%N then (error =? ENOTDIR)%N
  else if (category =? ENOSYS)%N then (error =? EPERM)%N
  else false.

Section System.
  (** The system calls, for one descriptor.  [None] is the empty path. *)
  Variable path : Type.
  Variable sys_fstatat : option path -> N -> stat + N.
  Variable sys_statx : option path -> N -> N -> statx + N.

  (** src/stat.c 139-146 *)
  Definition bfs_stat_impl (at_path : option path) (at_flags : N) : bfs_stat + N :=
    match sys_fstatat at_path at_flags with
    | inl statbuf => inl (bfs_stat_convert statbuf)
    | inr e => inr e
    end.

  (** src/stat.c 271-280 *)
  Definition bfs_statx_impl (at_path : option path) (at_flags : N) : bfs_stat + N :=
    match sys_statx at_path at_flags bfs_statx_mask with
    | inl xbuf => bfs_statx_convert xbuf
    | inr e => inr e
    end.

  (** src/stat.c 287-304, with [has_statx] *)
  Definition bfs_stat_explicit (has_statx : bool) (at_path : option path) (at_flags : N) : (bfs_stat + N) * bool :=
    let fallback has_statx := (bfs_stat_impl at_path (N.ldiff at_flags AT_STATX_DONT_SYNC), has_statx) in
    if has_statx then
      match bfs_statx_impl at_path at_flags with
      | inr e => if error_is_like e ENOSYS then fallback false else (inr e, true)
      | ret => (ret, true)
      end
    else fallback false.

  (** src/stat.c 309-321 *)
  Definition bfs_stat_tryfollow (has_statx : bool) (at_path : option path) (at_flags bfs_flags : N) : (bfs_stat + N) * bool :=
    match bfs_stat_explicit has_statx at_path at_flags with
    | (inr e, has_statx) =>
        if (N.land bfs_flags (N.lor BFS_STAT_NOFOLLOW BFS_STAT_TRYFOLLOW) =? BFS_STAT_TRYFOLLOW)%N && error_is_like e ENOENT then
          bfs_stat_explicit has_statx at_path (N.lor at_flags AT_SYMLINK_NOFOLLOW)
        else (inr e, has_statx)
    | ret => ret
    end.

  (** src/stat.c 323-349.  The outer [None] is NULL: the descriptor itself. *)
  Definition bfs_stat_call (has_statx : bool) (at_path : option (option path)) (flags : N) : (bfs_stat + N) * bool :=
    let at_flags := bfs_statx_flags flags in
    match at_path with
    | Some at_path => bfs_stat_tryfollow has_statx at_path at_flags flags
    | None => bfs_stat_explicit has_statx None (N.lor at_flags AT_EMPTY_PATH)
    end.
End System.

(** src/stat.c 351-371: [None] is a null pointer with ENOTSUP; for other fields, it is a bug *)
Definition bfs_stat_time (buf : bfs_stat) (field : N) : option (option timespec) :=
  if negb (has (mask buf) field) then None
  else if (field =? BFS_STAT_ATIME)%N then Some (atime buf)
  else if (field =? BFS_STAT_BTIME)%N then Some (btime buf)
  else if (field =? BFS_STAT_CTIME)%N then Some (ctime buf)
  else if (field =? BFS_STAT_MTIME)%N then Some (mtime buf)
  else None.

(** Any number of calls, each with what the system answers at that time *)
Record call := mkCall {
  c_path : Type; c_fstatat : option c_path -> N -> stat + N; c_statx : option c_path -> N -> N -> statx + N;
  c_at : option (option c_path); c_flags : N }.
Fixpoint calls (has_statx : bool) (l : list call) : list (bfs_stat + N) :=
  match l with
  | [] => []
  | c :: l =>
      let '(r, has_statx) := bfs_stat_call (c_path c) (c_fstatat c) (c_statx c) has_statx (c_at c) (c_flags c) in
      r :: calls has_statx l
  end.
