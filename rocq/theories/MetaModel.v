(** * Tests on what stat() says about a file

    src/parse.c and src/eval.c: -user, -group, -uid, -gid, -nouser, -nogroup, -inum, -links, -samefile, -sparse, -flags, -type and -empty. *)
From Coq Require Import List NArith ZArith Bool Init.Byte.
From Verif Require Import NumModel.
Import ListNotations.
Local Open Scope Z_scope.

(** [struct bfs_stat], on 64-bit Linux: [ino], [nlink] and [dev] are unsigned with 64 bits, [uid] and [gid] with 32 bits, [size] and [blocks] are signed with 64 bits.
    [attrs] is [None] unless the mask has BFS_STAT_ATTRS (src/stat.h 84-120). *)
Record bfs_stat := mkStat { dev : Z; ino : Z; nlink : Z; uid : Z; gid : Z; size : Z; blocks : Z; attrs : option N }.

(** What looking up a user or a group gives (src/pwcache.c, C38): its number, nothing, or an error *)
Inductive lookup := Found (id : Z) | Missing | Failed.

(** The result of a test, and whether it reports an error *)
Definition outcome : Type := bool * bool.

(** The conversion from an unsigned 64-bit number to [long long], for the argument of bfs_expr_cmp() *)
Definition to_long_long (n : Z) : Z := if n <? 2 ^ 63 then n else n - 2 ^ 64.

(** ** Parsing *)
Inductive parse_error := No_such | Lookup_error | Bad_number.

(** src/parse.c 1555-1579, and 1512-1536 for -group and -gid: [getnam] is bfs_getpwnam() or bfs_getgrnam(). *)
Definition parse_user (isspace : byte -> bool) (getnam : list byte -> lookup) (arg : list byte) : int_cmp * Z + parse_error :=
  match getnam arg with
  | Found id => inl (BFS_INT_EQUAL, id)
  | r =>
      if looks_like_icmp arg then
        match parse_icmp isspace false arg with
        | inl (cmp, n, _) => inl (cmp, n)
        | inr _ => inr Bad_number
        end
      else match r with Failed => inr Lookup_error | _ => inr No_such end
  end.

(** src/dir.h 37-62; BFS_ERROR is -1 *)
Definition BFS_UNKNOWN : N := 0.
Definition BFS_BLK : N := 1.
Definition BFS_CHR : N := 2.
Definition BFS_DIR : N := 3.
Definition BFS_DOOR : N := 4.
Definition BFS_FIFO : N := 5.
Definition BFS_LNK : N := 6.
Definition BFS_PORT : N := 7.
Definition BFS_REG : N := 8.
Definition BFS_SOCK : N := 9.
Definition BFS_WHT : N := 10.

(** src/parse.c 2497-2525: the type of one letter, and whether BFTW_WHITEOUTS is set *)
Definition type_flag (c : byte) : option (N * bool) :=
  match c with
  | "b" => Some (BFS_BLK, false)
  | "c" => Some (BFS_CHR, false)
  | "d" => Some (BFS_DIR, false)
  | "D" => Some (BFS_DOOR, false)
  | "p" => Some (BFS_FIFO, false)
  | "f" => Some (BFS_REG, false)
  | "l" => Some (BFS_LNK, false)
  | "s" => Some (BFS_SOCK, false)
  | "w" => Some (BFS_WHT, true)
  | _ => None
  end%byte.

(** src/parse.c 2496-2546: the mask, and whether whiteouts should be searched for.  [None] is an error. *)
Fixpoint type_loop (c : list byte) (num : N) (whiteouts : bool) : option (N * bool) :=
  match c with
  | [] => None
  | x :: c =>
      match type_flag x with
      | None => None
      | Some (t, w) =>
          let num := N.lor num (N.shiftl 1 t) in
          let whiteouts := whiteouts || w in
          match c with
          | [] => Some (num, whiteouts)
          | y :: c => if Byte.eqb y "," then type_loop c num whiteouts else None
          end
      end
  end.
Definition parse_type (arg : list byte) : option (N * bool) := type_loop arg 0 false.

(** ** Evaluation.  [sb] is what eval_stat() gives (src/eval.c 127-134); if it fails, an error is reported. *)
Definition with_stat (sb : option bfs_stat) (k : bfs_stat -> outcome) : outcome :=
  match sb with Some s => k s | None => (false, true) end.

(** 317-324, 329-336 *)
Definition eval_gid (cmp : int_cmp) (num : Z) (sb : option bfs_stat) : outcome :=
  with_stat sb (fun s => (bfs_expr_cmp cmp num (gid s), false)).
Definition eval_uid (cmp : int_cmp) (num : Z) (sb : option bfs_stat) : outcome :=
  with_stat sb (fun s => (bfs_expr_cmp cmp num (uid s), false)).

(** 341-371 *)
Definition eval_nogroup (getgrgid : Z -> lookup) (sb : option bfs_stat) : outcome :=
  with_stat sb (fun s => match getgrgid (gid s) with Found _ => (false, false) | Missing => (true, false) | Failed => (true, true) end).
Definition eval_nouser (getpwuid : Z -> lookup) (sb : option bfs_stat) : outcome :=
  with_stat sb (fun s => match getpwuid (uid s) with Found _ => (false, false) | Missing => (true, false) | Failed => (true, true) end).

(** 571-578, 583-590 *)
Definition eval_inum (cmp : int_cmp) (num : Z) (sb : option bfs_stat) : outcome :=
  with_stat sb (fun s => (bfs_expr_cmp cmp num (to_long_long (ino s)), false)).
Definition eval_links (cmp : int_cmp) (num : Z) (sb : option bfs_stat) : outcome :=
  with_stat sb (fun s => (bfs_expr_cmp cmp num (to_long_long (nlink s)), false)).

(** 936-943 *)
Definition eval_samefile (d i : Z) (sb : option bfs_stat) : outcome :=
  with_stat sb (fun s => ((dev s =? d) && (ino s =? i), false)).

(** 973-981; BFS_STAT_BLKSIZE is 512 on Linux.  [None] if the sum overflows. *)
Definition eval_sparse (sb : option bfs_stat) : option outcome :=
  match sb with
  | None => Some (false, true)
  | Some s =>
      if LLONG_MAX <? size s + 512 then None
      else Some (blocks s <? Z.quot (size s + 512 - 1) 512, false)
  end.

(** 499-525 *)
Inductive flags_cmp := BFS_MODE_EQUAL | BFS_MODE_ALL | BFS_MODE_ANY.
Definition eval_flags (cmp : flags_cmp) (set clear : N) (sb : option bfs_stat) : outcome :=
  with_stat sb (fun s =>
    match attrs s with
    | None => (false, true)
    | Some flags =>
        (match cmp with
         | BFS_MODE_EQUAL => (flags =? set)%N && (N.land flags clear =? 0)%N
         | BFS_MODE_ALL => (N.land flags set =? set)%N && (N.land flags clear =? 0)%N
         | BFS_MODE_ANY => negb (N.land flags set =? 0)%N || negb (N.land flags clear =? clear)%N
         end, false)
    end).

(** 986-988 *)
Definition eval_type (num : N) (type : N) : bool := negb (N.land (N.shiftl 1 type) num =? 0)%N.

(** 457-494: [entries] is whether there are any in the directory, if it can be opened and read. *)
Definition eval_empty (type : N) (sb : option bfs_stat) (entries : option bool) : outcome :=
  if (type =? BFS_REG)%N then with_stat sb (fun s => (size s =? 0, false))
  else if (type =? BFS_DIR)%N then match entries with Some some => (negb some, false) | None => (false, true) end
  else (false, false).
