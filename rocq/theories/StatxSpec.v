(** * What the system says about files *)
From Coq Require Import List NArith ZArith Bool.
From Verif Require Import StatxModel.
Import ListNotations.

(** A device number, with the numbers of the driver and of the device *)
Record device := mkDevice { major : N; minor : N }.
Definition real_device (d : device) : Prop := (major d < 2 ^ 12)%N /\ (minor d < 2 ^ 20)%N.
(** As one number: the low bits of the minor number, the major number, the other bits of the minor number *)
Definition number (d : device) : N := (minor d mod 256 + 256 * major d + 2 ^ 20 * (minor d / 256))%N.

(** The metadata of a file.  Not every file system knows when files were created, and old systems do not tell about mounts. *)
Record facts := mkFacts {
  f_mode : N; f_dev : device; f_ino : N; f_nlink : N; f_gid : N; f_uid : N; f_size : N; f_blocks : N; f_rdev : device;
  f_attrs : N; f_mount : option N; f_atime : timespec; f_btime : option timespec; f_ctime : timespec; f_mtime : timespec }.
Definition real (f : facts) : Prop :=
  real_device (f_dev f) /\ real_device (f_rdev f) /\ (f_size f < 2 ^ 63)%N /\ (f_blocks f < 2 ^ 63)%N.

(** What a call looks at: a path, as it is or where it leads to, or the descriptor *)
Inductive target (path : Type) := Where (p : path) (nofollow : bool) | Itself.
Arguments Where {path}. Arguments Itself {path}.

Section System.
  Variable path : Type.
  (** The files, or errors *)
  Variable look : target path -> facts + N.

  (** The flags that the system calls know: AT_SYMLINK_NOFOLLOW (bit 8), AT_NO_AUTOMOUNT (11), AT_EMPTY_PATH (12), which the empty path
      needs, and AT_STATX_DONT_SYNC (14).  Errors are ENOENT (2), EINVAL (22), ENOTDIR (20), EPERM (1) and ENOSYS (38). *)
  Definition known (at_flags allowed : N) : bool := (N.ldiff at_flags allowed =? 0)%N.
  Definition looks_at (p : option path) (at_flags : N) : facts + N :=
    match p with
    | Some p => look (Where p (N.testbit at_flags 8))
    | None => if N.testbit at_flags 12 then look Itself else inr 2%N
    end.

  (** fstatat() of Linux *)
  Definition fstatat_right (call : option path -> N -> stat + N) : Prop :=
    forall p at_flags, call p at_flags =
      if negb (known at_flags (0x100 + 0x800 + 0x1000)) then inr 22%N
      else match looks_at p at_flags with
           | inl f => inl (mkStat (f_mode f) (number (f_dev f)) (f_ino f) (f_nlink f) (f_gid f) (f_uid f) (Z.of_N (f_size f)) (Z.of_N (f_blocks f))
                                  (number (f_rdev f)) (f_atime f) (f_ctime f) (f_mtime f))
           | inr e => inr e
           end.

  (** The fields of [x] that its mask announces are right, and those that are asked for are announced, as far as they are known. *)
  Definition tells (asked : N) (f : facts) (x : statx) : Prop :=
    N.land (stx_mask x) 0x7ff = N.land asked 0x7ff /\
    stx_mode x = f_mode f /\ stx_dev_major x = major (f_dev f) /\ stx_dev_minor x = minor (f_dev f) /\ stx_ino x = f_ino f /\
    stx_nlink x = f_nlink f /\ stx_gid x = f_gid f /\ stx_uid x = f_uid f /\ stx_size x = f_size f /\ stx_blocks x = f_blocks f /\
    stx_rdev_major x = major (f_rdev f) /\ stx_rdev_minor x = minor (f_rdev f) /\ stx_attributes x = f_attrs f /\
    stx_atime x = f_atime f /\ stx_ctime x = f_ctime f /\ stx_mtime x = f_mtime f /\
    match f_btime f with
    | Some t => N.testbit (stx_mask x) 11 = N.testbit asked 11 /\ stx_btime x = t
    | None => N.testbit (stx_mask x) 11 = false
    end /\
    match f_mount f with
    | Some m => (N.testbit (stx_mask x) 12 || N.testbit (stx_mask x) 14)%bool = (N.testbit asked 12 || N.testbit asked 14)%bool /\ stx_mnt_id x = m
    | None => N.testbit (stx_mask x) 12 = false /\ N.testbit (stx_mask x) 14 = false
    end.

  (** statx() of Linux.  [refused] is an error of the call itself: ENOSYS of an old system, or EPERM of a container. *)
  Definition statx_right (refused : option N) (call : option path -> N -> N -> statx + N) : Prop :=
    forall p at_flags asked,
      match refused with
      | Some e => (e = 38%N \/ e = 1%N) /\ call p at_flags asked = inr e
      | None =>
          if negb (known at_flags (0x100 + 0x800 + 0x1000 + 0x4000)) then call p at_flags asked = inr 22%N
          else match looks_at p at_flags with
               | inl f => exists x, call p at_flags asked = inl x /\ tells asked f x
               | inr e => call p at_flags asked = inr e
               end
      end.

  (** The file that is meant by a path and flags (or the descriptor): a link is followed unless the flags say otherwise; if they
      say so, a link that leads nowhere is itself meant. *)
  Definition meant (p : option (option path)) (flags : N) : facts + N :=
    match p with
    | None => look Itself
    | Some None => inr 2%N
    | Some (Some p) =>
        if N.testbit flags 0 then look (Where p true)
        else match look (Where p false) with
             | inl f => inl f
             | inr e => if N.testbit flags 1 && ((e =? 2) || (e =? 20))%N then look (Where p true) else inr e
             end
    end.
End System.

(** The time in a field is the one that is known; if none is known, the field is not marked as valid. *)
Definition field_time (f : facts) (field : N) : option timespec :=
  if (field =? 0x400)%N then Some (f_atime f)
  else if (field =? 0x800)%N then f_btime f
  else if (field =? 0x1000)%N then Some (f_ctime f)
  else if (field =? 0x2000)%N then Some (f_mtime f)
  else None.

(** What does not depend on the system call *)
Definition describes (f : facts) (b : bfs_stat) : Prop :=
  mode b = f_mode f /\ dev b = number (f_dev f) /\ ino b = f_ino f /\ nlink b = f_nlink f /\ gid b = f_gid f /\ uid b = f_uid f /\
  size b = Z.of_N (f_size f) /\ blocks b = Z.of_N (f_blocks f) /\ rdev b = number (f_rdev f) /\
  atime b = Some (f_atime f) /\ ctime b = Some (f_ctime f) /\ mtime b = Some (f_mtime f).
(** What only statx() tells: creation, attributes and mounts.  Where mounts are not known, devices are used. *)
Definition fully (f : facts) (b : bfs_stat) : Prop :=
  btime b = f_btime f /\ attrs b = Some (f_attrs f) /\ mnt_id b = match f_mount f with Some m => m | None => number (f_dev f) end.
Definition scantily (f : facts) (b : bfs_stat) : Prop :=
  btime b = None /\ attrs b = None /\ mnt_id b = number (f_dev f).
(** The mask says which values there are. *)
Definition marked (b : bfs_stat) : Prop :=
  forall bit, N.testbit (mask b) bit =
    match bit with
    | 9 => if attrs b then true else false
    | 10 => if atime b then true else false
    | 11 => if btime b then true else false
    | 12 => if ctime b then true else false
    | 13 => if mtime b then true else false
    | _ => bit <? 15
    end%N.

(** A call is made on a system. *)
Definition system_of (c : call) (look : target (c_path c) -> facts + N) (refused : option N) : Prop :=
  fstatat_right (c_path c) look (c_fstatat c) /\ statx_right (c_path c) look refused (c_statx c) /\ forall t f, look t = inl f -> real f.
(** The result says what is known about the file, or is its error. *)
Definition answered (extent : facts -> bfs_stat -> Prop) (want : facts + N) (r : bfs_stat + N) : Prop :=
  match want with
  | inl f => exists b, r = inl b /\ describes f b /\ marked b /\ extent f b
  | inr e => r = inr e
  end.
