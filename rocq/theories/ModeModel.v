(** * Model of xstrmode() in src/bfstd.c *)
From Coq Require Import String List NArith Bool.
From Coq Require Import Init.Byte Strings.Byte.
Import ListNotations.
Local Open Scope N_scope.

(** The S_IFMT values of Linux *)
Definition S_IFMT : N := 0xf000.
Definition S_IFREG : N := 0x8000.
Definition S_IFBLK : N := 0x6000.
Definition S_IFCHR : N := 0x2000.
Definition S_IFDIR : N := 0x4000.
Definition S_IFLNK : N := 0xa000.
Definition S_IFIFO : N := 0x1000.
Definition S_IFSOCK : N := 0xc000.

(** src/bfstd.c 500-531, without the types that Linux does not have *)
Definition type_char (mode : N) : byte :=
  let t := N.land mode S_IFMT in
  if t =? S_IFREG then "-"
  else if t =? S_IFBLK then "b"
  else if t =? S_IFCHR then "c"
  else if t =? S_IFDIR then "d"
  else if t =? S_IFLNK then "l"
  else if t =? S_IFIFO then "p"
  else if t =? S_IFSOCK then "s"
  else "?".

Definition has (mode mask : N) : bool := negb (N.land mode mask =? 0).

(** A conditional assignment to one byte of the string, 538-543 etc. *)
Definition when (b : bool) (c : byte) : byte := if b then c else "-".

(** 544-550 etc.: [special] is the set-id or sticky bit, [exec] the execute bit *)
Definition triple_end (mode special exec : N) (upper lower : byte) : byte :=
  if N.land mode (special + exec) =? special then upper
  else if has mode special then lower
  else if has mode exec then "x"
  else "-".

(** src/bfstd.c 533-580; octal 04000 is 2048, and so on *)
Definition xstrmode (mode : N) : list byte :=
  [type_char mode;
   when (has mode 256) "r"; when (has mode 128) "w"; triple_end mode 2048 64 "S" "s";
   when (has mode 32) "r"; when (has mode 16) "w"; triple_end mode 1024 8 "S" "s";
   when (has mode 4) "r"; when (has mode 2) "w"; triple_end mode 512 1 "T" "t"].
