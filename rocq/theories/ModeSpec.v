(** * Reading the mode column of ls -l, following POSIX ls(1)

    The first byte is the type.  Three groups of three follow, for the owner, the
    group and others: r or -, w or -, and a byte that combines execute
    permission with the set-user-ID, set-group-ID or sticky bit. *)
From Coq Require Import List NArith Bool.
From Coq Require Import Init.Byte Strings.Byte.
Import ListNotations.
Local Open Scope N_scope.

Definition type_of (c : byte) : option N :=
  match c with
  | "-" => Some 0x8000 | "b" => Some 0x6000 | "c" => Some 0x2000 | "d" => Some 0x4000
  | "l" => Some 0xa000 | "p" => Some 0x1000 | "s" => Some 0xc000 | _ => None
  end%byte.

Definition flag (set : byte) (c : byte) (v : N) : option N :=
  if Byte.eqb c set then Some v else if Byte.eqb c "-" then Some 0 else None.

(** [x]: the execute bit; [s]: the special bit; [lo]: letter for both, [up]:
    letter for the special bit alone *)
Definition last_of (lo up : byte) (c : byte) (s x : N) : option N :=
  if Byte.eqb c "x" then Some x
  else if Byte.eqb c lo then Some (s + x)
  else if Byte.eqb c up then Some s
  else if Byte.eqb c "-" then Some 0
  else None.

Definition sum (l : list (option N)) : option N :=
  fold_right (fun o acc => match o, acc with Some a, Some b => Some (a + b) | _, _ => None end) (Some 0) l.

Definition read_mode (s : list byte) : option N :=
  match s with
  | [t; r1; w1; x1; r2; w2; x2; r3; w3; x3] =>
      sum [type_of t;
           flag "r" r1 256; flag "w" w1 128; last_of "s" "S" x1 2048 64;
           flag "r" r2 32; flag "w" w2 16; last_of "s" "S" x2 1024 8;
           flag "r" r3 4; flag "w" w3 2; last_of "t" "T" x3 512 1]
  | _ => None
  end.

(** The type bits of [mode] are those of one of the seven POSIX file types. *)
Definition known_type (mode : N) : bool :=
  existsb (N.eqb (N.land mode 0xf000)) [0x8000; 0x6000; 0x2000; 0x4000; 0xa000; 0x1000; 0xc000].
