(** * Reading directories: src/dir.c 100-345 and -empty (src/eval.c 454-497), as built for Linux on x86-64 *)
From Coq Require Import List NArith Bool Init.Byte.
From Coq Require Import Strings.Byte.
Import ListNotations.
Local Open Scope N_scope.

(** src/dir.h 36-62: the types there are on Linux *)
Inductive bfs_type := BFS_UNKNOWN | BFS_BLK | BFS_CHR | BFS_DIR | BFS_FIFO | BFS_LNK | BFS_REG | BFS_SOCK.

(** src/dir.c 64-107, with the values of S_IFMT etc. *)
Definition bfs_mode_to_type (mode : N) : bfs_type :=
  match N.land mode 61440 with
  | 24576 => BFS_BLK
  | 8192 => BFS_CHR
  | 16384 => BFS_DIR
  | 4096 => BFS_FIFO
  | 40960 => BFS_LNK
  | 32768 => BFS_REG
  | 49152 => BFS_SOCK
  | _ => BFS_UNKNOWN
  end.
(** DTTOIF() of <dirent.h> *)
Definition DTTOIF (t : N) : N := N.shiftl t 12.
Definition DT_WHT : N := 14.

(** src/dir.c 124-146: struct bfs_dir has 16 bytes before its buffer *)
Definition DIR_SIZE : N := N.shiftl 64 10.
Definition BUF_SIZE : N := DIR_SIZE - 16.
(** struct dirent64: d_ino at 0, d_off at 8, d_reclen at 16, d_type at 18, d_name at 19 *)
Definition sizeof_dirent : N := 280.
Definition ushort (n : N) : N := n mod 65536.

Record dir := mkDir { eof : bool; whiteouts : bool; pos : N; size : N; buf : N -> byte }.

(** Bytes copied into the buffer by the kernel *)
Definition fill (b : N -> byte) (off : N) (l : list byte) : N -> byte :=
  fun i => if (off <=? i) && (i <? off + N.of_nat (length l)) then nth (N.to_nat (i - off)) l x00 else b i.

Inductive answer := Bytes (l : list byte) | Fail.

Section Kernel.
  (** The kernel's side of the open directory, and getdents64() with the size of the buffer (src/dir.c 26-49) *)
  Variables (K : Type) (getdents : K -> N -> K * answer).

  (** src/dir.c 157-190.  The flags are those for whiteouts; the buffer has any contents. *)
  Definition bfs_opendir (w : bool) (b : N -> byte) : dir := mkDir false w 0 0 b.

  Inductive polled := Ready | Eof | PollError.
  (** src/dir.c 203-237 *)
  Definition bfs_polldir (k : K) (d : dir) : K * dir * polled :=
    if pos d <? size d then (k, d, Ready)
    else if eof d then (k, d, Eof)
    else
      let (k, a) := getdents k BUF_SIZE in
      match a with
      | Fail => (k, d, PollError)
      | Bytes [] => (k, mkDir true (whiteouts d) (pos d) (size d) (buf d), Eof)
      | Bytes l =>
          let n := N.of_nat (length l) in
          let d := mkDir (eof d) (whiteouts d) 0 (ushort n) (fill (buf d) 0 l) in
          let rest := BUF_SIZE - n in
          if sizeof_dirent <=? rest then
            let (k, a) := getdents k rest in
            match a with
            | Fail => (k, d, Ready)
            | Bytes [] => (k, mkDir true (whiteouts d) (pos d) (size d) (buf d), Ready)
            | Bytes l' => (k, mkDir (eof d) (whiteouts d) (pos d) (ushort (size d + N.of_nat (length l'))) (fill (buf d) n l'), Ready)
            end
          else (k, d, Ready)
      end.

  (** d_reclen of the entry at a position, little-endian *)
  Definition d_reclen (b : N -> byte) (p : N) : N := Byte.to_N (b (p + 16)) + 256 * Byte.to_N (b (p + 17)).
  Definition d_type (b : N -> byte) (p : N) : N := Byte.to_N (b (p + 18)).
  (** The string at a position, which must end within d_name[256] *)
  Fixpoint cstr (fuel : nat) (b : N -> byte) (p : N) : option (list byte) :=
    match fuel with
    | O => None
    | S fuel => if Byte.eqb (b p) x00 then Some [] else match cstr fuel b (p + 1) with Some l => Some (b p :: l) | None => None end
    end.
  Definition d_name (b : N -> byte) (p : N) : option (list byte) := cstr 256 b (p + 19).

  (** src/dir.c 256-271.  The position of the entry is returned in place of a pointer to it. *)
  Definition bfs_getdent (k : K) (d : dir) : K * dir * polled * N :=
    let '(k, d, r) := bfs_polldir k d in
    match r with
    | Ready => (k, mkDir (eof d) (whiteouts d) (ushort (pos d + d_reclen (buf d) (pos d))) (size d) (buf d), r, pos d)
    | _ => (k, d, r, 0)
    end.

  (** src/dir.c 274-304, without the parts for FreeBSD *)
  Definition bfs_skipdent (d : dir) (p : N) : bool :=
    if (d_type (buf d) p =? DT_WHT) && negb (whiteouts d) then true
    else
      Byte.eqb (buf d (p + 19)) x2e &&
      (Byte.eqb (buf d (p + 20)) x00 || Byte.eqb (buf d (p + 20)) x2e && Byte.eqb (buf d (p + 21)) x00).

  (** src/dir.c 307-313 *)
  Definition bfs_d_type (d : dir) (p : N) : bfs_type := bfs_mode_to_type (DTTOIF (d_type (buf d) p)).

  Inductive outcome := Entry (name : list byte) (t : bfs_type) | End | Error | Stuck.
  (** src/dir.c 315-340.  The name is read at once rather than through a pointer into the buffer.
      [Stuck] is a name that does not end or a loop that does not. *)
  Fixpoint bfs_readdir (fuel : nat) (k : K) (d : dir) : K * dir * outcome :=
    match fuel with
    | O => (k, d, Stuck)
    | S fuel =>
        let '(k, d, r, p) := bfs_getdent k d in
        match r with
        | Eof => (k, d, End)
        | PollError => (k, d, Error)
        | Ready =>
            if bfs_skipdent d p then bfs_readdir fuel k d
            else match d_name (buf d) p with
                 | Some n => (k, d, Entry n (bfs_d_type d p))
                 | None => (k, d, Stuck)
                 end
        end
    end.

  (** What is done with a directory: src/ioq.c 633 polls it and ignores the result, src/bftw.c 1648 reads it *)
  Inductive op := Poll | Read.
  Fixpoint run (fuel : nat) (k : K) (d : dir) (l : list op) : list outcome :=
    match l with
    | [] => []
    | Poll :: l => let '(k, d, _) := bfs_polldir k d in run fuel k d l
    | Read :: l => let '(k, d, o) := bfs_readdir fuel k d in o :: run fuel k d l
    end.

  (** src/eval.c 454-497 on a directory that can be opened: the result, and whether an error is reported.
      [None] is out of fuel. *)
  Definition eval_empty (fuel : nat) (k : K) (b : N -> byte) : option (bool * bool) :=
    let '(_, _, o) := bfs_readdir fuel k (bfs_opendir false b) in
    match o with
    | Entry _ _ => Some (false, false)
    | End => Some (true, false)
    | Error => Some (false, true)
    | Stuck => None
    end.
End Kernel.
