(** * What it means to list a directory *)
From Coq Require Import List NArith Bool Init.Byte.
From Coq Require Import Strings.Byte.
From Verif Require Import DirModel.
Import ListNotations.
Local Open Scope N_scope.

(** An entry as the kernel gives it: getdents(2) *)
Record entry := mkEntry { ino : list byte; off : list byte; etype : byte; name : list byte; pad : list byte }.
Definition reclen (e : entry) : nat := 20 + length (name e) + length (pad e).
Definition little (n : nat) : list byte :=
  match Byte.of_N (N.of_nat n mod 256), Byte.of_N (N.of_nat n / 256) with Some a, Some b => [a; b] | _, _ => [] end.
Definition encode (e : entry) : list byte :=
  ino e ++ off e ++ little (reclen e) ++ [etype e] ++ name e ++ [x00] ++ pad e.
Definition proper (e : entry) : Prop :=
  length (ino e) = 8%nat /\ length (off e) = 8%nat /\ ~ In x00 (name e) /\ name e <> [] /\ (length (name e) <= 255)%nat /\ (reclen e <= 280)%nat /\ Byte.to_N (etype e) < 16.

(** What getdents() may do: give some of the entries that are left, in order; nothing only if there are none;
    or fail, and then nothing is lost. *)
Record lists {K} (getdents : K -> N -> K * answer) (left_ : K -> list entry) : Prop := {
  l_proper : forall k, Forall proper (left_ k);
  l_fail : forall k n k', getdents k n = (k', Fail) -> left_ k' = left_ k;
  l_end : forall k n k', getdents k n = (k', Bytes []) -> left_ k = [] /\ left_ k' = [];
  l_some : forall k n k' l, getdents k n = (k', Bytes l) -> l <> [] ->
    exists es, left_ k = es ++ left_ k' /\ l = concat (map encode es) /\ N.of_nat (length l) <= n
}.
(** Reading does not fail as long as there is space for one entry. *)
Definition reliable {K} (getdents : K -> N -> K * answer) : Prop := forall k n, 280 <= n -> snd (getdents k n) <> Fail.

(** <dirent.h> *)
Definition type_of (t : byte) : bfs_type :=
  match Byte.to_N t with
  | 1 => BFS_FIFO | 2 => BFS_CHR | 4 => BFS_DIR | 6 => BFS_BLK | 8 => BFS_REG | 10 => BFS_LNK | 12 => BFS_SOCK
  | _ => BFS_UNKNOWN
  end.
Definition listed (w : bool) (e : entry) : bool :=
  negb (if list_eq_dec Byte.byte_eq_dec (name e) [x2e] then true else false) &&
  negb (if list_eq_dec Byte.byte_eq_dec (name e) [x2e; x2e] then true else false) &&
  (w || negb (Byte.to_N (etype e) =? 14)).
(** What the directory contains *)
Definition contents (w : bool) (l : list entry) : list outcome :=
  map (fun e => Entry (name e) (type_of (etype e))) (filter (listed w) l).

Definition is_entry (o : outcome) : bool := match o with Entry _ _ => true | _ => false end.
Definition reads (l : list op) : nat := length (filter (fun x => match x with Read => true | Poll => false end) l).
