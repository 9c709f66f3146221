(** * What the tests on a file's metadata mean *)
From Coq Require Import List NArith ZArith Bool Init.Byte.
From Verif Require Import NumModel NumSpec MetaModel.
Import ListNotations.
Local Open Scope Z_scope.

(** What the system says is a number of its type. *)
Definition stat_ok (s : bfs_stat) : Prop :=
  0 <= dev s < 2 ^ 64 /\ 0 <= ino s < 2 ^ 64 /\ 0 <= nlink s < 2 ^ 64 /\ 0 <= uid s < 2 ^ 32 /\ 0 <= gid s < 2 ^ 32 /\
  0 <= size s < 2 ^ 63 /\ 0 <= blocks s < 2 ^ 63.

(** -type: the letters of the types of files *)
Definition letters : list (byte * N) :=
  [("b", BFS_BLK); ("c", BFS_CHR); ("d", BFS_DIR); ("D", BFS_DOOR); ("p", BFS_FIFO); ("f", BFS_REG); ("l", BFS_LNK); ("s", BFS_SOCK); ("w", BFS_WHT)]%byte.
(** [arg] is a list of letters, with a comma between each two of them; [ts] are their types. *)
Inductive type_list : list byte -> list N -> Prop :=
| one c t : In (c, t) letters -> type_list [c] [t]
| more c t arg ts : In (c, t) letters -> type_list arg ts -> type_list (c :: ","%byte :: arg) (t :: ts).

(** -user and the like: the name of a user, or else a number, with + or - in front of it.  [x = cmp num] is asked of a file. *)
Definition user_arg (getnam : list byte -> lookup) (arg : list byte) (cmp : int_cmp) (num : Z) : Prop :=
  (getnam arg = Found num /\ cmp = BFS_INT_EQUAL) \/
  ((forall id, getnam arg <> Found id) /\ exists t, prefixed arg cmp t /\ numeral 10 t num [] /\ 0 <= num <= 2 ^ 63 - 1).

(** -flags: [i] is in a set of flags. *)
Definition flag (set : N) (i : N) : Prop := N.testbit set i = true.
