(** * Specification of dirname and basename *)
From Coq Require Import List Arith Bool.
From Coq Require Import Init.Byte Strings.Byte.
From Verif Require Import PathModel.
Import ListNotations.

(** A file name: not empty, and without slashes *)
Definition is_name (s : list byte) : Prop := s <> [] /\ ~ In slash s.
Definition slashes (n : nat) : list byte := repeat slash n.

(** POSIX dirname(3) and basename(3), by the form of the path; [dir_base path d b off]
    says that [d] is the directory and [b] the name, which starts at [off]. *)
Inductive dir_base : list byte -> list byte -> list byte -> nat -> Prop :=
| db_empty : dir_base [] [dot] [dot] 0
| db_root n : dir_base (slashes (S n)) [slash] [slash] n
| db_name b n : is_name b -> dir_base (b ++ slashes n) [dot] b 0
| db_root_name b m n : is_name b ->
    dir_base (slashes (S m) ++ b ++ slashes n) [slash] b (S m)
| db_path d c b m n : is_name b -> c <> slash ->
    dir_base ((d ++ [c]) ++ slashes (S m) ++ b ++ slashes n) (d ++ [c]) b (length (d ++ [c]) + S m).

(** The components of a path between its slashes *)
Fixpoint fields (s : list byte) : list (list byte) :=
  match s with
  | [] => [[]]
  | c :: s' =>
      if is_slash c then [] :: fields s'
      else match fields s' with f :: fs => (c :: f) :: fs | [] => [[c]] end
  end.

Definition trivial (f : list byte) : bool :=
  match f with [] => true | [c] => Byte.eqb c dot | _ => false end.

(** Two paths lead to the same file if both are absolute or both are relative,
    and their components other than the empty one and "." are the same. *)
Definition same_path (p q : list byte) : Prop :=
  is_slash (at_ p 0) = is_slash (at_ q 0) /\
  filter (fun f => negb (trivial f)) (fields p) = filter (fun f => negb (trivial f)) (fields q).
