(** Property theorems for the path functions of src/bfstd.c: C18. *)
From Coq Require Import List.
From Coq Require Import Init.Byte Strings.Byte.
From Verif Require Import PathModel PathSpec PathProofs.
Import ListNotations.

(** C18: dirname and basename are those of POSIX, and the offset is where
    the name begins. *)
Theorem C18_dirname_basename : forall p, dir_base p (xdirname p) (xbasename p) (xbaseoff p).
Proof.
  exact path_functions.
Qed.
Print Assumptions C18_dirname_basename.

(** The specification allows no other result. *)
Theorem C18_spec_unique : forall p d b off d' b' off',
  dir_base p d b off -> dir_base p d' b' off' -> d = d' /\ b = b' /\ off = off'.
Proof.
  exact dir_base_unique.
Qed.
Print Assumptions C18_spec_unique.

(** C18: joining them with a slash gives the same path. *)
Theorem C18_reassemble : forall p, same_path (xdirname p ++ slash :: xbasename p) p.
Proof.
  exact reassemble.
Qed.
Print Assumptions C18_reassemble.

Module Examples.
  (* "a//b/" *)
  Definition p : list byte := [x61; x2f; x2f; x62; x2f].
  Example p_is : (xdirname p, xbasename p, xbaseoff p) = ([x61], [x62], 3).
  Proof. reflexivity. Qed.
  Example not_same : ~ same_path [x61; x2f; x62] [x2f; x61; x2f; x62].
  Proof. intros [H _]. discriminate. Qed.
End Examples.
