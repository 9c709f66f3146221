(** * C65: closed standard streams *)
From Coq Require Import List Bool Arith Lia.
From Verif Require Import StdModel StdSpec StdProofs.
Import ListNotations.

(** C65: open descriptors are left alone, whatever fails.  Standard streams that
    are closed are opened such that they cannot be used, and nothing else is. *)
Theorem C65_safe : forall fails has_path s ok s', open_std_streams fails has_path s = (ok, s') ->
  safe (fds s) (fds s') /\
  (ok = true -> forall fd, fd < 3 -> get (fds s') fd <> None) /\
  (ok = false -> exists n, fails n = true).
Proof. exact open_std_ok. Qed.
Print Assumptions C65_safe.

(** C65: as long as none of these is closed, files that are opened later are not
    taken for a standard stream. *)
Theorem C65_later : forall fails has_path s s', open_std_streams fails has_path s = (true, s') ->
  forall t, (forall fd, fd < 3 -> get t fd = get (fds s') fd) -> 3 <= lowest t.
Proof. exact later_files. Qed.
Print Assumptions C65_later.

Module Examples.
  Definition never (n : nat) : bool := false.
  (** bfs <&- 2>&- 4<file *)
  Definition start : table := [None; Some (Given 1); None; None; Some (Given 4)].
  Example opened : open_std_streams never true (mkState 0 start) =
    (true, mkState 3 [Some (DevNull O_PATH); Some (Given 1); Some (DevNull O_PATH); None; Some (Given 4)]).
  Proof. reflexivity. Qed.
  Example opened' : open_std_streams never false (mkState 0 []) =
    (true, mkState 5 [Some (DevNull O_WRONLY); Some (DevNull O_RDONLY); Some (DevNull O_RDONLY)]).
  Proof. reflexivity. Qed.
  (** dup2() fails *)
  Example failed : open_std_streams (Nat.eqb 1) true (mkState 0 start) =
    (false, mkState 2 [None; Some (Given 1); None; None; Some (Given 4)]).
  Proof. reflexivity. Qed.
  Example next : lowest [Some (DevNull O_PATH); Some (Given 1); Some (DevNull O_PATH); None; Some (Given 4)] = 3.
  Proof. reflexivity. Qed.
End Examples.
