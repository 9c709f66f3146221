(** * Model of the path functions of src/bfstd.c *)
From Coq Require Import List Arith Bool.
From Coq Require Import Init.Byte Strings.Byte.
Import ListNotations.

Definition slash : byte := x2f.
Definition dot : byte := x2e.
Definition is_slash (c : byte) : bool := Byte.eqb c slash.

(** A C string is the list of its bytes without the terminator; [path[i]] is
    the terminator for [i = length path]. *)
Definition at_ (path : list byte) (i : nat) : byte := nth i path x00.

(** while (i > 0 && p(path[i - 1])) --i; *)
Fixpoint skip_back (p : byte -> bool) (path : list byte) (i : nat) : nat :=
  match i with
  | O => O
  | S j => if p (at_ path j) then skip_back p path j else i
  end.

(** while (path[i] == '/' && path[i + 1]) ++i;  the loop runs at most
    [length path] times, which the first argument counts down. *)
Fixpoint skip_leading (n : nat) (path : list byte) (i : nat) : nat :=
  match n with
  | O => i
  | S n' =>
      if is_slash (at_ path i) && negb (Byte.eqb (at_ path (S i)) x00)
      then skip_leading n' path (S i) else i
  end.

(** src/bfstd.c 110-128, xbaseoff *)
Definition xbaseoff (path : list byte) : nat :=
  let i := length path in
  let i := skip_back is_slash path i in
  let i := skip_back (fun c => negb (is_slash c)) path i in
  skip_leading (length path) path i.

(** src/bfstd.c 81-96, xdirname; allocation failure is left out. *)
Definition xdirname (path : list byte) : list byte :=
  let i := skip_back is_slash path (xbaseoff path) in
  if 0 <? i then firstn i path
  else if is_slash (at_ path i) then [slash]
  else [dot].

(** strcspn(s, "/") *)
Fixpoint cspn_slash (s : list byte) : nat :=
  match s with
  | [] => 0
  | c :: s' => if is_slash c then 0 else S (cspn_slash s')
  end.

(** src/bfstd.c 98-108, xbasename *)
Definition xbasename (path : list byte) : list byte :=
  let i := xbaseoff path in
  let len := cspn_slash (skipn i path) in
  if 0 <? len then firstn len (skipn i path)
  else if is_slash (at_ path i) then [slash]
  else [dot].
