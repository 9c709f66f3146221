(** * The tests -name, -path, -lname and -hidden (src/parse.c 1080-1120, src/eval.c 160-171, 553-566, 590-651, src/bfstd.c 807-841) *)
From Coq Require Import List NArith Arith Bool Init.Byte.
From Coq Require Import Strings.Byte.
From Verif Require Import PathModel.
Import ListNotations.
Local Open Scope nat_scope.

Definition backslash : byte := x5c.

(** The part of [struct bfs_expr] that is used here; [never] is eval_fn == eval_false. *)
Record expr := mkExpr { pattern : list byte; casefold : bool; literal : bool; never : bool }.

(** src/parse.c 1105-1109: the number of backslashes at the end; [n] counts down from the length. *)
Fixpoint trailing (n : nat) (p : list byte) (i : nat) : nat :=
  match n with
  | O => i
  | S n => if Byte.eqb (nth (length p - i - 1) p x00) backslash then trailing n p (S i) else i
  end.
(** strcspn(), where the strings have no NUL bytes *)
Fixpoint strcspn (s reject : list byte) : nat :=
  match s with
  | [] => 0
  | c :: s => if existsb (Byte.eqb c) reject then 0 else S (strcspn s reject)
  end.
(** src/parse.c 1080-1120 *)
Definition parse_fnmatch (p : list byte) (fold : bool) : expr :=
  let len := length p in
  let i := trailing len p 0 in
  if negb (i mod 2 =? 0) then mkExpr p fold false true
  else mkExpr p fold (strcspn p [x3f; x2a; backslash; x5b] =? len) false.

(** tolower() for ASCII letters *)
Definition tolower (c : byte) : byte :=
  let n := Byte.to_N c in
  if (65 <=? n)%N && (n <=? 90)%N then match Byte.of_N (n + 32) with Some b => b | None => c end else c.
Fixpoint strcmp (a b : list byte) : bool :=
  match a, b with
  | [], [] => true
  | x :: a, y :: b => Byte.eqb x y && strcmp a b
  | _, _ => false
  end.
(** strcasecmp(), which looks at bytes one by one; in UTF-8 as in the C locale only ASCII letters have two cases *)
Definition strcasecmp (a b : list byte) : bool := strcmp (map tolower a) (map tolower b).

Inductive type := LNK | OTHER.
(** What the tests see of a file, and whether it is a root *)
Record file := mkFile { path : list byte; nameoff : nat; depth : nat; ftype : type; stat_size : option N; target : list byte }.

Section Libc.
  (** fnmatch(pattern, string, FNM_CASEFOLD or 0) == 0 *)
  Variable fnmatch : list byte -> list byte -> bool -> bool.

  (** src/eval.c 160-171 *)
  Definition eval_fnmatch (e : expr) (s : list byte) : bool :=
    if literal e then
      if casefold e then strcasecmp (pattern e) s else strcmp (pattern e) s
    else fnmatch (pattern e) s (casefold e).

  (** src/eval.c 618-644; allocations succeed *)
  Definition eval_name (e : expr) (f : file) : bool :=
    if never e then false
    else
      let name := skipn (nameoff f) (path f) in
      let name := if depth f =? 0 then xbasename name else name in
      eval_fnmatch e name.
  (** 649-651 *)
  Definition eval_path (e : expr) (f : file) : bool :=
    if never e then false else eval_fnmatch e (path f).

  (** readlinkat(): as much of the target as there is space for *)
  Definition readlinkat (t : list byte) (size : N) : list byte := firstn (N.to_nat size) t.
  (** src/bfstd.c 807-841.  Sizes do not wrap around; errors are left out.  [None] is out of fuel. *)
  Fixpoint readlink_loop (fuel : nat) (t : list byte) (size : N) : option (list byte) :=
    match fuel with
    | O => None
    | S fuel =>
        let name := readlinkat t size in
        if (size <=? N.of_nat (length name))%N then readlink_loop fuel t (size * 2) else Some name
    end.
  Definition xreadlinkat (fuel : nat) (t : list byte) (size : N) : option (list byte) :=
    readlink_loop fuel t (if (size =? 0)%N then 64 else size + 1)%N.
  (** src/eval.c 590-613 *)
  Definition eval_lname (fuel : nat) (e : expr) (f : file) : option bool :=
    if never e then Some false
    else match ftype f with
         | OTHER => Some false
         | LNK =>
             let len := match stat_size f with Some n => n | None => 0%N end in
             match xreadlinkat fuel (target f) len with
             | Some name => Some (eval_fnmatch e name)
             | None => None
             end
         end.
End Libc.

(** src/eval.c 553-566 *)
Definition eval_hidden (f : file) : bool :=
  let name := skipn (nameoff f) (path f) in
  Byte.eqb (nth 0 name x00) dot && negb (strcmp name [dot]) && negb (strcmp name [dot; dot]).
