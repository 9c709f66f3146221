(** * Model of -print0 and -printx in src/eval.c

    A path is a string without NUL.  Failures of the output stream, which are
    reported and change the exit status, are left out. *)
From Coq Require Import List Bool.
From Coq Require Import Init.Byte Strings.Byte.
From Verif Require Import QuoteModel.
Import ListNotations.

(** src/eval.c 826-833, eval_fprint0 *)
Definition fprint0 (path : list byte) : list byte := path ++ [x00].

(** The set of line 854: space, tab, newline, backslash, dollar and the quotes *)
Definition printx_special (c : byte) : bool :=
  mem c [" "; x09; x0a; "\"; "$"; "'"; x22; "`"]%byte.

(** strcspn(path, set): split at the first byte of the set *)
Fixpoint cspan (p : byte -> bool) (s : list byte) : list byte * list byte :=
  match s with
  | [] => ([], [])
  | c :: s' => if p c then ([], s) else let '(a, b) := cspan p s' in (c :: a, b)
  end.

(** src/eval.c 849-881, eval_fprintx.  Each round consumes at least one byte;
    [None] is out of fuel. *)
Fixpoint fprintx_loop (fuel : nat) (path out : list byte) : option (list byte) :=
  match fuel with
  | O => None
  | S fuel =>
      let '(span, rest) := cspan printx_special path in
      let out := out ++ span in
      match rest with
      | [] => Some (out ++ [x0a])
      | c :: rest => fprintx_loop fuel rest (out ++ ["\"%byte; c])
      end
  end.
Definition fprintx (path : list byte) : option (list byte) := fprintx_loop (S (length path)) path [].
