(** * Evaluation in a build that checks its assertions

    src/eval.c, with bfs_assert() enabled (src/diag.h 134-140: it is, unless
    NDEBUG is defined). *)
From Coq Require Import List ZArith Bool.
From Verif Require Import ExprModel OptModel.
Import ListNotations.

(** A failed assertion calls abort(). *)
Inductive checked :=
| Aborted
| Finished (result : bool) (h : hist) (quit : bool).

(** [ret], the history and [state->quit] of a function that has just run *)
Definition finished (o : outcome) : checked := let '(r, h, q) := o in Finished r h q.

(** src/eval.c 1085-1090; bfs_expr_never_returns() is src/expr.c 76-79. *)
Definition check_result {F} (a : annot F) (x : checked) : checked :=
  match x with
  | Aborted => Aborted
  | Finished ret h quit =>
      if a_true a && a_false a then
        if quit then x else Aborted
      else if negb quit then
        if negb (a_true a) || ret then
          if negb (a_false a) || negb ret then x else Aborted
        else Aborted
      else x
  end.

Section Loops.
  Context {E : Type}.
  Variable run : E -> hist -> bool -> checked.

  (** src/eval.c 1105-1113, eval_and *)
  Fixpoint run_and (cs : list E) (h : hist) (quit : bool) : checked :=
    match cs with
    | [] => Finished true h quit
    | c :: cs' =>
        match run c h quit with
        | Aborted => Aborted
        | Finished r h1 q => if negb r || q then Finished false h1 q else run_and cs' h1 q
        end
    end.

  (** src/eval.c 1118-1126, eval_or *)
  Fixpoint run_or (cs : list E) (h : hist) (quit : bool) : checked :=
    match cs with
    | [] => Finished false h quit
    | c :: cs' =>
        match run c h quit with
        | Aborted => Aborted
        | Finished r h1 q => if r || q then Finished true h1 q else run_or cs' h1 q
        end
    end.

  (** src/eval.c 1131-1142, eval_comma *)
  Fixpoint run_comma (ret : bool) (cs : list E) (h : hist) (quit : bool) : checked :=
    match cs with
    | [] => Finished ret h quit
    | c :: cs' =>
        match run c h quit with
        | Aborted => Aborted
        | Finished r h1 q => if q then Finished r h1 q else run_comma r cs' h1 q
        end
    end.
End Loops.

Section Run.
  Context {F : Type}.
  Variable level : nat.
  Variable b : behaviour.

  (** src/eval.c 1060-1094, eval_expr, and 1098-1100, eval_not.  The assertion at
      1069 is the first test; a primary runs with [state->quit] unset. *)
  Fixpoint run (e : expr F) (h : hist) (quit : bool) {struct e} : checked :=
    if quit then Aborted else
    match e with
    | Leaf a l => check_result a (finished (eval_leaf level b l h))
    | Node a o cs =>
        check_result a
          match o with
          | ONot =>
              match cs with
              | [] => Finished true h quit
              | c :: _ =>
                  match run c h quit with
                  | Aborted => Aborted
                  | Finished r h1 q => Finished (negb r) h1 q
                  end
              end
          | OAnd => run_and run cs h quit
          | OOr => run_or run cs h quit
          | OComma => run_comma run false cs h quit
          end
    end.

  (** src/eval.c 1508-1536 (eval_callback), as in [visit_file]: the file is
      excluded or not, and evaluated if its depth is right. *)
  Definition run_file (c : ctx F) (depth : Z) (h : hist) : checked :=
    match run (c_exclude c) h false with
    | Aborted => Aborted
    | Finished true h q => Finished true h q
    | Finished false h q =>
        if ((c_mindepth c) mod 2 ^ 64 <=? depth)%Z && (depth <=? (c_maxdepth c) mod 2 ^ 64)%Z
        then match run (c_expr c) h q with
             | Aborted => Aborted
             | Finished _ h q => Finished false h q
             end
        else Finished false h q
    end.
End Run.
