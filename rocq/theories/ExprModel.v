(** * Expression trees and their evaluation (src/expr.h, src/expr.c, src/eval.c)

    A tree node carries the annotations that the optimizer stores in
    [struct bfs_expr].  Leaves are the primaries; the payload that only the
    evaluation function looks at (patterns, commands, file names, ...) is
    represented by a number that identifies the primary. *)
From Coq Require Import List ZArith Bool.
Import ListNotations.

(** R_OK, W_OK, X_OK: [expr->num] of src/eval.c 190 (eval_access).  The
    parser only ever creates tests for a single mode (src/parse.c, the table
    entries -executable, -readable, -writable). *)
Inductive access_mode := AccR | AccW | AccX.

(** src/expr.h 45-52, enum bfs_int_cmp. *)
Inductive int_cmp := CmpEqual | CmpLess | CmpGreater.

(** src/expr.h 81-98, enum bfs_size_unit. *)
Inductive size_unit := UBlocks | UBytes | UWords | UKB | UMB | UGB | UTB | UPB.

(** Tests that the data flow analysis does not track. *)
Inductive test_kind :=
  TFlags | TFstype | TName | TNewer | TPath | TPerm | TRegex | TTime | TUsed | TXattrname.

(** Output actions. *)
Inductive print_kind := PFls | PFprint | PFprint0 | PFprintf | PFprintx.

(** One constructor per evaluation function of src/eval.c 176-1036 (the
    untracked tests and the output actions are grouped).  Numbers are [expr->num],
    [expr->dev]/[expr->ino] and type masks; [id]s stand for the rest of the payload. *)
Inductive leaf :=
| LTrue | LFalse
| LAccess (m : access_mode)
| LAcl | LCapable | LEmpty | LHidden | LNogroup | LNouser | LSparse | LXattr
| LDepth (c : int_cmp) (n : Z)
| LGid (c : int_cmp) (n : Z)
| LInum (c : int_cmp) (n : Z)
| LLinks (c : int_cmp) (n : Z)
| LSize (u : size_unit) (c : int_cmp) (n : Z)
| LUid (c : int_cmp) (n : Z)
| LLname (literal : bool) (id : nat)
| LSamefile (dev ino : Z)
| LType (mask : N)
| LXtype (mask : N)
| LTest (k : test_kind) (literal : bool) (id : nat)
| LContext (id : nat)
| LDelete
| LExec (id : nat)
| LExecMulti (id : nat)
| LPrint (k : print_kind) (id : nat)
| LLimit (id : nat) (n : Z)
| LPrune
| LExit (n : Z)
| LQuit.

(** The operators of src/eval.c 1098-1142. *)
Inductive op := ONot | OAnd | OOr | OComma.

(** src/expr.h 132-144: the annotations.  [F] is the type of floats; nothing
    is assumed about it.  [calls_stat], the file descriptor counts and the
    evaluation statistics are left out: they only feed performance decisions
    and -D rates output. *)
Record annot (F : Type) := mkAnnot {
  a_pure : bool;
  a_true : bool;   (* always_true *)
  a_false : bool;  (* always_false *)
  a_cost : F;
  a_prob : F
}.
Arguments mkAnnot {F}.
Arguments a_pure {F}.
Arguments a_true {F}.
Arguments a_false {F}.
Arguments a_cost {F}.
Arguments a_prob {F}.

(** src/expr.h 111-229. *)
Inductive expr (F : Type) :=
| Leaf (a : annot F) (l : leaf)
| Node (a : annot F) (o : op) (cs : list (expr F)).
Arguments Leaf {F}.
Arguments Node {F}.

Definition ann {F} (e : expr F) : annot F :=
  match e with Leaf a _ => a | Node a _ _ => a end.

(** src/expr.c 40-45, bfs_expr_is_parent. *)
Definition is_parent {F} (e : expr F) : bool :=
  match e with Leaf _ _ => false | Node _ _ _ => true end.

(** The table of pure expressions, src/opt.c 1116-1154, with the exceptions
    for -empty (953-963) and -xtype (1034-1041) at -O4. *)
Definition leaf_pure (level : nat) (l : leaf) : bool :=
  match l with
  | LTrue | LFalse | LAccess _ | LAcl | LCapable | LHidden | LNogroup | LNouser
  | LSparse | LXattr | LDepth _ _ | LGid _ _ | LInum _ _ | LLinks _ _
  | LSize _ _ _ | LUid _ _ | LLname _ _ | LSamefile _ _ | LType _ | LTest _ _ _ => true
  | LEmpty | LXtype _ => Nat.leb 4 level
  | LContext _ | LDelete | LExec _ | LExecMulti _ | LPrint _ _ | LLimit _ _
  | LPrune | LExit _ | LQuit => false
  end.

(** The effects performed so far, latest first.  Everything a later effect,
    or [state->action] and the exit status, can depend on is a function of
    this history. *)
Definition hist := list leaf.

(** [val l h]: the result of test or action [l] after history [h].
    [lim l h]: whether -limit, evaluated after history [h], has reached its
    count (src/eval.c 886-894: the evaluation count is a function of the history). *)
Record behaviour := mkBehaviour {
  val : leaf -> hist -> bool;
  lim : leaf -> hist -> bool
}.

(** Result, history, and [state->quit] after evaluation. *)
Definition outcome := (bool * hist * bool)%type.

(** src/eval.c 176-1036, what matters of one primary: tests return a value
    and leave no trace (an error message that a failing stat() may print is
    not modelled); an action is an event.  The actions that always return
    true are those of 430-445 with exec.c 659-671 (-exec ... +), 800-881 (output),
    886-911 (-limit, -prune, -quit). *)
Definition eval_leaf (level : nat) (b : behaviour) (l : leaf) (h : hist) : outcome :=
  match l with
  | LTrue => (true, h, false)
  | LFalse => (false, h, false)
  | LExecMulti _ | LPrint _ _ | LPrune => (true, l :: h, false)
  | LLimit _ _ => (true, l :: h, lim b l h)
  | LExit _ | LQuit => (true, l :: h, true)
  | _ => (val b l h, if leaf_pure level l then h else l :: h, false)
  end.

Section Loops.
  Context {E : Type}.
  Variable ev : E -> hist -> outcome.

  (** src/eval.c 1105-1113, eval_and *)
  Fixpoint and_loop (cs : list E) (h : hist) : outcome :=
    match cs with
    | [] => (true, h, false)
    | c :: cs' =>
        let '(r, h1, q) := ev c h in
        if negb r || q then (false, h1, q) else and_loop cs' h1
    end.

  (** src/eval.c 1118-1126, eval_or *)
  Fixpoint or_loop (cs : list E) (h : hist) : outcome :=
    match cs with
    | [] => (false, h, false)
    | c :: cs' =>
        let '(r, h1, q) := ev c h in
        if r || q then (true, h1, q) else or_loop cs' h1
    end.

  (** src/eval.c 1131-1142, eval_comma *)
  Fixpoint comma_loop (ret : bool) (cs : list E) (h : hist) : outcome :=
    match cs with
    | [] => (ret, h, false)
    | c :: cs' =>
        let '(r, h1, q) := ev c h in
        if q then (r, h1, q) else comma_loop r cs' h1
    end.
End Loops.

Section Eval.
  Context {F : Type}.
  Variable level : nat.
  Variable b : behaviour.

  (** src/eval.c 1060-1093 (eval_expr), 1098-1100 (eval_not: the first child).
      The assertions at 1085-1090 are modelled separately (OptEval.v). *)
  Fixpoint eval (e : expr F) (h : hist) {struct e} : outcome :=
    match e with
    | Leaf _ l => eval_leaf level b l h
    | Node _ ONot cs =>
        match cs with
        | [] => (true, h, false)
        | c :: _ => let '(r, h1, q) := eval c h in (negb r, h1, q)
        end
    | Node _ OAnd cs => and_loop eval cs h
    | Node _ OOr cs => or_loop eval cs h
    | Node _ OComma cs => comma_loop eval false cs h
    end.
End Eval.
