(** Property theorems for expression evaluation (src/eval.c): C04. *)
From Coq Require Import List ZArith Bool.
From Verif Require Import ExprModel ExprSpec ExprProofs.
Import ListNotations.

(** C04: evaluation follows the rules of find(1), for operators of any arity
    and nesting, whatever the primaries do. *)
Theorem C04_eval_rules :
  forall (F : Type) level b (e : expr F), wf e -> forall h r h1 q,
    eval level b e h = (r, h1, q) <-> ev level b e h r h1 q.
Proof.
  exact @eval_rules.
Qed.
Print Assumptions C04_eval_rules.

(** C04: effects are only ever added; once a primary asks to quit, nothing
    else happens, and nothing quits unless a primary asked for it. *)
Theorem C04_quit_is_last :
  forall (F : Type) level b (e : expr F) h r h1 q,
    eval level b e h = (r, h1, q) ->
    exists new, h1 = new ++ h /\
      if q then exists l new', new = l :: new' /\ quits b l (new' ++ h) = true /\ calm b new' h
      else calm b new h.
Proof.
  exact @eval_quit_last.
Qed.
Print Assumptions C04_quit_is_last.

(** C04: without quitting, the result is the truth value of the expression. *)
Theorem C04_truth_value :
  forall (F : Type) level b v,
    (forall l h, fst (fst (eval_leaf level b l h)) = v l) ->
    forall (e : expr F) h r h1, eval level b e h = (r, h1, false) -> r = truth v e.
Proof.
  exact @eval_truth.
Qed.
Print Assumptions C04_truth_value.

Module Examples.
  Definition a0 : annot unit := mkAnnot false false false tt tt.
  Definition pr (n : nat) : expr unit := Leaf a0 (LPrint PFprint n).
  Definition ty (n : N) : expr unit := Leaf a0 (LType n).
  (* a file of type 8 *)
  Definition b8 : behaviour :=
    mkBehaviour (fun l _ => match l with LType n => N.eqb n 8 | _ => true end) (fun _ _ => false).

  (* ( ! -type 8 -o -print 1 ) , -print 2 -quit -print 3 *)
  Definition e1 : expr unit :=
    Node a0 OComma
      [Node a0 OOr [Node a0 ONot [ty 8]; pr 1];
       Node a0 OAnd [pr 2; Leaf a0 LQuit; pr 3]].

  Example e1_wf : wf e1.
  Proof. cbn. repeat split; eauto; discriminate. Qed.
  Example e1_eval : eval 0 b8 e1 [] = (false, [LQuit; LPrint PFprint 2; LPrint PFprint 1], true).
  Proof. reflexivity. Qed.
  Example e1_ev : ev 0 b8 e1 [] false [LQuit; LPrint PFprint 2; LPrint PFprint 1] true.
  Proof. apply C04_eval_rules; [exact e1_wf|reflexivity]. Qed.

  Example v_exists : forall l h, fst (fst (eval_leaf 0 b8 l h)) =
    fst (fst (eval_leaf 0 b8 l [])).
  Proof. intros l h. destruct l; reflexivity. Qed.
  Example e2_eval : eval 0 b8 (Node a0 OOr [Node a0 ONot [ty 8]; pr 1]) []
                    = (true, [LPrint PFprint 1], false).
  Proof. reflexivity. Qed.
End Examples.
