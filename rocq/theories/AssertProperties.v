(** * C57: a build with assertions enabled evaluates every file without aborting *)
From Coq Require Import List ZArith QArith Bool.
From Verif Require Import ExprModel ExprSpec OptModel OptSpec OptRefute AssertModel AssertProofs.
Import ListNotations.
Local Open Scope nat_scope.

(** C57 at every optimization level, for expressions without commas whose
    primaries are [tame]: with assertions checked, evaluating the optimized
    command line on a file finishes, with the effects that the command line as
    given has.  An -exclude expression contains no actions, so it does not quit.
    Missing: expressions with commas, where the statement is false. *)
Theorem C57_never_aborts_partial :
  forall (F : Type) (fo : float_ops F) level udb gdb f u b, wf_file f -> about f b ->
    forall c h, wf (c_exclude c) -> wf (c_expr c) ->
    made_of (tame level udb gdb f u) (c_exclude c) -> made_of (tame level udb gdb f u) (c_expr c) ->
    (forall h r h1 q, eval level b (c_exclude c) h = (r, h1, q) -> q = false) ->
    (0 <= c_mindepth c <= INT_MAX)%Z -> (0 <= c_maxdepth c <= INT_MAX)%Z ->
    run_file level b (bfs_optimize fo level udb gdb c) (f_depth f) h
    = finished (visit_file level b c (f_depth f) h).
Proof.
  exact never_aborts_partial.
Qed.
Print Assumptions C57_never_aborts_partial.

(** C57 at -O0, for every expression and every behaviour of its primaries *)
Theorem C57_never_aborts_O0 :
  forall (F : Type) (fo : float_ops F) udb gdb b c depth h,
    wf (c_exclude c) -> wf (c_expr c) ->
    (forall h r h1 q, eval 0 b (c_exclude c) h = (r, h1, q) -> q = false) ->
    run_file 0 b (bfs_optimize fo 0 udb gdb c) depth h = finished (visit_file 0 b c depth h).
Proof.
  exact never_aborts_O0.
Qed.
Print Assumptions C57_never_aborts_O0.

(** C57 fails at the default level:
    ( -print , -true ) -name x -o -name y
    aborts on the first file, although nothing quits. *)
Theorem C57_comma_refuted : exists f, wf_file f /\ about f (behaviour_of f) /\
  (exists h1, visit_file 3 (behaviour_of f) cmd_abort (f_depth f) [] = (false, h1, false)) /\
  run_file 3 (behaviour_of f) (bfs_optimize qops 3 all_db all_db cmd_abort) (f_depth f) [] = Aborted.
Proof.
  exact abort_refuted.
Qed.
Print Assumptions C57_comma_refuted.

Module Examples.
  (* -type f ( -depth +2 -print -o ! -hidden -depth 1 -quit ) -print: the
     hypotheses hold, and the evaluation ends with -quit, which never returns *)
  Definition e : expr Q :=
    Node a0 OAnd
      [lf (LType 256);
       Node a0 OOr [and2 (lf (LDepth CmpGreater 2)) (pr 0);
                    Node a0 OAnd [Node a0 ONot [lf LHidden]; lf (LDepth CmpEqual 1); lf LQuit]];
       pr 1].
  Definition c : ctx Q := mkCtx (lf (LDepth CmpGreater 5)) e 0 INT_MAX.
  Definition f : file := reg_file 1 1 20000 0.
  Example hyps : wf e /\ made_of (tame 3 all_db all_db f UKB) e /\ wf (c_exclude c) /\
    made_of (tame 3 all_db all_db f UKB) (c_exclude c) /\ wf_file f /\ about f (behaviour_of f).
  Proof.
    split; [cbn; repeat split; eauto; discriminate|].
    split; [cbn; repeat split; try discriminate; unfold int64; discriminate|].
    split; [exact I|]. split; [cbn; unfold int64; split; [discriminate|reflexivity]|].
    split; [repeat split; vm_compute; congruence|apply behaviour_of_about].
  Qed.
  Example no_quit : forall h r h1 q, eval 3 (behaviour_of f) (c_exclude c) h = (r, h1, q) -> q = false.
  Proof. intros h r h1 q E. inversion E. reflexivity. Qed.
  Example runs : run_file 3 (behaviour_of f) (bfs_optimize qops 3 all_db all_db c) 1 [] = Finished false [LQuit] true.
  Proof. vm_compute. reflexivity. Qed.
  (* the annotations that are checked are not trivial: the optimized expression
     has operators that are known never to return *)
  Fixpoint never (x : expr Q) : nat :=
    (if always_true x && always_false x then 1 else 0) +
    match x with
    | Leaf _ _ => 0
    | Node _ _ cs => (fix all l := match l with [] => 0 | y :: l' => never y + all l' end) cs
    end.
  Example annotated : never (c_expr (bfs_optimize qops 3 all_db all_db c)) = 1.
  Proof. vm_compute. reflexivity. Qed.
  (* wrong annotations are noticed *)
  Example caught : run 0 (behaviour_of f) (Leaf (mkAnnot true false true 0%Q 0%Q) LTrue) [] false = Aborted.
  Proof. reflexivity. Qed.
  Example caught_never : run 0 (behaviour_of f) (Leaf (mkAnnot false true true 0%Q 0%Q) (LPrint PFprint 0)) [] false = Aborted.
  Proof. reflexivity. Qed.
  (* -O0 accepts the command that aborts at -O3 *)
  Example O0 : wf (c_exclude cmd_abort) /\ wf (c_expr cmd_abort) /\
    run_file 0 (behaviour_of f) (bfs_optimize qops 0 all_db all_db cmd_abort) 1 [] <> Aborted.
  Proof. split; [exact I|]. split; [cbn; repeat split; eauto; discriminate|]. vm_compute. discriminate. Qed.
End Examples.
