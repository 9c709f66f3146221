(** Property theorems for the optimizer's warnings (src/opt.c): C75, and what is wrong with it. *)
From Coq Require Import List ZArith QArith Bool Lia.
From Verif Require Import ExprModel ExprSpec OptModel OptSpec OptRefute WarnSpec WarnModel WarnProofs.
Import ListNotations.

(** C75, -exclude: every warning of the data flow pass about a primary of the -exclude expression is true of
    every file, whatever has happened before.  A result that is said to be ignored does not change whether the file is
    excluded, either.  For the default level and -O4.
    Missing for the full property: expressions with a comma, primaries that are not [tame] (the statement is
    false of those, as below), files that change while they are being evaluated, and the warnings of simplify. *)
Theorem C75_exclude_partial :
  forall (F : Type) (fo : float_ops F) level udb gdb f u b, wf_file f -> about f b ->
    forall c, wf (c_exclude c) -> made_of (tame level udb gdb f u) (c_exclude c) -> (3 <= level)%nat ->
    forall i w, In (i, w) (exclude_warnings fo level udb gdb c) -> forall h,
      right level b (c_exclude c) h i w /\
      (w = Ignored -> forall v v', fst (run level b (made i v) 0 (c_exclude c) h) = fst (run level b (made i v') 0 (c_exclude c) h)).
Proof.
  exact @exclude_right.
Qed.
Print Assumptions C75_exclude_partial.

(** C75, the expression: the same for every file that is not excluded and at a depth between -mindepth and
    -maxdepth.  Missing: as above. *)
Theorem C75_expr_partial :
  forall (F : Type) (fo : float_ops F) level udb gdb f u b, wf_file f -> about f b ->
    forall c, wf (c_exclude c) -> wf (c_expr c) ->
    made_of (tame level udb gdb f u) (c_exclude c) -> made_of (tame level udb gdb f u) (c_expr c) ->
    (0 <= c_mindepth c <= INT_MAX)%Z -> (0 <= c_maxdepth c <= INT_MAX)%Z -> (3 <= level)%nat ->
    forall i w, In (i, w) (expr_warnings fo level udb gdb c) ->
    forall h h1, eval level b (c_exclude c) h = (false, h1, false) -> (c_mindepth c <= f_depth f <= c_maxdepth c)%Z ->
    right level b (c_expr c) h1 i w.
Proof.
  exact @expr_right.
Qed.
Print Assumptions C75_expr_partial.

(** C75, "This command won't do anything.": then visiting any file does nothing and does not end the search.
    At every level.  Missing: as above. *)
Theorem C75_nothing_partial :
  forall (F : Type) (fo : float_ops F) level udb gdb f u b, wf_file f -> about f b ->
    forall c, wf (c_exclude c) -> wf (c_expr c) ->
    made_of (tame level udb gdb f u) (c_exclude c) -> made_of (tame level udb gdb f u) (c_expr c) ->
    (0 <= c_mindepth c <= INT_MAX)%Z -> (0 <= c_maxdepth c <= INT_MAX)%Z ->
    wont_do_anything fo level udb gdb c = true ->
    forall h, exists pruned, visit_file level b c (f_depth f) h = (pruned, h, false).
Proof.
  exact @nothing_right.
Qed.
Print Assumptions C75_nothing_partial.

(** C75: at the default level and at -O4, no warning of the data flow pass is given twice, for all expressions. *)
Theorem C75_once :
  forall (F : Type) (fo : float_ops F) level udb gdb, (3 <= level)%nat ->
    forall c : ctx F, NoDup (exclude_warnings fo level udb gdb c) /\ NoDup (expr_warnings fo level udb gdb c).
Proof.
  exact @once.
Qed.
Print Assumptions C75_once.

(** At -O2 it can be given three times: -print -empty *)
Theorem C75_once_refuted : expr_warnings qops 2 all_db all_db cmd_empty = [(1, Ignored); (1, Ignored); (1, Ignored)]%nat.
Proof.
  exact repeated.
Qed.
Print Assumptions C75_once_refuted.

(** A wrong warning at the default level: -size +10k -size -5M -print is said to have a test that is always false
    and to do nothing, but a file of 20000 bytes passes that test and is printed. *)
Theorem C75_size_refuted : exists f b, wf_file f /\ about f b /\
  In (1%nat, AlwaysFalse) (expr_warnings qops 3 all_db all_db cmd_size) /\ ~ right 3 b (c_expr cmd_size) [] 1 AlwaysFalse /\
  wont_do_anything qops 3 all_db all_db cmd_size = true /\
  visit_file 3 b cmd_size (f_depth f) [] = (false, [LPrint PFprint 0], false).
Proof.
  exact wrong_about_size.
Qed.
Print Assumptions C75_size_refuted.

Module Examples.
  Local Open Scope nat_scope.
  (* -maxdepth 3 -exclude -hidden: ( -depth +3 -print ) -o ( ! -hidden -print ( -name x -type f ) ) *)
  Definition c : ctx Q :=
    mkCtx (lf LHidden)
      (or2 (and2 (lf (LDepth CmpGreater 3)) (pr 0))
           (Node a0 OAnd [Node a0 ONot [lf LHidden]; pr 1; and2 (lf (LTest TName false 1)) (lf (LType 256))]))
      0 3.

  Example tame_c : wf (c_exclude c) /\ wf (c_expr c) /\
    made_of (tame 3 all_db all_db reg UBytes) (c_exclude c) /\ made_of (tame 3 all_db all_db reg UBytes) (c_expr c).
  Proof. cbn. unfold int64. repeat split; try discriminate; try lia. eexists. reflexivity. Qed.

  (* -depth +3 is always false, -print unreachable, -hidden always false, and -type f ignored *)
  Example said : expr_warnings qops 3 all_db all_db c = [(0, AlwaysFalse); (1, Unreachable); (2, AlwaysFalse); (5, Ignored)].
  Proof. vm_compute. reflexivity. Qed.

  (* what is evaluated for a file that is not hidden *)
  Example account_of : snd (run 3 (behaviour_of reg) as_it_is 0 (c_expr c) []) =
    [(0, false); (2, false); (3, true); (4, true); (5, true)].
  Proof. vm_compute. reflexivity. Qed.
  Example visited : eval 3 (behaviour_of reg) (c_exclude c) [] = (false, [], false) /\ (0 <= f_depth reg <= 3)%Z.
  Proof. split; [reflexivity|]. cbn. lia. Qed.

  (* a result that matters: -print is done or not *)
  Example matters : ~ right 3 (behaviour_of reg) (c_expr c) [] 2 Ignored.
  Proof. intros H. specialize (H true false). vm_compute in H. destruct H as [H _]. discriminate H. Qed.

  (* -type f -type d -print *)
  Definition nothing : ctx Q := cmd (and2 (and2 (lf (LType 256)) (lf (LType 8))) (pr 0)).
  Example says_nothing : wont_do_anything qops 3 all_db all_db nothing = true /\ wont_do_anything qops 3 all_db all_db c = false /\
    expr_warnings qops 3 all_db all_db nothing = [(1, AlwaysFalse); (2, Unreachable)].
  Proof. vm_compute. auto. Qed.
  Example tame_nothing : wf (c_expr nothing) /\ made_of (tame 3 all_db all_db reg UBytes) (c_expr nothing).
  Proof. cbn. repeat split; discriminate. Qed.

  (* -exclude ( -type d -type f ) *)
  Example exclude_said : exclude_warnings qops 3 all_db all_db
    (mkCtx (and2 (lf (LType 8)) (lf (LType 256))) (pr 0) 0 INT_MAX) = [(1, AlwaysFalse)].
  Proof. vm_compute. reflexivity. Qed.
  Example once_here : expr_warnings qops 3 all_db all_db cmd_empty = [(1, Ignored)].
  Proof. exact not_repeated. Qed.
End Examples.
