(** Property theorems for the optimizer (src/opt.c): C05, C06 and C07, and
    what is wrong with C06 and C07. *)
From Coq Require Import List ZArith QArith Bool Lia.
From Verif Require Import ExprModel ExprSpec OptModel OptSpec OptEval OptFacts OptSimplify OptRounds OptRefute.
Import ListNotations.

(** C05, canonicalization: if the result is used ([ign = false]) it is the
    same; effects and quitting always are.  For all trees, primaries that
    behave in any way, and float operations. *)
Theorem C05_canonicalize :
  forall (F : Type) (fo : float_ops F) level b e, wf e -> forall ign h r h1 q,
    eval level b e h = (r, h1, q) ->
    exists r', eval level b (canonicalize fo level ign (annotate fo level ign e)) h = (r', h1, q) /\
               (ign = false -> q = false -> r' = r).
Proof.
  exact @canonicalize_equiv.
Qed.
Print Assumptions C05_canonicalize.

(** C05, reordering by cost *)
Theorem C05_reorder :
  forall (F : Type) (fo : float_ops F) level b e, wf e -> forall ign h r h1 q,
    eval level b e h = (r, h1, q) ->
    exists r', eval level b (reorder fo level ign (annotate fo level ign e)) h = (r', h1, q) /\
               (ign = false -> q = false -> r' = r).
Proof.
  exact @reorder_equiv.
Qed.
Print Assumptions C05_reorder.

(** C05, simplification *)
Theorem C05_simplify :
  forall (F : Type) (fo : float_ops F) level b e, wf e -> forall ign h r h1 q,
    eval level b e h = (r, h1, q) ->
    exists r', eval level b (simplify fo level ign (annotate fo level ign e)) h = (r', h1, q) /\
               (ign = false -> q = false -> r' = r).
Proof.
  exact @simplify_equiv.
Qed.
Print Assumptions C05_simplify.

(** C05, the whole of -O0 and -O1 (all rounds) *)
Theorem C05_optimize_O1 :
  forall (F : Type) (fo : float_ops F) level b, (level <= 1)%nat ->
    forall udb gdb ign before impure e e' s' impure', wf e ->
    optimize fo level udb gdb ign before impure e = (e', s', impure') ->
    forall h r h1 q, eval level b e h = (r, h1, q) ->
    exists r', eval level b e' h = (r', h1, q) /\ (ign = false -> q = false -> r' = r).
Proof.
  exact @optimize_equiv.
Qed.
Print Assumptions C05_optimize_O1.

(** C06, the data flow pass by itself: where the facts [before] are true of the
    file, replacing what they decide and what cannot be reached changes neither
    effects nor quitting, nor the result if it is used; the facts computed for
    each result are true again; and effects happen only to files described by
    [impure'].
    Missing for the full property: expressions with a comma and primaries that
    are not [tame].  The statement is false of those, as the refutations below
    show.  It is also assumed that the file does not change while it is being
    evaluated ([about]). *)
Theorem C06_data_flow_partial :
  forall (F : Type) (fo : float_ops F) level udb gdb f u b, wf_file f -> about f b ->
    forall ign before impure e e' s' impure', wf e -> made_of (tame level udb gdb f u) e ->
    proper before -> describes f u before ->
    data_flow fo level udb gdb ign before impure (annotate fo level ign e) = (e', s', impure') ->
    forall h r h1 q, eval level b e h = (r, h1, q) ->
    exists r', eval level b e' h = (r', h1, q) /\
      (ign = false -> q = false -> r' = r /\ describes f u (if r then fst s' else snd s')) /\
      ((h1 = h /\ q = false) \/ describes f u impure').
Proof.
  exact data_flow_partial.
Qed.
Print Assumptions C06_data_flow_partial.

(** C06, all passes and rounds of -O2, -O3 and -O4.  Missing: as above. *)
Theorem C06_optimize_partial :
  forall (F : Type) (fo : float_ops F) level udb gdb f u b, (2 <= level)%nat ->
    wf_file f -> about f b ->
    forall ign before impure e e' s' impure', wf e -> made_of (tame level udb gdb f u) e ->
    proper before -> proper impure -> describes f u before ->
    optimize fo level udb gdb ign before impure e = (e', s', impure') ->
    forall h r h1 q, eval level b e h = (r, h1, q) ->
    exists r', eval level b e' h = (r', h1, q) /\
      (ign = false -> q = false -> r' = r /\ describes f u (if r then fst s' else snd s')) /\
      ((h1 = h /\ q = false) \/ describes f u impure').
Proof.
  exact optimize_partial.
Qed.
Print Assumptions C06_optimize_partial.

(** C07 at -O0 and -O1: visiting any file at any depth has the same effects,
    prunes and quits in the same cases.  (An -exclude expression contains no
    actions, so it cannot quit.)  Missing for the full property: -O2 to -O4. *)
Theorem C07_optimized_visit_partial :
  forall (F : Type) (fo : float_ops F) level b, (level <= 1)%nat ->
    forall udb gdb c depth h, wf (c_exclude c) -> wf (c_expr c) ->
    (forall h r h1 q, eval level b (c_exclude c) h = (r, h1, q) -> q = false) ->
    visit_file level b (bfs_optimize fo level udb gdb c) depth h = visit_file level b c depth h.
Proof.
  exact @bfs_optimize_O1.
Qed.
Print Assumptions C07_optimized_visit_partial.

(** C07 at every level, including the adjusted -mindepth and -maxdepth, for
    expressions without commas whose primaries are [tame].  The command line
    gives non-negative depths that fit an int.  Missing for the full property:
    the other expressions, where the statement is false as the next theorems
    show, and files that change while they are being evaluated. *)
Theorem C07_optimized_visit_all_levels_partial :
  forall (F : Type) (fo : float_ops F) level udb gdb f u b, wf_file f -> about f b ->
    forall c h, wf (c_exclude c) -> wf (c_expr c) ->
    made_of (tame level udb gdb f u) (c_exclude c) -> made_of (tame level udb gdb f u) (c_expr c) ->
    (forall h r h1 q, eval level b (c_exclude c) h = (r, h1, q) -> q = false) ->
    (0 <= c_mindepth c <= INT_MAX)%Z -> (0 <= c_maxdepth c <= INT_MAX)%Z ->
    visit_file level b (bfs_optimize fo level udb gdb c) (f_depth f) h = visit_file level b c (f_depth f) h.
Proof.
  exact visit_partial.
Qed.
Print Assumptions C07_optimized_visit_all_levels_partial.

(** C07 fails at the default level: for each of these command lines there is
    an unchanging file on which the optimized expression does something else. *)

(* -size +10k -size -5M -print *)
Theorem C07_size_units_refuted : exists f, differs f cmd_size.
Proof.
  exact size_units_refuted.
Qed.
Print Assumptions C07_size_units_refuted.

(* -inum +6 ! -samefile A -inum -8 -print, where A has inode number 7 on another device *)
Theorem C07_samefile_refuted : exists f, differs f cmd_samefile.
Proof.
  exact samefile_refuted.
Qed.
Print Assumptions C07_samefile_refuted.

(* ( -uid 1000 -o -uid 1001 ) -print, both users existing *)
Theorem C07_uid_refuted : exists f, differs f cmd_uid.
Proof.
  exact uid_refuted.
Qed.
Print Assumptions C07_uid_refuted.

(* ( -true -o -print ) , -print *)
Theorem C07_comma_refuted : exists f, differs f cmd_comma.
Proof.
  exact comma_refuted.
Qed.
Print Assumptions C07_comma_refuted.

(* ! -name x , -print *)
Theorem C07_comma_not_refuted : exists f, differs f cmd_comma_not.
Proof.
  exact comma_not_refuted.
Qed.
Print Assumptions C07_comma_not_refuted.

(** Two more at the default level, for files that do not stay the same or that cannot be examined: *)

(* -empty -exec touch {}/x ; ! -empty -print, for a directory that the command puts a file into *)
Theorem C07_changing_refuted : exists f g b, wf_file f /\ wf_file g /\ f_depth f = f_depth g /\
  becomes f g b /\ ~ same_visits (f_depth f) b cmd_changing.
Proof.
  exact changing_refuted.
Qed.
Print Assumptions C07_changing_refuted.

(* ( -links +1 -o -links -2 ) -print, for a file whose directory is not searchable *)
Theorem C07_failing_refuted : exists f b, wf_file f /\ hidden_away f b /\ ~ same_visits (f_depth f) b cmd_failing.
Proof.
  exact failing_refuted.
Qed.
Print Assumptions C07_failing_refuted.

Module Examples.
  (* the unoptimized command lines: the first prints the directory, the second prints nothing *)
  Example changing_runs : becomes (dir_ true) (dir_ false) (changing (dir_ true) (dir_ false)) /\
    fst (fst (eval 3 (changing (dir_ true) (dir_ false)) (c_expr cmd_changing) [])) = true /\
    fst (fst (eval 3 (changing (dir_ true) (dir_ false)) (c_expr (bfs_optimize qops 3 all_db all_db cmd_changing)) [])) = false.
  Proof. split; [intros l v h E; cbn [val changing]; rewrite E; reflexivity|]. vm_compute. split; reflexivity. Qed.
  Example failing_runs :
    fst (eval 3 (failing reg) (c_expr cmd_failing) []) = (false, []) /\
    fst (eval 3 (failing reg) (c_expr (bfs_optimize qops 3 all_db all_db cmd_failing)) []) = (true, [LPrint PFprint 0]).
  Proof. vm_compute. split; reflexivity. Qed.

  (* ! ( -type f -o ! -print ) , ( -name x -o -true -print ) *)
  Definition a0 : annot Q := mkAnnot false false false 0 0.
  Definition e1 : expr Q :=
    Node a0 OComma
      [Node a0 ONot [Node a0 OOr [Leaf a0 (LType 256); Node a0 ONot [Leaf a0 (LPrint PFprint 0)]]];
       Node a0 OOr [Leaf a0 (LTest TName true 0);
                    Node a0 OAnd [Leaf a0 LTrue; Leaf a0 (LPrint PFprint 1)]]].
  Example e1_wf : wf e1.
  Proof. cbn. repeat split; eauto; discriminate. Qed.
  Example e1_changes :
    fst (fst (optimize qops 1 no_db no_db true df_top df_bottom e1)) <> annotate qops 1 true e1.
  Proof. vm_compute. discriminate. Qed.
  Example e1_cmd : let c := mkCtx (Leaf a0 (LTest TName true 1)) e1 0 INT_MAX in
    wf (c_exclude c) /\ wf (c_expr c) /\
    (forall h r h1 q, eval 1 (behaviour_of reg) (c_exclude c) h = (r, h1, q) -> q = false).
  Proof. cbn. repeat split; eauto; try discriminate. intros h r h1 q E. inversion E. reflexivity. Qed.
  Example e1_runs : exists h1, eval 1 (behaviour_of reg) e1 [] = (true, h1, false).
  Proof. eexists. reflexivity. Qed.

  (* -type f ( -depth +2 -print -o ! -hidden -size +3k -depth 1 -size +1k -print ) *)
  Definition e2 : expr Q :=
    Node a0 OAnd
      [Leaf a0 (LType 256);
       Node a0 OOr
         [Node a0 OAnd [Leaf a0 (LDepth CmpGreater 2); Leaf a0 (LPrint PFprint 0)];
          Node a0 OAnd [Node a0 ONot [Leaf a0 LHidden]; Leaf a0 (LSize UKB CmpGreater 3);
                        Leaf a0 (LDepth CmpEqual 1); Leaf a0 (LSize UKB CmpGreater 1);
                        Leaf a0 (LPrint PFprint 1)]]].
  Definition f2 : file := reg_file 1 1 20000 0.
  Example e2_hyps : wf e2 /\ made_of (tame 4 all_db all_db f2 UKB) e2.
  Proof. split; cbn; repeat split; eauto; try discriminate. Qed.
  Example f2_hyps : wf_file f2 /\ about f2 (behaviour_of f2).
  Proof. split; [repeat split; vm_compute; congruence|apply behaviour_of_about]. Qed.
  Example bottom_hyps : proper df_bottom.
  Proof.
    split; [intros r; vm_compute; repeat split; discriminate|].
    split; intros i H; cbn [df_bottom types xtypes] in H; rewrite N.bits_0 in H; discriminate.
  Qed.
  Example top_hyps : proper df_top /\ describes f2 UKB df_top.
  Proof.
    split; [split; [intros r; vm_compute; repeat split; discriminate|]|].
    - split; intros i H; cbn [df_top types xtypes] in H;
        (destruct (N.ltb_spec i 32) as [G|G]; [exact G|rewrite N.ones_spec_high in H by exact G; discriminate]).
    - split; [intros []; reflexivity|]. split; [intros []; vm_compute; split; discriminate|]. split; reflexivity.
  Qed.
  (* the analysis changes the expression, raises -mindepth and lowers no -maxdepth *)
  Definition c2 : ctx Q := mkCtx (Leaf a0 (LTest TName true 1)) e2 0 INT_MAX.
  Example c2_changes : let c := bfs_optimize qops 4 all_db all_db c2 in
    c_mindepth c = 1%Z /\ c_maxdepth c = INT_MAX /\
    c_expr c <> c_expr (bfs_optimize qops 1 all_db all_db c2).
  Proof. vm_compute. repeat split; discriminate. Qed.
  Example c2_hyps : wf (c_exclude c2) /\ made_of (tame 4 all_db all_db f2 UKB) (c_exclude c2) /\
    (forall h r h1 q, eval 4 (behaviour_of f2) (c_exclude c2) h = (r, h1, q) -> q = false) /\
    (0 <= c_mindepth c2 <= INT_MAX)%Z /\ (0 <= c_maxdepth c2 <= INT_MAX)%Z.
  Proof.
    cbn. split; [exact I|]. split; [exact I|]. split; [|unfold INT_MAX; lia].
    intros h r h1 q E. inversion E. reflexivity.
  Qed.
  Example e2_runs : exists h1, h1 <> [] /\ eval 4 (behaviour_of f2) e2 [] = (true, h1, false).
  Proof. eexists. split; [|reflexivity]. discriminate. Qed.
End Examples.
