(** * C70: Dumps of the command line *)
From Coq Require Import String List Arith NArith ZArith Bool.
From Coq Require Import Init.Byte Strings.Byte.
From Verif Require Import QuoteModel QuoteSpec ColModel FmtModel FmtSpec DumpModel DumpSpec DumpProofs DumpMeans DumpRefuted.
From Verif Require NumSpec GramModel GramSpec SetupModel SetupSpec SetupProperties.
Import ListNotations.
Local Open Scope list_scope.

(** What a debugging flag dumps is a command line and the expressions.  A shell and bfs read the line as the same
    command with the same paths, and with settings that agree with the ones that it was printed for. *)
Theorem C70_dump : forall l w wg c n f on,
  good_locale l -> NumSpec.sane (SetupModel.isspace w) -> takes_settings w wg ->
  possible w (settings c) -> shell_word (argv0 c) = Some (argv0 c) -> paths c <> [] -> Forall (fun p => ~ In x00 p) (paths c) ->
  sound_node (exclude c) -> sound_node (expression c) ->
  In (n, f) debug_table -> N.land (SetupModel.debug (settings c)) f <> 0%N ->
  exists out line q, bfs_ctx_dump l None c f (mkCfile [] on) = Printed (mkCfile out on) /\
    dumped l c n line out /\ rereads w wg c line q /\ agree (settings c) q /\ forgotten w (settings c) q.
Proof. exact dump_ok. Qed.
Print Assumptions C70_dump.

(** All command lines lead to settings like these. *)
Theorem C70_possible : forall w cs p, NumSpec.sane (SetupModel.isspace w) -> (1 <= SetupModel.nproc w)%Z ->
  SetupModel.setup w cs = SetupModel.Ok p -> possible w (SetupModel.context p).
Proof. exact possible_ok. Qed.
Print Assumptions C70_possible.

(** Without the flag, nothing is printed. *)
Theorem C70_silent : forall l t c f o, N.land (SetupModel.debug (settings c)) f = 0%N -> bfs_ctx_dump l t c f o = Printed o.
Proof. exact silent_ok. Qed.
Print Assumptions C70_silent.

(** The line does not say everything: -noerror, -nowarn and whether messages are colored are missing. *)
Theorem C70_all_refuted : exists l w wg cs p c out line q,
  good_locale l /\ NumSpec.sane (SetupModel.isspace w) /\ takes_settings w wg /\
  SetupModel.setup w cs = SetupModel.Ok p /\ settings c = SetupModel.context p /\
  bfs_ctx_dump l None c 64 (mkCfile [] false) = Printed (mkCfile out false) /\ dumped l c "tree" line out /\ rereads w wg c line q /\
  SetupModel.ignore_errors q <> SetupModel.ignore_errors (settings c) /\ SetupModel.warn q <> SetupModel.warn (settings c) /\
  SetupModel.cerr_colors q <> SetupModel.cerr_colors (settings c).
Proof. exact not_all. Qed.
Print Assumptions C70_all_refuted.

(** With -files0-from and an empty list there are no paths, and to the line that means the current directory. *)
Theorem C70_roots_refuted : exists l w wg c line words cmd,
  possible w (settings c) /\ dump_line l None c (mkCfile [] false) = Printed (mkCfile line false) /\
  shell_line line (argv0 c :: words) /\ GramSpec.means wg words cmd /\ GramModel.c_roots cmd = [str "."] /\ paths c = [].
Proof. exact not_roots. Qed.
Print Assumptions C70_roots_refuted.

(** The name of the command is not quoted. *)
Theorem C70_name_refuted : exists l w c line words,
  possible w (settings c) /\ dump_line l None c (mkCfile [] false) = Printed (mkCfile line false) /\
  shell_line line words /\ hd [] words <> argv0 c.
Proof. exact not_name. Qed.
Print Assumptions C70_name_refuted.

(** The optimizer can set the largest depth to the smallest int (src/opt.c 2322-2329), with which bfs does not accept its own line. *)
Theorem C70_depth_refuted : exists l w wg c line words cmd,
  SetupModel.maxdepth (settings c) = (- 2 ^ 31)%Z /\ dump_line l None c (mkCfile [] false) = Printed (mkCfile line false) /\
  shell_line line (argv0 c :: words) /\ GramSpec.means wg words cmd /\
  SetupModel.setup w (calls_in (GramModel.c_expr cmd)) = SetupModel.Rejected.
Proof. exact not_depth. Qed.
Print Assumptions C70_depth_refuted.

(** ** Examples *)
Module Examples.
  Definition opts (ws : list (list string)) : list SetupModel.call := map opt ws.
  Definition cs : list SetupModel.call :=
    opts [["-L"]; ["-s"]; ["-X"]; ["-S"; "dfs"]; ["-D"; "tree,opt"]; ["-depth"]; ["-ignore_readdir_race"]; ["-mindepth"; "1"]; ["-maxdepth"; "12"];
           ["-x"]; ["-status"]; ["-unique"]; ["-nocolor"]]%string ++ [(GramModel.b "-j", [GramModel.b "-j2"]); (GramModel.b "-O", [GramModel.b "-O1"])].
  Definition p : SetupModel.parser := match SetupModel.setup w cs with SetupModel.Ok p => p | _ => SetupModel.init w end.
  Definition leaf (ws : list string) : node := Leaf (Expr BFS_OTHER (map str ws) 0 0 [] [] []).
  Definition c : ctx :=
    {| settings := SetupModel.context p; argv0 := str "/usr/bin/bfs"; paths := [str "a b"; str "-x"; []];
       exclude := Parent (str "-or") [leaf ["-hidden"]%string];
       expression := Parent (str "-and") [leaf ["-name"; "*.c"]%string; Parent (str "-not") [Parent (str "-or") [leaf ["-empty"]%string; leaf ["-true"]%string]]] |}.
  Example output : bfs_ctx_dump ColSpec.c_locale None c 64 (mkCfile [] false) = Printed (mkCfile (str
"bfs: -D tree: /usr/bin/bfs -L -X -s -j2 -O1 -S dfs -D opt,tree ""a b"" -f -x """" -nocolor -depth -ignore_readdir_race -mindepth 1 -maxdepth 12 -status -unique -xdev
bfs: -D tree: (-exclude
bfs: -D tree:   (-or
bfs: -D tree:     (-hidden)))
bfs: -D tree: (-and
bfs: -D tree:   (-name ""*.c"")
bfs: -D tree:   (-not
bfs: -D tree:     (-or
bfs: -D tree:       (-empty)
bfs: -D tree:       (-true))))
") false).
  Proof. vm_compute. reflexivity. Qed.

  Example hypotheses_possible : NumSpec.sane (SetupModel.isspace w) /\ (1 <= SetupModel.nproc w)%Z /\ SetupModel.setup w cs = SetupModel.Ok p.
  Proof. split; [exact space_sane|]. split; [discriminate|]. vm_compute. reflexivity. Qed.
  Lemma leaf_ok ws : ws <> [] -> sound_node (leaf ws).
  Proof. intros H. constructor. constructor; [destruct ws; [contradiction|discriminate]|constructor]. Qed.
  Ltac sounds := repeat first [apply leaf_ok; discriminate | apply n_parent | apply Forall_cons | apply Forall_nil].
  Example hypotheses_dump :
    good_locale ColSpec.c_locale /\ NumSpec.sane (SetupModel.isspace w) /\ takes_settings w wg /\
    possible w (settings c) /\ shell_word (argv0 c) = Some (argv0 c) /\ paths c <> [] /\ Forall (fun p => ~ In x00 p) (paths c) /\
    sound_node (exclude c) /\ sound_node (expression c) /\
    In ("tree"%string, 64%N) debug_table /\ N.land (SetupModel.debug (settings c)) 64 <> 0%N.
  Proof.
    split; [exact good|]. split; [exact space_sane|]. split; [exact takes|].
    split; [apply (C70_possible w cs p); apply hypotheses_possible|]. split; [reflexivity|]. split; [discriminate|].
    split; [repeat constructor; vm_compute; intuition discriminate|]. split; [unfold c, exclude; sounds|]. split; [unfold c, expression; sounds|].
    split; [cbn [In debug_table]; repeat first [left; reflexivity | right]|discriminate].
  Qed.
  Example hypotheses_silent : N.land (SetupModel.debug (settings c)) 1 = 0%N.
  Proof. reflexivity. Qed.
End Examples.
