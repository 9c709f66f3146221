(** * Settings: the property *)
From Coq Require Import String List Bool Arith ZArith NArith Permutation.
From Coq Require Import Init.Byte Strings.Byte.
From Verif Require Import NumModel NumSpec GramModel SetupModel SetupSpec SetupSteps SetupCalls SetupProofs.
Import ListNotations.
Local Open Scope string_scope.
Local Open Scope list_scope.

(** The settings are the ones that the flags and options ask for.  What is done on the way depends
    only on what comes before. *)
Theorem C68_settings w : sane (isspace w) -> forall cs p, setup w cs = Ok p ->
  as_asked w cs (context p) /\ exists es, all_seen w [] cs es /\ rev (log p) = es ++ concluding w cs.
Proof. exact (settings w). Qed.
Print Assumptions C68_settings.

(** A command line is refused only for the values in it, or if someone says no. *)
Theorem C68_accepted w : sane (isspace w) -> forall cs,
  (exists p, setup w cs = Ok p) <-> Forall (acceptable w) cs /\ ~ (asks w cs = true /\ answer w = false).
Proof. exact (accepted w). Qed.
Print Assumptions C68_accepted.

(** The settings do not depend on the order of flags and options about different things. *)
Theorem C68_order w cs ds p : rearranged cs ds -> setup w cs = Ok p -> exists q, setup w ds = Ok q /\ context q = context p.
Proof. exact (order w cs ds p). Qed.
Print Assumptions C68_order.

(** What is done with files and patterns does: -nocolor, -L and -E have no effect on what comes before. *)
Theorem C68_position_refuted :
  exists w, sane (isspace w) /\
  (exists f p, setup w [(b "-fprint", [b "-fprint"; f]); (b "-nocolor", [b "-nocolor"])] = Ok p /\ In (Opened f true) (log p)) /\
  (exists f p, setup w [(b "-samefile", [b "-samefile"; f]); (b "-L", [b "-L"])] = Ok p /\ In (Examined f false) (log p)) /\
  (exists x p, setup w [(b "-regex", [b "-regex"; x]); (b "-E", [b "-E"])] = Ok p /\ In (Compiled x BFS_REGEX_POSIX_BASIC) (log p)).
Proof. exact position. Qed.
Print Assumptions C68_position_refuted.

(** ** Examples *)
Module Examples.
  Definition space (c : byte) : bool := Byte.eqb c " "%byte.
  Lemma space_sane : sane space.
  Proof.
    intros c H. apply Byte.byte_dec_bl in H. subst c. split; [discriminate|]. split; [discriminate|].
    intros K. unfold is_digit_of in K. vm_compute in K. firstorder discriminate.
  Qed.
  Definition terminal : env :=
    {| no_color := None; posix_env := false; colors := true; stdin_tty := true; stdout_tty := true; stderr_tty := true;
       isatty := fun f => same f (b "/dev/tty"); nproc := 16; oniguruma := true; answer := true; isspace := space |}.
  Definition opt (ws : list string) : call := (b (hd "" ws), map b ws).

  (** bfs -L -j4 -O5 -D opt,what -S dfs -mindepth 1 -mindepth 2 -nowarn -x -depth -noleaf -nocolor -H *)
  Definition cs : list call :=
    [opt ["-L"]; (b "-j", [b "-j4"]); (b "-O", [b "-O5"]); opt ["-D"; "opt,what"]; opt ["-S"; "dfs"]; opt ["-mindepth"; "1"];
     opt ["-mindepth"; "2"]; opt ["-nowarn"]; opt ["-x"]; opt ["-depth"]; opt ["-noleaf"]; opt ["-fprint"; "/dev/tty"];
     opt ["-nocolor"]; opt ["-regextype"; "emacs"]; opt ["-regex"; "a+"]; opt ["-name"; "x"]; opt ["-newer"; "ref"]; opt ["-H"]].
  Example runs : exists p, setup terminal cs = Ok p /\
    (search (context p), mindepth (context p), maxdepth (context p), optlevel (context p), threads (context p), debug (context p),
     warn (context p), cout_colors (context p)) = (BFTW_DFS, 2, 2147483647, 5, 4, 4%N, false, false)%Z /\
    flags (context p) = (BFTW_RECOVER + BFTW_POST_ORDER + BFTW_FOLLOW_ROOTS + BFTW_PRUNE_MOUNTS)%N /\
    rev (log p) = [Warned (b "-O"); Warned (b "-D"); Opened (b "/dev/tty") true; Compiled (b "a+") BFS_REGEX_EMACS;
                   Examined (b "ref") true].
  Proof. eexists. split; [vm_compute; reflexivity|]. split; [reflexivity|]. split; reflexivity. Qed.

  (** -L without -unique looks for loops. *)
  Example loops : exists p, setup terminal [opt ["-L"]; opt ["-mount"]; opt ["-xdev"]] = Ok p /\
    flags (context p) = (BFTW_RECOVER + BFTW_FOLLOW_ALL + BFTW_DETECT_CYCLES + BFTW_SKIP_MOUNTS + BFTW_PRUNE_MOUNTS)%N /\
    rev (log p) = [Warned (b "-xdev")].
  Proof. eexists. split; [vm_compute; reflexivity|]. split; reflexivity. Qed.

  (** Values that are not understood *)
  Example refuses : map (fun c => setup terminal [c])
    [opt ["-j"; "0"]; opt ["-mindepth"; "-1"]; opt ["-S"; "best"]; opt ["-O"; "x"]; opt ["-regextype"; "perl"]] =
    repeat Rejected 5 /\ setup terminal [opt ["-D"; "tree,help"]] = Info.
  Proof. split; vm_compute; reflexivity. Qed.

  (** No to -prune with -depth *)
  Definition unsure : env :=
    {| no_color := None; posix_env := false; colors := true; stdin_tty := true; stdout_tty := true; stderr_tty := true;
       isatty := fun f => same f (b "/dev/tty"); nproc := 16; oniguruma := true; answer := false; isspace := space |}.
  Example no : setup unsure [opt ["-depth"]; opt ["-prune"]] = Rejected /\
    (exists p, setup terminal [opt ["-depth"]; opt ["-prune"]] = Ok p) /\
    exists p, setup unsure [opt ["-depth"]; opt ["-prune"]; opt ["-nowarn"]] = Ok p.
  Proof. split; [vm_compute; reflexivity|]. split; eexists; vm_compute; reflexivity. Qed.

  (** The options in another order, but -mindepth 2 after -mindepth 1 and -H after -L *)
  Example another : rearranged [opt ["-L"]; opt ["-mindepth"; "1"]; opt ["-mindepth"; "2"]; opt ["-x"]; opt ["-H"]]
    [opt ["-x"]; opt ["-L"]; opt ["-mindepth"; "1"]; opt ["-H"]; opt ["-mindepth"; "2"]].
  Proof.
    split.
    - apply Permutation_sym.
      apply (Permutation_cons_app [opt ["-L"]; opt ["-mindepth"; "1"]; opt ["-mindepth"; "2"]] [opt ["-H"]] (opt ["-x"])).
      cbn [app]. do 2 apply perm_skip. apply perm_swap.
    - intros t. cbn [filter].
      change (about_topic t (opt ["-L"])) with (String.eqb t "links"). change (about_topic t (opt ["-H"])) with (String.eqb t "links").
      change (about_topic t (opt ["-mindepth"; "1"])) with (String.eqb t "mindepth").
      change (about_topic t (opt ["-mindepth"; "2"])) with (String.eqb t "mindepth").
      change (about_topic t (opt ["-x"])) with false.
      destruct (String.eqb_spec t "links") as [-> |_]; [reflexivity|]. destruct (String.eqb t "mindepth"); reflexivity.
  Qed.
End Examples.
