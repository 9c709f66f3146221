(** * C76: signals do what they would have done *)
From Coq Require Import List Bool Arith ZArith Lia.
From Verif Require Import DispSpec DispModel DispProofs.
Import ListNotations.
Open Scope nat_scope.

(** After any history, a signal runs the hooks for it, and then ends the process, which is seen to have died of that signal and not of another one, or stops it, or
    is ignored, as it would have been without any hooks, unless one of them asks to go on.  Faults end the process without running any hooks.  This is
    for signals that were at their default when bfs was started, and for ignored ones as long as no hooks that concern them have been asked for;
    otherwise it is false (below).  Signal 64 is not included (see C36). *)
Theorem C76_signals_partial : forall can clobber started, system can started -> forall todo s h sig code,
  Forall fair (map fst todo) -> plenty todo -> run can clobber (init started) todo = Some (s, h) -> 1 <= sig < 64 ->
  (started sig = Ignored -> touched sig (map fst todo) = false) ->
  snd (deliver can clobber s sig code) = expected can started (live h) sig code.
Proof. exact signal_ok. Qed.
Print Assumptions C76_signals_partial.

(** Without enough memory, only hooks for exits may be missed. *)
Theorem C76_memory_partial : forall can clobber started, system can started -> forall todo s h sig code,
  Forall fair (map fst todo) -> run can clobber (init started) todo = Some (s, h) -> 1 <= sig < 64 ->
  (started sig = Ignored -> touched sig (map fst todo) = false) ->
  same_fate (snd (deliver can clobber s sig code)) (expected can started (live h) sig code).
Proof. exact fate_ok. Qed.
Print Assumptions C76_memory_partial.

(** If the process goes on, then as if the signal had not arrived: errno is the same, and so is how signals are treated. *)
Theorem C76_unnoticed : forall can clobber started, system can started -> forall todo s h sig code s' ran,
  Forall fair (map fst todo) -> run can clobber (init started) todo = Some (s, h) -> 1 <= sig < 64 ->
  deliver can clobber s sig code = (s', Continues ran) ->
  errno s' = errno s /\ hooks s' = hooks s /\ forall g, disp s' g = disp s g /\ blocked s' g = blocked s g.
Proof. exact unnoticed. Qed.
Print Assumptions C76_unnoticed.

(** With enough memory, hooks can be added for all signals that can be handled. *)
Theorem C76_added : forall can clobber started, system can started -> forall todo s h n sig go m,
  Forall fair (map fst todo) -> run can clobber (init started) todo = Some (s, h) -> can sig = true -> (forall g, fst m g = true) -> snd m = true ->
  snd (step can clobber s (Hook n sig go) m) = Added true /\ snd (step can clobber s (AtExit n) m) = Added true.
Proof. exact added. Qed.
Print Assumptions C76_added.

(** Commands that are started by fork() treat all signals as bfs was told to when it was started. *)
Theorem C76_forked : forall can clobber started, system can started -> forall todo s h,
  Forall fair (map fst todo) -> run can clobber (init started) todo = Some (s, h) ->
  exists d, command can s false = Some d /\ forall sig, d sig = started sig.
Proof. exact forked. Qed.
Print Assumptions C76_forked.

(** If they are started by posix_spawn(), that is so for signals that were at their default, or are not concerned by any hooks. *)
Theorem C76_spawned_partial : forall can clobber started, system can started -> forall todo s h,
  Forall fair (map fst todo) -> run can clobber (init started) todo = Some (s, h) ->
  exists d, command can s true = Some d /\ forall sig, (started sig = Ignored -> touched sig (map fst todo) = false) -> d sig = started sig.
Proof. exact spawned. Qed.
Print Assumptions C76_spawned_partial.

(** C76 fails: a signal that bfs was told to ignore, like SIGHUP by nohup or SIGINT for a job in the background, kills it if there is a hook for
    exits, as there always is when output is in color. *)
Theorem C76_ignored_refuted : exists can clobber started todo s h, system can started /\ Forall fair (map fst todo) /\ plenty todo /\
  run can clobber (init started) todo = Some (s, h) /\ started 1 = Ignored /\
  snd (deliver can clobber s 1 0) = Killed 1 [] [7] /\ expected can started (live h) 1 0 = Continues [].
Proof.
  exists (fun g => (1 <=? g) && (g <=? 64) && negb (existsb (Nat.eqb g) [9; 19; 32; 33])), (fun _ => 0%Z), (fun g => if g =? 1 then Ignored else AtDefault),
    [(AtExit 7, (fun _ => true, true))].
  eexists. eexists. split.
  { constructor; [repeat split| |].
    - intros g. rewrite !andb_true_iff, !Nat.leb_le. lia.
    - intros g. destruct (Nat.eqb_spec g 1) as [->|]; [discriminate|reflexivity]. }
  split; [repeat constructor|]. split; [repeat constructor|]. split; [cbn [run step]; rewrite (surjective_pairing (atsigexit _ _ _ _ _)); cbn [over]; reflexivity|].
  split; [reflexivity|]. split; vm_compute; reflexivity.
Qed.
Print Assumptions C76_ignored_refuted.

(** C76 fails: a command that is started by posix_spawn() no longer ignores such a signal, although it does if it is started by fork(). *)
Theorem C76_spawned_refuted : exists can clobber started todo s h d, system can started /\ Forall fair (map fst todo) /\ plenty todo /\
  run can clobber (init started) todo = Some (s, h) /\ started 2 = Ignored /\ command can s true = Some d /\ d 2 = AtDefault.
Proof.
  exists (fun g => (1 <=? g) && (g <=? 64) && negb (existsb (Nat.eqb g) [9; 19; 32; 33])), (fun _ => 0%Z), (fun g => if g =? 2 then Ignored else AtDefault),
    [(AtExit 7, (fun _ => true, true))].
  eexists. eexists. eexists. split.
  { constructor; [repeat split| |].
    - intros g. rewrite !andb_true_iff, !Nat.leb_le. lia.
    - intros g. destruct (Nat.eqb_spec g 2) as [->|]; [discriminate|reflexivity]. }
  split; [repeat constructor|]. split; [repeat constructor|]. split; [cbn [run step]; rewrite (surjective_pairing (atsigexit _ _ _ _ _)); cbn [over]; reflexivity|].
  split; [reflexivity|]. split; [reflexivity|]. vm_compute. reflexivity.
Qed.
Print Assumptions C76_spawned_refuted.

Module Examples.
  Definition can (g : nat) : bool := (1 <=? g) && (g <=? 64) && negb (existsb (Nat.eqb g) [9; 19; 32; 33]).
  (** SIGTTOU is ignored. *)
  Definition started (g : nat) : start := if g =? 22 then Ignored else AtDefault.
  Definition clobber (n : nat) : Z := Z.of_nat n.
  Example linux : system can started.
  Proof.
    constructor; [repeat split| |].
    - intros g. unfold can. rewrite !andb_true_iff, !Nat.leb_le. lia.
    - intros g. unfold started. destruct (Nat.eqb_spec g 22) as [->|]; [discriminate|reflexivity].
  Qed.
  (** The hooks of bfs, with colors and a status bar: two for colors, the bar (and SIGWINCH), SIGALRM, and SIGUSR1.  Then some signals arrive, and the bar is hidden. *)
  Definition m : memory := (fun _ => true, true).
  Definition bfs : list (op * memory) :=
    map (fun o => (o, m)) [AtExit 0; AtExit 1; AtExit 2; Hook 3 28 false; Hook 4 14 true; Hook 5 10 true; Signal 14 128; Signal 10 0; Signal 28 128; Signal 22 128; Unhook 4; Unhook 3; Unhook 2].
  Definition after : option (state * list (op * result)) := run can clobber (init started) bfs.
  Definition answer {A} (f : state -> list (op * result) -> A) : option A := match after with Some (s, h) => Some (f s h) | None => None end.
  Example fair_bfs : Forall fair (map fst bfs) /\ plenty bfs.
  Proof. split; repeat constructor; discriminate. Qed.
  Example seen : answer (fun _ h => (live h, map snd (skipn 6 h))) =
    Some ([(0, 0, false); (1, 0, false); (5, 10, true)], [Seen (Continues [4]); Seen (Continues [5]); Seen (Continues [3]); Seen (Continues []); Removed; Removed; Removed]).
  Proof. vm_compute. reflexivity. Qed.
  (** SIGINT, SIGALRM (no longer wanted), SIGUSR1, a real SIGSEGV, one sent by kill(), SIGKILL, SIGTSTP and SIGCHLD *)
  Example fates : answer (fun s _ => map (fun x => snd (deliver can clobber s (fst x) (snd x))) [(2, 128%Z); (14, 128%Z); (10, 0%Z); (11, 1%Z); (11, 0%Z); (9, 0%Z); (20, 128%Z); (17, 1%Z)]) =
    Some [Killed 2 [] [0; 1]; Killed 14 [] [0; 1]; Continues [5]; Killed 11 [] []; Killed 11 [] [0; 1]; Killed 9 [] []; Stops; Continues []].
  Proof. vm_compute. reflexivity. Qed.
  Example commands : answer (fun s _ => map (option_map (fun d => (d 22, d 2, d 10))) [command can s true; command can s false]) =
    Some [Some (Ignored, AtDefault, AtDefault); Some (Ignored, AtDefault, AtDefault)].
  Proof. vm_compute. reflexivity. Qed.
End Examples.
