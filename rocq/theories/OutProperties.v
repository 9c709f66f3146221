(** * C47: output files and the exit status *)
From Coq Require Import List Arith ZArith Bool Init.Byte.
From Verif Require Import OutModel OutSpec OutProofs.
Import ListNotations.
Local Open Scope nat_scope.

(** Without -noerror, and unless -exit says otherwise, an exit status of 0 means that standard output and every
    file named by the expression were given every byte printed to them, in order. *)
Theorem C47_complete : forall out err paths c ks, open_all (ctx_new false out err) paths = (c, ks) ->
  forall l o o' m c', uses ks l -> honest l -> run c l o o' m = (c', 0%Z) ->
  forall k, k = cout \/ In k ks -> accepted (stream_of c' k) = written k l.
Proof. exact output_complete. Qed.
Print Assumptions C47_complete.

(** The exit status is 0 if nothing fails. *)
Theorem C47_clean : forall ig out err paths c ks, open_all (ctx_new ig out err) paths = (c, ks) ->
  forall l o o' m, uses ks l -> Forall fine l -> (forall k, succeeds (o k) = true) -> (forall k, succeeds (o' k) = true) -> snd (run c l o o' m) = 0%Z.
Proof. exact no_false_alarm. Qed.
Print Assumptions C47_clean.

(** Two actions share a stream exactly if their paths name the same file, including the files which are already
    open as standard output and standard error. *)
Theorem C47_shared : forall ig out err paths c ks, open_all (ctx_new ig out err) paths = (c, ks) ->
  length ks = length paths /\
  (forall i k p id, nth_error ks i = Some k -> nth_error paths i = Some (p, id) ->
     (k = cout <-> id = out) /\ (k = cerr <-> id = err /\ err <> out) /\
     forall j k' p' id', nth_error ks j = Some k' -> nth_error paths j = Some (p', id') -> (k = k' <-> id = id')) /\
  nfiles c = length (nodup Nat.eq_dec (filter (fun id => negb (id =? out) && negb (id =? err)) (map snd paths))).
Proof. exact files_shared. Qed.
Print Assumptions C47_shared.

(** A command is started after everything printed so far has been written. *)
Theorem C47_commands : forall ig out err paths c ks, open_all (ctx_new ig out err) paths = (c, ks) ->
  forall l o m, uses ks l -> Forall fine (l ++ [Command o m]) ->
  forall k, k = cout \/ In k ks -> accepted (stream_of (context (bfs_eval c (l ++ [Command o m]))) k) = written k l.
Proof. exact commands_see. Qed.
Print Assumptions C47_commands.

(** Whatever fails, nothing reaches standard output and the named files but bytes which were printed to them, in
    the order in which they were printed.  (Standard error is excluded because the messages are written to it.) *)
Theorem C47_nothing_else : forall ig out err paths c ks, open_all (ctx_new ig out err) paths = (c, ks) ->
  forall l o o' m, uses ks l -> forall k, k <> cerr -> some_of (accepted (stream_of (fst (run c l o o' m)) k)) (written k l).
Proof. exact nothing_else. Qed.
Print Assumptions C47_nothing_else.

(** With -noerror, output can be lost with an exit status of 0. *)
Theorem C47_noerror_refuted : exists l c', let c := fst (open_all (ctx_new true 0 1) []) in
  uses [] l /\ (forall n, ~ In (Exit n) l) /\ run c l (fun _ => Accept 0) (fun _ => Accept 0) (fun _ => ([], Accept 0)) = (c', 0%Z) /\ written cout l <> [] /\ accepted (stream_of c' cout) = [].
Proof. exact noerror_hides. Qed.
Print Assumptions C47_noerror_refuted.

(** -exit 0 hides an action's failure to print. *)
Theorem C47_exit_refuted : exists l c', let c := fst (open_all (ctx_new false 0 1) []) in
  uses [] l /\ (forall n, In (Exit n) l -> n = 0%Z) /\ run c l (fun _ => Accept 0) (fun _ => Accept 0) (fun _ => ([], Accept 0)) = (c', 0%Z) /\ written cout l <> [] /\ accepted (stream_of c' cout) = [].
Proof. exact exit_hides. Qed.
Print Assumptions C47_exit_refuted.

(** -exit 256 hides a failure to write at the end. *)
Theorem C47_exit_256_refuted : exists l o c', let c := fst (open_all (ctx_new false 0 1) []) in
  uses [] l /\ Forall prints_fine l /\ In (Exit 256) l /\ run c l o (fun _ => Accept 0) (fun _ => ([], Accept 0)) = (c', 0%Z) /\ written cout l <> [] /\ accepted (stream_of c' cout) = [].
Proof. exact exit_256_hides. Qed.
Print Assumptions C47_exit_256_refuted.

Module Examples.
  (** -fprint a -fprint ./a -fprint /dev/stdout -fprint b: one stream for a, standard output, one for b. *)
  Definition paths : list (list byte * nat) := [([x61], 7); ([x2e; x2f; x61], 7); ([x2f; x64], 0); ([x62], 9)].
  Definition c := fst (open_all (ctx_new false 0 1) paths).
  Definition ks := snd (open_all (ctx_new false 0 1) paths).
  Example opened : open_all (ctx_new false 0 1) paths = (c, ks).
  Proof. apply surjective_pairing. Qed.
  Example streams_used : ks = [2; 2; 0; 5] /\ nfiles c = 2.
  Proof. split; reflexivity. Qed.
  Definition quiet : msg := ([], Accept 0).
  Definition l : list event :=
    [Print 2 [([x41; x0a], Accept 0)] quiet; Print 0 [([x42], Accept 1); ([x0a], Accept 0)] quiet;
     Command (fun _ => Accept 0) (fun _ => quiet); Print 5 [([x43], Accept 0)] quiet].
  Example l_uses : uses ks l.
  Proof. intros k d m I. cbn in I. destruct I as [E|[E|[E|[E|[]]]]]; try discriminate; injection E as <- _ _; [right; cbn; auto|left; reflexivity|right; cbn; auto]. Qed.
  Example l_honest : honest l.
  Proof. intros before n after E. exfalso. assert (I : In (Exit n) l) by (rewrite E; apply in_elt). cbn in I. intuition discriminate. Qed.
  Example l_fine : Forall fine l.
  Proof. repeat constructor. Qed.
  Example l_succeeds : snd (run c l (fun _ => Accept 0) (fun _ => Accept 0) (fun _ => quiet)) = 0%Z.
  Proof. reflexivity. Qed.
  Example l_written : written 2 l = [x41; x0a] /\ written cout l = [x42; x0a] /\ written 5 l = [x43].
  Proof. repeat split. Qed.
  (** If the disk is full when b is flushed at the end, the exit status says so. *)
  Example l_fails : snd (run c l (fun k => if k =? 5 then Refuse 0 true else Accept 0) (fun _ => Accept 0) (fun _ => quiet)) = 1%Z.
  Proof. reflexivity. Qed.
  (** If only close() fails, too. *)
  Example l_fails_late : snd (run c l (fun _ => Accept 0) (fun k => if k =? 5 then Refuse 0 true else Accept 0) (fun _ => quiet)) = 1%Z.
  Proof. reflexivity. Qed.
  (** Also if the flush before a command failed but everything afterwards succeeds. *)
  Example flush_fails : snd (run c [Print 2 [([x41], Accept 0)] quiet; Command (fun _ => Refuse 0 true) (fun _ => quiet)] (fun _ => Accept 0) (fun _ => Accept 0) (fun _ => quiet)) = 1%Z.
  Proof. reflexivity. Qed.
  (** The second of three writes fails and loses its bytes: the others are kept. *)
  Example partly : let l := [Print 0 [([x41], Accept 0)] quiet; Print 0 [([x42], Refuse 1 false)] quiet; Print 0 [([x43], Accept 0)] quiet] in
    accepted (stream_of (fst (run c l (fun _ => Accept 0) (fun _ => Accept 0) (fun _ => quiet))) cout) = [x41; x43] /\ written cout l = [x41; x42; x43].
  Proof. split; reflexivity. Qed.
End Examples.
