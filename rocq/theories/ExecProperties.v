(** * Properties of -exec and -execdir *)
From Coq Require Import List Arith Bool Lia.
From Coq Require Import Init.Byte Strings.Byte.
From Verif Require Import PathModel PathSpec ExecModel ExecSpec ExecProofs ExecRuns ExecDirs.
Import ListNotations.

(** C16: an argument of the command is expanded by replacing every {} by the path and
    changing nothing else, unless memory runs out. *)
Theorem C16_substitution : forall mem tmpl path, exists r, format_arg mem tmpl path = Some r /\
  (r = None \/ r = Some (substitute path tmpl)) /\
  ((forall i, mem i = true) -> r = Some (substitute path tmpl)).
Proof.
  exact format_arg_ok.
Qed.
Print Assumptions C16_substitution.

(** C16: the arguments of the action are accepted exactly if they are a command that ends in a
    semicolon, or (unless confirmation is asked for) in {} +. *)
Theorem C16_command : forall confirm args tmpl multi,
  exec_parse confirm args = Some (tmpl, multi) <-> command confirm args tmpl multi.
Proof.
  exact exec_parse_ok.
Qed.
Print Assumptions C16_command.

(** C14: with -exec {} +, for any limits, any system and any failures, commands get paths in the order of the
    files, none twice; if any path was not given to a command that was run, the action has failed. *)
Theorem C14_order : forall dir tmpl kernel limit fs, exists e,
  exec_files dir false tmpl kernel (exec_init dir tmpl limit) fs = Some e /\
  Forall (fun a => exists qs, t_argv dir a = tmpl ++ qs /\ t_cwd dir a = None) (tries dir e) /\
  subseq (executed tmpl (tries dir e)) (map (fun fw => f_path dir (fst fw)) fs) /\
  (failed dir e = false -> executed tmpl (tries dir e) = map (fun fw => f_path dir (fst fw)) fs).
Proof.
  exact runs_subseq.
Qed.
Print Assumptions C14_order.

(** C14, partial: no path is lost if the system refuses exactly the commands whose paths take more
    than [most] bytes, and each path takes at most half of the limit and of 15/16 of [most].
    Missing: larger paths, for which it is false (below). *)
Theorem C14_exact_partial : forall dir tmpl kernel limit fs most low,
  limited tmpl most kernel -> low <= most - most / 16 -> low <= limit ->
  Forall (fun fw => generous (snd fw)) fs -> (forall f w, In (f, w) fs -> arg_size (f_path dir f) <= low / 2) -> exists e,
  exec_files dir false tmpl kernel (exec_init dir tmpl limit) fs = Some e /\
  executed tmpl (tries dir e) = map (fun fw => f_path dir (fst fw)) fs.
Proof.
  exact runs_exact.
Qed.
Print Assumptions C14_exact_partial.

(** C14, partial: the paths of a command are within the limit, or it has a single path.
    Missing: systems that refuse commands that are within the limit. *)
Theorem C14_size_partial : forall dir tmpl kernel limit fs, unlimited kernel -> forall e,
  exec_files dir false tmpl kernel (exec_init dir tmpl limit) fs = Some e ->
  Forall (fun a => exists qs, t_argv dir a = tmpl ++ qs /\ (total qs <= limit \/ length qs = 1)) (tries dir e).
Proof.
  exact runs_small.
Qed.
Print Assumptions C14_size_partial.

(** C15: with -execdir ; the command is run in the directory of the file, with {} replaced by a path
    that leads to it from there. *)
Theorem C15_single : forall dir chdir kernel full w mem f, exists r, exec_single dir chdir kernel full w mem (exec_init dir [] 0) f = Some r /\
  (r = None \/ exists t, r = Some t /\ t_argv dir t = map (substitute (format_path dir chdir f)) full /\ t_outcome dir t = kernel 0 (t_argv dir t) /\
    (chdir = false -> t_cwd dir t = None) /\
    (chdir = true -> forall place, reported place f -> opens place w ->
       match t_cwd dir t with Some d => d | None => place [] end = place (dir_part (f_path dir f)))) /\
  (w_arg dir w = true -> (forall i, mem i = true) -> (chdir = true -> forall p, w_open dir w p <> None) -> r <> None).
Proof.
  exact single_ok.
Qed.
Print Assumptions C15_single.

Theorem C15_name : forall dir (f : file dir), f_nameoff dir f = xbaseoff (f_path dir f) ->
  same_path (from (dir_part (f_path dir f)) (format_path dir true f)) (f_path dir f).
Proof.
  exact name_resolves.
Qed.
Print Assumptions C15_name.

(** C15, partial: with -execdir {} + every command is run in the directory of all its files.
    Missing: files that follow others with which they can be confused, and
    directories that cannot be opened; for both it is false (below). *)
Theorem C15_multi_partial : forall dir (place : list byte -> dir) tmpl kernel limit fs e,
  Forall (fun fw => reported place (fst fw) /\ opens place (snd fw)) fs ->
  ForallOrdPairs (fun g f => ~ confused g f) (map fst fs) ->
  exec_files dir true tmpl kernel (exec_init dir tmpl limit) fs = Some e ->
  Forall (in_place place tmpl (map fst fs)) (tries dir e) /\
  subseq (executed tmpl (tries dir e)) (map (format_path dir true) (map fst fs)) /\
  (failed dir e = false -> executed tmpl (tries dir e) = map (format_path dir true) (map fst fs)).
Proof.
  exact dirs_in_place.
Qed.
Print Assumptions C15_multi_partial.

Theorem C15_multi_total_partial : forall dir tmpl kernel limit fs, Forall (fun fw => forall p, w_open dir (snd fw) p <> None) fs ->
  exists e, exec_files dir true tmpl kernel (exec_init dir tmpl limit) fs = Some e.
Proof.
  exact dirs_total.
Qed.
Print Assumptions C15_multi_total_partial.

(** ** What does not hold *)

Module Refuted.
  Definition x (n : nat) : list byte := repeat x61 n.
  Definition ok : world unit := mkWorld unit true true true (fun _ => None).
  Definition file1 (p : list byte) : file unit * world unit := (mkFile unit p 0 None, ok).
  Definition echo : list arg := [[x65; x63; x68; x6f]].
  (** A system that takes 110 bytes *)
  Definition small (n : nat) (l : list arg) : outcome := if 110 <? total (skipn 1 l) then TooBig else Done.
  Definition files : list (file unit * world unit) := [file1 (x 91); file1 (x 1); file1 (x 2)].

  (** Directories are where their paths say. *)
  Definition here : world (list byte) := mkWorld _ true true true Some.
  Definition closed : world (list byte) := mkWorld _ true true true (fun _ => None).
  Definition done (n : nat) (l : list arg) : outcome := Done.
  Definition file2 (p : list byte) : file (list byte) := mkFile _ p (xbaseoff p) None.
  Definition system (l : list (list byte)) : list (file (list byte) * world (list byte)) := map (fun p => (file2 p, here)) l.
  Definition run (w : world (list byte)) (l : list (list byte)) : option (list (list arg * option (list byte))) :=
    option_map (fun e => map (fun t => (t_argv _ t, t_cwd _ t)) (tries _ e))
      (exec_files _ true echo done (exec_init _ echo 1000) (map (fun p => (file2 p, w)) l)).
  Definition foo : list byte := [x66; x6f; x6f].
End Refuted.

(** C14: paths are lost though each of them fits. *)
Theorem C14_exact_refuted : exists tmpl kernel limit most (fs : list (file unit * world unit)),
  limited tmpl most kernel /\ Forall (fun fw => generous (snd fw)) fs /\
  Forall (fun fw => arg_size (f_path unit (fst fw)) <= most /\ arg_size (f_path unit (fst fw)) <= limit) fs /\
  exists e, exec_files unit false tmpl kernel (exec_init unit tmpl limit) fs = Some e /\ executed tmpl (tries unit e) = [].
Proof.
  exists Refuted.echo, Refuted.small, 1000, 110, Refuted.files. split.
  { intros n ps. unfold Refuted.small. cbn [Refuted.echo app skipn]. destruct (Nat.ltb_spec 110 (total ps)); split; (split; (discriminate || lia || auto)) || discriminate. }
  split; [repeat constructor|]. split.
  { unfold Refuted.files, Refuted.file1, Refuted.x, arg_size. cbn [f_path fst]. repeat constructor; cbn [f_path fst]; rewrite ?repeat_length; lia. }
  eexists. split; vm_compute; reflexivity.
Qed.
Print Assumptions C14_exact_refuted.

(** C15: -depth with a root foo/ runs echo ./x ./foo/ in foo/. *)
Theorem C15_slash_refuted : exists tmpl kernel fs e,
  Forall (fun fw => reported (fun p => p) (fst fw) /\ opens (fun p => p) (snd fw)) fs /\
  exec_files _ true tmpl kernel (exec_init _ tmpl 1000) fs = Some e /\ ~ Forall (in_place (fun p => p) tmpl (map fst fs)) (tries _ e).
Proof.
  exists Refuted.echo, Refuted.done, (Refuted.system [Refuted.foo ++ [slash; x78]; Refuted.foo ++ [slash]]). eexists. split; [|split; [vm_compute; reflexivity|]].
  - repeat constructor; cbn; try discriminate; intros q d [= <-]; reflexivity.
  - intros H. inversion H as [|? ? (gs & I & E & P) _]; subst. cbn in E, P, I.
    destruct gs as [|g1 [|g2 [|g3 gs]]]; try discriminate E.
    pose proof (I g1 (or_introl eq_refl)) as I1. pose proof (I g2 (or_intror (or_introl eq_refl))) as I2.
    pose proof (P g1 (or_introl eq_refl)) as P1. pose proof (P g2 (or_intror (or_introl eq_refl))) as P2.
    destruct I1 as [<-|[<-|[]]], I2 as [<-|[<-|[]]]; vm_compute in E, P1, P2; discriminate.
Qed.
Print Assumptions C15_slash_refuted.
Example slash_run : Refuted.run Refuted.here [Refuted.foo ++ [slash; x78]; Refuted.foo ++ [slash]] =
  Some [([[x65; x63; x68; x6f]; [dot; slash; x78]; [dot; slash] ++ Refuted.foo ++ [slash]], Some (Refuted.foo ++ [slash]))].
Proof. vm_compute. reflexivity. Qed.

(** C15: with the roots foo and / it runs echo ./foo / in /. *)
Theorem C15_root_refuted : exists tmpl kernel fs e,
  Forall (fun fw => reported (fun p => p) (fst fw) /\ opens (fun p => p) (snd fw)) fs /\
  exec_files _ true tmpl kernel (exec_init _ tmpl 1000) fs = Some e /\ ~ Forall (in_place (fun p => p) tmpl (map fst fs)) (tries _ e).
Proof.
  exists Refuted.echo, Refuted.done, (Refuted.system [Refuted.foo; [slash]]). eexists. split; [|split; [vm_compute; reflexivity|]].
  - repeat constructor; cbn; try discriminate; intros q d [= <-]; reflexivity.
  - intros H. inversion H as [|? ? (gs & I & E & P) _]; subst. cbn in E, P, I.
    destruct gs as [|g1 [|g2 [|g3 gs]]]; try discriminate E.
    pose proof (I g1 (or_introl eq_refl)) as I1. pose proof (I g2 (or_intror (or_introl eq_refl))) as I2.
    pose proof (P g1 (or_introl eq_refl)) as P1. pose proof (P g2 (or_intror (or_introl eq_refl))) as P2.
    destruct I1 as [<-|[<-|[]]], I2 as [<-|[<-|[]]]; vm_compute in E, P1, P2; discriminate.
Qed.
Print Assumptions C15_root_refuted.
Example root_run : Refuted.run Refuted.here [Refuted.foo; [slash]] =
  Some [([[x65; x63; x68; x6f]; [dot; slash] ++ Refuted.foo; [slash]], Some [slash])].
Proof. vm_compute. reflexivity. Qed.

(** C15: with the roots foo/a and foo/b it fails an assertion if foo cannot be opened. *)
Theorem C15_open_refuted : Refuted.run Refuted.closed [Refuted.foo ++ [slash; x61]; Refuted.foo ++ [slash; x62]] = None.
Proof. vm_compute. reflexivity. Qed.
Print Assumptions C15_open_refuted.

Module Examples.
  Import Refuted.
  (** a{}b{}{ with the path {} *)
  Example subst : format_arg (fun _ => true) [x61; x7b; x7d; x62; x7b; x7d; x7b] [x7b; x7d] = Some (Some [x61; x7b; x7d; x62; x7b; x7d; x7b]).
  Proof. vm_compute. reflexivity. Qed.
  Example subst2 : format_arg (fun _ => true) [x61; x7b; x7d; x62; x7b; x7d; x7b] [x2f] = Some (Some [x61; x2f; x62; x2f; x7b]).
  Proof. vm_compute. reflexivity. Qed.
  (** echo a {} + b *)
  Example parse_multi : exec_parse false [[x65]; [x61]; braces; plus; [x62]] = Some ([[x65]; [x61]; braces], true).
  Proof. vm_compute. reflexivity. Qed.
  (** -ok e a {} + ; *)
  Example parse_confirm : exec_parse true [[x65]; braces; plus; semicolon] = Some ([[x65]; braces; plus], false).
  Proof. vm_compute. reflexivity. Qed.

  (** Many small files with a limit of 100 and a system that takes 110 *)
  Definition many : list (file unit * world unit) := map (fun n => file1 (x n)) (seq 1 12).
  Example many_run : option_map (fun e => (failed _ e, map (fun t => map (@length byte) (tl (t_argv _ t))) (tries _ e)))
    (exec_files unit false echo small (exec_init unit echo 100) many) = Some (false, [[1; 2; 3; 4; 5; 6; 7]; [8; 9; 10; 11; 12]]).
  Proof. vm_compute. reflexivity. Qed.
  (** A limit of 1000: the limit of the system is found out. *)
  Example many_learn : option_map (fun e => (failed _ e, map (fun t => map (@length byte) (tl (t_argv _ t))) (tries _ e)))
    (exec_files unit false echo small (exec_init unit echo 1000) (map (fun n => file1 (x n)) (seq 1 9))) =
    Some (false, [[1; 2; 3; 4; 5; 6; 7; 8; 9]; [1; 2; 3; 4]; [5; 6; 7; 8; 9]]).
  Proof. vm_compute. reflexivity. Qed.
  Example many_ok : 96 <= 110 - 110 / 16 /\ Forall (fun fw => generous (snd fw)) many /\ forall f w, In (f, w) many -> arg_size (f_path unit f) <= 96 / 2.
  Proof.
    split; [vm_compute; lia|]. split; [repeat constructor|]. intros f w I. unfold many in I. apply in_map_iff in I. destruct I as (n & [= <- <-] & I).
    apply in_seq in I. cbn [f_path]. unfold arg_size, x. rewrite repeat_length. change (96 / 2) with 48. lia.
  Qed.

  (** foo/, foo/x and foo/y/z *)
  Definition roots : list (list byte) := [foo ++ [slash]; foo ++ [slash; x78]; foo ++ [slash; x79]; foo ++ [slash; x79; slash; x7a]].
  Example roots_ok : Forall (fun fw => reported (fun p => p) (fst fw) /\ opens (fun p => p) (snd fw)) (map (fun p => (file2 p, here)) roots) /\
    ForallOrdPairs (fun g f => ~ confused g f) (map file2 roots).
  Proof.
    split.
    - apply Forall_forall. intros fw I. apply in_map_iff in I. destruct I as (p & <- & _). split; [split; [reflexivity|discriminate]|].
      intros q d [= <-]. reflexivity.
    - unfold roots. cbn [map]. repeat constructor; unfold confused; cbn; intros [(A & B)|((r & A) & B)]; (discriminate || lia).
  Qed.
  Example roots_run : run here roots =
    Some [([[x65; x63; x68; x6f]; [dot; slash] ++ foo ++ [slash]], None);
          ([[x65; x63; x68; x6f]; [dot; slash; x78]; [dot; slash; x79]], Some (foo ++ [slash]));
          ([[x65; x63; x68; x6f]; [dot; slash; x7a]], Some (foo ++ [slash; x79; slash]))].
  Proof. vm_compute. reflexivity. Qed.
End Examples.
