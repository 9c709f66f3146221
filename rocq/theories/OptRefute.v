(** * Command lines that the optimizer changes the meaning of *)
From Coq Require Import List ZArith QArith Bool Lia.
From Verif Require Import ExprModel ExprSpec OptModel OptSpec.
Import ListNotations.

(** Floats as rational numbers; any operations would do. *)
Definition qops : float_ops Q :=
  mkFloat Q (fun q => q) Qplus Qminus Qmult Qle_bool.

Definition a0 : annot Q := mkAnnot false false false 0 0.
Definition lf (l : leaf) : expr Q := Leaf a0 l.
Definition and2 (x y : expr Q) := Node a0 OAnd [x; y].
Definition or2 (x y : expr Q) := Node a0 OOr [x; y].
Definition comma2 (x y : expr Q) := Node a0 OComma [x; y].
Definition pr (n : nat) : expr Q := lf (LPrint PFprint n).

(** What the command line parser passes to the optimizer for expression [e]. *)
Definition cmd (e : expr Q) : ctx Q := mkCtx (lf LFalse) e 0 INT_MAX.

(** A behaviour for file [f]: unknown tests and actions return true. *)
Definition behaviour_of (f : file) : behaviour :=
  mkBehaviour (fun l _ => match file_val f l with Some v => v | None => true end) (fun _ _ => false).
Lemma behaviour_of_about f : about f (behaviour_of f).
Proof. intros l v h E. cbn. rewrite E. reflexivity. Qed.

(** All users and groups exist. *)
Definition all_db (_ : Z) : option bool := Some false.
(** Looking up users fails. *)
Definition no_db (_ : Z) : option bool := None.

(** Optimizing at the default level, -O3, makes a difference for [f]. *)
Definition differs (f : file) (c : ctx Q) : Prop :=
  wf_file f /\ wf (c_expr c) /\ f_nouser f = false /\ f_nogroup f = false /\
  exists b, about f b /\
    visit_file 3 b (bfs_optimize qops 3 all_db all_db c) (f_depth f) [] <>
    visit_file 3 b c (f_depth f) [].

Definition reg_file (dev ino size uid : Z) : file :=
  mkFile (fun _ => true) false false false false false false false false
         1 0 ino dev 1 size uid 8 8 (fun _ _ => false).
Definition reg : file := reg_file 1 1 0 0.

Ltac by_running :=
  match goal with |- differs ?f _ =>
    split; [repeat split; vm_compute; congruence|
    split; [repeat first [apply conj | eexists]; try reflexivity; try (vm_compute; congruence)|
    split; [reflexivity| split; [reflexivity|
    exists (behaviour_of f); split; [apply behaviour_of_about| vm_compute; discriminate]]]]]
  end.

Definition cmd_size : ctx Q :=
  cmd (and2 (and2 (lf (LSize UKB CmpGreater 10)) (lf (LSize UMB CmpLess 5))) (pr 0)).
Lemma size_units_refuted : exists f, differs f cmd_size.
Proof.
  exists (reg_file 1 1 20000 0). by_running.
Qed.

Definition cmd_samefile : ctx Q :=
  cmd (and2 (and2 (and2 (lf (LInum CmpGreater 6)) (Node a0 ONot [lf (LSamefile 1 7)])) (lf (LInum CmpLess 8))) (pr 0)).
Lemma samefile_refuted : exists f, differs f cmd_samefile.
Proof.
  exists (reg_file 2 7 0 0). by_running.
Qed.

Definition cmd_uid : ctx Q :=
  cmd (and2 (or2 (lf (LUid CmpEqual 1000)) (lf (LUid CmpEqual 1001))) (pr 0)).
Lemma uid_refuted : exists f, differs f cmd_uid.
Proof.
  exists (reg_file 1 1 0 1001). by_running.
Qed.

Definition cmd_comma : ctx Q :=
  cmd (comma2 (or2 (lf LTrue) (pr 0)) (pr 1)).
Lemma comma_refuted : exists f, differs f cmd_comma.
Proof.
  exists reg. by_running.
Qed.

Definition cmd_comma_not : ctx Q :=
  cmd (comma2 (Node a0 ONot [lf (LTest TName false 0)]) (pr 1)).
Lemma comma_not_refuted : exists f, differs f cmd_comma_not.
Proof.
  exists reg. by_running.
Qed.

(** ** Files that change, or that cannot be examined *)

Definition same_visits (depth : Z) (b : behaviour) (c : ctx Q) : Prop :=
  visit_file 3 b (bfs_optimize qops 3 all_db all_db c) depth [] = visit_file 3 b c depth [].

Definition dir_ (empty : bool) : file :=
  mkFile (fun _ => true) false false false false false false false empty
         1 0 1 1 2 4096 0 3 3 (fun _ _ => false).
Definition cmd_changing : ctx Q :=
  cmd (and2 (and2 (and2 (lf LEmpty) (lf (LExec 0))) (Node a0 ONot [lf LEmpty])) (pr 1)).
Definition changing (f g : file) : behaviour :=
  mkBehaviour (fun l h => match file_val (if existsb (fun e => match e with LExec _ => true | _ => false end) h then g else f) l with
                          | Some v => v | None => true end) (fun _ _ => false).
Lemma changing_refuted : exists f g b, wf_file f /\ wf_file g /\ f_depth f = f_depth g /\ becomes f g b /\ ~ same_visits (f_depth f) b cmd_changing.
Proof.
  exists (dir_ true), (dir_ false), (changing (dir_ true) (dir_ false)).
  split; [repeat split; vm_compute; congruence|].
  split; [repeat split; vm_compute; congruence|].
  split; [reflexivity|].
  split; [intros l v h E; cbn [val changing]; rewrite E; reflexivity|].
  intros E. vm_compute in E. discriminate.
Qed.

Definition cmd_failing : ctx Q :=
  cmd (and2 (or2 (lf (LLinks CmpGreater 1)) (lf (LLinks CmpLess 2))) (pr 0)).
Definition failing (f : file) : behaviour :=
  mkBehaviour (fun l _ => match (if needs_stat l then Some false else file_val f l) with Some v => v | None => true end) (fun _ _ => false).
Lemma failing_refuted : exists f b, wf_file f /\ hidden_away f b /\ ~ same_visits (f_depth f) b cmd_failing.
Proof.
  exists reg, (failing reg).
  split; [repeat split; vm_compute; congruence|].
  split; [intros l v h E; cbn [val failing]; rewrite E; reflexivity|].
  intros E. vm_compute in E. discriminate.
Qed.
