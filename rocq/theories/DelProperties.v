(** * Properties of -delete *)
From Coq Require Import List Bool Arith Lia Init.Byte.
From Verif Require Import WalkSpec BftwModel BftwSpec BftwFacts DelModel DelSpec DelProofs.
Import ListNotations.

(** -delete ends, and removes exactly the files that are selected and that can be removed: whatever the
    search strategy, the number of threads, the order of directory entries and the timing of the I/O queue. *)
Theorem C51_deletes w kind d c : set_up w kind d c -> local c ->
  exists s, bftw_walk w [] = Some (true, s) /\ NoDup (user s) /\
    settled w kind d c (fun p => In p (user s)) (fun p => wants c (user s) p = true).
Proof. exact (delete_runs w kind d c). Qed.
Print Assumptions C51_deletes.

(** This leaves no choice: two runs on the same files remove the same ones. *)
Theorem C51_same_result w w' kind d c s s' : set_up w kind d c -> set_up w' kind d c -> local c -> roots w = roots w' ->
  bftw_walk w [] = Some (true, s) -> bftw_walk w' [] = Some (true, s') -> forall p, In p (user s) <-> In p (user s').
Proof. exact (delete_same w w' kind d c s s'). Qed.
Print Assumptions C51_same_result.

(** In a plain search, a file is removed if and only if the tests hold for it and for everything below it. *)
Theorem C51_plain w kind d c s test : set_up w kind d c -> plain w kind d c -> (forall l p, wants c l p = test p) ->
  bftw_walk w [] = Some (true, s) ->
  forall p, In p (user s) <-> node_at w p <> None /\ all_below w p (fun q => test q = true).
Proof. exact (delete_plain w kind d c s test). Qed.
Print Assumptions C51_plain.

(** -empty -delete removes all trees of directories in which all files are empty. *)
Theorem C51_empty w kind d c s void : set_up w kind d c -> plain w kind d c -> wants c = empty d void ->
  bftw_walk w [] = Some (true, s) ->
  forall p, In p (user s) <-> node_at w p <> None /\ all_below w p (fun q => real_dir d q = true \/ void q = true).
Proof. exact (delete_empty w kind d c s void). Qed.
Print Assumptions C51_empty.

Module Examples.
  Local Open Scope byte_scope.
  Definition nd (c : byte) (kids : list (tree info)) : tree info := Node {| name := [c]; broken := false |} kids.
  (** a/ (b/ (x y) c/ (z/) d) *)
  Definition files : list (tree info) := [nd "a" [nd "b" [nd "x" []; nd "y" []]; nd "c" [nd "z" []]; nd "d" []]].
  Definition isdir (p : pos) : bool :=
    match p with [0] | [0; 0] | [1; 0] | [0; 1; 0] => true | _ => false end.
  Definition count (p : pos) : nat := match p with [] => 1 | [0] => 3 | [0; 0] => 2 | [1; 0] => 1 | _ => 0 end.
  Definition dk : disk := {| real_dir := isdir; entries := count; permitted := fun _ => true |}.
  Definition walk (st : strategy) (threads : nat) (c : command) : env (list pos) :=
    {| strat := st; fl_sort := false; fl_buffer := false; fl_stat := false; fl_post_order := true; fl_recover := true;
       fl_skip_mounts := false; fl_prune_mounts := false; nthreads := threads; roots := files; callback := del_callback dk c;
       collate := fun _ _ => true; must_stat := fun _ => false; whiteout := fun _ => false; mounted := fun _ => false;
       look := fun _ p => if isdir p then BFS_DIR else BFS_OTHER 1; choose := fun n => n; junk := "?"%byte |}.
  Definition seen (p : pos) : ftype := if isdir p then BFS_DIR else BFS_OTHER 1.
  Definition not_x (p : pos) : bool := match p with [0; 0; 0] => false | _ => true end.
  Definition cmd : command := {| mindepth := 0; maxdepth := 100; excluded := fun _ => false; wants := fun _ => not_x |}.
  Definition void (p : pos) : bool := match p with [1; 0; 0] | [2; 0] => true | _ => false end.
  Definition cmd_empty : command := {| mindepth := 0; maxdepth := 100; excluded := fun _ => false; wants := empty dk void |}.

  Example is_set_up st n c : set_up (walk st n c) seen dk c.
  Proof. constructor; try reflexivity; [|intros p; unfold seen; destruct (isdir p); discriminate|split; reflexivity]. apply named_all. vm_compute. reflexivity. Qed.

  (** What is below [p] in [files] *)
  Lemma shape (U : Type) (w : env U) p : roots w = files ->
    node_at w p <> None -> In p [[0]; [0; 0]; [1; 0]; [2; 0]; [0; 0; 0]; [1; 0; 0]; [0; 1; 0]].
  Proof.
    intros R. rewrite (node_same w (walk BFTW_BFS 0 cmd) R). destruct p as [|k q]; [intros N; destruct (N eq_refl)|]. revert k.
    assert (E : forall q k, node_at (walk BFTW_BFS 0 cmd) (k :: q) <> None -> In (k :: q) [[0]; [0; 0]; [1; 0]; [2; 0]; [0; 0; 0]; [1; 0; 0]; [0; 1; 0]]); [|intros k; apply E].
    clear q. induction q as [|j q IH]; intros k N.
    - destruct k as [|k]; [cbn; auto|]. exfalso. apply N. destruct k; reflexivity.
    - assert (N' : node_at (walk BFTW_BFS 0 cmd) (j :: q) <> None) by (apply (node_parent _ k); [exact N|discriminate]).
      specialize (IH j N'). cbn [In] in IH. clear N'.
      repeat (destruct IH as [IH | IH]; [rewrite <- IH in N |- *; do 3 (destruct k as [|k]; [first [exfalso; apply N; reflexivity|cbn; auto 10]|]); exfalso; apply N; destruct k; reflexivity|]); destruct IH.
  Qed.

  Example is_plain st n c : mindepth c = 0 -> maxdepth c = 100 -> (forall p, excluded c p = false) -> plain (walk st n c) seen dk c.
  Proof.
    intros MI MA X. constructor; auto; cbn [real_dir entries permitted dk]; auto.
    - intros p N. rewrite MA. apply shape in N; [|reflexivity]. unfold depth. cbn [In] in N. repeat (destruct N as [<- | N]; [cbn; lia|]). destruct N.
    - intros p. unfold seen. destruct (isdir p); split; congruence.
    - intros p. destruct (kids_at (walk st n c) p) as [|t ts] eqn:K.
      + destruct p as [|k p]; [discriminate|]. destruct (count (k :: p)) eqn:Z; [reflexivity|exfalso].
        assert (C : k :: p = [0] \/ k :: p = [0; 0] \/ k :: p = [1; 0]).
        { unfold count in Z. destruct k as [|[|k]], p as [|[|j] [|i p]]; try discriminate; auto. }
        destruct C as [C | [C | C]]; rewrite C in K; discriminate.
      + destruct p as [|k p]; [injection K as <- <-; reflexivity|].
        assert (N : node_at (walk st n c) (k :: p) <> None). { cbn [node_at]. cbn [kids_at] in K. destruct (nth_error (kids_at (walk st n c) p) k); congruence. }
        rewrite <- K. clear K. apply shape in N; [|reflexivity]. cbn [In] in N. repeat (destruct N as [N | N]; [rewrite <- N; reflexivity|]). destruct N.
    - intros p NP K. destruct p as [|k p]; [congruence|].
      assert (N : node_at (walk st n c) (k :: p) <> None). { cbn [node_at]. cbn [kids_at] in K. destruct (nth_error (kids_at (walk st n c) p) k); congruence. }
      apply shape in N; [|reflexivity]. cbn [In] in N. repeat (destruct N as [N | N]; [rewrite <- N in K |- *; first [reflexivity|destruct (K eq_refl)]|]). destruct N.
    - intros p N. apply shape in N; [|reflexivity]. cbn [In] in N. repeat (destruct N as [<- | N]; [vm_compute; discriminate|]). destruct N.
  Qed.

  Example is_local : local cmd /\ local cmd_empty.
  Proof. split; [intros l l' p _; reflexivity|intros l l' p; apply empty_local]. Qed.

  (** All but a/, a/b and a/b/x are removed. *)
  Example removes : map (fun st => match bftw_walk (walk st 2 cmd) [] with Some (ok, s) => Some (ok, length (user s), map (gone (user s)) [[0]; [0; 0]; [1; 0]; [2; 0]; [0; 0; 0]; [1; 0; 0]; [0; 1; 0]]) | None => None end) [BFTW_BFS; BFTW_DFS]
    = let r := Some (true, 4, [false; false; true; true; false; true; true]) in [r; r].
  Proof. vm_compute. reflexivity. Qed.

  (** a/c/z, a/c, a/b/y and a/d are removed. *)
  Example removes_empty : match bftw_walk (walk BFTW_BFS 1 cmd_empty) [] with Some (ok, s) => Some (ok, map (gone (user s)) [[0]; [0; 0]; [1; 0]; [2; 0]; [0; 0; 0]; [1; 0; 0]; [0; 1; 0]]) | None => None end
    = Some (true, [false; false; true; true; false; true; true]).
  Proof. vm_compute. reflexivity. Qed.

  (** -maxdepth 1: nothing is removed below a/b and a/c, and these are not empty. *)
  Example removes_limited : match bftw_walk (walk BFTW_BFS 1 {| mindepth := 0; maxdepth := 1; excluded := fun _ => false; wants := fun _ _ => true |}) [] with Some (ok, s) => Some (ok, user s) | None => None end
    = Some (true, [[2; 0]]).
  Proof. vm_compute. reflexivity. Qed.
End Examples.
