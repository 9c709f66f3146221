(** * C50: mount points and file system types *)
From Coq Require Import String.
From Coq Require Import List NArith Bool Init.Byte.
From Verif Require Import TrieModel PathSpec MtabModel MtabSpec MtabProofs.
Import ListNotations.
Local Open Scope nat_scope.

(** A name is taken for that of a mount point exactly if some mount point in the table has this name. *)
Theorem C50_names omax : 1 <= omax -> forall table, (forall p t, In (p, t) table -> canonical p) -> exists m, bfs_mtab_parse omax table = Some m /\
  forall n, bfs_might_be_mount m n = true <-> exists p t d off, In (p, t) table /\ dir_base p d n off.
Proof. exact (names_ok omax). Qed.
Print Assumptions C50_names.

(** -fstype sees the type of the mount a file is on, or else "unknown", and this only if every path that leads to the
    mount stays on the device that its directory is on.  What is missing: with mount ids from statx(), these are the
    bind mounts within one file system. *)
Theorem C50_fstype_partial omax : 1 <= omax -> forall (D : Type) open_dir fstat statat w table, right w table -> @tells w table D open_dir fstat statat ->
  exists m, bfs_mtab_parse omax table = Some m /\ forall l, Forall (fun s => (mnt_id s < 2 ^ 64)%N) l ->
  exists ts, fstypes omax D open_dir fstat statat m l = Some ts /\
    Forall2 (fun s t => t = type_of w (mnt_id s) \/
      t = unknown_type /\ forall p t' r, In (p, t') table -> at_path w p = Some r -> mnt_id r = mnt_id s -> same_device w p) l ts.
Proof. exact (fstype_sound omax). Qed.
Print Assumptions C50_fstype_partial.

(** The type of a mount in the table is unknown. *)
Theorem C50_bind_mount_refuted : exists w table (D : Type) open_dir fstat statat p t s m,
  right w table /\ @tells w table D open_dir fstat statat /\ In (p, t) table /\ mounted w p = true /\ at_path w p = Some s /\ t = type_of w (mnt_id s) /\
  bfs_mtab_parse 64 table = Some m /\ fstypes 64 D open_dir fstat statat m [s] = Some [unknown_type] /\ t <> unknown_type.
Proof. exact bind_unknown. Qed.
Print Assumptions C50_bind_mount_refuted.

Module Examples.
  Local Open Scope string_scope.
  (** Two file systems mounted on /m, one of which covers the other, and /u, which was unmounted *)
  Definition table : list (list byte * list byte) := [(b "/", b "ext4"); (b "/m", b "tmpfs"); (b "/u", b "vfat"); (b "/m", b "ext3")].
  Definition stats (p : list byte) : option stat :=
    if str_eqb p (b "/") then Some (mkStat 1 2 10)
    else if str_eqb p (b "/m") then Some (mkStat 3 2 12)
    else if str_eqb p (b "/u") then Some (mkStat 1 9 10) else None.
  Definition w : world := mkWorld stats (fun p => str_eqb p (b "/") || str_eqb p (b "/m")) (fun n => if N.eqb n 12 then b "ext3" else b "ext4").
  Ltac split_in H := cbn in H; repeat destruct H as [H|H]; try contradiction; try (injection H; intros; subst).
  Example table_right : right w table.
  Proof.
    constructor.
    - intros p t I. split_in I.
      + exists []. split; [constructor|reflexivity].
      + exists [b "m"]. split; [|reflexivity]. constructor; [|constructor]. split; [split; [discriminate|]|]; intros [X|[]]; discriminate.
      + exists [b "u"]. split; [|reflexivity]. constructor; [|constructor]. split; [split; [discriminate|]|]; intros [X|[]]; discriminate.
      + exists [b "m"]. split; [|reflexivity]. constructor; [|constructor]. split; [split; [discriminate|]|]; intros [X|[]]; discriminate.
    - intros before p t after s E N A M. destruct before as [|x1 [|x2 [|x3 [|x4 before]]]]; injection E; intros; subst; cbn in A, M; try discriminate M; try (injection A as <-; reflexivity).
      + exfalso. apply N. right. left. reflexivity.
      + destruct before; discriminate.
    - intros p t s I E M. split_in I; try discriminate M. exists (b "/"), (mkStat 1 2 10), (mkStat 1 9 10). split; [exists (b "u"), 1; apply (db_root_name (b "u") 0 0); split; [discriminate|intros [X|[]]; discriminate]|]. repeat split; discriminate.
    - intros p s E. cbn in E. unfold stats in E. repeat (destruct (str_eqb p _); [injection E as <-; reflexivity|]). discriminate.
  Qed.
  Example system_tells : tells w table (fun p => Some p) stats (statat_of stats).
  Proof. apply tells_of. reflexivity. Qed.
  (** A file on / and one on /m *)
  Example found : match bfs_mtab_parse 64 table with Some m => fstypes 64 _ (fun p => Some p) stats (statat_of stats) m [mkStat 1 77 10; mkStat 3 78 12; mkStat 1 9 10] | None => None end = Some [b "ext4"; b "ext3"; b "ext4"].
  Proof. vm_compute. reflexivity. Qed.
  Example name_found : match bfs_mtab_parse 64 table with Some m => (bfs_might_be_mount m (b "m"), bfs_might_be_mount m (b "mm")) | None => (false, false) end = (true, false).
  Proof. vm_compute. reflexivity. Qed.
End Examples.
