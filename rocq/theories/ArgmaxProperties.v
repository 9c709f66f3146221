(** * Commands of -exec {} + fit into what Linux allows *)
From Coq Require Import String List ZArith Lia.
From Coq Require Import Init.Byte.
From Verif Require Import PathModel ExecModel ExecSpec ExecRuns ArgmaxModel ArgmaxSpec ArgmaxProofs.
Import ListNotations.
Local Open Scope Z_scope.

(** C71: whatever the environment, the command and the limit on the stack are, no path is lost if each is short compared to the
    space that is left; with a stack of at most 24 MiB (8 MiB is usual), the system never refuses a command.
    [tmpl] is the command without {}; [file] is the file that is executed, found in $PATH. *)
Theorem C71_linux : forall dir stack page environ file tmpl kernel fs,
  0 <= stack < 2 ^ 64 -> page <= 2 ^ 32 -> len file < 4096 -> Forall short environ -> Forall short tmpl ->
  linux stack file environ kernel ->
  Forall (fun fw => generous (snd fw) /\ short (f_path dir (fst fw)) /\
    4 * (len (f_path dir (fst fw)) + 9) + Z.max 4096 page + 8192 <= allowance stack - space environ - space tmpl) fs -> exists e,
  exec_files dir false tmpl kernel (exec_init dir tmpl (Z.to_nat (bfs_exec_arg_max (reported_limit stack) page environ tmpl))) fs = Some e /\
  executed tmpl (tries dir e) = map (fun fw => f_path dir (fst fw)) fs /\
  (stack <= 25165824 -> Forall (fun a => t_outcome dir a <> TooBig) (tries dir e)).
Proof.
  exact runs_linux.
Qed.
Print Assumptions C71_linux.

(** C71: with a stack of at most 24 MiB, every command within the limit that bfs computes is accepted, also with -execdir. *)
Theorem C71_within : forall stack page environ file tmpl qs,
  0 <= stack <= 25165824 -> page <= 2 ^ 32 -> space environ + space tmpl < 2 ^ 62 ->
  len file < 4096 -> Forall short environ -> Forall short (tmpl ++ qs) ->
  space qs <= bfs_exec_arg_max (reported_limit stack) page environ tmpl -> 0 < bfs_exec_arg_max (reported_limit stack) page environ tmpl ->
  accepted stack file environ (tmpl ++ qs).
Proof.
  exact within.
Qed.
Print Assumptions C71_within.

(** C71: the limit is what is left of the system's for arguments, at most 16 MiB, and room for one page and 2048 bytes is kept. *)
Theorem C71_limit : forall sc page environ fixed, 0 <= sc < 2 ^ 63 -> page <= 2 ^ 32 -> space environ + space fixed < 2 ^ 62 ->
  bfs_exec_arg_max sc page environ fixed = Z.max 0 (Z.min 16777216 (sc - space environ - space fixed - 16 - Z.max 4096 page - 2048)).
Proof.
  exact arg_max_ok.
Qed.
Print Assumptions C71_limit.

Module Refuted.
  Definition path : arg := repeat x61 200.
  Definition paths : list arg := repeat path (Z.to_nat 40000).
  Lemma space_repeat q n : space (repeat q n) = Z.of_nat n * (len q + 9).
  Proof. induction n as [|n IH]; [reflexivity|]. cbn [repeat space fold_right]. fold (space (repeat q n)). rewrite IH. lia. Qed.
  Lemma paths_space : space paths = 8360000.
  Proof. unfold paths. rewrite space_repeat. unfold path, len. rewrite repeat_length. rewrite Z2Nat.id by lia. reflexivity. Qed.
End Refuted.

(** C71: with a larger stack, commands within the limit that bfs computes may be refused: the limit may be 16 MiB. *)
Theorem C71_large_refuted : exists stack page environ file tmpl qs,
  0 <= stack < 2 ^ 64 /\ len file < 4096 /\ Forall short (file :: environ ++ tmpl ++ qs) /\
  space qs <= bfs_exec_arg_max (reported_limit stack) page environ tmpl /\ ~ accepted stack file environ (tmpl ++ qs).
Proof.
  exists (2 ^ 64 - 1), 4096, [], [x61], [[x61]], Refuted.paths. split; [lia|]. split; [unfold len; cbn; lia|]. split.
  - constructor; [unfold short, len; cbn; lia|]. cbn [app]. constructor; [unfold short, len; cbn; lia|].
    apply Forall_forall. intros q I. apply repeat_spec in I. subst q. unfold short, len, Refuted.path. rewrite repeat_length. lia.
  - rewrite Refuted.paths_space. split; [vm_compute; discriminate|].
    intros (_ & _ & _ & H). rewrite space_app, Refuted.paths_space in H. vm_compute in H. now apply H.
Qed.
Print Assumptions C71_large_refuted.

Module Examples.
  Definition environ : list arg := [list_byte_of_string "HOME=/root"; list_byte_of_string "PATH=/usr/bin"].
  Definition file : arg := list_byte_of_string "/usr/bin/echo".
  Definition tmpl : list arg := [list_byte_of_string "echo"].
  Definition here : world unit := mkWorld unit true true true (fun _ => Some tt).
  Definition files : list (ExecModel.file unit * world unit) :=
    map (fun p => (mkFile unit (list_byte_of_string p) 0 None, here)) ["a"; "b/c"; "dd"]%string.
  (** A stack of 8 MiB *)
  Example usual : bfs_exec_arg_max (reported_limit 8388608) 4096 environ tmpl = 2097152 - 19 - 22 - 8 - 13 - 8 - 4096 - 2048.
  Proof. vm_compute. reflexivity. Qed.
  Example meets : Forall (fun fw => generous (snd fw) /\ short (f_path unit (fst fw)) /\
    4 * (len (f_path unit (fst fw)) + 9) + Z.max 4096 4096 + 8192 <= allowance 8388608 - space environ - space tmpl) files /\
    Forall short environ /\ Forall short tmpl /\ len file < 4096.
  Proof. repeat split; repeat constructor; vm_compute; discriminate. Qed.
  (** A system of the kind that is assumed *)
  Example possible : exists kernel, linux 8388608 file environ kernel.
  Proof.
    exists (fun n argv => if (forallb small (file :: environ ++ argv) && (len file + 1 + space environ + space argv <=? allowance 8388608))%bool then Done else TooBig).
    intros n argv. destruct (forallb small _ && _)%bool eqn:B; (split; [discriminate|]); split; try discriminate.
    - intros H. exfalso. apply H. apply andb_prop in B. destruct B as (B & L). apply Z.leb_le in L. cbn [forallb] in B. apply andb_prop in B. destruct B as (B0 & B).
      rewrite forallb_app in B. apply andb_prop in B. destruct B as (B1 & B2). rewrite forallb_forall in B1, B2. split; [now apply small_short|].
      split; [apply Forall_forall; intros; apply small_short; auto|]. split; [apply Forall_forall; intros; apply small_short; auto|exact L].
    - intros _ (A & B' & C & D). apply Z.leb_le in D. rewrite D, Bool.andb_true_r in B. cbn [forallb] in B. apply small_short in A. rewrite A in B. cbn [andb] in B.
      rewrite forallb_app in B. rewrite Forall_forall in B', C.
      assert (forallb small environ = true) as X by (apply forallb_forall; intros; apply small_short; auto).
      assert (forallb small argv = true) as Y by (apply forallb_forall; intros; apply small_short; auto). rewrite X, Y in B. discriminate.
    - reflexivity.
  Qed.
  (** The environment leaves nothing. *)
  Example crowded : bfs_exec_arg_max 131072 4096 (repeat (repeat x61 991) 200) tmpl = 0.
  Proof. vm_compute. reflexivity. Qed.
End Examples.
