(** Property theorems for the tests on a file's metadata: C60. *)
From Coq Require Import List NArith ZArith Bool Init.Byte.
From Verif Require Import NumModel NumSpec MetaModel MetaSpec MetaProofs.
Import ListNotations.
Local Open Scope Z_scope.

(** C60: -type takes letters with commas between them.  It is true of the files of those types, and whiteouts are searched for if they are one of them. *)
Theorem C60_type : forall arg,
  ((exists m w, parse_type arg = Some (m, w)) <-> exists ts, type_list arg ts) /\
  forall ts m w, type_list arg ts -> parse_type arg = Some (m, w) ->
    (forall t, eval_type m t = true <-> In t ts) /\ (w = true <-> In BFS_WHT ts).
Proof.
  exact types.
Qed.
Print Assumptions C60_type.

(** C60: -user, -group, -uid and -gid take a name, or else a number. *)
Theorem C60_user : forall isspace, sane isspace -> forall getnam arg cmp num,
  parse_user isspace getnam arg = inl (cmp, num) <-> user_arg getnam arg cmp num.
Proof.
  exact user.
Qed.
Print Assumptions C60_user.

(** The message is that there is no such user only if the system says so, and that the lookup failed only if it did. *)
Theorem C60_user_error : forall isspace getnam arg,
  (parse_user isspace getnam arg = inr No_such -> getnam arg = Missing) /\ (parse_user isspace getnam arg = inr Lookup_error -> getnam arg = Failed).
Proof.
  exact user_error.
Qed.
Print Assumptions C60_user_error.

(** The full claim for -uid is that a number means that user ID.  It is false: the same function looks for a user of that name first. *)
Theorem C60_uid_refuted : exists isspace getnam arg,
  sane isspace /\ numeral 10 arg 5 [] /\ parse_user isspace getnam arg = inl (BFS_INT_EQUAL, 1000).
Proof.
  exact uid_user.
Qed.
Print Assumptions C60_uid_refuted.

(** C60: -uid, -gid, -inum and -links compare the number in the metadata. *)
Theorem C60_numbers_partial : forall cmp num s, stat_ok s ->
  (eval_uid cmp num (Some s) = (true, false) <-> comparison cmp (uid s) num) /\
  (eval_gid cmp num (Some s) = (true, false) <-> comparison cmp (gid s) num) /\
  (ino s < 2 ^ 63 -> (eval_inum cmp num (Some s) = (true, false) <-> comparison cmp (ino s) num)) /\
  (nlink s < 2 ^ 63 -> (eval_links cmp num (Some s) = (true, false) <-> comparison cmp (nlink s) num)).
Proof.
  exact numbers.
Qed.
Print Assumptions C60_numbers_partial.

(** The full claim is that for all inode numbers.  It is false: the large ones are taken for negative. *)
Theorem C60_inum_refuted : exists s num, stat_ok s /\ 0 <= num <= 2 ^ 63 - 1 /\ ino s > num /\
  eval_inum BFS_INT_GREATER num (Some s) = (false, false) /\ eval_inum BFS_INT_LESS num (Some s) = (true, false).
Proof.
  exact inum_large.
Qed.
Print Assumptions C60_inum_refuted.

(** C60: -samefile is true of the same inode on the same device. *)
Theorem C60_samefile : forall d i s, eval_samefile d i (Some s) = (true, false) <-> dev s = d /\ ino s = i.
Proof.
  exact samefile.
Qed.
Print Assumptions C60_samefile.

(** C60: -sparse is true of the files that take less room than their size. *)
Theorem C60_sparse_partial : forall s, stat_ok s -> size s + 512 < 2 ^ 63 ->
  exists b, eval_sparse (Some s) = Some (b, false) /\ (b = true <-> blocks s * 512 < size s).
Proof.
  exact sparse.
Qed.
Print Assumptions C60_sparse_partial.

(** The full claim is that for all sizes.  It is false: for the largest ones a sum overflows. *)
Theorem C60_sparse_refuted : exists s, stat_ok s /\ eval_sparse (Some s) = None.
Proof.
  exact sparse_large.
Qed.
Print Assumptions C60_sparse_refuted.

(** C60: -nouser and -nogroup are true of the files whose owner there is not.  If it cannot be found out, an error is reported. *)
Theorem C60_nouser_partial : forall look s,
  (look (uid s) <> Failed -> (eval_nouser look (Some s) = (true, false) <-> look (uid s) = Missing)) /\
  (look (gid s) <> Failed -> (eval_nogroup look (Some s) = (true, false) <-> look (gid s) = Missing)) /\
  (look (uid s) = Failed -> snd (eval_nouser look (Some s)) = true) /\
  (look (gid s) = Failed -> snd (eval_nogroup look (Some s)) = true) /\
  (look (uid s) <> Failed -> snd (eval_nouser look (Some s)) = false) /\
  (look (gid s) <> Failed -> snd (eval_nogroup look (Some s)) = false).
Proof.
  exact owners.
Qed.
Print Assumptions C60_nouser_partial.

(** The full claim is that the tests are only true of files whose owner there is not.  It is false: they are also true when it cannot be found out. *)
Theorem C60_nouser_refuted : exists look s, stat_ok s /\ look (uid s) = Failed /\
  fst (eval_nouser look (Some s)) = true /\ fst (eval_nogroup look (Some s)) = true.
Proof.
  exact nouser_failed.
Qed.
Print Assumptions C60_nouser_refuted.

(** C60: -flags compares the flags of a file: with FLAGS, they are the same; with -FLAGS, all of them match; with +FLAGS, any of them does. *)
Theorem C60_flags : forall set clear s fs, attrs s = Some fs ->
  (eval_flags BFS_MODE_EQUAL set clear (Some s) = (true, false) <->
   (forall i, flag fs i <-> flag set i) /\ forall i, flag clear i -> ~ flag fs i) /\
  (eval_flags BFS_MODE_ALL set clear (Some s) = (true, false) <->
   (forall i, flag set i -> flag fs i) /\ forall i, flag clear i -> ~ flag fs i) /\
  (eval_flags BFS_MODE_ANY set clear (Some s) = (true, false) <->
   (exists i, flag set i /\ flag fs i) \/ exists i, flag clear i /\ ~ flag fs i).
Proof.
  exact flags.
Qed.
Print Assumptions C60_flags.

(** C60: and it is false, with an error, if they are not known. *)
Theorem C60_no_flags : forall cmp set clear s, attrs s = None -> eval_flags cmp set clear (Some s) = (false, true).
Proof.
  exact no_attrs.
Qed.
Print Assumptions C60_no_flags.

(** C60: -empty is true of regular files of size 0, and of directories without entries; an error is reported exactly when that is not known. *)
Theorem C60_empty : forall type sb entries b e, eval_empty type sb entries = (b, e) ->
  (b = true <-> (type = BFS_REG /\ exists s, sb = Some s /\ size s = 0) \/ (type = BFS_DIR /\ entries = Some false)) /\
  (e = true <-> (type = BFS_REG /\ sb = None) \/ (type = BFS_DIR /\ entries = None)).
Proof.
  exact empty.
Qed.
Print Assumptions C60_empty.

(** C60: if the metadata cannot be had, the tests are false, with an error. *)
Theorem C60_unknown : forall cmp num d i set clear fc look,
  eval_uid cmp num None = (false, true) /\ eval_gid cmp num None = (false, true) /\ eval_inum cmp num None = (false, true) /\
  eval_links cmp num None = (false, true) /\ eval_samefile d i None = (false, true) /\ eval_sparse None = Some (false, true) /\
  eval_flags fc set clear None = (false, true) /\ eval_nouser look None = (false, true) /\ eval_nogroup look None = (false, true).
Proof.
  exact unknown.
Qed.
Print Assumptions C60_unknown.

Module Examples.
  Open Scope byte_scope.
  (** -type f,d *)
  Example type_fd : type_list ["f"; ","; "d"] [BFS_REG; BFS_DIR] /\ parse_type ["f"; ","; "d"] = Some (264%N, false) /\
    eval_type 264 BFS_LNK = false.
  Proof.
    split; [|split; reflexivity]. apply more; [cbn; tauto|]. apply one. cbn. tauto.
  Qed.
  (** -type fd and -type f, *)
  Example type_bad : parse_type ["f"; "d"] = None /\ parse_type ["f"; ","] = None /\ parse_type [] = None.
  Proof. split; [|split]; reflexivity. Qed.
  Definition users (name : list byte) : lookup := match name with ["r"; "o"; "o"; "t"] => Found 0 | _ => Missing end.
  Example user_root : parse_user (fun _ => false) users ["r"; "o"; "o"; "t"] = inl (BFS_INT_EQUAL, 0) /\
    parse_user (fun _ => false) users ["+"; "9"; "9"] = inl (BFS_INT_GREATER, 99) /\
    parse_user (fun _ => false) users ["b"; "o"; "b"] = inr No_such.
  Proof. split; [|split]; reflexivity. Qed.
  Definition s1 : bfs_stat := mkStat 8 42 2 1000 100 4096 1 (Some 16%N).
  Example s1_ok : stat_ok s1 /\ eval_links BFS_INT_GREATER 1 (Some s1) = (true, false) /\ eval_sparse (Some s1) = Some (true, false) /\
    eval_flags BFS_MODE_ALL 16 32 (Some s1) = (true, false) /\ eval_flags BFS_MODE_ANY 32 16 (Some s1) = (false, false).
  Proof. split; [|repeat (split; [reflexivity|]); reflexivity]. repeat (split; [split; [discriminate|reflexivity]|]). split; [discriminate|reflexivity]. Qed.
  Example s1_samefile : eval_samefile 8 42 (Some s1) = (true, false) /\ eval_samefile 9 42 (Some s1) = (false, false).
  Proof. split; reflexivity. Qed.
End Examples.
