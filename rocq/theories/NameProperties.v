(** * C49: -name, -path, -lname and -hidden *)
From Coq Require Import List NArith Arith Bool Init.Byte Lia.
From Coq Require Import Strings.Byte.
From Verif Require Import PathModel PathSpec NameModel NameSpec NameProofs.
Import ListNotations.
Local Open Scope nat_scope.

(** -name is true if the last component of the path, without trailing slashes, matches the pattern. *)
Theorem C49_name : forall l, transparent l -> forall fnmatch, is_fnmatch l fnmatch -> forall p f d b,
  dir_base (path f) d b (nameoff f) -> (depth f <> 0 -> skipn (nameoff f) (path f) = b) ->
  eval_name fnmatch (parse_fnmatch p false) f = true <-> language l false p b.
Proof. exact name_exact. Qed.
Print Assumptions C49_name.

(** -path is true if the whole path matches. *)
Theorem C49_path : forall l, transparent l -> forall fnmatch, is_fnmatch l fnmatch -> forall p f,
  eval_path fnmatch (parse_fnmatch p false) f = true <-> language l false p (path f).
Proof. exact path_exact. Qed.
Print Assumptions C49_path.

(** -lname is true if the file is a link and its whole target matches, whatever stat() said about the length. *)
Theorem C49_lname : forall l, transparent l -> forall fnmatch, is_fnmatch l fnmatch -> forall p f fuel, length (target f) < fuel ->
  exists r, eval_lname fnmatch fuel (parse_fnmatch p false) f = Some r /\ (r = true <-> ftype f = LNK /\ language l false p (target f)).
Proof. exact lname_exact. Qed.
Print Assumptions C49_lname.

(** Without regard to case, this holds for patterns with special characters and for ASCII. *)
Theorem C49_iname_partial : forall l, transparent l -> forall fnmatch, is_fnmatch l fnmatch -> forall p f d b,
  dir_base (path f) d b (nameoff f) -> (depth f <> 0 -> skipn (nameoff f) (path f) = b) -> special p \/ Forall ascii p /\ Forall ascii b ->
  eval_name fnmatch (parse_fnmatch p true) f = true <-> language l true p b.
Proof. exact iname_some. Qed.
Print Assumptions C49_iname_partial.
Theorem C49_ipath_partial : forall l, transparent l -> forall fnmatch, is_fnmatch l fnmatch -> forall p f,
  special p \/ Forall ascii p /\ Forall ascii (path f) ->
  eval_path fnmatch (parse_fnmatch p true) f = true <-> language l true p (path f).
Proof. exact ipath_some. Qed.
Print Assumptions C49_ipath_partial.
Theorem C49_ilname_partial : forall l, transparent l -> forall fnmatch, is_fnmatch l fnmatch -> forall p f fuel, length (target f) < fuel ->
  special p \/ Forall ascii p /\ Forall ascii (target f) ->
  exists r, eval_lname fnmatch fuel (parse_fnmatch p true) f = Some r /\ (r = true <-> ftype f = LNK /\ language l true p (target f)).
Proof. exact ilname_some. Qed.
Print Assumptions C49_ilname_partial.

(** A literal letter that is not ASCII does not match itself in the other case. *)
Theorem C49_iname_refuted : transparent utf8 /\ forall fnmatch, is_fnmatch utf8 fnmatch ->
  exists p f d b, dir_base (path f) d b (nameoff f) /\ language utf8 true p b /\ eval_name fnmatch (parse_fnmatch p true) f = false.
Proof. exact iname_refuted. Qed.
Print Assumptions C49_iname_refuted.

(** In Big5, a pattern may end with a character that ends with the byte of a backslash, and then does not match itself. *)
Theorem C49_big5_refuted : forall fnmatch, is_fnmatch big5 fnmatch ->
  exists p f, language big5 false p (path f) /\ path f = p /\ eval_path fnmatch (parse_fnmatch p false) f = false.
Proof. exact big5_refuted. Qed.
Print Assumptions C49_big5_refuted.

(** -hidden is true if the name begins with a dot and is neither . nor .., except for roots like ./ and ../. *)
Theorem C49_hidden_partial : forall f d b, dir_base (path f) d b (nameoff f) -> skipn (nameoff f) (path f) = b \/ b <> [dot] /\ b <> [dot; dot] -> path f <> [] ->
  eval_hidden f = true <-> hidden_name b.
Proof. exact hidden_test. Qed.
Print Assumptions C49_hidden_partial.
Theorem C49_hidden_refuted : exists f d b, dir_base (path f) d b (nameoff f) /\ b = [dot] /\ eval_hidden f = true.
Proof. exact hidden_refuted. Qed.
Print Assumptions C49_hidden_refuted.

Module Examples.
  Example locale_ok : transparent utf8 /\ is_fnmatch utf8 (posix utf8).
  Proof. split; [apply utf8_transparent|apply posix_ok]. Qed.
  (** a/b// *)
  Definition root : file := mkFile [x61; x2f; x62; x2f; x2f] 2 0 OTHER None [].
  Example root_base : dir_base (path root) [x61] [x62] (nameoff root).
  Proof. apply (db_path [] x61 [x62] 0 2); [split; [discriminate|cbn; intuition discriminate]|discriminate]. Qed.
  (** a/.é, a link to 65 bytes *)
  Definition inner : file := mkFile [x61; x2f; x2e; xc3; xa9] 2 1 LNK (Some 3%N) (repeat x61 65).
  Example inner_base : dir_base (path inner) [x61] [x2e; xc3; xa9] (nameoff inner) /\ skipn (nameoff inner) (path inner) = [x2e; xc3; xa9].
  Proof. split; [|reflexivity]. apply (db_path [] x61 [x2e; xc3; xa9] 0 0); [split; [discriminate|cbn; intuition discriminate]|discriminate]. Qed.
  Notation name p f := (eval_name (posix utf8) (parse_fnmatch p false) f).
  Example names : name [x62] root = true /\ name [x3f] root = true /\ name [x2e; x3f] inner = true /\ name [x2e; x3f; x3f] inner = false /\ name [x5b; x61; x62; x5d] root = true.
  Proof. vm_compute. auto. Qed.
  Example escapes : name [x5c; x62] root = true /\ name [x62; x5c] root = false /\ name [x62; x5c; x5c] root = false.
  Proof. vm_compute. auto. Qed.
  Example link : eval_lname (posix utf8) 66 (parse_fnmatch [x61; x2a; x61] false) inner = Some true.
  Proof. vm_compute. reflexivity. Qed.
  Example hidden : eval_hidden inner = true /\ eval_hidden root = false.
  Proof. vm_compute. auto. Qed.
  (** With a special character, -iname does look at the letters. *)
  Example folded : eval_name (posix utf8) (parse_fnmatch [x2a; xc3; x89] true) inner = true.
  Proof. vm_compute. reflexivity. Qed.
End Examples.
