(** * -perm: properties *)
From Coq Require Import List ZArith NArith Arith Bool.
From Coq Require Import Init.Byte Strings.Byte.
From Verif Require Import NumModel NumSpec PermModel PermSpec PermProofs.
Import ListNotations.

(** ** C25: modes *)

(** A number is read in octal, and is the mode of files and directories. *)
Theorem C25_octal : forall isspace umask s r, sane isspace -> is_digit s = true ->
  parse_mode isspace umask s = Some (Some r) <-> exists n, octal s n /\ r = (n, n).
Proof. exact octal_modes. Qed.
Print Assumptions C25_octal.

(** Other strings are accepted exactly if they have the syntax of chmod, and parsing ends. *)
Theorem C25_accepts : forall isspace umask s, ~ In x00 s -> is_digit s = false ->
  (exists r, parse_mode isspace umask s = Some (Some r)) <-> exists l, well_formed l /\ s = mode_text l.
Proof. exact symbolic. Qed.
Print Assumptions C25_accepts.
Theorem C25_total : forall isspace umask s, parse_mode isspace umask s <> None.
Proof. exact total. Qed.
Print Assumptions C25_total.

(** They denote the modes that chmod gives a file and a directory without permissions.
    Partial: the text is not like "=r+w" under a umask, and does not use "=" on special bits
    that it has set; see the theorems below. *)
Theorem C25_modes_partial : forall isspace umask l, well_formed l ->
  umask_ok (bits_of umask) l -> equals_ok false (bits_of umask) l no_bits -> equals_ok true (bits_of umask) l no_bits ->
  parse_mode isspace umask (mode_text l) =
  Some (Some (number (chmod false (bits_of umask) l no_bits), number (chmod true (bits_of umask) l no_bits))).
Proof. exact modes. Qed.
Print Assumptions C25_modes_partial.

(** -perm has the prefix that it should, and compares the bits of the mode. *)
Theorem C25_perm : forall isspace umask s, sane isspace ->
  (forall cmp f d, parse_perm isspace umask s = Some (Some (cmp, f, d)) <->
     exists t, asks s cmp t /\ parse_mode isspace umask t = Some (Some (f, d))) /\
  (forall cmp f d, parse_perm isspace umask s = Some (Some (cmp, f, d)) ->
     forall dir mode, eval_perm cmp f d dir mode = true <-> granted cmp (bits_of (if dir then d else f)) (bits_of mode)).
Proof. exact perm_ok. Qed.
Print Assumptions C25_perm.

(** F14: without letters, only the first action respects the umask. *)
Theorem C25_umask_refuted : exists umask l, well_formed l /\
  equals_ok false (bits_of umask) l no_bits /\ equals_ok true (bits_of umask) l no_bits /\
  forall isspace, parse_mode isspace umask (mode_text l) <>
  Some (Some (number (chmod false (bits_of umask) l no_bits), number (chmod true (bits_of umask) l no_bits))).
Proof.
  exists 18%N, [([], [(Equals, Perms [Sr]); (Plus, Perms [Sw])])].
  split; [split; [discriminate|constructor; [discriminate|constructor]]|].
  split; [|split]; [cbn; repeat split; intros; reflexivity || discriminate..|].
  intros isspace. vm_compute. discriminate.
Qed.
Print Assumptions C25_umask_refuted.

(** F15: = leaves the special bits of the chosen classes alone. *)
Theorem C25_equals_refuted : exists umask l, well_formed l /\ umask_ok (bits_of umask) l /\
  forall isspace, parse_mode isspace umask (mode_text l) <>
  Some (Some (number (chmod false (bits_of umask) l no_bits), number (chmod true (bits_of umask) l no_bits))).
Proof.
  exists 0%N, [([Only User], [(Plus, Perms [Ss])]); ([Only User], [(Equals, Perms [Sr])])].
  split; [split; [discriminate|constructor; [discriminate|constructor; [discriminate|constructor]]]|].
  split; [left; intros b _; unfold bits_of; apply N.bits_0|].
  intros isspace. vm_compute. discriminate.
Qed.
Print Assumptions C25_equals_refuted.

Module Examples.
  Definition spaces (c : byte) : bool := match c with " "%byte => true | _ => false end.
  Example spaces_sane : sane spaces.
  Proof. intros c H. destruct c; discriminate H || (split; [discriminate|split; [discriminate|]]). unfold is_digit_of. cbn. intros []. now apply Z.leb_le in H0. Qed.

  (** u=rwX,go=u-w,+t under umask 022 *)
  Definition text : list byte := ["u"; "="; "r"; "w"; "X"; ","; "g"; "o"; "="; "u"; "-"; "w"; ","; "+"; "t"]%byte.
  Definition tree : list clause :=
    [([Only User], [(Equals, Perms [Sr; Sw; SX])]);
     ([Only Group; Only Other], [(Equals, Copy User); (Minus, Perms [Sw])]);
     ([], [(Plus, Perms [St])])].
  Example tree_text : mode_text tree = text.
  Proof. reflexivity. Qed.
  Example tree_formed : well_formed tree.
  Proof. split; [discriminate|repeat (constructor; [discriminate|])]. constructor. Qed.
  Example tree_umask : umask_ok (bits_of 18) tree.
  Proof. right. repeat (constructor; [cbn; discriminate || auto|]). constructor. Qed.
  Example tree_equals : equals_ok false (bits_of 18) tree no_bits /\ equals_ok true (bits_of 18) tree no_bits.
  Proof. split; cbn; repeat split; intros; try discriminate; try reflexivity; destruct b; discriminate || reflexivity. Qed.
  (** 01644 for files, 01755 for directories *)
  Example tree_modes : number (chmod false (bits_of 18) tree no_bits) = 932%N /\ number (chmod true (bits_of 18) tree no_bits) = 1005%N.
  Proof. vm_compute. auto. Qed.
  Example tree_parsed : parse_mode spaces 18 text = Some (Some (932, 1005)%N).
  Proof. vm_compute. reflexivity. Qed.

  Example octal_644 : octal ["6"; "4"; "4"]%byte 420.
  Proof. split; [discriminate|]. split; [repeat constructor; discriminate|]. split; [reflexivity|discriminate]. Qed.
  Example octal_bad : parse_mode spaces 18 ["6"; "8"]%byte = Some None /\ parse_mode spaces 18 ["1"; "0"; "0"; "0"; "0"]%byte = Some None.
  Proof. vm_compute. auto. Qed.
  Example text_bad : parse_mode spaces 18 ["u"; "r"]%byte = Some None /\ parse_mode spaces 18 ["u"; "="; "g"; "o"]%byte = Some None.
  Proof. vm_compute. auto. Qed.

  Example perm_all : parse_perm spaces 18 ["-"; "u"; "+"; "w"]%byte = Some (Some (BFS_MODE_ALL, 128, 128)%N) /\
    eval_perm BFS_MODE_ALL 128 128 false 420 = true.
  Proof. vm_compute. auto. Qed.
  Example perm_any : parse_perm spaces 18 ["+"; "2"; "2"]%byte = Some (Some (BFS_MODE_ANY, 18, 18)%N) /\
    eval_perm BFS_MODE_ANY 18 18 false 420 = false.
  Proof. vm_compute. auto. Qed.
  Example perm_plus : parse_perm spaces 18 ["+"; "w"]%byte = Some (Some (BFS_MODE_EQUAL, 128, 128)%N).
  Proof. vm_compute. reflexivity. Qed.
End Examples.
