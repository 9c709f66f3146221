(** Property theorems for src/typo.c: C21. *)
From Coq Require Import List ZArith.
From Coq Require Import Init.Byte Strings.Byte.
From Verif Require Import TypoModel TypoSpec TypoProofs.
Import ListNotations.
Local Open Scope Z_scope.

(** C21: for strings short enough for int, the distance is the least cost of
    all sequences of edits. *)
Theorem C21_typo_distance : forall a e,
  12 * Z.of_nat (length a) + 12 * Z.of_nat (length e) + 53 < 2 ^ 31 ->
  exists d, typo_distance a e = Some d /\ edit_distance a e d.
Proof.
  exact typo_distance_spec.
Qed.
Print Assumptions C21_typo_distance.

(** C21: symmetry *)
Theorem C21_typo_symmetric : forall a e,
  12 * Z.of_nat (length a) + 12 * Z.of_nat (length e) + 53 < 2 ^ 31 ->
  typo_distance a e = typo_distance e a.
Proof.
  exact typo_sym.
Qed.
Print Assumptions C21_typo_symmetric.

(** C21: zero exactly for equal strings, of characters on the keyboard *)
Theorem C21_typo_zero_partial : forall a e,
  12 * Z.of_nat (length a) + 12 * Z.of_nat (length e) + 53 < 2 ^ 31 ->
  Forall on_keyboard a -> Forall on_keyboard e -> (typo_distance a e = Some 0 <-> a = e).
Proof.
  exact typo_zero.
Qed.
Print Assumptions C21_typo_zero_partial.

(** For other characters this is false: they all share a place. *)
Theorem C21_typo_zero_refuted : exists a e, typo_distance a e = Some 0 /\ a <> e.
Proof.
  exact typo_zero_refuted.
Qed.
Print Assumptions C21_typo_zero_refuted.

Module Examples.
  (* "-nmae" and "-name" *)
  Definition nmae : list byte := [x2d; x6e; x6d; x61; x65].
  Definition name : list byte := [x2d; x6e; x61; x6d; x65].
  Example hypotheses : 12 * Z.of_nat (length nmae) + 12 * Z.of_nat (length name) + 53 < 2 ^ 31 /\
    Forall on_keyboard nmae /\ Forall on_keyboard name.
  Proof. split; [vm_compute; reflexivity|]. split; repeat (apply Forall_cons; [vm_compute; repeat first [left; reflexivity | right]|]); apply Forall_nil. Qed.
  Example distance : typo_distance nmae name = Some 24.
  Proof. vm_compute. reflexivity. Qed.
End Examples.
