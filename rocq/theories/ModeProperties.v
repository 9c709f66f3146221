(** Property theorems for mode strings: C40. *)
From Coq Require Import String List NArith.
From Coq Require Import Init.Byte Strings.Byte.
From Verif Require Import ModeModel ModeSpec ModeProofs.
Import ListNotations.
Local Open Scope N_scope.

(** C40: read as ls(1) prescribes, the string gives back type and permissions. *)
Theorem C40_read_back : forall mode, known_type mode = true ->
  read_mode (xstrmode mode) = Some (N.land mode 0xffff).
Proof.
  exact read_back.
Qed.
Print Assumptions C40_read_back.

(** C40: different types or permissions have different strings. *)
Theorem C40_injective : forall m1 m2, known_type m1 = true -> known_type m2 = true ->
  xstrmode m1 = xstrmode m2 -> N.land m1 0xffff = N.land m2 0xffff.
Proof.
  exact mode_injective.
Qed.
Print Assumptions C40_injective.

(** C40: for any other type the string begins with a question mark, and the rest
    still gives the permissions. *)
Theorem C40_unknown_type : forall mode, known_type mode = false ->
  exists s, xstrmode mode = "?"%byte :: s /\ read_mode ("-"%byte :: s) = Some (0x8000 + N.land mode 0xfff).
Proof.
  exact unknown_type.
Qed.
Print Assumptions C40_unknown_type.

Module Examples.
  (** drwxr-sr-T: octal 043754 without the x for others *)
  Definition m : N := 0x4000 + 512 + 1024 + 448 + 40 + 4.
  Example known : known_type m = true. Proof. reflexivity. Qed.
  Example text : xstrmode m = list_byte_of_string "drwxr-sr-T". Proof. reflexivity. Qed.
  Example unknown : known_type 0x7000 = false. Proof. reflexivity. Qed.
End Examples.
