(** Property theorems for timestamps: C20. *)
From Coq Require Import ZArith Lia.
From Verif Require Import TsModel TsSpec TsProofs.
Local Open Scope Z_scope.

(** C20: when the seconds do not overflow, the sum (difference) is the normalised
    timestamp of the sum (difference) of the instants; otherwise the behaviour is
    undefined. *)
Theorem C20_add : forall a b c, normal a -> normal b ->
  timespec_add a b = Some c <->
  normal c /\ instant c = instant a + instant b /\ - 2 ^ 63 <= tv_sec a + tv_sec b < 2 ^ 63.
Proof.
  exact add_ok.
Qed.
Print Assumptions C20_add.

Theorem C20_sub : forall a b c, normal a -> normal b ->
  timespec_sub a b = Some c <->
  normal c /\ instant c = instant a - instant b /\ - 2 ^ 63 <= tv_sec a - tv_sec b < 2 ^ 63.
Proof.
  exact sub_ok.
Qed.
Print Assumptions C20_sub.

(** C20: timestamps compare as their instants do. *)
Theorem C20_cmp : forall a b, normal a -> normal b ->
  (timespec_cmp a b < 0 <-> instant a < instant b) /\
  (timespec_cmp a b = 0 <-> instant a = instant b) /\
  (timespec_cmp a b > 0 <-> instant a > instant b).
Proof.
  exact cmp_ok.
Qed.
Print Assumptions C20_cmp.

(** C20: minimum and maximum are one of the arguments, and the right one. *)
Theorem C20_min : forall dest src, normal dest -> normal src ->
  (timespec_min dest src = dest \/ timespec_min dest src = src) /\
  instant (timespec_min dest src) = Z.min (instant dest) (instant src).
Proof.
  exact min_ok.
Qed.
Print Assumptions C20_min.

Theorem C20_max : forall dest src, normal dest -> normal src ->
  (timespec_max dest src = dest \/ timespec_max dest src = src) /\
  instant (timespec_max dest src) = Z.max (instant dest) (instant src).
Proof.
  exact max_ok.
Qed.
Print Assumptions C20_max.

Module Examples.
  Definition a := mkTs 1600000000 700000000.
  Definition b := mkTs (-5) 900000000.
  Example normal_a : normal a. Proof. unfold normal, a; cbn; lia. Qed.
  Example normal_b : normal b. Proof. unfold normal, b; cbn; lia. Qed.
  Example sum : timespec_add a b = Some (mkTs 1599999996 600000000). Proof. reflexivity. Qed.
  Example difference : timespec_sub a b = Some (mkTs 1600000004 800000000). Proof. reflexivity. Qed.
  Example overflow : timespec_add (mkTs (2 ^ 63 - 1) 999999999) (mkTs 0 1) = None. Proof. reflexivity. Qed.
End Examples.
