(** Property theorems for the bit operations: C37. *)
From Coq Require Import NArith Bool.
From Verif Require Import BitModel BitSpec BitProofs.
Local Open Scope N_scope.

(** C37: population counts *)
Theorem C37_count_ones : forall w n, n < 2 ^ w -> count_ones w n = Some (number w (N.testbit n)).
Proof.
  exact count_ones_number.
Qed.
Print Assumptions C37_count_ones.

Theorem C37_count_zeros : forall w n, n < 2 ^ w ->
  count_zeros w n = Some (number w (fun i => negb (N.testbit n i))).
Proof.
  exact count_zeros_number.
Qed.
Print Assumptions C37_count_zeros.

(** C37: runs of equal bits at either end *)
Theorem C37_leading_zeros : forall w n, exists r, leading_zeros w n = Some r /\ leading w false n r.
Proof.
  exact leading_zeros_ok.
Qed.
Print Assumptions C37_leading_zeros.

Theorem C37_trailing_zeros : forall w n, 0 < w ->
  exists r, trailing_zeros w n = Some r /\ trailing w false n r.
Proof.
  exact trailing_zeros_ok.
Qed.
Print Assumptions C37_trailing_zeros.

Theorem C37_leading_ones : forall w n, n < 2 ^ w ->
  exists r, leading_ones w n = Some r /\ leading w true n r.
Proof.
  exact leading_ones_ok.
Qed.
Print Assumptions C37_leading_ones.

Theorem C37_trailing_ones : forall w n, 0 < w -> n < 2 ^ w ->
  exists r, trailing_ones w n = Some r /\ trailing w true n r.
Proof.
  exact trailing_ones_ok.
Qed.
Print Assumptions C37_trailing_ones.

(** C37: positions of the first bit *)
Theorem C37_first_leading_one : forall w n, n < 2 ^ w -> first_from_top w true n (first_leading_one w n).
Proof.
  exact first_leading_one_ok.
Qed.
Print Assumptions C37_first_leading_one.

Theorem C37_first_trailing_one : forall w n, 0 < w -> n < 2 ^ w ->
  first_from_bottom w true n (first_trailing_one w n).
Proof.
  exact first_trailing_one_ok.
Qed.
Print Assumptions C37_first_trailing_one.

Theorem C37_first_leading_zero : forall w n, n < 2 ^ w -> first_from_top w false n (first_leading_zero w n).
Proof.
  exact first_leading_zero_ok.
Qed.
Print Assumptions C37_first_leading_zero.

Theorem C37_first_trailing_zero : forall w n, 0 < w -> n < 2 ^ w ->
  first_from_bottom w false n (first_trailing_zero w n).
Proof.
  exact first_trailing_zero_ok.
Qed.
Print Assumptions C37_first_trailing_zero.

(** C37: the least number of bits that can hold the word *)
Theorem C37_bit_width : forall w n, n < 2 ^ w ->
  n < 2 ^ bit_width w n /\ (0 < n -> 0 < bit_width w n <= w /\ 2 ^ (bit_width w n - 1) <= n).
Proof.
  exact bit_width_ok.
Qed.
Print Assumptions C37_bit_width.

Theorem C37_bit_width_0 : forall w, bit_width w 0 = 0.
Proof.
  exact bit_width_0.
Qed.
Print Assumptions C37_bit_width_0.

(** C37: the greatest power of two that is not above, and the least that is not
    below.  The latter must fit the word. *)
Theorem C37_bit_floor : forall w n, 0 < n -> n < 2 ^ w ->
  exists k, bit_floor w n = 2 ^ k /\ 2 ^ k <= n < 2 ^ (k + 1).
Proof.
  exact bit_floor_ok.
Qed.
Print Assumptions C37_bit_floor.

Theorem C37_bit_ceil : forall w n, 0 < w -> n <= 2 ^ (w - 1) ->
  exists k, bit_ceil w n = 2 ^ k /\ n <= 2 ^ k /\ (forall j, n <= 2 ^ j -> k <= j).
Proof.
  exact bit_ceil_ok.
Qed.
Print Assumptions C37_bit_ceil.

(** C37: powers of two *)
Theorem C37_has_single_bit : forall w n, n < 2 ^ w -> has_single_bit w n = true <-> exists k, n = 2 ^ k.
Proof.
  exact has_single_bit_ok.
Qed.
Print Assumptions C37_has_single_bit.

(** C37: rotations *)
Theorem C37_rotate_left : forall w n c i, n < 2 ^ w -> c < w -> i < w ->
  N.testbit (rotate_left w n c) i = N.testbit n ((i + w - c) mod w).
Proof.
  exact rotate_left_ok.
Qed.
Print Assumptions C37_rotate_left.

Theorem C37_rotate_right : forall w n c i, n < 2 ^ w -> c < w -> i < w ->
  N.testbit (rotate_right w n c) i = N.testbit n ((i + c) mod w).
Proof.
  exact rotate_right_ok.
Qed.
Print Assumptions C37_rotate_right.

Theorem C37_rotate_word : forall w n c, rotate_left w n c < 2 ^ w /\ rotate_right w n c < 2 ^ w.
Proof.
  exact rotate_lt.
Qed.
Print Assumptions C37_rotate_word.

Module Examples.
  Definition n : N := 0x00f00010.
  Example word : n < 2 ^ 32. Proof. reflexivity. Qed.
  Example counts : (count_ones 32 n, leading_zeros 32 n, trailing_zeros 32 n) = (Some 5, Some 8, Some 4).
  Proof. reflexivity. Qed.
  Example widths : (bit_width 32 n, bit_floor 32 n, bit_ceil 32 n) = (24, 0x800000, 0x1000000).
  Proof. reflexivity. Qed.
  Example ceil_fits : n <= 2 ^ (32 - 1). Proof. discriminate. Qed.
  Example rotated : (rotate_left 32 n 12, rotate_right 32 n 12) = (0x0001000f, 0x01000f00).
  Proof. reflexivity. Qed.
End Examples.
