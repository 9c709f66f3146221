(** * What the bit operations mean *)
From Coq Require Import List NArith Bool.
Local Open Scope N_scope.

(** The number of bits [i < width] for which [p i] *)
Definition number (width : N) (p : N -> bool) : N :=
  N.of_nat (length (filter p (map N.of_nat (seq 0 (N.to_nat width))))).

(** [r] bits from the top (bottom) are [b], and no more. *)
Definition leading (width : N) (b : bool) (n r : N) : Prop :=
  r <= width /\ (forall i, i < r -> N.testbit n (width - 1 - i) = b) /\
  (r < width -> N.testbit n (width - 1 - r) = negb b).
Definition trailing (width : N) (b : bool) (n r : N) : Prop :=
  r <= width /\ (forall i, i < r -> N.testbit n i = b) /\
  (r < width -> N.testbit n r = negb b).

(** The position, from 1, of the first [b], or 0 *)
Definition first_from_top (width : N) (b : bool) (n r : N) : Prop :=
  (r = 0 /\ forall i, i < width -> N.testbit n i = negb b) \/
  (1 <= r <= width /\ N.testbit n (width - r) = b /\
   forall i, width - r < i < width -> N.testbit n i = negb b).
Definition first_from_bottom (width : N) (b : bool) (n r : N) : Prop :=
  (r = 0 /\ forall i, i < width -> N.testbit n i = negb b) \/
  (1 <= r <= width /\ N.testbit n (r - 1) = b /\ forall i, i < r - 1 -> N.testbit n i = negb b).
