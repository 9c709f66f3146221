(** * The instant a timestamp denotes *)
From Coq Require Import ZArith.
From Verif Require Import TsModel.
Local Open Scope Z_scope.

(** Nanoseconds since the epoch *)
Definition instant (t : timespec) : Z := tv_sec t * 1000000000 + tv_nsec t.

(** A timestamp as the system produces it: the fraction is in range, and the
    seconds fit [time_t]. *)
Definition normal (t : timespec) : Prop :=
  - 2 ^ 63 <= tv_sec t < 2 ^ 63 /\ 0 <= tv_nsec t < 1000000000.
